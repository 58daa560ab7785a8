(** Sizes of the reader's transport reads, its buffer, and the zero-length
    array. *)
From Verif Require Import Bytes Spec Bytes_proofs Io Io_proofs SpecTrace SpecStream
  Control Control_proofs Rdwr Rdwr_proofs Reader Api SpecApi SpecReader
  Reader_source_proofs Reader_proofs.
Ltac Zify.zify_post_hook ::= Z.div_mod_to_equations.
Local Open Scope N_scope.

Definition read_le (M : N) (e : event) : Prop :=
  match e with
  | (QRead _ n, _) => n <= M
  | _ => True
  end.

Lemma iso_snoc tr q a : iso_preceded tr -> (forall n, q <> QIsoUb n) -> iso_preceded (tr ++ [(q, a)]).
Proof.
  intros I NQ tr1 n1 a1 tr2 E. destruct tr2 as [|e tr2 _] using rev_ind.
  - apply app_inj_tail in E. destruct E as [_ E]. congruence.
  - change (tr1 ++ (QIsoUb n1, a1) :: tr2 ++ [e]) with (tr1 ++ ((QIsoUb n1, a1) :: tr2) ++ [e]) in E.
    rewrite app_assoc in E. apply app_inj_tail in E. destruct E as [E _]. eapply I. exact E.
Qed.
Lemma iso_snoc_iso tr n a h : iso_preceded (tr ++ [(QRead h 4, ARead r_success (be32 0))]) ->
  iso_preceded ((tr ++ [(QRead h 4, ARead r_success (be32 0))]) ++ [(QIsoUb n, a)]).
Proof.
  intros I tr1 n1 a1 tr2 E. destruct tr2 as [|e tr2 _] using rev_ind.
  - apply app_inj_tail in E. destruct E as [<- _]. exists tr, h. reflexivity.
  - change (tr1 ++ (QIsoUb n1, a1) :: tr2 ++ [e]) with (tr1 ++ ((QIsoUb n1, a1) :: tr2) ++ [e]) in E.
    rewrite app_assoc in E. apply app_inj_tail in E. destruct E as [E _]. eapply I. exact E.
Qed.

Section Sizes.
Variable max : N.
Let M := N.max 512 max.
Definition good (h : trace) : Prop := Forall (read_le M) h /\ iso_preceded h.
Definition szp {A} (p : io A) (I : A -> Prop) : Prop := forall h, good h ->
  wp p (fun h' o => good h' /\ match o with Done a => I a | _ => True end) h.

Lemma szp_ret {A} (a : A) (I : A -> Prop) : I a -> szp (Ret a) I.
Proof. intros H h G. cbn. auto. Qed.
Lemma szp_fail {A} f (I : A -> Prop) : szp (Fail f) I.
Proof. intros h G. cbn. auto. Qed.
Lemma szp_bind {A B} (p : io A) (k : A -> io B) I J : szp p I -> (forall a, I a -> szp (k a) J) -> szp (bind p k) J.
Proof.
  intros P K h G. apply wp_bind_i. eapply wp_mono; [|apply P; exact G].
  intros h' [a|f|] [G' H]; cbn; auto. apply K; assumption.
Qed.
Lemma good_snoc h q a : good h -> (forall n, q <> QIsoUb n) -> read_le M (q, a) -> good (h ++ [(q, a)]).
Proof. intros [G1 G2] NQ R. split; [apply Forall_app; auto|apply iso_snoc; assumption]. Qed.
Lemma szp_vis {A} q (k : ans -> io A) I : (forall n, q <> QIsoUb n) -> (forall a, read_le M (q, a)) -> (forall a, ans_ok q a -> szp (k a) I) -> szp (Vis q k) I.
Proof. intros NQ R K h G. cbn. split; [auto|]. intros a Ha. apply K; [assumption|]. apply good_snoc; auto. Qed.
Lemma szp_mono {A} (p : io A) (I J : A -> Prop) : (forall a, I a -> J a) -> szp p I -> szp p J.
Proof. intros H P h G. eapply wp_mono; [|apply P; exact G]. intros h' [a| |] [G' X]; auto. Qed.
Lemma szp_if {A} (b : bool) (p q : io A) I : szp p I -> szp q I -> szp (if b then p else q) I.
Proof. destruct b; auto. Qed.

Lemma szp_rdclose rw : szp (rdwr_close rw) (fun _ => True).
Proof.
  unfold rdwr_close. repeat apply szp_if; try (apply szp_ret; exact I).
  apply szp_bind with (I := fun _ => True); [|intros; apply szp_ret; exact I].
  apply szp_vis; [discriminate|intros; exact I|]. intros [] ?; try apply szp_fail; apply szp_ret; exact I.
Qed.
Lemma szp_rdopen rw : szp (rdwr_open rw) (fun _ => True).
Proof.
  unfold rdwr_open. apply szp_if; [apply szp_ret; exact I|].
  apply szp_bind with (I := fun _ => True); [|intros; apply szp_if; apply szp_ret; exact I].
  apply szp_vis; [discriminate|intros; exact I|]. intros [] ?; try apply szp_fail; apply szp_ret; exact I.
Qed.
Lemma szp_rdwrite rw iov : szp (rdwr_write rw iov) (fun _ => True).
Proof.
  unfold rdwr_write. repeat apply szp_if; try (apply szp_ret; exact I).
  apply szp_bind with (I := fun _ => True).
  - apply szp_vis; [discriminate|intros; exact I|]. intros [] ?; try apply szp_fail; apply szp_ret; exact I.
  - intros x _. apply szp_if; [|apply szp_ret; exact I].
    apply szp_bind with (I := fun _ => True); [apply szp_rdclose|]. intros [? ?] _. apply szp_ret; exact I.
Qed.
Lemma szp_rdread rw n : n <= M -> szp (rdwr_read rw n) (fun _ => True).
Proof.
  intro L. unfold rdwr_read. repeat apply szp_if; try (apply szp_ret; exact I).
  apply szp_bind with (I := fun _ => True).
  - apply szp_vis; [discriminate|intros; exact L|]. intros [] ?; try apply szp_fail; apply szp_ret; exact I.
  - intros [x bs] _. apply szp_if; [|apply szp_ret; exact I].
    apply szp_bind with (I := fun _ => True); [apply szp_rdclose|]. intros [? ?] _. apply szp_ret; exact I.
Qed.
Lemma szp_rddestroy rw : szp (rdwr_destroy rw) (fun _ => True).
Proof.
  unfold rdwr_destroy. apply szp_if; [|apply szp_ret; exact I].
  apply szp_vis; [discriminate|intros; exact I|]. intros [] ?; try apply szp_fail; apply szp_ret; exact I.
Qed.

Lemma M_512 : 512 <= M.
Proof. unfold M. lia. Qed.

(** After a successful 4-byte read the last event is that read. *)
Lemma wp_read4 rw h : good h ->
  wp (rdwr_read rw 4) (fun h' o => good h' /\ match o with
     | Done (x, b, rw') => x = r_success -> exists h0, h' = h0 ++ [(QRead (rw_h rw) 4, ARead r_success b)] /\ lenN b = 4
     | _ => True end) h.
Proof.
  intro G. unfold rdwr_read. destruct (rw_opened rw); cbn [negb]; [|cbn; split; [assumption|discriminate]].
  destruct (rw_has_read rw); cbn [negb]; [|cbn; split; [assumption|discriminate]].
  apply wp_bind_i. cbn [ask_read wp]. split; [cbn; auto|].
  intros [| x bs | | | |] Ha; cbn in Ha; try contradiction. cbn [wp bind_post].
  assert (G1 : good (h ++ [(QRead (rw_h rw) 4, ARead x bs)])) by (apply good_snoc; [assumption|discriminate|cbn; pose proof M_512; lia]).
  destruct (res_eqb x r_success) eqn:E; cbn [negb].
  - cbn [wp]. split; [assumption|]. intros ->. exists h. split; [reflexivity|]. apply Ha. reflexivity.
  - apply wp_bind_i. eapply wp_mono; [|apply szp_rdclose; exact G1].
    intros h' [[y rw']| |] [G' _]; cbn; auto. split; [assumption|]. intros ->. discriminate.
Qed.

Lemma szp_tail rw c : szp (read_control_frame_tail rw c) (fun _ => True).
Proof.
  intros h G. unfold read_control_frame_tail. apply wp_bind_i. eapply wp_mono; [|apply wp_read4; exact G].
  intros h' [[[x b] rw']| |] [G' H]; cbn [bind_post]; auto.
  destruct (res_eqb x r_success) eqn:E; cbn [negb]; [|cbn; auto]. apply res_eqb_true in E. subst x.
  destruct (H eq_refl) as (h0 & -> & L). clear H. cbv zeta.
  destruct (FSTRM_CONTROL_FRAME_LENGTH_MAX <? ntohl_bytes b) eqn:EL; [cbn; auto|].
  assert (REST : szp (bind (rdwr_read rw' (ntohl_bytes b)) (fun z => match z with (r, frame, rw) =>
      if negb (res_eqb r r_success) then Ret (r, None, c, rw)
      else bind (lift (control_decode c frame (ntohl_bytes b) 0)) (fun z => match z with (r, c') =>
        if negb (res_eqb r r_success) then Ret (r, None, c', rw)
        else
          match control_get_type c' with
          | (r_success, t) => Ret (r_success, t, c', rw)
          | (r, t) => Ret (r, t, c', rw)
          end end) end)) (fun _ => True)).
  { apply szp_bind with (I := fun _ => True); [apply szp_rdread; pose proof M_512; unfold FSTRM_CONTROL_FRAME_LENGTH_MAX in EL; lia|].
    intros [[y fr] rw2] _. apply szp_if; [apply szp_ret; exact I|].
    apply szp_bind with (I := fun _ => True).
    - unfold lift. destruct (control_decode c fr (ntohl_bytes b) 0); [apply szp_ret|apply szp_fail]; exact I.
    - intros [z c'] _. apply szp_if; [apply szp_ret; exact I|].
      destruct (control_get_type c') as [[] ?]; apply szp_ret; exact I. }
  apply wp_bind_i. destruct (ntohl_bytes b =? 0) eqn:E0.
  - assert (EB : b = be32 0).
    { rewrite <- (firstn_all b). assert (L4 : length b = 4%nat) by (unfold lenN in L; lia). rewrite L4.
      rewrite <- be32_ntohl by lia. f_equal. lia. }
    cbn [ask_unit wp bind_post]. split; [cbn; auto|]. intros [] Ha; cbn in Ha; try contradiction. cbn [wp bind_post].
    apply REST. destruct G' as [G1 G2]. split; [apply Forall_app; split; [assumption|repeat constructor]|].
    subst b. apply iso_snoc_iso. assumption.
  - cbn [wp bind_post]. apply REST. assumption.
Qed.

Lemma szp_rcf rw c b : szp (read_control_frame rw c b) (fun _ => True).
Proof.
  unfold read_control_frame. apply szp_if; [|apply szp_tail].
  apply szp_bind with (I := fun _ => True); [apply szp_rdread; pose proof M_512; lia|].
  intros [[x bs] rw'] _. apply szp_if; [apply szp_ret; exact I|]. apply szp_if; [apply szp_ret; exact I|]. apply szp_tail.
Qed.
Lemma szp_rc rw oc t : szp (read_control rw oc t) (fun _ => True).
Proof.
  unfold read_control. cbv zeta. apply szp_bind with (I := fun _ => True); [apply szp_rcf|].
  intros [[[x ot] c] rw'] _. apply szp_if; [apply szp_ret; exact I|]. destruct ot; [|apply szp_fail].
  apply szp_if; apply szp_ret; exact I.
Qed.
Lemma szp_wcf rw c : szp (write_control_frame rw c) (fun _ => True).
Proof. rewrite write_control_frame_eq. apply szp_if; [apply szp_rdwrite|apply szp_ret; exact I]. Qed.

(** The reader's limits. *)
Definition lim (r : reader) : Prop := r_max r = max /\ 1 <= r_alloc r /\ r_alloc r <= N.max 512 (2 * max).

Lemma reserve_bound fuel : forall a n a', reserve_loop fuel a n = Some a' -> 1 <= a ->
  n <= a' /\ a <= a' /\ (a' = a \/ a' < 2 * n).
Proof.
  induction fuel as [|fuel IH]; intros a n a' E L; cbn in E.
  - destruct (a <? n) eqn:C; [discriminate|]. injection E as <-. lia.
  - destruct (a <? n) eqn:C; [|injection E as <-; lia]. apply IH in E; [|lia]. lia.
Qed.

Definition snd_lim {A} (z : A * reader) : Prop := lim (snd z).

Lemma szp_open_uni r : lim r -> szp (reader_open_unidirectional r) snd_lim.
Proof.
  intro L. unfold reader_open_unidirectional. apply szp_bind with (I := fun _ => True); [apply szp_rc|].
  intros [[x c] rw] _. cbv zeta. apply szp_if; [apply szp_ret; exact L|]. destruct c; [|apply szp_fail].
  apply szp_if; apply szp_ret; exact L.
Qed.
Lemma szp_open r : lim r -> szp (reader_open r) snd_lim.
Proof.
  intro L. unfold reader_open.
  assert (G : szp (bind (rdwr_open (r_rdwr r)) (fun z => match z with (x, rw) =>
      let r := set_rrdwr r rw in
      if negb (res_eqb x r_success) then Ret (x, r)
      else bind (if rw_has_write (r_rdwr r) then reader_open_bidirectional r
                     else reader_open_unidirectional r) (fun z => match z with (x, r) =>
        if negb (res_eqb x r_success) then Ret (x, r)
        else Ret (r_success, set_rstate r rs_opened) end) end)) snd_lim).
  { apply szp_bind with (I := fun _ => True); [apply szp_rdopen|]. intros [x rw] _. cbv zeta.
    apply szp_if; [apply szp_ret; exact L|]. apply szp_bind with (I := snd_lim).
    - apply szp_if; [|apply szp_open_uni; exact L]. unfold reader_open_bidirectional.
      apply szp_bind with (I := fun _ => True); [apply szp_rc|]. intros [[y c] rw2] _. cbv zeta.
      apply szp_if; [apply szp_ret; exact L|]. destruct c; [|apply szp_fail].
      destruct (control_set_type _ _) as [[] acc]; try (apply szp_ret; exact L).
      apply szp_bind with (I := fun _ => True); [apply szp_wcf|]. intros [z rw3] _. cbv zeta.
      apply szp_if; [apply szp_ret; exact L|]. apply szp_open_uni. exact L.
    - intros [y r2] L2. apply szp_if; apply szp_ret; exact L2. }
  destruct (r_state r); try exact G. apply szp_ret. exact L.
Qed.
Lemma szp_next fuel : forall r, lim r -> szp (reader_next_data fuel r) snd_lim.
Proof.
  induction fuel as [|fuel IH]; intros r L; cbn [reader_next_data]; [apply szp_fail|].
  apply szp_bind with (I := fun z => snd_lim z).
  - unfold reader_read_be32. apply szp_bind with (I := fun _ => True); [apply szp_rdread; pose proof M_512; lia|].
    intros [[x b] rw] _. apply szp_ret. exact L.
  - intros [[x len] r1] L1. unfold snd_lim in L1. cbn [snd] in L1. apply szp_if; [apply szp_ret; exact L1|]. apply szp_if.
    + destruct (r_max r1 <? len) eqn:EM; [apply szp_ret; exact L1|].
      destruct (reserve_loop 64 (r_alloc r1) len) as [alloc|] eqn:ER; [|apply szp_fail]. cbv zeta.
      destruct L1 as (L1 & L2 & L3).
      destruct (reserve_bound _ _ _ _ ER L2) as (B1 & B2 & B3).
      apply szp_if; [apply szp_fail|]. apply szp_bind with (I := fun _ => True); [apply szp_rdread; unfold M; lia|].
      intros [[y d] rw] _. apply szp_if; apply szp_ret; unfold snd_lim, lim; cbn [snd set_rstate set_rrdwr set_ralloc r_max r_alloc]; repeat split; lia.
    + cbv zeta. apply szp_bind with (I := fun _ => True); [apply szp_rcf|].
      intros [[[y t] c] rw] _. apply szp_if; [apply szp_ret; exact L1|]. destruct t; [|apply szp_fail].
      apply szp_if; [apply szp_ret; exact L1|]. apply IH. exact L1.
Qed.
Lemma szp_maybe r : lim r -> szp (reader_maybe_open r) snd_lim.
Proof.
  intro L. unfold reader_maybe_open. destruct (r_state r); try (apply szp_ret; exact L).
  apply szp_bind with (I := snd_lim); [apply szp_open; exact L|]. intros [x r1] L1. apply szp_if; apply szp_ret; exact L1.
Qed.
Lemma szp_rclose r : lim r -> szp (reader_close r) snd_lim.
Proof.
  intro L. unfold reader_close. destruct (r_state r); try (apply szp_ret; exact L); cbv zeta; apply szp_if.
  1,3: rewrite write_finish_eq; apply szp_bind with (I := fun _ => True); [apply szp_rdwrite|]; intros [x rw] _; apply szp_if;
      (apply szp_bind with (I := fun _ => True); [apply szp_rdclose|]); intros [? ?] _; apply szp_ret; exact L.
  all: apply szp_bind with (I := fun _ => True); [apply szp_rdclose|]; intros [? ?] _; apply szp_ret; exact L.
Qed.
Lemma szp_rcall fuel r c : lim r -> szp (do_rcall fuel r c) snd_lim.
Proof.
  intro L. destruct c; cbn [do_rcall].
  - apply szp_bind with (I := snd_lim); [apply szp_open; exact L|]. intros [x r1] L1. apply szp_ret. exact L1.
  - unfold reader_read. apply szp_bind with (I := snd_lim); [apply szp_maybe; exact L|]. intros [x r1] L1.
    apply szp_if; [apply szp_ret; exact L1|]. destruct (r_state r1); try (apply szp_ret; exact L1). apply szp_next. exact L1.
  - apply szp_bind with (I := snd_lim); [apply szp_rclose; exact L|]. intros [x r1] L1. apply szp_ret. exact L1.
  - unfold reader_get_control. apply szp_bind with (I := snd_lim).
    + apply szp_bind with (I := snd_lim); [apply szp_maybe; exact L|]. intros [x r1] L1.
      repeat apply szp_if; apply szp_ret; exact L1.
    + intros [[x oc] r1] L1. apply szp_ret. exact L1.
Qed.
Lemma szp_rcalls fuel cs : forall r, lim r -> szp (do_rcalls fuel r cs) snd_lim.
Proof.
  induction cs as [|c cs IH]; intros r L; cbn [do_rcalls]; [apply szp_ret; exact L|].
  apply szp_bind with (I := snd_lim); [apply szp_rcall; exact L|]. intros [[x d] r1] L1.
  apply szp_bind with (I := snd_lim); [apply IH; exact L1|]. intros [xs r2] L2. apply szp_ret. exact L2.
Qed.
Lemma szp_life fuel r cs : lim r -> szp (reader_life fuel r cs) (fun _ => True).
Proof.
  intro L. unfold reader_life. apply szp_bind with (I := snd_lim); [apply szp_rcalls; exact L|]. intros [xs r1] L1.
  apply szp_bind with (I := fun _ => True); [|intros; apply szp_ret; exact I].
  unfold reader_destroy. apply szp_bind with (I := snd_lim).
  - destruct (r_state r1); try (apply szp_ret; exact L1); apply szp_rclose; exact L1.
  - intros [x r2] _. apply szp_bind with (I := fun _ => True); [apply szp_rddestroy|intros; apply szp_ret; exact I].
Qed.
End Sizes.

Lemma lim_init o rw r : reader_init o rw = Some r -> lim (ro_max o) r.
Proof.
  unfold reader_init. destruct (negb _); [discriminate|]. intros [= <-]. unfold lim. cbn.
  unfold FSTRM_CONTROL_FRAME_LENGTH_MAX. lia.
Qed.

Lemma good_nil max : good max [].
Proof. split; [constructor|]. intros [|? ?] n a tr2 E; discriminate E. Qed.

Lemma reader_reads_bounded o rw r fuel cs tr out h n a :
  reader_init o rw = Some r -> runs (reader_life fuel r cs) tr out -> In (QRead h n, a) tr ->
  n <= N.max 512 (ro_max o).
Proof.
  intros HI R I.
  pose proof (wp_runs _ _ (szp_life (ro_max o) fuel r cs (lim_init o rw r HI) [] (good_nil _)) tr out R) as [[F _] _].
  rewrite Forall_forall in F. apply (F _ I).
Qed.

Lemma reader_alloc_bounded o rw r fuel cs tr xs r' :
  reader_init o rw = Some r -> runs (do_rcalls fuel r cs) tr (Done (xs, r')) ->
  r_alloc r' <= N.max 512 (2 * ro_max o).
Proof.
  intros HI R.
  pose proof (wp_runs _ _ (szp_rcalls (ro_max o) fuel cs r (lim_init o rw r HI) [] (good_nil _)) tr _ R) as [_ (_ & _ & L)]. exact L.
Qed.

Lemma reader_iso o rw r fuel cs tr out :
  reader_init o rw = Some r -> runs (reader_life fuel r cs) tr out -> iso_preceded tr.
Proof.
  intros HI R.
  apply (wp_runs _ _ (szp_life (ro_max o) fuel r cs (lim_init o rw r HI) [] (good_nil _)) tr out R).
Qed.

(** Exact descriptions that complete the partial statements about control
    frames and about payloads read back. *)
From Verif Require Import Bytes Spec Bytes_proofs Io Io_proofs SpecTrace SpecStream SpecControl
  Control Control_proofs Rdwr Rdwr_proofs Reader Writer Api SpecApi SpecReader
  Writer_proofs Writer2_proofs Reader_proofs Reader4_proofs Reader5_proofs.
Ltac Zify.zify_post_hook ::= Z.div_mod_to_equations.
Local Open Scope N_scope.

(** ** Re-encoding a decoded frame *)
Lemma reencode_exactly c0 buf flags c' mem cap :
  control_decode c0 buf (lenN buf) flags = Ok (r_success, c') ->
  cap <= lenN mem -> lenN buf <= cap ->
  control_encode c' mem cap flags =
    if N.odd flags && (CTL_MAX <? lenN buf) then Ok (r_failure, mem, cap)
    else Ok (r_success, buf ++ skipn (length buf) mem, lenN buf).
Proof.
  intros H Hcap Hb. destruct (N.odd flags && (CTL_MAX <? lenN buf)) eqn:E.
  - apply andb_true_iff in E. destruct E as [O L]. apply N.ltb_lt in L.
    apply control_decode_iff in H. destruct H as [K ->].
    rewrite control_encode_eq by assumption.
    assert (X : encodable (N.odd flags) (c_type c') (c_cts c') = false).
    { unfold encodable. rewrite (visible_of_ok _ _ K). apply andb_false_iff. right. apply N.leb_gt. exact L. }
    rewrite X. reflexivity.
  - apply control_decode_reencode with c0; auto. intro O. rewrite O in E. cbn in E. apply N.ltb_ge in E. exact E.
Qed.

(** ** Number of fields and fields *)
Lemma accessors_any c i :
  control_get_num c = (r_success, length (visible (c_type c) (c_cts c))) /\
  control_get_field c i =
    match nth_error (c_cts c) i with
    | Some ct => (r_success, Some ct)
    | None => (r_failure, None)
    end.
Proof.
  split; [apply get_num_eq|]. unfold control_get_field. destruct (Nat.ltb_spec i (length (c_cts c))).
  - destruct (nth_error (c_cts c) i) eqn:E; [reflexivity|]. apply nth_error_None in E. lia.
  - rewrite (proj2 (nth_error_None _ _)) by assumption. reflexivity.
Qed.

Lemma accessors_agree_iff c :
  (forall i, fst (control_get_field c i) = r_success <-> (i < snd (control_get_num c))%nat) <->
  visible (c_type c) (c_cts c) = c_cts c.
Proof.
  destruct (accessors_any c 0) as [E _]. rewrite E. cbn [snd]. clear E. split.
  - intro H. assert (L : (length (c_cts c) <= length (visible (c_type c) (c_cts c)))%nat).
    { destruct (Nat.le_gt_cases (length (c_cts c)) (length (visible (c_type c) (c_cts c)))) as [|G]; [assumption|].
      exfalso. specialize (H (length (visible (c_type c) (c_cts c)))).
      destruct (accessors_any c (length (visible (c_type c) (c_cts c)))) as [_ X].
      destruct (nth_error (c_cts c) _) eqn:Y in X; [|apply nth_error_None in Y; lia].
      rewrite X in H. cbn in H. destruct H as [H _]. specialize (H eq_refl). lia. }
    unfold visible in *. destruct (_ =? T_START).
    + apply firstn_all2. rewrite firstn_length in L. lia.
    + destruct (_ || _); [|reflexivity]. destruct (c_cts c); [reflexivity|cbn in L; lia].
  - intros E i. rewrite E. destruct (accessors_any c i) as [_ ->].
    destruct (nth_error (c_cts c) i) eqn:Y; cbn; split; intro H; try reflexivity; try discriminate.
    + apply nth_error_Some. congruence.
    + apply nth_error_None in Y. lia.
Qed.

(** ** Whatever a reader hands out has a legal size *)
Section Sized.
Variables (eofr : res) (zok : bool).
Definition src {A} (p : io A) (I : A -> Prop) : Prop :=
  forall s s' a, exec (source eofr zok) s p = (s', Done a) -> I a.

Lemma src_ret {A} (a : A) (I : A -> Prop) : I a -> src (Ret a) I.
Proof. intros H s s' b [= <- <-]. exact H. Qed.
Lemma src_fail {A} f (I : A -> Prop) : src (Fail f) I.
Proof. intros s s' a [=]. Qed.
Lemma src_bind {A B} (p : io A) (k : A -> io B) I J : src p I -> (forall a, I a -> src (k a) J) -> src (bind p k) J.
Proof.
  intros P K s s' b. rewrite exec_bind. destruct (exec (source eofr zok) s p) as [s1 [a|e|]] eqn:E; try discriminate.
  apply K. exact (P _ _ _ E).
Qed.
Lemma src_any {A} (p : io A) : src p (fun _ => True).
Proof. intros s s' a _. exact I. Qed.
Lemma src_if {A} (b : bool) (p q : io A) I : (b = true -> src p I) -> (b = false -> src q I) -> src (if b then p else q) I.
Proof. destruct b; auto. Qed.
Lemma src_mono {A} (p : io A) (I J : A -> Prop) : (forall a, I a -> J a) -> src p I -> src p J.
Proof. intros H P s s' a E. apply H. exact (P _ _ _ E). Qed.


Hypothesis NE : eofr <> r_success.

Lemma src_rdread rw n : src (rdwr_read rw n) (fun z => fst (fst z) = r_success -> lenN (snd (fst z)) = n).
Proof using NE.
  unfold rdwr_read. repeat (apply src_if; intros _; [apply src_ret; cbn; discriminate|]).
  apply src_bind with (I := fun z => fst z = r_success -> lenN (snd z) = n).
  - intros s s' [x bs]. unfold ask_read. cbn [exec source].
    destruct (N.eqb_spec n 0) as [->|NZ]; [intros [= <- <- <-]; reflexivity|].
    destruct (N.ltb_spec (lenN s) n) as [L|L]; intros [= <- <- <-]; cbn; intros E; [contradiction|rewrite lenN_firstn; lia].
  - intros [x bs] H. apply src_if; intro E.
    + eapply src_bind; [apply src_any|]. intros [? ?] _. apply src_ret. cbn. intros ->. rewrite res_eqb_refl in E. discriminate.
    + apply src_ret. exact H.
Qed.

Definition sized (max : N) (d : option bytes) : Prop :=
  match d with Some p => data_ok p /\ lenN p <= max | None => True end.
Definition keeps {A} (max : N) (z : A * reader) : Prop := r_max (snd z) = max.

Lemma src_open_uni max r : r_max r = max -> src (reader_open_unidirectional r) (keeps max).
Proof.
  intro L. unfold reader_open_unidirectional. eapply src_bind; [apply src_any|].
  intros [[x c] rw] _. cbv zeta. apply src_if; intros _; [apply src_ret; exact L|]. destruct c; [|apply src_fail].
  apply src_if; intros _; apply src_ret; exact L.
Qed.
Lemma src_open max r : r_max r = max -> src (reader_open r) (keeps max).
Proof.
  intro L. unfold reader_open.
  assert (G : src (bind (rdwr_open (r_rdwr r)) (fun z => match z with (x, rw) =>
      let r := set_rrdwr r rw in
      if negb (res_eqb x r_success) then Ret (x, r)
      else bind (if rw_has_write (r_rdwr r) then reader_open_bidirectional r
                     else reader_open_unidirectional r) (fun z => match z with (x, r) =>
        if negb (res_eqb x r_success) then Ret (x, r)
        else Ret (r_success, set_rstate r rs_opened) end) end)) (keeps max)).
  { eapply src_bind; [apply src_any|]. intros [x rw] _. cbv zeta.
    apply src_if; intros _; [apply src_ret; exact L|]. apply src_bind with (I := keeps max).
    - apply src_if; intros _; [|apply src_open_uni; exact L]. unfold reader_open_bidirectional.
      eapply src_bind; [apply src_any|]. intros [[y c] rw2] _. cbv zeta.
      apply src_if; intros _; [apply src_ret; exact L|]. destruct c; [|apply src_fail].
      destruct (control_set_type _ _) as [[] acc]; try (apply src_ret; exact L).
      eapply src_bind; [apply src_any|]. intros [z rw3] _. cbv zeta.
      apply src_if; intros _; [apply src_ret; exact L|]. apply src_open_uni. exact L.
    - intros [y r2] L2. apply src_if; intros _; apply src_ret; exact L2. }
  destruct (r_state r); try exact G. apply src_ret. exact L.
Qed.
Lemma src_maybe max r : r_max r = max -> src (reader_maybe_open r) (keeps max).
Proof.
  intro L. unfold reader_maybe_open. destruct (r_state r); try (apply src_ret; exact L).
  apply src_bind with (I := keeps max); [apply src_open; exact L|]. intros [x r1] L1. apply src_if; intros _; apply src_ret; exact L1.
Qed.
Definition okr (max : N) (z : res * option bytes * reader) : Prop :=
  r_max (snd z) = max /\ sized max (snd (fst z)).
Lemma src_next max fuel : forall r, r_max r = max -> src (reader_next_data fuel r) (okr max).
Proof using NE.
  induction fuel as [|fuel IH]; intros r L; cbn [reader_next_data]; [apply src_fail|].
  apply src_bind with (I := fun z => keeps max z /\ snd (fst z) < 2 ^ 32).
  - unfold reader_read_be32. eapply src_bind; [apply src_any|].
    intros [[x b] rw] _. apply src_ret. split; [exact L|]. cbn. apply ntohl_lt.
  - intros [[x len] r1] [L1 L2]. unfold keeps in L1. cbn [fst snd] in L1, L2.
    apply src_if; intros _; [apply src_ret; split; [exact L1|exact I]|]. apply src_if; intro NZ.
    + destruct (N.ltb_spec (r_max r1) len) as [|EM]; [apply src_ret; split; [exact L1|exact I]|].
      destruct (reserve_loop 64 (r_alloc r1) len) as [alloc|]; [|apply src_fail]. cbv zeta.
      apply src_if; intros _; [apply src_fail|]. eapply src_bind; [apply src_rdread|].
      intros [[y d] rw] D. cbn [fst snd] in D. apply src_if; intro E; apply src_ret; (split; [exact L1|]); cbn [fst snd sized]; [exact I|].
      apply negb_false_iff, res_eqb_true in E. specialize (D E). apply negb_true_iff, N.eqb_neq in NZ.
      unfold data_ok. lia.
    + cbv zeta. eapply src_bind; [apply src_any|].
      intros [[[y t] c] rw] _. apply src_if; intros _; [apply src_ret; split; [exact L1|exact I]|]. destruct t; [|apply src_fail].
      apply src_if; intros _; [apply src_ret; split; [exact L1|exact I]|]. apply IH. exact L1.
Qed.
Lemma src_rclose max r : r_max r = max -> src (reader_close r) (keeps max).
Proof.
  intro L. unfold reader_close. destruct (r_state r); try (apply src_ret; exact L); cbv zeta; apply src_if; intros _.
  all: eapply src_bind; [apply src_any|]; intros [? ?] _; try (apply src_ret; exact L).
  all: apply src_if; intros _; (eapply src_bind; [apply src_any|]; intros [? ?] _; apply src_ret; exact L).
Qed.
Lemma src_rcall max fuel r c : r_max r = max -> src (do_rcall fuel r c) (okr max).
Proof using NE.
  intro L. destruct c; cbn [do_rcall].
  - apply src_bind with (I := keeps max); [apply src_open; exact L|]. intros [x r1] L1. apply src_ret. split; [exact L1|exact I].
  - unfold reader_read. apply src_bind with (I := keeps max); [apply src_maybe; exact L|]. intros [x r1] L1.
    apply src_if; intros _; [apply src_ret; split; [exact L1|exact I]|].
    destruct (r_state r1); try (apply src_ret; split; [exact L1|exact I]). apply src_next. exact L1.
  - apply src_bind with (I := keeps max); [apply src_rclose; exact L|]. intros [x r1] L1. apply src_ret. split; [exact L1|exact I].
  - unfold reader_get_control. apply src_bind with (I := keeps max).
    + apply src_bind with (I := keeps max); [apply src_maybe; exact L|]. intros [x r1] L1.
      repeat (apply src_if; intros _); apply src_ret; exact L1.
    + intros [[x oc] r1] L1. apply src_ret. split; [exact L1|exact I].
Qed.
Lemma src_rcalls max fuel cs : forall r, r_max r = max ->
  src (do_rcalls fuel r cs) (fun z => Forall (fun y => sized max (snd y)) (fst z)).
Proof using NE.
  induction cs as [|c cs IH]; intros r L; cbn [do_rcalls]; [apply src_ret; constructor|].
  eapply src_bind; [apply src_rcall; exact L|]. intros [[x d] r1] [L1 D].
  eapply src_bind; [apply IH; exact L1|]. intros [xs r2] F. apply src_ret. constructor; [exact D|exact F].
Qed.
End Sized.

(** The written stream, for payloads of any size. *)
Lemma any_payloads eofr zok iovm cts rww w ps o rw r m fuel :
  (0 < iovm)%nat -> fresh_rdwr rww -> rw_has_read rww = false -> Forall (fun ct => lenN ct <= CT_MAX) cts ->
  writer_init iovm cts rww = Some w ->
  eofr <> r_success -> fresh_rdwr rw -> rw_has_write rw = false -> reader_init o rw = Some r ->
  ro_cts o = [] \/ cts = [] \/ (exists c, hd_error cts = Some c /\ In c (ro_cts o)) ->
  lenN ps < 2 ^ 30 ->
  exists s, exec sink [] (writer_life w [WOpen; WWritev ps]) = ([s], Done ([r_success; r_success], r_success)) /\
    ((length s <= fuel)%nat ->
     ((exists r', snd (exec (source eofr zok) s (do_rcalls fuel r (ROpen :: repeat RRead (length ps + 1 + m)))) =
       Done ((r_success, None) :: map (fun d => (r_success, Some d)) ps ++ (r_stop, None) :: repeat (r_failure, None) m, r'))
      <-> Forall (fun p => data_ok p /\ lenN p <= ro_max o) ps)).
Proof.
  intros Hi FW NR F HW NE FR NW HI AC LP.
  exists (start_frame (hd_error cts) ++ datas ps ++ stop_frame).
  assert (W : exec sink [] (writer_life w [WOpen; WWritev ps]) =
    ([start_frame (hd_error cts) ++ datas ps ++ stop_frame], Done ([r_success; r_success], r_success))).
  { pose proof (uni_life iovm cts rww w [WOpen; WWritev ps] FW NR Hi F) as U.
    specialize (U ltac:(constructor; [reflexivity|repeat constructor; assumption]) HW).
    assert (E : u_steps cts U_fresh [] [WOpen; WWritev ps] = ([r_success; r_success], U_open, [start_frame (hd_error cts) ++ datas ps])).
    { cbn [u_steps u_step u_open app]. destruct ps as [|p ps]; [cbn; rewrite app_nil_r; reflexivity|]. cbn [u_step wpayloads u_implicit].
      change [start_frame (hd_error cts)] with ([] ++ [start_frame (hd_error cts)]). rewrite add_last_snoc. reflexivity. }
    rewrite E in U. rewrite U. change [start_frame (hd_error cts) ++ datas ps] with ([] ++ [start_frame (hd_error cts) ++ datas ps]).
    rewrite add_last_snoc, <- app_assoc. reflexivity. }
  split; [exact W|]. intro Hf. split.
  - intros [r' E]. destruct (exec _ _ _) as [s' o'] eqn:X in E. cbn [snd] in E. rewrite E in X.
    assert (Hmax : r_max r = ro_max o). { revert HI. unfold reader_init. destruct (negb _); [discriminate|]. intros [= <-]. reflexivity. }
    apply (src_rcalls eofr zok NE (ro_max o) fuel _ r Hmax) in X. cbn [fst] in X. inversion_clear X as [|? ? _ X1].
    apply Forall_app in X1. destruct X1 as [X1 _]. rewrite Forall_map in X1. exact X1.
  - intro PK. destruct (good_payloads eofr zok iovm cts rww w ps o rw r m fuel) as (s & E1 & E2); auto.
    rewrite W in E1. assert (Es : [start_frame (hd_error cts) ++ datas ps ++ stop_frame] = [s]) by congruence.
    assert (Es' : start_frame (hd_error cts) ++ datas ps ++ stop_frame = s) by congruence. rewrite <- Es' in E2. destruct (E2 Hf) as [r' E3]. exists r'. rewrite E3. reflexivity.
Qed.

(** ** Success without data *)
Lemma unset_exactly eofr zok o rw r rdy st inp ds e rest m fuel :
  eofr <> r_success -> fresh_rdwr rw -> reader_init o rw = Some r ->
  ctl_ok T_READY rdy -> ctl_ok T_START st -> start_accepted (ro_cts o) st ->
  (rw_has_write rw = true -> fits true T_ACCEPT (ro_cts o)) ->
  parse (ro_max o) inp ds e rest -> (length inp < fuel)%nat ->
  exists xs r', exec (source eofr zok) (head_of (rw_has_write rw) rdy st ++ inp)
         (do_rcalls fuel r (ROpen :: repeat RRead (length ds + 1 + m))) = (rest, Done ((r_success, None) :: xs, r')) /\
    (In (r_success, None) xs <-> e = E_oversize).
Proof.
  intros NE FR HI KR KS AC FT P L.
  destruct (source_stream eofr zok o rw r rdy st _ _ _ _ m fuel NE FR HI KR KS AC FT P L) as (r' & E & _).
  exists (map (fun d => (r_success, Some d)) ds ++ (ending_result eofr e, None) :: repeat (r_failure, None) m), r'.
  split; [exact E|]. rewrite in_app_iff. cbn [In]. split.
  - intros [I|[I|I]].
    + apply in_map_iff in I. destruct I as (? & I & _). discriminate.
    + destruct e; cbn [ending_result] in I; try reflexivity; congruence.
    + apply repeat_spec in I. discriminate.
  - intros ->. right. left. reflexivity.
Qed.

(** Starting, running and stopping an I/O thread. *)
From Coq Require Import Permutation.
From Verif Require Import Bytes Queue SpecQueue Queue_proofs Mem SpecMem Mem_proofs Thread SpecThread.
Local Open Scope nat_scope.
Local Notation "x <~ p ;; q" := (mbind p (fun x => q)) (at level 100, p at next level, right associativity).
Local Notation "p ;;; q" := (mbind p (fun _ => q)) (at level 100, right associativity).

(** ** Clocks *)
Lemma find_best (pf : platform) (f : clk -> bool) (ok : clk -> Prop) : (forall c, f c = true <-> ok c) ->
  match find f preference with Some c => best ok c | None => forall c, steady c -> ~ ok c end.
Proof.
  intro H. unfold preference, best, steady. cbn [find].
  assert (D : forall c, f c = false -> ~ ok c) by (intros c E K; apply H in K; congruence).
  destruct (f K_coarse) eqn:E1; [split; [discriminate|]; split; [apply H, E1|]; intros [] B; cbn in B; try contradiction|].
  destruct (f K_raw) eqn:E2; [split; [discriminate|]; split; [apply H, E2|]; intros [] B; cbn in B; try contradiction; apply D; assumption|].
  destruct (f K_fast) eqn:E3; [split; [discriminate|]; split; [apply H, E3|]; intros [] B; cbn in B; try contradiction; apply D; assumption|].
  destruct (f K_mono) eqn:E4; [split; [discriminate|]; split; [apply H, E4|]; intros [] B; cbn in B; try contradiction; apply D; assumption|].
  intros [] N; try (apply D; assumption). contradiction.
Qed.
Lemma best_gettime_spec pf : match best_gettime pf with Some c => best (readable pf) c | None => forall c, steady c -> ~ readable pf c end.
Proof. apply (find_best pf). intro c. unfold readable. rewrite Bool.andb_true_iff. reflexivity. Qed.
Lemma best_pthread_spec pf : match best_pthread pf with Some c => best (waitable pf) c | None => forall c, steady c -> ~ waitable pf c end.
Proof. apply (find_best pf). intro c. unfold waitable, readable. rewrite !Bool.andb_true_iff. reflexivity. Qed.
(** The clocks of an object that was created. *)
Definition clocks_of (pf : platform) (g p : clk) : Prop :=
  (if pf_gettime pf then best (readable pf) g else g = K_real) /\ (if pf_gettime pf && pf_setclock pf then best (waitable pf) p else p = K_real).
Lemma best_clocks_spec pf : match best_clocks pf with Some (g, p) => clocks_exist pf /\ clocks_of pf g p | None => ~ clocks_exist pf end.
Proof.
  unfold best_clocks, clocks_exist, clocks_of. pose proof (best_gettime_spec pf) as G. pose proof (best_pthread_spec pf) as P.
  destruct (pf_gettime pf); cbn [andb].
  2: { split; [discriminate|]. split; reflexivity. }
  destruct (best_gettime pf) as [g|].
  2: { intro H. destruct (H eq_refl) as [(c & S & R) _]. exact (G c S R). }
  destruct (pf_setclock pf).
  - destruct (best_pthread pf) as [p|].
    + split; [|split; assumption]. intros _. split; [exists g; destruct G as (? & ? & _); auto|]. intros _. exists p. destruct P as (? & ? & _); auto.
    + intro H. destruct (H eq_refl) as [_ K]. destruct (K eq_refl) as (c & S & W). exact (P c S W).
  - split; [|split; auto]. intros _. split; [exists g; destruct G as (? & ? & _); auto|]. discriminate.
Qed.

(** ** Queues *)
Lemma own_es_app l l' : own_es (l ++ l') = own_es l ++ own_es l'.
Proof. unfold own_es. rewrite map_app, concat_app. reflexivity. Qed.
Lemma own_es_one e : own_es [e] = own_opt own_blk e.
Proof. unfold own_es. cbn. apply app_nil_r. Qed.
Lemma own_qs_app l l' : own_qs (l ++ l') = own_qs l ++ own_qs l'.
Proof. unfold own_qs. rewrite map_app, concat_app. reflexivity. Qed.
Lemma own_qs_cons q l : own_qs (q :: l) = own_opt own_q q ++ own_qs l. Proof. reflexivity. Qed.
Lemma own_es_cons q l : own_es (q :: l) = own_opt own_blk q ++ own_es l. Proof. reflexivity. Qed.

Lemma f_qo_init mutex size : spec (qo_init mutex size) []
  (fun q l => match q with Some q => queue_init_ok size = true /\ l = own_q q | None => queue_init_ok size = false /\ l = [] end).
Proof.
  unfold qo_init. destruct (queue_init_ok size); cbn [negb]; [|eapply spec_ret; [reflexivity|split; reflexivity]].
  apply sp_alloc. intro q. apply sp_alloc. intro d. destruct mutex.
  - apply sp_assoc, sp_alloc. intro l. apply sp_ret. eapply spec_ret; [|split; reflexivity]. unfold own_q. cbn [q_blk q_data q_lock q_items own_es map concat]. ow. pm.
  - apply sp_ret. eapply spec_ret; [|split; reflexivity]. unfold own_q. cbn [q_blk q_data q_lock q_items own_es map concat]. ow. pm.
Qed.
Lemma reads_qo_use q : reads (qo_use q) (own_q q).
Proof.
  unfold qo_use, own_q. apply reads_bind; [apply reads_use; cbn; auto|intros _].
  apply reads_bind; [|intros _; apply reads_use; cbn; auto]. destruct (q_lock q) as [l|]; [|apply reads_ret]. apply reads_use. cbn. auto.
Qed.
Lemma f_qo_destroy q : spec (qo_destroy q) (q_blk q :: q_data q :: own_opt own_blk (q_lock q)) (fun _ l => l = []).
Proof.
  unfold qo_destroy. apply sp_use; [left; reflexivity|]. apply sp_free_opt with (pre' := [q_blk q; q_data q]); [pm|].
  eapply sp_free with (pre' := [q_blk q]); [pm|]. apply sp_last. eapply sp_free with (pre' := []); [pm|]. eapply spec_ret; reflexivity.
Qed.
Lemma f_free_entry e : spec (free_entry e) (own_opt own_blk e) (fun _ l => l = []).
Proof.
  destruct e as [b|]; cbn [free_entry own_opt]; [|eapply spec_ret; reflexivity]. apply sp_last. eapply sp_free with (pre' := []); [reflexivity|]. eapply spec_ret; reflexivity.
Qed.
Lemma f_free_entries l : spec (free_entries l) (own_es l) (fun _ r => r = []).
Proof.
  induction l as [|e l IH]; cbn [free_entries]; [eapply spec_ret; reflexivity|].
  eapply sp_call with (f := own_es l); [apply f_free_entry|rewrite own_es_cons; pm|]. cbv beta. intros _ ? ->. exact IH.
Qed.
Definition all_there (l : list (option qobj)) : Prop := Forall (fun q => q <> None) l.
Lemma f_free_queues l : all_there l -> spec (free_queues l) (own_qs l) (fun _ r => r = []).
Proof.
  induction 1 as [|q l Hq _ IH]; cbn [free_queues]; [eapply spec_ret; reflexivity|]. destruct q as [q|]; [|contradiction].
  rewrite own_qs_cons. cbn [own_opt]. eapply sp_reads; [apply reads_qo_use|apply incl_appl, incl_refl|]. intros _.
  eapply sp_call with (f := (q_blk q :: q_data q :: own_opt own_blk (q_lock q)) ++ own_qs l); [apply f_free_entries|unfold own_q; pm|]. cbv beta. intros _ ? ->.
  eapply sp_call with (f := own_qs l); [apply f_qo_destroy|pm|]. cbv beta. intros _ ? ->. exact IH.
Qed.
Lemma f_make_queues mutex size n : spec (make_queues mutex size n) []
  (fun r l => if fst r then (n = 0 \/ queue_init_ok size = true) /\ all_there (snd r) /\ l = own_qs (snd r)
              else n <> 0 /\ queue_init_ok size = false /\ l = []).
Proof.
  induction n as [|n IH]; cbn [make_queues].
  - eapply spec_ret; [reflexivity|]. cbn [fst snd]. split; [left; reflexivity|]. split; [constructor|reflexivity].
  - eapply spec_bind; [apply f_qo_init|]. cbv beta. intros [q|] l.
    + intros [Q ->]. eapply sp_new; [exact IH|]. cbv beta. intros [ok qs] l. cbn [fst snd]. destruct ok.
      * intros (_ & A & ->). eapply spec_ret; [|cbn [fst snd]; split; [right; exact Q|]; split; [constructor; [discriminate|exact A]|reflexivity]].
        rewrite own_qs_cons. cbn [own_opt]. pm.
      * intros (_ & B & _). congruence.
    + intros [Q ->]. eapply spec_ret; [reflexivity|]. cbn [fst]. split; [discriminate|]. split; [exact Q|reflexivity].
Qed.

(** ** The thread *)
Record whole (pf : platform) (t : thr) : Prop := {
  wh_arr : th_arr t <> None; wh_iov : th_iov t <> None; wh_ents : th_ents t <> None; wh_cv : th_cv t <> None;
  wh_cvlock : th_cvlock t <> None; wh_glock : th_glock t <> None; wh_writer : th_writer t <> None; wh_run : th_run t <> None;
  wh_qs : all_there (th_qs t);
  wh_clk : pf_gettime pf = true -> pf_reads pf (th_gclk t) = true /\ pf_reads pf (deadline_clock pf t) = true }.
Definition stays (pf : platform) (qs : list (option qobj)) (t' : thr) (l : list blk) : Prop := l = own_th t' /\ whole pf t' /\ th_qs t' = qs.
Lemma reads_use_opt (p : option blk) l : p <> None -> incl (own_opt own_blk p) l -> reads (m_use_opt p) l.
Proof. destruct p as [b|]; [|contradiction]. intros _ I. apply reads_use, I. left. reflexivity. Qed.
Ltac rth := unfold own_th; intros ? ?; repeat (rewrite in_app_iff in * || cbn [In] in *); tauto.
Lemma sp_w {A} (t : thr) (k : mwriter -> mem A) pre Q : th_writer t <> None -> (forall w, th_writer t = Some w -> spec (k w) pre Q) -> spec (th_w t k) pre Q.
Proof. unfold th_w. destruct (th_writer t) as [w|]; [|contradiction]. intros _ H. apply H. reflexivity. Qed.
Lemma sp_w_bind {A B} (t : thr) (k : mwriter -> mem A) (f : A -> mem B) pre Q : th_writer t <> None ->
  (forall w, th_writer t = Some w -> spec (mbind (k w) f) pre Q) -> spec (mbind (th_w t k) f) pre Q.
Proof. unfold th_w. destruct (th_writer t) as [w|]; [|contradiction]. intros _ H. apply H. reflexivity. Qed.
Definition rest_th (t : thr) : list blk :=
  th_blk t :: own_opt own_blk (th_arr t) ++ own_qs (th_qs t) ++ own_opt own_blk (th_iov t) ++ own_opt own_blk (th_ents t) ++
  own_opt own_blk (option_map fst (th_cv t)) ++ own_opt own_blk (th_cvlock t) ++ own_opt own_blk (th_glock t) ++ own_opt own_blk (th_run t).
Lemma own_rest t w : th_writer t = Some w -> Permutation (own_th t) (own_writer w ++ own_es (th_out t) ++ rest_th t).
Proof. intro E. unfold own_th, rest_th. rewrite E. cbn [own_opt]. pm. Qed.
Lemma own_with_out t out op w : Permutation (own_th (with_out t out op w)) (own_writer w ++ own_es out ++ rest_th t).
Proof. unfold own_th, rest_th, with_out. cbn [th_blk th_arr th_qs th_iov th_ents th_out th_cv th_cvlock th_glock th_writer th_run own_opt]. pm. Qed.
Lemma whole_with_out pf t out op w : whole pf t -> whole pf (with_out t out op w).
Proof. intros []. split; auto. discriminate. Qed.
Lemma f_th_close pf t : whole pf t -> spec (th_close t) (own_th t) (fun t' l => stays pf (th_qs t) t' l /\ th_out t' = th_out t).
Proof.
  intro H. unfold th_close. destruct (th_opened t); [|eapply spec_ret; [reflexivity|]; split; [split; [reflexivity|split; [exact H|reflexivity]]|reflexivity]].
  apply sp_w; [apply H|]. intros w E. eapply sp_call; [apply f_mw_close|apply own_rest, E|]. cbv beta. intros w' ? ->.
  eapply spec_ret; [|split; [split; [reflexivity|split; [apply whole_with_out, H|reflexivity]]|reflexivity]]. pose proof (own_with_out t (th_out t) false w'). pm.
Qed.
Lemma f_th_flush pf t : whole pf t -> spec (th_flush t) (own_th t) (fun t' l => stays pf (th_qs t) t' l /\ th_out t' = []).
Proof.
  intro H. unfold th_flush.
  eapply spec_bind with (R := stays pf (th_qs t)).
  - destruct (th_opened t && _)%bool.
    + eapply sp_reads; [apply reads_use_opt; [apply H|apply incl_refl]|rth|]. intros _.
      apply sp_w; [apply H|]. intros w E. eapply sp_call; [apply f_mw_write|apply own_rest, E|]. cbv beta. intros w' ? ->. apply sp_flag. intros [].
      * eapply spec_ret; [|split; [reflexivity|split; [apply whole_with_out, H|reflexivity]]]. pose proof (own_with_out t (th_out t) (th_opened t) w'). pm.
      * eapply spec_conv; [|eapply spec_mono; [exact (f_th_close pf _ (whole_with_out pf t (th_out t) (th_opened t) w' H))|]; cbv beta; intros ? l [X _]; exists l; split; [reflexivity|exact X]]. pose proof (own_with_out t (th_out t) (th_opened t) w'). pm.
    + eapply spec_ret; [reflexivity|]. split; [reflexivity|split; [exact H|reflexivity]].
  - clear H. intros t' l (-> & H & <-).
    eapply sp_reads with (l := own_opt own_blk (th_ents t')).
    { destruct (th_out t'); [apply reads_ret|]. apply reads_use_opt; [apply H|apply incl_refl]. }
    { rth. }
    intros _. destruct (th_writer t') as [w|] eqn:E; [|destruct (wh_writer _ _ H E)].
    eapply sp_call; [apply f_free_entries|pose proof (own_rest t' w E) as P; instantiate (1 := own_writer w ++ rest_th t'); pm|].
    cbv beta. intros _ ? ->. eapply spec_ret; [|split; [split; [reflexivity|split; [|reflexivity]]|reflexivity]].
    + unfold own_th, rest_th. cbn [th_blk th_arr th_qs th_iov th_ents th_out th_cv th_cvlock th_glock th_writer th_run own_opt own_es map concat]. pm.
    + destruct H. split; auto. rewrite <- E. assumption.
Qed.
Lemma f_th_entry pf t e : whole pf t -> spec (th_entry t e) (own_th t ++ own_opt own_blk e) (stays pf (th_qs t)).
Proof.
  intro H. unfold th_entry. destruct (th_opened t).
  - apply sp_flag. intro full. eapply sp_call with (l := own_th t) (f := own_opt own_blk e) (R := stays pf (th_qs t)).
    + destruct full; [eapply spec_mono; [apply f_th_flush, H|]; cbv beta; intros ? l [X _]; exists l; split; [reflexivity|exact X]|]. eapply spec_ret; [reflexivity|]. split; [reflexivity|split; [exact H|reflexivity]].
    + reflexivity.
    + clear H. intros t' l (-> & H & <-). eapply sp_reads; [apply reads_use_opt; [apply H|apply incl_refl]|rth|]. intros _.
      eapply sp_reads; [apply reads_use_opt; [apply H|apply incl_refl]|rth|]. intros _.
      apply sp_w; [apply H|]. intros w E. eapply spec_ret; [|split; [reflexivity|split; [apply whole_with_out, H|reflexivity]]].
      pose proof (own_with_out t' (th_out t' ++ [e]) (th_opened t') w) as P. rewrite own_es_app, own_es_one in P. pose proof (own_rest t' w E). pm.
  - eapply sp_call; [apply f_free_entry|instantiate (1 := own_th t); pm|]. cbv beta. intros _ ? ->. eapply spec_ret; [reflexivity|]. split; [reflexivity|split; [exact H|reflexivity]].
Qed.
Lemma own_with_qs t qs : Permutation (own_th (with_qs t qs) ++ own_qs (th_qs t)) (own_th t ++ own_qs qs).
Proof. unfold own_th, with_qs. cbn [th_blk th_arr th_qs th_iov th_ents th_out th_cv th_cvlock th_glock th_writer th_run]. pm. Qed.
Lemma whole_with_qs pf t qs : all_there qs -> whole pf t -> whole pf (with_qs t qs).
Proof. intros A []. split; auto. Qed.
Lemma f_th_process pf qs : forall pre t, whole pf t -> th_qs t = pre ++ qs -> spec (th_process t pre qs) (own_th t) (fun t' l => l = own_th t' /\ whole pf t').
Proof.
  induction qs as [|q qs IH]; intros pre t H E; cbn [th_process]; [eapply spec_ret; [reflexivity|]; split; [reflexivity|exact H]|].
  pose proof (wh_qs _ _ H) as A. rewrite E in A. apply Forall_app in A. destruct A as [A1 A2]. inversion A2 as [|? ? Aq A3]; subst.
  destruct q as [q|]; [|contradiction].
  eapply sp_reads; [apply reads_use_opt; [apply H|apply incl_refl]|rth|]. intros _.
  eapply sp_reads; [apply reads_qo_use| |].
  { intros x X. unfold own_th. rewrite E, own_qs_app, own_qs_cons. cbn [own_opt]. right. rewrite !in_app_iff. tauto. }
  intros _. destruct (q_items q) as [|e l] eqn:EI.
  - apply IH; [exact H|]. rewrite E, <- app_assoc. reflexivity.
  - cbv zeta. set (q' := mk_qo (q_blk q) (q_data q) (q_lock q) l).
    eapply sp_call with (l := own_th (with_qs t (pre ++ Some q' :: qs)) ++ own_opt own_blk e) (f := []); [apply f_th_entry|..].
    + apply whole_with_qs; [|exact H]. apply Forall_app. split; [exact A1|]. constructor; [discriminate|exact A3].
    + pose proof (own_with_qs t (pre ++ Some q' :: qs)) as P. rewrite E, !own_qs_app, !own_qs_cons in P. cbn [own_opt] in P.
      unfold own_q in P. rewrite EI, own_es_cons in P. subst q'. cbn [q_blk q_data q_lock q_items] in P. pm.
    + intros t' l' (-> & H' & E'). rewrite app_nil_r. cbn [th_qs with_qs] in E'. apply IH; [exact H'|]. rewrite E', <- app_assoc. reflexivity.
Qed.
Definition runs_on (pf : platform) (t' : thr) (l : list blk) : Prop := l = own_th t' /\ whole pf t'.
Lemma f_maybe_open pf t : whole pf t -> spec (th_maybe_open pf t) (own_th t) (runs_on pf).
Proof.
  intro H. unfold th_maybe_open. destruct (th_opened t); [eapply spec_ret; [reflexivity|]; split; [reflexivity|exact H]|].
  eapply spec_bind with (R := fun _ l => l = own_th t).
  - destruct (pf_gettime pf) eqn:G; [|eapply spec_ret; reflexivity]. destruct (wh_clk _ _ H G) as [C _]. rewrite C. eapply spec_ret; reflexivity.
  - cbv beta. intros _ ? ->. apply sp_flag. intros []; [|eapply spec_ret; [reflexivity|]; split; [reflexivity|exact H]].
    apply sp_w; [apply H|]. intros w E. eapply sp_call; [apply f_mw_open|apply own_rest, E|]. intros [ok w'] ? ->. cbn [fst snd].
    eapply spec_ret; [|split; [reflexivity|apply whole_with_out, H]]. pose proof (own_with_out t (th_out t) ok w'). pm.
Qed.
Lemma f_round pf t : whole pf t -> spec (th_round pf t) (own_th t) (runs_on pf).
Proof.
  intro H. unfold th_round. apply sp_use; [left; reflexivity|]. eapply spec_bind; [apply f_maybe_open, H|]. clear t H. intros t l (-> & H).
  eapply spec_bind; [apply (f_th_process pf (th_qs t) []); [exact H|reflexivity]|]. clear t H. intros t l (-> & H).
  apply sp_flag. intros []; cbn [negb]; [|eapply spec_ret; [reflexivity|]; split; [reflexivity|exact H]].
  eapply spec_bind with (R := fun _ l => l = own_th t).
  - destruct (pf_gettime pf) eqn:G; [|eapply spec_ret; reflexivity]. destruct (wh_clk _ _ H G) as [_ C]. rewrite C. eapply spec_ret; reflexivity.
  - cbv beta. intros _ ? ->. eapply sp_reads; [apply reads_use_opt; [apply H|apply incl_refl]|rth|]. intros _.
    eapply sp_reads; [apply reads_use_opt; [|apply incl_refl]|rth|].
    { pose proof (wh_cv _ _ H) as C. destruct (th_cv t); [discriminate|contradiction]. }
    intros _. apply sp_flag. intros []; [|eapply spec_ret; [reflexivity|]; split; [reflexivity|exact H]].
    eapply spec_mono; [apply f_th_flush, H|]. intros t' l [(-> & H' & _) _]. eexists. split; [reflexivity|]. split; [reflexivity|exact H'].
Qed.
Lemma f_rounds pf n : forall t, whole pf t -> spec (th_rounds pf n t) (own_th t) (runs_on pf).
Proof.
  induction n as [|n IH]; intros t H; cbn [th_rounds]; [eapply spec_ret; [reflexivity|]; split; [reflexivity|exact H]|].
  eapply spec_bind; [apply f_round, H|]. intros t' l (-> & H'). apply IH, H'.
Qed.
Lemma f_drain pf n : forall t, whole pf t -> spec (th_drain n t) (own_th t) (runs_on pf).
Proof.
  induction n as [|n IH]; intros t H; cbn [th_drain]; [eapply spec_ret; [reflexivity|]; split; [reflexivity|exact H]|].
  eapply spec_bind; [apply (f_th_process pf (th_qs t) []); [exact H|reflexivity]|]. intros t' l (-> & H'). apply IH, H'.
Qed.
Lemma f_finish pf t : whole pf t -> spec (th_finish pf t) (own_th t) (fun t' l => runs_on pf t' l /\ th_out t' = []).
Proof.
  intro H. unfold th_finish. apply sp_choose. intro n. eapply spec_bind; [apply f_rounds, H|]. intros t1 l (-> & H1).
  apply sp_use; [left; reflexivity|]. eapply spec_bind; [apply f_drain, H1|]. intros t2 l (-> & H2).
  eapply spec_bind; [apply f_th_flush, H2|]. intros t3 l [(-> & H3 & _) O].
  eapply spec_mono; [apply f_th_close, H3|]. intros t' l [(-> & H' & _) O']. eexists. split; [reflexivity|]. split; [split; [reflexivity|exact H']|congruence].
Qed.
Lemma sp_take_opt {B} p (k : unit -> mem B) pre pre' Q : p <> None -> Permutation pre (own_opt own_blk p ++ pre') -> spec (k tt) pre' Q -> spec (mbind (m_take_opt p) k) pre Q.
Proof. destruct p as [b|]; [|contradiction]. intros _ P K. eapply sp_free; [exact P|exact K]. Qed.
Lemma f_th_destroy pf t : whole pf t -> spec (th_destroy pf t) (own_th t) (fun _ l => l = []).
Proof.
  intro H. unfold th_destroy. apply sp_use; [left; reflexivity|].
  eapply sp_reads; [apply reads_use_opt; [|apply incl_refl]|rth|].
  { pose proof (wh_cv _ _ H) as C. destruct (th_cv t); [discriminate|contradiction]. }
  intros _. pose proof (wh_run _ _ H) as R0. destruct (th_run t) as [run|]; [clear R0|contradiction].
  eapply spec_bind; [apply f_finish, H|]. clear t run H. intros t l ((-> & H) & O).
  assert (C : option_map fst (th_cv t) <> None) by (pose proof (wh_cv _ _ H) as C; destruct (th_cv t); [discriminate|contradiction]).
  eapply sp_take_opt with (pre' := th_blk t :: own_opt own_blk (th_arr t) ++ own_qs (th_qs t) ++ own_opt own_blk (th_iov t) ++ own_opt own_blk (th_ents t) ++
    own_opt own_blk (option_map fst (th_cv t)) ++ own_opt own_blk (th_cvlock t) ++ own_opt own_blk (th_glock t) ++ own_opt own_writer (th_writer t)); [apply H|unfold own_th; rewrite O; cbn [own_es map concat]; pm|].
  eapply sp_take_opt with (pre' := th_blk t :: own_opt own_blk (th_arr t) ++ own_qs (th_qs t) ++ own_opt own_blk (th_iov t) ++ own_opt own_blk (th_ents t) ++
    own_opt own_blk (th_cvlock t) ++ own_opt own_blk (th_glock t) ++ own_opt own_writer (th_writer t)); [exact C|pm|].
  eapply sp_take_opt with (pre' := th_blk t :: own_opt own_blk (th_arr t) ++ own_qs (th_qs t) ++ own_opt own_blk (th_iov t) ++ own_opt own_blk (th_ents t) ++
    own_opt own_blk (th_glock t) ++ own_opt own_writer (th_writer t)); [apply H|pm|].
  eapply sp_take_opt with (pre' := th_blk t :: own_opt own_blk (th_arr t) ++ own_qs (th_qs t) ++ own_opt own_blk (th_iov t) ++ own_opt own_blk (th_ents t) ++
    own_opt own_writer (th_writer t)); [apply H|pm|].
  destruct (th_writer t) as [w|] eqn:EW; [|destruct (wh_writer _ _ H EW)]. cbn [own_opt].
  eapply sp_call with (f := th_blk t :: own_opt own_blk (th_arr t) ++ own_qs (th_qs t) ++ own_opt own_blk (th_iov t) ++ own_opt own_blk (th_ents t)); [apply f_mw_destroy|pm|].
  cbv beta. intros _ ? ->. cbn [app].
  eapply sp_reads with (l := own_opt own_blk (th_arr t)).
  { destruct (th_qs t); [apply reads_ret|]. apply reads_use_opt; [apply H|apply incl_refl]. }
  { apply incl_tl, incl_appl, incl_refl. }
  intros _. eapply sp_call with (f := th_blk t :: own_opt own_blk (th_arr t) ++ own_opt own_blk (th_iov t) ++ own_opt own_blk (th_ents t)); [apply f_free_queues, H|pm|].
  cbv beta. intros _ ? ->. cbn [app].
  eapply sp_free_opt with (pre' := th_blk t :: own_opt own_blk (th_iov t) ++ own_opt own_blk (th_ents t)); [pm|].
  eapply sp_free_opt with (pre' := th_blk t :: own_opt own_blk (th_ents t)); [pm|].
  eapply sp_free_opt with (pre' := [th_blk t]); [pm|].
  apply sp_last. eapply sp_free with (pre' := []); [reflexivity|]. eapply spec_ret; reflexivity.
Qed.

(** ** Creation *)
Definition made (pf : platform) (r : option thr) (l : list blk) : Prop :=
  exists t, r = Some t /\ l = own_th t /\ whole pf t /\ clocks_of pf (th_gclk t) (th_pclk t) /\
            exists b, th_cv t = Some (b, if pf_gettime pf && pf_setclock pf then th_pclk t else K_real).
Lemma clocks_read pf g p : sane pf -> clocks_of pf g p -> pf_gettime pf = true -> pf_reads pf g = true /\ pf_reads pf (if pf_setclock pf then p else K_real) = true.
Proof.
  intros S [G P] E. rewrite E in *. cbn [andb] in P. destruct G as (_ & (_ & G) & _). split; [exact G|].
  destruct (pf_setclock pf); [|exact S]. destruct P as (_ & ((_ & P) & _) & _). exact P.
Qed.
Lemma f_th_init pf spsc n size w : sane pf -> best_clocks pf <> None -> (n = 0 \/ queue_init_ok size = true) ->
  spec (th_init pf spsc n size w) (own_writer w) (made pf).
Proof.
  intros S C Q. unfold th_init. pose proof (best_clocks_spec pf) as K. destruct (best_clocks pf) as [[g p]|]; [clear C|contradiction]. destruct K as [_ K].
  apply sp_alloc. intro b. apply sp_alloc. intro arr. eapply sp_new; [apply f_make_queues|]. intros [ok qs] l. cbn [fst snd]. destruct ok; cbn [negb].
  2: { intros (N & B & _). destruct Q; [contradiction|congruence]. }
  intros (_ & A & ->). apply sp_alloc. intro iov. apply sp_alloc. intro ents.
  assert (W : pf_gettime pf && pf_setclock pf = true -> pf_waits pf p = true).
  { intro E. destruct K as [_ P]. rewrite E in P. destruct P as (_ & (_ & P) & _). exact P. }
  eapply spec_bind with (R := fun _ l => l = ents :: iov :: own_qs qs ++ arr :: b :: own_writer w).
  { destruct (pf_gettime pf && pf_setclock pf); [rewrite (W eq_refl)|]; (eapply spec_ret; [|reflexivity]; pm). }
  cbv beta. intros _ ? ->. apply sp_alloc. intro cv. apply sp_alloc. intro l1. apply sp_alloc. intro l2.
  apply sp_use; [right; right; right; right; right; apply in_or_app; right; right; right; left; reflexivity|].
  apply sp_alloc. intro run. eapply spec_ret; [|eexists; split; [reflexivity|]; split; [reflexivity|]; split; [|split; [exact K|eexists; reflexivity]]].
  - unfold own_th. cbn [th_blk th_arr th_qs th_iov th_ents th_out th_cv th_cvlock th_glock th_writer th_run own_opt option_map fst own_es map concat]. unfold own_blk. pm.
  - split; cbn [th_blk th_arr th_qs th_iov th_ents th_out th_cv th_cvlock th_glock th_writer th_run]; try discriminate; [exact A|].
    intro E. unfold deadline_clock. rewrite E. exact (clocks_read pf g p S K E).
Qed.

(** ** The program *)
Lemma put_entry_app l1 q l2 e : all_there l1 -> put_entry (l1 ++ Some q :: l2) (length l1) e = l1 ++ Some (mk_qo (q_blk q) (q_data q) (q_lock q) (q_items q ++ [e])) :: l2.
Proof. induction 1 as [|x l1 X _ IH]; cbn [app length put_entry]; [reflexivity|]. destruct x; [|contradiction]. rewrite IH. reflexivity. Qed.
Lemma own_put l i q e : all_there l -> nth_error l i = Some (Some q) -> all_there (put_entry l i e) /\ Permutation (own_qs (put_entry l i e)) (own_opt own_blk e ++ own_qs l).
Proof.
  intros A E. apply nth_error_split in E. destruct E as (l1 & l2 & -> & <-). apply Forall_app in A. destruct A as [A1 A2]. inversion A2; subst.
  rewrite put_entry_app by assumption. split.
  - apply Forall_app. split; [assumption|]. constructor; [discriminate|assumption].
  - rewrite !own_qs_app, !own_qs_cons. cbn [own_opt]. unfold own_q. cbn [q_blk q_data q_lock q_items]. rewrite own_es_app, own_es_one. pm.
Qed.
Lemma f_submit pf t i f : whole pf t -> spec (th_submit t i f) (own_th t) (runs_on pf).
Proof.
  intro H. unfold th_submit. assert (D : spec (mret t) (own_th t) (runs_on pf)) by (eapply spec_ret; [reflexivity|]; split; [reflexivity|exact H]).
  destruct (nth_error (th_qs t) i) as [[q|]|] eqn:E; try exact D.
  apply sp_alloc. intro d. apply sp_use; [right; left; reflexivity|].
  eapply sp_reads; [apply reads_qo_use| |].
  { apply nth_error_split in E. destruct E as (l1 & l2 & E & _). intros x X. right. unfold own_th. rewrite E, own_qs_app, own_qs_cons. cbn [own_opt]. right. rewrite !in_app_iff. tauto. }
  intros _. apply sp_flag. intros []; cbn [negb].
  2: { eapply sp_free; [reflexivity|exact D]. }
  eapply sp_reads; [apply reads_use_opt; [|apply incl_refl]|apply incl_tl; rth|].
  { pose proof (wh_cv _ _ H) as C. destruct (th_cv t); [discriminate|contradiction]. }
  intros _.
  assert (P : forall e, spec (mret (with_qs t (put_entry (th_qs t) i e))) (own_opt own_blk e ++ own_th t) (runs_on pf)).
  { intro e. destruct (own_put (th_qs t) i q e (wh_qs _ _ H) E) as [A P]. eapply spec_ret; [|split; [reflexivity|apply whole_with_qs; [exact A|exact H]]].
    pose proof (own_with_qs t (put_entry (th_qs t) i e)). pm. }
  destruct f; [exact (P (Some d))|]. eapply sp_free; [reflexivity|exact (P None)].
Qed.
Lemma f_calls pf cs : forall t, whole pf t -> spec (th_calls pf t cs) (own_th t) (runs_on pf).
Proof.
  induction cs as [|c cs IH]; intros t H; cbn [th_calls]; [eapply spec_ret; [reflexivity|]; split; [reflexivity|exact H]|].
  eapply spec_bind with (R := runs_on pf).
  - destruct c as [|i f|]; cbn [th_call]; [|apply f_submit, H|apply f_round, H].
    apply sp_use; [left; reflexivity|]. eapply sp_reads; [apply reads_use_opt; [apply H|apply incl_refl]|rth|]. intros _.
    eapply spec_ret; [reflexivity|]. split; [reflexivity|exact H].
  - intros t' l (-> & H'). apply IH, H'.
Qed.
Lemma f_life pf spsc n size w cs : sane pf -> best_clocks pf <> None -> (n = 0 \/ queue_init_ok size = true) ->
  spec (th_life pf spsc n size w cs) (own_writer w) (fun ok l => ok = true /\ l = []).
Proof.
  intros S C Q. unfold th_life. eapply spec_bind; [apply f_th_init; assumption|]. cbv beta. intros r l (t & -> & -> & H & _).
  eapply spec_bind; [apply f_calls, H|]. cbv beta. intros t' l (-> & H').
  eapply spec_bind; [apply f_th_destroy, H'|]. cbv beta. intros _ ? ->. eapply spec_ret; [reflexivity|]. split; reflexivity.
Qed.

(** ** Statements *)
Lemma startable_iff pf n size : (size < 2 ^ 32)%N -> startable pf n size <-> best_clocks pf <> None /\ (n = 0 \/ queue_init_ok size = true).
Proof.
  intro B. pose proof (best_clocks_spec pf) as K. unfold startable.
  assert (Q : queue_init_ok size = true <-> exists k, (1 <= k)%N /\ size = (2 ^ k)%N).
  { rewrite (queue_init_spec size B). unfold queue_size. split.
    - intros (k & R & ->). exists k. split; [lia|reflexivity].
    - intros (k & R & ->). exists k. split; [|reflexivity]. split; [exact R|]. apply N.pow_lt_mono_r_iff in B; lia. }
  rewrite <- Q. destruct (best_clocks pf) as [[g p]|]; [|tauto]. split; [intros [_ H]; split; [discriminate|exact H]|intros [_ H]; split; [apply K|exact H]].
Qed.
Lemma spec_holds {A} (p : mem A) pre Q o h rest : spec p pre Q -> holds h (pre ++ rest) ->
  exists a o' h' l, p o h = MOk a o' h' /\ Q a l /\ holds h' (l ++ rest).
Proof.
  intros S (N & B & P). destruct (S o h rest (conj N B) P) as (a & o' & h' & l & E & [N' B'] & _ & R & P'). exists a, o', h', l. repeat split; assumption.
Qed.
Lemma life_ok pf spsc n size w cs o h rest : (size < 2 ^ 32)%N -> sane pf -> startable pf n size -> holds h (own_writer w ++ rest) ->
  exists o' h', th_life pf spsc n size w cs o h = MOk true o' h' /\ holds h' rest.
Proof.
  intros B S T H. apply (startable_iff pf n size B) in T. destruct T as [C Q].
  destruct (spec_holds _ _ _ o h rest (f_life pf spsc n size w cs S C Q) H) as (a & o' & h' & l & E & [-> ->] & H'). exists o', h'. split; assumption.
Qed.
Lemma running_ok pf spsc n size w cs o h rest : (size < 2 ^ 32)%N -> sane pf -> startable pf n size -> holds h (own_writer w ++ rest) ->
  exists t o1 h1 t' o2 h2, th_init pf spsc n size w o h = MOk (Some t) o1 h1 /\ th_calls pf t cs o1 h1 = MOk t' o2 h2 /\ holds h2 (own_th t' ++ rest).
Proof.
  intros B S T H. apply (startable_iff pf n size B) in T. destruct T as [C Q].
  destruct (spec_holds _ _ _ o h rest (f_th_init pf spsc n size w S C Q) H) as (a & o1 & h1 & l & E & (t & -> & -> & W & _) & H1).
  destruct (spec_holds _ _ _ o1 h1 rest (f_calls pf cs t W) H1) as (t' & o2 & h2 & l2 & E2 & (-> & _) & H2).
  exists t, o1, h1, t', o2, h2. repeat split; try assumption; apply H2.
Qed.
Lemma destroy_raw pf t o h : th_cv t = None -> exists u, th_destroy pf t o h = MUb u.
Proof.
  intro E. unfold th_destroy. rewrite E. cbn [option_map m_use_opt]. unfold mbind at 1. unfold m_use. destruct (inb (th_blk t) (h_live h)); [|eexists; reflexivity].
  unfold mbind at 1. unfold m_undef. eexists. reflexivity.
Qed.
Lemma init_raw pf spsc n size w o h : (size < 2 ^ 32)%N -> ~ startable pf n size -> exists u, th_init pf spsc n size w o h = MUb u.
Proof.
  intros B T. rewrite (startable_iff pf n size B) in T. unfold th_init. unfold mbind at 1. unfold m_alloc at 1.
  destruct (best_clocks pf) as [[g p]|].
  - assert (Q : n <> 0 /\ queue_init_ok size = false).
    { destruct n; [destruct T; split; [discriminate|left; reflexivity]|]. split; [discriminate|]. destruct (queue_init_ok size); [|reflexivity]. destruct T. split; [discriminate|right; reflexivity]. }
    destruct Q as [Nz Q]. destruct n as [|n]; [contradiction|]. cbn [make_queues]. unfold qo_init. rewrite Q. cbn [negb].
    unfold mbind at 1. unfold m_alloc at 1. unfold mbind at 1. unfold mbind at 1. unfold mret at 1. unfold mret at 1. cbn [fst negb].
    unfold mbind at 1. match goal with |- context [th_destroy pf ?t ?o ?h] => destruct (destroy_raw pf t o h eq_refl) as [u ->] end. eexists. reflexivity.
  - unfold mbind at 1. match goal with |- context [th_destroy pf ?t ?o ?h] => destruct (destroy_raw pf t o h eq_refl) as [u ->] end. eexists. reflexivity.
Qed.
Lemma life_raw pf spsc n size w cs o h : (size < 2 ^ 32)%N -> ~ startable pf n size -> exists u, th_life pf spsc n size w cs o h = MUb u.
Proof.
  intros B T. unfold th_life. unfold mbind at 1. destruct (init_raw pf spsc n size w o h B T) as [u ->]. exists u. reflexivity.
Qed.
Lemma init_clocks pf spsc n size w o h t o' h' : th_init pf spsc n size w o h = MOk (Some t) o' h' ->
  clocks_of pf (th_gclk t) (th_pclk t) /\ exists b, th_cv t = Some (b, deadline_clock pf t).
Proof.
  unfold th_init. unfold mbind at 1. unfold m_alloc at 1. pose proof (best_clocks_spec pf) as K. destruct (best_clocks pf) as [[g p]|].
  2: { unfold mbind at 1. match goal with |- context [th_destroy pf ?t ?o ?h] => destruct (destroy_raw pf t o h eq_refl) as [u ->] end. discriminate. }
  destruct K as [_ K]. unfold mbind at 1. unfold m_alloc at 1. unfold mbind at 1. destruct (make_queues _ _ _ _ _) as [[ok qs] o1 h1|]; [|discriminate]. cbn [fst snd].
  destruct ok; cbn [negb].
  2: { unfold mbind at 1. match goal with |- context [th_destroy pf ?t ?o ?h] => destruct (destroy_raw pf t o h eq_refl) as [u ->] end. discriminate. }
  unfold mbind at 1. unfold m_alloc at 1. unfold mbind at 1. unfold m_alloc at 1. unfold mbind at 1.
  match goal with |- context [match ?x with MOk _ _ _ => _ | MUb _ => _ end] => destruct x as [[] o2 h2|]; [|discriminate] end.
  unfold mbind at 1. unfold m_alloc at 1. unfold mbind at 1. unfold m_alloc at 1. unfold mbind at 1. unfold m_alloc at 1.
  unfold mbind at 1. unfold m_use. destruct (inb _ _); [|discriminate]. unfold mbind at 1. unfold m_alloc at 1. unfold mret.
  intro E. injection E as <- <- <-. split; [exact K|]. eexists. unfold deadline_clock. cbn [th_cv th_pclk].
  destruct (pf_gettime pf), (pf_setclock pf); reflexivity.
Qed.

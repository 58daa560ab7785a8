(** Invariant of the I/O thread. *)
From Coq Require Import Permutation.
From Verif Require Import Bytes Spec Bytes_proofs Io Io_proofs SpecTrace SpecStream Control Rdwr Rdwr_proofs Writer Api SpecApi
  Writer_proofs Writer2_proofs Queue4_proofs Iothr SpecIothr Iothr_proofs.
Local Open Scope nat_scope.

(** ** Subsequences *)
Lemma subseq_nil_l {A} (l : list A) : subseq [] l.
Proof. induction l; [apply sub_nil|apply sub_skip; assumption]. Qed.
Lemma subseq_app {A} (a b c d : list A) : subseq a b -> subseq c d -> subseq (a ++ c) (b ++ d).
Proof. induction 1; intro H2; cbn; [assumption|apply sub_skip|apply sub_take]; auto. Qed.
Lemma subseq_snoc {A} (a b : list A) x : subseq a b -> subseq (a ++ [x]) (b ++ [x]).
Proof. intro H. apply subseq_app; [assumption|apply subseq_refl]. Qed.
Lemma subseq_skip_r {A} (a b c : list A) : subseq a b -> subseq a (b ++ c).
Proof. intro H. rewrite <- (app_nil_r a). apply subseq_app; [assumption|apply subseq_nil_l]. Qed.
Lemma subseq_mid {A} (a b c l : list A) : subseq (a ++ b ++ c) l -> subseq (a ++ c) l.
Proof.
  revert a c l. induction b as [|x b IH]; intros a c l H; [assumption|]. apply IH. cbn in H. eapply subseq_drop, H.
Qed.
Lemma subseq_suffix {A} (a b l : list A) : subseq (a ++ b) l -> subseq b l.
Proof. intro H. apply (subseq_mid [] a b l H). Qed.
Lemma subseq_of_nil {A} (l : list A) : subseq l [] -> l = [].
Proof. intro H. inversion H. reflexivity. Qed.
Lemma subseq_map {A B} (f : A -> B) a b : subseq a b -> subseq (map f a) (map f b).
Proof. induction 1; cbn; [apply sub_nil|apply sub_skip|apply sub_take]; auto. Qed.
Lemma subseq_trans {A} (a b c : list A) : subseq a b -> subseq b c -> subseq a c.
Proof.
  intros H K. revert a H. induction K as [|x b c K IH|x b c K IH]; intros a H.
  - assumption.
  - apply sub_skip. auto.
  - inversion H; subst; [apply sub_skip|apply sub_take]; auto.
Qed.

(** ** Events outside the transport *)
Definition ntr (e : event) : Prop :=
  match fst e with QOpen _ | QClose _ | QRead _ _ | QWrite _ _ | QDestroy _ => False | _ => True end.

Section Ntr.
Variable okb : res -> bool.
Lemma ntr_step e s ss : ntr e -> tstep s e = Some s /\ sess_step okb ss e = ss.
Proof. destruct e as [[] a]; cbn; try contradiction; auto. Qed.
Lemma ntr_ts tr h : Forall ntr tr -> transport_state (h ++ tr) = transport_state h.
Proof.
  induction tr as [|e tr IH] using rev_ind; intro F; [rewrite app_nil_r; reflexivity|].
  apply Forall_app in F. destruct F as [F1 F2]. inversion F2; subst. rewrite app_assoc, transport_state_snoc, IH by assumption.
  destruct (transport_state h) as [s|]; [|reflexivity]. apply (ntr_step e s []). assumption.
Qed.
Lemma ntr_sess tr h : Forall ntr tr -> sessions okb (h ++ tr) = sessions okb h.
Proof.
  induction tr as [|e tr IH] using rev_ind; intro F; [rewrite app_nil_r; reflexivity|].
  apply Forall_app in F. destruct F as [F1 F2]. inversion F2; subst. rewrite app_assoc, sessions_snoc, IH by assumption.
  apply (ntr_step e TOpen). assumption.
Qed.
Lemma ntr_SV bi cts h D tr : Forall ntr tr -> SV okb bi cts h D -> SV okb bi cts (h ++ tr) D.
Proof. intros F (L & X). split; [unfold legal; rewrite ntr_ts; assumption|]. rewrite ntr_sess; assumption. Qed.
Lemma ntr_WI bi cts w h D tr : Forall ntr tr -> WI okb bi cts w h D -> WI okb bi cts w (h ++ tr) D.
Proof.
  intros F [W RW V LV]. split; auto.
  - unfold RWI. rewrite ntr_ts; assumption.
  - apply ntr_SV; assumption.
  - intros A B. destruct (LV A B) as (ss & s & dss & ds & E & X). exists ss, s, dss, ds. rewrite ntr_sess; auto.
Qed.
End Ntr.

(** ** Programs without waits and shutdown checks; without polls *)
Definition thev (e : event) : Prop := match fst e with QWait _ | QShutting => False | _ => True end.
Definition evq (e : event) : Prop := match fst e with QWait _ | QShutting | QRemove _ => False | _ => True end.
Lemma evq_thev e : evq e -> thev e.
Proof. destruct e as [[] a]; cbn; auto. Qed.
Lemma evq_removed tr : Forall evq tr -> removed tr = [].
Proof. induction 1 as [|[q a] tr H F IH]; [reflexivity|]. unfold removed in *. cbn. rewrite IH. destruct q; cbn in H; try contradiction; reflexivity. Qed.
Lemma thev_timed tr : Forall thev tr -> forall s, fold_left wait_step tr s = s.
Proof. induction 1 as [|[q a] tr H F IH]; intro s; [reflexivity|]. cbn. destruct q; cbn in H; try contradiction; apply IH. Qed.
Lemma thev_running tr : Forall thev tr -> still_running tr = 0.
Proof. induction 1 as [|[q a] tr H F IH]; [reflexivity|]. unfold still_running in *. cbn. destruct q; cbn in H; try contradiction; exact IH. Qed.

Lemma tev_evq W e : tev W e -> evq e.
Proof. destruct e as [[] a]; cbn; auto. Qed.
Ltac evt := repeat first
  [ apply evp_ret | apply evp_fail | apply evp_if
  | apply evp_bind; [|intros [? ?]] | apply evp_bind; [|intros ?] ].
Lemma th_free_bytes e : evp evq (free_bytes e).
Proof. unfold free_bytes. apply evp_if; [|apply evp_ret]. apply evp_vis; [intros; exact I|]. intros a _. destruct a; evt. Qed.
Lemma th_free_all es : evp evq (free_all es).
Proof. induction es as [|e es IH]; cbn; [apply evp_ret|]. apply evp_bind; [apply th_free_bytes|intro; exact IH]. Qed.
Lemma th_close t : evp evq (iothr_close t).
Proof. unfold iothr_close. apply evp_if; [|evt]. apply evp_bind; [|intros [? ?]; evt]. eapply evp_mono; [apply (tev_evq (fun _ => True))|]. apply ev_wclose. exact I. Qed.
Lemma th_open w : evp evq (writer_open w).
Proof.
  intro h. eapply wp_mono; [|apply (ev_open (fun _ => True))]; [|auto]. intros h' o (tr & -> & [->|(hh & a & tr' & -> & F)]).
  - exists []. auto.
  - eexists. split; [reflexivity|]. constructor; [exact I|]. eapply Forall_impl; [|exact F]. intros. eapply tev_evq; eauto.
Qed.
Lemma th_writev w ps : evp evq (writer_writev w ps).
Proof.
  unfold writer_writev. destruct ps as [|p0 ps0] eqn:EPS; [evt|]. rewrite <- EPS. clear.
  assert (WI : forall w iov, evp evq (write_iov w iov)).
  { intros. unfold write_iov. apply evp_if; [evt|]. apply evp_bind; [|intros [? ?]; evt]. eapply evp_mono; [apply (tev_evq (fun _ => True))|]. apply ev_write. exact I. }
  apply evp_bind.
  - unfold writer_maybe_open. destruct (w_state w); evt. apply th_open.
  - intros [x w']. apply evp_if; [evt|]. destruct (w_state w'); try apply evp_ret. apply evp_if; [evt|]. apply evp_if; [apply WI|].
    unfold write_iov_stupid. cbv zeta. apply evp_if; [evt|].
    assert (G : forall c f w iov, evp evq (write_iov_stupid_loop f c w iov)); [|apply G].
    intros c. induction f as [|f IH]; intros w0 iov; cbn [write_iov_stupid_loop]; destruct iov; try (evt; fail).
    apply evp_bind; [apply WI|]. intros [? ?]. apply evp_if; [evt|]. apply IH.
Qed.
Lemma th_flush t : evp evq (flush_output t).
Proof.
  unfold flush_output. apply evp_bind.
  - apply evp_if; [|evt]. apply evp_bind; [apply th_writev|]. intros [? ?]. cbv zeta. apply evp_if; [apply th_close|evt].
  - intro. apply evp_bind; [apply th_free_all|]. intro. evt.
Qed.
Lemma th_maybe_flush t n : evp evq (maybe_flush_output t n).
Proof. unfold maybe_flush_output. apply evp_if; [evt|]. destruct (t_outq t); [evt|]. apply evp_if; [apply th_flush|evt]. Qed.
Lemma th_entry t e : evp evq (process_queue_entry t e).
Proof.
  unfold process_queue_entry. cbv zeta. apply evp_if; [apply evp_bind; [apply th_maybe_flush|intro; evt]|].
  apply evp_bind; [apply th_free_bytes|intro; evt].
Qed.
Lemma th_maybe_open t : evp evq (maybe_open t).
Proof.
  unfold maybe_open. apply evp_if; [evt|]. apply evp_bind; [apply evp_vis; [intros; exact I|]; intros a _; destruct a; evt|].
  intro now. apply evp_if; [evt|]. unfold iothr_open. apply evp_bind; [apply th_open|]. intros [? ?]. evt.
Qed.
Lemma th_remove i {A} (k : option entry -> io A) : (forall x, evp thev (k x)) -> evp thev (bind (ask_entry i) k).
Proof. intro K. apply evp_bind; [|exact K]. apply evp_vis; [intros; exact I|]. intros a _. destruct a; evt. Qed.
Lemma th_queues n : forall i t tot, evp thev (process_queues_from n i t tot).
Proof.
  induction n as [|n IH]; intros i t tot; cbn [process_queues_from]; [evt|]. apply th_remove. intros [e|]; [|apply IH].
  apply evp_bind; [eapply evp_mono; [exact evq_thev|apply th_entry]|]. intro. apply IH.
Qed.
Lemma th_drain f : forall t, evp thev (drain f t).
Proof. induction f as [|f IH]; intro t; cbn [drain]; [evt|]. apply evp_bind; [apply th_queues|]. intros [? ?]. apply evp_if; [evt|apply IH]. Qed.

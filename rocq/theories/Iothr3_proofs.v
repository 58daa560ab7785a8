(** The I/O thread keeps its invariant. *)
From Coq Require Import Permutation.
From Verif Require Import Bytes Spec Bytes_proofs Io Io_proofs SpecTrace SpecStream Control Rdwr Rdwr_proofs Writer Api SpecApi
  Writer_proofs Writer2_proofs Queue4_proofs Queue Iothr SpecIothr Iothr_proofs Iothr2_proofs.
Local Open Scope nat_scope.

Definition dat (x : nat * entry) : bytes := e_data (snd x).
Definition onl (pd : list (nat * entry)) : list entry := map snd pd.

(** Trace facts. *)
Lemma no_rf_unreleased h tr held : removed tr = [] -> freed tr = [] -> unreleased h held -> unreleased (h ++ tr) held.
Proof. unfold unreleased. intros R F. rewrite removed_app, freed_app, R, F, !app_nil_r. auto. Qed.
Lemma batch_app a b : batch_bytes (a ++ b) = (batch_bytes a + batch_bytes b)%N.
Proof. induction a as [|x a IH]; cbn [batch_bytes fold_right app]; [reflexivity|]. unfold batch_bytes in *. rewrite IH. lia. Qed.
Lemma counted_le b : (counted_bytes b <= batch_bytes b)%N.
Proof.
  destruct b as [|e r]; cbn [counted_bytes]; [apply N.le_0_l|]. change (batch_bytes (e :: r)) with (4 + lenN (e_data e) + batch_bytes r)%N.
  apply N.add_le_mono_r. apply N.mod_le. discriminate.
Qed.
Lemma counted_snoc b e : b <> [] -> counted_bytes (b ++ [e]) = (counted_bytes b + (4 + lenN (e_data e)))%N.
Proof.
  destruct b as [|x b]; [contradiction|]. intros _. cbn [app counted_bytes]. rewrite batch_app. change (batch_bytes [e]) with (4 + lenN (e_data e) + 0)%N. lia.
Qed.
Lemma within_part s b x y z : within s b (x ++ y ++ z) -> within s b y.
Proof.
  intros [A B]. split.
  - unfold lenN in *. rewrite !app_length in A. lia.
  - destruct B as [L|L]; [left; rewrite !app_length in L; lia|].
    destruct y as [|e y]; [left; cbn; lia|]. right. destruct x as [|u x].
    + cbn [app counted_bytes] in L |- *. rewrite batch_app in L. lia.
    + pose proof (counted_le (e :: y)). change ((u :: x) ++ (e :: y) ++ z) with (u :: (x ++ (e :: y) ++ z)) in L. cbn [counted_bytes] in L. rewrite !batch_app in L. lia.
Qed.
Lemma owed_app a b : owed (a ++ b) = owed a ++ owed b.
Proof. apply filter_app. Qed.

Section Thread.
Variable okb : res -> bool.
Hypothesis okb_success : okb r_success = true.
Variables (bi : bool) (cts : list bytes) (opt : iothr_options).
Let size := io_output_queue_size opt.
Let hint := io_buffer_hint opt.
Let nq := N.to_nat (io_num_input_queues opt).
Hypothesis size_pos : (1 <= size)%N.
Hypothesis size_small : (size < 2 ^ 30)%N.
Hypothesis hint_small : (hint <= 2 ^ 32)%N.
Local Notation sessions := (SpecTrace.sessions okb).
Local Notation WI := (Writer_proofs.WI okb bi cts).
Local Notation SV := (Writer_proofs.SV okb bi cts).

Definition goodh (h : trace) : Prop := forall l1 e l2, h = l1 ++ e :: l2 -> good size hint l1 e.

Lemma goodh_nil : goodh [].
Proof. intros l1 e l2 E. destruct l1; discriminate. Qed.
Lemma goodh_app h tr : goodh h -> (forall l1 e l2, tr = l1 ++ e :: l2 -> good size hint (h ++ l1) e) -> goodh (h ++ tr).
Proof.
  intros G K l1 e l2 E. apply app_eq_app in E. destruct E as (l & [[-> E]|[-> E]]).
  - destruct l as [|x l]; [rewrite app_nil_r in *; cbn in E; apply (K [] e l2) in E || (specialize (K [] e l2 (eq_sym E)))|].
    + rewrite app_nil_r in K. exact K.
    + cbn in E. injection E as <- ->. eapply G. rewrite <- ?app_assoc. reflexivity.
  - apply (K l e l2). assumption.
Qed.
Lemma goodh_snoc h e : goodh h -> good size hint h e -> goodh (h ++ [e]).
Proof.
  intros G K. apply goodh_app; [assumption|]. intros l1 e' l2 E. destruct l1 as [|x l1]; [|destruct l1; discriminate].
  injection E as <- _. rewrite app_nil_r. assumption.
Qed.
(** Transport calls: only the writes matter. *)
Lemma goodh_tev W h tr : goodh h -> Forall (tev W) tr ->
  (forall l1 l2 hh iov a, Forall (tev W) l1 -> tr = l1 ++ l2 -> W iov -> good size hint (h ++ l1) (QWrite hh iov, a)) -> goodh (h ++ tr).
Proof.
  intros G F K. apply goodh_app; [assumption|]. intros l1 [q a] l2 ->. apply Forall_app in F. destruct F as [F1 F2]. inversion F2 as [|? ? T F3]; subst.
  destruct q; cbn in T; try contradiction; try exact I. eapply K; eauto.
Qed.
Lemma goodh_ctl h tr : goodh h -> Forall (tev control_write) tr -> goodh (h ++ tr).
Proof. intros G F. eapply goodh_tev; eauto. intros. cbn. auto. Qed.

Lemma healthy_back h tr : healthy (h ++ tr) -> Forall no_start tr -> healthy h.
Proof.
  intros [O (l1 & hh & ct & l2 & E & N)] F. apply Forall_app in O. split; [apply O|].
  apply app_eq_app in E. destruct E as (l & [[-> E]|[-> E]]).
  - destruct l as [|x l]; [rewrite app_nil_r in *; cbn in E; subst tr; inversion F as [|? ? X]; exfalso; eapply X; reflexivity|].
    cbn in E. injection E as <- ->. exists l1, hh, ct, l. auto.
  - subst tr. exfalso. apply Forall_app in F. destruct F as [_ F]. inversion F as [|? ? X]. eapply X. reflexivity.
Qed.
Lemma ntr_no_start e : ntr e -> no_start e.
Proof. intros H hh ct ->. exact H. Qed.
Lemma tev_stop_no_start tr : Forall (tev (fun iov => iov = [stop_frame])) tr -> Forall no_start tr.
Proof.
  intro F. eapply Forall_impl; [|exact F]. apply tev_no_start. intros ct E.
  assert (E2 : ctl_frame T_START (optl ct) = ctl_frame T_STOP []) by exact (f_equal (hd []) E).
  apply ctl_frame_type in E2; [discriminate|reflexivity|reflexivity].
Qed.

(** ** The parts of the invariant *)
Record WP (t : iothr) (h : trace) (W : list (nat * entry)) : Prop := {
  wp_wi : WI (t_writer t) h (map dat W);
  wp_open_st : t_opened t = true -> w_state (t_writer t) = ws_opened /\ rw_opened (w_rdwr (t_writer t)) = true;
  wp_closed_st : t_opened t = false -> w_state (t_writer t) <> ws_opened }.

Definition times_ok (last : Z) (h : trace) : Prop :=
  spaced (Z.of_N (io_reopen_interval opt)) (open_times h) /\
  match open_times h with [] => (0 <= last)%Z | Some x :: _ => (x <= last)%Z | None :: _ => False end.

Definition live_now (h : trace) (W : list (nat * entry)) : Prop :=
  exists ss ct, start_choice bi cts ct /\ sessions h = ss ++ [session_head bi cts ct ++ datas (map dat W)].

(** [W]: written (in order); [oq]: the batch; [pd]: taken from a queue, not yet in
    the batch. *)
Record TI (t : iothr) (h : trace) (W oq pd : list (nat * entry)) : Prop := {
  ti_w : WP t h W;
  ti_outq : t_outq t = map snd oq;
  ti_sub : subseq (W ++ oq ++ pd) (removed h);
  ti_perm : Permutation (owed (map snd (removed h))) (freed h ++ owed (t_outq t ++ onl pd));
  ti_within : within size hint (t_outq t);
  ti_bytes : t_nbytes t = counted_bytes (t_outq t);
  ti_closed : t_opened t = false -> length (t_outq t) <= 1;
  ti_opt : t_opt t = opt;
  ti_times : times_ok (t_last_open t) h;
  ti_good : goodh h;
  ti_health : healthy h -> t_opened t = true /\ W ++ oq ++ pd = removed h /\ live_now h W }.

(** Whenever the run is cut. *)
Definition CI (h : trace) : Prop := exists W held,
  SV h (map dat W) /\ subseq W (removed h) /\ unreleased h held /\ goodh h /\ spaced (Z.of_N (io_reopen_interval opt)) (open_times h).

Lemma TI_held t h W oq pd : TI t h W oq pd -> unreleased h (t_outq t ++ onl pd).
Proof.
  intros []. split; [|assumption]. rewrite ti_outq0. unfold onl. rewrite <- map_app. apply subseq_map. eapply subseq_suffix. exact ti_sub0.
Qed.
Lemma TI_CI t h W oq pd : TI t h W oq pd -> CI h.
Proof.
  intro T. exists W, (t_outq t ++ onl pd). split; [apply (wi_sv _ _ _ _ _ _ (wp_wi _ _ _ (ti_w _ _ _ _ _ T)))|].
  split; [eapply subseq_prefix, (ti_sub _ _ _ _ _ T)|]. split; [eapply TI_held, T|]. split; [apply (ti_good _ _ _ _ _ T)|apply (ti_times _ _ _ _ _ T)].
Qed.

(** ** Releasing *)
Definition isfree (e : event) : Prop := exists x, e = (QFree x, AUnit).
Lemma isfree_facts tr : Forall isfree tr -> Forall ntr tr /\ Forall no_start tr /\ removed tr = [] /\ (forall s, fold_left clock_step tr s = s).
Proof.
  induction 1 as [|e tr [x ->] F (A & B & C & D)]; [auto|]. repeat split; try (constructor; auto; fail).
  - constructor; [exact I|assumption].
  - constructor; [|assumption]. intros ? ?. discriminate.
  - exact C.
  - intro s. cbn. apply D.
Qed.
Lemma isfree_good h tr : Forall isfree tr -> goodh h -> goodh (h ++ tr).
Proof.
  intros F G. apply goodh_app; [assumption|]. intros l1 e l2 ->. apply Forall_app in F. destruct F as [_ F]. inversion F as [|? ? [x ->]]. exact I.
Qed.
Lemma wp_free_all es : forall h, wp (free_all es) (fun h' o => exists tr es1 es2, h' = h ++ tr /\ Forall isfree tr /\ es = es1 ++ es2 /\ freed tr = owed es1 /\
   match o with Done _ => es2 = [] | Cut => True | Stuck _ => False end) h.
Proof.
  induction es as [|e es IH]; intro h; cbn [free_all].
  - cbn. exists [], [], []. rewrite app_nil_r. repeat split; auto; constructor.
  - apply wp_bind_i. unfold free_bytes. destruct (e_free e) eqn:EF.
    + cbn. split.
      { exists [], [], (e :: es). rewrite app_nil_r. repeat split; auto; constructor. }
      intros a Ha. destruct a; try contradiction. cbn. eapply wp_mono; [|apply IH].
      intros h' o (tr & es1 & es2 & -> & F & -> & E & O). exists ((QFree e, AUnit) :: tr), (e :: es1), es2. rewrite <- app_assoc. split; [reflexivity|].
      split; [constructor; [eexists; reflexivity|assumption]|]. split; [reflexivity|]. split; [|exact O]. unfold freed, owed in *. cbn. rewrite EF, E. reflexivity.
    + cbn. eapply wp_mono; [|apply IH]. intros h' o (tr & es1 & es2 & -> & F & -> & E & O). exists tr, (e :: es1), es2. repeat split; auto.
      unfold owed in *. cbn. rewrite EF. exact E.
Qed.

(** The state between writing a batch and releasing it. *)
Record MI (t : iothr) (h : trace) (W : list (nat * entry)) (pd : list (nat * entry)) : Prop := {
  mi_w : WP t h W;
  mi_sub : subseq (W ++ pd) (removed h);
  mi_held : subseq (t_outq t ++ onl pd) (map snd (removed h));
  mi_perm : Permutation (owed (map snd (removed h))) (freed h ++ owed (t_outq t ++ onl pd));
  mi_opt : t_opt t = opt;
  mi_times : times_ok (t_last_open t) h;
  mi_good : goodh h;
  mi_health : healthy h -> t_opened t = true /\ W ++ pd = removed h /\ live_now h W }.

Lemma MI_CI t h W pd : MI t h W pd -> CI h.
Proof.
  intros []. exists W, (t_outq t ++ onl pd). split; [apply (wi_sv _ _ _ _ _ _ (wp_wi _ _ _ mi_w0))|].
  split; [eapply subseq_prefix, mi_sub0|]. split; [split; assumption|]. split; [assumption|apply mi_times0].
Qed.
Lemma clock_times h tr : (forall s, fold_left clock_step tr s = s) -> open_times (h ++ tr) = open_times h.
Proof. intro E. unfold open_times. rewrite clock_app, E. reflexivity. Qed.
Lemma WP_ntr t h W tr : Forall ntr tr -> WP t h W -> WP t (h ++ tr) W.
Proof. intros F [A B C]. split; auto. apply ntr_WI; assumption. Qed.
Lemma live_ntr h W tr : Forall ntr tr -> live_now h W -> live_now (h ++ tr) W.
Proof. intros F (ss & ct & A & B). exists ss, ct. rewrite ntr_sess by assumption. auto. Qed.

Lemma wp_release t h W pd : MI t h W pd ->
  wp (bind (free_all (t_outq t)) (fun _ => Ret (t_set_outq t [] 0))) (fun h' o => match o with
    | Done t' => TI t' h' W [] pd /\ t_outq t' = [] /\ t_opened t' = t_opened t
    | Cut => CI h' | Stuck _ => False end) h.
Proof.
  intro M. apply wp_bind_i. eapply wp_mono; [|apply wp_free_all]. intros h' o (tr & es1 & es2 & -> & F & E & EF & O).
  destruct (isfree_facts tr F) as (Fn & Fs & R0 & CK).
  assert (R : removed (h ++ tr) = removed h) by (rewrite removed_app, R0, app_nil_r; reflexivity).
  assert (P : Permutation (owed (map snd (removed (h ++ tr)))) (freed (h ++ tr) ++ owed (es2 ++ onl pd))).
  { rewrite R, freed_app, EF. rewrite (mi_perm _ _ _ _ M), E, !owed_app, !app_assoc. reflexivity. }
  destruct o as [u| |]; [|contradiction|].
  - subst es2. rewrite app_nil_r in E. cbn [bind_post wp]. split; [|split; reflexivity]. destruct M. split; cbn [t_set_outq t_outq t_opened t_nbytes t_opt t_last_open t_writer]; auto.
    + destruct mi_w0. split; auto. apply ntr_WI; assumption.
    + rewrite R. exact mi_sub0.
    + split; [apply N.le_0_l|]. left. cbn. lia.
    + destruct mi_times0 as [A B]. split; rewrite clock_times; assumption.
    + apply isfree_good; assumption.
    + intro Hh. destruct (mi_health0 (healthy_back _ _ Hh Fs)) as (A & B & C). rewrite R. split; [assumption|]. split; [assumption|]. apply live_ntr; assumption.
  - destruct M. cbn. exists W, (es2 ++ onl pd). split; [apply ntr_SV; [assumption|apply (wi_sv _ _ _ _ _ _ (wp_wi _ _ _ mi_w0))]|]. rewrite R. split; [eapply subseq_prefix, mi_sub0|].
    split; [split; [|rewrite R; rewrite R in P; exact P]|].
    + rewrite R. rewrite E, <- app_assoc in mi_held0. eapply subseq_suffix, mi_held0.
    + split; [apply isfree_good; assumption|]. rewrite clock_times by assumption. apply mi_times0.
Qed.

(** ** Flushing *)
Lemma wp_wclose w h D : WI w h D ->
  wp (writer_close w) (fun h' o => (exists tr, h' = h ++ tr /\ Forall (tev (fun iov => iov = [stop_frame])) tr) /\
    match o with Done (x, w') => WI w' h' D /\ w_state w' <> ws_opened | Cut => SV h' D | Stuck _ => False end) h.
Proof.
  intro I. apply wp_and; [apply ev_wclose; reflexivity|]. destruct (w_state w) eqn:ES.
  2:{ eapply (wp_close_WI okb okb_success); [exact I|auto|]. intros h' x w' I' _ C _. destruct (C ES) as [_ C2]. split; [assumption|]. rewrite C2. discriminate. }
  all: unfold writer_close; rewrite ES; cbn; split; [assumption|congruence].
Qed.
Lemma tev_ctl_stop tr : Forall (tev (fun iov => iov = [stop_frame])) tr -> Forall (tev control_write) tr.
Proof.
  intro F. eapply Forall_impl; [|exact F]. intros [q a]. destruct q; cbn; auto. intros ->. exists T_STOP, []. reflexivity.
Qed.
Lemma prefix_map {A B} (f : A -> B) p (l : list A) : prefix p (map f l) -> exists l1 l2, l = l1 ++ l2 /\ p = map f l1.
Proof. intros [c E]. apply map_eq_app in E. destruct E as (l1 & l2 & -> & <- & _). eauto. Qed.

Definition data_write (ps : list bytes) (iov : list bytes) : Prop := exists a b c, ps = a ++ b ++ c /\ b <> [] /\ iov = frame_iovecs b.
Lemma data_write_no_start ps ct : ~ data_write ps [start_frame ct].
Proof. intros (a & b & c & _ & N & E). destruct b as [|x b]; [congruence|]. discriminate. Qed.

Lemma goodh_data t h W oq pd tr : TI t h W oq pd -> Forall (tev (data_write (map e_data (t_outq t)))) tr -> goodh (h ++ tr).
Proof.
  intros T F. eapply goodh_tev; [apply (ti_good _ _ _ _ _ T)|exact F|]. intros l1 l2 hh iov a F1 _ (x & y & z & E & _ & ->).
  destruct (tev_removed _ _ F1) as [R1 R2]. cbn. right.
  apply map_eq_app in E. destruct E as (ex & r & E & <- & E2). apply map_eq_app in E2. destruct E2 as (ey & ez & -> & <- & <-).
  exists (t_outq t ++ onl pd), ey. split; [apply no_rf_unreleased; auto; eapply TI_held, T|]. split; [|split].
  - apply subseq_skip_r. rewrite E. rewrite <- (app_nil_l ey) at 1. apply subseq_app; [apply subseq_nil_l|]. apply subseq_skip_r, subseq_refl.
  - apply frames_eq.
  - eapply within_part with (x := ex) (z := ez). rewrite <- E. apply (ti_within _ _ _ _ _ T).
Qed.

Lemma wp_flush t h W oq pd : TI t h W oq pd ->
  wp (flush_output t) (fun h' o => match o with
    | Done t' => exists W', TI t' h' W' [] pd /\ t_outq t' = [] | Cut => CI h' | Stuck _ => False end) h.
Proof.
  intro T. unfold flush_output. apply wp_bind_i.
  assert (REL : forall t1 h1 W1, MI t1 h1 W1 pd ->
    wp (bind (free_all (t_outq t1)) (fun _ => Ret (t_set_outq t1 [] 0))) (fun h' o => match o with
      | Done t' => exists W', TI t' h' W' [] pd /\ t_outq t' = [] | Cut => CI h' | Stuck _ => False end) h1).
  { intros t1 h1 W1 M. eapply wp_mono; [|eapply wp_release, M]. intros h' o K. destruct o; auto. destruct K as (K1 & K2 & _). eauto. }
  pose proof (TI_held _ _ _ _ _ T) as HELD. pose proof (fun tr => goodh_data t h W oq pd tr T) as GD.
  destruct T as [TW TQ TS TP TWI TB TC TO TT TG TH].
  assert (M0 : (W ++ pd = W ++ oq ++ pd \/ t_opened t = false) -> MI t h W pd).
  { intro C. split; auto.
    - eapply subseq_mid, TS.
    - apply HELD.
    - intro Hh. destruct (TH Hh) as (A & B & D). destruct C as [C|C]; [|congruence]. rewrite C. auto. }
  destruct (t_opened t && _)%bool eqn:EC.
  2:{ cbn [wp bind_post]. apply REL with (W1 := W). apply M0. apply andb_false_iff in EC. destruct EC as [EC|EC]; [auto|].
      left. destruct (t_outq t) eqn:EQ; [|discriminate]. destruct oq; [reflexivity|discriminate]. }
  apply andb_true_iff in EC. destruct EC as [EO EN]. destruct TW as [TWI0 TWO TWC]. destruct (TWO EO) as [ES ER].
  set (ps := map e_data (t_outq t)) in *.
  assert (EPS : ps = map dat oq) by (subst ps; rewrite TQ, map_map; reflexivity).
  apply wp_bind_i.
  assert (WV : wp (writer_writev (t_writer t) ps) (fun h' o =>
     (exists tr, h' = h ++ tr /\ Forall (tev (data_write ps)) tr) /\ wrote_ok okb (t_writer t) ps h h' o /\
     match o with Cut => call_cut okb bi cts ps (map dat W) h' | Done (x, w') => call_done okb bi cts ps (map dat W) (t_writer t) x w' h' | Stuck _ => False end) h).
  { apply wp_and; [apply (ev_writev (data_write ps) ps); [|assumption]|].
    - intros a b c E N. exists a, b, c. auto.
    - apply wp_and; [apply nf_writev; auto; apply TWI0|].
      eapply (wp_writev okb okb_success); [exact TWI0| |auto|auto]. destruct TWI as [TWI _]. unfold lenN, ps in *. rewrite map_length. lia. }
  eapply wp_mono; [|exact WV]. clear WV. intros h1 o ((tr & -> & F) & WO & K).
  assert (FN : Forall no_start tr) by (eapply Forall_impl; [|exact F]; apply tev_no_start, data_write_no_start).
  destruct (tev_removed _ _ F) as [R1 R2]. pose proof (tev_clock _ _ F) as CK. specialize (GD tr F).
  assert (R : removed (h ++ tr) = removed h) by (rewrite removed_app, R1, app_nil_r; reflexivity).
  assert (FR : freed (h ++ tr) = freed h) by (rewrite freed_app, R2, app_nil_r; reflexivity).
  assert (TT' : times_ok (t_last_open t) (h ++ tr)) by (destruct TT as [A B]; split; rewrite clock_times; assumption).
  destruct o as [[x w1]| |]; [|contradiction|].
  2:{ cbn. destruct K as (σ & PX & V). rewrite EPS in PX. apply prefix_map in PX. destruct PX as (o1 & o2 & -> & ->). rewrite <- map_app in V.
      exists (W ++ o1), (t_outq t ++ onl pd). split; [exact V|]. rewrite R. split.
      - rewrite <- app_assoc, app_assoc in TS. eapply subseq_prefix, TS.
      - split; [apply no_rf_unreleased; assumption|]. split; [assumption|apply TT']. }
  destruct K as (σ & PX & SX & I1 & _). rewrite EPS in PX. apply prefix_map in PX. destruct PX as (o1 & o2 & -> & ->). rewrite <- map_app in I1.
  cbn [bind_post]. cbv zeta. destruct WO as [(-> & -> & E1)|[NX NO]].
  - cbn [res_eqb negb wp bind_post]. specialize (SX eq_refl). rewrite EPS in SX. assert (EO2 : o2 = []).
    { apply (f_equal (@length _)) in SX. rewrite !map_length, app_length in SX. destruct o2; [reflexivity|cbn in SX; lia]. }
    subst o2. rewrite app_nil_r in *. apply REL with (W1 := W ++ o1). split; cbn [t_set_writer t_writer t_opened t_outq t_last_open t_opt]; auto.
    + split; cbn; auto.
    + rewrite <- app_assoc, R. exact TS.
    + rewrite R. apply HELD.
    + rewrite R, FR. apply HELD.
    + intro Hh. destruct (TH (healthy_back _ _ Hh FN)) as (A & B & (ss & ct & C & D)). rewrite R, <- app_assoc. split; [assumption|]. split; [assumption|].
      exists ss, ct. split; [assumption|]. rewrite E1, D, add_last_snoc, <- app_assoc, EPS, map_app, datas_app. reflexivity.
  - rewrite (ne_eqb _ NX). cbn [negb]. unfold iothr_close. cbn [t_set_writer t_opened t_writer]. rewrite EO. apply wp_bind_i.
    eapply wp_mono; [|apply wp_wclose, I1]. intros h2 o ((tr2 & -> & F2) & K).
    destruct (tev_removed _ _ F2) as [R3 R4]. pose proof (tev_clock _ _ F2) as CK2.
    assert (R' : removed ((h ++ tr) ++ tr2) = removed h) by (rewrite removed_app, R3, app_nil_r; exact R).
    assert (FR' : freed ((h ++ tr) ++ tr2) = freed h) by (rewrite freed_app, R4, app_nil_r; exact FR).
    assert (TT2 : times_ok (t_last_open t) ((h ++ tr) ++ tr2)) by (destruct TT' as [A B]; split; rewrite clock_times; assumption).
    assert (G2 : goodh ((h ++ tr) ++ tr2)) by (apply goodh_ctl; [assumption|apply tev_ctl_stop, F2]).
    assert (SB : subseq (W ++ o1) (removed h)) by (rewrite <- app_assoc, app_assoc in TS; eapply subseq_prefix, TS).
    destruct o as [[y w2]| |]; [|contradiction|].
    + destruct K as [I2 C2]. cbn [bind_post wp]. cbn [bind_post wp]. apply REL with (W1 := W ++ o1). split; cbn [t_set_writer t_set_opened t_writer t_opened t_outq t_last_open t_opt]; auto.
      * split; cbn; auto. discriminate.
      * rewrite R'. rewrite <- app_assoc in TS. rewrite app_assoc in TS. rewrite app_assoc in TS. rewrite <- app_assoc in TS. eapply subseq_mid. exact TS.
      * rewrite R'. apply HELD.
      * rewrite R', FR'. apply HELD.
      * intros [Hh _]. apply Forall_app in Hh. destruct Hh as [Hh _]. contradiction.
    + cbn. exists (W ++ o1), (t_outq t ++ onl pd). split; [exact K|]. rewrite R'. split; [exact SB|]. split; [|split; [assumption|apply TT2]].
      unfold unreleased. rewrite R', FR'. exact HELD.
Qed.

(** ** Taking one entry *)
Definition flushed_room (t : iothr) (h : trace) (n : N) : Prop :=
  (lenN (t_outq t) < size)%N /\ (t_outq t = [] \/ (counted_bytes (t_outq t) + n < hint)%N) /\ (t_opened t = false -> t_outq t = []).
Lemma wp_maybe_flush t h W oq pd n : TI t h W oq pd -> t_opened t = true ->
  wp (maybe_flush_output t n) (fun h' o => match o with
    | Done t' => (exists W' oq', TI t' h' W' oq' pd) /\ flushed_room t' h' n
    | Cut => CI h' | Stuck _ => False end) h.
Proof.
  intros T EO. unfold maybe_flush_output. rewrite (ti_opt _ _ _ _ _ T). fold size hint.
  destruct (ti_within _ _ _ _ _ T) as [L B]. destruct (size <? lenN (t_outq t))%N eqn:E1; [lia|].
  destruct (t_outq t) as [|e0 r0] eqn:EQ.
  - cbn. split; [eauto|]. split; [rewrite EQ; cbn; lia|]. split; auto.
  - rewrite <- EQ in *. destruct ((size <=? lenN (t_outq t)) || (hint <=? t_nbytes t + n))%N eqn:E2.
    + eapply wp_mono; [|eapply wp_flush, T]. intros h' o K. destruct o as [t'| |]; auto. destruct K as (W' & T' & EQ').
      split; [eauto|]. split; [rewrite EQ'; cbn; lia|]. split; auto.
    + cbn. apply orb_false_iff in E2. destruct E2 as [E2 E3]. split; [eauto|]. split; [lia|]. split; [|congruence].
      right. rewrite <- (ti_bytes _ _ _ _ _ T). lia.
Qed.

Lemma wp_free_one e h : wp (free_bytes e) (fun h' o => exists tr, h' = h ++ tr /\ Forall isfree tr /\
   match o with Done _ => freed tr = owed [e] | Cut => tr = [] | Stuck _ => False end) h.
Proof.
  unfold free_bytes. destruct (e_free e) eqn:EF.
  - cbn. split; [exists []; rewrite app_nil_r; auto|]. intros a Ha. destruct a; try contradiction. cbn. eexists. split; [reflexivity|].
    split; [repeat constructor; eexists; reflexivity|]. unfold owed. cbn. rewrite EF. reflexivity.
  - cbn. exists []. rewrite app_nil_r. unfold owed. cbn. rewrite EF. auto.
Qed.

Lemma wp_entry t h W oq x : TI t h W oq [x] ->
  wp (process_queue_entry t (snd x)) (fun h' o => match o with
    | Done t' => exists W' oq', TI t' h' W' oq' [] | Cut => CI h' | Stuck _ => False end) h.
Proof.
  intro T. unfold process_queue_entry. destruct (t_opened t) eqn:EO.
  - cbv zeta. apply wp_bind_i. eapply wp_mono; [|eapply wp_maybe_flush; eassumption]. intros h' o K. destruct o as [t'| |]; auto.
    destruct K as ((W' & oq' & T') & L & B & C). cbn [bind_post]. rewrite (ti_opt _ _ _ _ _ T'). fold size.
    destruct (size <=? lenN (t_outq t'))%N eqn:E; [lia|]. cbn [wp]. exists W', (oq' ++ [x]).
    destruct T'. split; cbn [t_set_outq t_outq t_nbytes t_opened t_opt t_last_open t_writer]; auto.
    + destruct ti_w0. split; auto.
    + rewrite ti_outq0, map_app. reflexivity.
    + rewrite app_nil_r. exact ti_sub0.
    + rewrite app_nil_r. exact ti_perm0.
    + split; [unfold lenN in *; rewrite app_length; cbn [length]; lia|]. destruct B as [Z|Z]; [left; rewrite Z; cbn; lia|].
      destruct (t_outq t') as [|e0 q0] eqn:EQ; [left; cbn; lia|]. right. rewrite counted_snoc by discriminate. lia.
    + rewrite ti_bytes0. unfold wrap32. destruct (t_outq t') as [|e0 q0] eqn:EQ.
      * change (counted_bytes ([] ++ [snd x])) with ((4 + lenN (e_data (snd x))) mod 2 ^ 32 + 0)%N. rewrite N.add_0_r. reflexivity.
      * rewrite counted_snoc by discriminate. apply N.mod_small. destruct B as [Z|Z]; [discriminate|lia].
    + intro CO. rewrite (C CO). cbn. lia.
    + intro Hh. destruct (ti_health0 Hh) as (A1 & A2 & A3). rewrite app_nil_r. auto.
  - apply wp_bind_i. eapply wp_mono; [|apply wp_free_one]. intros h' o (tr & -> & F & K).
    destruct (isfree_facts tr F) as (Fn & Fs & R0 & CK).
    destruct o as [u| |]; [|contradiction|subst tr; rewrite app_nil_r; eapply TI_CI, T].
    cbn. exists W, oq.
    assert (R : removed (h ++ tr) = removed h) by (rewrite removed_app, R0, app_nil_r; reflexivity).
    destruct T. split; auto.
    + apply WP_ntr; assumption.
    + rewrite R, app_nil_r. rewrite app_assoc in ti_sub0. eapply subseq_prefix, ti_sub0.
    + rewrite R, freed_app, K, ti_perm0. cbn [onl map]. rewrite app_nil_r, owed_app, <- app_assoc. apply Permutation_app_head, Permutation_app_comm.
    + destruct ti_times0. split; rewrite clock_times; assumption.
    + apply isfree_good; assumption.
    + intro Hh. destruct (ti_health0 (healthy_back _ _ Hh Fs)) as (A1 & _). congruence.
Qed.

(** ** Single events *)
Lemma times_one h e : (forall hh, fst e <> QOpen hh) -> open_times (h ++ [e]) = open_times h.
Proof.
  intro N. unfold open_times. rewrite clock_app. cbn. destruct e as [[] a]; cbn; try reflexivity; try (exfalso; eapply N; reflexivity). destruct a; reflexivity.
Qed.
Lemma TI_event t h W oq pd e : TI t h W oq pd -> ntr e -> removed_at e = [] -> freed_at e = [] -> good size hint h e -> TI t (h ++ [e]) W oq pd.
Proof.
  intros T N RE FE G.
  assert (R : removed (h ++ [e]) = removed h) by (rewrite removed_app; unfold removed at 2; cbn; rewrite RE; apply app_nil_r).
  assert (FR : freed (h ++ [e]) = freed h) by (rewrite freed_app; unfold freed at 2; cbn; rewrite FE; apply app_nil_r).
  assert (FN : Forall ntr [e]) by (repeat constructor; assumption).
  destruct T. split; rewrite ?R, ?FR; auto.
  - apply WP_ntr; assumption.
  - destruct ti_times0. split; rewrite times_one; auto; intros hh E; unfold ntr in N; rewrite E in N; exact N.
  - apply goodh_snoc; assumption.
  - intro Hh. destruct (ti_health0) as (A & B & C); [eapply healthy_back; [exact Hh|]; repeat constructor; apply ntr_no_start, N|].
    split; [assumption|]. split; [assumption|]. apply live_ntr; assumption.
Qed.
Lemma TI_poll t h W oq : TI t h W oq [] -> exists held, unreleased h held /\ within size hint held /\ (transport_state h <> Some TOpen -> length held <= 1).
Proof.
  intro T. exists (t_outq t). pose proof (TI_held _ _ _ _ _ T) as H. cbn [onl map] in H. rewrite app_nil_r in H. split; [assumption|].
  split; [apply (ti_within _ _ _ _ _ T)|]. intro NO. destruct (t_opened t) eqn:EO; [|apply (ti_closed _ _ _ _ _ T EO)].
  exfalso. apply NO. destruct (ti_w _ _ _ _ _ T) as [I O _]. destruct (O EO) as [_ R]. pose proof (wi_rw _ _ _ _ _ _ I) as RW. unfold RWI in RW. rewrite R in RW. exact RW.
Qed.
Lemma TI_take t h W oq i e : TI t h W oq [] -> TI t (h ++ [(QRemove i, AEntry (Some e))]) W oq [(i, e)].
Proof.
  intro T. pose proof (TI_poll _ _ _ _ T) as TP.
  assert (R : removed (h ++ [(QRemove i, AEntry (Some e))]) = removed h ++ [(i, e)]) by (rewrite removed_app; reflexivity).
  assert (FR : freed (h ++ [(QRemove i, AEntry (Some e))]) = freed h) by (rewrite freed_app; apply app_nil_r).
  assert (FN : Forall ntr [(QRemove i, AEntry (Some e))]) by (repeat constructor).
  destruct T. cbn [onl map] in *. rewrite ?app_nil_r in *. split; rewrite ?R, ?FR; auto.
  - apply WP_ntr; assumption.
  - rewrite app_assoc. apply subseq_snoc. assumption.
  - rewrite map_app, owed_app, ti_perm0. cbn [onl map]. rewrite owed_app, app_assoc. reflexivity.
  - destruct ti_times0. split; rewrite times_one; auto; intros hh; discriminate.
  - apply goodh_snoc; assumption.
  - intro Hh. destruct (ti_health0) as (A & B & C); [eapply healthy_back; [exact Hh|]; repeat constructor; intros ? ?; discriminate|].
    split; [assumption|]. split; [rewrite app_assoc, B; reflexivity|]. apply live_ntr; assumption.
Qed.

(** ** One pass over the queues *)
Lemma evp_wp {A} P (p : io A) (Q : post A) h : evp P p -> wp p Q h -> wp p (fun h' o => (exists tr, h' = h ++ tr /\ Forall P tr) /\ Q h' o) h.
Proof. intros E K. apply wp_and; [apply E|exact K]. Qed.

Lemma wp_queues n : forall i t h W oq tot, TI t h W oq [] ->
  wp (process_queues_from n i t tot) (fun h' o => match o with
    | Done (tot', t') => (exists W' oq', TI t' h' W' oq' []) /\
        exists tr, h' = h ++ tr /\ tot' = (tot + lenN (removed tr))%N /\ (removed tr = [] -> forall j, i <= j < i + n -> In (QRemove j, AEntry None) tr)
    | Cut => CI h' | Stuck _ => False end) h.
Proof.
  induction n as [|n IH]; intros i t h W oq tot T; cbn [process_queues_from].
  - cbn [wp]. split; [eauto|]. exists []. rewrite app_nil_r. split; [reflexivity|]. split; [cbn; lia|]. intros; lia.
  - pose proof (TI_poll _ _ _ _ T) as TP. cbn [bind ask_entry wp]. split; [eapply TI_CI, T|]. intros a Ha. destruct a as [ | | |oe| | ]; try contradiction. cbn [bind]. destruct oe as [e|].
    + apply wp_bind_i. eapply wp_mono; [|eapply evp_wp; [apply th_entry|apply (wp_entry t _ W oq (i, e)), TI_take, T]].
      intros h1 o ((tr1 & -> & F1) & K). destruct o as [t1| |]; [|contradiction|exact K]. destruct K as (W1 & oq1 & T1). cbn [bind_post].
      eapply wp_mono; [|eapply IH, T1]. intros h2 o K. destruct o as [[tot' t2]| |]; auto. destruct K as (T2 & tr & -> & ET & EN). split; [assumption|].
      exists ((QRemove i, AEntry (Some e)) :: tr1 ++ tr). split; [rewrite <- !app_assoc; reflexivity|].
      assert (ER : removed ((QRemove i, AEntry (Some e)) :: tr1 ++ tr) = (i, e) :: removed tr).
      { change ((QRemove i, AEntry (Some e)) :: tr1 ++ tr) with ([(QRemove i, AEntry (Some e))] ++ tr1 ++ tr). rewrite !removed_app, (evq_removed _ F1). reflexivity. }
      rewrite ER. split; [|discriminate]. rewrite ET. unfold lenN. cbn [length]. lia.
    + assert (T1 : TI t (h ++ [(QRemove i, AEntry None)]) W oq []) by (apply TI_event; [assumption|exact I|reflexivity|reflexivity|exact TP]).
      eapply wp_mono; [|eapply IH, T1]. intros h2 o K. destruct o as [[tot' t2]| |]; auto. destruct K as (T2 & tr & -> & ET & EN). split; [assumption|].
      exists ((QRemove i, AEntry None) :: tr). split; [rewrite <- app_assoc; reflexivity|]. split; [exact ET|].
      intros Z j Hj. destruct (Nat.eq_dec i j) as [->|NE]; [left; reflexivity|right]. apply EN; [exact Z|lia].
Qed.

Lemma wp_drain fuel : forall t h W oq, TI t h W oq [] ->
  wp (drain fuel t) (fun h' o => match o with
    | Done t' => (exists W' oq', TI t' h' W' oq' []) /\ exists tr, h' = h ++ tr /\ forall j, j < nq -> In (QRemove j, AEntry None) tr
    | Cut => CI h' | Stuck f => f = FFuel /\ fuel + length (removed h) <= length (removed h') end) h.
Proof.
  induction fuel as [|fuel IH]; intros t h W oq T; cbn [drain]; [cbn; auto|].
  apply wp_bind_i. unfold process_queues. rewrite (ti_opt _ _ _ _ _ T). fold nq. eapply wp_mono; [|eapply wp_queues, T].
  intros h1 o K. destruct o as [[n t1]| |]; [|contradiction|exact K]. destruct K as ((W1 & oq1 & T1) & tr & -> & -> & EN). cbn [bind_post].
  destruct (0 + lenN (removed tr) =? 0)%N eqn:EZ.
  - cbn [wp]. split; [eauto|]. exists tr. split; [reflexivity|]. intros j Hj. apply EN; [|lia]. destruct (removed tr); [reflexivity|]. unfold lenN in EZ. cbn [length] in EZ. lia.
  - eapply wp_mono; [|eapply IH, T1]. intros h2 o K. destruct o as [t2|f|]; auto.
    + destruct K as (K1 & tr2 & -> & K2). split; [assumption|]. exists (tr ++ tr2). rewrite app_assoc. split; [reflexivity|]. intros j Hj. apply in_or_app. right. auto.
    + destruct K as (-> & K). split; [reflexivity|]. rewrite removed_app, app_length in K. unfold lenN in EZ. lia.
Qed.

(** ** Opening *)
Lemma healthy_split h tr : healthy (h ++ tr) -> healthy h \/ removed h = [].
Proof.
  intros [O (l1 & hh & ct & l2 & E & N)]. apply Forall_app in O. destruct O as [O _].
  assert (NR : forall l, (forall i a, ~ In (QRemove i, a) l) -> removed l = []).
  { clear. induction l as [|[q a] l IH]; intro N; [reflexivity|]. unfold removed in *. cbn. rewrite IH by (intros i b X; apply (N i b); right; exact X).
    destruct q; try reflexivity. exfalso. eapply N. left. reflexivity. }
  apply app_eq_app in E. destruct E as (l & [[-> E]|[-> E]]).
  - destruct l as [|x l].
    + right. rewrite app_nil_r. apply NR, N.
    + left. cbn in E. injection E as <- ->. split; [assumption|]. exists l1, hh, ct, l. auto.
  - right. apply NR. intros i a X. apply (N i a). apply in_or_app. left. exact X.
Qed.

Definition open_post (w : writer) (h : trace) (D : list bytes) : post (res * writer) := fun h' o =>
  match o with
  | Cut => SV h' D
  | Done (x, w') => WI w' h' D /\
      (x = r_success -> w_state w' = ws_opened /\ rw_opened (w_rdwr w') = true /\
          exists ct, start_choice bi cts ct /\ sessions h' = sessions h ++ [session_head bi cts ct]) /\
      (x <> r_success -> w_state w' <> ws_opened)
  | Stuck _ => False
  end.
Lemma wp_wopen w h D : WI w h D -> w_state w <> ws_opened -> wp (writer_open w) (open_post w h D) h.
Proof.
  intros [W RW V LV] NO. eapply (wp_open okb okb_success); eauto.
  - intros h' L Hs. cbn. eapply SV_same; eauto.
  - intros h' s L HP Hs. cbn. eapply SV_head; eauto.
  - intro E. contradiction.
  - intros h' w' ct _ SW St Ho HI' CH Hs _. cbn.
    assert (LL : liveS okb bi cts h' D) by (eapply liveS_opened; eauto).
    split; [split; auto|].
    + eapply wok_same; eassumption.
    + apply liveS_SV; [eapply RWI_legal; eassumption|assumption].
    + split; [|congruence]. intros _. split; [assumption|]. split; [assumption|]. eauto.
  - intros h' x w' Hx _ SW St HI' Hs. cbn. split; [split; auto|].
    + eapply wok_same; eassumption.
    + destruct Hs as [Hs|(s & HP & Hs)].
      * eapply SV_same; eauto. eapply RWI_legal; eassumption.
      * eapply SV_head; eauto. eapply RWI_legal; eassumption.
    + intros E _. congruence.
    + split; [contradiction|]. intros _. rewrite St. assumption.
Qed.

Lemma open_facts h0 now tr h : open_events control_write tr -> goodh h -> h = h0 ++ [(QClock, AClock now)] -> 
  removed tr = [] /\ freed tr = [] /\ goodh (h ++ tr) /\
  (open_times (h ++ tr) = open_times h0 \/ open_times (h ++ tr) = Some now :: open_times h0).
Proof.
  intros O G ->. pose proof (times_one h0 (QClock, AClock now)) as T1. assert (CS : clock_state (h0 ++ [(QClock, AClock now)]) = (Some now, open_times h0)).
  { rewrite clock_app. reflexivity. }
  destruct O as [->|(hh & a & tr' & -> & F)].
  - rewrite app_nil_r. repeat split; auto. left. unfold open_times at 1. rewrite CS. reflexivity.
  - destruct (tev_removed _ _ F) as [R1 R2]. split; [|split; [|split]].
    + change (removed ([(QOpen hh, a)] ++ tr') = []). rewrite removed_app, R1. reflexivity.
    + change (freed ([(QOpen hh, a)] ++ tr') = []). rewrite freed_app, R2. reflexivity.
    + change ((QOpen hh, a) :: tr') with ([(QOpen hh, a)] ++ tr'). rewrite (app_assoc _ [_]). apply goodh_ctl; [|assumption]. apply goodh_snoc; [assumption|exact I].
    + right. change ((QOpen hh, a) :: tr') with ([(QOpen hh, a)] ++ tr'). rewrite (app_assoc _ [_]). unfold open_times at 1. rewrite clock_app, (tev_clock _ _ F), clock_app, CS. reflexivity.
Qed.

Lemma wp_mopen t h W oq : TI t h W oq [] ->
  wp (maybe_open t) (fun h' o => match o with
    | Done t' => TI t' h' W oq [] /\ t_outq t' = t_outq t | Cut => CI h' | Stuck _ => False end) h.
Proof.
  intro T. unfold maybe_open. destruct (t_opened t) eqn:EO; [cbn; auto|].
  cbn [bind ask_clock wp]. split; [eapply TI_CI, T|]. intros a Ha. destruct a as [ | |now| | | ]; try contradiction. cbn [bind].
  assert (T1 : TI t (h ++ [(QClock, AClock now)]) W oq []) by (apply TI_event; [assumption|exact I|reflexivity|reflexivity|exact I]).
  destruct (_ <? _)%Z eqn:EZ; [cbn; auto|]. rewrite (ti_opt _ _ _ _ _ T) in EZ.
  unfold iothr_open. apply wp_bind_i. cbn [t_set_last t_writer].
  set (h1 := h ++ [(QClock, AClock now)]) in *.
  destruct T1 as [[TWI TWO TWC] TQ TS TP TWT TB TC TO TT TG TH].
  pose proof (wp_and _ _ _ _ (ev_open control_write (fun iov X => X) (t_writer t) h1) (wp_and _ _ _ _ (open_fail_no_start (t_writer t) h1) (wp_wopen _ _ _ TWI (TWC EO)))) as K.
  eapply wp_mono; [|exact K]. clear K. intros h2 o ((tr & -> & OE) & (tr' & E' & NS) & OP). apply app_inv_head in E'. subst tr'.
  destruct (open_facts h now tr h1 OE TG eq_refl) as (R1 & R2 & G2 & OT).
  assert (R : removed (h1 ++ tr) = removed h1) by (rewrite removed_app, R1, app_nil_r; reflexivity).
  assert (FR : freed (h1 ++ tr) = freed h1) by (rewrite freed_app, R2, app_nil_r; reflexivity).
  assert (OT1 : open_times h1 = open_times h) by (apply times_one; discriminate).
  assert (TT2 : times_ok now (h1 ++ tr)).
  { unfold times_ok in TT |- *. rewrite OT1 in TT. destruct TT as [S1 S2]. destruct OT as [OTE | OTE]; rewrite OTE.
    - split; [assumption|]. destruct (open_times h) as [|[x|] r]; [|cbn in *; lia|assumption]. cbn in *. lia.
    - split; [|cbn; lia]. cbn. split; [|assumption]. destruct (open_times h) as [|[x|] r]; [|cbn in *; lia|assumption]. cbn in *. lia. }
  assert (UN : unreleased (h1 ++ tr) (t_outq t)).
  { apply no_rf_unreleased; auto. cbn [onl map] in TP. rewrite app_nil_r in TP. split; [|assumption]. rewrite TQ. apply subseq_map. rewrite app_nil_r in TS. eapply subseq_suffix, TS. }
  destruct o as [[x w']| |]; [|contradiction|].
  2:{ cbn. exists W, (t_outq t). split; [exact OP|]. rewrite R. split; [eapply subseq_prefix, TS|]. split; [assumption|]. split; [assumption|apply TT2]. }
  destruct OP as (I2 & OS & OF). cbn [bind_post wp]. split; [|reflexivity].
  split; cbn [t_set_opened t_set_writer t_set_last t_writer t_opened t_outq t_nbytes t_opt t_last_open]; rewrite ?R, ?FR; auto.
  - split; cbn; auto.
    + intro E. apply res_eqb_true in E. destruct (OS E) as (A & B & _). auto.
    + intro E. apply res_eqb_false in E. auto.
  - intro Hh. destruct (res_eqb x r_success) eqn:EX.
    + apply res_eqb_true in EX. destruct (OS EX) as (_ & _ & ct & CH & ES). split; [reflexivity|].
      destruct (healthy_split _ _ Hh) as [Hh1|Hh1]; [exfalso; destruct (TH Hh1); congruence|].
      rewrite Hh1 in *. apply subseq_of_nil in TS. apply app_eq_nil in TS. destruct TS as [-> TS]. split; [exact TS|].
      exists (sessions h1), ct. split; [assumption|]. rewrite ES. cbn. rewrite app_nil_r. reflexivity.
    + exfalso. apply res_eqb_false in EX. destruct (TH (healthy_back _ _ Hh (NS EX))). congruence.
Qed.

(** ** The thread *)
Record FI (t : iothr) (h : trace) (W : list (nat * entry)) : Prop := {
  fi_wi : WI (t_writer t) h (map dat W);
  fi_closed : w_state (t_writer t) <> ws_opened;
  fi_sub : subseq W (removed h);
  fi_held : unreleased h [];
  fi_opt : t_opt t = opt;
  fi_good : goodh h;
  fi_times : spaced (Z.of_N (io_reopen_interval opt)) (open_times h);
  fi_drained : drained nq h [];
  fi_health : healthy h -> W = removed h /\ exists ss ct, start_choice bi cts ct /\
      sessions h = ss ++ [session_head bi cts ct ++ datas (map dat W) ++ stop_frame] }.

Lemma wp_tclose t h W : TI t h W [] [] -> drained nq h [] ->
  wp (iothr_close t) (fun h' o => match o with Done t' => FI t' h' W | Cut => CI h' | Stuck _ => False end) h.
Proof.
  intros T DR. pose proof (TI_held _ _ _ _ _ T) as HELD. pose proof (TI_CI _ _ _ _ _ T) as TCI. destruct T as [[TWI TWO TWC] TQ TS TP TWT TB TC TO TT TG TH]. cbn [onl map] in *. rewrite TQ in *. cbn [map app] in *. rewrite ?app_nil_r in *.
  unfold iothr_close. destruct (t_opened t) eqn:EO.
  - destruct (TWO eq_refl) as [ES ER]. apply wp_bind_i.
    assert (HW : rw_has_write (w_rdwr (t_writer t)) = true) by apply TWI.
    pose proof (wp_and _ _ _ _ (wp_wclose _ _ _ TWI) (nf_close okb okb_success _ h ES ER HW)) as K.
    eapply wp_mono; [|exact K]. clear K. intros h' o (((tr & -> & F) & K) & NC).
    destruct (tev_removed _ _ F) as [R1 R2]. pose proof (tev_clock _ _ F) as CK.
    assert (R : removed (h ++ tr) = removed h) by (rewrite removed_app, R1, app_nil_r; reflexivity).
    assert (G2 : goodh (h ++ tr)) by (apply goodh_ctl; [assumption|apply tev_ctl_stop, F]).
    assert (UN : unreleased (h ++ tr) []) by (apply no_rf_unreleased; auto).
    destruct o as [[x w']| |]; [|contradiction|].
    + cbn [bind_post wp]. destruct K as [I' C']. split; cbn; rewrite ?R; auto.
      * rewrite clock_times by assumption. apply TT.
      * destruct DR as (l1 & l2 & -> & DR). exists l1, (l2 ++ tr). rewrite !app_nil_r. split; [rewrite <- app_assoc; reflexivity|]. intros i Hi. apply in_or_app. auto.
      * intro Hh. destruct (TH (healthy_back _ _ Hh (tev_stop_no_start _ F))) as (_ & B & ss & ct & C & D). split; [exact B|]. exists ss, ct. split; [assumption|].
        destruct NC as [NC|NC]; [|destruct Hh; contradiction]. rewrite NC, D, add_last_snoc, <- app_assoc. reflexivity.
    + cbn. exists W, []. split; [exact K|]. rewrite R. split; [assumption|]. split; [assumption|]. split; [assumption|]. rewrite clock_times by assumption. apply TT.
  - cbn. split; auto; [apply TT|]. intro Hh. destruct (TH Hh) as (A & _). congruence.
Qed.

Variable dfuel : nat.
Definition thr_post (h : trace) (k : nat) : post iothr := fun h' o => match o with
  | Done t' => exists W', FI t' h' W'
  | Cut => CI h'
  | Stuck f => f = FFuel /\ (k + still_running h <= still_running h' \/ dfuel <= length (removed h'))
  end.

Lemma wp_loop : forall fuel t h W oq, TI t h W oq [] -> (timed_out h = true -> t_outq t = []) ->
  wp (thr_loop fuel dfuel t) (thr_post h fuel) h.
Proof.
  induction fuel as [|fuel IH]; intros t h W oq T TM; cbn [thr_loop]; [cbn; auto|].
  cbn [bind ask_bool wp]. split; [eapply TI_CI, T|]. intros a Ha. destruct a as [ | | | |sd| ]; try contradiction. cbn [bind].
  assert (T1 : TI t (h ++ [(QShutting, ABool sd)]) W oq []).
  { apply TI_event; [assumption|exact I|reflexivity|reflexivity|]. cbn. intro E. pose proof (TI_held _ _ _ _ _ T) as X. rewrite (TM E) in X. exact X. }
  assert (TO1 : timed_out (h ++ [(QShutting, ABool sd)]) = false) by (rewrite timed_app; reflexivity).
  destruct sd.
  - apply wp_bind_i. eapply wp_mono; [|eapply evp_wp; [apply th_drain|eapply wp_drain, T1]]. intros h2 o (_ & K). destruct o as [t2|f|]; [|destruct K as [-> K]; cbn; split; [reflexivity|right; lia]|exact K].
    destruct K as ((W2 & oq2 & T2) & tr & -> & DR). cbn [bind_post]. apply wp_bind_i.
    eapply wp_mono; [|eapply evp_wp; [apply th_flush|eapply wp_flush, T2]]. intros h3 o ((tr3 & -> & _) & K). destruct o as [t3| |]; [|contradiction|exact K].
    destruct K as (W3 & T3 & _). cbn [bind_post]. eapply wp_mono; [|eapply wp_tclose; [exact T3|]].
    + intros h4 o K. destruct o; cbn; eauto. contradiction.
    + exists h, (tr ++ tr3). rewrite <- !app_assoc. cbn. rewrite app_nil_r. split; [reflexivity|]. intros i Hi. apply in_or_app. auto.
  - assert (SR1 : still_running (h ++ [(QShutting, ABool false)]) = S (still_running h)) by (rewrite running_app; cbn; lia).
    apply wp_bind_i. eapply wp_mono; [|eapply evp_wp; [apply th_maybe_open|eapply wp_mopen, T1]]. intros h2 o ((tr2 & -> & F2) & K). destruct o as [t2| |]; [|contradiction|exact K].
    destruct K as (T2 & _). cbn [bind_post]. apply wp_bind_i. unfold process_queues.
    eapply wp_mono; [|eapply evp_wp; [apply th_queues|eapply wp_queues, T2]]. intros h3 o ((tr3 & -> & F3) & K). destruct o as [[n t3]| |]; [|contradiction|exact K].
    destruct K as ((W3 & oq3 & T3) & _). cbn [bind_post].
    assert (F2' : Forall thev tr2) by (eapply Forall_impl; [|exact F2]; apply evq_thev).
    set (h3 := ((h ++ [(QShutting, ABool false)]) ++ tr2) ++ tr3) in *.
    assert (SR3 : still_running h3 = S (still_running h)) by (unfold h3; rewrite !(running_app (_ ++ _)), SR1, (thev_running _ F2'), (thev_running _ F3); lia).
    assert (TO3 : timed_out h3 = false) by (unfold h3; rewrite timed_app, (thev_timed _ F3), timed_app, (thev_timed _ F2'); exact TO1).
    assert (GO : forall t4 h4 W4 oq4 , still_running h4 = S (still_running h) -> TI t4 h4 W4 oq4 [] -> (timed_out h4 = true -> t_outq t4 = []) -> wp (thr_loop fuel dfuel t4) (thr_post h (S fuel)) h4).
    { intros t4 h4 W4 oq4 SR T4 TM4. eapply wp_mono; [|eapply IH; eassumption]. intros h5 o K. destruct o as [t5|f|]; auto. destruct K as (-> & K). split; [reflexivity|]. lia. }
    destruct (n =? 0)%N; cbn [negb]; [|eapply GO; [exact SR3|exact T3|congruence]].
    cbn [bind ask_clock wp]. split; [eapply TI_CI, T3|]. intros a Ha2. destruct a as [ | |now| | | ]; try contradiction. cbn [bind].
    assert (T4 : TI t3 (h3 ++ [(QClock, AClock now)]) W3 oq3 []) by (apply TI_event; [assumption|exact I|reflexivity|reflexivity|exact I]).
    cbn [bind ask_bool wp]. split; [eapply TI_CI, T4|]. intros a Ha3. destruct a as [ | | | |b| ]; try contradiction. cbn [bind].
    set (fl := io_flush_timeout (t_opt t3)) in *.
    assert (T5 : TI t3 ((h3 ++ [(QClock, AClock now)]) ++ [(QWait fl, ABool b)]) W3 oq3 []).
    { apply TI_event; [assumption|exact I|reflexivity|reflexivity|]. apply (TI_poll _ _ _ _ T4). }
    assert (SR5 : still_running ((h3 ++ [(QClock, AClock now)]) ++ [(QWait fl, ABool b)]) = S (still_running h)).
    { rewrite running_app, (running_app h3), SR3. cbn [still_running filter length]. change (still_running [(QClock, AClock now)]) with 0. change (still_running [(QWait fl, ABool b)]) with 0. lia. }
    destruct b.
    + apply wp_bind_i. eapply wp_mono; [|eapply evp_wp; [apply th_flush|eapply wp_flush, T5]]. intros h6 o ((tr6 & -> & F6) & K). destruct o as [t6| |]; [|contradiction|exact K].
      destruct K as (W6 & T6 & EQ6). cbn [bind_post]. eapply GO; [|exact T6|auto]. rewrite (running_app (_ ++ _)), SR5, (thev_running tr6); [lia|]. eapply Forall_impl; [|exact F6]. apply evq_thev.
    + eapply GO; [exact SR5|exact T5|]. rewrite !timed_app. cbn. rewrite TO3. discriminate.
Qed.

Lemma wp_thr fuel t h W oq : TI t h W oq [] -> timed_out h = false -> wp (iothr_thr fuel dfuel t) (thr_post h fuel) h.
Proof.
  intros T TM. unfold iothr_thr. apply wp_bind_i. eapply wp_mono; [|eapply evp_wp; [apply th_maybe_open|eapply wp_mopen, T]].
  intros h2 o ((tr2 & -> & F2) & K). destruct o as [t2| |]; [|contradiction|exact K]. destruct K as (T2 & _). cbn [bind_post].
  assert (F2' : Forall thev tr2) by (eapply Forall_impl; [|exact F2]; apply evq_thev).
  eapply wp_mono; [|eapply wp_loop; [exact T2|]].
  - intros h3 o K. destruct o as [t3|f|]; auto. destruct K as (-> & K). split; [reflexivity|]. rewrite running_app, (thev_running _ F2') in K. lia.
  - rewrite timed_app, (thev_timed _ F2'), TM. discriminate.
Qed.

(** ** After the thread *)
Definition PI (h : trace) (W : list (nat * entry)) : Prop :=
  SV h (map dat W) /\ subseq W (removed h) /\ unreleased h [] /\ goodh h /\ spaced (Z.of_N (io_reopen_interval opt)) (open_times h).
Lemma PI_CI h W : PI h W -> CI h.
Proof. intros (A & B & C & D & E). exists W, []. auto. Qed.
Lemma good_empty h e : unreleased h [] -> (forall hh iov, fst e <> QWrite hh iov) -> good size hint h e.
Proof.
  intros U N. assert (P : exists held, unreleased h held /\ within size hint held /\ (transport_state h <> Some TOpen -> length held <= 1)).
  { exists []. split; [assumption|]. split; [|cbn; lia]. split; [apply N.le_0_l|]. left. cbn. lia. }
  destruct e as [[] a]; cbn; auto. exfalso. eapply N. reflexivity.
Qed.
Lemma PI_event h W e : PI h W -> ntr e -> removed_at e = [] -> freed_at e = [] -> PI (h ++ [e]) W.
Proof.
  intros (A & B & C & D & E) N RE FE.
  assert (R : removed (h ++ [e]) = removed h) by (rewrite removed_app; unfold removed at 2; cbn; rewrite RE; apply app_nil_r).
  split; [apply ntr_SV; [repeat constructor|]; assumption|]. split; [rewrite R; assumption|].
  split; [apply no_rf_unreleased; [unfold removed; cbn; rewrite RE; reflexivity|unfold freed; cbn; rewrite FE; reflexivity|assumption]|].
  split; [apply goodh_snoc; [assumption|apply good_empty; [assumption|]]|].
  - intros hh iov X. unfold ntr in N. rewrite X in N. exact N.
  - rewrite times_one; [assumption|]. intros hh X. unfold ntr in N. rewrite X in N. exact N.
Qed.

Lemma wp_free_queue i W : forall fuel h, PI h W ->
  wp (free_queue fuel i) (fun h' o => match o with Done _ => PI h' W | Cut => CI h' | Stuck f => f = FFuel /\ fuel + length (removed h) <= length (removed h') end) h.
Proof.
  induction fuel as [|fuel IH]; intros h P; cbn [free_queue]; [cbn; auto|].
  cbn [bind ask_entry wp]. split; [eapply PI_CI, P|]. intros a Ha. destruct a as [ | | |oe| | ]; try contradiction. cbn [bind]. destruct oe as [e|].
  2:{ cbn. apply PI_event; auto; exact I. }
  apply wp_bind_i. eapply wp_mono; [|apply wp_free_one]. intros h' o (tr & -> & F & K).
  destruct (isfree_facts tr F) as (Fn & Fs & R0 & CK). destruct P as (A & B & C & D & E).
  set (ev := (QRemove i, AEntry (Some e))) in *.
  assert (R : removed ((h ++ [ev]) ++ tr) = removed h ++ [(i, e)]) by (rewrite !removed_app, R0; apply app_nil_r).
  assert (G : goodh ((h ++ [ev]) ++ tr)) by (apply isfree_good; [assumption|]; apply goodh_snoc; [assumption|]; apply good_empty; [assumption|]; discriminate).
  assert (S1 : SV ((h ++ [ev]) ++ tr) (map dat W)) by (apply ntr_SV; [assumption|]; apply ntr_SV; [repeat constructor|assumption]).
  assert (TS : open_times ((h ++ [ev]) ++ tr) = open_times h) by (rewrite clock_times by assumption; apply times_one; discriminate).
  destruct o as [u| |]; [|contradiction|].
  - cbn [bind_post]. eapply wp_mono; [|apply IH].
    + intros h2 o KK. destruct o; auto. destruct KK as [-> KK]. split; [reflexivity|]. rewrite R, app_length in KK. cbn in KK. lia.
    + split; [assumption|]. rewrite R, TS. split; [apply subseq_skip_r, B|]. split; [|auto].
      unfold unreleased. rewrite R, !freed_app, K. destruct C as [_ C]. rewrite map_app. split; [apply subseq_nil_l|]. rewrite owed_app, C. cbn [owed filter app freed flat_map map].
      rewrite !app_nil_r. reflexivity.
  - subst tr. cbn. rewrite app_nil_r in *. exists W, [e]. split; [assumption|]. split; [rewrite R; apply subseq_skip_r, B|]. split; [|rewrite TS; auto].
    unfold unreleased. rewrite R, freed_app. destruct C as [_ C]. rewrite map_app. split.
    + rewrite <- (app_nil_l [e]). apply subseq_app; [apply subseq_nil_l|apply subseq_refl].
    + rewrite owed_app, C. cbn [owed filter app freed flat_map map freed_at ev]. rewrite !app_nil_r. reflexivity.
Qed.
Lemma wp_free_queues W : forall n i h, PI h W ->
  wp (free_queues n i dfuel) (fun h' o => match o with Done _ => PI h' W | Cut => CI h' | Stuck f => f = FFuel /\ dfuel <= length (removed h') end) h.
Proof.
  induction n as [|n IH]; intros i h P; cbn [free_queues]; [exact P|]. apply wp_bind_i. eapply wp_mono; [|apply wp_free_queue, P].
  intros h' o K. destruct o as [u| |]; [|destruct K; split; [assumption|lia]|exact K]. cbn [bind_post]. apply IH, K.
Qed.
Lemma ntr_free_queues n : forall i, evp ntr (free_queues n i dfuel).
Proof.
  induction n as [|n IH]; intro i; cbn [free_queues]; [apply evp_ret|]. apply evp_bind; [|intro; apply IH].
  generalize dfuel. intro m. induction m as [|f IHf]; cbn [free_queue]; [apply evp_fail|]. apply evp_bind.
  - apply evp_vis; [intros; exact I|]. intros a _. destruct a; try apply evp_fail. apply evp_ret.
  - intros [e|]; [|apply evp_ret]. apply evp_bind; [|intro; exact IHf]. unfold free_bytes. apply evp_if; [|apply evp_ret].
    apply evp_vis; [intros; exact I|]. intros a _. destruct a; try apply evp_fail. apply evp_ret.
Qed.

Lemma wp_closed_destroy w h D : WI w h D -> w_state w <> ws_opened ->
  wp (writer_destroy w) (fun h' o => match o with
    | Done _ => (exists hh r, h' = h ++ [(QDestroy hh, ARes r)]) /\ SV h' D /\ transport_state h' = Some TDestroyed
    | Cut => h' = h | Stuck _ => False end) h.
Proof.
  intros I N. unfold writer_destroy.
  assert (G : wp (bind (rdwr_destroy (w_rdwr w)) (fun _ => Ret r_failure)) (fun h' o => match o with
    | Done _ => (exists hh r, h' = h ++ [(QDestroy hh, ARes r)]) /\ SV h' D /\ transport_state h' = Some TDestroyed
    | Cut => h' = h | Stuck _ => False end) h).
  2:{ destruct (w_state w); try congruence; exact G. }
  unfold rdwr_destroy. rewrite (ok_destroy _ _ _ (wi_ok _ _ _ _ _ _ I)). cbn. split; [reflexivity|]. intros a Ha. destruct a; try contradiction. cbn.
  assert (T : transport_state (h ++ [(QDestroy (rw_h (w_rdwr w)), ARes r)]) = Some TDestroyed).
  { rewrite transport_state_snoc, (wi_rw _ _ _ _ _ _ I). destruct (rw_opened _); reflexivity. }
  split; [eauto|]. split; [|exact T]. eapply SV_same; [exact (wi_sv _ _ _ _ _ _ I)| |].
  - unfold legal. rewrite T. discriminate.
  - rewrite sessions_snoc. reflexivity.
Qed.

Definition LI (h : trace) : Prop := exists W tail, PI h W /\ transport_state h = Some TDestroyed /\ drained nq h tail /\
  (healthy h -> removed h = W ++ removed tail /\ exists ss ct, start_choice bi cts ct /\
      sessions h = ss ++ [session_head bi cts ct ++ datas (map dat W) ++ stop_frame]).

Lemma wp_life fuel t h W oq : TI t h W oq [] -> timed_out h = false ->
  wp (iothr_life fuel dfuel t) (fun h' o => match o with Done _ => LI h' | Cut => CI h'
    | Stuck f => f = FFuel /\ (fuel + still_running h <= still_running h' \/ dfuel <= length (removed h')) end) h.
Proof.
  intros T TM. unfold iothr_life. apply wp_bind_i. eapply wp_mono; [|eapply wp_thr; eassumption].
  intros h1 o K. destruct o as [t1|f|]; auto. destruct K as (W1 & [FW FC FS FH FO FG FT FD FHe]). cbn [bind_post].
  apply wp_bind_i. eapply wp_mono; [|apply wp_closed_destroy; eassumption]. intros h2 o K. destruct o as [x| |]; [|contradiction|].
  2:{ cbn. subst h2. exists W1, []. split; [apply FW|]. auto. }
  destruct K as ((hh & r & ->) & S2 & TD). cbn [bind_post]. set (ev := (QDestroy hh, ARes r)) in *.
  assert (P2 : PI (h1 ++ [ev]) W1).
  { split; [assumption|]. rewrite removed_app. cbn [removed flat_map removed_at ev app]. rewrite app_nil_r. split; [assumption|].
    split; [apply no_rf_unreleased; auto|]. split; [|rewrite times_one by discriminate; assumption].
    apply goodh_snoc; [assumption|]. apply good_empty; [assumption|discriminate]. }
  eapply wp_mono; [|eapply evp_wp; [apply ntr_free_queues|apply wp_free_queues, P2]].
  intros h3 o ((tr & -> & F) & K). destruct o as [u|f|]; auto; [|destruct K; split; [assumption|right; assumption]].
  exists W1, (ev :: tr). split; [exact K|]. split; [rewrite ntr_ts by assumption; exact TD|]. split.
  - destruct FD as (l1 & l2 & -> & FD). exists l1, l2. split; [|exact FD]. rewrite app_nil_r, <- !app_assoc. reflexivity.
  - rewrite <- app_assoc. intro Hh. assert (NS : Forall no_start ([ev] ++ tr)).
    { constructor; [intros ? ?; discriminate|]. eapply Forall_impl; [|exact F]. apply ntr_no_start. }
    destruct (FHe (healthy_back _ _ Hh NS)) as (E & ss & ct & CH & ES). split; [rewrite removed_app, <- E; reflexivity|].
    exists ss, ct. split; [assumption|]. rewrite app_assoc, ntr_sess by assumption. rewrite sessions_snoc. exact ES.
Qed.
End Thread.

(** A new iothr satisfies the invariant. *)
Lemma TI_init okb (okb_s : okb r_success = true) iovm iov_max clocks oopt cts rw w t : fresh_rdwr rw -> (0 < iovm) -> writer_init iovm cts rw = Some w ->
  iothr_init iov_max clocks oopt w = Ok t ->
  TI okb (rw_has_read rw) cts (t_opt t) t [] [] [] [].
Proof.
  intros FR Hi Hw Ht. unfold iothr_init in Ht. cbv zeta in Ht. destruct clocks; cbn [negb] in Ht; [|discriminate].
  destruct (_ && _)%bool; [discriminate|]. injection Ht as <-. cbn [t_opt].
  assert (I : Writer_proofs.WI okb (rw_has_read rw) cts w [] []) by (destruct FR; eapply WI_init; eauto).
  assert (ST : w_state w <> ws_opened).
  { unfold writer_init in Hw. destruct (rw_has_write rw); [|discriminate]. injection Hw as <-. discriminate. }
  split; cbn; auto; try apply sub_nil; try (apply goodh_nil).
  - split; cbn; auto. discriminate.
  - split; [apply N.le_0_l|]. left. cbn. lia.
  - split; [exact Logic.I|cbn; lia].
  - intros [_ (l1 & hh & ct & l2 & E & _)]. destruct l1; discriminate.
Qed.

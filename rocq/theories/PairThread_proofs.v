(** An I/O thread and a capture server: the thread's side. *)
From Coq Require Import ZArith Lia.
From Verif Require Import Bytes Spec Bytes_proofs Io Io_proofs SpecTrace SpecStream
  Control Control_proofs Rdwr Rdwr_proofs Writer Api SpecApi Writer_proofs Writer2_proofs SpecDeliver SpecPair Pair PairBounded Pair_proofs
  Iothr SpecIothr SpecClient Iothr_proofs Iothr2_proofs Iothr3_proofs Iothr4_proofs Iothr7_proofs PairReplay_proofs PairThread.
Import ListNotations.
Local Open Scope N_scope.

Lemma part_one e h : writer_part (h ++ [e]) = writer_part h ++ (if of_writer e then [e] else []).
Proof. rewrite part_app. cbn. destruct (of_writer e); reflexivity. Qed.
Lemma rem_app a b : removed (a ++ b) = removed a ++ removed b.
Proof. apply flat_map_app. Qed.
Lemma onw_removed tr : Forall onw tr -> removed tr = [].
Proof.
  induction 1 as [|e tr E F IH]; [reflexivity|]. cbn. unfold removed in IH. rewrite IH, app_nil_r.
  destruct e as [[] an]; try reflexivity; discriminate E.
Qed.
Lemma pay_app a b : payloads (a ++ b) = payloads a ++ payloads b.
Proof. apply map_app. Qed.

Section Thread.
Variables (cts : list bytes) (sct : bytes) (up : Z).
Notation HEAD := (HEAD cts).
Notation ACC := (ACC sct).
Notation SCRIPT := (SCRIPT sct).
Notation wpq := (wpq cts sct).
Notation G := (G cts sct).
Notation ans_of := (ans_of sct).
Notation LO := (LO cts sct).
Hypothesis agreed : agree cts sct.
Hypothesis sct_ok : lenN sct <= CT_MAX.
Hypothesis ready_ok : fits true T_READY cts.

(** ** Weakest preconditions *)
Definition proper (q : query) (an : ans) : Prop :=
  ans_ok q an /\ clock_shows up q an /\
  match q, an with QRemove _, AEntry (Some x) => ordinary (e_data x) | _, _ => True end.

Fixpoint wpe {A} (p : io A) (Q : trace -> A -> Prop) (tr : trace) : Prop :=
  match p with
  | Ret a => Q tr a
  | Fail f => f = FFuel
  | Vis q k =>
      if of_writer (q, AUnit) then
        G (writer_part tr) q /\ wpe (k (ans_of (writer_part tr) q)) Q (tr ++ [(q, ans_of (writer_part tr) q)])
      else forall an, proper q an -> wpe (k an) Q (tr ++ [(q, an)])
  end.

Lemma wpe_bind {A B} (p : io A) (f : A -> io B) Q : forall tr,
  wpe p (fun tr' a => wpe (f a) Q tr') tr -> wpe (bind p f) Q tr.
Proof.
  induction p as [a|e|q k IH]; intros tr W; cbn in *; auto.
  destruct (of_writer _); [destruct W as [W1 W2]; split; auto|]. intros an P. apply IH, W, P.
Qed.
Lemma wpe_mono {A} (p : io A) (Q Q' : trace -> A -> Prop) : (forall tr a, Q tr a -> Q' tr a) -> forall tr, wpe p Q tr -> wpe p Q' tr.
Proof.
  intro M. induction p as [a|e|q k IH]; intros tr W; cbn in *; auto.
  destruct (of_writer _); [destruct W as [W1 W2]; split; auto|]. intros an P. apply IH, W, P.
Qed.

(** A call of the writer. *)
Lemma wpe_writer {A} (p : io A) (Q : trace -> A -> Prop) : forall tr,
  wpq p (fun h a => forall l, Forall onw l -> h = writer_part tr ++ l -> Q (tr ++ l) a) (writer_part tr) -> wpe p Q tr.
Proof.
  assert (X : forall tr0 l, Forall onw l -> wpq p (fun h a => forall l', Forall onw l' -> h = writer_part tr0 ++ l' -> Q (tr0 ++ l') a) (writer_part tr0 ++ l) -> wpe p Q (tr0 ++ l)).
  { induction p as [a|e|q k IH]; intros tr0 l F W; cbn in *.
    - apply W; [exact F|reflexivity].
    - destruct W.
    - destruct W as [W1 W2].
      assert (O : forall an, of_writer (q, an) = true) by (intro an; destruct q; cbn in W1 |- *; try reflexivity; destruct W1).
      rewrite (O AUnit), part_app, (onw_part _ F). split; [exact W1|]. rewrite <- app_assoc. apply IH.
      + apply Forall_app. split; [exact F|]. constructor; [apply O|constructor].
      + rewrite app_assoc. exact W2. }
  intros tr W. rewrite <- (app_nil_r tr). apply X; [constructor|]. rewrite app_nil_r. exact W.
Qed.

(** ** Batches *)
Lemma x_write_iov w ps ds (Q : trace -> _ -> Prop) h : LO w h ds -> (2 * length ps <= 256)%nat -> Forall ordinary ps ->
  (forall h' w', LO w' h' (ds ++ ps) -> w_iov_max w' = w_iov_max w -> Q h' (r_success, w')) -> wpq (write_iov w ps) Q h.
Proof using All.
  intros [OK E EO F HA] L FP K. unfold write_iov.
  destruct (FSTRM__WRITER_IOVEC_SIZE <? 2 * length ps)%nat eqn:EL; [apply Nat.ltb_lt in EL; unfold FSTRM__WRITER_IOVEC_SIZE in EL; lia|].
  destruct OK as [O1 O2 O3 O4 O5 O6 O7]. apply wpq_bind. eapply q_rdwr_write; eauto; [right; right; exists ds; auto| |].
  { left. right. right. exists (ds ++ ps). split; [apply Forall_app; auto|]. rewrite datas_app, frame_iovecs_datas, <- app_assoc. reflexivity. }
  intros h1 A1. cbn. apply K; [|reflexivity]. split; [split; assumption|exact E|exact EO|apply Forall_app; auto|].
  rewrite datas_app. rewrite frame_iovecs_datas, <- app_assoc in A1. exact A1.
Qed.
Lemma x_stupid_loop chunk : (0 < chunk)%nat -> (2 * chunk <= 256)%nat -> forall fuel w ps ds (Q : trace -> _ -> Prop) h, (length ps <= fuel)%nat ->
  LO w h ds -> Forall ordinary ps ->
  (forall h' w', LO w' h' (ds ++ ps) -> Q h' (r_success, w')) -> wpq (write_iov_stupid_loop fuel chunk w ps) Q h.
Proof using All.
  intros C1 C2. induction fuel as [|fuel IH]; intros w ps ds Q h LE L FP K; (destruct ps as [|p ps]; [apply K; rewrite app_nil_r; exact L|]); [cbn in LE; lia|].
  cbn [write_iov_stupid_loop]. remember (p :: ps) as l eqn:El. apply wpq_bind.
  assert (F2 : Forall ordinary (firstn chunk l) /\ Forall ordinary (skipn chunk l)).
  { rewrite <- (firstn_skipn chunk l) in FP. apply Forall_app in FP. exact FP. }
  destruct F2 as [F1 F2].
  eapply x_write_iov; eauto; [rewrite firstn_length; lia|].
  intros h1 w1 L1 _. cbn [res_eqb negb]. eapply IH; eauto; [rewrite skipn_length; subst l; cbn [length] in *; lia|].
  intros h2 w2 L2. apply K. rewrite <- app_assoc, firstn_skipn in L2. exact L2.
Qed.
Lemma x_writev w ps ds (Q : trace -> _ -> Prop) h : LO w h ds -> Forall ordinary ps -> lenN ps < 2 ^ 30 ->
  (forall h' w', LO w' h' (ds ++ ps) -> Q h' (r_success, w')) -> wpq (writer_writev w ps) Q h.
Proof using All.
  intros L FP LN K. unfold writer_writev. destruct ps as [|p ps]; [apply K; rewrite app_nil_r; exact L|]. remember (p :: ps) as l eqn:El.
  apply wpq_bind. unfold writer_maybe_open. rewrite (lo_st _ _ _ _ _ L). cbn [Pair_proofs.wpq]. cbn [res_eqb negb]. rewrite (lo_st _ _ _ _ _ L).
  destruct (2 ^ 31 <=? 2 * lenN l) eqn:EB; [apply N.leb_le in EB; lia|].
  destruct (2 * length l <=? FSTRM__WRITER_IOVEC_SIZE)%nat eqn:EL.
  { eapply x_write_iov; [exact L|apply Nat.leb_le in EL; exact EL|exact FP|]. intros h1 w1 L1 _. apply K, L1. }
  unfold write_iov_stupid. pose proof (ok_iov _ _ _ (lo_ok _ _ _ _ _ L)) as PI.
  change (FSTRM__WRITER_IOVEC_SIZE / 2)%nat with 128%nat.
  destruct (Nat.min 128 (w_iov_max w) =? 0)%nat eqn:EM; [apply Nat.eqb_eq in EM; lia|].
  eapply x_stupid_loop; [lia|lia|lia|exact L|exact FP|exact K].
Qed.

(** ** The thread *)
Variable opt : iothr_options.
Hypothesis size_ok : 1 <= io_output_queue_size opt /\ io_output_queue_size opt < 2 ^ 30.
Notation size := (io_output_queue_size opt).

(** Open, with everything taken from the queues written or held. *)
Record TI (t : iothr) (tr : trace) : Prop := {
  ti_op : t_opened t = true;
  ti_lo : exists ds, LO (t_writer t) (writer_part tr) ds /\ ds ++ map e_data (t_outq t) = payloads (removed tr);
  ti_opt : t_opt t = opt;
  ti_len : lenN (t_outq t) <= size;
  ti_ord : Forall (fun x => ordinary (e_data x)) (t_outq t) }.

Lemma TI_env t tr e : TI t tr -> of_writer e = false -> removed_at e = [] -> TI t (tr ++ [e]).
Proof using All.
  intros [T1 (ds & T2 & T3) T4 T5 T6] O R. split; auto. exists ds. rewrite part_one, O, app_nil_r, rem_app.
  cbn [removed flat_map]. rewrite R, !app_nil_r. auto.
Qed.
Lemma wpe_ask {A} q (k : ans -> io A) Q tr : of_writer (q, AUnit) = false ->
  (forall an, proper q an -> wpe (k an) Q (tr ++ [(q, an)])) -> wpe (Vis q k) Q tr.
Proof using All. intros O K. cbn [wpe]. rewrite O. exact K. Qed.

Lemma e_free_bytes x (Q : trace -> unit -> Prop) tr :
  (forall l, writer_part l = [] -> removed l = [] -> Q (tr ++ l) tt) -> wpe (free_bytes x) Q tr.
Proof using All.
  intro K. unfold free_bytes. destruct (e_free x); [|specialize (K []); rewrite app_nil_r in K; apply K; reflexivity].
  unfold ask_unit. apply wpe_ask; [reflexivity|]. intros an [P _]. destruct an; try destruct P. apply K; reflexivity.
Qed.
Lemma e_free_all es : forall (Q : trace -> unit -> Prop) tr,
  (forall l, writer_part l = [] -> removed l = [] -> Q (tr ++ l) tt) -> wpe (free_all es) Q tr.
Proof using All.
  induction es as [|x es IH]; intros Q tr K; cbn [free_all].
  - specialize (K []). rewrite app_nil_r in K. apply K; reflexivity.
  - apply wpe_bind. apply e_free_bytes. intros l1 P1 R1. apply IH. intros l2 P2 R2. rewrite <- app_assoc.
    apply K; [rewrite part_app, P1, P2|rewrite rem_app, R1, R2]; reflexivity.
Qed.
Lemma TI_more t tr l : TI t tr -> writer_part l = [] -> removed l = [] -> TI t (tr ++ l).
Proof using All.
  intros [T1 (ds & T2 & T3) T4 T5 T6] O R. split; auto. exists ds. rewrite part_app, O, app_nil_r, rem_app, R, app_nil_r. auto.
Qed.

Lemma e_flush t tr (Q : trace -> iothr -> Prop) : TI t tr ->
  (forall t' l, TI t' (tr ++ l) -> t_outq t' = [] -> removed l = [] -> Q (tr ++ l) t') -> wpe (flush_output t) Q tr.
Proof using All.
  intros [T1 (ds & T2 & T3) T4 T5 T6] K. unfold flush_output. rewrite T1. cbn [andb]. apply wpe_bind.
  assert (END : forall t' l, t_opened t' = true -> t_opt t' = opt -> t_outq t' = t_outq t ->
    LO (t_writer t') (writer_part (tr ++ l)) (ds ++ map e_data (t_outq t)) -> removed l = [] ->
    wpe (bind (free_all (t_outq t')) (fun _ => Ret (t_set_outq t' [] 0))) Q (tr ++ l)).
  { intros t' l E1 E2 E3 L1 R1. apply wpe_bind. apply e_free_all. intros l2 P2 R2. cbn [wpe]. rewrite <- app_assoc.
    apply K; [|reflexivity|rewrite rem_app, R1, R2; reflexivity].
    split; cbn [t_set_outq t_opened t_writer t_opt t_outq]; auto.
    - exists (ds ++ map e_data (t_outq t)). rewrite app_assoc, part_app, P2, app_nil_r. split; [exact L1|].
      cbn [map]. rewrite app_nil_r, T3, !rem_app, R1, R2, !app_nil_r. reflexivity.
    - cbn. apply N.le_0_l. }
  destruct (t_outq t) as [|x xs] eqn:EQ; cbn [negb].
  - cbn [wpe]. specialize (END t []). rewrite app_nil_r in END. rewrite EQ in END |- *. apply END; auto.
    cbn [map]. rewrite app_nil_r. exact T2.
  - rewrite <- EQ in *. apply wpe_bind. apply wpe_writer. eapply x_writev; [exact T2| | |].
    + clear -T6. induction T6; constructor; auto.
    + unfold lenN in *. rewrite map_length. lia.
    + intros h1 w1 L1 l F E. cbn [res_eqb negb wpe]. apply END; cbn [t_set_writer t_opened t_opt t_outq t_writer]; auto.
      * rewrite part_app, (onw_part _ F), <- E. exact L1.
      * apply onw_removed, F.
Qed.

Lemma e_entry t x tr (Q : trace -> iothr -> Prop) : forall ds, t_opened t = true -> LO (t_writer t) (writer_part tr) ds ->
  ds ++ map e_data (t_outq t) ++ [e_data x] = payloads (removed tr) -> t_opt t = opt -> lenN (t_outq t) <= size ->
  Forall (fun x => ordinary (e_data x)) (t_outq t) -> ordinary (e_data x) ->
  (forall t' l, TI t' (tr ++ l) -> removed l = [] -> Q (tr ++ l) t') -> wpe (process_queue_entry t x) Q tr.
Proof using All.
  intros ds T1 T2 T3 T4 T5 T6 OX K. unfold process_queue_entry. rewrite T1. cbv zeta. apply wpe_bind.
  assert (END : forall t' l ds', t_opened t' = true -> t_opt t' = opt -> lenN (t_outq t') < size ->
    Forall (fun x => ordinary (e_data x)) (t_outq t') -> LO (t_writer t') (writer_part (tr ++ l)) ds' ->
    ds' ++ map e_data (t_outq t') ++ [e_data x] = payloads (removed tr) -> removed l = [] ->
    wpe (if io_output_queue_size (t_opt t') <=? lenN (t_outq t') then Fail (FUb ub_store_oob)
      else Ret (t_set_outq t' (t_outq t' ++ [x]) (Queue.wrap32 (t_nbytes t' + (4 + lenN (e_data x)))))) Q (tr ++ l)).
  { intros t' l ds' E1 E2 E3 E4 L1 D1 R1. rewrite E2. destruct (size <=? lenN (t_outq t')) eqn:E; [apply N.leb_le in E; lia|]. cbn [wpe].
    apply K; [|exact R1]. split; cbn [t_set_outq t_opened t_writer t_opt t_outq]; auto.
    - exists ds'. split; [exact L1|]. rewrite map_app, rem_app, R1, app_nil_r. exact D1.
    - unfold lenN in *. rewrite app_length. cbn [length]. lia.
    - apply Forall_app. auto. }
  unfold maybe_flush_output. rewrite T4. destruct (size <? lenN (t_outq t)) eqn:EA; [apply N.ltb_lt in EA; lia|].
  destruct (t_outq t) as [|y ys] eqn:EQ.
  { cbn [wpe]. specialize (END t [] ds). rewrite app_nil_r, EQ in END. rewrite EQ. apply END; auto. cbn. lia. }
  rewrite <- EQ in *. destruct (_ || _) eqn:EB.
  - (* the batch goes out first *)
    unfold flush_output. rewrite T1. rewrite EQ. cbn [negb andb]. rewrite <- EQ. apply wpe_bind. apply wpe_bind.
    apply wpe_writer. eapply x_writev; [exact T2| | |].
    + clear -T6. induction T6; constructor; auto.
    + unfold lenN in *. rewrite map_length. lia.
    + intros h1 w1 L1 l F E. cbn [res_eqb negb wpe]. apply wpe_bind. apply e_free_all. intros l2 P2 R2. cbn [wpe]. rewrite <- app_assoc.
      apply (END _ _ (ds ++ map e_data (t_outq t))); cbn [t_set_outq t_set_writer t_opened t_opt t_outq t_writer]; auto.
      * cbn. lia.
      * rewrite app_assoc, part_app, P2, app_nil_r, part_app, (onw_part _ F), <- E. exact L1.
      * cbn [map app]. rewrite <- app_assoc. exact T3.
      * rewrite rem_app, (onw_removed _ F), R2. reflexivity.
  - cbn [wpe]. specialize (END t [] ds). rewrite app_nil_r in END. apply END; auto.
    apply orb_false_iff in EB as [EB _]. apply N.leb_gt in EB. exact EB.
Qed.

Lemma e_queues n : forall i t total tr (Q : trace -> N * iothr -> Prop), TI t tr ->
  (forall t' l total', TI t' (tr ++ l) -> total <= total' ->
     (total' = total -> forall j, (i <= j < i + n)%nat -> In (QRemove j, AEntry None) l) -> Q (tr ++ l) (total', t')) ->
  wpe (process_queues_from n i t total) Q tr.
Proof using All.
  induction n as [|n IH]; intros i t total tr Q T K; cbn [process_queues_from].
  - cbn [wpe]. specialize (K t [] total). rewrite app_nil_r in K. apply K; [exact T|lia|]. intros _ j. lia.
  - unfold ask_entry. cbn [bind]. apply wpe_ask; [reflexivity|]. intros an (P1 & _ & P3). destruct an as [| | |[x|]| |]; try destruct P1; cbn [bind].
    + destruct T as [T1 (ds & T2 & T3) T4 T5 T6]. apply wpe_bind. eapply e_entry with (ds := ds); auto.
      * rewrite part_one. cbn [of_writer fst]. rewrite app_nil_r. exact T2.
      * rewrite rem_app, pay_app, <- T3, <- app_assoc. reflexivity.
      * intros t1 l1 I1 R1. apply IH; [exact I1|]. intros t2 l2 total2 I2 LE _. rewrite <- !app_assoc in I2 |- *. apply K; [exact I2|lia|]. intro; lia.
    + apply IH; [apply TI_env; auto|]. intros t2 l2 total2 I2 LE N2. rewrite <- !app_assoc in I2 |- *. apply K; [exact I2|exact LE|].
      intros E j J. destruct (Nat.eq_dec j i) as [->|NE]; [left; reflexivity|right]. apply N2; [exact E|lia].
Qed.
Lemma e_process t tr (Q : trace -> N * iothr -> Prop) : TI t tr ->
  (forall t' l total', TI t' (tr ++ l) ->
     (total' = 0 -> forall j, (j < N.to_nat (io_num_input_queues opt))%nat -> In (QRemove j, AEntry None) l) -> Q (tr ++ l) (total', t')) ->
  wpe (process_queues t) Q tr.
Proof using All.
  intros T K. unfold process_queues. apply e_queues; [exact T|]. intros t' l total' I _ N. apply K; [exact I|]. rewrite (ti_opt _ _ T) in N.
  intros E j J. apply N; [exact E|lia].
Qed.
Lemma e_drain fuel : forall t tr (Q : trace -> iothr -> Prop), TI t tr ->
  (forall t' l, TI t' (tr ++ l) -> (forall j, (j < N.to_nat (io_num_input_queues opt))%nat -> In (QRemove j, AEntry None) l) -> Q (tr ++ l) t') ->
  wpe (drain fuel t) Q tr.
Proof using All.
  induction fuel as [|fuel IH]; intros t tr Q T K; cbn [drain]; [reflexivity|]. apply wpe_bind. apply e_process; [exact T|].
  intros t1 l1 n I1 N1. destruct (n =? 0) eqn:E.
  - apply N.eqb_eq in E. cbn [wpe]. apply K; auto.
  - apply IH; [exact I1|]. intros t2 l2 I2 N2. rewrite <- app_assoc in I2 |- *. apply K; [exact I2|]. intros j J. apply in_or_app. right. apply N2, J.
Qed.

(** What holds once the thread has closed: everything taken before is in the
    session, and the queues were found empty after the flag was seen. *)
Record TE (tr : trace) (l1 l2 tail : trace) : Prop := {
  te_tr : tr = l1 ++ (QShutting, ABool true) :: l2 ++ tail;
  te_empty : forall j, (j < N.to_nat (io_num_input_queues opt))%nat -> In (QRemove j, AEntry None) l2;
  te_at : let ds := payloads (removed (l1 ++ (QShutting, ABool true) :: l2)) in
          Forall ordinary ds /\ At (writer_part tr) (HEAD ++ datas ds ++ stop_frame) SCRIPT false }.
Definition closed_ok (tr : trace) (t : iothr) : Prop :=
  t_opt t = opt /\ wok true cts (t_writer t) /\ w_state (t_writer t) = ws_closed /\ exists l1 l2 tail, TE tr l1 l2 tail.

Lemma e_loop dfuel fuel : forall t tr, TI t tr -> wpe (thr_loop fuel dfuel t) closed_ok tr.
Proof using All.
  induction fuel as [|fuel IH]; intros t tr T; cbn [thr_loop]; [reflexivity|].
  unfold ask_bool. cbn [bind]. apply wpe_ask; [reflexivity|]. intros an [P _]. destruct an as [| | | |sd|]; try destruct P. cbn [bind].
  assert (T' : TI t (tr ++ [(QShutting, ABool sd)])) by (apply TI_env; auto). destruct sd.
  - apply wpe_bind. apply e_drain; [exact T'|]. intros t1 l1 I1 E1. apply wpe_bind. apply e_flush; [exact I1|].
    intros t2 l2 I2 Q2 R2. pose proof I2 as [T1 (ds & T2 & T3) T4 T5 T6]. unfold iothr_close. rewrite T1. apply wpe_bind. apply wpe_writer.
    eapply x_close; [assumption|assumption|assumption|exact T2|]. intros h3 w3 OK ST A l3 F3 E3. cbn [wpe t_set_writer t_set_opened].
    split; [exact T4|]. split; [exact OK|]. split; [exact ST|]. exists tr, l1, (l2 ++ l3).
    rewrite Q2 in T3. cbn [map] in T3. rewrite app_nil_r in T3.
    match type of T3 with _ = payloads (removed ?x) => assert (EX : x = (tr ++ (QShutting, ABool true) :: l1) ++ l2) by (rewrite <- (app_assoc tr); reflexivity) end.
    rewrite EX in T2, T3, E3. assert (ED : ds = payloads (removed (tr ++ (QShutting, ABool true) :: l1))) by (rewrite T3, rem_app, R2, app_nil_r; reflexivity).
    split.
    + rewrite <- !app_assoc. reflexivity.
    + exact E1.
    + cbv zeta. rewrite <- ED. split; [apply (lo_ds _ _ _ _ _ T2)|]. match goal with |- At ?x _ _ _ => assert (EY : x = h3) by (rewrite E3, part_app, (onw_part _ F3); f_equal; f_equal; exact EX) end. rewrite EY. exact A.
  - apply wpe_bind. unfold maybe_open. rewrite (ti_op _ _ T'). cbn [wpe]. apply wpe_bind. apply e_process; [exact T'|].
    intros t1 l1 n I1 _. destruct (negb (n =? 0)); [apply IH; exact I1|]. unfold ask_clock. cbn [bind]. apply wpe_ask; [reflexivity|].
    intros an [P1 _]. destruct an as [| |z| | |]; try destruct P1. cbn [bind]. apply wpe_ask; [reflexivity|].
    intros an [P2 _]. destruct an as [| | | |to|]; try destruct P2. cbn [bind].
    match goal with |- context [wpe _ _ ?x] => assert (I2 : TI t1 x) by (apply TI_env; [apply TI_env; [exact I1|reflexivity|reflexivity]|reflexivity|reflexivity]) end.
    destruct to; [|apply IH; exact I2]. apply wpe_bind. apply e_flush; [exact I2|]. intros t3 l3 I3 _ _. apply IH. exact I3.
Qed.

Lemma TE_more tr l1 l2 tail l : TE tr l1 l2 tail -> writer_part l = [] -> TE (tr ++ l) l1 l2 (tail ++ l).
Proof using All.
  intros [E1 E2 E3] P. split; [rewrite E1; rewrite <- !app_assoc; cbn [app]; rewrite <- !app_assoc; reflexivity|exact E2|].
  cbv zeta in *. rewrite part_app, P, app_nil_r. exact E3.
Qed.
Definition ended_ok (tr : trace) (u : unit) : Prop := exists l1 l2 tail, TE tr l1 l2 tail.
Lemma e_free_queue fuel i : forall tr (Q : trace -> unit -> Prop), ended_ok tr tt -> (forall tr', ended_ok tr' tt -> Q tr' tt) ->
  wpe (free_queue fuel i) Q tr.
Proof using All.
  induction fuel as [|fuel IH]; intros tr Q (l1 & l2 & tail & E) K; cbn [free_queue]; [reflexivity|].
  unfold ask_entry. cbn [bind]. apply wpe_ask; [reflexivity|]. intros an (P & _). destruct an as [| | |[x|]| |]; try destruct P; cbn [bind].
  - apply wpe_bind. apply e_free_bytes. intros l P2 R2. apply IH; [|exact K]. rewrite <- app_assoc. do 3 eexists. apply TE_more; [exact E|].
    cbn [app]. change ((QRemove i, AEntry (Some x)) :: l) with ([(QRemove i, AEntry (Some x))] ++ l). rewrite part_app, P2. reflexivity.
  - cbn [wpe]. apply K. do 3 eexists. apply TE_more; [exact E|]. reflexivity.
Qed.
Lemma e_free_queues dfuel n : forall i tr, ended_ok tr tt -> wpe (free_queues n i dfuel) ended_ok tr.
Proof using All.
  induction n as [|n IH]; intros i tr E; cbn [free_queues]; [exact E|]. apply wpe_bind. apply e_free_queue; [exact E|]. intros tr' E'. apply IH, E'.
Qed.

Lemma e_life fuel dfuel t : t_opened t = false -> t_opt t = opt -> t_outq t = [] -> t_last_open t = 0%Z ->
  LW cts sct (t_writer t) [] U_fresh -> (Z.of_N (io_reopen_interval opt) <= up)%Z -> wpe (iothr_life fuel dfuel t) ended_ok [].
Proof using All.
  intros E1 E2 E3 E4 L U. unfold iothr_life. apply wpe_bind. unfold iothr_thr. apply wpe_bind. unfold maybe_open. rewrite E1.
  unfold ask_clock. cbn [bind]. apply wpe_ask; [reflexivity|]. intros an (P & C & _). destruct an as [| |z| | |]; try destruct P. cbn [clock_shows] in C. cbn [bind].
  rewrite E2, E4. destruct (_ <? _)%Z eqn:EC; [apply Z.ltb_lt in EC; lia|]. unfold iothr_open. apply wpe_bind. apply wpe_writer.
  cbn [app t_writer t_set_last]. change (writer_part [(QClock, AClock z)]) with (@nil event).
  eapply x_open; [assumption|assumption|assumption|exact L|]. intros h1 w1 L1 l1 F1 EH. cbn [wpe res_eqb].
  eapply wpe_mono; [|apply e_loop].
  - intros tr t1 (O1 & O2 & O3 & O4). apply wpe_bind. apply wpe_writer. unfold writer_destroy. rewrite O3. apply wpq_bind. cbn [Pair_proofs.wpq].
    apply wpq_bind. unfold rdwr_destroy. rewrite (ok_destroy _ _ _ O2). cbn [Pair_proofs.wpq bind]. destruct O4 as (a1 & a2 & a3 & O4).
    pose proof O4 as [X1 X2 (X3 & X4)]. split; [apply X4|]. intros l2 F2 EL. rewrite O1. apply e_free_queues.
    apply app_inv_head in EL. subst l2. eexists a1, a2, (a3 ++ [_]).
    split; [rewrite X1 at 1; rewrite <- !app_assoc; cbn [app]; rewrite <- !app_assoc; reflexivity|exact X2|]. cbv zeta. split; [exact X3|].
    rewrite part_app, (onw_part _ F2). apply at_destroy, X4.
  - split; cbn [t_set_opened t_set_writer t_set_last t_opened t_writer t_opt t_outq]; auto.
    + exists []. rewrite E3. cbn [map app]. split.
      * change ((QClock, AClock z) :: l1) with ([(QClock, AClock z)] ++ l1). rewrite part_app, (onw_part _ F1). cbn [app] in EH. subst h1. exact L1.
      * cbn. unfold removed in *. change (flat_map removed_at l1) with (removed l1). rewrite (onw_removed _ F1). reflexivity.
    + rewrite E3. cbn. apply N.le_0_l.
    + rewrite E3. constructor.
Qed.
End Thread.

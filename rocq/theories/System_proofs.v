(** The thread over lock-free queues refines the system of SpecIothr.v. *)
From Verif Require Import Bytes Bytes_proofs Io Queue SpecQueue Queue_proofs Queue2_proofs Queue4_proofs Iothr SpecIothr System SpecSystem Iothr4_proofs.
Local Open Scope nat_scope.

(** ** Traces of queue events *)
Lemma published_snoc l e : published (l ++ [e]) = published l + match e with E_published => 1 | _ => 0 end.
Proof. rewrite published_app. destruct e; reflexivity. Qed.
Lemma inserted_snoc l e : inserted (l ++ [e]) = inserted l ++ match e with E_inserted x => [x] | _ => [] end.
Proof. rewrite inserted_app. destruct e; reflexivity. Qed.
Lemma qremoved_snoc l e : SpecQueue.removed (l ++ [e]) = SpecQueue.removed l ++ match e with E_removed x => [x] | _ => [] end.
Proof. rewrite removed_app. destruct e; reflexivity. Qed.
Lemma qfreed_snoc l e : SpecQueue.freed (l ++ [e]) = SpecQueue.freed l + match e with E_freed => 1 | _ => 0 end.
Proof. unfold SpecQueue.freed. rewrite filter_app, app_length. destruct e; reflexivity. Qed.
Lemma seen_snoc l e : seen (l ++ [e]) = match e with E_chead => published l | _ => seen l end.
Proof. unfold seen. rewrite rev_unit. destruct e; cbn; rewrite ?rev_involutive; reflexivity. Qed.

Lemma at_queue_app i a b : at_queue i (a ++ b) = at_queue i a ++ at_queue i b. Proof. apply flat_map_app. Qed.
Lemma at_queue_snoc i j l e : at_queue i (l ++ [KE_q j e]) = if Nat.eqb j i then at_queue i l ++ [e] else at_queue i l.
Proof. rewrite at_queue_app. cbn. destruct (Nat.eqb j i); rewrite ?app_nil_r; reflexivity. Qed.
Lemma calls_snoc dec l e : calls dec (l ++ [e]) = calls dec l ++ calls_at dec e.
Proof. unfold calls. rewrite flat_map_app. cbn. rewrite app_nil_r. reflexivity. Qed.
Lemma submitted_snoc dec l e : submitted dec (l ++ [e]) = submitted dec l ++ submitted_at dec e.
Proof. unfold submitted. rewrite flat_map_app. cbn. rewrite app_nil_r. reflexivity. Qed.

Section AB.
Variables (num : N) (dec : bytes -> entry).
Let cap := N.to_nat num - 1.

Definition pend (l : list cev) (i : nat) : list entry := map dec (skipn (published (at_queue i l)) (inserted (at_queue i l))).
Definition vis (l : list cev) (i : nat) : list entry :=
  map dec (skipn (length (SpecQueue.removed (at_queue i l))) (firstn (published (at_queue i l)) (inserted (at_queue i l)))).

Record counts (t : list qev) : Prop := {
  n_fr : SpecQueue.freed t <= length (SpecQueue.removed t);
  n_rp : length (SpecQueue.removed t) <= published t;
  n_pi : published t <= length (inserted t) }.

(** [H] is the abstract history of the trace [l]; [open]: the queue at which the
    thread has read the producer's position and not yet decided. *)
Definition split_at (l : list cev) (H : history) (open : option nat) : Prop :=
  match open with
  | None => True
  | Some i => exists H1 H2 a1, H = H1 ++ H2 /\ thread_of H2 = [] /\ sys_run cap sys_init H1 = Some a1 /\
      length (s_visible a1 i) + length (SpecQueue.removed (at_queue i l)) = seen (at_queue i l)
  end.
Definition shut_at (l : list cev) (H : history) : Prop :=
  forall l1 l2, l = l1 ++ KE_shutdown :: l2 -> exists HA HB a1, H = HA ++ S_shutdown :: HB /\ accepted HA = submitted dec l1 /\
    sys_run cap sys_init HA = Some a1 /\ (forall i, s_pending a1 i = pend l1 i) /\ (~ In KE_shutdown l1 -> ~ In S_shutdown HA).
Record AB (l : list cev) (flag : bool) (open : option nat) (H : history) (a : sys) : Prop := {
  b_run : sys_run cap sys_init H = Some a;
  b_calls : thread_of H = calls dec l;
  b_acc : accepted H = submitted dec l;
  b_flag : s_flag a = flag;
  b_pend : forall i, s_pending a i = pend l i;
  b_vis : forall i, s_visible a i = vis l i;
  b_counts : forall i, counts (at_queue i l);
  b_split : split_at l H open;
  b_shut : shut_at l H;
  b_sd : In S_shutdown H <-> In KE_shutdown l }.

Lemma ab_close l f o H a : AB l f o H a -> AB l f None H a.
Proof. intros []. constructor; auto. exact I. Qed.

Lemma shut_snoc l H e X : shut_at l H -> e <> KE_shutdown -> shut_at (l ++ [e]) (H ++ X).
Proof.
  intros S N l1 l2 E. destruct l2 as [|e' l2 _] using rev_ind.
  { apply app_inj_tail in E. destruct E as [_ E]. congruence. }
  rewrite app_comm_cons, app_assoc in E. apply app_inj_tail in E. destruct E as [E <-].
  destruct (S _ _ E) as (HA & HB & a1 & -> & R). exists HA, (HB ++ X), a1. split; [rewrite <- app_assoc; reflexivity|exact R].
Qed.
Lemma shut_same l H e : shut_at l H -> e <> KE_shutdown -> shut_at (l ++ [e]) H.
Proof. intros S N. rewrite <- (app_nil_r H). apply shut_snoc; assumption. Qed.
Lemma sd_snoc l e (H : history) x : (In S_shutdown H <-> In KE_shutdown l) -> e <> KE_shutdown -> x <> S_shutdown ->
  (In S_shutdown (H ++ [x]) <-> In KE_shutdown (l ++ [e])).
Proof. intros B N M. rewrite !in_app_iff. cbn. intuition congruence. Qed.
Lemma sd_same l e (H : history) : (In S_shutdown H <-> In KE_shutdown l) -> e <> KE_shutdown -> (In S_shutdown H <-> In KE_shutdown (l ++ [e])).
Proof. intros B N. rewrite in_app_iff. cbn. intuition congruence. Qed.

Lemma split_event l H o i e : split_at l H o -> e <> E_chead -> (forall x, e <> E_removed x) -> split_at (l ++ [KE_q i e]) H o.
Proof.
  destruct o as [j|]; [|auto]. intros (H1 & H2 & a1 & E & T & R & V) N M. exists H1, H2, a1. repeat (split; [assumption|]).
  rewrite at_queue_snoc. destruct (Nat.eqb i j); [|exact V]. rewrite qremoved_snoc, seen_snoc.
  destruct e; try congruence; rewrite app_nil_r; exact V.
Qed.
Lemma split_more l H o x : thread_of [x] = [] -> split_at l H o -> split_at l (H ++ [x]) o.
Proof.
  destruct o as [j|]; [|auto]. intros T (H1 & H2 & a1 & E & T2 & R & V). exists H1, (H2 ++ [x]), a1.
  split; [rewrite E, app_assoc; reflexivity|]. split; [rewrite thread_app, T2, T; reflexivity|]. split; assumption.
Qed.

Lemma counts_event t e : counts t -> ev_ok num t e -> counts (t ++ [e]).
Proof.
  intros [A B C] K. constructor; rewrite ?qfreed_snoc, ?qremoved_snoc, ?published_snoc, ?inserted_snoc, ?app_length; destruct e; cbn in *; try lia.
Qed.
Lemma counts_at l i e : (forall j, counts (at_queue j l)) -> ev_ok num (at_queue i l) e -> forall j, counts (at_queue j (l ++ [KE_q i e])).
Proof. intros C K j. rewrite at_queue_snoc. destruct (Nat.eqb_spec i j) as [<-|]; [|apply C]. apply counts_event; [apply C|exact K]. Qed.

Lemma skipn_nth {A} (l : list A) : forall n x, nth_error l n = Some x -> skipn n l = x :: skipn (S n) l.
Proof. induction l; intros [|n] x E; cbn in *; try discriminate; [congruence|]. apply IHl, E. Qed.
Lemma firstn_S {A} (l : list A) : forall n x, nth_error l n = Some x -> firstn (S n) l = firstn n l ++ [x].
Proof. induction l; intros [|n] x E; cbn in *; try discriminate; [congruence|]. f_equal. apply IHl, E. Qed.
Lemma nth_some {A} (l : list A) n : n < length l -> exists x, nth_error l n = Some x.
Proof. intro L. destruct (nth_error l n) eqn:E; [eauto|]. apply nth_error_None in E. lia. Qed.

(** Events that are not actions of the abstract system. *)
Lemma ab_quiet l f o H a i e : AB l f o H a -> ev_ok num (at_queue i l) e ->
  match e with E_accept _ | E_refuse _ | E_take _ | E_freed => True | _ => False end -> AB (l ++ [KE_q i e]) f o H a.
Proof.
  intros B K Q. pose proof B as [? ? ? ? P V C S ? ?]. constructor; auto.
  - rewrite calls_snoc. destruct e; try contradiction; cbn; rewrite app_nil_r; assumption.
  - rewrite submitted_snoc. destruct e; try contradiction; cbn; rewrite app_nil_r; assumption.
  - intro j. rewrite P. unfold pend. rewrite at_queue_snoc. destruct (Nat.eqb i j); [|reflexivity]. rewrite published_snoc, inserted_snoc.
    destruct e; try contradiction; rewrite Nat.add_0_r, app_nil_r; reflexivity.
  - intro j. rewrite V. unfold vis. rewrite at_queue_snoc. destruct (Nat.eqb i j); [|reflexivity]. rewrite published_snoc, inserted_snoc, qremoved_snoc.
    destruct e; try contradiction; rewrite Nat.add_0_r, !app_nil_r; reflexivity.
  - apply counts_at; assumption.
  - apply split_event; [assumption| |]; destruct e; try contradiction; congruence.
  - apply shut_same; [assumption|discriminate].
  - apply sd_same; [assumption|discriminate].
Qed.

Lemma ab_insert l f o H a i x : AB l f o H a -> ev_ok num (at_queue i l) (E_inserted x) ->
  exists a', AB (l ++ [KE_q i (E_inserted x)]) f o (H ++ [S_insert i (dec x)]) a'.
Proof.
  intros B K. pose proof B as [R CA AC FL P V C SP SH SD]. destruct (C i) as [C1 C2 C3]. cbn in K.
  assert (L : Nat.ltb (length (s_pending a i) + length (s_visible a i)) cap = true).
  { apply Nat.ltb_lt. rewrite P, V. unfold pend, vis, cap. rewrite !map_length, !skipn_length, firstn_length. lia. }
  exists (mk_sys (upd (s_pending a) i (s_pending a i ++ [dec x])) (s_visible a) (s_flag a)). constructor; auto.
  - rewrite sys_app, R. cbn [sys_run sys_step]. rewrite L. reflexivity.
  - rewrite thread_app, CA, calls_snoc. reflexivity.
  - rewrite accepted_app, AC, submitted_snoc. reflexivity.
  - intro j. cbn [s_pending]. unfold upd, pend. rewrite at_queue_snoc. destruct (Nat.eqb_spec i j) as [<-|]; [|apply P].
    rewrite P, published_snoc, inserted_snoc, Nat.add_0_r, skipn_app, map_app. unfold pend. f_equal.
    replace (published (at_queue i l) - length (inserted (at_queue i l))) with 0 by lia. reflexivity.
  - intro j. cbn [s_visible]. rewrite V. unfold vis. rewrite at_queue_snoc. destruct (Nat.eqb_spec i j) as [<-|]; [|reflexivity].
    rewrite published_snoc, inserted_snoc, qremoved_snoc, Nat.add_0_r, app_nil_r, firstn_app.
    replace (published (at_queue i l) - length (inserted (at_queue i l))) with 0 by lia. cbn [firstn]. rewrite app_nil_r. reflexivity.
  - apply counts_at; assumption.
  - apply split_more; [reflexivity|]. apply split_event; [assumption| |]; discriminate.
  - apply shut_snoc; [assumption|discriminate].
  - apply sd_snoc; [assumption|discriminate|discriminate].
Qed.

Lemma ab_publish l f o H a i : AB l f o H a -> ev_ok num (at_queue i l) E_published ->
  exists a', AB (l ++ [KE_q i E_published]) f o (H ++ [S_publish i]) a'.
Proof.
  intros B K. pose proof B as [R CA AC FL P V C SP SH SD]. destruct (C i) as [C1 C2 C3]. cbn in K.
  destruct (nth_some (inserted (at_queue i l)) _ K) as (x & EX). pose proof (skipn_nth _ _ _ EX) as SK. pose proof (firstn_S _ _ _ EX) as FK.
  assert (EP : s_pending a i = dec x :: map dec (skipn (S (published (at_queue i l))) (inserted (at_queue i l)))) by (rewrite P; unfold pend; rewrite SK; reflexivity).
  exists (mk_sys (upd (s_pending a) i (map dec (skipn (S (published (at_queue i l))) (inserted (at_queue i l))))) (upd (s_visible a) i (s_visible a i ++ [dec x])) (s_flag a)).
  constructor; auto.
  - rewrite sys_app, R. cbn [sys_run sys_step]. rewrite EP. reflexivity.
  - rewrite thread_app, CA, calls_snoc. reflexivity.
  - rewrite accepted_app, AC, submitted_snoc. reflexivity.
  - intro j. cbn [s_pending]. unfold upd, pend. rewrite at_queue_snoc. destruct (Nat.eqb_spec i j) as [<-|]; [|apply P].
    rewrite published_snoc, inserted_snoc, app_nil_r, Nat.add_1_r. reflexivity.
  - intro j. cbn [s_visible]. unfold upd, vis. rewrite at_queue_snoc. destruct (Nat.eqb_spec i j) as [<-|]; [|apply V].
    rewrite V. unfold vis. rewrite published_snoc, inserted_snoc, qremoved_snoc, !app_nil_r, Nat.add_1_r, FK, skipn_app, map_app. f_equal.
    rewrite firstn_length. replace (length (SpecQueue.removed (at_queue i l)) - Nat.min (published (at_queue i l)) (length (inserted (at_queue i l)))) with 0 by lia. reflexivity.
  - apply counts_at; assumption.
  - apply split_more; [reflexivity|]. apply split_event; [assumption| |]; discriminate.
  - apply shut_snoc; [assumption|discriminate].
  - apply sd_snoc; [assumption|discriminate|discriminate].
Qed.

Lemma ab_look l f o H a i : AB l f o H a -> AB (l ++ [KE_q i E_chead]) f (Some i) H a.
Proof.
  intros B. pose proof B as [R CA AC FL P V C SP SH SD]. destruct (C i) as [C1 C2 C3]. constructor; auto.
  - rewrite calls_snoc. cbn. rewrite app_nil_r. assumption.
  - rewrite submitted_snoc. cbn. rewrite app_nil_r. assumption.
  - intro j. rewrite P. unfold pend. rewrite at_queue_snoc. destruct (Nat.eqb i j); [|reflexivity]. rewrite published_snoc, inserted_snoc, Nat.add_0_r, app_nil_r. reflexivity.
  - intro j. rewrite V. unfold vis. rewrite at_queue_snoc. destruct (Nat.eqb i j); [|reflexivity]. rewrite published_snoc, inserted_snoc, qremoved_snoc, Nat.add_0_r, !app_nil_r. reflexivity.
  - apply counts_at; [assumption|exact I].
  - exists H, [], a. split; [symmetry; apply app_nil_r|]. split; [reflexivity|]. split; [assumption|].
    rewrite V, at_queue_snoc, Nat.eqb_refl, seen_snoc, qremoved_snoc, app_nil_r. unfold vis. rewrite map_length, skipn_length, firstn_length. lia.
  - apply shut_same; [assumption|discriminate].
  - apply sd_same; [assumption|discriminate].
Qed.

Lemma ab_empty l f H a i c : AB l f (Some i) H a -> ev_ok num (at_queue i l) (E_empty c) ->
  exists H', AB (l ++ [KE_q i (E_empty c)]) f None H' a.
Proof.
  intros B [_ K]. pose proof B as [R CA AC FL P V C (H1 & H2 & a1 & E & T & R1 & VL) SH SD].
  assert (Z : s_visible a1 i = []) by (apply length_zero_iff_nil; lia).
  set (ev := S_thr (QRemove i, AEntry None)).
  assert (SE : sys_step cap a1 ev = Some a1) by (cbn; rewrite Z; reflexivity).
  exists (H1 ++ ev :: H2). constructor; auto.
  - rewrite sys_app, R1. cbn [sys_run]. rewrite SE. rewrite E, sys_app, R1 in R. exact R.
  - rewrite calls_snoc, <- CA, E, !thread_app. cbn [calls_at]. change (ev :: H2) with ([ev] ++ H2). rewrite thread_app, T, !app_nil_r. reflexivity.
  - rewrite submitted_snoc. cbn [submitted_at]. rewrite app_nil_r, <- AC, E, !accepted_app. reflexivity.
  - intro j. rewrite P. unfold pend. rewrite at_queue_snoc. destruct (Nat.eqb i j); [|reflexivity]. rewrite published_snoc, inserted_snoc, Nat.add_0_r, app_nil_r. reflexivity.
  - intro j. rewrite V. unfold vis. rewrite at_queue_snoc. destruct (Nat.eqb i j); [|reflexivity]. rewrite published_snoc, inserted_snoc, qremoved_snoc, Nat.add_0_r, !app_nil_r. reflexivity.
  - intro j. rewrite at_queue_snoc. destruct (Nat.eqb_spec i j) as [<-|]; [|apply C]. destruct (C i) as [X1 X2 X3]. constructor; rewrite ?qfreed_snoc, ?qremoved_snoc, ?published_snoc, ?inserted_snoc, ?app_nil_r; lia.
  - exact I.
  - intros l1 l2 EL. destruct l2 as [|e' l2 _] using rev_ind.
    { apply app_inj_tail in EL. destruct EL as [_ EL]. discriminate. }
    rewrite app_comm_cons, app_assoc in EL. apply app_inj_tail in EL. destruct EL as [EL _].
    destruct (SH _ _ EL) as (HA & HB & a2 & EH & AA & RA & PA & NA). rewrite E in EH. apply app_eq_app in EH. destruct EH as (X & [[X1 X2]|[X1 X2]]).
    + destruct X as [|x X].
      * cbn [app] in X2. subst H2. rewrite app_nil_r in X1. subst H1. exists (HA ++ [ev]), HB, a2. rewrite <- app_assoc. split; [reflexivity|]. split; [rewrite accepted_app, AA; apply app_nil_r|].
        rewrite RA in R1. injection R1 as <-. split; [rewrite sys_app, RA; cbn [sys_run]; rewrite SE; reflexivity|]. split; [assumption|]. rewrite in_app_iff. intros N [N'|[N'|[]]]; [exact (NA N N')|discriminate].
      * cbn [app] in X2. injection X2 as <- ->. subst H1. exists HA, (X ++ ev :: H2), a2. rewrite <- app_assoc. auto.
    + subst HA H2. exists (H1 ++ ev :: X), HB, a2. rewrite <- app_assoc. split; [reflexivity|]. split; [rewrite <- AA, !accepted_app; reflexivity|].
      split; [|split; [assumption|]].
      * rewrite sys_app, R1. cbn [sys_run]. rewrite SE. rewrite sys_app, R1 in RA. exact RA.
      * intro N. specialize (NA N). rewrite in_app_iff in *. cbn. intuition discriminate.
  - rewrite in_app_iff. cbn. rewrite in_app_iff, <- SD, E, in_app_iff. cbn. intuition discriminate.
Qed.

Lemma ab_remove l f o H a i x : AB l f o H a -> ev_ok num (at_queue i l) (E_removed x) ->
  exists a', AB (l ++ [KE_q i (E_removed x)]) f None (H ++ [S_thr (QRemove i, AEntry (Some (dec x)))]) a'.
Proof.
  intros B [K KX]. pose proof B as [R CA AC FL P V C SP SH SD]. destruct (C i) as [C1 C2 C3].
  set (t := at_queue i l) in *. set (k := length (SpecQueue.removed t)) in *.
  assert (NX : nth_error (firstn (published t) (inserted t)) k = Some x).
  { rewrite <- KX. rewrite <- (firstn_skipn (published t) (inserted t)) at 2. symmetry. apply nth_error_app1. rewrite firstn_length. lia. }
  assert (EV : s_visible a i = dec x :: map dec (skipn (S k) (firstn (published t) (inserted t)))) by (rewrite V; unfold vis; fold t k; rewrite (skipn_nth _ _ _ NX); reflexivity).
  exists (mk_sys (s_pending a) (upd (s_visible a) i (map dec (skipn (S k) (firstn (published t) (inserted t))))) (s_flag a)). constructor; auto.
  - rewrite sys_app, R. cbn [sys_run sys_step]. rewrite EV, Nat.eqb_refl, Bool.eqb_reflx, bytes_eqb_refl. reflexivity.
  - rewrite thread_app, CA, calls_snoc. reflexivity.
  - rewrite accepted_app, AC, submitted_snoc. reflexivity.
  - intro j. cbn [s_pending]. rewrite P. unfold pend. rewrite at_queue_snoc. destruct (Nat.eqb i j); [|reflexivity]. rewrite published_snoc, inserted_snoc, Nat.add_0_r, app_nil_r. reflexivity.
  - intro j. cbn [s_visible]. unfold upd, vis. rewrite at_queue_snoc. destruct (Nat.eqb_spec i j) as [<-|]; [|apply V].
    fold t. rewrite published_snoc, inserted_snoc, qremoved_snoc, Nat.add_0_r, app_nil_r, app_length. cbn [length]. fold k. rewrite Nat.add_1_r. reflexivity.
  - apply counts_at; [assumption|]. fold t. split; assumption.
  - exact I.
  - apply shut_snoc; [assumption|discriminate].
  - apply sd_snoc; [assumption|discriminate|discriminate].
Qed.

Lemma ab_shutdown l f o H a : AB l f o H a -> exists a', AB (l ++ [KE_shutdown]) true o (H ++ [S_shutdown]) a'.
Proof.
  intros B. pose proof B as [R CA AC FL P V C SP SH SD].
  assert (AQ : forall i, at_queue i (l ++ [KE_shutdown]) = at_queue i l) by (intro i; rewrite at_queue_app; apply app_nil_r).
  exists (mk_sys (s_pending a) (s_visible a) true). constructor; auto.
  - rewrite sys_app, R. reflexivity.
  - rewrite thread_app, CA, calls_snoc. reflexivity.
  - rewrite accepted_app, AC, submitted_snoc. reflexivity.
  - intro i. unfold pend. rewrite AQ. apply P.
  - intro i. unfold vis. rewrite AQ. apply V.
  - intro i. rewrite AQ. apply C.
  - apply split_more; [reflexivity|]. destruct o; [|exact I]. unfold split_at. rewrite AQ. exact SP.
  - intros l1 l2 E. destruct l2 as [|e' l2 _] using rev_ind.
    + apply app_inj_tail in E. destruct E as [<- _]. exists H, [], a. repeat (split; [auto|]). intros N M. apply N, SD, M.
    + rewrite app_comm_cons, app_assoc in E. apply app_inj_tail in E. destruct E as [E _]. destruct (SH _ _ E) as (HA & HB & a1 & -> & X).
      exists HA, (HB ++ [S_shutdown]), a1. split; [rewrite <- app_assoc; reflexivity|exact X].
  - rewrite !in_app_iff. cbn. intuition.
Qed.

Lemma ab_call l f o H a e : AB l f o H a -> match e with (QRemove _, _) => False | (QShutting, ABool b) => b = f | _ => True end ->
  AB (l ++ [KE_call e]) f None (H ++ [S_thr e]) a.
Proof.
  intros B K. pose proof B as [R CA AC FL P V C SP SH SD].
  assert (AQ : forall i, at_queue i (l ++ [KE_call e]) = at_queue i l) by (intro i; rewrite at_queue_app; apply app_nil_r).
  constructor; auto.
  - rewrite sys_app, R. cbn [sys_run]. assert (SE : sys_step cap a (S_thr e) = Some a).
    { destruct e as [q an]. destruct q; try contradiction; try reflexivity. destruct an; try reflexivity. cbn. rewrite K, FL, Bool.eqb_reflx. reflexivity. }
    rewrite SE. reflexivity.
  - rewrite thread_app, CA, calls_snoc. reflexivity.
  - rewrite accepted_app, AC, submitted_snoc. reflexivity.
  - intro i. unfold pend. rewrite AQ. apply P.
  - intro i. unfold vis. rewrite AQ. apply V.
  - intro i. rewrite AQ. apply C.
  - exact I.
  - apply shut_snoc; [assumption|discriminate].
  - apply sd_snoc; [assumption|discriminate|discriminate].
Qed.

Lemma ab_nil : AB [] false None [] sys_init.
Proof.
  constructor; try reflexivity.
  - intro i. constructor; cbn; lia.
  - intros l1 l2 E. destruct l1; discriminate.
Qed.
End AB.

(** ** Steps of one queue *)
Lemma prod_pc s i : c_pc (q_cons (prod_step s i)) = c_pc (q_cons s).
Proof. unfold prod_step. destruct (nth_error (q_prods s) i) as [p|]; [|reflexivity]. destruct (p_pc p) as [|x h|x h sp k]; [destruct (p_todo p); reflexivity| |]; [destruct (1 <=? _)%N|destruct (Nat.ltb k (q_sz s))]; reflexivity. Qed.
Lemma pflush_pc s i : c_pc (q_cons (prod_flush s i)) = c_pc (q_cons s).
Proof. unfold prod_flush. destruct (nth_error (q_prods s) i) as [p|]; [|reflexivity]. destruct (p_buf p) as [|[]]; reflexivity. Qed.
Lemma cflush_pc s : c_pc (q_cons (cons_flush s)) = c_pc (q_cons s).
Proof. unfold cons_flush. destruct (c_buf (q_cons s)); reflexivity. Qed.

Definition other_event (e : qev) : Prop := match e with E_accept _ | E_refuse _ | E_inserted _ | E_published | E_freed => True | _ => False end.
Lemma other_step s a : a <> A_cons -> c_pc (q_cons (q_step s a)) = c_pc (q_cons s) /\
  (q_log (q_step s a) = q_log s \/ exists e, other_event e /\ q_log (q_step s a) = e :: q_log s).
Proof.
  intro N. destruct a as [i|i| |]; try congruence; cbn [q_step]; (split; [first [apply prod_pc|apply pflush_pc|apply cflush_pc]|]).
  - unfold prod_step. destruct (nth_error (q_prods s) i) as [p|]; [|auto]. destruct (p_pc p) as [|x h|x h sp k].
    + destruct (p_todo p); auto.
    + destruct (1 <=? _)%N; right; eexists; (split; [|reflexivity]); exact I.
    + destruct (Nat.ltb k (q_sz s)); [auto|]. right. eexists. split; [|reflexivity]. exact I.
  - unfold prod_flush. destruct (nth_error (q_prods s) i) as [p|]; [|auto]. destruct (p_buf p) as [|[]]; auto. right. eexists. split; [|reflexivity]. exact I.
  - unfold cons_flush. destruct (c_buf (q_cons s)); [auto|]. right. eexists. split; [|reflexivity]. exact I.
Qed.
Lemma cons_cases s :
  match c_pc (q_cons s) with
  | C_idle => q_log (cons_step s) = E_chead :: q_log s /\ exists h, c_pc (q_cons (cons_step s)) = C_tail h
  | C_tail h => (exists c, q_log (cons_step s) = E_empty c :: q_log s /\ c_pc (q_cons (cons_step s)) = C_idle) \/
                (exists c, q_log (cons_step s) = E_take c :: q_log s /\ exists t n g, c_pc (q_cons (cons_step s)) = C_copy t n g)
  | C_copy t n g => (q_log (cons_step s) = q_log s /\ exists t n g, c_pc (q_cons (cons_step s)) = C_copy t n g) \/
                    (exists x, q_log (cons_step s) = E_removed x :: q_log s /\ c_pc (q_cons (cons_step s)) = C_idle)
  end.
Proof.
  unfold cons_step. destruct (c_pc (q_cons s)) as [|h|t n g] eqn:E.
  - split; [reflexivity|eexists; reflexivity].
  - destruct (1 <=? _)%N; [right|left]; eexists; (split; [reflexivity|]); [do 3 eexists|]; reflexivity.
  - destruct (Nat.ltb (length g) (q_sz s)).
    + left. split; [reflexivity|do 3 eexists; reflexivity].
    + destruct (c_buf (q_cons s)); [right; eexists; split; reflexivity|left; split; [reflexivity|do 3 eexists; exact E]].
Qed.

(** ** The whole *)
Section SYS.
Variables (num : N) (sz : nat) (dec : bytes -> entry) (todo : nat -> list bytes).
Hypothesis (R32 : (num < 2 ^ 32)%N) (QI : queue_init_ok num = true) (FIT : (num * N.of_nat sz <= 2 ^ 32)%N).
Hypothesis (TD : forall i, Forall (fun x => length x = sz) (todo i)).

Definition reach (s : csys) : Prop := forall i, exists sch, k_queues s i = q_run (q_init num sz [todo i]) sch.
Definition looking (s : csys) : option nat :=
  match k_in s with Some i => match c_pc (q_cons (k_queues s i)) with C_tail _ => Some i | _ => None end | None => None end.
Record CI (s : csys) : Prop := {
  ci_reach : reach s;
  ci_proj : forall i, at_queue i (c_trace s) = q_trace (k_queues s i);
  ci_in : forall i, match k_in s with Some j => i <> j | None => True end -> c_pc (q_cons (k_queues s i)) = C_idle;
  ci_busy : forall j, k_in s = Some j -> c_pc (q_cons (k_queues s j)) <> C_idle;
  ci_abs : exists H a, AB num dec (c_trace s) (k_flag s) (looking s) H a }.

Lemma reach_ev s i : reach s -> forall a e, q_log (q_step (k_queues s i) a) = e :: q_log (k_queues s i) -> ev_ok num (q_trace (k_queues s i)) e.
Proof.
  intros RE a e E. destruct (RE i) as (sch & ES).
  destruct (spsc_capacity num sz (todo i) QI R32 FIT (TD i) (sch ++ [a])) as [_ T].
  assert (ET : q_trace (q_run (q_init num sz [todo i]) (sch ++ [a])) = q_trace (k_queues s i) ++ [e]).
  { unfold q_run in *. rewrite fold_left_app. cbn [fold_left]. rewrite <- ES. unfold q_trace. rewrite E. reflexivity. }
  cbn zeta in T. rewrite ET in T. apply (T _ _ [] eq_refl).
Qed.

Lemma set_q_log s i a ins e : q_log (q_step (k_queues s i) a) = e :: q_log (k_queues s i) -> c_trace (set_q s i a ins) = c_trace s ++ [KE_q i e].
Proof.
  intro E. unfold c_trace, set_q. cbn [k_log]. rewrite E. cbn [length]. replace (S (length (q_log (k_queues s i))) - length (q_log (k_queues s i))) with 1 by lia. reflexivity.
Qed.
Lemma set_q_same s i a ins : q_log (q_step (k_queues s i) a) = q_log (k_queues s i) -> c_trace (set_q s i a ins) = c_trace s.
Proof. intro E. unfold c_trace, set_q. cbn [k_log]. rewrite E, Nat.sub_diag. reflexivity. Qed.
Lemma set_q_reach s i a ins : reach s -> reach (set_q s i a ins).
Proof.
  intros RE j. cbn. destruct (Nat.eqb_spec i j) as [<-|]; [|apply RE]. destruct (RE i) as (sch & E). exists (sch ++ [a]).
  unfold q_run in *. rewrite fold_left_app, <- E. reflexivity.
Qed.
Lemma set_q_proj s i a ins : (forall j, at_queue j (c_trace s) = q_trace (k_queues s j)) ->
  (q_log (q_step (k_queues s i) a) = q_log (k_queues s i) \/ exists e, q_log (q_step (k_queues s i) a) = e :: q_log (k_queues s i)) ->
  forall j, at_queue j (c_trace (set_q s i a ins)) = q_trace (k_queues (set_q s i a ins) j).
Proof.
  intros P [E|(e & E)] j; cbn [k_queues set_q].
  - rewrite (set_q_same _ _ _ _ E), P. destruct (Nat.eqb_spec i j) as [<-|]; [|reflexivity]. unfold q_trace. rewrite E. reflexivity.
  - rewrite (set_q_log _ _ _ _ _ E), at_queue_snoc, P. destruct (Nat.eqb_spec i j) as [<-|]; [|reflexivity]. unfold q_trace. rewrite E. reflexivity.
Qed.

Lemma other_CI s i a : a <> A_cons -> CI s -> CI (set_q s i a (k_in s)).
Proof.
  intros N [RE PR IN BU (H & ab & B)]. destruct (other_step (k_queues s i) a N) as [PC LG].
  assert (PCJ : forall j, c_pc (q_cons (k_queues (set_q s i a (k_in s)) j)) = c_pc (q_cons (k_queues s j))).
  { intro j. cbn. destruct (Nat.eqb_spec i j) as [<-|]; [exact PC|reflexivity]. }
  assert (LK : looking (set_q s i a (k_in s)) = looking s) by (unfold looking; cbn [k_in set_q]; destruct (k_in s) as [j|]; [|reflexivity]; fold (set_q s i a (k_in s)); rewrite PCJ; reflexivity).
  constructor.
  - apply set_q_reach, RE.
  - apply set_q_proj; [exact PR|]. destruct LG as [LG|(e & _ & LG)]; eauto.
  - intros j J. rewrite PCJ. apply IN, J.
  - intros j J. rewrite PCJ. apply BU, J.
  - rewrite LK. cbn [k_flag set_q]. fold (set_q s i a (k_in s)). destruct LG as [LG|(e & O & LG)].
    + rewrite (set_q_same _ _ _ _ LG). eauto.
    + rewrite (set_q_log _ _ _ _ _ LG). pose proof (reach_ev s i RE a e LG) as K. rewrite <- PR in K.
      destruct e; try contradiction.
      * exists H, ab. apply ab_quiet; auto.
      * exists H, ab. apply ab_quiet; auto.
      * destruct (ab_insert _ _ _ _ _ _ _ _ _ B K) as (a' & B'). eauto.
      * destruct (ab_publish _ _ _ _ _ _ _ _ B K) as (a' & B'). eauto.
      * exists H, ab. apply ab_quiet; auto.
Qed.

Lemma cons_CI s i : match k_in s with Some j => Nat.eqb i j | None => true end = true -> CI s ->
  CI (set_q s i A_cons (inside (q_step (k_queues s i) A_cons) i)).
Proof.
  intros G [RE PR IN BU (H & ab & B)]. pose proof (cons_cases (k_queues s i)) as CC. set (ins := inside (q_step (k_queues s i) A_cons) i).
  assert (OTH : forall j, j <> i -> c_pc (q_cons (k_queues s j)) = C_idle).
  { intros j J. apply IN. destruct (k_in s) as [m|]; [|exact I]. apply Nat.eqb_eq in G. congruence. }
  assert (QI' : k_queues (set_q s i A_cons ins) i = cons_step (k_queues s i)) by (cbn; rewrite Nat.eqb_refl; reflexivity).
  assert (QJ : forall j, j <> i -> k_queues (set_q s i A_cons ins) j = k_queues s j) by (intros j J; cbn; destruct (Nat.eqb_spec i j); congruence).
  assert (IN' : forall j, match ins with Some m => j <> m | None => True end -> c_pc (q_cons (k_queues (set_q s i A_cons ins) j)) = C_idle).
  { intros j J. destruct (Nat.eq_dec j i) as [->|NE]; [|rewrite QJ by assumption; apply OTH, NE]. rewrite QI'. unfold ins, inside in J. cbn [q_step] in J.
    destruct (c_pc (q_cons (cons_step (k_queues s i)))); [reflexivity|congruence|congruence]. }
  assert (BU' : forall j, ins = Some j -> c_pc (q_cons (k_queues (set_q s i A_cons ins) j)) <> C_idle).
  { intros j J. unfold ins, inside in J. cbn [q_step] in J. destruct (c_pc (q_cons (cons_step (k_queues s i)))) eqn:E; try discriminate; injection J as <-; rewrite QI', E; discriminate. }
  assert (LK : looking (set_q s i A_cons ins) = match c_pc (q_cons (cons_step (k_queues s i))) with C_tail _ => Some i | _ => None end).
  { unfold looking. cbn [k_in set_q]. fold (set_q s i A_cons ins). unfold ins at 1, inside. cbn [q_step].
    destruct (c_pc (q_cons (cons_step (k_queues s i)))) eqn:E; try reflexivity; rewrite QI', E; reflexivity. }
  assert (LG : q_log (q_step (k_queues s i) A_cons) = q_log (k_queues s i) \/ exists e, q_log (q_step (k_queues s i) A_cons) = e :: q_log (k_queues s i)).
  { cbn [q_step]. destruct (c_pc (q_cons (k_queues s i))); [destruct CC as [CC _]; eauto|destruct CC as [(c & CC & _)|(c & CC & _)]; eauto|destruct CC as [(CC & _)|(c & CC & _)]; eauto]. }
  assert (NL : c_pc (q_cons (k_queues s i)) = C_idle -> True) by auto.
  constructor; [apply set_q_reach, RE|apply set_q_proj; assumption|exact IN'|exact BU'|].
  rewrite LK. cbn [k_flag set_q]. fold (set_q s i A_cons ins).
  assert (EV : forall e, q_log (cons_step (k_queues s i)) = e :: q_log (k_queues s i) -> ev_ok num (at_queue i (c_trace s)) e).
  { intros e E. rewrite PR. apply (reach_ev s i RE A_cons e E). }
  destruct (c_pc (q_cons (k_queues s i))) as [|h|t n g] eqn:EP.
  - destruct CC as (L & h & ->). rewrite (set_q_log s i A_cons ins _ L). exists H, ab. eapply ab_look, B.
  - assert (LS : looking s = Some i).
    { unfold looking. destruct (k_in s) as [m|] eqn:EK; [apply Nat.eqb_eq in G; subst m; rewrite EP; reflexivity|]. specialize (IN i I). congruence. }
    rewrite LS in B. destruct CC as [(c & L & ->)|(c & L & t & n & g & ->)]; rewrite (set_q_log s i A_cons ins _ L).
    + destruct (ab_empty _ _ _ _ _ _ _ _ B (EV _ L)) as (H' & B'). eauto.
    + exists H, ab. eapply ab_close. eapply ab_quiet; [exact B|exact (EV _ L)|exact I].
  - destruct CC as [(L & t' & n' & g' & ->)|(x & L & ->)].
    + rewrite (set_q_same s i A_cons ins L). exists H, ab. eapply ab_close, B.
    + rewrite (set_q_log s i A_cons ins _ L). destruct (ab_remove _ _ _ _ _ _ _ _ _ B (EV _ L)) as (a' & B'). eauto.
Qed.

Lemma step_CI s a s' : c_step s a = Some s' -> CI s -> CI s'.
Proof.
  intros E C. destruct a as [i|i|i|i| |e]; cbn [c_step] in E.
  - injection E as <-. apply other_CI; [discriminate|exact C].
  - injection E as <-. apply other_CI; [discriminate|exact C].
  - destruct (match k_in s with Some j => Nat.eqb i j | None => true end) eqn:G; [|discriminate]. injection E as <-. apply cons_CI; assumption.
  - injection E as <-. apply other_CI; [discriminate|exact C].
  - injection E as <-. destruct C as [RE PR IN BU (H & ab & B)]. constructor; cbn [k_queues k_in k_flag]; auto.
    + intro i. change (at_queue i (c_trace s ++ [KE_shutdown]) = q_trace (k_queues s i)). rewrite at_queue_app. cbn. rewrite app_nil_r. apply PR.
    + change (exists H a, AB num dec (c_trace s ++ [KE_shutdown]) true (looking s) H a). destruct (ab_shutdown _ _ _ _ _ _ _ B) as (a' & B'). eauto.
  - destruct (k_in s) as [j|] eqn:EK; [destruct e; discriminate|].
    assert (X : match e with (QRemove _, _) => False | (QShutting, ABool b) => b = k_flag s | _ => True end /\ s' = mk_csys (k_queues s) (k_flag s) None (KE_call e :: k_log s)).
    { destruct e as [q an]. destruct q; try discriminate; try (injection E as <-; split; [exact I|reflexivity]). destruct an; try (injection E as <-; split; [exact I|reflexivity]).
      destruct (Bool.eqb b (k_flag s)) eqn:EB; [|discriminate]. injection E as <-. split; [apply Bool.eqb_prop, EB|reflexivity]. }
    destruct X as [X ->]. destruct C as [RE PR IN BU (H & ab & B)]. constructor; cbn [k_queues k_in k_flag].
    + exact RE.
    + intro i. change (at_queue i (c_trace s ++ [KE_call e]) = q_trace (k_queues s i)). rewrite at_queue_app. cbn. rewrite app_nil_r. apply PR.
    + intros i _. apply IN. rewrite EK. exact I.
    + discriminate.
    + change (exists H a, AB num dec (c_trace s ++ [KE_call e]) (k_flag s) None H a). eexists _, _. eapply ab_call; [exact B|exact X].
Qed.

Lemma init_CI : CI (c_init num sz todo).
Proof.
  constructor; cbn [k_queues k_in k_flag c_init].
  - intro i. exists []. reflexivity.
  - reflexivity.
  - reflexivity.
  - discriminate.
  - exists [], sys_init. apply ab_nil.
Qed.

Lemma run_CI sch : forall s s', c_run s sch = Some s' -> CI s -> CI s'.
Proof. induction sch as [|a sch IH]; intros s s' E C; cbn in E; [congruence|]. destruct (c_step s a) as [s1|] eqn:E1; [|discriminate]. exact (IH _ _ E (step_CI _ _ _ E1 C)). Qed.

Lemma refines sch s : c_run (c_init num sz todo) sch = Some s -> exists H a, AB num dec (c_trace s) (k_flag s) (looking s) H a.
Proof. intro E. exact (ci_abs _ (run_CI _ _ _ E init_CI)). Qed.
End SYS.

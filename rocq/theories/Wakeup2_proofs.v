(** Proofs about shutting down the I/O thread: destroy wakes it, it ends, and then
    every queue is empty. *)
From Verif Require Import Bytes Bytes_proofs Control Iothr SpecIothr Queue SpecQueue Wakeup SpecWakeup Wakeup_proofs.
From Coq Require Import Lia.
Local Open Scope nat_scope.

Section W2.
Variable opt : iothr_options.
Let size := io_input_queue_size opt.
Hypothesis QS : queue_size size.
Let nq := N.to_nat (io_num_input_queues opt).

Lemma run_app sch t : k_run opt (sch ++ t) = fold_left (k_step opt) t (k_run opt sch).
Proof. unfold k_run. apply fold_left_app. Qed.

(** ** Destroy wakes a sleeping thread *)
Lemma trace_cons h t p th f d e s : k_trace (mk_wk h t p th f d (e :: k_log s)) = k_trace s ++ [e].
Proof. reflexivity. Qed.
Record woke (s : wk) : Prop := {
  w_none : k_des s = D_none -> ~ In V_flag (k_trace s);
  w_join : k_des s = D_join -> k_thr s = T_waiting -> forall l1 l2, k_trace s = l1 ++ V_flag :: l2 -> 1 <= count sleeps l2 }.
Lemma woke_keep s s' l : woke s -> k_des s' = k_des s -> k_trace s' = k_trace s ++ l -> ~ In V_flag l ->
  (k_thr s' = T_waiting -> k_thr s = T_waiting \/ In V_sleep l /\ k_des s' = k_des s) ->
  (k_des s = D_none -> True) -> woke s'.
Proof.
  intros [A B] D T NF W _. constructor.
  - rewrite D, T. intros E X. apply in_app_or in X as [X|X]; [exact (A E X)|exact (NF X)].
  - rewrite D, T. intros E WT l1 l2 EQ.
    assert (X : exists l3, l2 = l3 ++ l /\ k_trace s = l1 ++ V_flag :: l3).
    { clear - EQ NF. revert l2 EQ. induction l as [|e l IH] using rev_ind; intros l2 EQ.
      - exists l2. rewrite app_nil_r in *. split; [reflexivity|exact EQ].
      - rewrite app_assoc in EQ. apply split_snoc in EQ as [(_ & _ & X)|(l3 & -> & EQ)].
        + exfalso. apply NF. apply in_app_iff. right. left. symmetry. exact X.
        + destruct (IH (fun X => NF (proj2 (in_app_iff _ _ _) (or_introl X))) l3 EQ) as (l4 & -> & E4).
          exists l4. rewrite app_assoc. split; [reflexivity|exact E4]. }
    destruct X as (l3 & -> & E3). unfold count. rewrite filter_app, app_length. destruct (W WT) as [W1|[W1 _]].
    + specialize (B E W1 l1 l3 E3). unfold count in B. lia.
    + apply in_split in W1 as (a & b & ->). rewrite filter_app, app_length. cbn. lia.
Qed.
Lemma woke_run sch : woke (k_run opt sch).
Proof.
  revert sch. apply (run_ind opt QS woke).
  { constructor; [intros _ []|discriminate]. }
  intros s a R WK. destruct a as [p i d len hf id|p| | | |].
  - destruct (submit_cases opt s p i d len hf id) as [| |sg EP SP ES]; [exact WK| |].
    + apply (woke_keep s _ [V_refuse i] WK); try reflexivity; try tauto. intros [X|[]]; discriminate.
    + apply (woke_keep s _ [V_insert i sg] WK); try reflexivity; try tauto. intros [X|[]]; discriminate.
  - cbn. destruct (k_prod s p); [|exact WK].
    apply (woke_keep s _ [V_signal] WK); try reflexivity; try tauto; [intros [X|[]]; discriminate|].
    cbn. destruct (k_thr s); cbn; tauto.
  - cbn. unfold thread_step. destruct (k_thr s) as [|d i total| | | |] eqn:T; try exact WK.
    + apply (woke_keep s _ [] WK); try reflexivity; try tauto; [rewrite trace_set; reflexivity|cbn; discriminate].
    + destruct (_ <? _).
      * destruct (_ <=? _)%N.
        -- apply (woke_keep s _ [V_remove i] WK); try reflexivity; try tauto; [intros [X|[]]; discriminate|cbn; discriminate].
        -- apply (woke_keep s _ [] WK); try reflexivity; try tauto; [rewrite trace_set; reflexivity|cbn; discriminate].
      * destruct (negb _); [|destruct d].
        -- apply (woke_keep s _ [] WK); try reflexivity; try tauto; [rewrite trace_set; reflexivity|cbn; destruct d; discriminate].
        -- apply (woke_keep s _ [V_done] WK); try reflexivity; try tauto; [intros [X|[]]; discriminate|cbn; discriminate].
        -- apply (woke_keep s _ [] WK); try reflexivity; try tauto; [rewrite trace_set; reflexivity|cbn; discriminate].
    + apply (woke_keep s _ [V_sleep] WK); try reflexivity; try tauto; [intros [X|[]]; discriminate|].
      cbn. intros _. right. split; [left; reflexivity|reflexivity].
    + apply (woke_keep s _ [V_woken] WK); try reflexivity; try tauto; [intros [X|[]]; discriminate|cbn; discriminate].
  - cbn. destruct (k_thr s); try exact WK.
    apply (woke_keep s _ [V_timeout] WK); try reflexivity; try tauto; [intros [X|[]]; discriminate|cbn; discriminate].
  - cbn. destruct (k_thr s); try exact WK.
    apply (woke_keep s _ [V_spurious] WK); try reflexivity; try tauto; [intros [X|[]]; discriminate|cbn; discriminate].
  - cbn. destruct (k_des s) eqn:D; [| |exact WK].
    + constructor; cbn; discriminate.
    + constructor; cbn; [discriminate|]. intros _. destruct (k_thr s); discriminate.
Qed.
Lemma destroy_wakes sch l1 l2 : let s := k_run opt sch in
  k_trace s = l1 ++ V_flag :: l2 -> asleep l1 -> k_des s = D_join -> k_thr s <> T_waiting.
Proof.
  intros s E A D W. pose proof (w_join s (woke_run sch) D W l1 l2 E) as C.
  destruct (shutdown_sleeps opt QS sch l1 l2 E) as [_ Z]. specialize (Z A). lia.
Qed.

(** ** The thread ends with every queue empty *)
Definition empty_to (s : wk) (j : nat) : Prop := forall i, i < j -> outstanding i (k_trace s) = 0.
Definition drained (s : wk) : Prop :=
  match k_thr s with
  | T_scan true j total => k_flag s = true /\ (total = 0%N -> empty_to s j)
  | T_done => k_flag s = true /\ empty_to s nq
  | _ => True
  end.
Lemma empty_quiet s s' l j : k_trace s' = k_trace s ++ l -> (forall i, inserts i l = 0) -> empty_to s j -> empty_to s' j.
Proof.
  intros T I E i L. specialize (E i L). rewrite T. unfold outstanding in *. rewrite inserts_app, removes_app, I. lia.
Qed.
Lemma drained_keep s s' l : drained s -> k_thr s' = k_thr s -> (k_flag s = true -> k_flag s' = true) -> k_trace s' = k_trace s ++ l ->
  (forall i, inserts i l = 0) -> drained s'.
Proof.
  unfold drained. intros D -> F T I. destruct (k_thr s) as [|[|] j total| | | |]; try exact D.
  - destruct D as [D1 D2]. split; [exact (F D1)|]. intro Z. eapply empty_quiet; eauto.
  - destruct D as [D1 D2]. split; [exact (F D1)|]. eapply empty_quiet; eauto.
Qed.
Lemma submitted_flag s p i d len hf id : k_flag s = true -> k_step opt s (A_submit p i d len hf id) = s.
Proof. intro F. cbn. destruct (k_prod s p); [reflexivity|]. unfold iothr_submit. rewrite F. reflexivity. Qed.
Lemma drained_run sch : drained (k_run opt sch).
Proof.
  revert sch. apply (run_ind opt QS drained); [exact I|].
  intros s a R DR. destruct a as [p i d len hf id|p| | | |].
  - destruct (k_flag s) eqn:F; [rewrite submitted_flag by exact F; exact DR|].
    assert (N : forall s', k_thr s' = k_thr s -> drained s').
    { intros s' E. unfold drained in *. rewrite E. destruct (k_thr s) as [|[|] j total| | | |]; try exact I; destruct DR; congruence. }
    destruct (submit_cases opt s p i d len hf id) as [| |sg EP SP ES]; [exact DR|apply N; reflexivity|apply N; reflexivity].
  - cbn. destruct (k_prod s p); [|exact DR].
    destruct (k_thr s) as [|b j total| | | |] eqn:T; try exact I.
    + apply (drained_keep s _ [V_signal] DR); cbn; try reflexivity; try tauto. rewrite T. reflexivity.
    + apply (drained_keep s _ [V_signal] DR); cbn; try reflexivity; try tauto. rewrite T. reflexivity.
  - cbn. unfold thread_step. unfold drained in DR. destruct (k_thr s) as [|d i total| | | |] eqn:T; try exact I.
    + unfold drained. cbn. destruct (k_flag s) eqn:F; [|exact I]. split; [reflexivity|]. intros _ j L. lia.
    + destruct (Nat.ltb_spec i nq) as [L|L].
      * fold nq. rewrite (proj2 (Nat.ltb_lt i nq) L). destruct (N.leb_spec 1 (q_count (k_head s i) (k_tail s i) (io_input_queue_size opt))) as [C|C].
        -- unfold drained. cbn [k_thr k_flag]. destruct d; [|exact I]. split; [apply DR|]. intro Z. lia.
        -- unfold drained. cbn [k_thr set_thr k_flag]. destruct d; [|exact I]. destruct DR as [D1 D2]. split; [exact D1|].
           intro Z. specialize (D2 Z). intros j LJ. rewrite trace_set, app_nil_r.
           destruct (Nat.eq_dec j i) as [->|NE]; [|apply D2; lia].
           rewrite (count_ring opt QS s i R) in C. lia.
      * fold nq. rewrite (proj2 (Nat.ltb_ge i nq) L). destruct (N.eqb_spec total 0) as [->|NZ]; cbn [negb].
        -- destruct d; [|exact I]. unfold drained. cbn [k_thr set_thr k_flag]. destruct DR as [D1 D2]. split; [exact D1|].
           intros j LJ. rewrite trace_set. unfold outstanding. rewrite inserts_app, removes_app.
           assert (O := D2 eq_refl j ltac:(lia)). unfold outstanding in O. cbn. lia.
        -- destruct d; [|exact I]. unfold drained. cbn [k_thr set_thr k_flag]. split; [apply DR|]. intros _ j LJ. lia.
    + unfold drained. rewrite T. exact DR.
    + unfold drained. rewrite T. exact DR.
  - cbn. destruct (k_thr s) eqn:T; try exact I; exact DR.
  - cbn. destruct (k_thr s) eqn:T; try exact I; exact DR.
  - cbn. destruct (k_des s) eqn:D; [| |exact DR].
    + apply (drained_keep s _ [V_flag] DR); cbn; try reflexivity; tauto.
    + destruct (k_thr s) as [|b j total| | | |] eqn:T; try exact I.
      * apply (drained_keep s _ [V_signal] DR); cbn; try reflexivity; try tauto. rewrite T. reflexivity.
      * apply (drained_keep s _ [V_signal] DR); cbn; try reflexivity; try tauto. rewrite T. reflexivity.
Qed.
Lemma done_drained sch i : let s := k_run opt sch in k_thr s = T_done -> (i < nq) -> k_flag s = true /\ outstanding i (k_trace s) = 0.
Proof. intros s T L. pose proof (drained_run sch) as D. unfold drained in D. fold s in D. rewrite T in D. destruct D as [D1 D2]. split; [exact D1|exact (D2 i L)]. Qed.

(** ** It does end *)
Fixpoint waiting_in (tr : list wev) (n : nat) : nat :=
  match n with O => 0 | S m => outstanding m tr + waiting_in tr m end.
Definition measure (s : wk) : nat :=
  let o := waiting_in (k_trace s) nq in
  match k_thr s with
  | T_done => 0
  | T_scan true j total => (nq - j + 1) + (nq + 1) * ((if (total =? 0)%N then 0 else 1) + o)
  | T_top => 1 + (nq + 1) * (1 + o)
  | T_woken => 2 + (nq + 1) * (1 + o)
  | T_waiting => 3 + (nq + 1) * (1 + o)
  | T_about => 4 + (nq + 1) * (1 + o)
  | T_scan false j total => (nq - j + 1) + (nq + 1) * ((if (total =? 0)%N then 0 else 1) + o) + (nq + 5)
  end.
Lemma waiting_same tr tr' n : (forall i, i < n -> outstanding i tr' = outstanding i tr) -> waiting_in tr' n = waiting_in tr n.
Proof. induction n as [|n IH]; intro H; [reflexivity|]. cbn. rewrite H, IH by auto. reflexivity. Qed.
Lemma waiting_less tr tr' n i : i < n -> (forall j, j <> i -> outstanding j tr' = outstanding j tr) ->
  S (outstanding i tr') = outstanding i tr -> S (waiting_in tr' n) = waiting_in tr n.
Proof.
  intros L O E. induction n as [|n IH]; [lia|]. cbn. destruct (Nat.eq_dec n i) as [->|NE].
  - rewrite <- E. rewrite (waiting_same tr tr' i); [lia|]. intros j LJ. apply O. lia.
  - rewrite O by exact NE. rewrite <- IH by lia. lia.
Qed.
Lemma waiting_quiet tr l n : (forall i, inserts i l = 0 /\ removes i l = 0) -> waiting_in (tr ++ l) n = waiting_in tr n.
Proof. intro H. apply waiting_same. intros i _. destruct (H i). apply out_none; assumption. Qed.

Lemma down_measure s a : ring opt s -> k_flag s = true ->
  k_flag (k_step opt s a) = true /\
  (measure (k_step opt s a) < measure s \/ (measure (k_step opt s a) = measure s /\ k_thr (k_step opt s a) = k_thr s)) /\
  (a = A_thread -> k_thr s <> T_done -> k_thr s <> T_waiting -> measure (k_step opt s a) < measure s) /\
  (a = A_timeout -> k_thr s = T_waiting -> measure (k_step opt s a) < measure s).
Proof.
  intros R F.
  assert (Q : forall s' l, k_flag s' = k_flag s -> k_trace s' = k_trace s ++ l -> (forall i, inserts i l = 0 /\ removes i l = 0) ->
             k_flag s' = true /\ waiting_in (k_trace s') nq = waiting_in (k_trace s) nq).
  { intros s' l E T I. rewrite E, T. split; [exact F|apply waiting_quiet; exact I]. }
  assert (SG : forall h t p d, let s' := mk_wk h t p (cond_signal (k_thr s)) (k_flag s) d (V_signal :: k_log s) in
    k_flag s' = true /\ (measure s' < measure s \/ (measure s' = measure s /\ k_thr s' = k_thr s))).
  { intros h t p d s'. destruct (Q s' [V_signal] eq_refl eq_refl) as [F' W]; [intro i; split; reflexivity|]. split; [exact F'|].
    unfold measure. rewrite W. subst s'. cbn [k_thr]. destruct (k_thr s); cbn [cond_signal]; try (right; split; reflexivity). left. lia. }
  destruct a as [p i d len hf id|p| | | |].
  - rewrite submitted_flag by exact F. repeat split; try assumption; try discriminate. right. split; reflexivity.
  - cbn [k_step]. destruct (k_prod s p); [|repeat split; try assumption; try discriminate; right; split; reflexivity].
    destruct (SG (k_head s) (k_tail s) (upd (k_prod s) p false) (k_des s)) as [A B]. repeat split; try assumption; discriminate.
  - cbn [k_step]. destruct (k_thr s) as [|d i total| | | |] eqn:T.
    + unfold thread_step. rewrite T.
      destruct (Q (set_thr s (T_scan (k_flag s) 0 0) []) [] eq_refl) as [F' W]; [rewrite trace_set; reflexivity|intro; split; reflexivity|].
      assert (M : measure (set_thr s (T_scan (k_flag s) 0 0) []) < measure s).
      { unfold measure. rewrite W, T. cbn [set_thr k_thr]. rewrite F. cbn [N.eqb]. lia. }
      repeat split; auto; discriminate.
    + unfold thread_step. rewrite T. fold nq. fold size. destruct (Nat.ltb_spec i nq) as [L|L].
      * destruct (N.leb_spec 1 (q_count (k_head s i) (k_tail s i) size)) as [C|C].
        -- set (s' := mk_wk _ _ _ _ _ _ _).
           assert (W : S (waiting_in (k_trace s') nq) = waiting_in (k_trace s) nq).
           { apply (waiting_less _ _ nq i L).
             - intros j NE. unfold s'. rewrite trace_cons. unfold outstanding. rewrite inserts_app, removes_app, removes_one.
               rewrite (proj2 (Nat.eqb_neq j i) NE). cbn. lia.
             - unfold size in C. rewrite (count_ring opt QS s i R) in C. unfold s'. rewrite trace_cons. unfold outstanding in *.
               rewrite inserts_app, removes_app, removes_one, Nat.eqb_refl. replace (inserts i [V_remove i]) with 0 by reflexivity. lia. }
           assert (M : measure s' < measure s).
           { unfold measure. rewrite T. rewrite <- W. unfold s' at 1. cbn [k_thr].
             replace (total + 1 =? 0)%N with false by (symmetry; apply N.eqb_neq; lia).
             destruct d, (total =? 0)%N; nia. }
           repeat split; auto; discriminate.
        -- destruct (Q (set_thr s (T_scan d (S i) total) []) [] eq_refl) as [F' W]; [rewrite trace_set; reflexivity|intro; split; reflexivity|].
           assert (M : measure (set_thr s (T_scan d (S i) total) []) < measure s).
           { unfold measure. rewrite W, T. cbn [set_thr k_thr]. destruct d; lia. }
           repeat split; auto; discriminate.
      * destruct (N.eqb_spec total 0) as [->|NZ]; cbn [negb].
        -- destruct d.
           ++ destruct (Q (set_thr s T_done [V_done]) [V_done] eq_refl) as [F' W]; [rewrite trace_set; reflexivity|intro; split; reflexivity|].
              assert (M : measure (set_thr s T_done [V_done]) < measure s).
              { unfold measure. rewrite W, T. cbn [set_thr k_thr]. lia. }
              repeat split; auto; discriminate.
           ++ destruct (Q (set_thr s T_about []) [] eq_refl) as [F' W]; [rewrite trace_set; reflexivity|intro; split; reflexivity|].
              assert (M : measure (set_thr s T_about []) < measure s).
              { unfold measure. rewrite W, T. cbn [set_thr k_thr N.eqb]. nia. }
              repeat split; auto; discriminate.
        -- destruct (Q (set_thr s (if d then T_scan true 0 0 else T_top) []) [] eq_refl) as [F' W]; [rewrite trace_set; reflexivity|intro; split; reflexivity|].
           assert (M : measure (set_thr s (if d then T_scan true 0 0 else T_top) []) < measure s).
           { unfold measure. rewrite W, T. cbn [set_thr k_thr]. rewrite (proj2 (N.eqb_neq total 0) NZ). destruct d; cbn [N.eqb]; nia. }
           repeat split; auto; discriminate.
    + unfold thread_step. rewrite T. destruct (Q (set_thr s T_waiting [V_sleep]) [V_sleep] eq_refl) as [F' W]; [rewrite trace_set; reflexivity|intro; split; reflexivity|].
      assert (M : measure (set_thr s T_waiting [V_sleep]) < measure s) by (unfold measure; rewrite W, T; cbn [set_thr k_thr]; lia).
      repeat split; auto; discriminate.
    + unfold thread_step. rewrite T. repeat split; auto; try congruence.
    + unfold thread_step. rewrite T. destruct (Q (set_thr s T_top [V_woken]) [V_woken] eq_refl) as [F' W]; [rewrite trace_set; reflexivity|intro; split; reflexivity|].
      assert (M : measure (set_thr s T_top [V_woken]) < measure s) by (unfold measure; rewrite W, T; cbn [set_thr k_thr]; lia).
      repeat split; auto; discriminate.
    + unfold thread_step. rewrite T. repeat split; auto; try congruence.
  - cbn [k_step]. destruct (k_thr s) eqn:T; try (repeat split; auto; congruence).
    destruct (Q (set_thr s T_top [V_timeout]) [V_timeout] eq_refl) as [F' W]; [rewrite trace_set; reflexivity|intro; split; reflexivity|].
    assert (M : measure (set_thr s T_top [V_timeout]) < measure s) by (unfold measure; rewrite W, T; cbn [set_thr k_thr]; lia).
    repeat split; auto.
  - cbn [k_step]. destruct (k_thr s) eqn:T; try (repeat split; auto; congruence).
    destruct (Q (set_thr s T_top [V_spurious]) [V_spurious] eq_refl) as [F' W]; [rewrite trace_set; reflexivity|intro; split; reflexivity|].
    assert (M : measure (set_thr s T_top [V_spurious]) < measure s) by (unfold measure; rewrite W, T; cbn [set_thr k_thr]; lia).
    repeat split; auto; discriminate.
  - cbn [k_step]. destruct (k_des s) eqn:D.
    + set (s' := mk_wk _ _ _ _ _ _ _). destruct (Q s' [V_flag]) as [F' W]; [unfold s'; cbn; symmetry; exact F|reflexivity|intro; split; reflexivity|].
      split; [exact F'|]. split; [right; split; [unfold measure; rewrite W; reflexivity|reflexivity]|]. split; discriminate.
    + destruct (SG (k_head s) (k_tail s) (k_prod s) D_join) as [A B]. repeat split; try assumption; discriminate.
    + repeat split; auto; discriminate.
Qed.

Definition live (s : wk) : Prop := ring opt s /\ k_flag s = true.
Lemma live_step s a : live s -> live (k_step opt s a).
Proof. intros [R F]. split; [apply (ring_step opt QS); exact R|]. apply (down_measure s a R F). Qed.
Lemma live_run r : forall s, live s -> live (fold_left (k_step opt) r s).
Proof. induction r as [|a r IH]; intros s L; [exact L|]. apply IH, live_step, L. Qed.
Lemma same_run r : forall s, live s -> let s' := fold_left (k_step opt) r s in
  measure s' <= measure s /\ (measure s' = measure s -> k_thr s' = k_thr s /\
    (In A_thread r -> k_thr s = T_done \/ k_thr s = T_waiting) /\ (In A_timeout r -> k_thr s <> T_waiting)).
Proof.
  induction r as [|a r IH]; intros s L s'.
  - split; [unfold s'; cbn; lia|]. intros _. split; [reflexivity|]. split; intros [].
  - destruct (IH (k_step opt s a) (live_step s a L)) as [B C]. destruct L as [R F].
    destruct (down_measure s a R F) as (_ & M & TH & TO). unfold s'. cbn [fold_left]. split; [lia|].
    intro E. assert (E1 : measure (fold_left (k_step opt) r (k_step opt s a)) = measure (k_step opt s a)) by lia.
    assert (E2 : measure (k_step opt s a) = measure s) by lia.
    destruct M as [M|[_ T]]; [lia|]. destruct (C E1) as (C1 & C2 & C3). split; [congruence|]. rewrite T in C2, C3. split.
    + intros [X|X]; [|exact (C2 X)]. destruct (k_thr s); try tauto; (specialize (TH X); lapply TH; [|discriminate]; intro TH'; lapply TH'; [lia|discriminate]).
    + intros [X|X]; [|exact (C3 X)]. intro W. specialize (TO X W). lia.
Qed.
Lemma done_zero s : k_thr s = T_done <-> measure s = 0.
Proof. unfold measure. split; [intros ->; reflexivity|]. destruct (k_thr s) as [|[|] j t| | | |]; try lia. reflexivity. Qed.
Lemma fair_round_less r s : live s -> fair_round r -> measure s = 0 \/ measure (fold_left (k_step opt) r s) < measure s.
Proof.
  intros L [H1 H2]. destruct (same_run r s L) as [B C]. destruct (Nat.eq_dec (measure (fold_left (k_step opt) r s)) (measure s)) as [E|]; [|lia].
  destruct (C E) as (_ & C1 & C2). left. apply done_zero. destruct (C1 H1) as [X|X]; [exact X|]. exfalso. exact (C2 H2 X).
Qed.
Lemma fair_ends rs : forall s, live s -> Forall fair_round rs -> measure s <= length rs -> k_thr (fold_left (k_step opt) (concat rs) s) = T_done.
Proof.
  induction rs as [|r rs IH]; intros s L F M.
  - apply done_zero. cbn in *. lia.
  - cbn [concat]. rewrite fold_left_app. apply IH; [apply live_run; exact L|exact (Forall_inv_tail F)|].
    cbn [length] in M. pose proof (proj1 (same_run r s L)) as B. cbn zeta in B. destruct (fair_round_less r s L (Forall_inv F)) as [Z|Z]; lia.
Qed.
Lemma shutdown_ends sch : k_flag (k_run opt sch) = true -> exists b, forall rs, Forall fair_round rs -> b <= length rs ->
  k_thr (k_run opt (sch ++ concat rs)) = T_done.
Proof.
  intro F. exists (measure (k_run opt sch)). intros rs FR L. rewrite run_app. apply fair_ends; [|exact FR|exact L].
  split; [apply (run_ring opt QS)|exact F].
Qed.
End W2.

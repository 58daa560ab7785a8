(** Proofs about sleeping and waking. *)
From Verif Require Import Bytes Control Iothr Queue Queue_proofs SpecQueue Wakeup SpecWakeup.
Local Open Scope nat_scope.
Ltac Zify.zify_post_hook ::= Z.div_mod_to_equations.

Section W.
Variable opt : iothr_options.
Let size := io_input_queue_size opt.
Hypothesis QS : queue_size size.
Let nn := N.to_nat size.
Let thr := io_notify_threshold opt.

Lemma count_snoc f tr e : count f (tr ++ [e]) = count f tr + (if f e then 1 else 0).
Proof. unfold count. rewrite filter_app, app_length. cbn. destruct (f e); reflexivity. Qed.

(** ** Indices *)
Record ring (s : wk) : Prop := {
  r_le : forall i, removes i (k_trace s) <= inserts i (k_trace s);
  r_lt : forall i, inserts i (k_trace s) < removes i (k_trace s) + nn;
  r_hd : forall i, k_head s i = idx size (inserts i (k_trace s));
  r_tl : forall i, k_tail s i = idx size (removes i (k_trace s)) }.

Lemma inserts_app i a b : inserts i (a ++ b) = inserts i a + inserts i b.
Proof. unfold inserts, count. rewrite filter_app, app_length. reflexivity. Qed.
Lemma removes_app i a b : removes i (a ++ b) = removes i a + removes i b.
Proof. unfold removes, count. rewrite filter_app, app_length. reflexivity. Qed.

Lemma trace_set s t l : k_trace (set_thr s t l) = k_trace s ++ rev l.
Proof. unfold k_trace, set_thr. cbn. apply rev_app_distr. Qed.

Lemma ring_quiet s s' l : ring s -> k_head s' = k_head s -> k_tail s' = k_tail s ->
  k_trace s' = k_trace s ++ l -> (forall i, inserts i l = 0 /\ removes i l = 0) -> ring s'.
Proof.
  intros [A B C D] H1 H2 H3 H4.
  assert (I : forall i, inserts i (k_trace s') = inserts i (k_trace s)) by (intro i; rewrite H3, inserts_app; destruct (H4 i); lia).
  assert (R : forall i, removes i (k_trace s') = removes i (k_trace s)) by (intro i; rewrite H3, removes_app; destruct (H4 i); lia).
  split; intro i; rewrite ?I, ?R, ?H1, ?H2; auto.
Qed.

Lemma ring_thr s t l : ring s -> (forall i, inserts i (rev l) = 0 /\ removes i (rev l) = 0) -> ring (set_thr s t l).
Proof. intros R H. eapply ring_quiet; [exact R|reflexivity|reflexivity|apply trace_set|exact H]. Qed.

(** What one submission does. *)
Inductive submitted (s : wk) (p i : nat) : wk -> Prop :=
| sb_none : submitted s p i s
| sb_again : submitted s p i (set_thr s (k_thr s) [V_refuse i])
| sb_in sg : k_prod s p = false -> q_space (k_head s i) (k_tail s i) size <> 0%N ->
    sg = (q_space (k_head s i) (k_tail s i) size - 1 =? thr)%N ->
    submitted s p i (mk_wk (upd (k_head s) i (q_next (k_head s i) size)) (k_tail s) (upd (k_prod s) p sg)
       (k_thr s) (k_flag s) (k_des s) (V_insert i sg :: k_log s)).

Lemma submit_cases s p i d len hf id : submitted s p i (k_step opt s (A_submit p i d len hf id)).
Proof.
  unfold k_step. destruct (k_prod s p) eqn:EP; [constructor|]. unfold iothr_submit.
  destruct (k_flag s) eqn:EF; [constructor|]. destruct d as [d|]; [|constructor].
  destruct (_ || _)%bool; [constructor|]. unfold ring_insert. fold size.
  destruct (N.leb_spec 1 (q_space (k_head s i) (k_tail s i) size)) as [L|L].
  - rewrite <- EF. apply sb_in; [assumption|lia|reflexivity].
  - apply sb_again.
Qed.

Lemma inserts_one i j sg : inserts i [V_insert j sg] = if Nat.eqb i j then 1 else 0.
Proof. unfold inserts, count. cbn. destruct (Nat.eqb i j); auto. Qed.
Lemma removes_one i j : removes i [V_remove j] = if Nat.eqb i j then 1 else 0.
Proof. unfold removes, count. cbn. destruct (Nat.eqb i j); auto. Qed.

Lemma space_ring s i : ring s ->
  q_space (k_head s i) (k_tail s i) size = N.of_nat (nn - 1 - outstanding i (k_trace s)).
Proof.
  intro R. rewrite (r_hd _ R), (r_tl _ R). rewrite (q_space_idx size QS); [reflexivity|apply R|apply R].
Qed.
Lemma count_ring s i : ring s -> q_count (k_head s i) (k_tail s i) size = N.of_nat (outstanding i (k_trace s)).
Proof. intro R. rewrite (r_hd _ R), (r_tl _ R). rewrite (q_count_idx size QS); [reflexivity|apply R|apply R]. Qed.

Lemma upd_same {A} (f : nat -> A) i a : upd f i a i = a.
Proof. unfold upd. rewrite Nat.eqb_refl. reflexivity. Qed.

Lemma ring_submitted s p i s' : ring s -> submitted s p i s' -> ring s'.
Proof.
  intros R S. destruct S; [assumption| |].
  { apply ring_thr; [assumption|]. intro j. split; reflexivity. }
  rewrite (space_ring _ i R) in H0. pose proof (r_le _ R i) as LE. pose proof (r_lt _ R i) as LT.
  assert (ET : forall T, T = k_trace s ++ [V_insert i sg] ->
     (forall j, inserts j T = inserts j (k_trace s) + if Nat.eqb j i then 1 else 0) /\ (forall j, removes j T = removes j (k_trace s))).
  { intros T ->. split; intro j; rewrite ?inserts_app, ?removes_app, ?inserts_one; [reflexivity|].
    unfold removes at 2, count. cbn. lia. }
  set (s' := mk_wk _ _ _ _ _ _ _).
  destruct (ET (k_trace s') eq_refl) as [E1 E2].
  split; intro j; rewrite ?E1, ?E2.
  - pose proof (r_le _ R j). lia.
  - pose proof (r_lt _ R j). destruct (Nat.eqb_spec j i) as [->|]; [|lia]. unfold outstanding in H0. lia.
  - cbn [k_head s']. unfold upd. destruct (Nat.eqb_spec i j) as [->|N1].
    + rewrite Nat.eqb_refl, (r_hd _ R), (q_next_idx size QS). f_equal. lia.
    + rewrite (r_hd _ R). destruct (Nat.eqb_spec j i); [congruence|]. f_equal. lia.
  - cbn [k_tail s']. apply (r_tl _ R).
Qed.

Lemma ring_thread s : ring s -> ring (thread_step opt s).
Proof.
  intro R. unfold thread_step.
  destruct (k_thr s) as [|d i total| | | |];
    try (apply ring_thr; [exact R|intro; split; reflexivity]); try exact R.
  fold size. destruct (i <? _).
  2:{ destruct (negb _); [destruct d|destruct d]; (apply ring_thr; [exact R|intro; split; reflexivity]). }
  destruct (N.leb_spec 1 (q_count (k_head s i) (k_tail s i) size)) as [L|L].
  2:{ apply ring_thr; [exact R|intro; split; reflexivity]. }
  rewrite (count_ring _ _ R) in L. pose proof (r_le _ R i) as LE. pose proof (r_lt _ R i) as LT.
  set (s' := mk_wk _ _ _ _ _ _ _).
  assert (ET : k_trace s' = k_trace s ++ [V_remove i]) by reflexivity.
  assert (E1 : forall j, removes j (k_trace s') = removes j (k_trace s) + if Nat.eqb j i then 1 else 0).
  { intro j. rewrite ET, removes_app, removes_one. reflexivity. }
  assert (E2 : forall j, inserts j (k_trace s') = inserts j (k_trace s)).
  { intro j. rewrite ET, inserts_app. unfold inserts at 2, count. cbn. lia. }
  split; intro j; rewrite ?E1, ?E2.
  - pose proof (r_le _ R j). destruct (Nat.eqb_spec j i) as [->|]; [|lia]. unfold outstanding in L. lia.
  - pose proof (r_lt _ R j). lia.
  - cbn [k_head s']. apply (r_hd _ R).
  - cbn [k_tail s']. unfold upd. destruct (Nat.eqb_spec i j) as [->|N1].
    + rewrite Nat.eqb_refl, (r_tl _ R), (q_next_idx size QS). f_equal. lia.
    + rewrite (r_tl _ R). destruct (Nat.eqb_spec j i); [congruence|]. f_equal. lia.
Qed.

Lemma ring_step s a : ring s -> ring (k_step opt s a).
Proof.
  intro R. destruct a.
  - eapply ring_submitted; [exact R|apply submit_cases].
  - cbn. destruct (k_prod s p); [|exact R].
    eapply ring_quiet; [exact R|reflexivity|reflexivity|reflexivity|intro; split; reflexivity].
  - apply ring_thread, R.
  - cbn. destruct (k_thr s); try exact R. apply ring_thr; [exact R|intro; split; reflexivity].
  - cbn. destruct (k_thr s); try exact R. apply ring_thr; [exact R|intro; split; reflexivity].
  - cbn. destruct (k_des s); try exact R;
      (eapply ring_quiet; [exact R|reflexivity|reflexivity|reflexivity|intro; split; reflexivity]).
Qed.

Lemma ring_init : ring k_init.
Proof.
  pose proof (num_bounds size QS) as B.
  split; intro i; cbn; unfold nn; try lia; unfold idx; rewrite N.mod_0_l by lia; reflexivity.
Qed.

Lemma run_ind (P : wk -> Prop) : P k_init -> (forall s a, ring s -> P s -> P (k_step opt s a)) -> forall sch, P (k_run opt sch).
Proof.
  intros H0 HS sch. unfold k_run.
  assert (G : forall s, ring s -> P s -> P (fold_left (k_step opt) sch s)).
  { induction sch as [|a sch IH]; intros s R HP; [exact HP|]. cbn. apply IH; [apply ring_step, R|apply HS; assumption]. }
  apply G; [apply ring_init|exact H0].
Qed.

Lemma run_ring sch : ring (k_run opt sch).
Proof. apply (run_ind ring); [apply ring_init|]. intros. apply ring_step. assumption. Qed.

(** ** The level at which submissions signal *)
Definition level_ok (tr : list wev) : Prop := forall l1 i sg l2, tr = l1 ++ V_insert i sg :: l2 ->
  (sg = true <-> (N.of_nat (outstanding i (l1 ++ [V_insert i sg])) + thr = size - 1)%N) /\
  1 <= outstanding i (l1 ++ [V_insert i sg]) <= nn - 1.

Lemma split_snoc {A} (l : list A) e l1 x l2 : l ++ [e] = l1 ++ x :: l2 ->
  (l2 = [] /\ l1 = l /\ x = e) \/ exists l3, l2 = l3 ++ [e] /\ l = l1 ++ x :: l3.
Proof.
  intro E. destruct l2 as [|y l2 _] using rev_ind.
  - left. apply app_inj_tail in E. destruct E as [-> ->]. auto.
  - right. exists l2. change (l1 ++ x :: l2 ++ [y]) with (l1 ++ (x :: l2) ++ [y]) in E.
    rewrite app_assoc in E. apply app_inj_tail in E. destruct E as [-> ->]. auto.
Qed.

Lemma level_snoc tr e : level_ok tr -> (forall i sg, e <> V_insert i sg) -> level_ok (tr ++ [e]).
Proof.
  intros L N l1 i sg l2 E. apply split_snoc in E. destruct E as [(_ & _ & E)|(l3 & _ & E)]; [exfalso; eapply N; eauto|].
  eapply L. exact E.
Qed.

Lemma level_thr s t l : level_ok (k_trace s) -> (l = [] \/ exists e, l = [e] /\ forall i sg, e <> V_insert i sg) ->
  level_ok (k_trace (set_thr s t l)).
Proof.
  intros L H. rewrite trace_set. destruct H as [->|(e & -> & N)]; cbn [rev app]; [rewrite app_nil_r; exact L|].
  apply level_snoc; assumption.
Qed.

Ltac lev := first [assumption | apply level_thr; [assumption|]; first [left; reflexivity | right; eexists; split; [reflexivity|discriminate]]].

Lemma level_run sch : level_ok (k_trace (k_run opt sch)).
Proof.
  revert sch. apply (run_ind (fun s => level_ok (k_trace s))).
  { intros l1 i sg l2 E. destruct l1; discriminate. }
  intros s a R L. destruct a.
  - destruct (submit_cases s p i d len hf id) as [| |sg EP SP ES]; try lev.
    change (level_ok (k_trace s ++ [V_insert i sg])).
    intros l1 j sg' l2 E. apply split_snoc in E. destruct E as [(-> & -> & [= -> ->])|(l3 & -> & E)]; [|eapply L; exact E].
    rewrite ES, (space_ring _ i R). rewrite (space_ring _ i R) in SP. pose proof (r_le _ R i). pose proof (r_lt _ R i).
    assert (ES' : forall b, outstanding i (k_trace s ++ [V_insert i b]) = S (outstanding i (k_trace s))).
    { intro b. unfold outstanding. rewrite inserts_app, removes_app, inserts_one, Nat.eqb_refl. unfold removes at 2, count. cbn. lia. }
    rewrite ES', N.eqb_eq. unfold nn in *. lia.
  - cbn. destruct (k_prod s p); [|lev]. apply (level_snoc _ V_signal); [assumption|discriminate].
  - cbn. unfold thread_step. destruct (k_thr s); try lev. destruct (_ <? _).
    + destruct (_ <=? _)%N; [|lev]. apply (level_snoc _ (V_remove i)); [assumption|discriminate].
    + destruct (negb _); [lev|]. destruct d; lev.
  - cbn. destruct (k_thr s); lev.
  - cbn. destruct (k_thr s); lev.
  - cbn. destruct (k_des s); try lev; [apply (level_snoc _ V_flag)|apply (level_snoc _ V_signal)]; (assumption || discriminate).
Qed.

(** ** Asleep *)
Definition below (i : nat) (tr : list wev) : Prop := (N.of_nat (outstanding i tr) + thr < size - 1)%N.
Definition asleep_inv (s : wk) : Prop := k_thr s = T_waiting ->
  exists l1 l2, k_trace s = l1 ++ V_sleep :: l2 /\ count wakes l2 = 0 /\ (forall i, removes i l2 = 0) /\
    forall i, below i (k_trace s) \/ (size - 1 <= N.of_nat (outstanding i l1) + thr)%N \/ exists p, k_prod s p = true.

Lemma out_none i tr l : inserts i l = 0 -> removes i l = 0 -> outstanding i (tr ++ l) = outstanding i tr.
Proof. intros A B. unfold outstanding. rewrite inserts_app, removes_app. lia. Qed.

Lemma asleep_quiet s s' l : asleep_inv s -> k_thr s' = k_thr s -> k_trace s' = k_trace s ++ l -> k_prod s' = k_prod s ->
  count wakes l = 0 -> (forall i, inserts i l = 0 /\ removes i l = 0) -> asleep_inv s'.
Proof.
  intros A H1 H2 H3 H4 H5 W. rewrite H1 in W. destruct (A W) as (l1 & l2 & E1 & E2 & E3 & E4).
  exists l1, (l2 ++ l). rewrite H2, E1, <- app_assoc. split; [reflexivity|].
  split; [unfold count in *; rewrite filter_app, app_length; lia|].
  split; [intro i; rewrite removes_app, E3; apply (H5 i)|].
  intro i. rewrite H3. unfold below. rewrite <- (app_assoc l1), <- E1 || idtac.
  destruct (E4 i) as [B|B]; [left|right; exact B].
  change (l1 ++ V_sleep :: l2 ++ l) with (l1 ++ (V_sleep :: l2) ++ l). rewrite app_assoc, <- E1.
  unfold below in B. rewrite out_none; [exact B|apply (H5 i)|apply (H5 i)].
Qed.

Lemma asleep_awake s : k_thr s <> T_waiting -> asleep_inv s.
Proof. intros H W. contradiction. Qed.

Lemma asleep_run sch : asleep_inv (k_run opt sch).
Proof.
  revert sch. apply (run_ind asleep_inv); [apply asleep_awake; discriminate|].
  intros s a R A. destruct a.
  - destruct (submit_cases s p i d len hf id) as [| |sg EP SP ES]; [assumption| |].
    { eapply (asleep_quiet s _ [V_refuse i]); try eassumption; try reflexivity. intro; split; reflexivity. }
    intro W. cbn [k_thr] in W. destruct (A W) as (l1 & l2 & E1 & E2 & E3 & E4).
    set (s' := mk_wk _ _ _ _ _ _ _). assert (ET : k_trace s' = k_trace s ++ [V_insert i sg]) by reflexivity.
    exists l1, (l2 ++ [V_insert i sg]). rewrite ET, E1, <- app_assoc. split; [reflexivity|].
    split; [unfold count in *; rewrite filter_app, app_length; cbn; lia|].
    split; [intro j; rewrite removes_app, E3; reflexivity|].
    intro j. rewrite <- E1 || idtac. change (l1 ++ V_sleep :: l2 ++ [V_insert i sg]) with (l1 ++ (V_sleep :: l2) ++ [V_insert i sg]).
    rewrite app_assoc, <- E1.
    destruct sg eqn:SG.
    { right. right. exists p. cbn. apply upd_same. }
    rewrite (space_ring _ i R) in SP, ES.
    destruct (E4 j) as [B|[B|(q & B)]]; [|right; left; exact B|].
    + destruct (Nat.eqb_spec j i) as [->|NE].
      * left. unfold below in *. pose proof (r_le _ R i). pose proof (r_lt _ R i).
        replace (outstanding i (k_trace s ++ [V_insert i false])) with (S (outstanding i (k_trace s)))
          by (unfold outstanding; rewrite inserts_app, removes_app, inserts_one, Nat.eqb_refl; unfold removes at 3, count; cbn; lia).
        symmetry in ES. apply N.eqb_neq in ES. unfold nn in *. lia.
      * left. unfold below in *. replace (outstanding j (k_trace s ++ [V_insert i false])) with (outstanding j (k_trace s)); [exact B|].
        unfold outstanding. rewrite inserts_app, removes_app, inserts_one. unfold removes at 3, count. cbn.
        destruct (Nat.eqb_spec j i); [congruence|]. lia.
    + right. right. exists q. cbn. unfold upd. destruct (Nat.eqb_spec p q) as [->|]; [congruence|assumption].
  - cbn. destruct (k_prod s p) eqn:EP; [|assumption]. apply asleep_awake. cbn. destruct (k_thr s); discriminate.
  - cbn. unfold thread_step. destruct (k_thr s) eqn:ET.
    + apply asleep_awake. discriminate.
    + destruct (_ <? _).
      * destruct (_ <=? _)%N; apply asleep_awake; discriminate.
      * destruct (negb _); [destruct d|destruct d]; apply asleep_awake; discriminate.
    + intros _. exists (k_trace s), []. rewrite trace_set. cbn [rev app].
      split; [reflexivity|]. split; [reflexivity|]. split; [reflexivity|].
      intro i. unfold below. rewrite out_none by reflexivity.
      destruct (N.lt_ge_cases (N.of_nat (outstanding i (k_trace s)) + thr) (size - 1)); [left; assumption|right; left; assumption].
    + assumption.
    + apply asleep_awake. discriminate.
    + assumption.
  - cbn. destruct (k_thr s) eqn:ET; try assumption. apply asleep_awake. discriminate.
  - cbn. destruct (k_thr s) eqn:ET; try assumption. apply asleep_awake. discriminate.
  - cbn. destruct (k_des s); try assumption.
    + eapply (asleep_quiet s _ [V_flag]); try eassumption; try reflexivity. intro; split; reflexivity.
    + destruct (k_thr s) eqn:ET; try (apply asleep_awake; discriminate).
Qed.

Lemma asleep_level sch : let s := k_run opt sch in k_thr s = T_waiting -> (forall p, k_prod s p = false) ->
  exists l1 l2, k_trace s = l1 ++ V_sleep :: l2 /\ count wakes l2 = 0 /\
    forall i, below i (k_trace s) \/ (size - 1 <= N.of_nat (outstanding i l1) + thr)%N.
Proof.
  intros s W NP. destruct (asleep_run sch W) as (l1 & l2 & E1 & E2 & _ & E4). exists l1, l2. split; [exact E1|]. split; [exact E2|].
  intro i. destruct (E4 i) as [B|[B|(p & B)]]; auto. fold s in B. rewrite NP in B. discriminate.
Qed.

(** ** Shutdown *)
Definition late (t : tpc) : Prop :=
  match t with T_waiting | T_woken | T_top | T_done | T_scan true _ _ => True | _ => False end.
Definition dormant (t : tpc) : Prop := t = T_waiting \/ t = T_woken.

Record down (s : wk) : Prop := {
  d_flag : k_flag s = true <-> In V_flag (k_trace s);
  d_des : k_flag s = false -> k_des s = D_none;
  d_des2 : k_des s = D_none -> k_flag s = false;
  d_asleep : asleep (k_trace s) -> dormant (k_thr s);
  d_once : forall l1 l2, k_trace s = l1 ++ V_flag :: l2 ->
    count sleeps l2 = 0 \/ count sleeps l2 = 1 /\ late (k_thr s);
  d_none : forall l1 l2, k_trace s = l1 ++ V_flag :: l2 -> asleep l1 -> count sleeps l2 = 0 /\ late (k_thr s) }.

Lemma asleep_snoc tr e : asleep (tr ++ [e]) -> e = V_sleep \/ (wakes e = false /\ asleep tr).
Proof.
  intros (l1 & l2 & E & C). apply split_snoc in E. destruct E as [(_ & _ & <-)|(l3 & -> & E)]; [auto|]. right.
  rewrite count_snoc in C. split; [destruct (wakes e); [lia|reflexivity]|]. exists l1, l3. split; [exact E|lia].
Qed.

(** A step of anything but the request itself. *)
Lemma down_step s s' e : down s -> k_trace s' = k_trace s ++ [e] -> k_flag s' = k_flag s ->
  (k_des s' = D_none <-> k_des s = D_none) -> e <> V_flag ->
  (e = V_sleep -> dormant (k_thr s') /\ ~ late (k_thr s)) ->
  (e <> V_sleep -> wakes e = true \/ (dormant (k_thr s) -> dormant (k_thr s'))) ->
  (k_flag s = true -> late (k_thr s) -> late (k_thr s')) -> down s'.
Proof.
  intros [A B B2 C D E] H1 H2 H3 H4 H5 H6 H7. split.
  - rewrite H2, H1, in_app_iff. split; [intro X; left; apply A; exact X|]. intros [X|[X|[]]]; [apply A; exact X|congruence].
  - rewrite H2. intro X. apply H3, B, X.
  - rewrite H2. intro X. apply B2, H3, X.
  - rewrite H1. intro X. apply asleep_snoc in X. destruct X as [->|[X1 X2]]; [apply H5; reflexivity|].
    assert (NE : e = V_sleep \/ e <> V_sleep) by (destruct e; auto; right; discriminate).
    destruct NE as [NE|NE]; [apply H5, NE|]. destruct (H6 NE) as [X|X]; [congruence|]. apply X, C, X2.
  - intros l1 l2 X. rewrite H1 in X. apply split_snoc in X. destruct X as [(_ & _ & X)|(l3 & -> & X)]; [congruence|].
    assert (F : k_flag s = true) by (apply A; rewrite X; apply in_app_iff; right; left; reflexivity).
    rewrite count_snoc. destruct (sleeps e) eqn:SE.
    + destruct e; try discriminate. destruct (H5 eq_refl) as [Q1 Q2].
      destruct (D l1 l3 X) as [Y|[_ Y]]; [|contradiction]. right. split; [lia|]. destruct Q1 as [-> | ->]; exact I.
    + destruct (D l1 l3 X) as [Y|[Y1 Y2]]; [left; lia|]. right. split; [lia|]. apply H7; assumption.
  - intros l1 l2 X AS. rewrite H1 in X. apply split_snoc in X. destruct X as [(_ & _ & X)|(l3 & -> & X)]; [congruence|].
    assert (F : k_flag s = true) by (apply A; rewrite X; apply in_app_iff; right; left; reflexivity).
    destruct (E l1 l3 X AS) as [Y1 Y2]. rewrite count_snoc. destruct (sleeps e) eqn:SE.
    + destruct e; try discriminate. destruct (H5 eq_refl) as [_ Q2]. contradiction.
    + split; [lia|]. apply H7; assumption.
Qed.

Lemma down_quiet s s' : down s -> k_trace s' = k_trace s -> k_flag s' = k_flag s -> k_des s' = k_des s ->
  (dormant (k_thr s) -> dormant (k_thr s')) -> (k_flag s = true -> late (k_thr s) -> late (k_thr s')) -> down s'.
Proof.
  intros [A B B2 C D E] H1 H2 H3 H4 H5. split; rewrite ?H1, ?H2, ?H3; auto.
  - intros l1 l2 X. assert (F : k_flag s = true) by (apply A; rewrite X; apply in_app_iff; right; left; reflexivity).
    destruct (D l1 l2 X) as [Y|[Y1 Y2]]; auto.
  - intros l1 l2 X Y. assert (F : k_flag s = true) by (apply A; rewrite X; apply in_app_iff; right; left; reflexivity).
    destruct (E l1 l2 X Y) as [Y1 Y2]; auto.
Qed.

Lemma down_signal t : (dormant t -> dormant (cond_signal t)) /\ (late t -> late (cond_signal t)).
Proof. destruct t; cbn; split; auto. intros _. right. reflexivity. Qed.

Ltac dorm := let X := fresh in intros [X|X]; discriminate X.

Lemma down_run sch : down (k_run opt sch).
Proof.
  revert sch. apply (run_ind down).
  { split; cbn; try tauto; try discriminate; try reflexivity.
    - split; [discriminate|contradiction].
    - intros (l1 & l2 & E & _). destruct l1; discriminate.
    - intros l1 l2 E. destruct l1; discriminate.
    - intros l1 l2 E. destruct l1; discriminate. }
  intros s a _ D. destruct a.
  - destruct (submit_cases s p i d len hf id) as [| |sg EP SP ES]; [assumption| |];
      (eapply down_step; [exact D|reflexivity|reflexivity|reflexivity|discriminate|discriminate|right; auto|auto]).
  - cbn. destruct (k_prod s p); [|assumption].
    eapply down_step; [exact D|reflexivity|reflexivity|reflexivity|discriminate|discriminate|right; apply down_signal|intros _; apply down_signal].
  - cbn. unfold thread_step. destruct (k_thr s) as [|d i total| | | |] eqn:ET.
    + eapply down_quiet; [exact D|reflexivity|reflexivity|reflexivity|rewrite ET; dorm|]. cbn. intros F _. rewrite F. exact I.
    + destruct (_ <? _).
      * destruct (_ <=? _)%N.
        -- eapply down_step; [exact D|reflexivity|reflexivity|reflexivity|discriminate|discriminate|right; rewrite ET; dorm|].
           rewrite ET. cbn. auto.
        -- eapply down_quiet; [exact D|reflexivity|reflexivity|reflexivity|rewrite ET; dorm|]. rewrite ET. cbn. auto.
      * destruct (negb _).
        -- eapply down_quiet; [exact D|reflexivity|reflexivity|reflexivity|rewrite ET; dorm|]. rewrite ET. cbn. destruct d; cbn; auto.
        -- destruct d.
           ++ eapply down_step; [exact D|reflexivity|reflexivity|reflexivity|discriminate|discriminate|right; rewrite ET; dorm|cbn; auto].
           ++ eapply down_quiet; [exact D|reflexivity|reflexivity|reflexivity|rewrite ET; dorm|]. rewrite ET. cbn. auto.
    + eapply down_step; [exact D|reflexivity|reflexivity|reflexivity|discriminate| |congruence|rewrite ET; contradiction].
      intros _. rewrite ET. split; [left; reflexivity|exact (fun x => x)].
    + assumption.
    + eapply down_step; [exact D|reflexivity|reflexivity|reflexivity|discriminate|discriminate|left; reflexivity|cbn; auto].
    + assumption.
  - cbn. destruct (k_thr s) eqn:ET; try assumption.
    eapply down_step; [exact D|reflexivity|reflexivity|reflexivity|discriminate|discriminate|left; reflexivity|cbn; auto].
  - cbn. destruct (k_thr s) eqn:ET; try assumption.
    eapply down_step; [exact D|reflexivity|reflexivity|reflexivity|discriminate|discriminate|left; reflexivity|cbn; auto].
  - cbn. destruct (k_des s) eqn:ED; [| |assumption].
    + pose proof (d_des2 _ D ED) as F. destruct D as [A B B2 C D E].
      assert (NF : ~ In V_flag (k_trace s)) by (rewrite <- A, F; discriminate).
      set (s' := mk_wk _ _ _ _ _ _ _). assert (ET : k_trace s' = k_trace s ++ [V_flag]) by reflexivity.
      assert (SP : forall l1 l2, k_trace s' = l1 ++ V_flag :: l2 -> l1 = k_trace s /\ l2 = []).
      { intros l1 l2 X. rewrite ET in X. apply split_snoc in X. destruct X as [(-> & -> & _)|(l3 & _ & X)]; [auto|].
        exfalso. apply NF. rewrite X. apply in_app_iff. right. left. reflexivity. }
      split; try discriminate.
      * rewrite ET, in_app_iff. cbn. tauto.
      * rewrite ET. intro X. apply asleep_snoc in X. destruct X as [X|[_ X]]; [discriminate|]. apply C, X.
      * intros l1 l2 X. destruct (SP _ _ X) as [_ ->]. left. reflexivity.
      * intros l1 l2 X AS. destruct (SP _ _ X) as [-> ->]. split; [reflexivity|]. destruct (C AS) as [X2|X2]; cbn; rewrite X2; exact I.
    + eapply down_step; [exact D|reflexivity|reflexivity|cbn; rewrite ED; split; discriminate|discriminate|discriminate|right; apply down_signal|intros _; apply down_signal].
Qed.

Lemma shutdown_sleeps sch l1 l2 : k_trace (k_run opt sch) = l1 ++ V_flag :: l2 ->
  count sleeps l2 <= 1 /\ (asleep l1 -> count sleeps l2 = 0).
Proof.
  intro E. pose proof (down_run sch) as D. split.
  - destruct (d_once _ D l1 l2 E) as [X|[X _]]; lia.
  - intro A. apply (d_none _ D l1 l2 E A).
Qed.

Lemma never_signals sch i : (size - 1 <= thr)%N -> ~ In (V_insert i true) (k_trace (k_run opt sch)).
Proof.
  intros T X. apply in_split in X. destruct X as (l1 & l2 & E). destruct (level_run sch l1 i true l2 E) as [L P]. pose proof (proj1 L eq_refl).
  lia.
Qed.

Lemma in_call sch p : k_prod (k_run opt sch) p = true -> exists i, In (V_insert i true) (k_trace (k_run opt sch)).
Proof.
  revert sch. apply (run_ind (fun s => k_prod s p = true -> exists i, In (V_insert i true) (k_trace s))); [discriminate|].
  intros s a _ P.
  assert (K : forall s' l, k_prod s' = k_prod s -> k_trace s' = k_trace s ++ l -> k_prod s' p = true -> exists i, In (V_insert i true) (k_trace s')).
  { intros s' l E1 E2 X. rewrite E1 in X. destruct (P X) as (i & Y). exists i. rewrite E2. apply in_app_iff. left. exact Y. }
  destruct a as [p0 i0 d len hf id|p0| | | |].
  - destruct (submit_cases s p0 i0 d len hf id) as [| |sg EP SP ES]; [exact P|apply (K _ [V_refuse i0]); reflexivity|].
    cbn [k_prod]. unfold upd. destruct (Nat.eqb_spec p0 p) as [->|].
    + intros ->. exists i0. apply in_app_iff. right. left. reflexivity.
    + intro X. destruct (P X) as (i & Y). exists i. apply in_app_iff. left. exact Y.
  - cbn. destruct (k_prod s p0); [|exact P]. cbn [k_prod]. unfold upd. destruct (Nat.eqb_spec p0 p); [discriminate|].
    intro X. destruct (P X) as (i & Y). exists i. apply in_app_iff. left. exact Y.
  - cbn. unfold thread_step. destruct (k_thr s); try exact P; try (eapply K; [reflexivity|apply trace_set]).
    destruct (_ <? _); [destruct (_ <=? _)%N; [apply (K _ [V_remove i]); reflexivity|eapply K; [reflexivity|apply trace_set]]|].
    destruct (negb _); [|destruct d]; (eapply K; [reflexivity|apply trace_set]).
  - cbn. destruct (k_thr s); try exact P. eapply K; [reflexivity|apply trace_set].
  - cbn. destruct (k_thr s); try exact P. eapply K; [reflexivity|apply trace_set].
  - cbn. destruct (k_des s); try exact P; [apply (K _ [V_flag])|apply (K _ [V_signal])]; reflexivity.
Qed.
End W.

(** Consequences of the queue invariants. *)
From Verif Require Import Bytes Bytes_proofs SpecTrace Queue QueueMutex SpecQueue Queue_proofs Queue2_proofs Queue3_proofs.
Local Open Scope nat_scope.

Lemma subseq_refl {A} (l : list A) : subseq l l.
Proof. induction l; [apply sub_nil|apply sub_take; assumption]. Qed.
Lemma subseq_drop {A} (x : A) : forall a b t, subseq (a ++ x :: b) t -> subseq (a ++ b) t.
Proof.
  intros a b t H. remember (a ++ x :: b) as l eqn:E. revert a E. induction H as [|y l t H IH|y l t H IH]; intros a E.
  - destruct a; discriminate.
  - apply sub_skip. auto.
  - destruct a as [|z a]; cbn in E; injection E as -> ->.
    + apply sub_skip. exact H.
    + cbn. apply sub_take. auto.
Qed.
Lemma subseq_prefix {A} : forall (a b t : list A), subseq (a ++ b) t -> subseq a t.
Proof.
  intros a b t H. remember (a ++ b) as l eqn:E. revert a E. induction H as [|y l t H IH|y l t H IH]; intros a E.
  - destruct a; [constructor|discriminate].
  - apply sub_skip. auto.
  - destruct a as [|z a]; cbn in E.
    + clear. induction (y :: t); [apply sub_nil|apply sub_skip; assumption].
    + injection E as -> ->. apply sub_take. auto.
Qed.

(** ** Single producer, single consumer *)
Definition pc_item (pc : ppc) : list bytes := match pc with P_idle => [] | P_tail x _ | P_copy x _ _ _ => [x] end.
Definition from_todo (todo : list bytes) (s : qstate) : Prop :=
  exists p, q_prods s = [p] /\ subseq (inserted (q_trace s) ++ pc_item (p_pc p) ++ p_todo p) todo /\
    length (inserted (q_trace s)) + refusals (q_trace s) + length (pc_item (p_pc p)) + length (p_todo p) = length todo.

Lemma refusals_app a b : refusals (a ++ b) = refusals a + refusals b.
Proof. unfold refusals. rewrite filter_app, app_length. reflexivity. Qed.
Lemma log_ins s e : inserted (q_trace (upd_log s [e])) = inserted (q_trace s) ++ match e with E_inserted x => [x] | _ => [] end.
Proof. rewrite trace_upd. cbn [rev app]. rewrite inserted_app. destruct e; reflexivity. Qed.
Lemma log_ref s e : refusals (q_trace (upd_log s [e])) = refusals (q_trace s) + match e with E_refuse _ => 1 | _ => 0 end.
Proof. rewrite trace_upd. cbn [rev app]. rewrite refusals_app. destruct e; reflexivity. Qed.
Ltac trc s := repeat match goal with |- context [q_trace ?x] => lazymatch x with s => fail | _ => change (q_trace x) with (q_trace s) end end.
Ltac fin s EP := eexists; split; [cbn; rewrite ?EP; reflexivity|]; rewrite ?log_ins, ?log_ref, ?app_nil_r; trc s;
  cbn [p_pc p_todo pc_item] in *; rewrite ?app_length; cbn [length app] in *.

Lemma from_todo_step todo s a : from_todo todo s -> from_todo todo (q_step s a).
Proof.
  intros I. pose proof I as (p & EP & S & N). destruct a as [[|i]|[|i]| |]; cbn [q_step].
  - unfold prod_step. rewrite EP. cbn [nth_error]. destruct (p_pc p) as [|x h|x h sp k] eqn:PC.
    + destruct (p_todo p) as [|x r] eqn:TD; [exact I|]. fin s EP. split; [exact S|lia].
    + cbv zeta. destruct (1 <=? _)%N.
      * fin s EP. split; [exact S|lia].
      * fin s EP. split; [apply subseq_drop in S; exact S|lia].
    + destruct (Nat.ltb k (q_sz s)).
      * fin s EP. split; [exact S|lia].
      * fin s EP. rewrite <- app_assoc. split; [exact S|lia].
  - unfold prod_step. rewrite EP. cbn [nth_error]. destruct (nth_error (@nil producer) i) eqn:X; [destruct i; discriminate|]. exact I.
  - unfold prod_flush. rewrite EP. cbn [nth_error]. destruct (p_buf p) as [|[]]; [exact I| |]; cbv zeta; fin s EP; (split; [exact S|lia]).
  - unfold prod_flush. rewrite EP. cbn [nth_error]. destruct (nth_error (@nil producer) i) eqn:X; [destruct i; discriminate|]. exact I.
  - unfold cons_step. cbv zeta. destruct (c_pc (q_cons s)).
    + fin s EP. split; [exact S|lia].
    + destruct (1 <=? _)%N; fin s EP; (split; [exact S|lia]).
    + destruct (Nat.ltb _ _); [fin s EP; (split; [exact S|lia])|]. destruct (c_buf (q_cons s)); [|exact I]. fin s EP. split; [exact S|lia].
  - unfold cons_flush. destruct (c_buf (q_cons s)); [exact I|]. cbv zeta. fin s EP. split; [exact S|lia].
Qed.
Lemma from_todo_run todo sch : forall s, from_todo todo s -> from_todo todo (q_run s sch).
Proof. induction sch; intros s I; cbn; [exact I|]. apply IHsch, from_todo_step, I. Qed.

Section Sized.
Variable num : N.
Variable sz : nat.
Variable todo : list bytes.
Hypothesis INIT : queue_init_ok num = true.
Hypothesis RANGE : (num < 2 ^ 32)%N.
Hypothesis FIT : (num * N.of_nat sz <= 2 ^ 32)%N.
Hypothesis ITEMS : Forall (fun x => length x = sz) todo.
Variable sch : list qact.
Let s := q_run (q_init num sz [todo]) sch.

Lemma s_inv : inv num sz s.
Proof. apply run_inv; [apply queue_init_spec; assumption|assumption|]. apply init_inv; auto. apply queue_init_spec; assumption. Qed.

Lemma spsc_fifo : (exists rest, inserted (q_trace s) = removed (q_trace s) ++ rest) /\ subseq (inserted (q_trace s)) todo /\ q_oob s = false.
Proof.
  destruct s_inv as (_ & _ & EO & p & ins & T & Hm & Tm & sn & d & EP & C & L). split; [|split; [|exact EO]].
  - destruct L. rewrite l_ins, l_rem. exists (skipn T ins). symmetry. apply firstn_skipn.
  - assert (F : from_todo todo s).
    { apply from_todo_run. eexists. split; [reflexivity|]. cbn. split; [apply subseq_refl|lia]. }
    destruct F as (? & _ & F & _). eapply subseq_prefix. exact F.
Qed.

Lemma spsc_capacity :
  length (inserted (q_trace s)) <= length (removed (q_trace s)) + (N.to_nat num - 1) /\ trace_ok num (q_trace s).
Proof.
  destruct s_inv as (_ & _ & EO & p & ins & T & Hm & Tm & sn & d & EP & C & L). destruct C, L. split; [|exact l_ok].
  rewrite l_rem, l_ins, firstn_length. lia.
Qed.

(** Draining: a remove that reports empty, having looked when all the insertions
    had been published, has everything. *)
Lemma spsc_drained l1 c l2 : q_trace s = l1 ++ E_empty c :: l2 -> seen l1 = length (inserted l1) -> removed l1 = inserted l1.
Proof.
  intros E S. destruct spsc_capacity as [_ T].
  assert (EV : ev_ok num l1 (E_empty c)) by (eapply T; exact E). destruct EV as [_ EV].
  assert (P : exists rest, inserted l1 = removed l1 ++ rest).
  { clear S EV. assert (T1 : forall a e b, l1 = a ++ e :: b -> ev_ok num a e).
    { intros a e b X. apply (T a e (b ++ E_empty c :: l2)). rewrite E, X, <- app_assoc. reflexivity. }
    clear E T. induction l1 as [|e l IH] using rev_ind; [exists []; reflexivity|].
    destruct IH as (rest & R); [intros a f b X; apply (T1 a f (b ++ [e])); rewrite X, <- app_assoc; reflexivity|].
    specialize (T1 l e [] eq_refl). rewrite inserted_app, removed_app, R.
    destruct e; cbn [inserted removed flat_map]; rewrite ?app_nil_r; try (exists rest; reflexivity).
    - exists (rest ++ [x]). rewrite <- app_assoc. reflexivity.
    - destruct T1 as [_ T1]. rewrite R, nth_error_app2, Nat.sub_diag in T1 by lia. destruct rest as [|y rest]; [discriminate|]. cbn in T1. injection T1 as ->.
      exists rest. rewrite <- app_assoc. reflexivity. }
  destruct P as (rest & P). rewrite P in *. rewrite app_length in S. destruct rest; [rewrite app_nil_r; reflexivity|cbn in S; lia].
Qed.
End Sized.

(** ** Inserting is wait-free *)
Definition left_steps (sz : nat) (p : producer) : nat :=
  (sz + 3) * length (p_todo p) + match p_pc p with P_idle => 0 | P_tail _ _ => sz + 2 | P_copy _ _ _ k => sz + 1 - k end.
Definition prod_bound (sz : nat) (m : nat) (s : qstate) : Prop :=
  q_sz s = sz /\ exists p, q_prods s = [p] /\ left_steps sz p <= m /\ match p_pc p with P_copy _ _ _ k => k <= sz | _ => True end.

Lemma bound_step sz m s a : prod_bound sz m s ->
  prod_bound sz (m - match a with A_prod 0 => 1 | _ => 0 end) (q_step s a).
Proof.
  intros (ES & p & EP & L & K). destruct a as [[|i]|[|i]| |]; cbn [q_step]; rewrite ?Nat.sub_0_r.
  - unfold prod_step. rewrite EP. cbn [nth_error]. unfold left_steps in L. destruct (p_pc p) as [|x h|x h sp k] eqn:PC.
    + destruct (p_todo p) as [|x r] eqn:TD.
      * split; [exact ES|]. exists p. split; [exact EP|]. unfold left_steps. rewrite PC, TD. cbn. lia.
      * split; [exact ES|]. eexists. split; [cbn; rewrite EP; reflexivity|]. unfold left_steps. cbn [p_todo p_pc length] in *. lia.
    + cbv zeta. destruct (1 <=? _)%N; (split; [exact ES|]); (eexists; split; [cbn; rewrite EP; reflexivity|]); unfold left_steps; cbn [p_todo p_pc] in *; lia.
    + destruct (Nat.ltb_spec k (q_sz s)); (split; [exact ES|]); (eexists; split; [cbn; rewrite EP; reflexivity|]); unfold left_steps; cbn [p_todo p_pc] in *; lia.
  - unfold prod_step. rewrite EP. cbn. destruct (nth_error (@nil producer) i) eqn:X; [destruct i; discriminate|]. split; [exact ES|]. exists p. auto.
  - unfold prod_flush. rewrite EP. cbn [nth_error]. destruct (p_buf p) as [|[]]; (split; [exact ES|]); [exists p; auto| |];
      (eexists; split; [cbn; rewrite EP; reflexivity|]); unfold left_steps in *; cbn [p_todo p_pc] in *; auto.
  - unfold prod_flush. rewrite EP. cbn. destruct (nth_error (@nil producer) i) eqn:X; [destruct i; discriminate|]. split; [exact ES|]. exists p. auto.
  - unfold cons_step. cbv zeta. destruct (c_pc (q_cons s)); [|destruct (1 <=? _)%N|destruct (Nat.ltb _ _); [|destruct (c_buf (q_cons s))]];
      (split; [exact ES|]); exists p; auto.
  - unfold cons_flush. destruct (c_buf (q_cons s)); (split; [exact ES|]); exists p; auto.
Qed.

Lemma wait_free num sz todo sch : (sz + 3) * length todo <= prod_actions sch ->
  let tr := q_trace (q_run (q_init num sz [todo]) sch) in length (inserted tr) + refusals tr = length todo.
Proof.
  intros H tr.
  assert (G : forall sch s m, prod_bound sz m s -> prod_bound sz (m - prod_actions sch) (q_run s sch)).
  { clear. induction sch as [|a sch IH]; intros s m B; cbn [q_run fold_left].
    - cbn. rewrite Nat.sub_0_r. exact B.
    - apply bound_step with (a := a) in B. apply IH in B. unfold prod_actions in *. cbn [filter].
      destruct a as [[|i]|i| |]; cbn [length]; [replace (m - S _) with (m - 1 - length (filter (fun a => match a with A_prod 0 => true | _ => false end) sch)) by lia; exact B|..];
        rewrite Nat.sub_0_r in B; exact B. }
  destruct (G sch (q_init num sz [todo]) ((sz + 3) * length todo)) as (ES & p & EP & L & K).
  { split; [reflexivity|]. eexists. split; [reflexivity|]. unfold left_steps. cbn. lia. }
  assert (F : from_todo todo (q_run (q_init num sz [todo]) sch)).
  { apply from_todo_run. eexists. split; [reflexivity|]. cbn. split; [apply subseq_refl|lia]. }
  destruct F as (p' & EP' & _ & F). rewrite EP in EP'. injection EP' as <-. fold tr in F.
  unfold left_steps in L. destruct (p_todo p); [|cbn [length] in L; lia].
  destruct (p_pc p); cbn [pc_item length] in *; lia.
Qed.

(** The thread over locked queues refines the system of SpecIothr.v. *)
From Verif Require Import Bytes Bytes_proofs SpecTrace Io Queue QueueMutex SpecQueue Queue_proofs Queue3_proofs Iothr SpecIothr SystemMutex SpecSystemMutex Iothr4_proofs.
Local Open Scope nat_scope.

(** ** The locked queue: operations of each thread *)
Definition unl_by (j : nat) (tr : list mev) : list mop :=
  flat_map (fun e => match e with ME_unlock c o _ => if Nat.eqb (fst c) j then [o] else [] | _ => [] end) tr.
Lemma unl_by_app j a b : unl_by j (a ++ b) = unl_by j a ++ unl_by j b. Proof. apply flat_map_app. Qed.
Definition before_unlock (pc : mpc) : list mop :=
  match pc with M_return _ _ => [] | _ => match pc_op pc with Some o => [o] | None => [] end end.
Definition rest_of (s : mstate) (j : nat) : list mop :=
  match nth_error (m_threads s) j with None => [] | Some t => before_unlock (m_pc t) ++ m_todo t end.
Definition by_todo (todo : list (list mop)) (s : mstate) : Prop :=
  forall j, unl_by j (m_trace s) ++ rest_of s j = nth j todo [].

Lemma by_todo_keep todo s s' i t t' : by_todo todo s -> nth_error (m_threads s) i = Some t -> m_threads s' = set_nth i t' (m_threads s) ->
  (forall j, j <> i -> unl_by j (m_trace s') = unl_by j (m_trace s)) ->
  unl_by i (m_trace s') ++ before_unlock (m_pc t') ++ m_todo t' = unl_by i (m_trace s) ++ before_unlock (m_pc t) ++ m_todo t -> by_todo todo s'.
Proof.
  intros B E ET O X j. destruct (Nat.eq_dec j i) as [->|N].
  - rewrite <- (B i). unfold rest_of. rewrite ET, nth_error_set_same by (eapply nth_error_lt; exact E). rewrite E. exact X.
  - rewrite <- (B j). unfold rest_of. rewrite ET, nth_error_set_other by auto. rewrite O by exact N. reflexivity.
Qed.

Lemma m_step_by todo s i : by_todo todo s -> by_todo todo (m_step s i).
Proof.
  intro B. unfold m_step. destruct (nth_error (m_threads s) i) as [t|] eqn:E; [|exact B]. destruct t as [td dn pc]. cbn [m_pc m_todo m_done].
  destruct pc as [|o|o|o head|x head space k|tail count got|o r|o r].
  - destruct td as [|o td]; [exact B|]. eapply by_todo_keep; [exact B|exact E|reflexivity| |]; rewrite ?trace_log.
    + intros j N. rewrite unl_by_app. cbn. apply app_nil_r.
    + rewrite unl_by_app. cbn. rewrite app_nil_r. reflexivity.
  - destruct (m_lk s); [exact B|]. eapply by_todo_keep; [exact B|exact E|reflexivity|reflexivity|reflexivity].
  - eapply by_todo_keep; [exact B|exact E|reflexivity|reflexivity|reflexivity].
  - destruct o as [x|].
    + cbv zeta. destruct (1 <=? _)%N; (eapply by_todo_keep; [exact B|exact E|reflexivity|reflexivity|reflexivity]).
    + cbv zeta. destruct (1 <=? _)%N; (eapply by_todo_keep; [exact B|exact E|reflexivity|reflexivity|reflexivity]).
  - cbv zeta. destruct (Nat.ltb _ _); (eapply by_todo_keep; [exact B|exact E|reflexivity|reflexivity|reflexivity]).
  - cbv zeta. destruct (Nat.ltb _ _); (eapply by_todo_keep; [exact B|exact E|reflexivity|reflexivity|reflexivity]).
  - eapply by_todo_keep; [exact B|exact E|reflexivity| |]; rewrite ?trace_log.
    + intros j N. rewrite unl_by_app. cbn. apply Nat.eqb_neq in N. rewrite Nat.eqb_sym, N. apply app_nil_r.
    + rewrite unl_by_app. cbn. rewrite Nat.eqb_refl. rewrite <- app_assoc. reflexivity.
  - eapply by_todo_keep; [exact B|exact E|reflexivity| |]; rewrite ?trace_log.
    + intros j N. rewrite unl_by_app. cbn. apply app_nil_r.
    + rewrite unl_by_app. cbn. rewrite app_nil_r. reflexivity.
Qed.
Lemma m_run_by todo sch : forall s, by_todo todo s -> by_todo todo (m_run s sch).
Proof. induction sch as [|i sch IH]; intros s B; [exact B|]. apply IH, m_step_by, B. Qed.
Lemma m_init_by num sz todo : by_todo todo (m_init num sz todo).
Proof.
  intro j. unfold rest_of. cbn. rewrite nth_error_map. revert j. induction todo as [|a todo IH]; intros [|j]; try reflexivity. apply IH.
Qed.

Lemma m_step_log s i : m_log (m_step s i) = m_log s \/ exists e, m_log (m_step s i) = e :: m_log s.
Proof.
  unfold m_step. destruct (nth_error (m_threads s) i) as [t|]; [|auto]. destruct (m_pc t) as [|o|o|o head|x head space k|tail count got|o r|o r].
  - destruct (m_todo t); [auto|]. right. eexists. reflexivity.
  - destruct (m_lk s); auto.
  - auto.
  - destruct o; cbv zeta; destruct (1 <=? _)%N; auto.
  - cbv zeta. destruct (Nat.ltb _ _); auto.
  - cbv zeta. destruct (Nat.ltb _ _); auto.
  - right. eexists. reflexivity.
  - right. eexists. reflexivity.
Qed.

(** ** Traces *)
Definition xat (i : nat) (l : list xev) : list mev :=
  flat_map (fun e => match e with XE_q j x => if Nat.eqb j i then [x] else [] | _ => [] end) l.
Lemma xat_app i a b : xat i (a ++ b) = xat i a ++ xat i b. Proof. apply flat_map_app. Qed.

(** The history of the abstract system. *)
Definition hist_at (dec : bytes -> entry) (e : xev) : history :=
  match e with
  | XE_q i (ME_unlock _ (M_ins x) (R_ins true _)) => [S_insert i (dec x); S_publish i]
  | XE_q i (ME_unlock _ M_rem (R_rem x _)) => [S_thr (QRemove i, AEntry (option_map dec x))]
  | XE_q _ _ => []
  | XE_shutdown => [S_shutdown]
  | XE_call c => [S_thr c]
  end.
Definition hist (dec : bytes -> entry) (l : list xev) : history := flat_map (hist_at dec) l.
Lemma hist_app dec a b : hist dec (a ++ b) = hist dec a ++ hist dec b. Proof. apply flat_map_app. Qed.

(** Removals are thread 0's, insertions the others'. *)
Definition role_ok (e : xev) : Prop :=
  match e with
  | XE_q _ (ME_unlock (0, _) M_rem (R_rem _ _)) => True
  | XE_q _ (ME_unlock (S _, _) (M_ins _) (R_ins _ _)) => True
  | XE_q _ (ME_unlock _ _ _) => False
  | _ => True
  end.
Lemma hist_thread dec l : Forall role_ok l -> thread_of (hist dec l) = xcalls dec l.
Proof.
  induction 1 as [|e l R F IH]; [reflexivity|]. change (hist dec (e :: l)) with (hist_at dec e ++ hist dec l). rewrite thread_app, IH.
  change (xcalls dec (e :: l)) with (xcalls_at dec e ++ xcalls dec l). f_equal. destruct e as [i []| |]; try reflexivity.
  destruct c as [[|j] k], o, r; cbn in R; try contradiction; try reflexivity. destruct ok; reflexivity.
Qed.
Lemma hist_accepted dec l : Forall role_ok l -> accepted (hist dec l) = xsubmitted dec l.
Proof.
  induction 1 as [|e l R F IH]; [reflexivity|]. change (hist dec (e :: l)) with (hist_at dec e ++ hist dec l). rewrite accepted_app, IH.
  unfold xsubmitted. change (xsub dec (e :: l)) with (xsub_at dec e ++ xsub dec l). rewrite map_app. f_equal. destruct e as [i []| |]; try reflexivity.
  destruct c as [[|j] k], o, r; cbn in R; try contradiction; try reflexivity. destruct ok; reflexivity.
Qed.
Lemma hist_shutdown dec l : In S_shutdown (hist dec l) -> In XE_shutdown l.
Proof.
  unfold hist. rewrite in_flat_map. intros (e & I & J). destruct e as [i e| |c]; [|exact I|destruct J as [J|[]]; discriminate].
  exfalso. destruct e as [| c o r |]; try contradiction. destruct o, r; cbn in J; try contradiction; [destruct ok|]; cbn in J; intuition discriminate.
Qed.

Lemma sys_run_app cap a : forall s b, sys_run cap s (a ++ b) = match sys_run cap s a with Some s' => sys_run cap s' b | None => None end.
Proof. induction a as [|e a IH]; intros; cbn; [reflexivity|]. destruct (sys_step cap s e); auto. Qed.

Section SYS.
Variables (num : N) (sz : nat) (dec : bytes -> entry) (rem : nat -> nat) (todo : nat -> list (list bytes)).
Hypothesis (R32 : (num < 2 ^ 32)%N) (QI : queue_init_ok num = true) (FIT : (num * N.of_nat sz <= 2 ^ 32)%N).
Hypothesis (TD : forall i, Forall (Forall (fun x => length x = sz)) (todo i)).
Let cap := N.to_nat num - 1.
Definition ops (i : nat) : list (list mop) := repeat M_rem (rem i) :: map (map M_ins) (todo i).

Lemma ops_sized i : Forall (Forall (op_sized sz)) (ops i).
Proof.
  constructor.
  - apply Forall_forall. intros o I. apply repeat_spec in I. subst. exact I.
  - apply Forall_map. eapply Forall_impl; [|exact (TD i)]. intros l F. apply Forall_map. exact F.
Qed.

(** The lists the abstract queues hold. *)
Definition held (l : list xev) (i : nat) : list bytes := fifo_run cap [] (unlocks (xat i l)).

Record XI (s : xsys) : Prop := {
  x_reach : forall i, exists sch, x_queues s i = m_run (m_init num sz (ops i)) sch;
  x_proj : forall i, xat i (x_trace s) = m_trace (x_queues s i);
  x_role : Forall role_ok (x_trace s);
  x_abs : exists a, sys_run cap sys_init (hist dec (x_trace s)) = Some a /\ s_flag a = x_flag s /\ (forall i, s_pending a i = []) /\
    forall i, s_visible a i = map dec (held (x_trace s) i);
  x_all : forall l1 l2, x_trace s = l1 ++ l2 -> exists a, sys_run cap sys_init (hist dec l1) = Some a /\ forall i, s_pending a i = [] }.

Lemma init_XI : XI (x_init num sz rem todo).
Proof.
  constructor; try reflexivity.
  - intro i. exists []. reflexivity.
  - constructor.
  - exists sys_init. repeat split; reflexivity.
  - intros l1 l2 E. destruct l1; [|discriminate]. exists sys_init. split; reflexivity.
Qed.

Lemma held_snoc l i e j : held (l ++ [XE_q i e]) j =
  if Nat.eqb i j then match e with ME_unlock _ o _ => snd (fifo_op cap (held l j) o) | _ => held l j end else held l j.
Proof.
  unfold held. rewrite xat_app. cbn. destruct (Nat.eqb i j); cbn; rewrite ?app_nil_r; [|reflexivity]. rewrite unlocks_app, fifo_run_app.
  destruct e; reflexivity.
Qed.

Lemma all_snoc (l : list xev) e : (forall l1 l2, l = l1 ++ l2 -> exists a, sys_run cap sys_init (hist dec l1) = Some a /\ forall i, s_pending a i = []) ->
  (exists a, sys_run cap sys_init (hist dec (l ++ [e])) = Some a /\ forall i, s_pending a i = []) ->
  forall l1 l2, l ++ [e] = l1 ++ l2 -> exists a, sys_run cap sys_init (hist dec l1) = Some a /\ forall i, s_pending a i = [].
Proof.
  intros A B l1 l2 E. destruct l2 as [|y l2 _] using rev_ind.
  - rewrite app_nil_r in E. subst l1. exact B.
  - rewrite app_assoc in E. apply app_inj_tail in E. destruct E as [E _]. exact (A _ _ E).
Qed.

Lemma reach_inv s i : XI s -> minv num sz (x_queues s i) /\ by_todo (ops i) (x_queues s i).
Proof.
  intros [R _ _ _ _]. destruct (R i) as (sch & ->). split.
  - apply m_run_inv; [exact (proj1 (queue_init_spec num R32) QI)|exact FIT|]. apply m_init_inv; [exact (proj1 (queue_init_spec num R32) QI)|exact FIT|apply ops_sized].
  - apply m_run_by, m_init_by.
Qed.

Lemma entry_eqb_refl (e : entry) : (Nat.eqb (e_id e) (e_id e) && bytes_eqb (e_data e) (e_data e) && Bool.eqb (e_free e) (e_free e))%bool = true.
Proof. rewrite Nat.eqb_refl, bytes_eqb_refl. destruct (e_free e); reflexivity. Qed.

Lemma at_XI s i j ins : XI s -> XI (set_x s i j ins).
Proof.
  intro I. pose proof I as [RE PR RO (a & RA & FA & PA & VA) AL].
  assert (RE' : forall k, exists sch, x_queues (set_x s i j ins) k = m_run (m_init num sz (ops k)) sch).
  { intro k. cbn. destruct (Nat.eqb i k) eqn:E; [apply Nat.eqb_eq in E; subst k|apply RE]. destruct (RE i) as (sch & X). exists (sch ++ [j]).
    unfold m_run. rewrite fold_left_app. cbn. f_equal. exact X. }
  assert (J : minv num sz (m_step (x_queues s i) j) /\ by_todo (ops i) (m_step (x_queues s i) j)).
  { destruct (reach_inv s i I) as [M B]. split; [|apply m_step_by, B]. apply m_step_inv; [exact (proj1 (queue_init_spec num R32) QI)|exact FIT|exact M]. }
  destruct J as [(_ & _ & _ & _ & FH & _) BY].
  destruct (m_step_log (x_queues s i) j) as [L|(e & L)].
  - assert (T : x_trace (set_x s i j ins) = x_trace s).
    { unfold x_trace, set_x. cbn [x_log]. rewrite L, Nat.sub_diag. reflexivity. }
    constructor; rewrite ?T; try assumption.
    + intro k. rewrite PR. cbn. destruct (Nat.eqb i k) eqn:E; [apply Nat.eqb_eq in E; subst k|reflexivity]. unfold m_trace. rewrite L. reflexivity.
    + exists a. auto.
  - assert (T : x_trace (set_x s i j ins) = x_trace s ++ [XE_q i e]).
    { unfold x_trace, set_x. cbn [x_log]. rewrite L. cbn [length]. replace (S (length (m_log (x_queues s i))) - length (m_log (x_queues s i))) with 1 by lia. reflexivity. }
    assert (MT : m_trace (m_step (x_queues s i) j) = m_trace (x_queues s i) ++ [e]) by (unfold m_trace; rewrite L; reflexivity).
    assert (PJ : forall k, xat k (x_trace s ++ [XE_q i e]) = m_trace (x_queues (set_x s i j ins) k)).
    { intro k. rewrite xat_app, PR. cbn. destruct (Nat.eqb i k) eqn:E; [apply Nat.eqb_eq in E; subst k; symmetry; exact MT|apply app_nil_r]. }
    assert (HI : held (x_trace s) i = fifo_run cap [] (unlocks (m_trace (x_queues s i)))) by (unfold held; rewrite PR; reflexivity).
    rewrite MT, unlocks_app, fifo_history_app in FH. fold cap in FH. rewrite <- HI in FH. destruct FH as [_ FH].
    assert (RX : role_ok (XE_q i e)).
    { destruct e as [|[u v] o r|]; try exact Logic.I. cbn in FH. destruct FH as [FH _].
      assert (IO : In o (nth u (ops i) [])).
      { rewrite <- (BY u), MT, unl_by_app. apply in_or_app. left. apply in_or_app. right. cbn. rewrite Nat.eqb_refl. left. reflexivity. }
      unfold ops in IO. destruct u as [|u]; cbn [nth] in IO.
      - apply repeat_spec in IO. subst o. cbn in FH. destruct (held (x_trace s) i); cbn in FH; subst r; exact Logic.I.
      - assert (E : exists td, nth u (map (map M_ins) (todo i)) [] = map M_ins td).
        { exists (nth u (todo i) []). change (@nil mop) with (map M_ins []) at 1. apply map_nth. }
        destruct E as (td & E). rewrite E in IO. apply in_map_iff in IO. destruct IO as (x & <- & _). cbn -[Nat.ltb] in FH. destruct (Nat.ltb (length (held (x_trace s) i)) cap); cbn in FH; subst r; exact Logic.I. }
    assert (AB : exists a', sys_run cap sys_init (hist dec (x_trace s ++ [XE_q i e])) = Some a' /\ s_flag a' = x_flag s /\ (forall k, s_pending a' k = []) /\
      forall k, s_visible a' k = map dec (held (x_trace s ++ [XE_q i e]) k)).
    { assert (HK : forall k, held (x_trace s ++ [XE_q i e]) k = if Nat.eqb i k then match e with ME_unlock _ o _ => snd (fifo_op cap (held (x_trace s) k) o) | _ => held (x_trace s) k end else held (x_trace s) k)
        by (intro k; apply held_snoc).
      rewrite hist_app, sys_run_app, RA. cbn [hist flat_map]. rewrite app_nil_r.
      destruct e as [c o|c o r|c o r]; try (exists a; split; [reflexivity|]; split; [exact FA|]; split; [exact PA|]; intro k; rewrite HK, VA; destruct (Nat.eqb i k); reflexivity).
      cbn -[fifo_op] in FH. destruct FH as [FH _]. destruct o as [x|].
      - cbn [fifo_op] in FH, HK. destruct (Nat.ltb (length (held (x_trace s) i)) cap) eqn:EL; cbn [fst] in FH; subst r.
        + cbn [hist_at sys_run sys_step]. rewrite PA, VA, map_length. change (length (@nil entry) + length (held (x_trace s) i)) with (length (held (x_trace s) i)). rewrite EL. cbn [s_pending s_visible s_flag]. unfold upd at 1. rewrite Nat.eqb_refl. cbn [app].
          eexists. split; [reflexivity|]. cbn [s_pending s_visible s_flag]. split; [exact FA|]. split.
          * intro k. unfold upd. destruct (Nat.eqb i k); [reflexivity|]. apply PA.
          * intro k. rewrite HK. unfold upd. destruct (Nat.eqb i k) eqn:E; [apply Nat.eqb_eq in E; subst k|apply VA]. rewrite VA, EL. cbn [snd]. rewrite map_app. reflexivity.
        + cbn. exists a. split; [reflexivity|]. split; [exact FA|]. split; [exact PA|]. intro k. rewrite HK, VA. destruct (Nat.eqb i k) eqn:E; [apply Nat.eqb_eq in E; subst k|reflexivity]. rewrite EL. reflexivity.
      - cbn [fifo_op] in FH, HK. specialize (VA i) as Vi. destruct (held (x_trace s) i) as [|x q'] eqn:EH; cbn [fst] in FH; subst r; cbn [hist_at sys_run sys_step option_map]; rewrite Vi; cbn [map].
        + exists a. split; [reflexivity|]. split; [exact FA|]. split; [exact PA|]. intro k. rewrite HK, VA. destruct (Nat.eqb i k) eqn:E; [apply Nat.eqb_eq in E; subst k|reflexivity]. rewrite EH. reflexivity.
        + rewrite entry_eqb_refl. eexists. split; [reflexivity|]. cbn [s_pending s_visible s_flag]. split; [exact FA|]. split; [exact PA|].
          intro k. rewrite HK. unfold upd. destruct (Nat.eqb i k) eqn:E; [apply Nat.eqb_eq in E; subst k|apply VA]. rewrite EH. reflexivity. }
    constructor; rewrite ?T; try assumption.
    + apply Forall_app. split; [exact RO|]. constructor; [exact RX|constructor].
    + apply all_snoc; [exact AL|]. destruct AB as (a' & X & _ & Y & _). exists a'. auto.
Qed.

Lemma other_XI s b e : XI s -> role_ok e -> (forall i, xat i [e] = []) ->
  (forall a, s_flag a = x_flag s -> exists a', sys_run cap a (hist_at dec e) = Some a' /\ s_flag a' = b /\ s_pending a' = s_pending a /\ s_visible a' = s_visible a) ->
  forall ins, XI (mk_xsys (x_queues s) b ins (e :: x_log s)).
Proof.
  intros [RE PR RO (a & RA & FA & PA & VA) AL] RX NX H ins.
  assert (T : x_trace (mk_xsys (x_queues s) b ins (e :: x_log s)) = x_trace s ++ [e]) by reflexivity.
  assert (XA : forall i, xat i (x_trace s ++ [e]) = xat i (x_trace s)) by (intro i; rewrite xat_app, NX; apply app_nil_r).
  destruct (H a FA) as (a' & R' & F' & P' & V').
  assert (RA' : sys_run cap sys_init (hist dec (x_trace s ++ [e])) = Some a').
  { rewrite hist_app, sys_run_app, RA. cbn [hist flat_map]. rewrite app_nil_r. exact R'. }
  constructor; rewrite ?T; try assumption.
  - intro i. rewrite XA. apply PR.
  - apply Forall_app. split; [exact RO|]. constructor; [exact RX|constructor].
  - exists a'. split; [exact RA'|]. split; [exact F'|]. rewrite P', V'. split; [exact PA|]. intro i. unfold held. rewrite XA. apply VA.
  - apply all_snoc; [exact AL|]. exists a'. rewrite P'. auto.
Qed.

Lemma step_XI s x s' : x_step s x = Some s' -> XI s -> XI s'.
Proof.
  intros E I. destruct x as [i j| |e]; cbn in E.
  - destruct j as [|j].
    + destruct (match x_in s with Some k => Nat.eqb i k | None => true end); [|discriminate]. injection E as <-. apply at_XI, I.
    + injection E as <-. apply at_XI, I.
  - injection E as <-. apply other_XI; [exact I|exact Logic.I|reflexivity|]. intros a _. eexists. split; [reflexivity|]. repeat split.
  - destruct (x_in s) eqn:EI; [discriminate|]. destruct e as [q an].
    assert (G : forall s', Some (mk_xsys (x_queues s) (x_flag s) None (XE_call (q, an) :: x_log s)) = Some s' ->
      (forall a, s_flag a = x_flag s -> sys_step cap a (S_thr (q, an)) = Some a) -> XI s').
    { intros s1 X H. injection X as <-. apply other_XI; [exact I|exact Logic.I|reflexivity|]. intros a F. exists a. cbn [hist_at sys_run]. rewrite (H a F). auto. }
    destruct q; try (apply (G s' E); intros; reflexivity); try discriminate.
    destruct an; try (apply (G s' E); intros; reflexivity). destruct (Bool.eqb b (x_flag s)) eqn:B; [|discriminate]. apply (G s' E). intros a F. cbn. rewrite F, B. reflexivity.
Qed.
Lemma run_XI sch : forall s s', x_run s sch = Some s' -> XI s -> XI s'.
Proof.
  induction sch as [|x sch IH]; intros s s' E I; cbn in E; [injection E as <-; exact I|]. destruct (x_step s x) as [s1|] eqn:X; [|discriminate].
  eapply IH; [exact E|]. eapply step_XI; eassumption.
Qed.

Lemma xrefines sch s : x_run (x_init num sz rem todo) sch = Some s -> XI s.
Proof. intro R. eapply run_XI; [exact R|apply init_XI]. Qed.

(** What producer [j] of queue [i] got accepted. *)
Lemma xproducer sch s i j : x_run (x_init num sz rem todo) sch = Some s ->
  subseq (of_producer i j (xsub dec (x_trace s))) (map dec (nth j (todo i) [])).
Proof.
  intro R. apply xrefines in R. pose proof (reach_inv s i R) as [_ B]. destruct R as [_ PR RO _ _]. specialize (B (S j)). rewrite <- PR in B. unfold ops in B. cbn [nth] in B.
  change (@nil mop) with (map M_ins []) in B. rewrite map_nth in B.
  assert (S : subseq (of_producer i j (xsub dec (x_trace s))) (map (fun o => match o with M_ins x => dec x | M_rem => dec [] end) (unl_by (S j) (xat i (x_trace s))))).
  { clear - RO. induction RO as [|e l RX _ IH]; [constructor|]. change (xsub dec (e :: l)) with (xsub_at dec e ++ xsub dec l). change (e :: l) with ([e] ++ l) at 1.
    rewrite xat_app, unl_by_app, map_app. unfold of_producer. rewrite filter_app, map_app. fold (of_producer i j (xsub dec l)).
    destruct e as [k [|[[|u] v] o r|]| |]; try (cbn; destruct (Nat.eqb k i); exact IH); try exact IH.
    destruct o, r; cbn in RX; try contradiction. cbn [xat flat_map xsub_at]. destruct (Nat.eqb k i) eqn:EK; cbn [unl_by flat_map app fst].
    - change (Nat.eqb (S u) (S j)) with (Nat.eqb u j). destruct ok; cbn; rewrite ?EK; destruct (Nat.eqb u j); cbn; try (constructor; exact IH); exact IH.
    - destruct ok; cbn; rewrite ?EK; cbn; exact IH. }
  assert (M : map dec (nth j (todo i) []) = map (fun o => match o with M_ins x => dec x | M_rem => dec [] end) (map M_ins (nth j (todo i) []))) by (rewrite map_map; reflexivity).
  rewrite M, <- B, map_app. clear - S. revert S. generalize (map (fun o => match o with M_ins x => dec x | M_rem => dec [] end) (rest_of (x_queues s i) (Datatypes.S j))). intros r S.
  induction S; cbn; try (constructor; assumption). induction r; constructor; assumption.
Qed.
End SYS.

(** The locked queue: invariant of every schedule, and linearizability. *)
From Verif Require Import Bytes Bytes_proofs Queue QueueMutex SpecQueue Queue_proofs.
Local Open Scope nat_scope.

Lemma nth_error_set_same {A} (a : A) : forall l i, i < length l -> nth_error (set_nth i a l) i = Some a.
Proof. induction l; intros [|i] L; cbn in *; try lia; auto. apply IHl. lia. Qed.
Lemma nth_error_set_other {A} (a : A) : forall l i j, i <> j -> nth_error (set_nth i a l) j = nth_error l j.
Proof. induction l; intros [|i] [|j] N; cbn; try reflexivity; try lia. apply IHl. lia. Qed.
Lemma nth_error_lt {A} (l : list A) i a : nth_error l i = Some a -> i < length l.
Proof. intro H. apply nth_error_Some. congruence. Qed.

(** ** The sequential history *)
Definition unlocks (tr : list mev) : list (callid * mop * mres) :=
  flat_map (fun e => match e with ME_unlock c o r => [(c, o, r)] | _ => [] end) tr.
Lemma unlocks_app a b : unlocks (a ++ b) = unlocks a ++ unlocks b. Proof. apply flat_map_app. Qed.
Lemma in_unlocks c o r tr : In (c, o, r) (unlocks tr) <-> In (ME_unlock c o r) tr.
Proof.
  unfold unlocks. rewrite in_flat_map. split.
  - intros (e & I & J). destruct e; cbn in J; try contradiction. destruct J as [J|[]]. injection J as -> -> ->. exact I.
  - intro I. eexists. split; [exact I|]. left. reflexivity.
Qed.

Fixpoint fifo_run (cap : nat) (q : list bytes) (l : list (callid * mop * mres)) : list bytes :=
  match l with [] => q | (_, o, _) :: l' => fifo_run cap (snd (fifo_op cap q o)) l' end.
Lemma fifo_run_app cap a : forall q b, fifo_run cap q (a ++ b) = fifo_run cap (fifo_run cap q a) b.
Proof. induction a as [|[[c o] r] a IH]; intros; cbn; auto. Qed.
Lemma fifo_history_app cap a : forall q b, fifo_history cap q (a ++ b) <-> fifo_history cap q a /\ fifo_history cap (fifo_run cap q a) b.
Proof. induction a as [|[[c o] r] a IH]; intros; cbn; [intuition|]. rewrite IH. intuition. Qed.

(** ** Order of events *)
Definition mev_ok (tr : list mev) (e : mev) : Prop :=
  match e with
  | ME_call c _ => forall o, ~ In (ME_call c o) tr
  | ME_unlock c o r => In (ME_call c o) tr /\ forall o r, ~ In (ME_unlock c o r) tr
  | ME_return c o r => In (ME_unlock c o r) tr
  end.
Definition mtrace_ok (tr : list mev) : Prop := forall l1 e l2, tr = l1 ++ e :: l2 -> mev_ok l1 e.

Lemma mtrace_snoc tr e : mtrace_ok tr -> mev_ok tr e -> mtrace_ok (tr ++ [e]).
Proof.
  intros T E l1 f l2 H. destruct l2 as [|g l2] using rev_ind.
  - apply app_inj_tail in H. destruct H as [-> ->]. exact E.
  - clear IHl2. rewrite app_comm_cons, app_assoc in H. apply app_inj_tail in H. destruct H as [H _]. eapply T. exact H.
Qed.

Lemma unlocks_nodup tr : mtrace_ok tr -> NoDup (map (fun x => fst (fst x)) (unlocks tr)).
Proof.
  induction tr as [|e tr IH] using rev_ind; intro T; [constructor|].
  assert (T' : mtrace_ok tr).
  { intros l1 f l2 H. apply (T l1 f (l2 ++ [e])). rewrite H, <- app_assoc. reflexivity. }
  specialize (IH T'). rewrite unlocks_app, map_app.
  destruct e as [|c o r|]; cbn; rewrite ?app_nil_r; auto.
  specialize (T tr (ME_unlock c o r) [] eq_refl). destruct T as [_ T].
  apply NoDup_rev in IH. rewrite <- (rev_involutive (_ ++ _)). apply NoDup_rev. rewrite rev_app_distr. cbn. constructor; [|exact IH].
  rewrite <- in_rev. intro I. apply in_map_iff in I. destruct I as ([[c' o'] r'] & E & I). cbn in E. subst c'.
  apply in_unlocks in I. apply (T _ _ I).
Qed.

Lemma linearizable_of cap tr : mtrace_ok tr -> fifo_history cap [] (unlocks tr) -> linearizable cap tr.
Proof.
  intros T H. exists (unlocks tr). split; [exact H|]. split; [apply unlocks_nodup, T|]. split; [|split].
  - intros c o r I. apply in_unlocks. apply in_split in I. destruct I as (l1 & l2 & E). pose proof (T _ _ _ E) as X. cbn in X. subst tr.
    apply in_or_app. auto.
  - intros c o r I. apply in_unlocks in I. apply in_split in I. destruct I as (l1 & l2 & E). pose proof (T _ _ _ E) as X. cbn in X. subst tr.
    apply in_or_app. tauto.
  - intros c o r c' o' r' (l1 & l2 & l3 & E) I. pose proof (T _ _ _ E) as X. cbn in X.
    apply in_unlocks in I.
    assert (Y : forall o0, ~ In (ME_call c' o0) (l1 ++ ME_return c o r :: l2)).
    { apply (T (l1 ++ ME_return c o r :: l2) (ME_call c' o') l3). rewrite E, <- app_assoc. reflexivity. }
    assert (J : In (ME_unlock c' o' r') l3).
    { rewrite E in I. rewrite app_comm_cons, app_assoc in I. apply in_app_or in I. destruct I as [I|[I|I]]; [exfalso|discriminate|exact I].
      apply in_split in I. destruct I as (m1 & m2 & F).
      assert (In (ME_call c' o') m1).
      { apply (T m1 (ME_unlock c' o' r') (m2 ++ ME_call c' o' :: l3)). rewrite E, app_comm_cons, app_assoc, F, <- app_assoc. reflexivity. }
      apply (Y o'). rewrite F. apply in_or_app. auto. }
    apply in_split in X. destruct X as (a1 & a2 & ->). apply in_split in J. destruct J as (b1 & b2 & ->).
    exists (unlocks a1), (unlocks (a2 ++ ME_return c o r :: l2 ++ ME_call c' o' :: b1)), (unlocks b2).
    rewrite E. repeat (rewrite <- app_assoc; cbn [app]). rewrite unlocks_app. f_equal. cbn. f_equal.
    repeat (rewrite unlocks_app; cbn). repeat (rewrite <- app_assoc; cbn [app]). reflexivity.
Qed.

(** ** The invariant *)
Definition op_sized (sz : nat) (o : mop) : Prop := match o with M_ins x => length x = sz | M_rem => True end.

Section Mutex.
Variable num : N.
Variable sz : nat.
Hypothesis QS : queue_size num.
Hypothesis FIT : (num * N.of_nat sz <= 2 ^ 32)%N.
Let nn := N.to_nat num.
Let cap := nn - 1.
Notation idx := (idx num).
Notation cell := (cell num sz).

Record phys (data : bytes) (hd tl : N) (q : list bytes) (T : nat) : Prop := {
  ph_len : length data = nn * sz;
  ph_hd : hd = idx (T + length q);
  ph_tl : tl = idx T;
  ph_cap : length q <= cap;
  ph_szs : Forall (fun x => length x = sz) q;
  ph_data : forall j i, j < length q -> i < sz -> nth (cell (T + j) i) data x00 = nth i (nth j q []) x00 }.

(** What holds while a thread is at [pc] in the critical section. *)
Definition cs_ok (data : bytes) (hd tl : N) (q : list bytes) (pc : mpc) : Prop :=
  match pc with
  | M_head _ => exists T, phys data hd tl q T
  | M_tail _ h => h = hd /\ exists T, phys data hd tl q T
  | M_icopy x h sp k => h = hd /\ k <= sz /\ length q < cap /\ sp = N.of_nat (cap - length q) /\
      exists T, phys data hd tl q T /\ forall i, i < k -> nth (cell (T + length q) i) data x00 = nth i x x00
  | M_rcopy t c got => t = tl /\ length got <= sz /\ c = lenN q /\
      exists x q', q = x :: q' /\ got = firstn (length got) x /\ exists T, phys data hd tl q T
  | M_unlock o r => exists q', fifo_op cap q o = (r, q') /\ exists T, phys data hd tl q' T
  | _ => False
  end.

Definition pc_op (pc : mpc) : option mop :=
  match pc with
  | M_idle => None
  | M_lock o | M_head o | M_tail o _ | M_unlock o _ | M_return o _ => Some o
  | M_icopy x _ _ _ => Some (M_ins x)
  | M_rcopy _ _ _ => Some M_rem
  end.
Definition in_cs (pc : mpc) : Prop := match pc with M_idle | M_lock _ | M_return _ _ => False | _ => True end.

Record thread_ok (tr : list mev) (lk : option nat) (i : nat) (t : mthread) : Prop := {
  t_todo : Forall (op_sized sz) (m_todo t);
  t_op : forall o, pc_op (m_pc t) = Some o -> op_sized sz o /\ In (ME_call (i, m_done t) o) tr;
  t_cs : in_cs (m_pc t) <-> lk = Some i;
  t_ret : forall o r, m_pc t = M_return o r -> In (ME_unlock (i, m_done t) o r) tr;
  t_calls : forall k o, In (ME_call (i, k) o) tr -> k < m_done t \/ k = m_done t /\ pc_op (m_pc t) = Some o;
  t_unl : forall k o r, In (ME_unlock (i, k) o r) tr -> k < m_done t \/ k = m_done t /\ m_pc t = M_return o r }.

Definition minv (s : mstate) : Prop :=
  m_num s = num /\ m_sz s = sz /\ m_oob s = false /\
  mtrace_ok (m_trace s) /\ fifo_history cap [] (unlocks (m_trace s)) /\
  (forall i t, nth_error (m_threads s) i = Some t -> thread_ok (m_trace s) (m_lk s) i t) /\
  let q := fifo_run cap [] (unlocks (m_trace s)) in
  match m_lk s with
  | None => exists T, phys (m_data s) (m_hd s) (m_tl s) q T
  | Some i => exists t, nth_error (m_threads s) i = Some t /\ cs_ok (m_data s) (m_hd s) (m_tl s) q (m_pc t)
  end.

Lemma m_nn_big : 2 <= nn.
Proof. pose proof (num_bounds num QS). unfold nn. lia. Qed.

Lemma trace_log s e : m_trace (m_set_log s e) = m_trace s ++ [e].
Proof. reflexivity. Qed.

(** Other threads are unaffected by an event of thread [i]. *)
Definition ev_tid (e : mev) : nat := match e with ME_call c _ => fst c | ME_unlock c _ _ => fst c | ME_return c _ _ => fst c end.
Lemma thread_other tr lk lk' j t e : thread_ok tr lk j t -> ev_tid e <> j -> (lk = Some j <-> lk' = Some j) -> thread_ok (tr ++ [e]) lk' j t.
Proof.
  intros [] N L. constructor; auto.
  - intros o H. destruct (t_op0 _ H). split; [assumption|]. apply in_or_app. auto.
  - rewrite t_cs0. exact L.
  - intros o r H. apply in_or_app. left. eauto.
  - intros k o I. apply in_app_or in I. destruct I as [I|[I|[]]]; [eauto|]. subst e. cbn in N. lia.
  - intros k o r I. apply in_app_or in I. destruct I as [I|[I|[]]]; [eauto|]. subst e. cbn in N. lia.
Qed.
Lemma thread_lk tr lk lk' j t : thread_ok tr lk j t -> (lk = Some j <-> lk' = Some j) -> thread_ok tr lk' j t.
Proof. intros [] L. constructor; auto. rewrite t_cs0. exact L. Qed.

(** A silent move of thread [i] inside the critical section. *)
Lemma thread_move tr i t pc : thread_ok tr (Some i) i t -> in_cs (m_pc t) -> in_cs pc -> pc_op pc = pc_op (m_pc t) ->
  thread_ok tr (Some i) i (mk_mt (m_todo t) (m_done t) pc).
Proof.
  intros [] C C' O. constructor; cbn; auto.
  - rewrite O. auto.
  - tauto.
  - intros o r ->. destruct C'.
  - rewrite O. auto.
  - intros k o r I. destruct (t_unl0 _ _ _ I) as [?|[? E]]; [auto|]. rewrite E in C. destruct C.
Qed.

Lemma minv_move s i t pc d h tl oob :
  minv s -> nth_error (m_threads s) i = Some t -> in_cs (m_pc t) -> in_cs pc -> pc_op pc = pc_op (m_pc t) ->
  oob = false -> cs_ok d h tl (fifo_run cap [] (unlocks (m_trace s))) pc ->
  minv (m_set_q (m_thread s i (mk_mt (m_todo t) (m_done t) pc)) d h tl oob).
Proof.
  intros (EN & ES & EO & TO & FH & TH & Q) E C C' O -> K. cbv zeta in Q.
  assert (LK : m_lk s = Some i) by (apply (t_cs _ _ _ _ (TH _ _ E)); exact C).
  split; [exact EN|]. split; [exact ES|]. split; [cbn; rewrite EO; reflexivity|]. split; [exact TO|]. split; [exact FH|]. split.
  - cbn [m_set_q m_thread m_threads m_lk]. change (m_trace (m_set_q _ _ _ _ _)) with (m_trace s). intros j t' E'.
    destruct (Nat.eq_dec i j) as [<-|N].
    + rewrite nth_error_set_same in E' by (eapply nth_error_lt; exact E). injection E' as <-. rewrite LK. apply thread_move; auto.
      rewrite <- LK. auto.
    + rewrite nth_error_set_other in E' by exact N. auto.
  - cbv zeta. cbn [m_set_q m_thread m_threads m_lk m_data m_hd m_tl]. change (m_trace (m_set_q _ _ _ _ _)) with (m_trace s). rewrite LK.
    eexists. split; [apply nth_error_set_same; eapply nth_error_lt; exact E|]. exact K.
Qed.

Lemma move_same s i t pc : m_oob s = false -> m_thread s i (mk_mt (m_todo t) (m_done t) pc) =
  m_set_q (m_thread s i (mk_mt (m_todo t) (m_done t) pc)) (m_data s) (m_hd s) (m_tl s) false.
Proof. intro H. unfold m_thread, m_set_q. cbn. rewrite H. reflexivity. Qed.

Lemma firstn_snoc {A} (d : A) : forall l k, k < length l -> firstn (S k) l = firstn k l ++ [nth k l d].
Proof. induction l; intros [|k] H; cbn in *; try lia; auto. f_equal. apply IHl. lia. Qed.

Lemma m_step_inv s i : minv s -> minv (m_step s i).
Proof.
  intro I. unfold m_step. destruct (nth_error (m_threads s) i) as [t|] eqn:E; [|exact I].
  pose proof m_nn_big as NB. pose proof I as (EN & ES & EO & TO & FH & TH & Q). cbv zeta in Q. pose proof (TH _ _ E) as TI.
  destruct (m_pc t) as [|o|o|o h|x h sp k|tl c got|o r|o r] eqn:PC; cbv zeta.
  - (* call *)
    destruct (m_todo t) as [|o todo] eqn:TD; [exact I|].
    split; [exact EN|]. split; [exact ES|]. split; [exact EO|]. rewrite trace_log. change (m_trace (m_thread _ _ _)) with (m_trace s).
    split; [|split; [|split]].
    + apply mtrace_snoc; [exact TO|]. intros o' J. destruct (t_calls _ _ _ _ TI _ _ J) as [?|[_ X]]; [lia|]. rewrite PC in X. discriminate.
    + rewrite unlocks_app. cbn. rewrite app_nil_r. exact FH.
    + cbn [m_set_log m_thread m_threads m_lk]. intros j t' E'. destruct (Nat.eq_dec i j) as [<-|N].
      * rewrite nth_error_set_same in E' by (eapply nth_error_lt; exact E). injection E' as <-. destruct TI as [T1 T2 T3 T4 T5 T6].
        rewrite PC in *. rewrite TD in *. inversion T1; subst. constructor; cbn; auto.
        -- intros o' X. injection X as <-. split; [assumption|]. apply in_or_app. right. left. reflexivity.
        -- discriminate.
        -- intros k o' J. apply in_app_or in J. destruct J as [J|[J|[]]].
           ++ destruct (T5 _ _ J) as [?|[_ X]]; [auto|discriminate].
           ++ injection J as <- <-. auto.
        -- intros k o' r' J. apply in_app_or in J. destruct J as [J|[J|[]]]; [|discriminate].
           destruct (T6 _ _ _ J) as [?|[_ X]]; [auto|discriminate].
      * rewrite nth_error_set_other in E' by exact N. eapply thread_other; eauto. tauto.
    + cbv zeta. rewrite unlocks_app. cbn [unlocks flat_map]. rewrite app_nil_r. cbn [m_set_log m_thread m_threads m_lk m_data m_hd m_tl].
      destruct (m_lk s) as [j|] eqn:LK; [|exact Q]. destruct Q as (t' & E' & K). exists t'. split; [|exact K].
      rewrite nth_error_set_other; [exact E'|]. intros <-. rewrite E in E'. injection E' as <-. rewrite PC in K. exact K.
  - (* lock *)
    destruct (m_lk s) as [j|] eqn:LK; [exact I|].
    split; [exact EN|]. split; [exact ES|]. split; [exact EO|]. split; [exact TO|]. split; [exact FH|]. split.
    + cbn [m_set_lock m_thread m_threads m_lk]. change (m_trace (m_set_lock _ _)) with (m_trace s). intros j t' E'. destruct (Nat.eq_dec i j) as [<-|N].
      * rewrite nth_error_set_same in E' by (eapply nth_error_lt; exact E). injection E' as <-. destruct TI as [T1 T2 T3 T4 T5 T6].
        rewrite PC in *. constructor; cbn; auto; try discriminate; try tauto.
        intros k o' r' J. destruct (T6 _ _ _ J) as [?|[_ X]]; [auto|discriminate].
      * rewrite nth_error_set_other in E' by exact N. eapply thread_lk; eauto. split; intro X; [discriminate|]. injection X as X. lia.
    + cbv zeta. cbn [m_set_lock m_thread m_threads m_lk m_data m_hd m_tl]. eexists. split; [apply nth_error_set_same; eapply nth_error_lt; exact E|].
      exact Q.
  - (* read head *)
    assert (LK : m_lk s = Some i) by (apply (t_cs _ _ _ _ TI); rewrite PC; exact Logic.I). rewrite LK in Q. destruct Q as (t' & E' & K).
    rewrite E in E'. injection E' as <-. rewrite PC in K.
    rewrite move_same by exact EO. apply minv_move; rewrite ?PC; cbn [in_cs pc_op cs_ok fifo_op]; auto.
  - (* read tail *)
    assert (LK : m_lk s = Some i) by (apply (t_cs _ _ _ _ TI); rewrite PC; exact Logic.I). rewrite LK in Q. destruct Q as (t' & E' & K).
    rewrite E in E'. injection E' as <-. rewrite PC in K. destruct K as (-> & T & P).
    assert (OS : op_sized sz o) by (apply (t_op _ _ _ _ TI); rewrite PC; reflexivity).
    destruct P as [P1 P2 P3 P4 P5 P6]. rewrite P2, P3, EN. set (q := fifo_run cap [] (unlocks (m_trace s))) in *.
    destruct o as [x|].
    + rewrite q_space_idx by (try assumption; unfold cap, nn in *; lia).
      replace (N.to_nat num - 1 - (T + length q - T)) with (cap - length q) by (unfold cap, nn; lia).
      destruct (N.leb_spec 1 (N.of_nat (cap - length q))) as [L|L].
      * rewrite move_same by exact EO. apply minv_move; rewrite ?PC; cbn [in_cs pc_op cs_ok fifo_op]; auto. fold q. repeat split; try (symmetry; assumption); try lia.
        exists T. split; [constructor; auto|]. intros; lia.
      * rewrite move_same by exact EO. apply minv_move; rewrite ?PC; cbn [in_cs pc_op cs_ok fifo_op]; auto. fold q. exists q. split.
        -- destruct (Nat.ltb_spec (length q) cap); [lia|]. replace (cap - length q) with 0 by lia. reflexivity.
        -- exists T. constructor; auto.
    + rewrite q_count_idx by (try assumption; unfold cap, nn in *; lia).
      replace (T + length q - T) with (length q) by lia.
      destruct (N.leb_spec 1 (N.of_nat (length q))) as [L|L].
      * rewrite move_same by exact EO. apply minv_move; rewrite ?PC; cbn [in_cs pc_op cs_ok fifo_op]; auto. fold q. repeat split; try (symmetry; assumption); try (cbn; lia).
        assert (EQ : exists y q', q = y :: q') by (destruct q as [|y q']; [cbn in L; lia|eauto]). destruct EQ as (y & q' & EQ). exists y, q'. split; [exact EQ|]. split; [reflexivity|]. exists T. constructor; auto.
      * rewrite move_same by exact EO. apply minv_move; rewrite ?PC; cbn [in_cs pc_op cs_ok fifo_op]; auto. fold q. exists q. split.
        -- destruct q; [reflexivity|cbn in L; lia].
        -- exists T. constructor; auto.
  - (* copy in *)
    assert (LK : m_lk s = Some i) by (apply (t_cs _ _ _ _ TI); rewrite PC; exact Logic.I). rewrite LK in Q. destruct Q as (t' & E' & K).
    rewrite E in E'. injection E' as <-. rewrite PC in K. destruct K as (EH & KL & QL & -> & T & P & PART).
    assert (OS : op_sized sz (M_ins x)) by (apply (t_op _ _ _ _ TI); rewrite PC; reflexivity). cbn in OS.
    destruct P as [P1 P2 P3 P4 P5 P6]. set (q := fifo_run cap [] (unlocks (m_trace s))) in *. rewrite P2 in EH. subst h. rewrite ES, EN.
    destruct (Nat.ltb_spec k sz) as [L|L].
    + rewrite q_addr_idx by auto. pose proof (cell_lt num QS sz FIT (T + length q) k L) as CL.
      apply minv_move; rewrite ?PC; auto; [cbn; auto| | |].
      * reflexivity.
      * apply Nat.leb_gt. rewrite P1. exact CL.
      * fold q. cbn [cs_ok]. split; [symmetry; exact P2|]. split; [lia|]. split; [exact QL|]. split; [reflexivity|]. exists T. split.
        -- constructor; auto; [rewrite put_byte_length; exact P1|]. intros j i0 J L0. rewrite nth_put_other; [auto|].
           intro X. apply cell_inj in X; auto. destruct X as [X _]. revert X. apply not_eq_sym. apply (idx_ne num QS sz FIT); unfold cap, nn in *; lia.
        -- intros i0 L0. destruct (Nat.eq_dec i0 k) as [->|NE].
           ++ apply nth_put_same. rewrite P1. exact CL.
           ++ rewrite nth_put_other; [apply PART; lia|]. intro X. apply cell_inj in X; auto; lia.
    + rewrite q_next_idx by assumption. apply minv_move; rewrite ?PC; cbn [in_cs pc_op cs_ok fifo_op]; auto. fold q. exists (q ++ [x]). split.
      * destruct (Nat.ltb_spec (length q) cap); [|lia]. f_equal. f_equal. lia.
      * exists T. constructor; rewrite ?app_length; cbn [length]; auto; try lia.
        -- f_equal. lia.
        -- apply Forall_app. split; [exact P5|]. constructor; [exact OS|constructor].
        -- intros j i0 J L0. destruct (Nat.eq_dec j (length q)) as [->|NE].
           ++ rewrite app_nth2, Nat.sub_diag by lia. apply PART. lia.
           ++ rewrite app_nth1 by lia. apply P6; lia.
  - (* copy out *)
    assert (LK : m_lk s = Some i) by (apply (t_cs _ _ _ _ TI); rewrite PC; exact Logic.I). rewrite LK in Q. destruct Q as (t' & E' & K).
    rewrite E in E'. injection E' as <-. rewrite PC in K. destruct K as (-> & KL & -> & x & q' & EQ & EG & T & P).
    destruct P as [P1 P2 P3 P4 P5 P6]. rewrite ES, EN. rewrite EQ in *. rewrite P3. cbn [length] in P2, P4.
    assert (LX : length x = sz) by (inversion P5; assumption).
    destruct (Nat.ltb_spec (length got) sz) as [L|L].
    + rewrite q_addr_idx by auto. pose proof (cell_lt num QS sz FIT T (length got) L) as CL.
      apply minv_move; rewrite ?PC; auto; [cbn; auto| | |].
      * reflexivity.
      * apply Nat.leb_gt. rewrite P1. exact CL.
      * rewrite EQ. cbn [cs_ok]. rewrite app_length. cbn [length]. split; [reflexivity|]. split; [lia|]. split; [reflexivity|].
        exists x, q'. split; [reflexivity|]. split.
        -- replace (length got + 1) with (S (length got)) by lia. rewrite (firstn_snoc x00) by lia. rewrite <- EG. f_equal. f_equal.
           specialize (P6 0 (length got)). rewrite Nat.add_0_r in P6. apply P6; cbn; lia.
        -- exists T. constructor; auto; cbn; lia.
    + rewrite q_next_idx by assumption. apply minv_move; rewrite ?PC; cbn [in_cs pc_op cs_ok fifo_op]; auto. rewrite EQ. exists q'. cbn [fifo_op]. split.
      * f_equal. assert (length got = length x) as X by lia. rewrite X, firstn_all in EG. subst got. f_equal. unfold lenN. cbn [length]. lia.
      * exists (S T). inversion P5; subst. constructor; auto; try (unfold cap, nn in *; lia).
        -- rewrite P2. f_equal. lia.
        -- intros j i0 J L0. specialize (P6 (S j) i0). replace (T + S j) with (S T + j) in P6 by lia. apply P6; cbn; lia.
  - (* unlock *)
    assert (LK : m_lk s = Some i) by (apply (t_cs _ _ _ _ TI); rewrite PC; exact Logic.I). rewrite LK in Q. destruct Q as (t' & E' & K).
    rewrite E in E'. injection E' as <-. rewrite PC in K. destruct K as (q' & F & P).
    split; [exact EN|]. split; [exact ES|]. split; [exact EO|]. rewrite trace_log. change (m_trace (m_set_lock _ _)) with (m_trace s).
    destruct (t_op _ _ _ _ TI o) as [OS CI]; [rewrite PC; reflexivity|].
    split; [|split; [|split]].
    + apply mtrace_snoc; [exact TO|]. split; [exact CI|]. intros o' r' J. destruct (t_unl _ _ _ _ TI _ _ _ J) as [?|[_ X]]; [lia|]. congruence.
    + rewrite unlocks_app. cbn. apply fifo_history_app. split; [exact FH|]. cbn. rewrite F. auto.
    + cbn [m_set_log m_set_lock m_thread m_threads m_lk]. intros j t' E'. destruct (Nat.eq_dec i j) as [<-|N].
      * rewrite nth_error_set_same in E' by (eapply nth_error_lt; exact E). injection E' as <-. destruct TI as [T1 T2 T3 T4 T5 T6].
        rewrite PC in *. constructor; cbn; auto.
        -- intros o' X. injection X as <-. split; [assumption|]. apply in_or_app. auto.
        -- split; [tauto|discriminate].
        -- intros o' r' X. injection X as <- <-. apply in_or_app. right. left. reflexivity.
        -- intros k o' J. apply in_app_or in J. destruct J as [J|[J|[]]]; [|discriminate]. auto.
        -- intros k o' r' J. apply in_app_or in J. destruct J as [J|[J|[]]].
           ++ destruct (T6 _ _ _ J) as [?|[_ X]]; [auto|discriminate].
           ++ injection J as <- <- <-. auto.
      * rewrite nth_error_set_other in E' by exact N. eapply thread_other; eauto. rewrite LK. split; intro X; [injection X as X; lia|discriminate].
    + cbv zeta. rewrite unlocks_app. cbn [unlocks flat_map]. rewrite fifo_run_app. cbn. rewrite F. exact P.
  - (* return *)
    split; [exact EN|]. split; [exact ES|]. split; [exact EO|]. rewrite trace_log. change (m_trace (m_thread _ _ _)) with (m_trace s).
    split; [|split; [|split]].
    + apply mtrace_snoc; [exact TO|]. apply (t_ret _ _ _ _ TI). exact PC.
    + rewrite unlocks_app. cbn. rewrite app_nil_r. exact FH.
    + cbn [m_set_log m_thread m_threads m_lk]. intros j t' E'. destruct (Nat.eq_dec i j) as [<-|N].
      * rewrite nth_error_set_same in E' by (eapply nth_error_lt; exact E). injection E' as <-. destruct TI as [T1 T2 T3 T4 T5 T6].
        rewrite PC in *. constructor; cbn; auto; try discriminate.
        -- intros k o' J. apply in_app_or in J. destruct J as [J|[J|[]]]; [|discriminate]. destruct (T5 _ _ J) as [?|[? _]]; lia.
        -- intros k o' r' J. apply in_app_or in J. destruct J as [J|[J|[]]]; [|discriminate]. destruct (T6 _ _ _ J) as [?|[? _]]; lia.
      * rewrite nth_error_set_other in E' by exact N. eapply thread_other; eauto. tauto.
    + cbv zeta. rewrite unlocks_app. cbn [unlocks flat_map]. rewrite app_nil_r. cbn [m_set_log m_thread m_threads m_lk m_data m_hd m_tl].
      destruct (m_lk s) as [j|] eqn:LK; [|exact Q]. destruct Q as (t' & E' & K). exists t'. split; [|exact K].
      rewrite nth_error_set_other; [exact E'|]. intros <-. rewrite E in E'. injection E' as <-. rewrite PC in K. exact K.
Qed.

Lemma m_run_inv sch : forall s, minv s -> minv (m_run s sch).
Proof. induction sch; intros s I; cbn; [exact I|]. apply IHsch, m_step_inv, I. Qed.

Lemma m_init_inv todo : Forall (Forall (op_sized sz)) todo -> minv (m_init num sz todo).
Proof.
  intro F. pose proof m_nn_big. repeat split.
  - intros l1 e l2 X. destruct l1; discriminate.
  - cbn in H0. rewrite nth_error_map in H0. destruct (nth_error todo i) as [l|] eqn:X; [|discriminate]. injection H0 as <-. cbn.
    rewrite Forall_forall in F. apply F. eapply nth_error_In. exact X.
  - cbn in H0. rewrite nth_error_map in H0. destruct (nth_error todo i) as [l|] eqn:X; [|discriminate]. injection H0 as <-. discriminate.
  - cbn in H0. rewrite nth_error_map in H0. destruct (nth_error todo i) as [l|] eqn:X; [|discriminate]. injection H0 as <-. discriminate.
  - cbn in H0. rewrite nth_error_map in H0. destruct (nth_error todo i) as [l|] eqn:X; [|discriminate]. injection H0 as <-. cbn. tauto.
  - cbn. discriminate.
  - cbn in H0. rewrite nth_error_map in H0. destruct (nth_error todo i) as [l|] eqn:X; [|discriminate]. injection H0 as <-. discriminate.
  - cbn. tauto.
  - cbn. tauto.
  - assert (idx 0 = 0%N) as Z by (apply N.mod_0_l; pose proof (num_bounds num QS); lia).
    cbn. exists 0. constructor; cbn; auto; try lia. rewrite repeat_length. reflexivity.
Qed.

Lemma mutex_linearizable todo sch : Forall (Forall (op_sized sz)) todo ->
  let s := m_run (m_init num sz todo) sch in linearizable cap (m_trace s) /\ m_oob s = false.
Proof.
  intros F s. pose proof (m_run_inv sch _ (m_init_inv todo F)) as (_ & _ & O & T & H & _). split; [|exact O].
  apply linearizable_of; assumption.
Qed.
End Mutex.

(** The input queues (C30-C34, C58). *)
From Verif Require Import Bytes SpecTrace Queue QueueMutex SpecQueue Queue_proofs Queue2_proofs Queue3_proofs Queue4_proofs.
Local Open Scope nat_scope.

(** Standing assumptions on a lock-free queue: it was created, its array does not
    exceed 4 GiB, elements have the queue's element size. *)
Definition spsc_setting (num : N) (sz : nat) (todo : list bytes) : Prop :=
  (num < 2 ^ 32)%N /\ queue_init_ok num = true /\ (num * N.of_nat sz <= 2 ^ 32)%N /\ Forall (fun x => length x = sz) todo.

(** C30: whatever the interleaving of memory accesses and however long stores
    stay in the store buffers, what was removed is a prefix of what was inserted,
    byte for byte; nothing is made up; no access leaves the array. *)
Theorem C30_spsc_fifo :
  forall num sz todo sch, spsc_setting num sz todo ->
    let s := q_run (q_init num sz [todo]) sch in let tr := q_trace s in
    (exists rest, inserted tr = removed tr ++ rest) /\ subseq (inserted tr) todo /\ q_oob s = false.
Proof. intros num sz todo sch (R & I & F & T). exact (spsc_fifo num sz todo I R F T sch). Qed.
Print Assumptions C30_spsc_fifo.

(** C30: nothing is stuck: a remove that reports an empty queue after every insert
    had become visible has received everything. *)
Theorem C30_spsc_nothing_stuck :
  forall num sz todo sch, spsc_setting num sz todo ->
    let tr := q_trace (q_run (q_init num sz [todo]) sch) in
    forall l1 c l2, tr = l1 ++ E_empty c :: l2 -> seen l1 = length (inserted l1) -> removed l1 = inserted l1.
Proof. intros num sz todo sch (R & I & F & T). exact (spsc_drained num sz todo I R F T sch). Qed.
Print Assumptions C30_spsc_nothing_stuck.

Definition ex_sched : list qact :=
  [A_prod 0; A_prod 0; A_prod 0; A_prod 0; A_cons; A_pflush 0; A_cons; A_prod 0; A_pflush 0; A_prod 0; A_prod 0; A_pflush 0; 
   A_cons; A_cons; A_cons; A_cons; A_cons; A_cflush; A_prod 0; A_prod 0;  A_prod 0; A_prod 0; A_prod 0;
   A_pflush 0; A_pflush 0; A_pflush 0; A_cons; A_cons; A_cons; A_cons; A_cons; A_cflush; A_cons; A_cons].
Definition ex_items : list bytes := [[x61; x62]; [x63; x64]; [x65; x66]].
Example C30_case :
  spsc_setting 2 2 ex_items /\
  let tr := q_trace (q_run (q_init 2 2 [ex_items]) ex_sched) in
  inserted tr = [[x61; x62]; [x65; x66]] /\ removed tr = [[x61; x62]; [x65; x66]] /\ refusals tr = 1 /\
  exists l1 l2, tr = l1 ++ E_empty 0 :: l2 /\ seen l1 = 2 /\ removed l1 = inserted l1 /\ length (removed l1) = 2.
Proof.
  split; [|split; [vm_compute; reflexivity|split; [vm_compute; reflexivity|split; [vm_compute; reflexivity|]]]].
  - split; [vm_compute; reflexivity|]. split; [reflexivity|]. split; [vm_compute; discriminate|]. repeat constructor.
  - exists (removelast (q_trace (q_run (q_init 2 2 [ex_items]) ex_sched))), []. vm_compute. repeat split; reflexivity.
Qed.

(** C31: at most [num - 1] elements at any time. *)
Theorem C31_capacity :
  forall num sz todo sch, spsc_setting num sz todo ->
    let tr := q_trace (q_run (q_init num sz [todo]) sch) in
    length (inserted tr) <= length (removed tr) + (N.to_nat num - 1).
Proof. intros num sz todo sch (R & I & F & T). exact (proj1 (spsc_capacity num sz todo I R F T sch)). Qed.
Print Assumptions C31_capacity.

(** C31: insert goes ahead or refuses exactly by the room left as far as the
    consumer's position is visible, and reports that room; remove goes ahead or
    reports empty exactly by what was visible when it looked, and reports how much
    is left.  [ev_ok] (SpecQueue.v) spells this out per event. *)
Theorem C31_answers_are_exact :
  forall num sz todo sch, spsc_setting num sz todo ->
    let tr := q_trace (q_run (q_init num sz [todo]) sch) in
    forall l1 e l2, tr = l1 ++ e :: l2 -> ev_ok num l1 e.
Proof. intros num sz todo sch (R & I & F & T). exact (proj2 (spsc_capacity num sz todo I R F T sch)). Qed.
Print Assumptions C31_answers_are_exact.

Example C31_case :
  q_trace (q_run (q_init 2 2 [ex_items]) ex_sched) =
  [E_accept 0; E_chead; E_empty 0; E_inserted [x61; x62]; E_refuse 0; E_published; E_chead; E_take 0; E_removed [x61; x62]; E_freed;
   E_accept 0; E_inserted [x65; x66]; E_published; E_chead; E_take 0; E_removed [x65; x66]; E_freed; E_chead; E_empty 0].
Proof. vm_compute. reflexivity. Qed.

(** C32: two producers on a lock-free queue: both inserts report success, all
    stores have reached memory, yet the consumer gets one element and then finds
    the queue empty. *)
Theorem C32_two_producers_lose_an_element :
  exists sch, let s := q_run (q_init 4 1 [[[x61]]; [[x62]]]) sch in
    inserted (q_trace s) = [[x61]; [x62]] /\ removed (q_trace s) = [[x62]] /\
    map p_buf (q_prods s) = [[]; []] /\ map p_todo (q_prods s) = [[]; []] /\
    exists l1, q_trace s = l1 ++ [E_freed; E_chead; E_empty 0].
Proof.
  exists [A_prod 0; A_prod 1; A_prod 0; A_prod 1; A_prod 0; A_prod 0; A_prod 1; A_prod 1; A_pflush 0; A_pflush 0; A_pflush 1; A_pflush 1;
          A_cons; A_cons; A_cons; A_cons; A_cflush; A_cons; A_cons].
  split; [vm_compute; reflexivity|]. split; [vm_compute; reflexivity|]. split; [vm_compute; reflexivity|]. split; [vm_compute; reflexivity|].
  exists [E_accept 2; E_accept 2; E_inserted [x61]; E_inserted [x62]; E_published; E_published; E_chead; E_take 0; E_removed [x62]].
  vm_compute. reflexivity.
Qed.
Print Assumptions C32_two_producers_lose_an_element.

(** C33: the locked queue is linearizable for any number of threads, each with any
    list of calls, in every interleaving; no access leaves the array. *)
Theorem C33_mutex_queue_linearizable :
  forall num sz todo sch,
    (num < 2 ^ 32)%N -> queue_init_ok num = true -> (num * N.of_nat sz <= 2 ^ 32)%N ->
    Forall (Forall (fun o => match o with M_ins x => length x = sz | M_rem => True end)) todo ->
    let s := m_run (m_init num sz todo) sch in
    linearizable (N.to_nat num - 1) (m_trace s) /\ m_oob s = false.
Proof. intros num sz todo sch R I F T. exact (mutex_linearizable num sz (proj1 (queue_init_spec num R) I) F todo sch T). Qed.
Print Assumptions C33_mutex_queue_linearizable.

(** Three threads; the third blocks on the lock, two inserts and a remove overlap. *)
Example C33_case :
  let s := m_run (m_init 2 1 [[M_ins [x61]; M_rem]; [M_ins [x62]]; [M_rem]])
    [0; 1; 2; 0; 0; 1; 2; 0; 0; 2; 0; 0; 2; 2; 2; 1; 2; 2; 2; 2; 1; 0; 1; 1; 1; 1; 1; 1; 0; 0; 0; 0; 0; 0; 0; 0; 0; 0; 0] in
  m_trace s =
  [ME_call (0, 0) (M_ins [x61]); ME_call (1, 0) (M_ins [x62]); ME_call (2, 0) M_rem;
   ME_unlock (0, 0) (M_ins [x61]) (R_ins true 0);
   ME_unlock (2, 0) M_rem (R_rem (Some [x61]) 0); ME_return (2, 0) M_rem (R_rem (Some [x61]) 0);
   ME_return (0, 0) (M_ins [x61]) (R_ins true 0);
   ME_unlock (1, 0) (M_ins [x62]) (R_ins true 0); ME_return (1, 0) (M_ins [x62]) (R_ins true 0);
   ME_call (0, 1) M_rem; ME_unlock (0, 1) M_rem (R_rem (Some [x62]) 0); ME_return (0, 1) M_rem (R_rem (Some [x62]) 0)].
Proof. vm_compute. reflexivity. Qed.

(** C34: exactly the powers of two from 2 to 2^31 are accepted. *)
Theorem C34_queue_sizes :
  forall num, (num < 2 ^ 32)%N -> queue_init_ok num = true <-> exists k, (1 <= k <= 31)%N /\ num = (2 ^ k)%N.
Proof. exact queue_init_spec. Qed.
Print Assumptions C34_queue_sizes.
Example C34_case : map queue_init_ok [0; 1; 2; 3; 6; 512; 2147483648; 4294967295]%N = [false; false; true; false; false; true; true; false].
Proof. vm_compute. reflexivity. Qed.

(** C58: insert on the lock-free queue never waits: after [sz + 3] steps of the
    producer per element, whatever everybody else does, every insert has been
    answered. *)
Theorem C58_insert_is_wait_free :
  forall num sz todo sch, (sz + 3) * length todo <= prod_actions sch ->
    let tr := q_trace (q_run (q_init num sz [todo]) sch) in length (inserted tr) + refusals tr = length todo.
Proof. exact wait_free. Qed.
Print Assumptions C58_insert_is_wait_free.
Example C58_case :
  let tr := q_trace (q_run (q_init 4 1 [[[x61]; [x62]; [x63]; [x64]; [x65]]]) (repeat (A_prod 0) 20)) in
  length (inserted tr) = 3 /\ refusals tr = 2.
Proof. vm_compute. split; reflexivity. Qed.

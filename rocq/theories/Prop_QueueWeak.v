(** The lock-free queue on weakly ordered memory (C68). *)
From Verif Require Import Bytes SpecTrace Queue QueueWeak SpecQueue Queue5_proofs Prop_Queue.
Local Open Scope nat_scope.

(** C68: stores of the producer may reach memory in any order and the consumer may
    load an element's bytes in any order, even before it has decided to take it, as
    long as store barriers wait for earlier stores and volatile loads are acquire
    loads: what was removed is a prefix of what was inserted, byte for byte. *)
Theorem C68_weak_memory_fifo :
  forall num sz todo sch, spsc_setting num sz todo ->
    let s := w_run (mk_ord true true) (w_init num sz todo) sch in let tr := w_trace s in
    (exists rest, inserted tr = removed tr ++ rest) /\ subseq (inserted tr) todo /\ w_oob s = false.
Proof. intros num sz todo sch (R & I & F & T). exact (weak_fifo num sz todo I R F T sch). Qed.
Print Assumptions C68_weak_memory_fifo.

(** C68: every answer is exact there too, and the capacity holds. *)
Theorem C68_weak_memory_answers :
  forall num sz todo sch, spsc_setting num sz todo ->
    let tr := w_trace (w_run (mk_ord true true) (w_init num sz todo) sch) in
    length (inserted tr) <= length (removed tr) + (N.to_nat num - 1) /\
    forall l1 e l2, tr = l1 ++ e :: l2 -> ev_ok num l1 e.
Proof. intros num sz todo sch (R & I & F & T). exact (weak_answers num sz todo I R F T sch). Qed.
Print Assumptions C68_weak_memory_answers.

(** C68: and nothing is stuck. *)
Theorem C68_weak_memory_nothing_stuck :
  forall num sz todo sch, spsc_setting num sz todo ->
    let tr := w_trace (w_run (mk_ord true true) (w_init num sz todo) sch) in
    forall l1 c l2, tr = l1 ++ E_empty c :: l2 -> seen l1 = length (inserted l1) -> removed l1 = inserted l1.
Proof. intros num sz todo sch (R & I & F & T). exact (weak_drained num sz todo I R F T sch). Qed.
Print Assumptions C68_weak_memory_nothing_stuck.

(** Two elements through a queue of one place; bytes stored and loaded backwards, the
    second insert is refused until the first element's place is free. *)
Definition ex_weak : list wact :=
  [WA_prod; WA_prod; WA_prod; WA_prod; WA_prod; WA_cons; WA_pflush 1; WA_chead; WA_cdata 1; WA_cons; WA_pflush 0; WA_prod;
   WA_cons; WA_pflush 0; WA_chead; WA_cdata 1; WA_prod; WA_prod; WA_prod; WA_cons; WA_cdata 0; WA_cons; WA_cflush;
   WA_prod; WA_prod; WA_prod; WA_prod; WA_pflush 1; WA_pflush 0; WA_prod; WA_pflush 0; WA_prod;
   WA_cons; WA_chead; WA_cons; WA_cdata 1; WA_cdata 0; WA_cons; WA_cflush; WA_cons; WA_chead; WA_cons].
Example C68_case :
  spsc_setting 2 2 ex_items /\
  let tr := w_trace (w_run (mk_ord true true) (w_init 2 2 ex_items) ex_weak) in
  inserted tr = [[x61; x62]; [x65; x66]] /\ removed tr = [[x61; x62]; [x65; x66]] /\ refusals tr = 1 /\
  exists l1, tr = l1 ++ [E_empty 0] /\ seen l1 = length (inserted l1) /\ length (removed l1) = 2.
Proof.
  split; [exact (proj1 C30_case)|]. split; [vm_compute; reflexivity|]. split; [vm_compute; reflexivity|]. split; [vm_compute; reflexivity|].
  exists (removelast (w_trace (w_run (mk_ord true true) (w_init 2 2 ex_items) ex_weak))). vm_compute. repeat split; reflexivity.
Qed.

(** C68: remove has no barrier of its own between reading the producer's position and
    reading the element: where volatile loads are not acquire loads, it returns bytes
    that were never inserted. *)
Theorem C68_acquire_loads_needed :
  exists num sz todo sch, spsc_setting num sz todo /\
    let tr := w_trace (w_run (mk_ord false true) (w_init num sz todo) sch) in
    inserted tr = [[x61]] /\ removed tr = [[x00]].
Proof.
  exists 2%N, 1, [[x61]], [WA_cons; WA_cdata 0; WA_prod; WA_prod; WA_prod; WA_pflush 0; WA_prod; WA_pflush 0; WA_chead; WA_cons; WA_cons].
  split; [|vm_compute; split; reflexivity].
  split; [vm_compute; reflexivity|]. split; [reflexivity|]. split; [vm_compute; discriminate|]. repeat constructor.
Qed.
Print Assumptions C68_acquire_loads_needed.

(** C68: the store barrier of insert is needed as well. *)
Theorem C68_store_barrier_needed :
  exists num sz todo sch, spsc_setting num sz todo /\
    let tr := w_trace (w_run (mk_ord true false) (w_init num sz todo) sch) in
    inserted tr = [[x61]] /\ removed tr = [[x00]].
Proof.
  exists 2%N, 1, [[x61]], [WA_prod; WA_prod; WA_prod; WA_prod; WA_pflush 1; WA_cons; WA_chead; WA_cons; WA_cdata 0; WA_cons].
  split; [|vm_compute; split; reflexivity].
  split; [vm_compute; reflexivity|]. split; [reflexivity|]. split; [vm_compute; discriminate|]. repeat constructor.
Qed.
Print Assumptions C68_store_barrier_needed.

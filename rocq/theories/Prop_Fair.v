(** C82: the I/O thread serves all its queues in turn and sleeps only when all
    of them were just found empty. *)
From Coq Require Import Permutation.
From Verif Require Import Bytes Spec SpecTrace Io Io_proofs SpecStream Control Rdwr Writer Api SpecApi Queue
  Iothr SpecIothr SpecFair Iothr_proofs Iothr3_proofs Iothr4_proofs Iothr8_proofs Prop_Iothr.
Local Open Scope nat_scope.

(** A thread with two queues of capacity 4, batches of at most two entries: two
    entries in queue 1, none in queue 0; the thread takes the first, the second in
    the next pass, then finds both queues empty, waits, is signalled, and stops. *)
Definition fair_H : history := weave (iothr_thr 20 10 ex_t)
  ([clock1 10; ok1; ok1] ++ ins 1 ex_a ++ ins 1 ex_b ++
   [bool1 false; none1; got ex_a; bool1 false; none1; got ex_b; bool1 false; none1; none1; clock1 11; bool1 false; inl S_shutdown; bool1 true; none1; none1; ok1; unit1; unit1; ok1; ok1]).
Example fair_runs : exists s o, runs (iothr_thr 20 10 ex_t) (thread_of fair_H) o /\ sys_run 4 sys_init fair_H = Some s.
Proof.
  do 2 eexists. split; [apply (follow_sound (iothr_thr 20 10 ex_t) (map snd (thread_of fair_H))); vm_compute; reflexivity|].
  vm_compute. reflexivity.
Qed.

(** The k-th look at a queue, from the start of the thread to its end, is a look
    at queue (k mod number of queues). *)
Theorem C82_round_robin : forall fuel dfuel t tr o,
  runs (iothr_thr fuel dfuel t) tr o -> round_robin (queues t) (polls tr).
Proof. intros fuel dfuel t tr o R. exact (proj1 (thread_anywhere _ _ _ _ _ R)). Qed.
Print Assumptions C82_round_robin.
Example C82_looks : polls (thread_of fair_H) = [0; 1; 0; 1; 0; 1; 0; 1].
Proof. vm_compute. reflexivity. Qed.

(** Each wait is for the configured flush timeout, and comes right after a look
    at every queue that found all of them empty; only the clock is read between. *)
Theorem C82_waits_when_empty : forall fuel dfuel t tr o before d a after,
  runs (iothr_thr fuel dfuel t) tr o -> tr = before ++ (QWait d, a) :: after ->
  d = io_flush_timeout (t_opt t) /\
  exists earlier now, before = earlier ++ empty_pass (queues t) ++ [(QClock, AClock now)].
Proof. intros fuel dfuel t tr o before d a after R. exact (proj2 (thread_anywhere _ _ _ _ _ R) before d a after). Qed.
Print Assumptions C82_waits_when_empty.
Example C82_a_wait : exists before after, thread_of fair_H = before ++ (QWait 1, ABool false) :: after.
Proof. eexists (firstn 13 (thread_of fair_H)), (skipn 14 (thread_of fair_H)). vm_compute. reflexivity. Qed.

(** Bounded waiting: a buffer that becomes visible in queue [i] behind [p] others
    is the p-th taken from that queue from then on, at the latest with the
    thread's look number (p + 1) * (number of queues), whatever the other
    queues hold. *)
Theorem C82_served : forall fuel dfuel t cap H1 i H2 s o s1 x rest,
  runs (iothr_thr fuel dfuel t) (thread_of (H1 ++ S_publish i :: H2)) o ->
  sys_run cap sys_init (H1 ++ S_publish i :: H2) = Some s ->
  sys_run cap sys_init H1 = Some s1 -> s_pending s1 i = x :: rest -> i < queues t ->
  (length (s_visible s1 i) + 1) * queues t <= length (polls (thread_of H2)) ->
  nth_error (of_queue i (removed (thread_of H2))) (length (s_visible s1 i)) = Some x.
Proof. exact served. Qed.
Print Assumptions C82_served.
(** The second entry of queue 1: one other before it, so at most four looks. *)
Example C82_second : exists s1,
  fair_H = firstn 6 fair_H ++ S_publish 1 :: skipn 7 fair_H /\ sys_run 4 sys_init (firstn 6 fair_H) = Some s1 /\
  s_pending s1 1 = [ex_b] /\ s_visible s1 1 = [ex_a] /\ 1 < queues ex_t /\
  polls (thread_of (firstn 6 (skipn 7 fair_H))) = [0; 1; 0; 1] /\
  of_queue 1 (removed (thread_of (firstn 6 (skipn 7 fair_H)))) = [ex_a; ex_b].
Proof.
  eexists. split; [vm_compute; reflexivity|]. split; [vm_compute; reflexivity|]. split; [vm_compute; reflexivity|].
  split; [vm_compute; reflexivity|]. split; [vm_compute; repeat constructor|]. split; vm_compute; reflexivity.
Qed.

Lemma first_look (l2 : trace) a (l3 : trace) : exists l2a b l2b more,
  l2 ++ (QShutting, a) :: l3 = l2a ++ (QShutting, b) :: l2b /\ l2 = l2a ++ more /\ Forall (fun e : event => fst e <> QShutting) l2a.
Proof.
  induction l2 as [|[q b] l2 (l2a & c & l2b & more & E1 & E2 & F)].
  - exists [], a, l3, []. auto.
  - assert (D : q = QShutting \/ q <> QShutting) by (destruct q; try (left; reflexivity); right; discriminate).
    destruct D as [->|D].
    + exists [], b, (l2 ++ (QShutting, a) :: l3), ((QShutting, b) :: l2). auto.
    + exists ((q, b) :: l2a), c, l2b, more. cbn [app]. rewrite E1, E2. auto.
Qed.
Lemma no_look l : Forall (fun e : event => fst e <> QShutting) l -> fold_left wait_step l true = true.
Proof.
  induction 1 as [|[q b] l N F IH]; [reflexivity|]. cbn [fold_left]. replace (wait_step true (q, b)) with true; [exact IH|].
  destruct q; try reflexivity; [contradiction N; reflexivity|]. destruct b as [r|r bs|z|e|c|]; try reflexivity. destruct c; reflexivity.
Qed.

(** ** C44: what keeps data from being flushed.  Whatever the thread had taken when a
    wait timed out has been released when it next looks at the shutdown flag.  So a
    buffer it holds longer than the flush timeout is held because every wait since it
    was taken was ended by a wake-up ([C44_flush_deadline_refuted] shows these may be
    any number). *)
Theorem C44_kept_only_by_wakeups : forall iov_max cts rw t cap fuel dfuel H s o,
  created iov_max cts rw t -> system cap fuel dfuel t H s o ->
  forall l1 d l2 a l3, thread_of H = l1 ++ (QWait d, ABool true) :: l2 ++ (QShutting, a) :: l3 ->
  exists others, Permutation (freed (l1 ++ (QWait d, ABool true) :: l2)) (owed (map snd (removed l1)) ++ others).
Proof.
  intros iov_max cts rw t cap fuel dfuel H s o Hc Hs l1 d l2 a l3 E.
  destruct (first_look l2 a l3) as (l2a & b & l2b & more & E1 & E2 & NL).
  apply (f_equal (fun z => l1 ++ (QWait d, ABool true) :: z)) in E1. pose proof (eq_trans E E1) as E'. clear E. rename E' into E. change (l1 ++ (QWait d, ABool true) :: l2a ++ (QShutting, b) :: l2b) with (l1 ++ ((QWait d, ABool true) :: l2a) ++ (QShutting, b) :: l2b) in E.
  rewrite app_assoc in E. pose proof (life_good _ _ _ _ _ _ _ _ _ _ Hc Hs _ _ _ E) as G. unfold good in G. cbn [fst] in G.
  destruct G as [_ P]; [rewrite timed_app; cbn [fold_left wait_step]; apply no_look; exact NL|].
  rewrite removed_app, map_app, owed_app, app_nil_r in P. subst l2.
  exists (owed (map snd (removed ((QWait d, ABool true) :: l2a))) ++ freed more).
  rewrite app_assoc. apply Permutation_trans with (freed (l1 ++ (QWait d, ABool true) :: l2a) ++ freed more).
  - rewrite <- freed_app, <- app_assoc. apply Permutation_refl.
  - apply Permutation_app_tail. symmetry. exact P.
Qed.
Print Assumptions C44_kept_only_by_wakeups.
(** One entry taken, a wait ended by a signal, another entry, and a wait that times out:
    then both are written and released. *)
Definition late_H : history := weave (iothr_life 20 10 ex_t)
  ([clock1 10; ok1; ok1] ++ ins 1 ex_a ++
   [bool1 false; none1; got ex_a; bool1 false; none1; none1; clock1 11; bool1 false] ++ ins 0 ex_c ++
   [bool1 false; got ex_c; none1; bool1 false; none1; none1; clock1 12; bool1 true; ok1; unit1; unit1; inl S_shutdown; bool1 true; none1; none1; ok1; ok1; ok1]).
Example C44_timed_out_case : (exists s o, system 4 20 10 ex_t late_H s o) /\
  exists l1 l2 l3, thread_of late_H = l1 ++ (QWait 1, ABool true) :: l2 ++ (QShutting, ABool true) :: l3 /\
  removed l1 = [(1, ex_a); (0, ex_c)] /\ freed l1 = [] /\ freed l2 = [ex_a; ex_c].
Proof.
  split.
  - do 2 eexists. split; [vm_compute; reflexivity|]. split; [|split].
    + apply (follow_sound (iothr_life 20 10 ex_t) (map snd (thread_of late_H))). vm_compute. reflexivity.
    + discriminate.
    + vm_compute. repeat constructor.
  - exists (firstn 18 (thread_of late_H)), (firstn 3 (skipn 19 (thread_of late_H))), (skipn 23 (thread_of late_H)).
    repeat split; vm_compute; reflexivity.
Qed.

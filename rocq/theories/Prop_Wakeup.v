(** C69: when the I/O thread sleeps and what wakes it. *)
From Verif Require Import Bytes Control Iothr SpecIothr Queue SpecQueue Wakeup SpecWakeup Wakeup_proofs Wakeup2_proofs.
Local Open Scope nat_scope.

Definition repeat_sub (n i : nat) : list wact := repeat (A_submit i i (Some [x61]) 1 true 0) n.
(** One pass over [n] empty queues, up to the wait. *)
Definition idle_pass (n : nat) : list wact := repeat A_thread (n + 2).
Definition w_def : iothr_options := configured 1024 [].
Definition w_small : iothr_options := configured 1024 [O_input_queue_size 4; O_notify_threshold 1].

Example w_sizes : queue_size (io_input_queue_size w_def) /\ queue_size (io_input_queue_size w_small) /\
  io_input_queue_size w_def = 512%N /\ io_notify_threshold w_def = 32%N.
Proof. split; [exists 9%N; split; [lia|reflexivity]|]. split; [exists 2%N; split; [lia|reflexivity]|]. split; reflexivity. Qed.

(** The documentation says that queue_notify_threshold is the number of
    outstanding entries at which the thread is woken.  Refuted: with the default
    options (threshold 32) the thread sleeps on while 478 entries wait, and
    nothing has been signalled. *)
Theorem C69_wakes_at_threshold_refuted : exists sch, let s := k_run w_def sch in
  k_thr s = T_waiting /\ (forall p, k_prod s p = false) /\ asleep (k_trace s) /\
  outstanding 0 (k_trace s) = 478 /\ ~ In V_signal (k_trace s).
Proof.
  exists (idle_pass 1 ++ [A_thread] ++ repeat_sub 478 0). cbv zeta.
  assert (T : k_trace (k_run w_def (idle_pass 1 ++ [A_thread] ++ repeat_sub 478 0)) = V_sleep :: repeat (V_insert 0 false) 478) by (vm_compute; reflexivity).
  assert (N : forall e, e <> V_sleep -> e <> V_insert 0 false -> ~ In e (V_sleep :: repeat (V_insert 0 false) 478)).
  { intros e N1 N2 [X|X]; [congruence|]. apply repeat_spec in X. congruence. }
  split; [vm_compute; reflexivity|]. rewrite T. split.
  { intro p. apply Bool.not_true_is_false. intro X. apply (in_call w_def (proj1 w_sizes)) in X. destruct X as (i & X). rewrite T in X.
    revert X. apply N; discriminate. }
  split; [exists [], (repeat (V_insert 0 false) 478); split; vm_compute; reflexivity|].
  split; [vm_compute; reflexivity|]. apply N; discriminate.
Qed.
Print Assumptions C69_wakes_at_threshold_refuted.

(** What the threshold really is: a submission signals exactly when it leaves
    that many places free.  This holds for every submission of every schedule. *)
Theorem C69_signal_level : forall opt sch l1 i sg l2,
  queue_size (io_input_queue_size opt) -> k_trace (k_run opt sch) = l1 ++ V_insert i sg :: l2 ->
  (sg = true <-> (N.of_nat (outstanding i (l1 ++ [V_insert i sg])) + io_notify_threshold opt = io_input_queue_size opt - 1)%N) /\
  1 <= outstanding i (l1 ++ [V_insert i sg]) <= N.to_nat (io_input_queue_size opt) - 1.
Proof. intros opt sch l1 i sg l2 QS. exact (level_run opt QS sch l1 i sg l2). Qed.
Print Assumptions C69_signal_level.

(** So a threshold that is not below the capacity disables waking altogether ... *)
Theorem C69_large_threshold_never_wakes : forall opt sch i,
  queue_size (io_input_queue_size opt) -> (io_input_queue_size opt - 1 <= io_notify_threshold opt)%N ->
  ~ In (V_insert i true) (k_trace (k_run opt sch)).
Proof. intros opt sch i QS. exact (never_signals opt QS sch i). Qed.
Print Assumptions C69_large_threshold_never_wakes.
(** ... and such options are accepted. *)
Example C69_large_threshold_case :
  snd (set_notify_threshold (snd (set_input_queue_size iothr_options_default 2)) 1) = configured 1024 [O_input_queue_size 2; O_notify_threshold 1] /\
  fst (set_input_queue_size iothr_options_default 2) = r_success /\
  (io_input_queue_size (configured 1024 [O_input_queue_size 2; O_notify_threshold 1]) - 1 <=
   io_notify_threshold (configured 1024 [O_input_queue_size 2; O_notify_threshold 1]))%N.
Proof. vm_compute. repeat split; discriminate. Qed.

(** The signal can be lost: sent after the thread's last look at the queues and
    before its wait.  The queue then fills up, submissions are refused, and the
    thread sleeps on. *)
Theorem C69_lost_wakeup_refuted : exists sch, let s := k_run w_small sch in
  k_thr s = T_waiting /\ (forall p, k_prod s p = false) /\ asleep (k_trace s) /\ In V_signal (k_trace s) /\
  outstanding 0 (k_trace s) = 3 /\ In (V_refuse 0) (k_trace s).
Proof.
  exists (idle_pass 1 ++ repeat_sub 2 0 ++ [A_signal 0; A_thread] ++ repeat_sub 2 0). cbv zeta.
  split; [vm_compute; reflexivity|]. split; [intros [|p]; vm_compute; reflexivity|].
  split; [exists [V_insert 0 false; V_insert 0 true; V_signal], [V_insert 0 false; V_refuse 0]; split; vm_compute; reflexivity|].
  vm_compute. tauto.
Qed.
Print Assumptions C69_lost_wakeup_refuted.

(** What is guaranteed: while the thread sleeps (and no submission is under
    way), each queue is below the signalling level, or was not below it any more
    when the thread went to sleep. *)
Theorem C69_asleep_partial : forall opt sch, queue_size (io_input_queue_size opt) ->
  let s := k_run opt sch in
  k_thr s = T_waiting -> (forall p, k_prod s p = false) ->
  exists l1 l2, k_trace s = l1 ++ V_sleep :: l2 /\ count wakes l2 = 0 /\
    forall i, (N.of_nat (outstanding i (k_trace s)) + io_notify_threshold opt < io_input_queue_size opt - 1)%N \/
              (io_input_queue_size opt - 1 <= N.of_nat (outstanding i l1) + io_notify_threshold opt)%N.
Proof. intros opt sch QS. exact (asleep_level opt QS sch). Qed.
Print Assumptions C69_asleep_partial.
(** The first case: one entry of three waits, the level is two.  Reaching it
    wakes the thread. *)
Example C69_asleep_case :
  let s := k_run w_small (idle_pass 1 ++ [A_thread] ++ repeat_sub 1 0) in
  k_thr s = T_waiting /\ k_prod s 0 = false /\ outstanding 0 (k_trace s) = 1 /\
  k_thr (k_run w_small (idle_pass 1 ++ [A_thread] ++ repeat_sub 2 0 ++ [A_signal 0])) = T_woken.
Proof. vm_compute. repeat split. Qed.

(** Destroy wakes a sleeping thread for good; a thread that is not asleep may
    still fall asleep once, and then destroy waits for the flush timeout. *)
Theorem C69_shutdown_sleeps_at_most_once : forall opt sch l1 l2, queue_size (io_input_queue_size opt) ->
  k_trace (k_run opt sch) = l1 ++ V_flag :: l2 ->
  count sleeps l2 <= 1 /\ (asleep l1 -> count sleeps l2 = 0).
Proof. intros opt sch l1 l2 QS. exact (shutdown_sleeps opt QS sch l1 l2). Qed.
Print Assumptions C69_shutdown_sleeps_at_most_once.
Example C69_shutdown_case : k_trace (k_run w_small (idle_pass 1 ++ [A_thread; A_destroy; A_destroy] ++ idle_pass 3)) =
  [V_sleep; V_flag; V_signal; V_woken; V_done].
Proof. vm_compute. reflexivity. Qed.

Theorem C69_shutdown_prompt_refuted : exists sch,
  k_trace (k_run w_small sch) = [V_flag; V_signal; V_sleep] /\ k_thr (k_run w_small sch) = T_waiting /\ k_des (k_run w_small sch) = D_join.
Proof. exists (idle_pass 1 ++ [A_destroy; A_destroy; A_thread]). vm_compute. repeat split. Qed.
Print Assumptions C69_shutdown_prompt_refuted.

(** Destroy's signal reaches a thread that was asleep when destroy was called: once
    destroy has come to waiting for its end, it is not asleep. *)
Theorem C69_destroy_wakes : forall opt sch l1 l2, queue_size (io_input_queue_size opt) ->
  let s := k_run opt sch in
  k_trace s = l1 ++ V_flag :: l2 -> asleep l1 -> k_des s = D_join -> k_thr s <> T_waiting.
Proof. intros opt sch l1 l2 QS. exact (destroy_wakes opt QS sch l1 l2). Qed.
Print Assumptions C69_destroy_wakes.

(** Once destroy has been called, the thread ends: after a number of stretches of
    time, whatever else happens in them, in each of which it gets to run and a timed
    wait ends. *)
Theorem C69_shutdown_ends : forall opt sch, queue_size (io_input_queue_size opt) ->
  In V_flag (k_trace (k_run opt sch)) ->
  exists b, forall rs, Forall fair_round rs -> b <= length rs -> k_thr (k_run opt (sch ++ concat rs)) = T_done.
Proof. intros opt sch QS F. apply (shutdown_ends opt QS sch). apply (d_flag _ (down_run opt QS sch)). exact F. Qed.
Print Assumptions C69_shutdown_ends.
(** And it ends only after that, with every queue empty. *)
Theorem C69_done_means_drained : forall opt sch i, queue_size (io_input_queue_size opt) ->
  let s := k_run opt sch in
  k_thr s = T_done -> i < N.to_nat (io_num_input_queues opt) -> In V_flag (k_trace s) /\ outstanding i (k_trace s) = 0.
Proof.
  intros opt sch i QS s T L. destruct (done_drained opt QS sch i T L) as [F O]. split; [|exact O].
  apply (d_flag _ (down_run opt QS sch)). exact F.
Qed.
Print Assumptions C69_done_means_drained.
(** Two entries wait when destroy is called; they are taken out, then the thread ends. *)
Example C69_drained_case :
  let sch := idle_pass 1 ++ [A_thread] ++ repeat_sub 2 0 ++ [A_destroy; A_destroy] in
  k_trace (k_run w_small (sch ++ concat (repeat [A_thread; A_timeout] 9))) =
    [V_sleep; V_insert 0 false; V_insert 0 true; V_flag; V_signal; V_woken; V_remove 0; V_remove 0; V_done] /\
  fair_round [A_thread; A_timeout] /\ io_num_input_queues w_small = 1%N.
Proof. split; [vm_compute; reflexivity|]. split; [split; cbn; tauto|reflexivity]. Qed.

(** The I/O thread over locked queues with several producers each (C67). *)
From Coq Require Import Permutation.
From Verif Require Import Bytes Bytes_proofs Spec SpecTrace Io Io_proofs SpecStream SpecReader Control Rdwr Writer Reader Api SpecApi
  Queue QueueMutex SpecQueue Iothr SpecIothr File SystemMutex SpecSystemMutex SystemMutex_proofs SystemMutex2_proofs SpecSystem.
Local Open Scope nat_scope.

(** ** A concrete run for the examples
    One queue of two places shared by two producers; schedules are written as
    moves of producers ([X]), answers to calls ([A]) and steps of a removal ([R1]). *)
Inductive item := X (a : xact) | A (a : ans) | R1.
Fixpoint drive (dec : bytes -> entry) (p : io unit) (s : xsys) (l : list item) : list xact :=
  match l with
  | [] => []
  | X a :: r => a :: match x_step s a with Some s' => drive dec p s' r | None => [] end
  | A an :: r =>
      match p with
      | Vis q k => X_call (q, an) :: match x_step s (X_call (q, an)) with Some s' => drive dec (k an) s' r | None => [] end
      | _ => []
      end
  | R1 :: r =>
      match p with
      | Vis (QRemove i) k =>
          X_at i 0 :: match x_step s (X_at i 0) with
          | Some s' =>
              match x_in s' with
              | Some _ => drive dec p s' r
              | None => match x_log s' with
                        | XE_q _ (ME_return _ _ (R_rem x _)) :: _ => drive dec (k (AEntry (option_map dec x))) s' r
                        | _ => []
                        end
              end
          | None => []
          end
      | _ => []
      end
  end.
Definition z_e (i : nat) (b : list byte) : entry := mk_entry i b true.
Definition z_a := z_e 1 [x01].
Definition z_b := z_e 2 [x02; x02].
Definition z_c := z_e 3 [x03].
Definition z_d := z_e 4 [x04].
Definition z_enc (e : entry) : bytes := match e_id e with 1 => [x01] | 2 => [x02] | 3 => [x03] | 4 => [x04] | _ => [] end.
Definition z_dec (b : bytes) : entry := match b with [x01] => z_a | [x02] => z_b | [x03] => z_c | _ => z_d end.
Definition z_todo (i : nat) : list (list entry) := match i with 0 => [[z_a; z_c]; [z_b; z_d]] | _ => [] end.
Definition z_opts : list oset := [O_queue_model QM_mpsc; O_num_input_queues 1; O_input_queue_size 2].
Definition z_w : writer := mk_writer ws_opening [[x61]] (file_writer_rdwr 0) None None None None 1024.
Definition z_t : iothr := mk_iothr (configured 1024 z_opts) z_w false 0 [] 0.
Definition steps (j n : nat) : list item := repeat (X (X_at 0 j)) n.
Definition rem_steps (n : nat) : list item := repeat R1 n.
Definition z_ok : item := A (ARes r_success).
(** Producer 1 inserts; producer 2 waits for the lock and finds the queue full
    (its submission is refused); later each inserts once more. *)
Definition z_items : list item :=
  steps 1 3 ++ steps 2 3 ++ steps 1 4 ++ steps 2 6 ++ steps 1 1 ++ [A (AClock 10); z_ok; z_ok; A (ABool false)] ++
  rem_steps 3 ++ steps 1 4 ++ rem_steps 5 ++ steps 1 8 ++ [A (ABool false)] ++ rem_steps 8 ++ steps 2 8 ++ [X X_shutdown; A (ABool true)] ++
  rem_steps 8 ++ rem_steps 6 ++ [z_ok; A AUnit; A AUnit; A AUnit; z_ok; z_ok; z_ok] ++ rem_steps 6.
Definition z_s0 : xsys := x_init 2 1 (fun _ => 9) (fun i => map (map z_enc) (z_todo i)).
Definition z_sch : list xact := drive z_dec (iothr_life 10 10 z_t) z_s0 z_items.
Definition z_s : xsys := match x_run z_s0 z_sch with Some s => s | None => z_s0 end.


Example z_setting : xsys_setting 2 1 z_dec z_enc z_todo.
Proof. split; [reflexivity|]. split; [reflexivity|]. split; [vm_compute; discriminate|]. intros [|i]; repeat constructor. Qed.
Example z_created : created 1024 [[x61]] (file_writer_rdwr 0) z_t.
Proof.
  split; [repeat split|]. split; [vm_compute; intuition discriminate|]. exists 1024, z_w, (Some (configured 1024 z_opts)).
  split; [apply Nat.lt_0_succ|]. split; [reflexivity|]. split; [eexists; reflexivity|]. vm_compute. reflexivity.
Qed.
Example z_queues : forall i, queues z_t <= i -> z_todo i = [].
Proof. change (queues z_t) with 1. intros [|i] L; [lia|reflexivity]. Qed.
Example z_run : x_run z_s0 z_sch = Some z_s.
Proof. unfold z_s. destruct (x_run _ z_sch) eqn:E; [reflexivity|]. vm_compute in E. discriminate. Qed.
Example z_runs : runs (iothr_life 10 10 z_t) (xcalls z_dec (x_trace z_s)) (Done tt).
Proof. apply (follow_sound (iothr_life 10 10 z_t) (map snd (xcalls z_dec (x_trace z_s)))). vm_compute. reflexivity. Qed.
(** 23 events precede the shutdown request. *)
Example z_shutdown : x_trace z_s = firstn 23 (x_trace z_s) ++ XE_shutdown :: skipn 24 (x_trace z_s) /\ ~ In XE_shutdown (firstn 23 (x_trace z_s)) /\
  xsub z_dec (skipn 24 (x_trace z_s)) = [] /\ xsub z_dec (x_trace z_s) = [(0, 0, z_a); (0, 0, z_c); (0, 1, z_d)].
Proof. split; [vm_compute; reflexivity|]. split; [vm_compute; intuition discriminate|]. split; vm_compute; reflexivity. Qed.

(** C67: whatever the interleaving of all threads, the calls of the I/O thread and
    the accepted submissions are those of a system whose queues are bounded lists
    with atomic operations, to which C38-C44 apply; nothing is ever accepted but
    invisible, and an instant before a shutdown request corresponds to an instant
    before it. *)
Theorem C67_queues_refine_lists : forall num sz dec enc rem todo sch s,
  xsys_setting num sz dec enc todo -> x_run (x_init num sz rem (fun i => map (map enc) (todo i))) sch = Some s ->
  let l := x_trace s in let cap := N.to_nat num - 1 in
  exists H a, sys_run cap sys_init H = Some a /\ thread_of H = xcalls dec l /\ accepted H = xsubmitted dec l /\ (forall i, s_pending a i = []) /\
    forall lA lB, l = lA ++ XE_shutdown :: lB -> exists HA HB aA, H = HA ++ S_shutdown :: HB /\ accepted HA = xsubmitted dec lA /\ accepted HB = xsubmitted dec lB /\
      sys_run cap sys_init HA = Some aA /\ (forall i, s_pending aA i = []) /\ (~ In XE_shutdown lA -> ~ In S_shutdown HA).
Proof.
  intros num sz dec enc rem todo sch s ST RUN l cap. destruct (xabstract num sz dec enc rem todo ST sch s RUN) as (a & RH & TH & AH & PH & SH).
  exists (hist dec l), a. repeat (split; [assumption|]). intros lA lB E. destruct (SH lA lB E) as (E1 & E2 & (aA & E3 & E4) & E5 & E6). exists (hist dec lA), (hist dec lB), aA. auto 10.
Qed.
Print Assumptions C67_queues_refine_lists.

(** Per producer thread only submissions it made, each at most once, in order. *)
Theorem C67_submissions : forall num sz dec enc rem todo sch s,
  xsys_setting num sz dec enc todo -> x_run (x_init num sz rem (fun i => map (map enc) (todo i))) sch = Some s ->
  forall i j, subseq (of_producer i j (xsub dec (x_trace s))) (nth j (todo i) []).
Proof. intros num sz dec enc rem todo sch s ST. exact (xfrom_todo num sz dec enc rem todo ST sch s). Qed.
Print Assumptions C67_submissions.

(** Whatever fails and whenever it stops: what reached the medium are sessions of
    the writer carrying, per queue, a subsequence of its accepted submissions,
    nothing twice. *)
Theorem C67_order : forall num sz dec enc rem todo sch s iov_max cts rw t fuel dfuel o ss,
  xsys_setting num sz dec enc todo -> x_run (x_init num sz rem (fun i => map (map enc) (todo i))) sch = Some s ->
  created iov_max cts rw t -> (forall i, queues t <= i -> todo i = []) ->
  runs (iothr_life fuel dfuel t) (xcalls dec (x_trace s)) o -> o <> Stuck FFuel -> emits (xcalls dec (x_trace s)) ss ->
  exists W full dss, Forall2 prefix ss full /\ Forall2 (writer_session (rw_has_read rw) cts) full dss /\
    concat dss = map (fun x => e_data (snd x)) W /\
    (forall i, subseq (of_queue i W) (of_queue i (xsubmitted dec (x_trace s)))) /\ exists rest, Permutation (xsubmitted dec (x_trace s)) (W ++ rest).
Proof. intros num sz dec enc rem todo sch s iov_max cts rw t fuel dfuel o ss ST RUN CR TQ. exact (xusers_order num sz dec enc rem todo ST sch s RUN iov_max cts rw t fuel dfuel CR TQ o ss). Qed.
Print Assumptions C67_order.

(** Every accepted buffer is released exactly once if no submission is accepted
    after destroy was called. *)
Theorem C67_released_exactly_once : forall num sz dec enc rem todo sch s iov_max cts rw t fuel dfuel lA lB,
  xsys_setting num sz dec enc todo -> x_run (x_init num sz rem (fun i => map (map enc) (todo i))) sch = Some s ->
  created iov_max cts rw t -> (forall i, queues t <= i -> todo i = []) ->
  runs (iothr_life fuel dfuel t) (xcalls dec (x_trace s)) (Done tt) ->
  x_trace s = lA ++ XE_shutdown :: lB -> ~ In XE_shutdown lA -> xsub dec lB = [] ->
  Permutation (owed (map snd (xsubmitted dec (x_trace s)))) (SpecIothr.freed (xcalls dec (x_trace s))).
Proof. intros num sz dec enc rem todo sch s iov_max cts rw t fuel dfuel lA lB ST RUN CR TQ. exact (xusers_released num sz dec enc rem todo ST sch s RUN iov_max cts rw t fuel dfuel CR TQ lA lB). Qed.
Print Assumptions C67_released_exactly_once.

(** Once shutdown was requested the thread and destroy come to an end. *)
Theorem C67_shutdown_terminates : forall num sz dec enc rem todo sch s iov_max cts rw t fuel dfuel lA lB o,
  xsys_setting num sz dec enc todo -> x_run (x_init num sz rem (fun i => map (map enc) (todo i))) sch = Some s -> created iov_max cts rw t ->
  x_trace s = lA ++ XE_shutdown :: lB -> runs (iothr_life fuel dfuel t) (xcalls dec (x_trace s)) o ->
  length (xcalls dec (x_trace s)) < fuel -> length (xsubmitted dec (x_trace s)) < dfuel -> forall f, o <> Stuck f.
Proof. intros num sz dec enc rem todo sch s iov_max cts rw t fuel dfuel lA lB o ST RUN CR. exact (xusers_terminate num sz dec enc rem todo ST sch s RUN iov_max cts rw t fuel dfuel CR lA lB o). Qed.
Print Assumptions C67_shutdown_terminates.

(** On a transport without failures and with a stream started before the queues
    were looked at, the stream holds everything accepted before the shutdown. *)
Theorem C67_lossless : forall num sz dec enc rem todo sch s iov_max cts rw t fuel dfuel lA lB,
  xsys_setting num sz dec enc todo -> x_run (x_init num sz rem (fun i => map (map enc) (todo i))) sch = Some s ->
  created iov_max cts rw t -> (forall i, queues t <= i -> todo i = []) ->
  runs (iothr_life fuel dfuel t) (xcalls dec (x_trace s)) (Done tt) -> healthy (xcalls dec (x_trace s)) ->
  x_trace s = lA ++ XE_shutdown :: lB -> ~ In XE_shutdown lA ->
  exists ss ct W, start_choice (rw_has_read rw) cts ct /\
    delivered (xcalls dec (x_trace s)) = ss ++ [session_head (rw_has_read rw) cts ct ++ datas (map (fun x => e_data (snd x)) W) ++ stop_frame] /\
    forall i, prefix (of_queue i (xsubmitted dec lA)) (of_queue i W) /\ prefix (of_queue i W) (of_queue i (xsubmitted dec (x_trace s))).
Proof. intros num sz dec enc rem todo sch s iov_max cts rw t fuel dfuel lA lB ST RUN CR TQ. exact (xusers_lossless num sz dec enc rem todo ST sch s RUN iov_max cts rw t fuel dfuel CR TQ lA lB). Qed.
Print Assumptions C67_lossless.

(** C66 for queues shared by several producers: the file holds everything accepted
    before the shutdown request and reads back in the order of acceptance. *)
Theorem C66_submit_to_read_shared : forall num sz dec enc rem todo sch s iov_max cts h t fuel dfuel now tr d0 f lA lB o hr r rfuel m,
  xsys_setting num sz dec enc todo -> x_run (x_init num sz rem (fun i => map (map enc) (todo i))) sch = Some s ->
  created iov_max cts (file_writer_rdwr h) t -> (forall i, queues t <= i -> todo i = []) -> Forall (fun ct => (lenN ct <= CT_MAX)%N) cts ->
  runs (iothr_life fuel dfuel t) (xcalls dec (x_trace s)) (Done tt) ->
  xcalls dec (x_trace s) = (QClock, AClock now) :: tr -> (Z.of_N (io_reopen_interval (t_opt t)) <= now)%Z ->
  on_medium file_ops (mk_cfile true d0 None) tr f -> Forall SpecApi.ev_ok tr ->
  x_trace s = lA ++ XE_shutdown :: lB -> ~ In XE_shutdown lA ->
  reader_init o (file_reader_rdwr hr) = Some r -> ro_cts o = [] \/ cts = [] \/ (exists c, hd_error cts = Some c /\ In c (ro_cts o)) ->
  (forall i, Forall (Forall (fun e => data_ok (e_data e) /\ (lenN (e_data e) <= ro_max o)%N)) (todo i)) -> length (f_data f) <= rfuel ->
  exists W, snd (exec file_ops (mk_cfile false (f_data f) None) (reader_life rfuel r (repeat RRead (length W + 1 + m)))) =
    Done (map (fun x => (r_success, Some (e_data (snd x)))) W ++ (r_stop, None) :: repeat (r_failure, None) m, r_success) /\
    forall i, prefix (of_queue i (xsubmitted dec lA)) (of_queue i W) /\ prefix (of_queue i W) (of_queue i (xsubmitted dec (x_trace s))).
Proof. exact xsubmit_to_read. Qed.
Print Assumptions C66_submit_to_read_shared.

Definition z_file : bytes := start_frame (Some [x61]) ++ datas [[x01]; [x03]; [x04]] ++ stop_frame.
(** The run above meets the hypotheses. *)
Example C66_shared_case : exists tr, xcalls z_dec (x_trace z_s) = (QClock, AClock 10) :: tr /\
  on_medium file_ops (mk_cfile true [x77] None) tr (mk_cfile true z_file None) /\ Forall SpecApi.ev_ok tr /\
  (forall i, Forall (Forall (fun e => data_ok (e_data e) /\ (lenN (e_data e) <= 1024)%N)) (z_todo i)).
Proof.
  eexists. split; [vm_compute; reflexivity|]. split.
  { repeat first [apply om_nil|eapply om_call; [reflexivity|vm_compute; reflexivity|]|apply om_skip; [reflexivity|]]. }
  split; [repeat constructor|]. intros [|i]; repeat constructor; vm_compute; discriminate.
Qed.

(** The I/O thread over its lock-free queues (C65) and the way of a payload from
    submission to the reader (C66). *)
From Coq Require Import Permutation.
From Verif Require Import Bytes Bytes_proofs Spec SpecTrace Io Io_proofs SpecStream SpecReader Control Rdwr Writer Reader Api SpecApi
  Queue SpecQueue Iothr SpecIothr File System SpecSystem System_proofs System2_proofs System3_proofs.
Local Open Scope nat_scope.

(** ** A concrete run for the examples
    Two producers on queues of two places; schedules are written as actions of
    others ([X]), answers to calls ([A]) and steps of a removal ([R1]). *)
Inductive item := X (a : cact) | A (a : ans) | R1.
Fixpoint drive (dec : bytes -> entry) (p : io unit) (s : csys) (l : list item) : list cact :=
  match l with
  | [] => []
  | X a :: r => a :: match c_step s a with Some s' => drive dec p s' r | None => [] end
  | A an :: r =>
      match p with
      | Vis q k => K_call (q, an) :: match c_step s (K_call (q, an)) with Some s' => drive dec (k an) s' r | None => [] end
      | _ => []
      end
  | R1 :: r =>
      match p with
      | Vis (QRemove i) k =>
          K_cons i :: match c_step s (K_cons i) with
          | Some s' =>
              match k_in s' with
              | Some _ => drive dec p s' r
              | None => match k_log s' with
                        | e :: _ => match calls_at dec e with [(_, an)] => drive dec (k an) s' r | _ => [] end
                        | [] => []
                        end
              end
          | None => []
          end
      | _ => []
      end
  end.
Definition y_e (i : nat) (b : list byte) : entry := mk_entry i b true.
Definition y_a := y_e 1 [x01].
Definition y_b := y_e 2 [x02; x02].
Definition y_c := y_e 3 [x03].
Definition y_d := y_e 4 [x04].
Definition y_enc (e : entry) : bytes := match e_id e with 1 => [x01] | 2 => [x02] | 3 => [x03] | 4 => [x04] | _ => [] end.
Definition y_dec (b : bytes) : entry := match b with [x01] => y_a | [x02] => y_b | [x03] => y_c | _ => y_d end.
Definition y_todo (i : nat) : list entry := match i with 0 => [y_a; y_c; y_d] | 1 => [y_b] | _ => [] end.
Definition y_opts : list oset := [O_num_input_queues 2; O_input_queue_size 2].
Definition y_w : writer := mk_writer ws_opening [[x61]] (file_writer_rdwr 0) None None None None 1024.
Definition y_t : iothr := mk_iothr (configured 1024 y_opts) y_w false 0 [] 0.
Definition insert (i : nat) : list item := [X (K_prod i); X (K_prod i); X (K_prod i); X (K_prod i)].
Definition flush (i : nat) : list item := [X (K_pflush i); X (K_pflush i)].
Definition remove : list item := [R1; R1; R1; R1; X (K_cflush 0); X (K_cflush 1)].
Definition none : list item := [R1; R1].
Definition y_ok : item := A (ARes r_success).
(** Producer 0 inserts, its second insert is refused (queue full), the third goes
    in; producer 1's insert stays in its store buffer while the thread looks at
    its queue, and becomes visible between the thread's read and its decision. *)
Definition y_items : list item :=
  insert 0 ++ flush 0 ++ [A (AClock 10); y_ok; y_ok] ++ insert 1 ++ [X (K_prod 0); X (K_prod 0)] ++
  [A (ABool false)] ++ remove ++ [R1] ++ flush 1 ++ [R1] ++ insert 0 ++ flush 0 ++
  [X K_shutdown; A (ABool true)] ++ remove ++ remove ++ none ++ none ++ [y_ok; A AUnit; A AUnit; A AUnit; y_ok; y_ok; y_ok] ++ none ++ none.
Definition y_sch : list cact := drive y_dec (iothr_life 10 10 y_t) (c_init 2 1 (fun i => map y_enc (y_todo i))) y_items.
Definition y_s : csys := match c_run (c_init 2 1 (fun i => map y_enc (y_todo i))) y_sch with Some s => s | None => c_init 2 1 (fun _ => []) end.

Example y_setting : sys_setting 2 1 y_dec y_enc y_todo.
Proof. split; [reflexivity|]. split; [reflexivity|]. split; [vm_compute; discriminate|]. intros [|[|i]]; repeat constructor. Qed.
Example y_created : created 1024 [[x61]] (file_writer_rdwr 0) y_t.
Proof.
  split; [repeat split|]. split; [vm_compute; intuition discriminate|]. exists 1024, y_w, (Some (configured 1024 y_opts)).
  split; [apply Nat.lt_0_succ|]. split; [reflexivity|]. split; [eexists; reflexivity|]. vm_compute. reflexivity.
Qed.
Example y_queues : forall i, queues y_t <= i -> y_todo i = [].
Proof. change (queues y_t) with 2. intros [|[|i]] L; [lia|lia|reflexivity]. Qed.
Example y_run : c_run (c_init 2 1 (fun i => map y_enc (y_todo i))) y_sch = Some y_s.
Proof. unfold y_s. destruct (c_run _ y_sch) eqn:E; [reflexivity|]. vm_compute in E. discriminate. Qed.
Example y_runs : runs (iothr_life 10 10 y_t) (calls y_dec (c_trace y_s)) (Done tt).
Proof. apply (follow_sound (iothr_life 10 10 y_t) (map snd (calls y_dec (c_trace y_s)))). vm_compute. reflexivity. Qed.
(** 20 events precede the shutdown request. *)
Example y_shutdown : c_trace y_s = firstn 20 (c_trace y_s) ++ KE_shutdown :: skipn 21 (c_trace y_s) /\ ~ In KE_shutdown (firstn 20 (c_trace y_s)) /\
  settled (firstn 20 (c_trace y_s)) /\ submitted y_dec (skipn 21 (c_trace y_s)) = [] /\ submitted y_dec (c_trace y_s) = [(0, y_a); (1, y_b); (0, y_d)].
Proof.
  split; [vm_compute; reflexivity|]. split; [vm_compute; intuition discriminate|]. split; [|split; vm_compute; reflexivity].
  intros [|[|i]]; [vm_compute; reflexivity|vm_compute; reflexivity|].
  assert (E : at_queue (S (S i)) (firstn 20 (c_trace y_s)) = []) by (vm_compute; reflexivity). rewrite E. reflexivity.
Qed.

(** C65: whatever the interleaving of the memory accesses of all threads, the
    calls of the thread and the accepted submissions are those of a system whose
    queues are bounded lists with atomic operations, to which C38-C44 apply; a
    queue's pending elements there are those still in the store buffers, and an
    instant before a shutdown request corresponds to an instant before it. *)
Theorem C65_queues_refine_lists : forall num sz dec enc todo sch s,
  sys_setting num sz dec enc todo -> c_run (c_init num sz (fun i => map enc (todo i))) sch = Some s ->
  let l := c_trace s in let cap := N.to_nat num - 1 in
  exists H a, sys_run cap sys_init H = Some a /\ thread_of H = calls dec l /\ accepted H = submitted dec l /\
    (forall i, s_pending a i = map dec (skipn (published (at_queue i l)) (SpecQueue.inserted (at_queue i l)))) /\
    forall lA lB, l = lA ++ KE_shutdown :: lB -> exists HA HB aA, H = HA ++ S_shutdown :: HB /\ accepted HA = submitted dec lA /\
      sys_run cap sys_init HA = Some aA /\ (settled lA -> forall i, s_pending aA i = []) /\ (~ In KE_shutdown lA -> ~ In S_shutdown HA).
Proof.
  intros num sz dec enc todo sch s ST RUN l cap. destruct (abstract num sz dec enc todo ST sch s RUN) as (H & a & RH & TH & AH & PH & SH).
  exists H, a. repeat (split; [assumption|]). intros lA lB E. destruct (SH lA lB E) as (HA & HB & aA & E1 & E2 & E3 & E4 & E5). exists HA, HB, aA.
  repeat (split; [assumption|]). split; [|exact E5]. intros SE i. rewrite E4. apply settled_pend, SE.
Qed.
Print Assumptions C65_queues_refine_lists.

(** Only submissions that were made, each at most once, in order. *)
Theorem C65_submissions : forall num sz dec enc todo sch s,
  sys_setting num sz dec enc todo -> c_run (c_init num sz (fun i => map enc (todo i))) sch = Some s ->
  forall i, subseq (of_queue i (submitted dec (c_trace s))) (todo i).
Proof. intros num sz dec enc todo sch s ST. exact (from_todo num sz dec enc todo ST sch s). Qed.
Print Assumptions C65_submissions.

(** A submission that was accepted needs nothing but time to become visible:
    when the processor of producer [i] has emptied its store buffer, everything
    accepted from it is published, and nothing else has changed. *)
Theorem C65_becomes_visible : forall num sz dec enc todo sch s i,
  sys_setting num sz dec enc todo -> c_run (c_init num sz (fun i => map enc (todo i))) sch = Some s ->
  exists n s', c_run s (repeat (K_pflush i) n) = Some s' /\
    published (at_queue i (c_trace s')) = length (SpecQueue.inserted (at_queue i (c_trace s'))) /\
    submitted dec (c_trace s') = submitted dec (c_trace s) /\
    forall j, j <> i -> at_queue j (c_trace s') = at_queue j (c_trace s).
Proof. exact becomes_visible. Qed.
Print Assumptions C65_becomes_visible.

(** Whatever fails and whenever it stops: what reached the medium are sessions of
    the writer carrying, per producer, a subsequence of its submissions, nothing
    twice. *)
Theorem C65_order : forall num sz dec enc todo sch s iov_max cts rw t fuel dfuel o ss,
  sys_setting num sz dec enc todo -> c_run (c_init num sz (fun i => map enc (todo i))) sch = Some s ->
  created iov_max cts rw t -> (forall i, queues t <= i -> todo i = []) ->
  runs (iothr_life fuel dfuel t) (calls dec (c_trace s)) o -> o <> Stuck FFuel -> emits (calls dec (c_trace s)) ss ->
  exists W full dss, Forall2 prefix ss full /\ Forall2 (writer_session (rw_has_read rw) cts) full dss /\
    concat dss = map (fun x => e_data (snd x)) W /\
    (forall i, subseq (of_queue i W) (of_queue i (submitted dec (c_trace s)))) /\ exists rest, Permutation (submitted dec (c_trace s)) (W ++ rest).
Proof. intros num sz dec enc todo sch s iov_max cts rw t fuel dfuel o ss ST RUN CR TQ. exact (users_order num sz dec enc todo ST sch s RUN iov_max cts rw t fuel dfuel CR TQ o ss). Qed.
Print Assumptions C65_order.

(** Every accepted buffer is released exactly once if submissions had become
    visible when destroy was called and none followed. *)
Theorem C65_released_exactly_once : forall num sz dec enc todo sch s iov_max cts rw t fuel dfuel lA lB,
  sys_setting num sz dec enc todo -> c_run (c_init num sz (fun i => map enc (todo i))) sch = Some s ->
  created iov_max cts rw t -> (forall i, queues t <= i -> todo i = []) ->
  runs (iothr_life fuel dfuel t) (calls dec (c_trace s)) (Done tt) ->
  c_trace s = lA ++ KE_shutdown :: lB -> ~ In KE_shutdown lA -> settled lA -> submitted dec lB = [] ->
  Permutation (owed (map snd (submitted dec (c_trace s)))) (SpecIothr.freed (calls dec (c_trace s))).
Proof. intros num sz dec enc todo sch s iov_max cts rw t fuel dfuel lA lB ST RUN CR TQ. exact (users_released num sz dec enc todo ST sch s RUN iov_max cts rw t fuel dfuel CR TQ lA lB). Qed.
Print Assumptions C65_released_exactly_once.

(** Once shutdown was requested the thread and destroy come to an end. *)
Theorem C65_shutdown_terminates : forall num sz dec enc todo sch s iov_max cts rw t fuel dfuel lA lB o,
  sys_setting num sz dec enc todo -> c_run (c_init num sz (fun i => map enc (todo i))) sch = Some s -> created iov_max cts rw t ->
  c_trace s = lA ++ KE_shutdown :: lB -> runs (iothr_life fuel dfuel t) (calls dec (c_trace s)) o ->
  length (calls dec (c_trace s)) < fuel -> length (submitted dec (c_trace s)) < dfuel -> forall f, o <> Stuck f.
Proof. intros num sz dec enc todo sch s iov_max cts rw t fuel dfuel lA lB o ST RUN CR. exact (users_terminate num sz dec enc todo ST sch s RUN iov_max cts rw t fuel dfuel CR lA lB o). Qed.
Print Assumptions C65_shutdown_terminates.

(** On a transport without failures and with a stream started before the queues
    were looked at, the stream holds everything accepted before the shutdown. *)
Theorem C65_lossless : forall num sz dec enc todo sch s iov_max cts rw t fuel dfuel lA lB,
  sys_setting num sz dec enc todo -> c_run (c_init num sz (fun i => map enc (todo i))) sch = Some s ->
  created iov_max cts rw t -> (forall i, queues t <= i -> todo i = []) ->
  runs (iothr_life fuel dfuel t) (calls dec (c_trace s)) (Done tt) -> healthy (calls dec (c_trace s)) ->
  c_trace s = lA ++ KE_shutdown :: lB -> ~ In KE_shutdown lA -> settled lA ->
  exists ss ct W, start_choice (rw_has_read rw) cts ct /\
    delivered (calls dec (c_trace s)) = ss ++ [session_head (rw_has_read rw) cts ct ++ datas (map (fun x => e_data (snd x)) W) ++ stop_frame] /\
    forall i, prefix (of_queue i (submitted dec lA)) (of_queue i W) /\ prefix (of_queue i W) (of_queue i (submitted dec (c_trace s))).
Proof. intros num sz dec enc todo sch s iov_max cts rw t fuel dfuel lA lB ST RUN CR TQ. exact (users_lossless num sz dec enc todo ST sch s RUN iov_max cts rw t fuel dfuel CR TQ lA lB). Qed.
Print Assumptions C65_lossless.

(** C66: producers submit to the I/O thread of a file writer; the file is then
    read.  If the clock has passed the reopen interval at the start and no file
    operation failed, the reader gets the payloads of a sequence [W] and then end
    of stream; per producer, [W] holds everything accepted before the shutdown
    request, in order, and nothing that was not accepted. *)
Theorem C66_submit_to_read : forall num sz dec enc todo sch s iov_max cts h t fuel dfuel now tr d0 f lA lB o hr r rfuel m,
  sys_setting num sz dec enc todo -> c_run (c_init num sz (fun i => map enc (todo i))) sch = Some s ->
  created iov_max cts (file_writer_rdwr h) t -> (forall i, queues t <= i -> todo i = []) -> Forall (fun ct => (lenN ct <= CT_MAX)%N) cts ->
  runs (iothr_life fuel dfuel t) (calls dec (c_trace s)) (Done tt) ->
  calls dec (c_trace s) = (QClock, AClock now) :: tr -> (Z.of_N (io_reopen_interval (t_opt t)) <= now)%Z ->
  on_medium file_ops (mk_cfile true d0 None) tr f -> Forall SpecApi.ev_ok tr ->
  c_trace s = lA ++ KE_shutdown :: lB -> ~ In KE_shutdown lA -> settled lA ->
  reader_init o (file_reader_rdwr hr) = Some r -> ro_cts o = [] \/ cts = [] \/ (exists c, hd_error cts = Some c /\ In c (ro_cts o)) ->
  (forall i, Forall (fun e => data_ok (e_data e) /\ (lenN (e_data e) <= ro_max o)%N) (todo i)) -> length (f_data f) <= rfuel ->
  exists W, snd (exec file_ops (mk_cfile false (f_data f) None) (reader_life rfuel r (repeat RRead (length W + 1 + m)))) =
    Done (map (fun x => (r_success, Some (e_data (snd x)))) W ++ (r_stop, None) :: repeat (r_failure, None) m, r_success) /\
    forall i, prefix (of_queue i (submitted dec lA)) (of_queue i W) /\ prefix (of_queue i W) (of_queue i (submitted dec (c_trace s))).
Proof. exact submit_to_read. Qed.
Print Assumptions C66_submit_to_read.

Definition y_r : reader := mk_reader rs_opening [[x61]] 1024 (file_reader_rdwr 1) None None None None None 512.
Definition y_file : bytes := start_frame (Some [x61]) ++ datas [[x01]; [x04]; [x02; x02]] ++ stop_frame.
(** The run above meets the hypotheses; its file is read back. *)
Example C66_case : exists tr, calls y_dec (c_trace y_s) = (QClock, AClock 10) :: tr /\
  on_medium file_ops (mk_cfile true [x77] None) tr (mk_cfile true y_file None) /\ Forall SpecApi.ev_ok tr /\
  (forall i, Forall (fun e => data_ok (e_data e) /\ (lenN (e_data e) <= 1024)%N) (y_todo i)) /\
  snd (exec file_ops (mk_cfile false y_file None) (reader_life 100 y_r (repeat RRead 4))) =
  Done ([(r_success, Some [x01]); (r_success, Some [x04]); (r_success, Some [x02; x02]); (r_stop, None)], r_success).
Proof.
  eexists. split; [vm_compute; reflexivity|]. split.
  { repeat first [apply om_nil|eapply om_call; [reflexivity|vm_compute; reflexivity|]|apply om_skip; [reflexivity|]]. }
  split; [repeat constructor|]. split; [|vm_compute; reflexivity].
  intros [|[|i]]; repeat constructor; vm_compute; discriminate.
Qed.

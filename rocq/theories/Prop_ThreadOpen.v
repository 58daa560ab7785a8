(** C102: each attempt of an I/O thread to open begins a new connection. *)
From Verif Require Import Bytes Bytes_proofs Spec SpecTrace Io Io_proofs SpecStream Control Rdwr Writer Api SpecApi Queue
  Iothr SpecIothr SpecClient Iothr_proofs ThreadUse_proofs Prop_Iothr Prop_ThreadUse SpecThreadOpen ThreadOpen_proofs.
Local Open Scope nat_scope.

(** An attempt made while the transport is not closed finds it open (never broken by a
    failed read or write) and follows a handshake that stopped
    before START: what this connection has carried is at most a READY. *)
Theorem C102_open_while_open : forall iov_max cts rw t fuel dfuel tr o,
  created iov_max cts rw t -> runs (iothr_life fuel dfuel t) tr o ->
  forall a hd r b, tr = a ++ (QOpen hd, r) :: b -> transport_state a <> Some TClosed ->
  transport_state a = Some TOpen /\ exists ss x, delivered a = ss ++ [x] /\ stalled_handshake (rw_has_read rw) cts x.
Proof. exact thread_reopens. Qed.
Print Assumptions C102_open_while_open.

(** So on a one-way transport every attempt begins a new connection.  Missing: the same
    for a transport with a read method, which is false. *)
Theorem C102_one_way_anew_partial : forall iov_max cts rw t fuel dfuel tr o,
  created iov_max cts rw t -> rw_has_read rw = false -> Forall (fun ct => (lenN ct <= CT_MAX)%N) cts ->
  runs (iothr_life fuel dfuel t) tr o -> opens_anew tr.
Proof. exact thread_opens_anew. Qed.
Print Assumptions C102_one_way_anew_partial.

(** The same for any client of a writer, not only the I/O thread. *)
Theorem C102_any_client : forall iovm cts rw w cs tr o,
  fresh_rdwr rw -> 0 < iovm -> writer_init iovm cts rw = Some w -> Forall wcall_ok cs -> runs (writer_life w cs) tr o ->
  forall a hd r b, tr = a ++ (QOpen hd, r) :: b -> transport_state a <> Some TClosed ->
  transport_state a = Some TOpen /\ exists ss x, delivered a = ss ++ [x] /\ stalled_handshake (rw_has_read rw) cts x.
Proof. exact writer_reopens. Qed.
Print Assumptions C102_any_client.

(** The peer answers READY with FINISH; the thread tries again without having closed. *)
Definition ex_again : trace := thread_of (weave (iothr_life 10 10 ex_t2)
  [clock1 10; ok1; ok1; inr (ARead r_success (be32 0)); inr (ARead r_success (be32 4)); inr (ARead r_success (be32 5)); bool1 false;
   clock1 100; ok1; ok1; inr (ARead r_success (be32 0)); inr (ARead r_success (be32 4)); inr (ARead r_success (be32 5)); none1; none1; clock1 101; bool1 false;
   bool1 true; none1; none1; ok1; none1; none1]).
Theorem C102_refuted : exists iov_max cts rw t fuel dfuel tr,
  created iov_max cts rw t /\ runs (iothr_life fuel dfuel t) tr (Done tt) /\ ~ opens_anew tr.
Proof.
  exists 1024%N, [[x61]], ex_rw2, ex_t2, 10, 10, ex_again. destruct C98_stalled as (C & _). split; [exact C|]. split.
  - apply (follow_sound (iothr_life 10 10 ex_t2) (map snd ex_again)). vm_compute. reflexivity.
  - intro H. assert (E : transport_state (firstn 8 ex_again) = Some TClosed).
    { apply (H (firstn 8 ex_again) 0 (ARes r_success) (skipn 9 ex_again)). vm_compute. reflexivity. }
    revert E. vm_compute. discriminate.
Qed.
Print Assumptions C102_refuted.

(** What that connection has carried when it is opened again; and a one-way thread that
    connects a second time, after a failed write. *)
Example C102_case : delivered (firstn 8 ex_again) = [ready_frame [[x61]]] /\
  delivered ex_again = [ready_frame [[x61]]; ready_frame [[x61]]].
Proof. split; vm_compute; reflexivity. Qed.
Example C102_one_way_case : runs (iothr_life 20 10 ex_t) (thread_of ex_F) Cut /\ rw_has_read ex_rw = false /\
  length (filter (fun e => is_open (fst e)) (thread_of ex_F)) = 2.
Proof. split; [destruct ex_system_F as (s & _ & R & _); exact R|]. split; vm_compute; reflexivity. Qed.

(** C98: an I/O thread uses its transport as it may, and gives it back. *)
From Verif Require Import Bytes Bytes_proofs Spec SpecTrace Io Io_proofs SpecStream Control Rdwr Writer Api SpecApi Queue
  Iothr SpecIothr SpecClient Iothr_proofs ThreadUse_proofs Prop_Iothr.
Local Open Scope nat_scope.

(** At any moment of any history, whatever the calls returned: no read, write or close
    on a transport that is not open, nothing but close after a failed read or write, and
    nothing after destroy; when the thread has ended the transport is destroyed, once. *)
Theorem C98_legal : forall iov_max cts rw t fuel dfuel tr o,
  created iov_max cts rw t -> runs (iothr_life fuel dfuel t) tr o ->
  transport_state tr <> None /\ (o = Done tt -> transport_state tr = Some TDestroyed).
Proof. exact thread_legal. Qed.
Print Assumptions C98_legal.

(** The transport is destroyed without a close only if the last handshake stopped
    before START; so never if it is one-way and the content type can be sent. *)
Theorem C98_left_open_only_in_handshake : forall iov_max cts rw t fuel dfuel tr,
  created iov_max cts rw t -> runs (iothr_life fuel dfuel t) tr (Done tt) -> left_open (writer_part tr) ->
  exists ss b, delivered tr = ss ++ [b] /\ stalled_handshake (rw_has_read rw) cts b.
Proof. exact thread_left_open. Qed.
Print Assumptions C98_left_open_only_in_handshake.

Theorem C98_one_way_closed : forall iov_max cts rw t fuel dfuel tr,
  created iov_max cts rw t -> rw_has_read rw = false -> Forall (fun ct => (lenN ct <= CT_MAX)%N) cts ->
  runs (iothr_life fuel dfuel t) tr (Done tt) -> ~ left_open (writer_part tr).
Proof. exact thread_one_way. Qed.
Print Assumptions C98_one_way_closed.

(** No write gets more than 256 buffers, however large the batches are configured. *)
Theorem C98_write_size : forall iov_max cts rw t fuel dfuel tr o h iov a,
  created iov_max cts rw t -> runs (iothr_life fuel dfuel t) tr o -> In (QWrite h iov, a) tr -> length iov <= 256.
Proof. exact thread_write_size. Qed.
Print Assumptions C98_write_size.

(** A life with a failed write and a second connection, and one to its end. *)
Example C98_case : runs (iothr_life 20 10 ex_t) (thread_of ex_F) Cut /\ transport_state (thread_of ex_F) = Some TOpen /\
  runs (iothr_life 10 10 ex_t) (thread_of ex_H) (Done tt) /\ rw_has_read ex_rw = false /\ transport_state (thread_of ex_H) = Some TDestroyed.
Proof.
  split; [destruct ex_system_F as (s & _ & R & _); exact R|]. split; [vm_compute; reflexivity|].
  split; [destruct ex_system as (s & (_ & R & _) & _); exact R|]. split; vm_compute; reflexivity.
Qed.
(** A peer that answers READY with FINISH: the thread ends with its transport open. *)
Definition ex_rw2 : rdwr := mk_rdwr 0 true true true true true false.
Definition ex_t2 : iothr := mk_iothr (configured 1024 ex_opts) (mk_writer ws_opening [[x61]] ex_rw2 None None None None 1024) false 0 [] 0.
Definition ex_stalled : trace := thread_of (weave (iothr_life 10 10 ex_t2)
  [clock1 10; ok1; ok1; inr (ARead r_success (be32 0)); inr (ARead r_success (be32 4)); inr (ARead r_success (be32 5)); bool1 true; none1; none1; ok1; none1; none1]).
Example C98_stalled : created 1024 [[x61]] ex_rw2 ex_t2 /\ runs (iothr_life 10 10 ex_t2) ex_stalled (Done tt) /\
  left_open (writer_part ex_stalled) /\ delivered ex_stalled = [ready_frame [[x61]]].
Proof.
  split; [|split; [|split]].
  - split; [repeat split|]. split; [vm_compute; intuition discriminate|]. exists 1024, (t_writer ex_t2), (Some (configured 1024 ex_opts)).
    split; [apply Nat.lt_0_succ|]. split; [reflexivity|]. split; [eexists; reflexivity|]. vm_compute. reflexivity.
  - apply (follow_sound (iothr_life 10 10 ex_t2) (map snd ex_stalled)). vm_compute. reflexivity.
  - eexists (firstn 5 (writer_part ex_stalled)), 0, _. split; vm_compute; reflexivity.
  - vm_compute. reflexivity.
Qed.

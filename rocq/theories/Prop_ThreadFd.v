(** C103: an I/O thread over a socket leaves no descriptor open. *)
From Verif Require Import Bytes Bytes_proofs Spec SpecTrace Io Io_proofs SpecStream Control Rdwr Writer Api SpecApi Queue
  Iothr SpecIothr SpecClient Iothr_proofs ThreadUse_proofs Prop_Iothr Prop_ThreadUse SpecThreadOpen ThreadOpen_proofs Prop_ThreadOpen
  Socket SpecSocket SpecThreadFd ThreadFd_proofs.
Local Open Scope nat_scope.

(** At any moment the thread holds at most one descriptor and has closed none it did
    not hold; one while its transport is open, none while it is closed. *)
Theorem C103_one_descriptor : forall iov_max cts rw t fuel dfuel tr o w ev,
  created iov_max cts rw t -> runs (iothr_life fuel dfuel t) tr o -> socket_plays sock_init tr w ev ->
  exists l, fds_after [] ev = Some l /\ length l <= 1 /\
    (transport_state tr = Some TOpen -> length l = 1) /\ (transport_state tr = Some TClosed -> l = []).
Proof. exact thread_fds. Qed.
Print Assumptions C103_one_descriptor.

(** When the thread has ended no descriptor is left, unless its last handshake stopped
    before START.  Missing: that case, in which one can be left. *)
Theorem C103_none_left_partial : forall iov_max cts rw t fuel dfuel tr w ev,
  created iov_max cts rw t -> runs (iothr_life fuel dfuel t) tr (Done tt) -> socket_plays sock_init tr w ev ->
  fds_after [] ev <> Some [] ->
  exists ss b, delivered tr = ss ++ [b] /\ stalled_handshake (rw_has_read rw) cts b.
Proof. exact thread_fd_left. Qed.
Print Assumptions C103_none_left_partial.

(** The same for any client of a writer, not only the I/O thread. *)
Theorem C103_any_client : forall iovm cts rw w0 cs tr rs x w ev,
  fresh_rdwr rw -> 0 < iovm -> writer_init iovm cts rw = Some w0 -> Forall wcall_ok cs ->
  runs (writer_life w0 cs) tr (Done (rs, x)) -> socket_plays sock_init tr w ev -> fds_after [] ev <> Some [] ->
  exists ss b, delivered tr = ss ++ [b] /\ stalled_handshake (rw_has_read rw) cts b.
Proof. exact client_fd_left. Qed.
Print Assumptions C103_any_client.

(** An open of a socket that is still open succeeds at once: the same descriptor, and
    nothing asked of the kernel. *)
Theorem C103_same_connection : forall a hd r w ev,
  socket_plays sock_init (a ++ [(QOpen hd, ARes r)]) w ev -> transport_state a = Some TOpen ->
  r = r_success /\ socket_plays sock_init a w ev.
Proof. exact open_again. Qed.
Print Assumptions C103_same_connection.

(** The peer answers READY with FINISH, the thread is asked to stop: the descriptor stays. *)
Lemma ex_stalled_plays : socket_plays sock_init ex_stalled (mk_sockw true (Some 5)) [FD_socket 5].
Proof. apply (play_sound ex_stalled sock_init [inl (KO_ok 5)]). vm_compute. reflexivity. Qed.
Theorem C103_refuted : exists iov_max cts rw t fuel dfuel tr w ev,
  created iov_max cts rw t /\ runs (iothr_life fuel dfuel t) tr (Done tt) /\ socket_plays sock_init tr w ev /\ fds_after [] ev = Some [5].
Proof.
  destruct C98_stalled as (C & R & _). exists 1024%N, [[x61]], ex_rw2, ex_t2, 10, 10, ex_stalled, (mk_sockw true (Some 5)), [FD_socket 5].
  split; [exact C|]. split; [exact R|]. split; [exact ex_stalled_plays|reflexivity].
Qed.
Print Assumptions C103_refuted.

(** The second open of the thread of C102 makes no second connection. *)
Example C103_again : socket_plays sock_init ex_again (mk_sockw true (Some 5)) [FD_socket 5] /\ transport_state (firstn 8 ex_again) = Some TOpen.
Proof. split; [apply (play_sound ex_again sock_init [inl (KO_ok 5); inl KO_nosocket])|]; vm_compute; reflexivity. Qed.
(** A thread that closes: nothing is left. *)
Example C103_closes : socket_plays sock_init (thread_of ex_H) (mk_sockw false (Some 5)) [FD_socket 5; FD_close 5] /\
  fds_after [] [FD_socket 5; FD_close 5] = Some [].
Proof. split; [apply (play_sound (thread_of ex_H) sock_init [inl (KO_ok 5); inr true])|]; vm_compute; reflexivity. Qed.
(** A client of a writer whose peer refuses, and ends. *)
Definition ex_client : trace := [(QOpen 0, ARes r_success); (QWrite 0 [ready_frame [[x61]]], ARes r_success);
  (QRead 0 4, ARead r_success (be32 0)); (QRead 0 4, ARead r_success (be32 4)); (QRead 0 4, ARead r_success (be32 5)); (QDestroy 0, ARes r_success)].
Example C103_client_case : fresh_rdwr ex_rw2 /\ writer_init 1024 [[x61]] ex_rw2 = Some (t_writer ex_t2) /\
  runs (writer_life (t_writer ex_t2) [WOpen]) ex_client (Done ([r_failure], r_failure)) /\
  socket_plays sock_init ex_client (mk_sockw true (Some 5)) [FD_socket 5].
Proof.
  split; [repeat split|]. split; [reflexivity|]. split.
  - apply (follow_sound (writer_life (t_writer ex_t2) [WOpen]) (map snd ex_client)). vm_compute. reflexivity.
  - apply (play_sound ex_client sock_init [inl (KO_ok 5)]). vm_compute. reflexivity.
Qed.
(** A thread that loses its connection by a failed write and makes another. *)
Example C103_reconnects : socket_plays sock_init (thread_of ex_F) (mk_sockw true (Some 6)) [FD_socket 5; FD_close 5; FD_socket 6] /\
  fds_after [] [FD_socket 5; FD_close 5; FD_socket 6] = Some [6] /\ transport_state (thread_of ex_F) = Some TOpen.
Proof. split; [apply (play_sound (thread_of ex_F) sock_init [inl (KO_ok 5); inr true; inl (KO_ok 6)])|split]; vm_compute; reflexivity. Qed.

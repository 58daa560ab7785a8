(** Specification of a thread whose transport is a socket. *)
From Verif Require Import Bytes Io SpecTrace Socket SpecSocket.

(** The opens and closes of a history were answered by a socket writer (and the
    kernel): its state afterwards and what happened to descriptors.  Reads, writes,
    destroy and all else leave the descriptor alone (fstrm/unix_writer.c:141-198). *)
Inductive socket_plays : sockw -> trace -> sockw -> list fdev -> Prop :=
| sp_nil w : socket_plays w [] w []
| sp_open w k h r w1 e1 tr w2 e2 : op_open w k = (r, w1, e1) -> socket_plays w1 tr w2 e2 ->
    socket_plays w ((QOpen h, ARes r) :: tr) w2 (e1 ++ e2)
| sp_close w ok h r w1 e1 tr w2 e2 : op_close w ok = (r, w1, e1) -> socket_plays w1 tr w2 e2 ->
    socket_plays w ((QClose h, ARes r) :: tr) w2 (e1 ++ e2)
| sp_other w q a tr w2 e2 : match q with QOpen _ | QClose _ => False | _ => True end -> socket_plays w tr w2 e2 ->
    socket_plays w ((q, a) :: tr) w2 e2.

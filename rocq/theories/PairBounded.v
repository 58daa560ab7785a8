(** A writer and a capture server as in [Pair.v], over a network that holds only
    so many bytes of a connection at a time.  A transport's write (the loops
    around sendmsg, fstrm/unix_writer.c:152-190 and
    fstrm/tcp_writer.c:166-204, see Socket.v) passes its bytes to the kernel piece by
    piece as there is room and returns when the last has been taken; what has
    been taken the server may read at once (src/fstrm_capture.c:1025-1083).
    Simplification: the other direction, at most two short control frames for
    each connection, is not limited (bufferevent_write, src/fstrm_capture.c:719,
    keeps them in memory until they can be sent; the server never waits). *)
From Verif Require Import Bytes SpecTrace Io Writer Api Capture SpecCapture Pair.
Local Open Scope N_scope.

Section Bounded.
Context {A : Type}.
Notation joint := (joint (A := A)).

(** [b_in]: what the kernel has taken of the write in progress, the one the
    writer's program asks for next. *)
Record bjoint := mk_bjoint { b_joint : joint; b_in : bytes }.

(** All that has been passed to the kernel on the present connection. *)
Definition passed (b : bjoint) : bytes := sent (j_tr (b_joint b)) ++ b_in b.

(** Calls other than write are as in [Pair.v].  A write takes place in pieces; it
    fails only if the server has closed the connection and not all has been
    taken. *)
Inductive b_writer (cap : N) : bjoint -> bjoint -> Prop :=
| bw_other j j' : (forall h iov k, j_prog j <> Vis (QWrite h iov) k) -> writer_moves j j' ->
    b_writer cap (mk_bjoint j []) (mk_bjoint j' [])
| bw_put j bs h iov k i chunk : j_prog j = Vis (QWrite h iov) k -> j_id j = Some i ->
    chunk <> [] -> prefix (bs ++ chunk) (concat iov) ->
    lenN (sent (j_tr j) ++ bs ++ chunk) <= lenN (SpecCapture.received i (j_hist j)) + cap ->
    b_writer cap (mk_bjoint j bs) (mk_bjoint j (bs ++ chunk))
| bw_done j h iov k i : j_prog j = Vis (QWrite h iov) k -> j_id j = Some i ->
    b_writer cap (mk_bjoint j (concat iov))
      (mk_bjoint (answered j (QWrite h iov) k (ARes r_success) (Some i) (j_past j)) [])
| bw_fails j bs h iov k i r : j_prog j = Vis (QWrite h iov) k -> j_id j = Some i ->
    dropped j i -> r <> r_success -> bs <> concat iov ->
    b_writer cap (mk_bjoint j bs) (mk_bjoint (answered j (QWrite h iov) k (ARes r) (Some i) (j_past j)) []).

(** The server's events: of the present connection it reads what the kernel has. *)
Definition b_network (m : N) (b : bjoint) (x : ev) : Prop :=
  match x with
  | E_data i chunk => lenN chunk <= m /\
      (j_id (b_joint b) = Some i -> prefix (SpecCapture.received i (j_hist (b_joint b)) ++ chunk) (passed b)) /\
      (forall s, In (i, s) (j_past (b_joint b)) -> prefix (SpecCapture.received i (j_hist (b_joint b)) ++ chunk) s)
  | E_gone i => j_id (b_joint b) <> Some i
  | _ => True
  end.
Inductive b_server (e : env) (a : args) (m : N) (b : bjoint) (x : ev) : bjoint -> Prop :=
| bs_step c' : let j := b_joint b in
    legal a (j_hist j) (j_srv j) x -> b_network m b x -> step e a x (j_srv j) = Go c' ->
    b_server e a m b x (mk_bjoint (mk_joint (j_prog j) (j_tr j) (j_id j) (j_past j) (j_hist j ++ [x]) c') (b_in b)).

(** The first index counts the moves the writer is waiting for. *)
Inductive b_run (e : env) (a : args) (m cap : N) (b0 : bjoint) : nat -> bjoint -> Prop :=
| br_start : b_run e a m cap b0 0 b0
| br_writer n b b' : b_run e a m cap b0 n b -> b_writer cap b b' -> b_run e a m cap b0 (S n) b'
| br_own n b x b' : b_run e a m cap b0 n b -> its_own (b_joint b) x -> b_server e a m b x b' -> b_run e a m cap b0 (S n) b'
| br_other n b x b' : b_run e a m cap b0 n b -> ~ its_own (b_joint b) x -> b_server e a m b x b' -> b_run e a m cap b0 n b'.

End Bounded.

Definition b_meet (w : writer) (cs : list wcall) (H : list ev) (c : ctx) : bjoint := mk_bjoint (meet w cs H c) [].

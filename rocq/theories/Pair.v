(** A writer (fstrm/writer.c over a connected transport) and a capture server
    (src/fstrm_capture.c) joined by a network.  [Writer.v] gives the writer's
    calls to its transport, [Capture.v] the server; here are the steps of both
    together.  Simplification: the transport's write passes all its bytes to the
    kernel, its read waits for all the bytes asked for (fstrm/unix_writer.c and
    tcp_writer.c do that, see Socket.v), connecting succeeds while the server runs
    (it may be accepted much later), and the kernel's buffers are not limited. *)
From Verif Require Import Bytes SpecTrace Io Writer Api Capture SpecCapture.
Local Open Scope N_scope.

Section Pair.
(** The program that uses the writer, e.g. [do_wcalls], and its result. *)
Context {A : Type}.

(** [j_id]: the writer's present connection, by the server's name for it;
    [j_past]: those it has closed, each with what was sent on it. *)
Record joint := mk_joint {
  j_prog : io A;      (* what the writer has still to do *)
  j_tr : trace;       (* its calls so far *)
  j_id : option nat;
  j_past : list (nat * bytes);
  j_hist : list ev;   (* the server's events so far *)
  j_srv : ctx }.

(** What the writer has sent on the present connection. *)
Definition sent (tr : trace) : bytes := last (attempted tr) [].

(** The server has closed connection [i]. *)
Definition dropped (j : joint) (i : nat) : Prop :=
  accepted i (j_hist j) /\ find_conn i (x_conns (j_srv j)) = None.

(** The writer's next call is answered. *)
Definition answered (j : joint) (q : query) (k : ans -> io A) (an : ans)
  (i : option nat) (past : list (nat * bytes)) : joint :=
  mk_joint (k an) (j_tr j ++ [(q, an)]) i past (j_hist j) (j_srv j).

Inductive writer_moves : joint -> joint -> Prop :=
| wm_open j h k i : j_prog j = Vis (QOpen h) k -> ~ accepted i (j_hist j) -> ~ In i (map fst (j_past j)) ->
    writer_moves j (answered j (QOpen h) k (ARes r_success) (Some i) (j_past j))
| wm_write j h iov k i : j_prog j = Vis (QWrite h iov) k -> j_id j = Some i ->
    writer_moves j (answered j (QWrite h iov) k (ARes r_success) (Some i) (j_past j))
| wm_write_fails j h iov k i r : j_prog j = Vis (QWrite h iov) k -> j_id j = Some i -> dropped j i ->
    writer_moves j (answered j (QWrite h iov) k (ARes r) (Some i) (j_past j))
| wm_read j h n k i bs : j_prog j = Vis (QRead h n) k -> j_id j = Some i -> lenN bs = n ->
    prefix (SpecTrace.received (j_tr j) ++ bs) (concat (answers (acts_of i (x_log (j_srv j))))) ->
    writer_moves j (answered j (QRead h n) k (ARead r_success bs) (Some i) (j_past j))
| wm_read_fails j h n k i r bs : j_prog j = Vis (QRead h n) k -> j_id j = Some i -> dropped j i -> r <> r_success ->
    lenN (concat (answers (acts_of i (x_log (j_srv j))))) < lenN (SpecTrace.received (j_tr j)) + n ->
    writer_moves j (answered j (QRead h n) k (ARead r bs) (Some i) (j_past j))
| wm_close j h k i : j_prog j = Vis (QClose h) k -> j_id j = Some i ->
    writer_moves j (answered j (QClose h) k (ARes r_success) None ((i, sent (j_tr j)) :: j_past j))
| wm_destroy j h k : j_prog j = Vis (QDestroy h) k -> j_id j = None ->
    writer_moves j (answered j (QDestroy h) k (ARes r_success) None (j_past j)).

(** The server's events: of the writer's connections it reads what was sent; the
    present one does not end on the network's side.  Reads bring at most [m]
    bytes.  Everything else, all that other clients do, is arbitrary. *)
Definition network (m : N) (j : joint) (x : ev) : Prop :=
  match x with
  | E_data i chunk => lenN chunk <= m /\
      (j_id j = Some i -> prefix (SpecCapture.received i (j_hist j) ++ chunk) (sent (j_tr j))) /\
      (forall s, In (i, s) (j_past j) -> prefix (SpecCapture.received i (j_hist j) ++ chunk) s)
  | E_gone i => j_id j <> Some i
  | _ => True
  end.

Inductive server_moves (e : env) (a : args) (m : N) (j : joint) (x : ev) : joint -> Prop :=
| sm_step c' : legal a (j_hist j) (j_srv j) x -> network m j x -> step e a x (j_srv j) = Go c' ->
    server_moves e a m j x (mk_joint (j_prog j) (j_tr j) (j_id j) (j_past j) (j_hist j ++ [x]) c').

(** The moves the writer is waiting for: its own, and the server's accepting
    its connection or reading from it. *)
Definition its_own (j : joint) (x : ev) : Prop :=
  match x with E_accept i | E_data i _ => j_id j = Some i | _ => False end.

(** The first index counts these moves. *)
Inductive joint_run (e : env) (a : args) (m : N) (j0 : joint) : nat -> joint -> Prop :=
| jr_start : joint_run e a m j0 0 j0
| jr_writer n j j' : joint_run e a m j0 n j -> writer_moves j j' -> joint_run e a m j0 (S n) j'
| jr_own n j x j' : joint_run e a m j0 n j -> its_own j x -> server_moves e a m j x j' -> joint_run e a m j0 (S n) j'
| jr_other n j x j' : joint_run e a m j0 n j -> ~ its_own j x -> server_moves e a m j x j' -> joint_run e a m j0 n j'.

(** Program [p] begins at a server that has been running. *)
Definition meeting (p : io A) (H : list ev) (c : ctx) : joint := mk_joint p [] None [] H c.
End Pair.

(** Calls [cs] of writer [w] begin at a server that has been running. *)
Definition meet (w : writer) (cs : list wcall) (H : list ev) (c : ctx) : joint := meeting (do_wcalls w cs) H c.

(** An I/O thread and a capture server. *)
From Coq Require Import ZArith.
From Verif Require Import Bytes Spec SpecTrace SpecStream Io Rdwr Writer Iothr SpecIothr SpecPair Capture SpecCapture Pair PairBounded PairThread.
Local Open Scope N_scope.

(** An I/O thread [t] made with content types [cts] over a connection that can
    be read and written, and a capture server that has been through [H] and
    stores a type they agree on (as in [SpecPair.v]).  The clock shows at least
    the reopen interval. *)
Record thread_met (iov_max : N) (cts : list bytes) (rw : rdwr) (t : iothr)
  (e : env) (a : args) (m : N) (up : Z) (H : list ev) (c : ctx) : Prop := {
  th_created : created iov_max cts rw t;
  th_both : rw_has_read rw = true;
  th_up : (Z.of_N (io_reopen_interval (t_opt t)) <= up)%Z;
  th_agree : agree cts (a_ctype a);
  th_types : Forall (fun x => lenN x <= CT_MAX) cts;
  th_ready : lenN (ready_frame cts) < 512;
  th_type : lenN (a_ctype a) <= CT_MAX;
  th_room : 512 <= capture_highwater a;
  th_sends : sends e;
  th_reach : reach e a H c;
  th_reads : reads_below m H }.

(** How far the thread is. *)
Definition thread_out (x : tjoint) : out unit :=
  match tj_prog x with Ret u => Done u | Fail f => Stuck f | Vis _ _ => Cut end.

(** A move of the thread, or of the server for it. *)
Definition t_moves (e : env) (a : args) (m cap : N) (qcap : nat) (up : Z) (x x' : tjoint) : Prop :=
  t_thread qcap cap up x x' \/ exists v, its_own (b_joint (tj_net x)) v /\ t_server e a m v x x'.
(** Any moves of others: whatever else happens at the server, and users who do
    not submit anything more. *)
Inductive t_elsewhere (e : env) (a : args) (m : N) (qcap n : nat) (x0 : tjoint) : tjoint -> Prop :=
| te_start : t_elsewhere e a m qcap n x0 x0
| te_server x v x' : t_elsewhere e a m qcap n x0 x -> ~ its_own (b_joint (tj_net x)) v -> t_server e a m v x x' ->
    t_elsewhere e a m qcap n x0 x'
| te_users x x' : t_elsewhere e a m qcap n x0 x -> t_users qcap n x x' ->
    SpecIothr.accepted (tj_hist x') = SpecIothr.accepted (tj_hist x) -> t_elsewhere e a m qcap n x0 x'.
(** The thread ends whatever happens: after any moves of others the two can move,
    and whichever move they make, so on, finitely often. *)
Inductive t_ends (e : env) (a : args) (m cap : N) (qcap n : nat) (up : Z) : tjoint -> Prop :=
| en_now x : tj_prog x = Ret tt -> t_ends e a m cap qcap n up x
| en_later x : (forall y, t_elsewhere e a m qcap n x y ->
      (exists y', t_moves e a m cap qcap up y y') /\
      forall y', t_moves e a m cap qcap up y y' -> t_ends e a m cap qcap n up y') ->
    t_ends e a m cap qcap n up x.

(** The connection the thread has, or had last. *)
Definition its_conn (x : tjoint) : option nat :=
  match j_id (b_joint (tj_net x)) with
  | Some i => Some i
  | None => hd_error (map fst (j_past (b_joint (tj_net x))))
  end.

(** An I/O thread (fstrm/iothr.c, [Iothr.v]) whose writer is connected to a
    capture server (src/fstrm_capture.c, [Capture.v]) over a network as in
    [PairBounded.v], with its users who submit payloads and ask it to stop. *)
From Coq Require Import ZArith.
From Verif Require Import Bytes Spec SpecTrace Io Rdwr Writer Api Iothr SpecIothr SpecClient Capture SpecCapture SpecDeliver Pair PairBounded.
Local Open Scope N_scope.

(** [tj_net]: the thread's program with its transport, the network and the
    server; [tj_hist]: what users and thread did; [tj_sys]: the input queues and
    the flag shutting_down. *)
Record tjoint := mk_tjoint { tj_net : bjoint (A := unit); tj_hist : history; tj_sys : sys }.
Definition tj_prog (x : tjoint) : io unit := j_prog (b_joint (tj_net x)).

(** The program is replaced, everything else stays. *)
Definition resumed {A B} (b : bjoint (A := A)) (p : io B) : bjoint (A := B) :=
  let j := b_joint b in
  mk_bjoint (mk_joint p (j_tr j) (j_id j) (j_past j) (j_hist j) (j_srv j)) (b_in b).

(** A call of the thread that is not its writer's (the clock, the queues, the
    flag, the wait, releasing a buffer; fstrm/iothr.c:557-640, 338-359) is
    answered by the queues and the flag; the clock, CLOCK_MONOTONIC, shows at least
    [up] (libmy/my_time.h, fstrm/iothr.c:565-573). *)
Definition clock_shows (up : Z) (q : query) (an : ans) : Prop :=
  match q, an with QClock, AClock t => (up <= t)%Z | _, _ => True end.

(** What the thread does: a call of its writer to the transport, or another. *)
Inductive t_thread (qcap : nat) (cap : N) (up : Z) : tjoint -> tjoint -> Prop :=
| tt_call b b' H s evs : b_writer cap b b' -> j_tr (b_joint b') = j_tr (b_joint b) ++ evs ->
    t_thread qcap cap up (mk_tjoint b H s) (mk_tjoint b' (H ++ map S_thr evs) s)
| tt_own b H s q k an s' : j_prog (b_joint b) = Vis q k -> of_writer (q, an) = false ->
    ans_ok q an -> clock_shows up q an -> sys_step qcap s (S_thr (q, an)) = Some s' ->
    t_thread qcap cap up (mk_tjoint b H s) (mk_tjoint (resumed b (k an)) (H ++ [S_thr (q, an)]) s').

(** What users do: submit an ordinary payload to one of the [n] queues
    (fstrm_iothr_submit, fstrm/iothr.c:420-446), and ask for the end
    (fstrm_iothr_destroy, fstrm/iothr.c:361-366).  Submitted entries become
    visible to the thread later. *)
Definition user_event (n : nat) (u : sysev) : Prop :=
  match u with
  | S_insert i x => (i < n)%nat /\ ordinary (e_data x)
  | S_publish _ | S_shutdown => True
  | S_thr _ => False
  end.
Inductive t_users (qcap n : nat) : tjoint -> tjoint -> Prop :=
| tu_step b H s u s' : user_event n u -> sys_step qcap s u = Some s' ->
    t_users qcap n (mk_tjoint b H s) (mk_tjoint b (H ++ [u]) s').

(** What the server does. *)
Inductive t_server (e : env) (a : args) (m : N) : ev -> tjoint -> tjoint -> Prop :=
| ts_step b b' H s x : b_server e a m b x b' -> t_server e a m x (mk_tjoint b H s) (mk_tjoint b' H s).

Inductive t_run (e : env) (a : args) (m cap : N) (qcap n : nat) (up : Z) (x0 : tjoint) : tjoint -> Prop :=
| tr_start : t_run e a m cap qcap n up x0 x0
| tr_thread x x' : t_run e a m cap qcap n up x0 x -> t_thread qcap cap up x x' -> t_run e a m cap qcap n up x0 x'
| tr_users x x' : t_run e a m cap qcap n up x0 x -> t_users qcap n x x' -> t_run e a m cap qcap n up x0 x'
| tr_server x v x' : t_run e a m cap qcap n up x0 x -> t_server e a m v x x' -> t_run e a m cap qcap n up x0 x'.

(** The same without anything of the users, and without other clients' events at
    the server. *)
Inductive t_left (e : env) (a : args) (m cap : N) (qcap : nat) (up : Z) (x0 : tjoint) : tjoint -> Prop :=
| tl_start : t_left e a m cap qcap up x0 x0
| tl_thread x x' : t_left e a m cap qcap up x0 x -> t_thread qcap cap up x x' -> t_left e a m cap qcap up x0 x'
| tl_server x v x' : t_left e a m cap qcap up x0 x -> its_own (b_joint (tj_net x)) v -> t_server e a m v x x' ->
    t_left e a m cap qcap up x0 x'.

(** The thread begins at a server that has been running. *)
Definition t_meet (fuel dfuel : nat) (t : iothr) (H : list ev) (c : ctx) : tjoint :=
  mk_tjoint (mk_bjoint (meeting (iothr_life fuel dfuel t) H c) []) [] sys_init.

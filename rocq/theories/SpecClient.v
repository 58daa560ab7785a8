(** The calls in a trace of the I/O thread that belong to its writer, and an I/O
    thread that writes to a capture server. *)
From Verif Require Import Bytes Spec SpecTrace Io Rdwr Api SpecApi Iothr SystemMutex SpecSystemMutex SpecIothr System SpecSystem Capture SpecCapture SpecDeliver.

(** All but the clock, the queues, the shutdown flag, the wait and the release
    of buffers. *)
Definition of_writer (e : event) : bool :=
  match fst e with
  | QClock | QRemove _ | QShutting | QWait _ | QFree _ => false
  | _ => true
  end.
Definition writer_part (tr : trace) : trace := filter of_writer tr.

Definition payloads (W : list (nat * entry)) : list bytes := map (fun x => e_data (snd x)) W.

(** [W] holds, queue by queue and in order, all of [before] and nothing beyond
    [all]. *)
Definition in_queue_order (before W all : list (nat * entry)) : Prop :=
  forall i, prefix (of_queue i before) (of_queue i W) /\ prefix (of_queue i W) (of_queue i all).

(** An I/O thread on connection [id] to a capture server that saw [K] and got to
    [c].  The thread has ended, its transport never failed and the connection was
    made before it first looked at a queue.  [before] was accepted before the
    shutdown request, with nothing left in store buffers then; [all] was accepted
    at any time.  Three times: over the queues'
    abstract behaviour, over the steps of the lock-free queues and over those of
    the queues with a lock. *)
Inductive posted (K : list ev) (c : ctx) (id : nat) : list (nat * entry) -> list (nat * entry) -> Prop :=
| post_sys iov_max cts rw t cap fuel dfuel H s hA hB sA :
    created iov_max cts rw t -> rw_has_read rw = true ->
    system cap fuel dfuel t H s (Done tt) -> healthy (thread_of H) ->
    H = hA ++ S_shutdown :: hB -> ~ In S_shutdown hA ->
    sys_run cap sys_init hA = Some sA -> (forall i, s_pending sA i = []) ->
    connected (thread_of H) id K c ->
    posted K c id (SpecIothr.accepted hA) (SpecIothr.accepted H)
| post_steps num sz dec enc todo sch s iov_max cts rw t fuel dfuel lA lB :
    sys_setting num sz dec enc todo -> c_run (c_init num sz (fun i => map enc (todo i))) sch = Some s ->
    created iov_max cts rw t -> rw_has_read rw = true -> (forall i, queues t <= i -> todo i = []) ->
    runs (iothr_life fuel dfuel t) (calls dec (c_trace s)) (Done tt) -> healthy (calls dec (c_trace s)) ->
    c_trace s = lA ++ KE_shutdown :: lB -> ~ In KE_shutdown lA -> settled lA ->
    connected (calls dec (c_trace s)) id K c ->
    posted K c id (submitted dec lA) (submitted dec (c_trace s))
| post_locked num sz dec enc rem todo sch s iov_max cts rw t fuel dfuel lA lB :
    xsys_setting num sz dec enc todo -> x_run (x_init num sz rem (fun i => map (map enc) (todo i))) sch = Some s ->
    created iov_max cts rw t -> rw_has_read rw = true -> (forall i, queues t <= i -> todo i = []) ->
    runs (iothr_life fuel dfuel t) (xcalls dec (x_trace s)) (Done tt) -> healthy (xcalls dec (x_trace s)) ->
    x_trace s = lA ++ XE_shutdown :: lB -> ~ In XE_shutdown lA ->
    connected (xcalls dec (x_trace s)) id K c ->
    posted K c id (xsubmitted dec lA) (xsubmitted dec (x_trace s)).

(** Specification vocabulary for the I/O thread: what a trace of its calls, and a
    history of the whole system, say. *)
From Coq Require Import Permutation.
From Verif Require Import Bytes Spec SpecTrace Io SpecStream Control Rdwr Writer Api SpecApi Iothr.
Local Open Scope nat_scope.

(** Entries taken from the input queues, with the queue, and entries released. *)
Definition removed_at (e : event) : list (nat * entry) :=
  match e with (QRemove i, AEntry (Some x)) => [(i, x)] | _ => [] end.
Definition removed (tr : trace) : list (nat * entry) := flat_map removed_at tr.
Definition freed_at (e : event) : list entry := match e with (QFree x, _) => [x] | _ => [] end.
Definition freed (tr : trace) : list entry := flat_map freed_at tr.

(** Those with a free function. *)
Definition owed (es : list entry) : list entry := filter e_free es.

(** [unreleased tr held]: [held] were taken and not released so far, everything
    else that was taken has been released exactly once. *)
Definition unreleased (tr : trace) (held : list entry) : Prop :=
  subseq held (map snd (removed tr)) /\
  Permutation (owed (map snd (removed tr))) (freed tr ++ owed held).

(** Buffers of a write: the frames of entries, or one control frame. *)
Definition frames_of (es : list entry) : list bytes := flat_map (fun e => [be32 (lenN (e_data e)); e_data e]) es.
Definition control_write (iov : list bytes) : Prop := exists t cts, iov = [ctl_frame t cts].

(** Bytes of a batch on the wire. *)
Definition batch_bytes (es : list entry) : N := fold_right (fun e n => 4 + lenN (e_data e) + n)%N 0%N es.

(** The same, the first frame counted modulo 4 GiB. *)
Definition counted_bytes (es : list entry) : N :=
  match es with [] => 0 | e :: r => (4 + lenN (e_data e)) mod 2 ^ 32 + batch_bytes r end.

(** Clock readings at which an open was attempted, newest first: the last reading
    before each call of the transport's open. *)
Definition clock_step (s : option Z * list (option Z)) (e : event) : option Z * list (option Z) :=
  match e with
  | (QClock, AClock t) => (Some t, snd s)
  | (QOpen _, _) => (fst s, fst s :: snd s)
  | _ => s
  end.
Definition clock_state (tr : trace) : option Z * list (option Z) := fold_left clock_step tr (None, []).
Definition open_times (tr : trace) : list (option Z) := snd (clock_state tr).
(** All known and at least [d] apart, the oldest at least [d]. *)
Fixpoint spaced (d : Z) (ts : list (option Z)) : Prop :=
  match ts with
  | [] => True
  | Some t :: r => match r with [] => (d <= t)%Z | Some t' :: _ => (t' + d <= t)%Z | None :: _ => False end /\ spaced d r
  | None :: _ => False
  end.

(** Whether a wait timed out since shutting_down was last read. *)
Definition wait_step (b : bool) (e : event) : bool :=
  match e with
  | (QShutting, _) => false
  | (QWait _, ABool true) => true
  | _ => b
  end.
Definition timed_out (tr : trace) : bool := fold_left wait_step tr false.

(** How often the thread saw that no shutdown was requested. *)
Definition still_running (tr : trace) : nat :=
  length (filter (fun e => match e with (QShutting, ABool false) => true | _ => false end) tr).

(** What holds when a call is made, [l1] being the calls before it: [size] and
    [hint] are the limits on a batch.
    - A write carries a control frame, or frames of entries that are held at that
      moment and form a batch within the limits.
    - When the thread polls a queue or waits, what it holds is within the limits
      and is at most one entry unless the transport is open.
    - When it checks for shutdown after a wait that timed out, it holds nothing. *)
Definition within (size hint : N) (b : list entry) : Prop :=
  (lenN b <= size)%N /\ (length b <= 1 \/ (counted_bytes b < hint)%N).
Definition good (size hint : N) (l1 : trace) (e : event) : Prop :=
  match fst e with
  | QWrite _ iov => control_write iov \/
      exists held b, unreleased l1 held /\ subseq b held /\ iov = frames_of b /\ within size hint b
  | QRemove _ | QWait _ =>
      exists held, unreleased l1 held /\ within size hint held /\ (transport_state l1 <> Some TOpen -> length held <= 1)
  | QShutting => timed_out l1 = true -> unreleased l1 []
  | _ => True
  end.

(** No call failed and a START frame was written before the queues were polled. *)
Definition healthy (tr : trace) : Prop :=
  Forall ev_ok tr /\
  exists l1 hh ct l2, tr = l1 ++ (QWrite hh [start_frame ct], ARes r_success) :: l2 /\ forall i a, ~ In (QRemove i, a) l1.

(** Shutdown was seen, then each of the [n] queues was found empty; [tail] is what
    came after. *)
Definition drained (n : nat) (tr tail : trace) : Prop :=
  exists l1 l2, tr = l1 ++ (QShutting, ABool true) :: l2 ++ tail /\ forall i, i < n -> In (QRemove i, AEntry None) l2.

(** ** The whole system
    Atomic actions: an accepted insertion (possibly still in the producer's store
    buffer), its becoming visible, the shutdown request, and the thread's calls. *)
Inductive sysev :=
| S_insert (i : nat) (e : entry)
| S_publish (i : nat)
| S_shutdown
| S_thr (e : event).
Definition history := list sysev.

Record sys := mk_sys { s_pending : nat -> list entry; s_visible : nat -> list entry; s_flag : bool }.
Definition upd {A} (f : nat -> A) (i : nat) (a : A) : nat -> A := fun j => if Nat.eqb i j then a else f j.

(** Input queues of capacity [cap]; [None] = impossible. *)
Definition sys_step (cap : nat) (s : sys) (e : sysev) : option sys :=
  match e with
  | S_insert i x =>
      if Nat.ltb (length (s_pending s i) + length (s_visible s i)) cap
      then Some (mk_sys (upd (s_pending s) i (s_pending s i ++ [x])) (s_visible s) (s_flag s)) else None
  | S_publish i =>
      match s_pending s i with
      | x :: r => Some (mk_sys (upd (s_pending s) i r) (upd (s_visible s) i (s_visible s i ++ [x])) (s_flag s))
      | [] => None
      end
  | S_shutdown => Some (mk_sys (s_pending s) (s_visible s) true)
  | S_thr (QRemove i, AEntry (Some x)) =>
      match s_visible s i with
      | y :: r => if Nat.eqb (e_id x) (e_id y) && bytes_eqb (e_data x) (e_data y) && Bool.eqb (e_free x) (e_free y)
                  then Some (mk_sys (s_pending s) (upd (s_visible s) i r) (s_flag s)) else None
      | [] => None
      end
  | S_thr (QRemove i, AEntry None) => match s_visible s i with [] => Some s | _ => None end
  | S_thr (QShutting, ABool b) => if Bool.eqb b (s_flag s) then Some s else None
  | S_thr _ => Some s
  end.
Fixpoint sys_run (cap : nat) (s : sys) (h : history) : option sys :=
  match h with
  | [] => Some s
  | e :: r => match sys_step cap s e with Some s' => sys_run cap s' r | None => None end
  end.
Definition sys_init : sys := mk_sys (fun _ => []) (fun _ => []) false.

Definition thread_of (h : history) : trace := flat_map (fun e => match e with S_thr x => [x] | _ => [] end) h.
Definition accepted (h : history) : list (nat * entry) :=
  flat_map (fun e => match e with S_insert i x => [(i, x)] | _ => [] end) h.
Definition of_queue (i : nat) (l : list (nat * entry)) : list entry :=
  map snd (filter (fun x => Nat.eqb (fst x) i) l).

(** A quiet shutdown: when it is requested all insertions are visible, and none
    follow. *)
Definition quiet_shutdown (cap : nat) (h : history) : Prop :=
  exists h1 h2 s, h = h1 ++ S_shutdown :: h2 /\ sys_run cap sys_init h1 = Some s /\
    (forall i, s_pending s i = []) /\ accepted h2 = [] /\ ~ In S_shutdown h1.

(** ** Creating an iothr through the API *)

(** Calls of the option setters, and any sequence of them from the defaults. *)
Inductive oset := O_buffer_hint (v : N) | O_flush_timeout (v : N) | O_input_queue_size (v : N) | O_num_input_queues (v : N)
  | O_output_queue_size (v : N) | O_queue_model (v : qmodel) | O_notify_threshold (v : N) | O_reopen_interval (v : N).
Definition do_oset (iov_max : N) (o : iothr_options) (c : oset) : res * iothr_options :=
  match c with
  | O_buffer_hint v => set_buffer_hint o v
  | O_flush_timeout v => set_flush_timeout o v
  | O_input_queue_size v => set_input_queue_size o v
  | O_num_input_queues v => set_num_input_queues o v
  | O_output_queue_size v => set_output_queue_size iov_max o v
  | O_queue_model v => set_queue_model o v
  | O_notify_threshold v => set_notify_threshold o v
  | O_reopen_interval v => set_reopen_interval o v
  end.
Definition configured (iov_max : N) (cs : list oset) : iothr_options :=
  fold_left (fun o c => snd (do_oset iov_max o c)) cs iothr_options_default.

(** The values documented for an option in fstrm/iothr.h. *)
Definition documented (iov_max : N) (c : oset) : Prop :=
  match c with
  | O_buffer_hint v => (1024 <= v <= 65536)%N
  | O_flush_timeout v => (1 <= v <= 600)%N
  | O_input_queue_size v => (2 <= v <= 16384)%N /\ exists k, v = (2 ^ k)%N
  | O_num_input_queues v => (1 <= v)%N
  | O_output_queue_size v => (2 <= v <= iov_max)%N
  | O_queue_model v => v = QM_spsc \/ v = QM_mpsc
  | O_notify_threshold v => (1 <= v)%N
  | O_reopen_interval v => (1 <= v <= 600)%N
  end.
(** The options as a table. *)
Inductive okey := K_buffer_hint | K_flush_timeout | K_input_queue_size | K_num_input_queues | K_output_queue_size
  | K_queue_model | K_notify_threshold | K_reopen_interval.
Definition oval (k : okey) (o : iothr_options) : N + qmodel :=
  match k with
  | K_buffer_hint => inl (io_buffer_hint o) | K_flush_timeout => inl (io_flush_timeout o)
  | K_input_queue_size => inl (io_input_queue_size o) | K_num_input_queues => inl (io_num_input_queues o)
  | K_output_queue_size => inl (io_output_queue_size o) | K_queue_model => inr (io_queue_model o)
  | K_notify_threshold => inl (io_notify_threshold o) | K_reopen_interval => inl (io_reopen_interval o)
  end.
Definition oset_args (c : oset) : okey * (N + qmodel) :=
  match c with
  | O_buffer_hint v => (K_buffer_hint, inl v) | O_flush_timeout v => (K_flush_timeout, inl v)
  | O_input_queue_size v => (K_input_queue_size, inl v) | O_num_input_queues v => (K_num_input_queues, inl v)
  | O_output_queue_size v => (K_output_queue_size, inl v) | O_queue_model v => (K_queue_model, inr v)
  | O_notify_threshold v => (K_notify_threshold, inl v) | O_reopen_interval v => (K_reopen_interval, inl v)
  end.

(** [t] was created over transport [rw] with options made by setter calls (or
    none given) and content types [cts]; IOV_MAX is [iov_max]. *)
Definition created (iov_max : N) (cts : list bytes) (rw : rdwr) (t : iothr) : Prop :=
  fresh_rdwr rw /\ (2 <= iov_max < 2 ^ 30)%N /\
  exists iovm w oopt, 0 < iovm /\ writer_init iovm cts rw = Some w /\
    match oopt with Some o => exists cs, o = configured iov_max cs | None => True end /\
    iothr_init iov_max true oopt w = Ok t.

(** Number of input queues. *)
Definition queues (t : iothr) : nat := N.to_nat (io_num_input_queues (t_opt t)).

(** A history of an iothr: the queues' and the flag's answers are those of the
    system, the calls are those of the thread and of destroy ([o]: how that
    ended, not for lack of fuel), and insertions went to existing queues. *)
Definition system (cap fuel dfuel : nat) (t : iothr) (H : history) (s : sys) (o : out unit) : Prop :=
  sys_run cap sys_init H = Some s /\ runs (iothr_life fuel dfuel t) (thread_of H) o /\ o <> Stuck FFuel /\
  Forall (fun x => fst x < queues t) (accepted H).

(** The answers [k] calls for an input queue should get. *)
Definition handed_out_queues (num : N) (k : nat) : list (option N) :=
  map (fun j => if Nat.ltb j (N.to_nat num) then Some (N.of_nat j) else None) (seq 0 k).

(** A queue with [room] free places. *)
Definition slots (room : N) (e : entry) : bool * N := if (room =? 0)%N then (false, 0%N) else (true, (room - 1)%N).

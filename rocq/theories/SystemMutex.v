(** The I/O thread together with locked input queues (FSTRM_IOTHR_QUEUE_MODEL_MPSC):
    libmy/my_queue_mutex.c under fstrm/iothr.c, any number of producer threads per
    queue.  [Iothr.v] gives the thread's calls, [QueueMutex.v] each queue. *)
From Verif Require Import Bytes Io Queue QueueMutex Iothr.
Local Open Scope nat_scope.

(** What happens, in order: events of queue [i], the shutdown request becoming
    visible, and the thread's calls other than removals. *)
Inductive xev := XE_q (i : nat) (e : mev) | XE_shutdown | XE_call (e : event).

(** [x_in]: the queue on which the thread is inside my_queue_remove. *)
Record xsys := mk_xsys { x_queues : nat -> mstate; x_flag : bool; x_in : option nat; x_log : list xev (* newest first *) }.

(** Who moves: thread [j] of queue [i] (0 is the I/O thread inside my_queue_remove,
    iothr.c:353, 533; the others are producers inside my_queue_insert, iothr.c:437),
    the destroying thread (iothr.c:365), another call of the I/O thread. *)
Inductive xact := X_at (i j : nat) | X_shutdown | X_call (e : event).

Definition set_x (s : xsys) (i j : nat) (ins : option nat) : xsys :=
  let q := x_queues s i in let q' := m_step q j in
  mk_xsys (fun k => if Nat.eqb i k then q' else x_queues s k) (x_flag s) ins
    (map (XE_q i) (firstn (length (m_log q') - length (m_log q)) (m_log q')) ++ x_log s).
Definition x_inside (q : mstate) (i : nat) : option nat :=
  match nth_error (m_threads q) 0 with
  | Some t => match m_pc t with M_idle => None | _ => Some i end
  | None => None
  end.

(** [None] = impossible.  The I/O thread does one thing at a time; its reads of
    shutting_down see the current value.  Simplification: after the thread was
    joined, fstrm_iothr_destroy continues as the consumer. *)
Definition x_step (s : xsys) (a : xact) : option xsys :=
  match a with
  | X_at i 0 =>
      if match x_in s with Some k => Nat.eqb i k | None => true end
      then Some (set_x s i 0 (x_inside (m_step (x_queues s i) 0) i)) else None
  | X_at i j => Some (set_x s i j (x_in s))
  | X_shutdown => Some (mk_xsys (x_queues s) true (x_in s) (XE_shutdown :: x_log s))
  | X_call e =>
      match x_in s, e with
      | Some _, _ => None
      | None, (QRemove _, _) => None
      | None, (QShutting, ABool b) => if Bool.eqb b (x_flag s) then Some (mk_xsys (x_queues s) (x_flag s) None (XE_call e :: x_log s)) else None
      | None, _ => Some (mk_xsys (x_queues s) (x_flag s) None (XE_call e :: x_log s))
      end
  end.
Fixpoint x_run (s : xsys) (sch : list xact) : option xsys :=
  match sch with
  | [] => Some s
  | a :: r => match x_step s a with Some s' => x_run s' r | None => None end
  end.

(** fstrm/iothr.c:290-300: queues of [num] elements of [sz] bytes; [todo i] is what
    the producers of queue [i] submit, as the bytes of a struct
    fstrm__iothr_queue_entry; [rem i] bounds the number of removals. *)
Definition x_init (num : N) (sz : nat) (rem : nat -> nat) (todo : nat -> list (list bytes)) : xsys :=
  mk_xsys (fun i => m_init num sz (repeat M_rem (rem i) :: map (map M_ins) (todo i))) false None [].
Definition x_trace (s : xsys) : list xev := rev (x_log s).

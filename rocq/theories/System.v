(** The I/O thread together with its lock-free input queues: libmy/my_queue_mb.c
    under fstrm/iothr.c, any number of producer threads and the I/O thread on
    x86-TSO.  [Iothr.v] gives the thread's calls, [Queue.v] each queue. *)
From Verif Require Import Bytes Io Queue Iothr.
Local Open Scope nat_scope.

(** What happens, in order: events of queue [i], the shutdown request becoming
    visible, and the thread's calls other than removals. *)
Inductive cev := KE_q (i : nat) (e : qev) | KE_shutdown | KE_call (e : event).

(** [k_in]: the queue on which the thread is inside my_queue_remove. *)
Record csys := mk_csys { k_queues : nat -> qstate; k_flag : bool; k_in : option nat; k_log : list cev (* newest first *) }.

(** Who moves: producer [i] (fstrm/iothr.c:437, inside my_queue_insert), its store
    buffer, the thread inside my_queue_remove on queue [i] (iothr.c:353, 533), its
    store buffer, the destroying thread (iothr.c:365), another call of the thread. *)
Inductive cact := K_prod (i : nat) | K_pflush (i : nat) | K_cons (i : nat) | K_cflush (i : nat) | K_shutdown | K_call (e : event).

Definition set_q (s : csys) (i : nat) (a : qact) (inside : option nat) : csys :=
  let q := k_queues s i in let q' := q_step q a in
  mk_csys (fun j => if Nat.eqb i j then q' else k_queues s j) (k_flag s) inside
    (map (KE_q i) (firstn (length (q_log q') - length (q_log q)) (q_log q')) ++ k_log s).
Definition inside (q : qstate) (i : nat) : option nat := match c_pc (q_cons q) with C_idle => None | _ => Some i end.

(** [None] = impossible.  Producer [i] is the only one of queue [i] (iothr.h:219-223,
    FSTRM_IOTHR_QUEUE_MODEL_SPSC); the thread does one thing at a time; its reads
    of shutting_down see the current value.  Simplification: after the thread was
    joined, fstrm_iothr_destroy continues as the consumer. *)
Definition c_step (s : csys) (a : cact) : option csys :=
  match a with
  | K_prod i => Some (set_q s i (A_prod 0) (k_in s))
  | K_pflush i => Some (set_q s i (A_pflush 0) (k_in s))
  | K_cflush i => Some (set_q s i A_cflush (k_in s))
  | K_cons i =>
      if match k_in s with Some j => Nat.eqb i j | None => true end
      then Some (set_q s i A_cons (inside (q_step (k_queues s i) A_cons) i)) else None
  | K_shutdown => Some (mk_csys (k_queues s) true (k_in s) (KE_shutdown :: k_log s))
  | K_call e =>
      match k_in s, e with
      | Some _, _ => None
      | None, (QRemove _, _) => None
      | None, (QShutting, ABool b) => if Bool.eqb b (k_flag s) then Some (mk_csys (k_queues s) (k_flag s) None (KE_call e :: k_log s)) else None
      | None, _ => Some (mk_csys (k_queues s) (k_flag s) None (KE_call e :: k_log s))
      end
  end.
Fixpoint c_run (s : csys) (sch : list cact) : option csys :=
  match sch with
  | [] => Some s
  | a :: r => match c_step s a with Some s' => c_run s' r | None => None end
  end.

(** fstrm/iothr.c:290-300: queues of [num] elements of [sz] bytes; [todo i] is what
    producer [i] submits, as the bytes of a struct fstrm__iothr_queue_entry. *)
Definition c_init (num : N) (sz : nat) (todo : nat -> list bytes) : csys :=
  mk_csys (fun i => q_init num sz [todo i]) false None [].
Definition c_trace (s : csys) : list cev := rev (k_log s).

(** Specification vocabulary for the thread with locked queues: what a trace says. *)
From Verif Require Import Bytes SpecTrace Io Queue QueueMutex SpecQueue Iothr SpecIothr SystemMutex.
Local Open Scope nat_scope.

(** The calls of the thread, removals when they release the lock; [dec]: the entry
    whose struct has these bytes. *)
Definition xcalls_at (dec : bytes -> entry) (e : xev) : trace :=
  match e with
  | XE_q i (ME_unlock (0, _) _ (R_rem x _)) => [(QRemove i, AEntry (option_map dec x))]
  | XE_call c => [c]
  | _ => []
  end.
Definition xcalls (dec : bytes -> entry) (l : list xev) : trace := flat_map (xcalls_at dec) l.

(** Accepted submissions, with the queue and the producer. *)
Definition xsub_at (dec : bytes -> entry) (e : xev) : list (nat * nat * entry) :=
  match e with XE_q i (ME_unlock (S j, _) (M_ins x) (R_ins true _)) => [(i, j, dec x)] | _ => [] end.
Definition xsub (dec : bytes -> entry) (l : list xev) : list (nat * nat * entry) := flat_map (xsub_at dec) l.
Definition xsubmitted (dec : bytes -> entry) (l : list xev) : list (nat * entry) :=
  map (fun x => (fst (fst x), snd x)) (xsub dec l).
(** Those of producer [j] of queue [i]. *)
Definition of_producer (i j : nat) (l : list (nat * nat * entry)) : list entry :=
  map snd (filter (fun x => (Nat.eqb (fst (fst x)) i && Nat.eqb (snd (fst x)) j)%bool) l).

(** Queues were created, arrays are below 4 GiB, structs have their size and
    stand for entries. *)
Definition xsys_setting (num : N) (sz : nat) (dec : bytes -> entry) (enc : entry -> bytes) (todo : nat -> list (list entry)) : Prop :=
  (num < 2 ^ 32)%N /\ queue_init_ok num = true /\ (num * N.of_nat sz <= 2 ^ 32)%N /\
  forall i, Forall (Forall (fun e => length (enc e) = sz /\ dec (enc e) = e)) (todo i).

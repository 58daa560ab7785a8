(** Specification vocabulary for sleeping and waking: what a history of events
    says. *)
From Verif Require Import Bytes Wakeup.
Local Open Scope nat_scope.

Definition count (f : wev -> bool) (tr : list wev) : nat := length (filter f tr).

(** Entries in queue [i]. *)
Definition inserts (i : nat) := count (fun e => match e with V_insert j _ => Nat.eqb i j | _ => false end).
Definition removes (i : nat) := count (fun e => match e with V_remove j => Nat.eqb i j | _ => false end).
Definition outstanding (i : nat) (tr : list wev) : nat := inserts i tr - removes i tr.

Definition wakes (e : wev) : bool := match e with V_woken | V_timeout | V_spurious => true | _ => false end.
Definition sleeps (e : wev) : bool := match e with V_sleep => true | _ => false end.
(** The I/O thread went to sleep and has not run since. *)
Definition asleep (tr : list wev) : Prop := exists l1 l2, tr = l1 ++ V_sleep :: l2 /\ count wakes l2 = 0.

(** A stretch of time in which the I/O thread gets to run and a timed wait that goes
    on ends. *)
Definition fair_round (r : list wact) : Prop := In A_thread r /\ In A_timeout r.

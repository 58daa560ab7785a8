(** Specification vocabulary for the thread with its queues: what a trace says. *)
From Verif Require Import Bytes SpecTrace Io Queue SpecQueue Iothr SpecIothr System.
Local Open Scope nat_scope.

(** The calls of the thread, removals when they return; [dec]: the entry whose
    struct has these bytes. *)
Definition calls_at (dec : bytes -> entry) (e : cev) : trace :=
  match e with
  | KE_q i (E_removed x) => [(QRemove i, AEntry (Some (dec x)))]
  | KE_q i (E_empty _) => [(QRemove i, AEntry None)]
  | KE_call c => [c]
  | _ => []
  end.
Definition calls (dec : bytes -> entry) (l : list cev) : trace := flat_map (calls_at dec) l.

(** Accepted submissions, with the queue. *)
Definition submitted_at (dec : bytes -> entry) (e : cev) : list (nat * entry) :=
  match e with KE_q i (E_inserted x) => [(i, dec x)] | _ => [] end.
Definition submitted (dec : bytes -> entry) (l : list cev) : list (nat * entry) := flat_map (submitted_at dec) l.

(** The events of queue [i]. *)
Definition at_queue (i : nat) (l : list cev) : list qev :=
  flat_map (fun e => match e with KE_q j x => if Nat.eqb j i then [x] else [] | _ => [] end) l.

(** Every accepted submission has become visible. *)
Definition settled (l : list cev) : Prop :=
  forall i, published (at_queue i l) = length (SpecQueue.inserted (at_queue i l)).

(** Queues were created, arrays are below 4 GiB, structs have their size and
    stand for entries. *)
Definition sys_setting (num : N) (sz : nat) (dec : bytes -> entry) (enc : entry -> bytes) (todo : nat -> list entry) : Prop :=
  (num < 2 ^ 32)%N /\ queue_init_ok num = true /\ (num * N.of_nat sz <= 2 ^ 32)%N /\
  forall i, Forall (fun e => length (enc e) = sz /\ dec (enc e) = e) (todo i).

(** The transport calls in a trace and their answers are those of medium [ops],
    from state [m] to state [m']. *)
Definition on_transport (q : query) : bool :=
  match q with QOpen _ | QClose _ | QRead _ _ | QWrite _ _ | QDestroy _ => true | _ => false end.
Inductive on_medium {M} (ops : M -> query -> M * ans) : M -> trace -> M -> Prop :=
| om_nil m : on_medium ops m [] m
| om_call m q m1 a tr m2 : on_transport q = true -> ops m q = (m1, a) -> on_medium ops m1 tr m2 -> on_medium ops m ((q, a) :: tr) m2
| om_skip m e tr m2 : on_transport (fst e) = false -> on_medium ops m tr m2 -> on_medium ops m (e :: tr) m2.

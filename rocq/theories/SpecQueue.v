(** Specification vocabulary for the queues: what a history of events says. *)
From Verif Require Import Bytes Queue QueueMutex.
Local Open Scope nat_scope.

(** The elements whose insertion succeeded, in order, and those removed. *)
Definition inserted (tr : list qev) : list bytes :=
  flat_map (fun e => match e with E_inserted x => [x] | _ => [] end) tr.
Definition removed (tr : list qev) : list bytes :=
  flat_map (fun e => match e with E_removed x => [x] | _ => [] end) tr.

(** How many insertions were refused. *)
Definition refusals (tr : list qev) : nat :=
  length (filter (fun e => match e with E_refuse _ => true | _ => false end) tr).

(** How many insertions the consumer can know of, and how many removals the
    producer can. *)
Definition published (tr : list qev) : nat :=
  length (filter (fun e => match e with E_published => true | _ => false end) tr).
Definition freed (tr : list qev) : nat :=
  length (filter (fun e => match e with E_freed => true | _ => false end) tr).

(** Insertions visible when remove last read the producer's position. *)
Fixpoint seen_rev (log : list qev) : nat :=
  match log with
  | [] => 0
  | E_chead :: r => published (rev r)
  | _ :: r => seen_rev r
  end.
Definition seen (tr : list qev) : nat := seen_rev (rev tr).

(** Steps a schedule gives to the producer. *)
Definition prod_actions (sch : list qact) : nat :=
  length (filter (fun a => match a with A_prod 0 => true | _ => false end) sch).

(** Power of two, at least 2, as a 32-bit number. *)
Definition queue_size (num : N) : Prop := exists k, (1 <= k <= 31)%N /\ num = (2 ^ k)%N.

(** What each event must say, given the history before it: an insert goes ahead
    or refuses exactly by the number of elements not yet known to be removed, and
    reports the exact space left; a remove goes ahead or refuses exactly by the
    number of elements published when it looked, and reports the exact number
    left; what it returns is the oldest element still there. *)
Definition ev_ok (num : N) (tr : list qev) (e : qev) : Prop :=
  let cap := N.to_nat num - 1 in
  match e with
  | E_accept s => freed tr <= length (inserted tr) /\ N.to_nat s + 1 + (length (inserted tr) - freed tr) = cap
  | E_refuse s => s = 0%N /\ length (inserted tr) = freed tr + cap
  | E_inserted x => length (inserted tr) + 1 <= freed tr + cap
  | E_published => published tr < length (inserted tr)
  | E_chead => True
  | E_take c => N.to_nat c + 1 + length (removed tr) = seen tr
  | E_empty c => c = 0%N /\ seen tr = length (removed tr)
  | E_removed x => length (removed tr) < published tr /\ nth_error (inserted tr) (length (removed tr)) = Some x
  | E_freed => freed tr < length (removed tr)
  end.
Definition trace_ok (num : N) (tr : list qev) : Prop := forall l1 e l2, tr = l1 ++ e :: l2 -> ev_ok num l1 e.

(** ** Linearizability of the locked queue *)

(** The abstract queue: a list of at most [cap] elements. *)
Definition fifo_op (cap : nat) (q : list bytes) (o : mop) : mres * list bytes :=
  match o with
  | M_ins x =>
      if Nat.ltb (length q) cap then (R_ins true (N.of_nat (cap - length q - 1)), q ++ [x])
      else (R_ins false 0, q)
  | M_rem =>
      match q with
      | x :: q' => (R_rem (Some x) (lenN q'), q')
      | [] => (R_rem None 0, [])
      end
  end.

(** A sequential history is what the abstract queue does. *)
Fixpoint fifo_history (cap : nat) (q : list bytes) (l : list (callid * mop * mres)) : Prop :=
  match l with
  | [] => True
  | (_, o, r) :: l' => fst (fifo_op cap q o) = r /\ fifo_history cap (snd (fifo_op cap q o)) l'
  end.

(** [a] stands before [b] in [l]. *)
Definition before {A} (a b : A) (l : list A) : Prop := exists l1 l2 l3, l = l1 ++ a :: l2 ++ b :: l3.

(** The calls can be ordered into a sequential history of the abstract queue that
    contains every returned call with its result, only calls that were made, and
    respects real time. *)
Definition linearizable (cap : nat) (tr : list mev) : Prop :=
  exists lin : list (callid * mop * mres),
    fifo_history cap [] lin /\
    NoDup (map (fun x => fst (fst x)) lin) /\
    (forall c o r, In (ME_return c o r) tr -> In (c, o, r) lin) /\
    (forall c o r, In (c, o, r) lin -> In (ME_call c o) tr) /\
    (forall c o r c' o' r', before (ME_return c o r) (ME_call c' o') tr -> In (c', o', r') lin ->
       before (c, o, r) (c', o', r') lin).

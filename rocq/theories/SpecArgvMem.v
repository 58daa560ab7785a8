(** What the options own, for C92. *)
From Verif Require Import Bytes Mem ArgvMem.
Local Open Scope nat_scope.

(** The blocks the options' variables lead to. *)
Definition vars_own (vs : list pvar) : list blk := flat_map var_strings vs.
(** The blocks to which the program has no pointer any more. *)
Definition lost_of (s : pst) : list blk := ps_lost s.

(** How often an option that already had a string got another one. *)
Fixpoint again (seen : list nat) (l : list nat) : nat :=
  match l with
  | [] => 0
  | i :: r => (if existsb (Nat.eqb i) seen then 1 else 0) + again (i :: seen) r
  end.

(** What the environment's arguments leave behind: nothing when there are none, the text
    when it has no words ([words] = 1: a text is there, without words), the text and the
    pointers to its words when the settings say not to use it. *)
Definition env_left (when words : nat) : nat :=
  match words with 0 => 0 | 1 => 1 | _ => if Nat.leb when 1 then 0 else 2 end.

(** Specification vocabulary: the data frames that lie wholly within the first
    [room] bytes of a data section. *)
From Verif Require Import Bytes.
Local Open Scope nat_scope.

Fixpoint fit (room : nat) (ds : list bytes) : list bytes :=
  match ds with
  | [] => []
  | p :: ds' => if 4 + length p <=? room then p :: fit (room - (4 + length p)) ds' else []
  end.

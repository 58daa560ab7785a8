(** Specification vocabulary for growable arrays: a sequence of elements, the
    elements a caller has placed behind its end, and how much room it asked for. *)
From Verif Require Import Bytes Vector.
Local Open Scope N_scope.

Record vspec (A : Type) := mk_vs { vs_elems : list A; vs_behind : list A; vs_room : N }.
Arguments mk_vs {A}. Arguments vs_elems {A}. Arguments vs_behind {A}. Arguments vs_room {A}.

Definition vs_init {A} : vspec A := mk_vs [] [] 0.

(** [None]: the caller breaks the interface's contract. *)
Definition vs_op {A} (s : vspec A) (o : vop A) : option (vspec A * vret A) :=
  let c := vs_elems s in
  let b := vs_behind s in
  let r := vs_room s in
  match o with
  | V_reserve k => Some (mk_vs c b (N.max r k), VR_unit)
  | V_add e => Some (mk_vs (c ++ [e]) (skipn 1 b) (r - 1), VR_unit)
  | V_append l => Some (mk_vs (c ++ l) (skipn (length l) b) (r - lenN l), VR_unit)
  | V_reset => Some (mk_vs [] [] 0, VR_unit)
  | V_clip k => Some (mk_vs (firstn (N.to_nat k) c) (skipn (N.to_nat k) c ++ b) (r + (lenN c - k)), VR_unit)
  | V_advance k =>
      if k <=? lenN b then
        Some (mk_vs (c ++ firstn (N.to_nat k) b) (skipn (N.to_nat k) b) (r - k), VR_unit)
      else None
  | V_store l =>
      if lenN l <=? r then Some (mk_vs c (l ++ skipn (length l) b) r, VR_unit) else None
  | V_peek k => if Nat.leb k (length b) then Some (s, VR_list (firstn k b)) else None
  | V_size => Some (s, VR_n (lenN c))
  | V_value i => match nth_error c (N.to_nat i) with Some a => Some (s, VR_elem a) | None => None end
  | V_detach => Some (vs_init, VR_list c)
  end.

Fixpoint vs_run {A} (s : vspec A) (os : list (vop A)) : option (list (vret A)) :=
  match os with
  | [] => Some []
  | o :: os' =>
      match vs_op s o with
      | Some (s', r) => match vs_run s' os' with Some rs => Some (r :: rs) | None => None end
      | None => None
      end
  end.

(** Elements the array must have room for to serve an operation. *)
Definition vs_demand {A} (s : vspec A) (o : vop A) : N :=
  match o with
  | V_reserve k => lenN (vs_elems s) + k
  | V_add _ => lenN (vs_elems s) + 1
  | V_append l => lenN (vs_elems s) + lenN l
  | _ => 0
  end.

(** Twice every demand, in bytes, is below 2^63. *)
Fixpoint vs_fits {A} (sz : N) (s : vspec A) (os : list (vop A)) : Prop :=
  match os with
  | [] => True
  | o :: os' =>
      2 * vs_demand s o * sz < 2 ^ 63 /\
      match vs_op s o with Some (s', _) => vs_fits sz s' os' | None => True end
  end.

(** Specification of control frame objects as a user sees them: a history of
    calls on one object determines its type and its content types. *)
From Verif Require Import Bytes Spec.
Local Open Scope N_scope.

(** fstrm/control.h: the calls that change an object. *)
Inductive ccall := CReset | CSet (t : N) | CAdd (ct : bytes).

(** The object after a history: no type until a known one was set; the content
    types added since the last reset. *)
Inductive cbuilt : list ccall -> list bool -> option N -> list bytes -> Prop :=
| cb_nil : cbuilt [] [] None []
| cb_reset cs bs o l : cbuilt cs bs o l -> cbuilt (cs ++ [CReset]) (bs ++ [true]) None []
| cb_set cs bs o l t : cbuilt cs bs o l -> known_type t -> cbuilt (cs ++ [CSet t]) (bs ++ [true]) (Some t) l
| cb_bad cs bs o l t : cbuilt cs bs o l -> ~ known_type t -> cbuilt (cs ++ [CSet t]) (bs ++ [false]) o l
| cb_add cs bs o l ct : cbuilt cs bs o l -> cbuilt (cs ++ [CAdd ct]) (bs ++ [true]) o (l ++ [ct]).

(** How a call reports whether it was accepted. *)
Definition res_of (b : bool) : res := if b then r_success else r_failure.

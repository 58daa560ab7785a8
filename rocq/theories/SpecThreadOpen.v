(** Specification of attempts to open a transport. *)
From Verif Require Import Bytes Io SpecTrace.

(** Every attempt to open finds the transport closed: it begins a new connection. *)
Definition opens_anew (tr : trace) : Prop :=
  forall a h r b, tr = a ++ (QOpen h, r) :: b -> transport_state a = Some TClosed.

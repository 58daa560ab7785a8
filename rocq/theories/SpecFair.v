(** Specification vocabulary: in what order the I/O thread looks at its queues. *)
From Verif Require Import Bytes Spec SpecTrace Io SpecStream Control Rdwr Writer Api SpecApi Iothr SpecIothr.
Local Open Scope nat_scope.

(** The queues polled, in order. *)
Definition polls (tr : trace) : list nat :=
  flat_map (fun e => match fst e with QRemove i => [i] | _ => [] end) tr.

(** Round robin over [num] queues. *)
Definition round_robin (num : nat) (l : list nat) : Prop :=
  forall k i, nth_error l k = Some i -> i = k mod num.

(** One pass over [num] queues that found all of them empty. *)
Definition empty_pass (num : nat) : trace := map (fun i => (QRemove i, AEntry None)) (seq 0 num).

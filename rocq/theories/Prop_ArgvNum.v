(** C71: which number a text given to a numeric option stands for. *)
From Coq Require Import ZArith String.
From Verif Require Import Bytes Argv SpecArgv SpecArgvNum ArgvNum_proofs.
Import ListNotations.
Local Open Scope N_scope.

(** Every text is taken as a number: blanks are skipped, then come a sign and digits as
    far as there are any, and the rest is ignored.  That number is limited to 64 bits and
    then cut to 32. *)
Theorem C71_numbers_exactly : forall t,
  (exists s ds rest, reads_as t s ds rest) /\
  forall s ds rest, reads_as t s ds rest -> forall i, atoi t = i <-> wraps_to (clamped (signed s (number_of ds))) i.
Proof. intro t. split; [exact (every_reads t)|]. intros s ds rest R i. symmetry. exact (number_only t s ds rest i R). Qed.
Print Assumptions C71_numbers_exactly.

(** Tab, -, 42, and a unit that is ignored; no digits; too large for int; too large for long. *)
Example C71_numbers_exact_case :
  reads_as (x09 :: txt "-42s") Minus [4; 2] (txt "s") /\ atoi (x09 :: txt "-42s") = (-42)%Z /\
  reads_as (txt "ten") Unsigned [] (txt "ten") /\ atoi (txt "ten") = 0%Z /\
  reads_as (txt "+4294967297") Plus [4; 2; 9; 4; 9; 6; 7; 2; 9; 7] [] /\ atoi (txt "+4294967297") = 1%Z /\
  atoi (txt "99999999999999999999") = (-1)%Z /\ atoi (txt "-99999999999999999999") = 0%Z.
Proof.
  split; [|split; [vm_compute; reflexivity|split; [|split; [vm_compute; reflexivity|split; [|repeat split]]]]].
  - exists [x09]. split; [repeat constructor; cbn; tauto|]. split; [repeat constructor|]. split; [reflexivity|]. split; [|discriminate].
    apply no_digit. reflexivity.
  - exists []. split; [constructor|]. split; [constructor|]. split; [reflexivity|]. split; [apply no_digit; reflexivity|].
    intros _ _ [B|[B|B]]; [|discriminate..]. apply isspace_blank in B. discriminate.
  - exists []. split; [constructor|]. split; [repeat constructor|]. split; [reflexivity|]. split; [intros []|discriminate].
Qed.

(** When a connection of fstrm_capture can no longer be read, stated over the
    bytes received and how they were cut into reads. *)
From Verif Require Import Bytes Spec SpecTrace SpecStream Capture SpecCapture.
Import ListNotations.
Local Open Scope N_scope.

(** The header of a frame has arrived: four bytes of a length, and the length of
    the control frame if that is zero. *)
Definition sized (bs : bytes) : Prop :=
  4 <= lenN bs /\ (be_value (firstn 4 bs) = 0 -> 8 <= lenN bs).

(** The bytes after the last whole frame fill the buffer ([hw] bytes), and when
    the last read began the size of the frame they belong to was not known. *)
Definition clogged (hw : N) (id : nat) (H : list ev) : Prop :=
  exists H1 chunk H2 fs rest,
    H = H1 ++ E_data id chunk :: H2 /\ received id H2 = [] /\
    Forall frame_ok fs /\ received id H = wire fs ++ rest /\ incomplete rest /\ lenN rest = hw /\
    forall g, received id H1 = wire fs ++ g -> ~ sized g.

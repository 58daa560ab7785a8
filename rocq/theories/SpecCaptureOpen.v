(** When a connection of fstrm_capture is over (C61). *)
From Verif Require Import Bytes Spec SpecTrace SpecStream Capture SpecCapture.
Import ListNotations.

(** At some point FINISH had been answered on it and everything was written. *)
Definition finished (e : env) (a : args) (id : nat) (H : list ev) : Prop :=
  exists H1 H2 c, H = H1 ++ E_written id :: H2 /\ reach e a H1 c /\ In (Answer finish_frame) (acts_of id (x_log c)).
(** The peer left or the connection failed, the server hung up, or the above. *)
Definition over (e : env) (a : args) (id : nat) (H : list ev) (c : ctx) : Prop :=
  In (E_gone id) H \/ In Hangup (acts_of id (x_log c)) \/ finished e a id H.

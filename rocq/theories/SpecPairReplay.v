(** fstrm_replay and a capture server. *)
From Verif Require Import Bytes Spec SpecTrace SpecStream Io Rdwr Writer Tools SpecTools Capture SpecCapture SpecDeliver Pair PairBounded.
Local Open Scope N_scope.

(** fstrm_replay for the content type the server stores, about to send [files],
    which offer the payloads [dss], to a server that has been through [H]. *)
Record replay_met (fuel iovm : nat) (files : list bytes) (dss : list (list bytes))
  (e : env) (a : args) (m : N) (H : list ev) (c : ctx) : Prop := {
  rm_files : Forall2 (offers (a_ctype a)) files dss;
  rm_fuel : Forall (fun d => (length d <= fuel)%nat) files;
  rm_iov : (0 < iovm)%nat;
  rm_type : lenN (a_ctype a) <= CT_MAX;
  rm_room : 512 <= capture_highwater a;
  rm_sends : sends e;
  rm_reach : reach e a H c;
  rm_reads : reads_below m H }.

Definition replaying (fuel iovm : nat) (ct : bytes) (files : list bytes) (H : list ev) (c : ctx) : bjoint :=
  mk_bjoint (meeting (on_files 1 (map input files) (replay_main fuel iovm ct (length files))) H c) [].

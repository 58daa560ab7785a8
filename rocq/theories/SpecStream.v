(** Specification of what a writer may put on one opened transport, in terms of
    the wire format only. *)
From Verif Require Import Bytes Spec SpecTrace.
Local Open Scope N_scope.

Definition optl {A} (o : option A) : list A := match o with Some x => [x] | None => [] end.

Definition ready_frame (cts : list bytes) : bytes := ctl_frame T_READY cts.
Definition start_frame (ct : option bytes) : bytes := ctl_frame T_START (optl ct).
Definition stop_frame : bytes := ctl_frame T_STOP [].
Definition finish_frame : bytes := ctl_frame T_FINISH [].

(** Content type a writer configured with [cts] may announce: on a
    uni-directional stream the first one, on a handshaked one none or one of
    its own. *)
Definition start_choice (bi : bool) (cts : list bytes) (ct : option bytes) : Prop :=
  if bi then ct = None \/ exists c, ct = Some c /\ In c cts
  else ct = hd_error cts.

Definition session_head (bi : bool) (cts : list bytes) (ct : option bytes) : bytes :=
  (if bi then ready_frame cts else []) ++ start_frame ct.

(** [writer_session bi cts s ds]: [s] is an initial part, cut between frames, of
    a stream carrying exactly the payloads [ds]. *)
Inductive writer_session (bi : bool) (cts : list bytes) : bytes -> list bytes -> Prop :=
| sess_empty : writer_session bi cts [] []
| sess_ready : bi = true -> writer_session bi cts (ready_frame cts) []
| sess_started ct ds (stop : bool) : start_choice bi cts ct ->
    writer_session bi cts
      (session_head bi cts ct ++ datas ds ++ (if stop then stop_frame else [])) ds.

Arguments ready_frame : simpl never.
Arguments start_frame : simpl never.
Arguments stop_frame : simpl never.
Arguments finish_frame : simpl never.
Arguments session_head : simpl never.
Arguments datas : simpl never.
Arguments start_choice : simpl never.

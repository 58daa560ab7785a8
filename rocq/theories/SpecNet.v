(** What two ends of a handshaked connection are expected to do. *)
From Verif Require Import Bytes Spec SpecStream SpecReader Io Control Rdwr Writer Reader Api SpecApi.
Local Open Scope N_scope.

(** [W]: the writer's content types, [R]: the reader's. *)
Inductive handshake := H_agree | H_reader_refuses | H_writer_refuses.

Definition common (W R : list bytes) : Prop := exists c, In c W /\ In c R.

(** The writer's first content type decides. *)
Definition handshake_outcome (W R : list bytes) (h : handshake) : Prop :=
  match h with
  | H_agree => W = [] \/ R = [] \/ exists w0, hd_error W = Some w0 /\ In w0 R
  | H_reader_refuses => W <> [] /\ R <> [] /\ ~ common W R
  | H_writer_refuses => common W R /\ forall w0, hd_error W = Some w0 -> ~ In w0 R
  end.

(** Result of a writer call while the stream stays open. *)
Definition wresult (c : wcall) : res :=
  match c with
  | WGetControl t => if (t =? 1) || (t =? 2) || (t =? 4) || (t =? 5) then r_success else r_failure
  | _ => r_success
  end.

(** The calls that open a fresh writer. *)
Definition opens_writer (c : wcall) : Prop :=
  match c with
  | WOpen | WWrite _ | WGetControl _ => True
  | WWritev ps => ps <> []
  | WClose => False
  end.

(** A writer with content types [W] and a reader with options [o], both on
    bi-directional transports, whose READY and ACCEPT frames can be encoded. *)
Record pair_ok (iovm : nat) (W : list bytes) (rww : rdwr) (w : writer) (o : reader_options) (rwr : rdwr) (r : reader) : Prop := {
  po_iov : (0 < iovm)%nat;
  po_fw : fresh_rdwr rww; po_wr : rw_has_read rww = true; po_w : writer_init iovm W rww = Some w;
  po_fr : fresh_rdwr rwr; po_rw : rw_has_write rwr = true; po_r : reader_init o rwr = Some r;
  po_ready : fits true T_READY W; po_accept : fits true T_ACCEPT (ro_cts o)
}.

(** Specification of the Frame Streams wire format, written from the protocol
    description in fstrm/fstrm.h and fstrm/control.h (the documentation, not
    the code).  Mentions nothing of the model. *)
From Verif Require Import Bytes.
Local Open Scope N_scope.

(** Big-endian 32-bit integers. *)
Definition be32 (n : N) : bytes :=
  [ byte_of_N (n / 2 ^ 24); byte_of_N (n / 2 ^ 16); byte_of_N (n / 2 ^ 8); byte_of_N n ].

(** Value of a big-endian byte string. *)
Definition be_value (b : bytes) : N :=
  fold_left (fun acc x => acc * 256 + to_N x) b 0.

(** Control frame types and the only field type. *)
Definition T_ACCEPT : N := 1.
Definition T_START  : N := 2.
Definition T_STOP   : N := 3.
Definition T_READY  : N := 4.
Definition T_FINISH : N := 5.
Definition F_CONTENT_TYPE : N := 1.

Definition CTL_MAX : N := 512.   (* FSTRM_CONTROL_FRAME_LENGTH_MAX *)
Definition CT_MAX  : N := 256.   (* FSTRM_CONTROL_FIELD_CONTENT_TYPE_LENGTH_MAX *)

(** One "Content Type" field: type, length, bytes. *)
Definition ct_field (ct : bytes) : bytes := be32 F_CONTENT_TYPE ++ be32 (lenN ct) ++ ct.

(** Control frame payload. *)
Definition ctl_payload (t : N) (cts : list bytes) : bytes :=
  be32 t ++ concat (map ct_field cts).

(** Control frame with its escape and length. *)
Definition ctl_frame (t : N) (cts : list bytes) : bytes :=
  be32 0 ++ be32 (lenN (ctl_payload t cts)) ++ ctl_payload t cts.

(** Either form, depending on the "with header" flag. *)
Definition ctl_wire (hdr : bool) (t : N) (cts : list bytes) : bytes :=
  if hdr then ctl_frame t cts else ctl_payload t cts.

(** Data frame. *)
Definition data_frame (p : bytes) : bytes := be32 (lenN p) ++ p.

(** Which control types exist. *)
Definition known_type (t : N) : Prop :=
  t = T_ACCEPT \/ t = T_START \/ t = T_STOP \/ t = T_READY \/ t = T_FINISH.

(** What a control frame may contain. *)
Record ctl_ok (t : N) (cts : list bytes) : Prop := {
  ok_type  : known_type t;
  ok_len   : Forall (fun ct => lenN ct <= CT_MAX) cts;
  ok_total : lenN (ctl_payload t cts) <= CTL_MAX;
  ok_start : t = T_START -> (length cts <= 1)%nat;
  ok_stop  : t = T_STOP \/ t = T_FINISH -> cts = []
}.

(** The content types a frame of type [t] may carry out of those stored. *)
Definition visible (t : N) (cts : list bytes) : list bytes :=
  if t =? T_START then firstn 1 cts
  else if (t =? T_STOP) || (t =? T_FINISH) then []
  else cts.

(** Payloads that can travel in a data frame. *)
Definition data_ok (p : bytes) : Prop := 1 <= lenN p /\ lenN p < 2 ^ 32.

(** The size limits a frame must respect to be encoded (the header, if any,
    counts against the 512 bytes). *)
Definition fits (hdr : bool) (t : N) (cts : list bytes) : Prop :=
  Forall (fun ct => lenN ct <= CT_MAX) cts /\ lenN (ctl_wire hdr t cts) <= CTL_MAX.

(** "Content type [m] ([None] = none given) is acceptable to a frame of type [t]
    listing [cts]". *)
Definition matches (t : N) (cts : list bytes) (m : option bytes) : Prop :=
  t <> T_STOP /\ t <> T_FINISH /\
  (cts = [] \/ exists s, m = Some s /\ In s cts).

Arguments be32 : simpl never.
Arguments ct_field : simpl never.
Arguments ctl_payload : simpl never.
Arguments ctl_frame : simpl never.
Arguments data_frame : simpl never.

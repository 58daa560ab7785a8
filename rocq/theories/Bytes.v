(** Bytes, lengths and the "undefined behaviour is an outcome" result type used
    by all model files.  No fstrm code is modelled here except the byte order
    helpers at the end. *)
From Coq Require Export List NArith ZArith Arith Lia Bool.
From Coq Require Export ZifyBool ZifyNat ZifyN.
From Coq Require Export Init.Byte.
From Coq Require Strings.Byte.
Export ListNotations.

Notation to_N := Strings.Byte.to_N.

Definition bytes := list byte.

(** Length of a list as an [N] (C [size_t] quantities). *)
Definition lenN {A} (l : list A) : N := N.of_nat (length l).

(** The byte holding the low 8 bits of [n]. *)
Definition byte_of_N (n : N) : byte :=
  match Strings.Byte.of_N (n mod 256) with
  | Some b => b
  | None => x00
  end.

(** Why a run of the model is not a defined execution of the C program. *)
Inductive ub_reason :=
| ub_load_oob        (* load outside an object *)
| ub_store_oob       (* store outside an object *)
| ub_index_oob       (* array index out of range *)
| ub_uninit          (* use of an indeterminate value *)
| ub_null            (* NULL dereference *)
| ub_overflow        (* signed overflow *)
| ub_uaf             (* use after free / join of a thread never created *)
| ub_contract.       (* the transport broke its documented contract *)

Inductive fail :=
| FUb (u : ub_reason)
| FFuel              (* the model's loop budget ran out: not a C behaviour *)
| FAbort             (* assert() failed: the process aborts *)
| FWrong.            (* ill-typed answer to a query: excluded by [ans_ok] *)

Inductive outc (A : Type) :=
| Ok (a : A)
| Err (f : fail).
Arguments Ok {A} a.
Arguments Err {A} f.

Definition obind {A B} (x : outc A) (f : A -> outc B) : outc B :=
  match x with
  | Ok a => f a
  | Err e => Err e
  end.

(** fstrm/fstrm.h:261-276 [fstrm_res]. *)
Inductive res := r_success | r_failure | r_again | r_invalid | r_stop.

Definition res_eqb (a b : res) : bool :=
  match a, b with
  | r_success, r_success | r_failure, r_failure | r_again, r_again
  | r_invalid, r_invalid | r_stop, r_stop => true
  | _, _ => false
  end.

Definition byte_eqb (a b : byte) : bool := (to_N a =? to_N b)%N.

Fixpoint bytes_eqb (a b : bytes) : bool :=
  match a, b with
  | [], [] => true
  | x :: a', y :: b' => byte_eqb x y && bytes_eqb a' b'
  | _, _ => false
  end.

(** arpa/inet.h [htonl] followed by a 4-byte memmove, as used in
    fstrm/fstrm-private.h:95-108 and fstrm/writer.c:336-352: the 32-bit value
    [v mod 2^32] stored most significant byte first. *)
Definition htonl_bytes (v : N) : bytes :=
  [ byte_of_N (N.shiftr v 24); byte_of_N (N.shiftr v 16);
    byte_of_N (N.shiftr v 8);  byte_of_N v ].

(** 4-byte memmove followed by [ntohl], fstrm/fstrm-private.h:80-93 and
    fstrm/reader.c:281-292. *)
Definition ntohl_bytes (b : bytes) : N :=
  match b with
  | b0 :: b1 :: b2 :: b3 :: _ =>
      N.lor (N.shiftl (to_N b0) 24)
     (N.lor (N.shiftl (to_N b1) 16)
     (N.lor (N.shiftl (to_N b2) 8) (to_N b3)))
  | _ => 0
  end%N.

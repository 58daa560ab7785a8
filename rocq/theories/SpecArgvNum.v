(** What number a text stands for, for C71. *)
From Coq Require Import ZArith.
From Verif Require Import Bytes Argv SpecArgv.
Import ListNotations.
Local Open Scope N_scope.

(** Space, and the control characters from tab to carriage return. *)
Definition blank (b : byte) : Prop := In b [x20; x09; x0a; x0b; x0c; x0d].
Inductive sign := Plus | Minus | Unsigned.
Definition sign_text (s : sign) : bytes := match s with Plus => [x2b] | Minus => [x2d] | Unsigned => [] end.
Definition signed (s : sign) (n : N) : Z := match s with Minus => - Z.of_N n | _ => Z.of_N n end.
Definition is_digit (b : byte) : Prop := exists d, d < 10 /\ b = digit d.
Definition starts_with (P : byte -> Prop) (l : bytes) : Prop := match l with [] => False | b :: _ => P b end.

(** The text is blanks, a sign, the digits [ds], and a rest that is ignored. *)
Definition reads_as (t : bytes) (s : sign) (ds : list N) (rest : bytes) : Prop :=
  exists bl, Forall blank bl /\ Forall (fun d => d < 10) ds /\ t = bl ++ sign_text s ++ map digit ds ++ rest /\
    ~ starts_with is_digit rest /\
    (s = Unsigned -> ds = [] -> ~ starts_with (fun b => blank b \/ b = x2b \/ b = x2d) rest).

(** A number that fits long, as an int: a multiple of 2^32 away. *)
Definition clamped (z : Z) : Z := Z.max (- 2 ^ 63) (Z.min (2 ^ 63 - 1) z).
Definition wraps_to (z i : Z) : Prop := int_range i /\ exists k, z = (i + k * 2 ^ 32)%Z.

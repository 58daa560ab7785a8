(** Specification vocabulary for times, printed text and option texts. *)
From Verif Require Import Bytes Misc.
Local Open Scope Z_scope.

Definition nanos (t : timespec) : Z := tv_sec t * 1000000000 + tv_nsec t.
Definition normal (t : timespec) : Prop := 0 <= tv_nsec t < 1000000000.

(** Nanoseconds slept for a list of requests and the kernel's answers. *)
Fixpoint slept (rs : list timespec) (ks : list knap) : Z :=
  match rs, ks with
  | r :: rs', KN_done :: ks' => nanos r + slept rs' ks'
  | r :: rs', KN_intr m :: ks' => (nanos r - nanos m) + slept rs' ks'
  | _, _ => 0
  end.

(** Printable ASCII. *)
Definition printable (c : byte) : Prop := (32 <= to_N c <= 126)%N.

(** The C string at the start of an array. *)
Fixpoint c_string (a : bytes) : bytes :=
  match a with
  | [] => []
  | c :: r => if byte_eqb c x00 then [] else c :: c_string r
  end.

Local Open Scope N_scope.

(** Digits of a base (ASCII) and the number written by a list of digits, most
    significant first. *)
Inductive digit : N -> byte -> N -> Prop :=
| dig_dec b c : 48 <= to_N c <= 57 -> to_N c - 48 < b -> digit b c (to_N c - 48)
| dig_upper b c : 65 <= to_N c <= 90 -> to_N c - 55 < b -> digit b c (to_N c - 55)
| dig_lower b c : 97 <= to_N c <= 122 -> to_N c - 87 < b -> digit b c (to_N c - 87).

Inductive digits (b : N) : bytes -> N -> Prop :=
| digits_one c d : digit b c d -> digits b [c] d
| digits_more s v c d : digits b s v -> digit b c d -> digits b (s ++ [c]) (v * b + d).

(** C integer constants: decimal without leading zero, octal with, hexadecimal. *)
Inductive numeral : bytes -> N -> Prop :=
| num_dec c s v : c <> x30 -> digits 10 (c :: s) v -> numeral (c :: s) v
| num_oct s v : digits 8 (x30 :: s) v -> numeral (x30 :: s) v
| num_hex x s v : x = x78 \/ x = x58 -> digits 16 s v -> numeral (x30 :: x :: s) v.

(** Texts the port option accepts: blanks, a sign, a numeral; a negative numeral
    stands for its 64-bit two's complement. *)
Inductive port_text : bytes -> N -> Prop :=
| port_plain ws s v : Forall (fun c => to_N c = 32 \/ 9 <= to_N c <= 13) ws -> numeral s v -> port_text (ws ++ s) v
| port_plus ws s v : Forall (fun c => to_N c = 32 \/ 9 <= to_N c <= 13) ws -> numeral s v -> port_text (ws ++ x2b :: s) v
| port_minus ws s v : Forall (fun c => to_N c = 32 \/ 9 <= to_N c <= 13) ws -> numeral s v -> v < 2 ^ 64 ->
    port_text (ws ++ x2d :: s) ((2 ^ 64 - v) mod 2 ^ 64).

(** [shown t s]: the text [t] spells the bytes [s], one after the other: a quote
    by a backslash and a quote, a printable character other than a quote by
    itself, any other byte by [\x] and its two hexadecimal digits, most
    significant first. *)
Inductive shown : bytes -> bytes -> Prop :=
| sh_nil : shown [] []
| sh_quote t s : shown t s -> shown (x5c :: x22 :: t) (x22 :: s)
| sh_plain c t s : printable c -> c <> x22 -> shown t s -> shown (c :: t) (c :: s)
| sh_hex c a b t s : ~ printable c -> digits 16 [a; b] (to_N c) -> shown t s -> shown (x5c :: x78 :: a :: b :: t) (c :: s).

(** [escape c e]: [e] is how the unprintable byte [c] is printed, [\x] and two
    hexadecimal digits without capitals. *)
Inductive escape : byte -> bytes -> Prop :=
| esc_hex c a b : ~ printable c -> digits 16 [a; b] (to_N c) ->
    Forall (fun d => to_N d < 65 \/ 97 <= to_N d) [a; b] -> escape c [x5c; x78; a; b].

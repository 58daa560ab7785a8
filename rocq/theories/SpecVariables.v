(** Specification of what --argv-display prints. *)
From Coq Require Import ZArith String.
From Verif Require Import Bytes Argv Usage SpecUsage Messages Variables SpecMisc.
Import ListNotations.

(** How a text with escapes is read, as in C: a letter or mark after a backslash, or
    three octal digits. *)
Definition escape_letters : list (byte * N) :=
  [ (x65, 27); (x5e, 94); (x22, 34); (x27, 39); (x5c, 92); (x6e, 10); (x72, 13); (x74, 9); (x62, 8); (x66, 12); (x61, 7) ]%N.
Definition octal_of (d : byte) (n : N) : Prop := (n < 8 /\ to_N d = 48 + n)%N.
Inductive reads : bytes -> bytes -> Prop :=
| reads_end : reads [] []
| reads_plain c w s : c <> x5c -> reads w s -> reads (c :: w) (c :: s)
| reads_letter l c w s : In (l, to_N c) escape_letters -> reads w s -> reads (x5c :: l :: w) (c :: s)
| reads_octal d1 d2 d3 n1 n2 n3 c w s : octal_of d1 n1 -> octal_of d2 n2 -> octal_of d3 n3 -> (to_N c = 64 * n1 + 8 * n2 + n3)%N ->
    reads w s -> reads (x5c :: d1 :: d2 :: d3 :: w) (c :: s).

(** Nothing a terminal would not show as one character. *)
Definition visible (w : bytes) : Prop := Forall (fun c => (32 <= to_N c <= 126)%N) w.

(** [w] shows the string [s], or its beginning if that takes the buffer. *)
Definition shows_string (s w : bytes) : Prop :=
  visible w /\ exists p r, s = p ++ r /\ reads w p /\ (r = [] \/ (251 <= List.length w <= 255)%nat).

(** [w] shows a number. *)
Definition shows_number (z : Z) (w : bytes) : Prop :=
  exists m, digits 10 m (Z.abs_N z) /\ w = (if (z <? 0)%Z then txt "-" else []) ++ m.

(** A line: name, type, value. *)
Definition kind_text (o : opt) : bytes :=
  (match o_kind o with K_bool => txt "flag" | K_incr => txt "increment" | K_str => txt "string" | K_int => txt "integer" | K_none => [] end)
  ++ (if o_array o then txt " array" else []).
Definition var_row (e : entry) (value : bytes) : bytes :=
  pad 18 (if bare e then txt "--" ++ opt_text (o_long (u_opt e)) else txt "[-" ++ [o_short (u_opt e)] ++ value_text e ++ txt "]")
  ++ pad 17 (txt " " ++ kind_text (u_opt e)) ++ value ++ [Usage.nl].
Definition has_room (e : entry) : Prop :=
  o_kind (u_opt e) <> K_none /\ if bare e then (List.length (opt_text (o_long (u_opt e))) <= 16)%nat /\ o_long (u_opt e) <> None else (List.length (value_text e) <= 14)%nat.

(** One value is shown. *)
Inductive shows_value : value -> bytes -> Prop :=
| shows_true : shows_value (V_bool true) (txt "true (! 0)")
| shows_false : shows_value (V_bool false) (txt "false (0)")
| shows_int z w : shows_number z w -> shows_value (V_int z) w
| shows_unset : shows_value (V_str None) (txt "(null)")
| shows_str s w : shows_string s w -> shows_value (V_str (Some s)) w
| shows_empty : shows_value (V_arr []) (txt "no entries")
| shows_arr s w : shows_string s w -> shows_value (V_arr [s]) w
| shows_more s w l ws : l <> [] -> shows_string s w -> shows_value (V_arr l) ws -> shows_value (V_arr (s :: l)) (w ++ txt "," ++ ws).

(** All options of a table with their values, in its order. *)
Inductive shows_table : list entry -> list value -> bytes -> Prop :=
| shows_end : shows_table [] [] []
| shows_sep e t v vals w : is_sep (u_opt e) = true -> shows_table t vals w -> shows_table (e :: t) (v :: vals) w
| shows_line e t v vals x w : is_sep (u_opt e) = false -> shows_value v x -> shows_table t vals w ->
    shows_table (e :: t) (v :: vals) (var_row e x ++ w).

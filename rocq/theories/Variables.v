(** Model of libmy/argv.c: what --argv-display prints, the options and their values. *)
From Coq Require Import ZArith String.
From Verif Require Import Bytes Argv Usage Messages.
Import ListNotations.
Local Open Scope Z_scope.

(** libmy/argv_loc.h:74 SPECIAL_CHARS, as pairs. *)
Definition SPECIAL_CHARS : list (byte * byte) :=
  [ (x65, x1b); (x5e, x5e); (x22, x22); (x27, x27); (x5c, x5c); (x6e, x0a); (x72, x0d); (x74, x09); (x62, x08); (x66, x0c); (x61, x07) ].
Definition spec_of (c : byte) : option byte :=
  match find (fun p => byte_eqb (snd p) c) SPECIAL_CHARS with Some (l, _) => Some l | None => None end.
(** isprint() in the C locale. *)
Definition is_print (c : byte) : bool := (32 <=? to_N c)%N && (to_N c <=? 126)%N.
Definition oct_digit (n : N) : byte := byte_of_N (48 + n mod 8).

(** Bytes [at_], ..., [at_ + n - 1] of a buffer of [size] bytes are written. *)
Definition in_buf (size at_ n : nat) : bool := (at_ + n <=? size)%nat.

(** libmy/argv.c:446-510 [expand_buf] with buf_size < 0 on a string of the bytes [s]:
    what it has written, [k] bytes having been written before; [None]: it writes
    outside the buffer (snprintf() also writes a NUL).  Lengths are below 2^31. *)
Fixpoint expand_buf (out_size k : nat) (s : bytes) : option bytes :=
  match s with
  | [] => Some []
  | c :: s =>
      let put (room : nat) (w : bytes) :=
        if in_buf out_size k room then
          match expand_buf out_size (k + List.length w) s with Some r => Some (w ++ r) | None => None end
        else None in
      match spec_of c with
      | Some l => if (out_size <=? k + 3)%nat then Some [] else put 3%nat [x5c; l]
      | None =>
          if (to_N c <? 128)%N && is_print c then
            if (out_size <=? k + 1)%nat then Some [] else put 1%nat [c]
          else if (out_size <=? k + 5)%nat then Some []
          else put 5%nat [x5c; oct_digit (N.shiftr (to_N c) 6); oct_digit (N.shiftr (to_N c) 3); oct_digit (to_N c)]
      end
  end.

(** libmy/argv.c:1738: buf[256]. *)
Definition BUF : nat := 256.
(** A fixed text into the buffer, with its NUL (strncpy pads to the end). *)
Definition put_text (s : bytes) : option bytes := if in_buf BUF 0 (List.length s + 1) then Some s else None.
(** snprintf("%d"). *)
Definition show_int (z : Z) : bytes := (if z <? 0 then txt "-" else []) ++ dec (Z.abs_N z).

(** libmy/argv.c:1488-1715 [value_to_string] for the types of the tables. *)
Definition value_to_string (v : value) : option bytes :=
  match v with
  | V_bool b => put_text (if b then txt "true (! 0)" else txt "false (0)")
  | V_int z => Some (show_int z)     (* an int takes at most 12 bytes of the 256 *)
  | V_str None => put_text (txt "(null)")
  | V_str (Some s) => expand_buf BUF 0 s
  | V_arr _ => Some []
  end.

(** libmy/argv_loc.h:165-202, the names of the types. *)
Definition type_name (k : kind) : option bytes :=
  match k with
  | K_bool => Some (txt "flag")
  | K_incr => Some (txt "increment")
  | K_str => Some (txt "string")
  | K_int => Some (txt "integer")
  | K_none => None
  end.
Definition ARRAY_LABEL : bytes := txt " array".

(** libmy/argv.c:1804-1835: the entries of an array, with commas between them. *)
Fixpoint entries (first : bool) (l : list bytes) : option bytes :=
  match l with
  | [] => Some []
  | s :: l =>
      match value_to_string (V_str (Some s)), entries false l with
      | Some a, Some b => Some ((if first then [] else txt ",") ++ a ++ b)
      | _, _ => None
      end
  end.
Definition show_value (v : value) : option bytes :=
  match v with
  | V_arr [] => Some (txt "no entries")
  | V_arr l => entries true l
  | _ => value_to_string v
  end.

(** libmy/argv.c:1741-1836, one option; no table has an ARGV_MAND entry. *)
Definition variable_line (e : entry) (v : value) : option bytes :=
  let o := u_opt e in
  let '(first, col) :=
    if byte_eqb (o_short o) x00 then
      match o_long o with
      | None => ([], 0)
      | Some n => let len := COMMENT_COLUMN - (lenZ LONG_PREFIX + 1) in
                  (LONG_PREFIX ++ cut len n, lenZ LONG_PREFIX + Z.min len (lenZ n))
      end
    else display_option e 0 in
  let '(gap1, col) := if col <? LONG_COLUMN then (spaces (LONG_COLUMN - col), LONG_COLUMN) else ([], col) in
  let '(type, col) :=
    match type_name (o_kind o) with
    | None => ([], col)
    | Some n => let len := COMMENT_COLUMN - col - 1 in
                let (arr, more) := if o_array o then (ARRAY_LABEL, lenZ ARRAY_LABEL) else ([], 0) in
                ([sp] ++ cut len n ++ arr, col + Z.min len (lenZ n) + more)
    end in
  let gap2 := if col <? COMMENT_COLUMN then spaces (COMMENT_COLUMN - col) else [] in
  match show_value v with
  | Some s => Some (first ++ gap1 ++ type ++ gap2 ++ s ++ [Usage.nl])
  | None => None
  end.

(** libmy/argv.c:1732-1837 [display_variables]; [vals] are the variables of the options. *)
Fixpoint display_variables (t : list entry) (vals : list value) : option bytes :=
  match t, vals with
  | e :: t, v :: vals =>
      match (if is_sep (u_opt e) then Some [] else variable_line e v), display_variables t vals with
      | Some a, Some b => Some (a ++ b)
      | _, _ => None
      end
  | _, _ => Some []
  end.

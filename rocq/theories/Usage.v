(** Model of the usage texts of libmy/argv.c for tables of the kinds of Argv.v.
    [argv_error_stream] is stderr.  Lengths are below 2^31, so that int does not
    overflow. *)
From Coq Require Import ZArith String.
From Verif Require Import Bytes Argv.
Import ListNotations.
Local Open Scope Z_scope.

(** libmy/argv.h:72-86 [argv_t] with the two texts Argv.v leaves out. *)
Record entry := mk_entry {
  u_opt : opt;
  u_label : option bytes;       (* ar_var_label *)
  u_comment : option bytes }.   (* ar_comment *)

(** libmy/argv_loc.h:72, 128-137. *)
Definition SCREEN_WIDTH : Z := 79.
Definition LONG_COLUMN : Z := 18.
Definition COMMENT_COLUMN : Z := 34.
Definition USAGE_LABEL : bytes := txt "Usage: ".
Definition LONG_LABEL : bytes := txt "or ".
Definition UNKNOWN_ARG : bytes := txt "??".
Definition LONG_PREFIX : bytes := txt "--".
Definition SHORT_PREFIX : bytes := txt "-".

Definition lenZ (s : bytes) : Z := Z.of_nat (List.length s).
Definition nl : byte := x0a.
Definition sp : byte := x20.

(** printf("%-.*s", len, s): a negative precision is as if there were none. *)
Definition cut (len : Z) (s : bytes) : bytes := if len <? 0 then s else firstn (Z.to_nat len) s.
(** printf("%*.*s", n, n, "") for n >= 0. *)
Definition spaces (n : Z) : bytes := repeat sp (Z.to_nat n).

(** libmy/argv_loc.h:149-153 [HAS_ARG]. *)
Definition has_arg (o : opt) : bool := match o_kind o with K_bool | K_incr => false | _ => true end.

(** libmy/argv.c:729-783 [display_arg]: what is printed, and the column after it. *)
Definition display_arg (e : entry) (max col : Z) : bytes * Z :=
  match o_kind (u_opt e) with
  | K_str | K_int =>
      let len := max - col in
      let s := match u_label e with Some l => l | None => UNKNOWN_ARG end in
      (cut len s, col + Z.min len (lenZ s))
  | K_bool | K_incr | K_none => ([], col)
  end.

(** libmy/argv.c:807-832 [display_option]. *)
Definition display_option (e : entry) (col : Z) : bytes * Z :=
  let o := u_opt e in
  let col := col + 1 + (lenZ SHORT_PREFIX + 1) in
  let head := txt "[" ++ SHORT_PREFIX ++ [o_short o] in
  let '(gap, col) := if has_arg o then ([sp], col + 1) else ([], col) in
  let (arg, col) := display_arg e (LONG_COLUMN - 1) col in
  (head ++ gap ++ arg ++ txt "]", col + 1).

(** libmy/argv.c:862-939, the body of the loop of [usage_long] for an entry that is
    no separator; SHORT_COLUMN is 0. *)
Definition long_line (e : entry) : bytes :=
  let o := u_opt e in
  let bare := byte_eqb (o_short o) x00 in
  let '(first, col) :=
    if bare then (txt "[", 1)
    else
      let (s, col) := display_option e 0 in
      if col <? LONG_COLUMN then (s ++ spaces (LONG_COLUMN - col), LONG_COLUMN) else (s, col) in
  let '(name, col) :=
    match o_long o with
    | None => ([], col)
    | Some n =>
        let len := COMMENT_COLUMN - col - (lenZ LONG_PREFIX + 1) in
        let '(lab, col, len) := if bare then ([], col, len) else (LONG_LABEL, col + lenZ LONG_LABEL, len - lenZ LONG_LABEL) in
        (lab ++ LONG_PREFIX ++ cut len n, col + lenZ LONG_PREFIX + Z.min len (lenZ n))
    end in
  let '(value, col) :=
    if bare then
      let '(gap, col) := if has_arg o then ([sp], col + 1) else ([], col) in
      let (arg, col) := display_arg e (COMMENT_COLUMN - 1) col in
      (gap ++ arg ++ txt "]", col + 1)
    else ([], col) in
  let comment :=
    match u_comment e with
    | None => []
    | Some c =>
        let '(gap, col) := if col <? COMMENT_COLUMN then (spaces (COMMENT_COLUMN - col), COMMENT_COLUMN) else ([], col) in
        gap ++ cut (SCREEN_WIDTH - col) c
    end in
  first ++ name ++ value ++ comment ++ [nl].

(** libmy/argv.c:847-941 [usage_long]. *)
Definition usage_long (prog : bytes) (t : list entry) : bytes :=
  USAGE_LABEL ++ prog ++ [nl] ++
  concat (map (fun e => if is_sep (u_opt e) then [] else long_line e) t).

(** libmy/argv.c:544-602 [usage_short], the first loop: the flags.  [mark] is mark_b. *)
Definition new_line : bytes := nl :: spaces (lenZ USAGE_LABEL).
Fixpoint short_flags (t : list entry) (col : Z) (mark : bool) : bytes * Z * bool :=
  match t with
  | [] => ([], col, mark)
  | e :: t =>
      let o := u_opt e in
      if is_sep o || has_arg o || byte_eqb (o_short o) x00 then short_flags t col mark
      else
        let '(s0, col) :=
          if mark then ([], col)
          else if SCREEN_WIDTH - 2 <? col + (2 + lenZ SHORT_PREFIX)
            then (new_line ++ txt "[" ++ SHORT_PREFIX, lenZ USAGE_LABEL + (1 + lenZ SHORT_PREFIX))
            else (txt " [" ++ SHORT_PREFIX, col + (2 + lenZ SHORT_PREFIX)) in
        let '(s1, col) :=
          if SCREEN_WIDTH - 1 <? col + 1
            then (txt "]" ++ new_line ++ txt "[" ++ SHORT_PREFIX, lenZ USAGE_LABEL + 1 + lenZ SHORT_PREFIX)
            else ([], col) in
        let '(s2, col, mark) := short_flags t (col + 1) true in
        (s0 ++ s1 ++ [o_short o] ++ s2, col, mark)
  end.

(** libmy/argv.c:609-694, the second loop: the options with a value.  None of the
    kinds is a bool with a value. *)
Fixpoint short_args (t : list entry) (col : Z) : bytes :=
  match t with
  | [] => []
  | e :: t =>
      let o := u_opt e in
      if is_sep o || negb (has_arg o) then short_args t col
      else
        let s := match u_label e with Some l => l | None => UNKNOWN_ARG end in
        let len := 2 + lenZ SHORT_PREFIX + 1 in
        let '(s0, col) :=
          if SCREEN_WIDTH <? col + len then (new_line ++ txt "[", lenZ USAGE_LABEL + (len - 1)) else (txt " [", col + len) in
        let len := 1 + lenZ s + 1 in
        let '(s1, col) :=
          if SCREEN_WIDTH <? col + len then (new_line, lenZ USAGE_LABEL + (len - 1)) else (txt " ", col + len) in
        s0 ++ SHORT_PREFIX ++ [o_short o] ++ s1 ++ s ++ txt "]" ++ short_args t col
  end.

(** libmy/argv.c:529-696 [usage_short], without the reminder of ARGV_USAGE_SHORT_REM. *)
Definition usage_short (prog : bytes) (t : list entry) : bytes :=
  let '(s1, col, mark) := short_flags t (lenZ USAGE_LABEL + lenZ prog) false in
  let '(s2, col) := if mark then (txt "]", col + 1) else ([], col) in
  USAGE_LABEL ++ prog ++ s1 ++ s2 ++ short_args t col ++ [nl].

(** src/fstrm_capture.c:141-217 and src/fstrm_replay.c:56-98, the texts of the
    tables of Argv.v; a separator has none. *)
Definition texts (l : list (option bytes * option bytes)) (g : grid) : list entry :=
  map (fun p => mk_entry (fst p) (fst (snd p)) (snd (snd p))) (combine g l).
Definition flag (c : string) : option bytes * option bytes := (None, Some (txt c)).
Definition takes (l c : string) : option bytes * option bytes := (Some (txt l), Some (txt c)).
Definition capture_table : list entry := texts [
  flag "display this help text and exit"; flag "increment debugging level";
  takes "<STRING>" "Frame Streams content type"; takes "<FILENAME>" "Unix socket path to read from";
  takes "<ADDRESS>" "TCP socket address to read from"; takes "<PORT>" "TCP socket port to read from";
  takes "<SIZE>" "read buffer size, in bytes (default 262144)"; takes "<COUNT>" "maximum concurrent connections allowed";
  takes "<FILENAME>" "file path to write Frame Streams data to"; takes "<SECONDS>" "seconds before rotating output file";
  flag "filter -w path with strftime (local time)"; flag "filter -w path with strftime (UTC)"] capture_grid.
Definition replay_table : list entry := texts [
  flag "display this help text and exit"; takes "<STRING>" "Frame Streams content type";
  takes "<FILENAME>" "Unix socket path to write to"; (None, None);
  takes "<ADDRESS>" "TCP socket address to write to"; takes "<PORT>" "TCP socket port to write to";
  takes "<FILE>" "Files to read Frame Streams data from"] replay_grid.

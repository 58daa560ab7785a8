(** Model of libmy/argv.c: the options the parser has of its own, and the words
    usage= and error= of the variable GLOBAL_ARGV, which choose what is displayed. *)
From Coq Require Import ZArith String.
From Verif Require Import Bytes Argv ArgvEnv Usage.
Import ListNotations.

(** libmy/argv.h:182-188, without ARGV_USAGE_DEFAULT, which no variable can have. *)
Inductive style := U_none | U_see | U_short | U_short_rem | U_long | U_all.

Definition line (s : string) : bytes := txt s ++ [nl].
(** libmy/argv.c:985-1006. *)
Definition hints : list string := [
  "Use '--usage' for default usage information."; "Use '--usage-short' for short usage information.";
  "Use '--usage-long' for long usage information."; "Use '--usage-all' for all usage information.";
  "Use '--help' to display the help message."; "Use '--version' to display the version message.";
  "Use '--argv-display' to display the options and their values."]%string.

(** libmy/argv.c:961-1010 [do_usage] with 699-704 of [usage_short]. *)
Definition do_usage (prog : bytes) (t : list entry) (f : style) : bytes :=
  match f with
  | U_none => []
  | U_see => spaces (lenZ USAGE_LABEL) ++ line "Use the '--usage' argument for assistance."
  | U_short => usage_short prog t
  | U_short_rem => usage_short prog t ++ spaces (lenZ USAGE_LABEL) ++ line "Use the '--usage' argument for more assistance."
  | U_long => usage_long prog t
  | U_all => usage_long prog t ++ [nl] ++ concat (map line hints)
  end.

(** libmy/argv.c:106 and 114: argv_usage_type and argv_error_type. *)
Record styles := mk_styles { st_usage : style; st_error : style }.
Definition default_styles : styles := mk_styles U_long U_long.

(** libmy/argv.c:3008-3037 and 3058-3081, one word of GLOBAL_ARGV (ArgvEnv.v has the
    other words; no two prefixes are alike); anything else is a message. *)
Definition style_word (c : styles) (t : bytes) : styles :=
  match strip (txt "error=") t with
  | Some v =>
      if bytes_eqb v (txt "none") then mk_styles (st_usage c) U_none
      else if bytes_eqb v (txt "see") then mk_styles (st_usage c) U_see
      else if bytes_eqb v (txt "short") then mk_styles (st_usage c) U_short
      else if bytes_eqb v (txt "shortrem") then mk_styles (st_usage c) U_short_rem
      else if bytes_eqb v (txt "long") then mk_styles (st_usage c) U_long
      else if bytes_eqb v (txt "all") then mk_styles (st_usage c) U_all
      else c
  | None =>
  match strip (txt "usage=") t with
  | Some v =>
      if bytes_eqb v (txt "short") then mk_styles U_short (st_error c)
      else if bytes_eqb v (txt "shortrem") then mk_styles U_short_rem (st_error c)
      else if bytes_eqb v (txt "long") then mk_styles U_long (st_error c)
      else if bytes_eqb v (txt "all") then mk_styles U_all (st_error c)
      else c
  | None => c
  end end.
(** libmy/argv.c:2896-3092 [process_env]. *)
Definition styles_of (v : option bytes) : styles :=
  match v with
  | None => default_styles
  | Some s => fold_left style_word (vectorize global_sep s) default_styles
  end.

(** What an option of the parser itself displays before exit(0).  For display_variables()
    see Variables.v. *)
Inductive display := Text (s : bytes) | Variables.

(** libmy/argv.c:2550-2633: a long option that no entry of the table has; [help] and
    [version] are argv_help_string and argv_version_string.  [None]: an unknown option. *)
Definition own_option (prog : bytes) (t : list entry) (help version : option bytes) (st : styles) (name : bytes) : option display :=
  if is_prefix name (txt "usage") || is_prefix name (txt "help") then Some (Text (do_usage prog t (st_usage st)))
  else if is_prefix name (txt "usage-short") then Some (Text (do_usage prog t U_short))
  else if is_prefix name (txt "usage-long") then Some (Text (do_usage prog t U_long))
  else if is_prefix name (txt "usage-all") then Some (Text (do_usage prog t U_all))
  else if is_prefix name (txt "help") then
    Some (Text (prog ++ txt ": " ++ match help with Some h => h | None => txt "I'm sorry, no help is available." end ++ [nl]))
  else if is_prefix name (txt "version") then
    Some (Text (prog ++ txt ": " ++ match version with Some v => v | None => txt "no version information is available." end ++ [nl]))
  else if is_prefix name (txt "argv-display") then Some Variables
  else None.

(** libmy/argv.c:2695-2699: "-?", if no entry has the short name '?'. *)
Definition own_char (prog : bytes) (t : list entry) (st : styles) (c : byte) : option display :=
  if byte_eqb c x3f then Some (Text (do_usage prog t (st_usage st))) else None.

(** libmy/argv.c:3241-3245: a command line with an error, before exit(argv_error_code). *)
Definition on_error (prog : bytes) (t : list entry) (st : styles) : bytes := do_usage prog t (st_error st).

(** Model of what libmy/argv.c takes from the environment: the variable
    ARGV_<PROGRAM>, whose words are arguments, and the variable GLOBAL_ARGV, which
    changes how arguments are read.  Argv.v is the parser with GLOBAL_ARGV unset.

    The "C" locale (neither program calls setlocale()).  Texts of messages and the
    settings "error=" and "usage=", which only choose such texts, are left out. *)
From Coq Require Import ZArith String.
From Verif Require Import Bytes Control Misc Capture Startup Argv.
Import ListNotations.
Local Open Scope N_scope.

(** libmy/argv.c:83-139, the variables GLOBAL_ARGV may change: argv_close_enable_b,
    argv_last_toggle_b, argv_multi_accept_b, argv_process_env_b, argv_env_after_b. *)
Record settings := mk_set { se_close : bool; se_toggle : bool; se_multi : bool; se_env : bool; se_after : bool }.
Definition default_settings : settings := mk_set true false true true false.

(** libmy/argv.c:370-380 and 2921-2930: strsep() until it returns NULL, empty tokens
    skipped; [sep] tells the separators, [cur] is the token so far, backwards. *)
Fixpoint tokens (sep : byte -> bool) (cur s : bytes) : list bytes :=
  match s with
  | [] => [rev cur]
  | b :: r => if sep b then rev cur :: tokens sep [] r else tokens sep (b :: cur) r
  end.
(** libmy/argv.c:358-418 [vectorize]. *)
Definition vectorize (sep : byte -> bool) (s : bytes) : list bytes :=
  filter (fun t => match t with [] => false | _ => true end) (tokens sep [] s).

(** strncmp(p, s, strlen(p)) == 0, then s += strlen(p). *)
Definition strip (p s : bytes) : option bytes :=
  if is_prefix p s then Some (skipn (List.length p) s) else None.
(** The words of libmy/argv.c:2936-2948. *)
Definition is_off (v : bytes) : bool :=
  bytes_eqb v (txt "disable") || bytes_eqb v (txt "off") || bytes_eqb v (txt "no") || bytes_eqb v (txt "0").
Definition is_on (v : bytes) : bool :=
  bytes_eqb v (txt "enable") || bytes_eqb v (txt "on") || bytes_eqb v (txt "yes") || bytes_eqb v (txt "1").

(** libmy/argv.c:2931-3088, one word of GLOBAL_ARGV; anything else is a message. *)
Definition set_word (c : settings) (t : bytes) : settings :=
  match strip (txt "close=") t with
  | Some v =>
      if is_off v then mk_set false (se_toggle c) (se_multi c) (se_env c) (se_after c)
      else if is_on v then mk_set true (se_toggle c) (se_multi c) (se_env c) (se_after c) else c
  | None =>
  match strip (txt "lasttog=") t with
  | Some v =>
      if is_off v then mk_set (se_close c) false (se_multi c) (se_env c) (se_after c)
      else if is_on v then mk_set (se_close c) true (se_multi c) (se_env c) (se_after c) else c
  | None =>
  match strip (txt "env=") t with
  | Some v =>
      if bytes_eqb v (txt "none") then mk_set (se_close c) (se_toggle c) (se_multi c) false false
      else if bytes_eqb v (txt "before") then mk_set (se_close c) (se_toggle c) (se_multi c) true false
      else if bytes_eqb v (txt "after") then mk_set (se_close c) (se_toggle c) (se_multi c) true true else c
  | None =>
  match strip (txt "multi=") t with
  | Some v =>
      if bytes_eqb v (txt "reject") then mk_set (se_close c) (se_toggle c) false (se_env c) (se_after c)
      else if bytes_eqb v (txt "accept") then mk_set (se_close c) (se_toggle c) true (se_env c) (se_after c) else c
  | None => c
  end end end end.

(** libmy/argv.c:2896-3092 [process_env]; the separators are " \t,:". *)
Definition global_sep (b : byte) : bool := byte_eqb b x20 || byte_eqb b x09 || byte_eqb b x2c || byte_eqb b x3a.
Definition process_env (v : option bytes) : settings :=
  match v with
  | None => default_settings
  | Some s => fold_left set_word (vectorize global_sep s) default_settings
  end.

(** libmy/argv.c:3157-3174: what follows the last '/' of argv[0], at most
    PROGRAM_NAME bytes of it; [cand] is [prog_p]. *)
Definition PROGRAM_NAME : nat := 256.
Fixpoint prog_from (cand s : bytes) : bytes :=
  match s with
  | [] => cand
  | b :: r => if byte_eqb b x2f then prog_from r r else prog_from cand r
  end.
Definition program (argv0 : bytes) : bytes := firstn PROGRAM_NAME (prog_from argv0 argv0).
(** toupper() of islower() letters. *)
Definition upper (b : byte) : byte :=
  if (97 <=? to_N b) && (to_N b <=? 122) then byte_of_N (to_N b - 32) else b.
(** libmy/argv.c:2851-2860: the name of the variable, in an array of 1024. *)
Definition env_name (argv0 : bytes) : bytes := map upper (firstn 1023 (txt "ARGV_" ++ program argv0)).
Definition blank (b : byte) : bool := byte_eqb b x20 || byte_eqb b x09.
(** libmy/argv.c:2844-2877 [preprocess_env_args]. *)
Definition env_words (getenv : bytes -> option bytes) (argv0 : bytes) : list bytes :=
  match getenv (env_name argv0) with None => [] | Some s => vectorize blank s end.

(** ** The parser of Argv.v under given settings *)
Section Settings.
Variable c : settings.
Variable g : grid.
Variable cap : nat.

(** libmy/argv.c:2305-2322: an option used again. *)
Definition again (i : nat) (s : astate) : astate :=
  match nth_error g i with
  | Some o => if negb (se_multi c) && used s i && negb (o_array o) && negb (match o_kind o with K_incr => true | _ => false end)
              then bad s else s
  | None => s
  end.
(** libmy/argv.c:2302-2359. *)
Definition c_do_arg (i : nat) (close : option bytes) (s : astate) : ares := do_arg g cap i close (again i s).
(** libmy/argv.c:2471-2478 and 2656-2663. *)
Definition c_split (a : bytes) : bytes * option bytes := if se_close c then split_eq a else (a, None).

(** libmy/argv.c:2693-2767. *)
Fixpoint c_short_chars (whole : bytes) (first : bool) (cs : bytes) (close : option bytes) (s : astate) : ares :=
  match cs with
  | [] => A_go s
  | b :: r =>
      match find_short g 0 b with
      | Some i =>
          match c_do_arg i close s with
          | A_go s' => c_short_chars whole false r close s'
          | x => x
          end
      | None =>
          if byte_eqb b x3f then A_exit 0
          else
            match (if first && is_number whole then s_queue s else []) with
            | None :: _ => A_ub UB_null
            | Some i :: q =>
                match nth_error g i with
                | Some o =>
                    match o_kind o with
                    | K_int => A_go (store g i (Some whole) (mk_astate (s_vals s) (s_used s) q (s_head s) (s_ok s) (s_past s)))
                    | _ => c_short_chars whole false r close (bad s)
                    end
                | None => c_short_chars whole false r close (bad s)
                end
            | [] => c_short_chars whole false r close (bad s)
            end
      end
  end.

Variable file_args : bytes -> astate -> ares.

(** libmy/argv.c:2462-2650. *)
Definition c_long_option (name : bytes) (close : option bytes) (s : astate) : ares :=
  match name with
  | [] => A_go (bad s)
  | _ =>
      match long_matches g 0 name with
      | [i] => c_do_arg i close s
      | _ :: _ :: _ => A_go (bad s)
      | [] =>
          if is_prefix name (txt "argv-file") then
            match close with
            | Some path => file_args path s
            | None => enqueue cap None s
            end
          else if special name then A_exit 0
          else A_go (bad s)
      end
  end.

(** libmy/argv.c:2462-2801. *)
Definition c_arg1 (a : bytes) (s : astate) : ares :=
  if is_prefix (txt "--") a then
    let '(p, close) := c_split a in c_long_option (skipn 2 p) close s
  else if is_prefix (txt "-") a && negb (lenN a =? 1) then
    let '(p, close) := c_split a in
    match skipn 1 p with
    | [] => A_go (bad s)
    | cs => c_short_chars p true cs close s
    end
  else plain_arg g file_args a s.

(** libmy/argv.c:2435-2841 [do_list]; 2447-2459: "--" ends the options, and with
    argv_last_toggle_b the next one resumes them. *)
Fixpoint c_do_list_with (last : bool) (args : list bytes) (s : astate) : ares :=
  match args with
  | [] => A_go s
  | a :: r =>
      if bytes_eqb a (txt "--") && (negb last || se_toggle c) then c_do_list_with (negb last) r s
      else
        let x := if last then plain_arg g file_args a s else c_arg1 a s in
        match x with
        | A_go s' => c_do_list_with last r s'
        | y => y
        end
  end.
End Settings.

(** libmy/argv.c:2164-2283 [file_args] and [do_list]. *)
Fixpoint c_do_list (c : settings) (g : grid) (cap : nat) (files : bytes -> option bytes) (fuel : nat) (args : list bytes) (s : astate) : ares :=
  c_do_list_with c g cap
    (fun path s =>
       match fuel with
       | O => A_deep
       | S f => match files path with
                | None => A_exit 1
                | Some content => c_do_list c g cap files f (file_lines content) s
                end
       end) false args s.

(** libmy/argv.c:3119-3250 [argv_process_no_env] and 3273-3290 [argv_process].  [argv]:
    all the arguments, argv[0] first; if there is not even that, NULL is read.  The
    words of the variable count for the queue even if they are not used. *)
Inductive eres := E_res (r : result) | E_null.
Definition argv_env (g : grid) (files : bytes -> option bytes) (fuel : nat) (getenv : bytes -> option bytes) (argv : list bytes) : eres :=
  match argv with
  | [] => E_null
  | argv0 :: args =>
      let c := process_env (getenv (txt "GLOBAL_ARGV")) in
      let ws := env_words getenv argv0 in
      let cap := (1 + List.length args + List.length ws)%nat in
      let before := if se_env c && negb (se_after c) then ws else [] in
      let after := if se_env c && se_after c then ws else [] in
      let fin (s : astate) :=
        if s_ok s && check_mand g (s_used s) && (match s_queue s with [] => true | _ => false end) && check_xor g (s_used s) false None
        then Parsed (s_vals s) (s_past s) else Exited 1 in
      let of (x : ares) (k : astate -> result) :=
        match x with A_go s => k s | A_exit n => Exited n | A_ub u => Undef u | A_deep => Too_deep end in
      E_res (of (c_do_list c g cap files fuel before (start g)) (fun s =>
             of (c_do_list c g cap files fuel args s) (fun s =>
             of (c_do_list c g cap files fuel after s) fin)))
  end.

(** Model of the command line parser libmy/argv.c as fstrm_capture and
    fstrm_replay use it: a table of options, the arguments, the options of the
    environment variable ARGV_<PROGRAM>, files of arguments.

    The settings are the defaults of libmy/argv.c:60-139 (interactive, closed
    values enabled, repeated options accepted, environment first); the variable
    GLOBAL_ARGV, which changes them, is taken to be unset.  The positional kinds
    ARGV_MAND and ARGV_MAYBE and the option types no table of the programs uses
    are left out.  Messages are left out.  malloc() succeeds.  Strings are the
    bytes before their NUL. *)
From Coq Require Import ZArith String.
From Verif Require Import Bytes Control Misc Capture Startup.
Import ListNotations.
Local Open Scope N_scope.

Definition txt (s : string) : bytes := list_byte_of_string s.

(** libmy/argv.h:153-175; [K_none] is the type 0 of a separator. *)
Inductive kind := K_bool | K_incr | K_str | K_int | K_none.

(** libmy/argv.h:72-86 [argv_t]; the name '\0' is [x00]. *)
Record opt := mk_opt {
  o_short : byte;
  o_long : option bytes;
  o_kind : kind;
  o_array : bool;        (* ARGV_FLAG_ARRAY *)
  o_mand : bool }.       (* ARGV_FLAG_MAND *)
Definition grid := list opt.       (* without the ARGV_LAST entry *)

(** libmy/argv.h:115-147. *)
Definition ARGV_LAST : byte := xff.
Definition ARGV_OR : byte := xfc.
Definition ARGV_XOR : byte := xfb.
Definition is_sep (o : opt) : bool := byte_eqb (o_short o) ARGV_OR || byte_eqb (o_short o) ARGV_XOR.
Definition is_xor (o : opt) : bool := byte_eqb (o_short o) ARGV_XOR.

(** The variables the table points to. *)
Inductive value := V_bool (b : bool) | V_int (z : Z) | V_str (s : option bytes) | V_arr (l : list bytes).

(** [s_queue] holds the options that wait for a value, oldest first ([None] is the
    file argument), [s_head] counts all that were ever queued. *)
Record astate := mk_astate {
  s_vals : list value;
  s_used : list bool;            (* ARGV_FLAG_USED *)
  s_queue : list (option nat);
  s_head : nat;
  s_ok : bool;                   (* okay_b *)
  s_past : bool }.               (* ghost: an entry behind the table was read *)

Inductive aub := UB_queue        (* write behind queue_list *)
               | UB_null.        (* NULL->ar_type *)
Inductive ares :=
| A_go (s : astate)
| A_exit (status : N)
| A_ub (u : aub)
| A_deep.                        (* files of arguments nested too deeply *)

Fixpoint set_nth {A} (n : nat) (x : A) (l : list A) : list A :=
  match l, n with
  | [], _ => []
  | _ :: r, O => x :: r
  | y :: r, S n' => y :: set_nth n' x r
  end.

(** strncmp(p, s, strlen(p)) == 0. *)
Fixpoint is_prefix (p s : bytes) : bool :=
  match p, s with
  | [], _ => true
  | a :: p', b :: s' => byte_eqb a b && is_prefix p' s'
  | _, [] => false
  end.

(** (int) strtol(s, NULL, 10) of the C library, which is what atoi() is there (ISO C
    leaves values outside int undefined): leading space, a sign, digits. *)
Definition to_int (z : Z) : Z := ((z + 2 ^ 31) mod 2 ^ 32 - 2 ^ 31)%Z.
Definition dec_digit (b : byte) : option N :=
  let n := to_N b in if (48 <=? n) && (n <=? 57) then Some (n - 48) else None.
Fixpoint dec_value (acc : N) (s : bytes) : N :=
  match s with
  | [] => acc
  | b :: r => match dec_digit b with Some d => dec_value (10 * acc + d) r | None => acc end
  end.
Definition atoi (s : bytes) : Z :=
  let t := skip_space s in
  let neg := is_prefix (txt "-") t in
  let u := if neg || is_prefix (txt "+") t then skipn 1 t else t in
  let v := Z.of_N (dec_value 0 u) in
  to_int (if neg then Z.max (- 2 ^ 63) (- v) else Z.min (2 ^ 63 - 1) v).

(** libmy/argv.c:1271-1276. *)
Definition truth (s : bytes) : bool :=
  match s with
  | [] => false
  | b :: _ => byte_eqb b x74 || byte_eqb b x54 || byte_eqb b x79 || byte_eqb b x59 || byte_eqb b x31
  end.

(** libmy/argv.c:1199-1466 [string_to_value]: the new content of the variable; [None]
    is the error for an unknown type.  An array gets a new last entry. *)
Definition string_to_value (k : kind) (array : bool) (arg : option bytes) (old : value) : option value :=
  match k with
  | K_bool => Some (V_bool (match arg with None => true | Some s => truth s end))
  | K_incr => Some (V_int (match arg, old with
                           | None, V_int z => to_int (z + 1)
                           | None, _ => 1
                           | Some s, _ => atoi s
                           end))
  | K_str => let s := match arg with Some s => s | None => [] end in
             Some (if array then V_arr (match old with V_arr l => l ++ [s] | _ => [s] end) else V_str (Some s))
  | K_int => Some (V_int (atoi (match arg with Some s => s | None => [] end)))
  | K_none => None
  end.
(** libmy/argv_loc.h:149-153 HAS_ARG. *)
Definition has_arg (k : kind) : bool := match k with K_bool | K_incr => false | _ => true end.

Section Grid.
Variable g : grid.

Definition bad (s : astate) : astate := mk_astate (s_vals s) (s_used s) (s_queue s) (s_head s) false (s_past s).
Definition store (i : nat) (arg : option bytes) (s : astate) : astate :=
  match nth_error g i, nth_error (s_vals s) i with
  | Some o, Some old =>
      match string_to_value (o_kind o) (o_array o) arg old with
      | Some v => mk_astate (set_nth i v (s_vals s)) (s_used s) (s_queue s) (s_head s) (s_ok s) (s_past s)
      | None => bad s
      end
  | _, _ => bad s
  end.

Definition used (s : astate) (i : nat) : bool := nth i (s_used s) false.
Definition sep_at (i : nat) : bool := match nth_error g i with Some o => is_sep o | None => false end.

(** libmy/argv.c:1863-1895 [check_or]: whether an alternative was used before. *)
Fixpoint or_below (fuel : nat) (s : astate) (i : nat) : bool :=
  match fuel, i with
  | S f, S (S j) => if sep_at (S j) then (if used s j then true else or_below f s j) else false
  | _, _ => false
  end.
Fixpoint or_above (fuel : nat) (s : astate) (i : nat) : bool :=
  match fuel with
  | O => false
  | S f =>
      if (List.length g <=? i + 2)%nat then false        (* ARGV_LAST or behind it *)
      else if sep_at (i + 1) then (if used s (i + 2) then true else or_above f s (i + 2)) else false
  end.
Definition check_or (s : astate) (i : nat) : bool :=
  or_below (List.length g) s i || or_above (List.length g) s i.
(** Whether the second loop reads the entry behind ARGV_LAST: it looks at
    [arg_p->ar_short_arg] before [(arg_p - 1)->ar_short_arg]. *)
Fixpoint reads_past (fuel : nat) (s : astate) (i : nat) : bool :=
  match fuel with
  | O => false
  | S f =>
      if (List.length g <? i + 2)%nat then true
      else if (List.length g =? i + 2)%nat then false
      else if sep_at (i + 1) then (if used s (i + 2) then false else reads_past f s (i + 2)) else false
  end.

(** The queue has room for [cap] entries in all (libmy/argv.c:3188-3197). *)
Variable cap : nat.
Definition enqueue (x : option nat) (s : astate) : ares :=
  if (s_head s <? cap)%nat
  then A_go (mk_astate (s_vals s) (s_used s) (s_queue s ++ [x]) (S (s_head s)) (s_ok s) (s_past s))
  else A_ub UB_queue.

(** libmy/argv.c:2324-2335: the option is used; an alternative of it must not be. *)
Definition mark (i : nat) (s : astate) : astate :=
  let s1 := mk_astate (s_vals s) (set_nth i true (s_used s)) (s_queue s) (s_head s) (s_ok s) (s_past s) in
  mk_astate (s_vals s1) (s_used s1) (s_queue s1) (s_head s1)
    (s_ok s1 && negb (check_or s1 i))
    (s_past s1 || (negb (or_below (List.length g) s1 i) && reads_past (List.length g) s1 i)).

(** libmy/argv.c:2302-2359 [do_arg]. *)
Definition do_arg (i : nat) (close : option bytes) (s : astate) : ares :=
  let s := mark i s in
  match close with
  | Some v => A_go (store i (Some v) s)
  | None =>
      match nth_error g i with
      | Some o => if has_arg (o_kind o) then enqueue (Some i) s else A_go (store i None s)
      | None => A_go s
      end
  end.

(** libmy/argv.c:2382-2403 [is_number], NUMBER_ARG_CHARS. *)
Definition is_number (s : bytes) : bool :=
  match s with [] => false | _ => forallb (fun b => existsb (byte_eqb b) (txt "0123456789+-.")) s end.

Fixpoint find_short (l : grid) (i : nat) (c : byte) : option nat :=
  match l with
  | [] => None
  | o :: r => if byte_eqb (o_short o) c then Some i else find_short r (S i) c
  end.

(** libmy/argv.c:2693-2767: the characters of a short option; [whole] is the argument
    up to a '='. *)
Fixpoint short_chars (whole : bytes) (first : bool) (cs : bytes) (close : option bytes) (s : astate) : ares :=
  match cs with
  | [] => A_go s
  | c :: r =>
      match find_short g 0 c with
      | Some i =>
          match do_arg i close s with
          | A_go s' => short_chars whole false r close s'
          | x => x
          end
      | None =>
          if byte_eqb c x3f then A_exit 0
          else
            match (if first && is_number whole then s_queue s else []) with
            | None :: _ => A_ub UB_null
            | Some i :: q =>
                match nth_error g i with
                | Some o =>
                    match o_kind o with
                    | K_int => A_go (store i (Some whole) (mk_astate (s_vals s) (s_used s) q (s_head s) (s_ok s) (s_past s)))
                    | _ => short_chars whole false r close (bad s)
                    end
                | None => short_chars whole false r close (bad s)
                end
            | [] => short_chars whole false r close (bad s)
            end
      end
  end.

(** The entries a long option may mean. *)
Fixpoint long_matches (l : grid) (i : nat) (name : bytes) : list nat :=
  match l with
  | [] => []
  | o :: r =>
      match o_long o with
      | Some n => if is_prefix name n then i :: long_matches r (S i) name else long_matches r (S i) name
      | None => long_matches r (S i) name
      end
  end.

(** strchr(arg, '='): the text before it and, if there is one, after it. *)
Fixpoint split_eq (s : bytes) : bytes * option bytes :=
  match s with
  | [] => ([], None)
  | b :: r => if byte_eqb b x3d then ([], Some r) else let '(a, v) := split_eq r in (b :: a, v)
  end.

(** The names the parser knows by itself that end the program with status 0
    (libmy/argv.c:2557-2640; libmy/argv_loc.h:110-117). *)
Definition special (name : bytes) : bool :=
  is_prefix name (txt "usage") || is_prefix name (txt "help") || is_prefix name (txt "usage-short") ||
  is_prefix name (txt "usage-long") || is_prefix name (txt "usage-all") || is_prefix name (txt "version") ||
  is_prefix name (txt "argv-display").

Variable file_args : bytes -> astate -> ares.

(** libmy/argv.c:2462-2650: a long option, [name] is what follows "--" up to '='. *)
Definition long_option (name : bytes) (close : option bytes) (s : astate) : ares :=
  match name with
  | [] => A_go (bad s)
  | _ =>
      match long_matches g 0 name with
      | [i] => do_arg i close s
      | _ :: _ :: _ => A_go (bad s)
      | [] =>
          if is_prefix name (txt "argv-file") then
            match close with
            | Some path => file_args path s
            | None => enqueue None s
            end
          else if special name then A_exit 0
          else A_go (bad s)
      end
  end.

(** libmy/argv.c:2772-2794 and 2830-2831: any other argument. *)
Definition plain_arg (v : bytes) (s : astate) : ares :=
  match s_queue s with
  | x :: q =>
      let s' := mk_astate (s_vals s) (s_used s) q (s_head s) (s_ok s) (s_past s) in
      match x with
      | None => file_args v s'
      | Some i => A_go (store i (Some v) s')
      end
  | [] => A_go (bad s)
  end.

(** libmy/argv.c:2462-2801: one argument before "--". *)
Definition arg1 (a : bytes) (s : astate) : ares :=
  if is_prefix (txt "--") a then
    let '(p, close) := split_eq a in long_option (skipn 2 p) close s
  else if is_prefix (txt "-") a && negb (lenN a =? 1) then
    let '(p, close) := split_eq a in
    match skipn 1 p with
    | [] => A_go (bad s)
    | cs => short_chars p true cs close s
    end
  else plain_arg a s.

(** libmy/argv.c:2435-2841 [do_list]; [last] is [last_arg_b]. *)
Fixpoint do_list_with (last : bool) (args : list bytes) (s : astate) : ares :=
  match args with
  | [] => A_go s
  | a :: r =>
      if bytes_eqb a (txt "--") && negb last then do_list_with true r s
      else
        let x :=
          if last then plain_arg a s
          else arg1 a s in
        match x with
        | A_go s' => do_list_with last r s'
        | y => y
        end
  end.
End Grid.

(** libmy/argv.c:2216-2226: the lines fgets() gives, in pieces of at most [FILE_LINE_SIZE]
    - 1 bytes, without their newline and without empty ones; a piece ends at a NUL. *)
Definition FILE_LINE_SIZE : N := 1024.
Fixpoint until_nul (s : bytes) : bytes :=
  match s with [] => [] | b :: r => if byte_eqb b x00 then [] else b :: until_nul r end.
Fixpoint pieces (cur : bytes) (s : bytes) : list bytes :=
  let full := lenN cur =? FILE_LINE_SIZE - 1 in
  match s with
  | [] => [rev cur]
  | b :: r =>
      if byte_eqb b x0a then rev cur :: pieces [] r
      else if full then rev cur :: pieces [b] r
      else pieces (b :: cur) r
  end.
Definition file_lines (s : bytes) : list bytes :=
  filter (fun l => match l with [] => false | _ => true end) (map until_nul (pieces [] s)).

(** libmy/argv.c:2164-2283 [file_args] and [do_list]; [fuel] bounds the nesting (the C
    stack does).  A file that cannot be opened ends the program.  The path "-" is standard
    input (2174-2176); [files] gives its content whenever it is read.  ArgvOpen.v has the
    descriptors of the files and a standard input that is read once. *)
Fixpoint do_list (g : grid) (cap : nat) (files : bytes -> option bytes) (fuel : nat) (args : list bytes) (s : astate) : ares :=
  do_list_with g cap
    (fun path s =>
       match fuel with
       | O => A_deep
       | S f => match files path with
                | None => A_exit 1
                | Some content => do_list g cap files f (file_lines content) s
                end
       end) false args s.

(** libmy/argv.c:2047-2090 [check_mand]. *)
Fixpoint check_mand (g : grid) (u : list bool) : bool :=
  match g, u with
  | o :: g', b :: u' => (negb (o_mand o) || b) && check_mand g' u'
  | _, _ => true
  end.

(** libmy/argv.c:1954-2022 [check_xor]: of each group one was used; [prev]: the entry
    before was used, [grp]: in a group, of which one was used already. *)
Fixpoint check_xor (g : grid) (u : list bool) (prev : bool) (grp : option bool) : bool :=
  match g, u with
  | o :: g', b :: u' =>
      if is_xor o then check_xor g' u' b (match grp with Some any => Some any | None => Some prev end)
      else
        match grp with
        | None => check_xor g' u' b None
        | Some any =>
            match g' with
            | o2 :: _ => if is_xor o2 then check_xor g' u' b (Some (any || b))
                         else (any || b) && check_xor g' u' b None
            | [] => any || b
            end
        end
  | _, _ => true
  end.

(** The variables start as zero (static). *)
Definition zero (o : opt) : value :=
  match o_kind o with
  | K_bool => V_bool false
  | K_incr | K_int | K_none => V_int 0
  | K_str => if o_array o then V_arr [] else V_str None
  end.
Definition start (g : grid) : astate :=
  mk_astate (map zero g) (map (fun _ => false) g) [] 0 true false.

Inductive result :=
| Parsed (v : list value) (past : bool)
| Exited (status : N)
| Undef (u : aub)
| Too_deep.

(** libmy/argv.c:3119-3250 [argv_process_no_env]: [env] are the words of ARGV_<PROGRAM>,
    [args] the arguments after the program name.  preprocess_array() finds no fault in
    the two tables. *)
Definition argv_process (g : grid) (files : bytes -> option bytes) (fuel : nat) (env args : list bytes) : result :=
  let cap := (1 + List.length args + List.length env)%nat in
  let fin (s : astate) :=
    if s_ok s && check_mand g (s_used s) && (match s_queue s with [] => true | _ => false end) && check_xor g (s_used s) false None
    then Parsed (s_vals s) (s_past s) else Exited 1 in
  let of (x : ares) (k : astate -> result) :=
    match x with A_go s => k s | A_exit n => Exited n | A_ub u => Undef u | A_deep => Too_deep end in
  of (do_list g cap files fuel env (start g)) (fun s => of (do_list g cap files fuel args s) fin).

(** src/fstrm_capture.c:141-215. *)
Definition capture_grid : grid :=
  [ mk_opt x68 (Some (txt "help")) K_bool false false;
    mk_opt x64 (Some (txt "debug")) K_incr false false;
    mk_opt x74 (Some (txt "type")) K_str false false;
    mk_opt x75 (Some (txt "unix")) K_str false false;
    mk_opt x61 (Some (txt "tcp")) K_str false false;
    mk_opt x70 (Some (txt "port")) K_str false false;
    mk_opt x62 (Some (txt "buffersize")) K_int false false;
    mk_opt x63 (Some (txt "maxconns")) K_int false false;
    mk_opt x77 (Some (txt "write")) K_str false false;
    mk_opt x73 (Some (txt "split")) K_int false false;
    mk_opt x00 (Some (txt "localtime")) K_bool false false;
    mk_opt x00 (Some (txt "gmtime")) K_bool false false ].

(** src/fstrm_replay.c:56-99. *)
Definition replay_grid : grid :=
  [ mk_opt x68 (Some (txt "help")) K_bool false false;
    mk_opt x74 (Some (txt "type")) K_str false true;
    mk_opt x75 (Some (txt "unix")) K_str false false;
    mk_opt ARGV_XOR None K_none false false;
    mk_opt x61 (Some (txt "tcp")) K_str false false;
    mk_opt x70 (Some (txt "port")) K_str false false;
    mk_opt x72 (Some (txt "read-file")) K_str true true ].

(** The variables as the programs read them. *)
Definition v_bool (v : list value) (i : nat) : bool := match nth_error v i with Some (V_bool b) => b | _ => false end.
Definition v_int (v : list value) (i : nat) : Z := match nth_error v i with Some (V_int z) => z | _ => 0%Z end.
Definition v_str (v : list value) (i : nat) : option bytes := match nth_error v i with Some (V_str s) => s | _ => None end.
Definition v_arr (v : list value) (i : nat) : list bytes := match nth_error v i with Some (V_arr l) => l | _ => [] end.

(** src/fstrm_capture.c:124-136: what [parse_args] finds after argv_process(). *)
Definition capture_cmd (v : list value) : cmdline :=
  mk_cmd (v_bool v 0) (v_str v 2) (v_str v 3) (v_str v 4) (v_str v 5) (v_str v 8)
    (v_int v 6) (v_int v 7) (v_int v 9) (v_bool v 10) (v_bool v 11).

(** src/fstrm_replay.c:111-127 [parse_args] and the reads of [main] and [init_writer]
    (146-181): what the program goes on with. *)
Record replay_cfg := mk_replay {
  rp_type : bytes;                        (* strlen(content_type) *)
  rp_dest : bytes + bytes * bytes;        (* unix path, or address and port *)
  rp_files : list bytes }.
Inductive replay_start :=
| RP_run (c : replay_cfg)
| RP_exit (status : N)
| RP_null                                 (* strlen(NULL), strtoul(NULL), inet_pton(.., NULL, ..) *)
| RP_undef (u : aub)
| RP_deep.
Definition replay_args (files : bytes -> option bytes) (fuel : nat) (env args : list bytes) : replay_start :=
  match argv_process replay_grid files fuel env args with
  | Exited n => RP_exit n
  | Undef u => RP_undef u
  | Too_deep => RP_deep
  | Parsed v _ =>
      if v_bool v 0 then RP_exit 1
      else match v_str v 4, v_str v 5 with
           | Some _, None => RP_exit 1
           | tcp, port =>
               match v_str v 1 with
               | None => RP_null
               | Some t =>
                   match v_str v 2, tcp, port with
                   | Some u, _, _ => RP_run (mk_replay t (inl u) (v_arr v 6))
                   | None, Some a, Some p => RP_run (mk_replay t (inr (a, p)) (v_arr v 6))
                   | None, _, _ => RP_null
                   end
               end
           end
  end.

(** src/fstrm_capture.c:310-316, 1228-1246 [parse_args], [main]: the start from the command line. *)
Inductive capture_res :=
| CS_main (r : sres)
| CS_exit (status : N)
| CS_undef (u : aub)
| CS_deep.
Definition capture_start (w : world) (files : bytes -> option bytes) (fuel : nat) (env args : list bytes) (f : fs) : capture_res :=
  match argv_process capture_grid files fuel env args with
  | Parsed v _ => CS_main (main_start w (capture_cmd v) f)
  | Exited n => CS_exit n
  | Undef u => CS_undef u
  | Too_deep => CS_deep
  end.

(** Model of files of arguments with the descriptors they hold and with the standard
    input: libmy/argv.c:2164-2283 [file_args].  A file is closed after its arguments
    were processed (2267-2269), so a file named in it is opened while it is open.
    Argv.v has neither: there every file can be opened at any depth and the standard
    input can be read again.  The settings are the default ones (ArgvEnv.v has the
    others). *)
From Coq Require Import String.
From Verif Require Import Bytes Control Argv.
Import ListNotations.
Local Open Scope N_scope.

Section Grid.
Variable g : grid.
Variable cap : nat.

(** The file of arguments an argument asks for, if it does, and the state then:
    libmy/argv.c:2535-2549 (--argv-file=PATH) and 2750-2769 (the argument that
    a --argv-file before it waits for). *)
Definition wants_plain (a : bytes) (s : astate) : option (bytes * astate) :=
  match s_queue s with
  | None :: q => Some (a, mk_astate (s_vals s) (s_used s) q (s_head s) (s_ok s) (s_past s))
  | _ => None
  end.
Definition wants (last : bool) (a : bytes) (s : astate) : option (bytes * astate) :=
  if last then wants_plain a s
  else if is_prefix (txt "--") a then
    let '(p, close) := split_eq a in
    match skipn 2 p, close with
    | x :: name, Some path =>
        match long_matches g 0 (x :: name) with
        | [] => if is_prefix (x :: name) (txt "argv-file") then Some (path, s) else None
        | _ => None
        end
    | _, _ => None
    end
  else if is_prefix (txt "-") a && negb (lenN a =? 1) then None
  else wants_plain a s.

(** libmy/argv.c:2435-2841 [do_list] as in Argv.v; [inp] is what the standard input
    still has to give. *)
Variable open_args : bytes -> astate -> bytes -> ares * bytes.
Definition no_args : bytes -> astate -> ares := fun _ _ => A_deep.
Fixpoint open_list_with (last : bool) (args : list bytes) (s : astate) (inp : bytes) : ares * bytes :=
  match args with
  | [] => (A_go s, inp)
  | a :: r =>
      if bytes_eqb a (txt "--") && negb last then open_list_with true r s inp
      else
        let '(x, inp') :=
          match wants last a s with
          | Some (path, s') => open_args path s' inp
          | None => (if last then plain_arg g no_args a s else arg1 g cap no_args a s, inp)
          end in
        match x with
        | A_go s' => open_list_with last r s' inp'
        | y => (y, inp')
        end
  end.
End Grid.

(** libmy/argv.c:2164-2283: "-" is the standard input, read to its end; any other path
    takes one of the [fds] descriptors that are free, or fopen() fails, which ends the
    program with status 1 (2179-2190).  [fuel] bounds the nesting in the model only. *)
Fixpoint open_list (g : grid) (cap : nat) (files : bytes -> option bytes) (fuel fds : nat) (args : list bytes)
    (s : astate) (inp : bytes) : ares * bytes :=
  open_list_with g cap
    (fun path s inp =>
       match fuel with
       | O => (A_deep, inp)
       | S f =>
           if bytes_eqb path (txt "-") then open_list g cap files f fds (file_lines inp) s []
           else
             match fds, files path with
             | S d, Some content => open_list g cap files f d (file_lines content) s inp
             | _, _ => (A_exit 1, inp)
             end
       end) false args s inp.

(** libmy/argv.c:3119-3250, as in Argv.v. *)
Definition open_process (g : grid) (files : bytes -> option bytes) (fuel fds : nat) (inp : bytes) (env args : list bytes) : result :=
  let cap := (1 + List.length args + List.length env)%nat in
  let fin (s : astate) :=
    if s_ok s && check_mand g (s_used s) && (match s_queue s with [] => true | _ => false end) && check_xor g (s_used s) false None
    then Parsed (s_vals s) (s_past s) else Exited 1 in
  let of (x : ares * bytes) (k : astate -> bytes -> result) :=
    match x with (A_go s, i) => k s i | (A_exit n, _) => Exited n | (A_ub u, _) => Undef u | (A_deep, _) => Too_deep end in
  of (open_list g cap files fuel fds env (start g) inp) (fun s i => of (open_list g cap files fuel fds args s i) (fun s _ => fin s)).

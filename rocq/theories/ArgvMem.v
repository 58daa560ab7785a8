(** Model of the memory of the option parser (libmy/argv.c, used by fstrm_capture and
    fstrm_replay): the copies of option values, the texts of the environment, the files
    of arguments and the queue of options that wait for a value.

    As in Mem.v a block is never given out twice, realloc always moves, and every
    decision that depends on data (which option an argument names, whether it carries a
    value, how many lines a file has, whether a check fails) is an arbitrary number from
    a script.  An open file counts as a block.  A failing allocator ends the process
    (argv.c:311-320) and is left out.  Writing behind the queue and options that wait as
    NULL when a negative number comes are C72's subject and left out here; so are the
    options for arguments without a dash, which neither program has. *)
From Verif Require Import Bytes Mem.
Local Open Scope nat_scope.
Local Notation "x <~ p ;; q" := (mbind p (fun x => q)) (at level 100, p at next level, right associativity).
Local Notation "p ;;; q" := (mbind p (fun _ => q)) (at level 100, right associativity).

(** The types of options the two programs have (fstrm_capture.c:146-238,
    fstrm_replay.c:58-97): ARGV_CHAR_P, ARGV_CHAR_P | ARGV_FLAG_ARRAY, a number, and
    those without a value (argv.c HAS_ARG). *)
Inductive pkind := PK_str | PK_strs | PK_num | PK_flag.
Definition has_arg (k : pkind) : bool := match k with PK_flag => false | _ => true end.

(** An option with its variable: ARGV_FLAG_USED, the pointer in the variable (the string,
    or aa_entries), the strings in aa_entries. *)
Record pvar := mk_pv { pv_kind : pkind; pv_used : bool; pv_ptr : option blk; pv_items : list blk }.
(** The state of argv_process_no_env (argv.c:3119): the options; queue_list and the
    options in it, None being the file of arguments; two notes without a counterpart in
    the program: the texts to which no pointer is left, and the options whose string was
    stored, in order. *)
Record pst := mk_ps { ps_vars : list pvar; ps_queue : blk; ps_wait : list (option nat); ps_lost : list blk; ps_sets : list nat }.
Definition ps_with (s : pst) (vs : list pvar) : pst := mk_ps vs (ps_queue s) (ps_wait s) (ps_lost s) (ps_sets s).
Definition ps_waits (s : pst) (w : list (option nat)) : pst := mk_ps (ps_vars s) (ps_queue s) w (ps_lost s) (ps_sets s).
Definition ps_loses (s : pst) (l : list blk) : pst := mk_ps (ps_vars s) (ps_queue s) (ps_wait s) (ps_lost s ++ l) (ps_sets s).

Fixpoint put {A} (i : nat) (x : A) (l : list A) : list A :=
  match l, i with
  | [], _ => []
  | _ :: r, O => x :: r
  | y :: r, S i => y :: put i x r
  end.

(** Where the text of an argument is: the blocks that must exist while it is read. *)
Definition src := list blk.
Fixpoint uses (l : src) : mem unit := match l with [] => mret tt | b :: r => m_use b ;;; uses r end.

(** argv.c:304-331 string_copy. *)
Definition string_copy (from : src) : mem blk := uses from ;;; b <~ m_alloc ;; m_use b ;;; mret b.

(** argv.c:1199-1303 string_to_value; ARRAY_INCR is 10. *)
Definition set_value (i : nat) (from : src) (s : pst) : mem pst :=
  match nth_error (ps_vars s) i with
  | None => mret s
  | Some v =>
    match pv_kind v with
    | PK_str =>
      b <~ string_copy from ;;
      mret (mk_ps (put i (mk_pv PK_str (pv_used v) (Some b) []) (ps_vars s)) (ps_queue s) (ps_wait s)
                  (ps_lost s ++ match pv_ptr v with Some c => [c] | None => [] end) (ps_sets s ++ [i]))
    | PK_strs =>
      a <~ (match pv_items v, pv_ptr v with
            | [], _ => m_alloc
            | _, Some a => if Nat.eqb (Nat.modulo (length (pv_items v)) 10) 0 then m_realloc a else mret a
            | _, None => m_alloc
            end) ;;
      b <~ string_copy from ;;
      m_use a ;;;
      mret (ps_with s (put i (mk_pv PK_strs (pv_used v) (Some a) (pv_items v ++ [b])) (ps_vars s)))
    | _ => uses from ;;; mret s
    end
  end.

(** argv.c:2302-2362 do_arg: [close] whether the value is in the same argument. *)
Definition do_arg (i : nat) (close : bool) (from : src) (s : pst) : mem pst :=
  match nth_error (ps_vars s) i with
  | None => mret s
  | Some v =>
    let s := ps_with s (put i (mk_pv (pv_kind v) true (pv_ptr v) (pv_items v)) (ps_vars s)) in
    if close then set_value i from s
    else if negb (has_arg (pv_kind v)) then mret s
    else m_use (ps_queue s) ;;; mret (ps_waits s (ps_wait s ++ [Some i]))
  end.

(** [P_exit]: exit() was called; [P_deep]: more files of arguments inside each other than
    are followed. *)
Inductive pres := P_go (s : pst) | P_exit | P_deep.

(** argv.c:2435-2818 do_list.  An argument does some of: name an option, be the value of
    the option that waits longest, name a file of arguments, have the next value be the
    name of one, end the program (--usage, --version, ...), print messages. *)
Section List.
Variable file : src -> pst -> mem pres.
Definition one_thing (from : src) (s : pst) : mem pres :=
  uses from ;;;
  c <~ m_choose ;;
  match c with
  | 0 => mret (P_go s)
  | 1 => i <~ m_choose ;; close <~ m_flag ;; s <~ do_arg i close from s ;; mret (P_go s)
  | 2 =>
    match ps_wait s with
    | [] => mret (P_go s)
    | w :: r =>
      m_use (ps_queue s) ;;;
      match w with
      | Some i => s <~ set_value i from (ps_waits s r) ;; mret (P_go s)
      | None => file from (ps_waits s r)
      end
    end
  | 3 => file from s
  | 4 => m_use (ps_queue s) ;;; mret (P_go (ps_waits s (ps_wait s ++ [None])))
  | _ => mret P_exit
  end.
Fixpoint one_arg (n : nat) (from : src) (s : pst) : mem pres :=
  match n with
  | O => mret (P_go s)
  | S n => x <~ one_thing from s ;; match x with P_go s => one_arg n from s | y => mret y end
  end.
Fixpoint arg_list (l : list src) (s : pst) : mem pres :=
  match l with
  | [] => mret (P_go s)
  | from :: r => n <~ m_choose ;; x <~ one_arg n from s ;; match x with P_go s => arg_list r s | y => mret y end
  end.
End List.

(** argv.c:2214-2256: the lines and the array of pointers to them. *)
Fixpoint read_lines (n : nat) (a : blk) (lines : list blk) : mem (blk * list blk) :=
  match n with
  | O => mret (a, lines)
  | S n =>
    l <~ string_copy [] ;; m_use a ;;;
    a <~ (if Nat.eqb (Nat.modulo (length (lines ++ [l])) 10) 0 then m_realloc a else mret a) ;;
    read_lines n a (lines ++ [l])
  end.
(** argv.c:2261-2264. *)
Fixpoint free_lines (a : blk) (lines : list blk) : mem unit :=
  match lines with [] => mret tt | l :: r => m_use a ;;; m_free l ;;; free_lines a r end.
(** argv.c:2164-2270 file_args. *)
Fixpoint file_args (depth : nat) (from : src) (s : pst) : mem pres :=
  match depth with
  | O => mret P_deep
  | S depth =>
    uses from ;;;
    k <~ m_choose ;;
    match k with
    | 0 => mret P_exit
    | _ =>
      f <~ (if Nat.eqb k 1 then mret None else b <~ m_alloc ;; mret (Some b)) ;;
      a <~ m_alloc ;;
      n <~ m_choose ;;
      x <~ read_lines n a [] ;;
      y <~ arg_list (file_args depth) (map (fun l => [fst x; l]) (snd x)) s ;;
      match y with
      | P_go s => free_lines (fst x) (snd x) ;;; m_free (fst x) ;;; m_free_opt f ;;; mret (P_go s)
      | y => mret y
      end
    end
  end.

(** argv.c:2844-2877 preprocess_env_args with 358-420 vectorize: nothing, a text without
    words, or the array, the text and the number of words. *)
Inductive penv := E_none | E_blank (text : blk) | E_words (v text : blk) (n : nat).
Definition env_args : mem penv :=
  k <~ m_choose ;;
  match k with
  | 0 => mret E_none
  | S n =>
    e <~ string_copy [] ;;
    t <~ string_copy [e] ;; m_free t ;;;
    match n with
    | 0 => mret (E_blank e)
    | _ => v <~ m_alloc ;; m_use v ;;; m_use e ;;; mret (E_words v e n)
    end
  end.
(** argv.c:3202-3222: the arguments of the environment, if there are any and now is when
    they are processed. *)
Definition env_list (depth : nat) (now : bool) (e : penv) (s : pst) : mem pres :=
  match e with
  | E_words v t n =>
    if now then
      x <~ arg_list (file_args depth) (repeat [v; t] n) s ;;
      match x with P_go s => m_free v ;;; m_free t ;;; mret (P_go s) | y => mret y end
    else mret (P_go s)
  | _ => mret (P_go s)
  end.
(** What of it is never given back: a text without words, and everything when the
    environment says env=none (argv.c:2985-2988). *)
Definition env_lost (never : bool) (e : penv) : list blk :=
  match e with E_none => [] | E_blank t => [t] | E_words v t _ => if never then [v; t] else [] end.

Definition fresh_vars (ks : list pkind) : list pvar := map (fun k => mk_pv k false None []) ks.
(** argv.c:2896-3092 process_env and 3187-3189: the settings and the arguments of the
    environment; when these are processed (0 before the others, 1 after them, else never). *)
Definition process_start : mem (nat * penv) :=
  g <~ m_flag ;;
  (if g then b <~ string_copy [] ;; m_use b ;;; m_free b else mret tt) ;;;
  when <~ m_choose ;;
  e <~ env_args ;;
  mret (when, e).
(** argv.c:3191-3250. *)
Definition process_rest (depth : nat) (ks : list pkind) (args : nat) (when : nat) (e : penv) : mem pres :=
  q <~ m_alloc ;;
  x <~ env_list depth (Nat.eqb when 0) e (mk_ps (fresh_vars ks) q [] [] []) ;;
  match x with
  | P_go s =>
    x <~ arg_list (file_args depth) (repeat [] args) s ;;
    match x with
    | P_go s =>
      x <~ env_list depth (Nat.eqb when 1) e s ;;
      match x with
      | P_go s =>
        m_free (ps_queue s) ;;;
        ok <~ m_flag ;;
        mret (if ok then P_go (ps_loses s (env_lost (Nat.ltb 1 when) e)) else P_exit)
      | y => mret y
      end
    | y => mret y
    end
  | y => mret y
  end.
(** argv.c:3274-3291 argv_process with 3119-3250 argv_process_no_env, for [args]
    arguments of the command line; the variables start as NULL. *)
Definition process (depth : nat) (ks : list pkind) (args : nat) : mem pres :=
  x <~ process_start ;; process_rest depth ks args (fst x) (snd x).

(** argv.c:3467-3507 argv_cleanup; the variable of a single string keeps its pointer. *)
Fixpoint free_all (a : blk) (l : list blk) : mem unit :=
  match l with [] => mret tt | b :: r => m_use a ;;; m_free b ;;; free_all a r end.
Definition clean_var (v : pvar) : mem pvar :=
  match pv_kind v with
  | PK_strs =>
    (match pv_items v, pv_ptr v with
     | [], _ => mret tt
     | l, Some a => free_all a l ;;; m_free a
     | _, None => mret tt
     end) ;;;
    mret (mk_pv PK_strs (pv_used v) None [])
  | PK_str => (if pv_used v then m_free_opt (pv_ptr v) else mret tt) ;;; mret v
  | _ => mret v
  end.
Fixpoint clean_vars (vs : list pvar) : mem (list pvar) :=
  match vs with [] => mret [] | v :: r => v <~ clean_var v ;; r <~ clean_vars r ;; mret (v :: r) end.

(** The program reads the strings of its options, as often as it likes and which it
    likes, before it cleans up (fstrm_capture.c:1211-1225 cleanup, fstrm_replay.c). *)
Definition var_strings (v : pvar) : list blk :=
  match pv_kind v with
  | PK_str => match pv_ptr v with Some b => [b] | None => [] end
  | PK_strs => match pv_ptr v with Some a => a :: pv_items v | None => pv_items v end
  | _ => []
  end.
Fixpoint read_some (n : nat) (vs : list pvar) : mem unit :=
  match n with
  | O => mret tt
  | S n => i <~ m_choose ;; (match nth_error vs i with Some v => uses (var_strings v) | None => mret tt end) ;;; read_some n vs
  end.
(** Parsing, a life of any length, cleaning up; None when the program ended before. *)
Definition argv_life (depth : nat) (ks : list pkind) (args reads : nat) : mem (option pst) :=
  x <~ process depth ks args ;;
  match x with
  | P_go s => read_some reads (ps_vars s) ;;; vs <~ clean_vars (ps_vars s) ;; mret (Some (ps_with s vs))
  | _ => mret None
  end.

(** What a command line means, said without the parser: options are given one
    after the other, each in one of the ways the usage text shows. *)
From Coq Require Import ZArith String.
From Verif Require Import Bytes Control Misc Capture Startup Argv.
Import ListNotations.
Local Open Scope N_scope.

(** One way to give options, by their place in the table. *)
Inductive given :=
| G_flags (fl : list nat)                             (* -d, -dd, -hd *)
| G_short (fl : list nat) (i : nat) (v : bytes)       (* -w file, -dw file *)
| G_short_eq (i : nat) (v : bytes)                    (* -w=file *)
| G_long (i : nat) (p : bytes)                        (* --debug, or a beginning of it *)
| G_long_val (i : nat) (p : bytes) (v : bytes)        (* --write file *)
| G_long_eq (i : nat) (p : bytes) (v : bytes).        (* --write=file *)

Definition letter (g : grid) (i : nat) : byte := match nth_error g i with Some o => o_short o | None => x00 end.

(** The arguments that say so. *)
Definition words (g : grid) (x : given) : list bytes :=
  match x with
  | G_flags fl => [x2d :: map (letter g) fl]
  | G_short fl i v => [x2d :: map (letter g) fl ++ [letter g i]; v]
  | G_short_eq i v => [x2d :: letter g i :: x3d :: v]
  | G_long i p => [x2d :: x2d :: p]
  | G_long_val i p v => [x2d :: x2d :: p; v]
  | G_long_eq i p v => [x2d :: x2d :: p ++ x3d :: v]
  end.

(** Well-formed: options that take a value get one, the others do not; a value that
    is an argument of its own does not look like an option. *)
Definition is_flag (g : grid) (i : nat) : Prop :=
  exists o, nth_error g i = Some o /\ (o_kind o = K_bool \/ o_kind o = K_incr).
Definition is_valued (g : grid) (i : nat) : Prop :=
  exists o, nth_error g i = Some o /\ (o_kind o = K_str \/ o_kind o = K_int).
Definition has_letter (g : grid) (i : nat) : Prop := letter g i <> x00.
Definition value_arg (v : bytes) : Prop := v = [x2d] \/ forall r, v <> x2d :: r.
(** [p] is not empty, the long name of [i] begins with it, and no other one does. *)
Definition names (g : grid) (i : nat) (p : bytes) : Prop :=
  p <> [] /\ (exists o n r, nth_error g i = Some o /\ o_long o = Some n /\ n = p ++ r) /\
  (forall j o n r, nth_error g j = Some o -> o_long o = Some n -> n = p ++ r -> j = i).
Definition proper (g : grid) (x : given) : Prop :=
  match x with
  | G_flags fl => fl <> [] /\ Forall (fun i => is_flag g i /\ has_letter g i) fl
  | G_short fl i v => Forall (fun i => is_flag g i /\ has_letter g i) fl /\ is_valued g i /\ has_letter g i /\ value_arg v
  | G_short_eq i v => is_valued g i /\ has_letter g i
  | G_long i p => is_flag g i /\ names g i p
  | G_long_val i p v => is_valued g i /\ names g i p /\ value_arg v
  | G_long_eq i p v => is_valued g i /\ names g i p
  end.

(** What is given: the options in order, with their values. *)
Definition sets (x : given) : list (nat * option bytes) :=
  match x with
  | G_flags fl => map (fun i => (i, None)) fl
  | G_short fl i v => map (fun i => (i, None)) fl ++ [(i, Some v)]
  | G_short_eq i v => [(i, Some v)]
  | G_long i p => [(i, None)]
  | G_long_val i p v => [(i, Some v)]
  | G_long_eq i p v => [(i, Some v)]
  end.
Definition all_sets (l : list given) : list (nat * option bytes) := flat_map sets l.

Fixpoint values (i : nat) (l : list (nat * option bytes)) : list bytes :=
  match l with
  | [] => []
  | (j, Some v) :: r => if Nat.eqb i j then v :: values i r else values i r
  | _ :: r => values i r
  end.
Fixpoint times (i : nat) (l : list (nat * option bytes)) : N :=
  match l with
  | [] => 0
  | (j, _) :: r => if Nat.eqb i j then 1 + times i r else times i r
  end.
Definition mentioned (i : nat) (l : list (nat * option bytes)) : Prop := exists v, In (i, v) l.
Fixpoint last_of (l : list bytes) : option bytes :=
  match l with [] => None | [v] => Some v | _ :: r => last_of r end.

(** What the variable of option [i] then is: the last value given, all of them for a
    list; for a flag whether it was given, for a counter how often. *)
Definition meant (o : opt) (i : nat) (l : list (nat * option bytes)) : value :=
  match o_kind o with
  | K_bool => V_bool (0 <? times i l)
  | K_incr => V_int (to_int (Z.of_N (times i l)))
  | K_str => if o_array o then V_arr (values i l) else V_str (last_of (values i l))
  | K_int => V_int (match last_of (values i l) with Some v => atoi v | None => 0%Z end)
  | K_none => V_int 0
  end.
Fixpoint meant_from (g : grid) (i : nat) (l : list (nat * option bytes)) : list value :=
  match g with [] => [] | o :: r => meant o i l :: meant_from r (S i) l end.
Definition meaning (g : grid) (l : list given) : list value := meant_from g 0 (all_sets l).

(** A table the claims are about: letters differ and are none of the special ones, a
    long name has no '='. *)
Definition number_chars : bytes := txt "0123456789+-.".
Record good_grid (g : grid) : Prop := {
  gg_distinct : forall i j o o', nth_error g i = Some o -> nth_error g j = Some o' ->
    o_short o = o_short o' -> o_short o <> x00 -> i = j;
  gg_letters : forall i o, nth_error g i = Some o -> ~ In (o_short o) (x3d :: number_chars);
  gg_long : forall i o n, nth_error g i = Some o -> o_long o = Some n -> ~ In x3d n }.

(** A decimal number as text. *)
Definition digit (d : N) : byte := byte_of_N (48 + d).
Fixpoint number_of (ds : list N) : N :=
  match ds with [] => 0 | d :: r => d * 10 ^ lenN r + number_of r end.
Definition int_range (z : Z) : Prop := (- 2 ^ 31 <= z < 2 ^ 31)%Z.

(** How many values an argument asks for that come as later arguments. *)
Definition takes_value (g : grid) (c : byte) : bool :=
  existsb (fun o => byte_eqb (o_short o) c && (match o_kind o with K_bool | K_incr => false | _ => true end)) g.
Definition count_if {A} (f : A -> bool) (l : list A) : nat := List.length (filter f l).
(** An upper bound that needs no knowledge of the parser: the letters that take a
    value, or one for a long option. *)
Definition asks (g : grid) (a : bytes) : nat :=
  if is_prefix (txt "--") a then 1%nat
  else if is_prefix (txt "-") a then count_if (takes_value g) a else O.
(** The option that reads arguments from a file is not used: no beginning of
    "--argv-file". *)
Definition no_file (a : bytes) : Prop := forall r, a <> x2d :: x2d :: x61 :: r.
Fixpoint total (l : list nat) : nat := match l with [] => 0 | n :: r => n + total r end%nat.

(** The settings of fstrm_capture a list of options stands for. *)
Definition was_given (i : nat) (l : list (nat * option bytes)) : bool := 0 <? times i l.
Definition int_given (i : nat) (l : list (nat * option bytes)) : Z :=
  match last_of (values i l) with Some v => atoi v | None => 0%Z end.
Definition cmd_of (l : list (nat * option bytes)) : cmdline :=
  mk_cmd (was_given 0 l) (last_of (values 2 l)) (last_of (values 3 l)) (last_of (values 4 l)) (last_of (values 5 l))
    (last_of (values 8 l)) (int_given 6 l) (int_given 7 l) (int_given 9 l) (was_given 10 l) (was_given 11 l).

(** What the manual pages say there is (man/fstrm_capture.1, man/fstrm_replay.1): the
    letter, the long name, which setting it is, what comes with it. *)
Inductive comes := Alone | Repeated | With_text | With_texts | With_number.
Record doc := mk_doc { d_letter : option byte; d_name : bytes; d_place : nat; d_comes : comes }.
Definition capture_doc : list doc :=
  [ mk_doc (Some x64) (txt "debug") 1 Repeated;
    mk_doc (Some x74) (txt "type") 2 With_text;
    mk_doc (Some x75) (txt "unix") 3 With_text;
    mk_doc (Some x61) (txt "tcp") 4 With_text;
    mk_doc (Some x70) (txt "port") 5 With_text;
    mk_doc (Some x62) (txt "buffersize") 6 With_number;
    mk_doc (Some x63) (txt "maxconns") 7 With_number;
    mk_doc (Some x77) (txt "write") 8 With_text;
    mk_doc (Some x73) (txt "split") 9 With_number;
    mk_doc None (txt "localtime") 10 Alone;
    mk_doc None (txt "gmtime") 11 Alone ].
Definition replay_doc : list doc :=
  [ mk_doc (Some x74) (txt "type") 1 With_text;
    mk_doc (Some x75) (txt "unix") 2 With_text;
    mk_doc (Some x61) (txt "tcp") 4 With_text;
    mk_doc (Some x70) (txt "port") 5 With_text;
    mk_doc (Some x72) (txt "read") 6 With_texts ].
Definition as_documented (g : grid) (d : doc) : Prop :=
  match d_letter d with
  | Some c => has_letter g (d_place d) /\ letter g (d_place d) = c
  | None => True
  end /\
  names g (d_place d) (d_name d) /\
  exists o, nth_error g (d_place d) = Some o /\
    match d_comes d with
    | Alone => o_kind o = K_bool
    | Repeated => o_kind o = K_incr
    | With_text => o_kind o = K_str /\ o_array o = false
    | With_texts => o_kind o = K_str /\ o_array o = true
    | With_number => o_kind o = K_int
    end.

(** An argument that is wrong wherever it stands before "--": a long option that is
    the beginning of no name or of several, a letter no option has. *)
Definition begins (g : grid) (i : nat) (p : bytes) : Prop :=
  exists o n r, nth_error g i = Some o /\ o_long o = Some n /\ n = p ++ r.
Definition tail_ok (t : bytes) : Prop := t = [] \/ exists v, t = x3d :: v.
Definition wrong (g : grid) (a : bytes) : Prop :=
  (exists p t, a = x2d :: x2d :: p ++ t /\ ~ In x3d p /\ tail_ok t /\ (p = [] -> t <> []) /\
     ((exists i j, i <> j /\ begins g i p /\ begins g j p) \/
      ((forall i, ~ begins g i p) /\ forall r, txt "argv-file" <> p ++ r) \/ p = [])) \/
  (exists p t c, a = x2d :: p ++ t /\ ~ In x3d p /\ tail_ok t /\ (forall r, p <> x2d :: r) /\
     In c p /\ (forall i o, nth_error g i = Some o -> o_short o <> c) /\ ~ Forall (fun b => In b number_chars) p).
(** An argument that asks for a value that is to follow. *)
Definition asking (g : grid) (a : bytes) : Prop :=
  exists i, is_valued g i /\
    ((exists p, names g i p /\ a = x2d :: x2d :: p) \/
     (has_letter g i /\ exists p, ~ In x3d p /\ (forall r, p <> x2d :: r) /\ a = x2d :: p ++ [letter g i])).

(** ** Files of arguments *)
(** A text of one argument per line: a line of more than 1023 bytes is taken for
    several, of 1023 bytes each and the rest; the last newline may be missing; what is
    after a NUL is not seen, and lines with nothing to be seen are skipped. *)
Definition line (l : bytes) : Prop := ~ In x0a l /\ lenN l < 1024.
Inductive seen : bytes -> list bytes -> Prop :=
| seen_none l : l = [] \/ (exists r, l = x00 :: r) -> seen l []
| seen_word w r : w <> [] -> ~ In x00 w -> r = [] \/ (exists r', r = x00 :: r') -> seen (w ++ r) [w].
Inductive text_of : list bytes -> bytes -> Prop :=
| text_last l ws : line l -> seen l ws -> text_of ws l
| text_line l ws ls c : line l -> seen l ws -> text_of ls c -> text_of (ws ++ ls) (l ++ x0a :: c)
| text_cut l ws ls c : line l -> lenN l = 1023 -> seen l ws -> text_of ls c -> text_of (ws ++ ls) (l ++ c).

(** The beginning [p] of a name the parser itself knows, and of none in the table. *)
Definition own_name (g : grid) (p n : bytes) : Prop :=
  p <> [] /\ ~ In x3d p /\ (forall i, ~ begins g i p) /\ exists r, n = p ++ r.
Definition file_name (g : grid) (p : bytes) : Prop := own_name g p (txt "argv-file").

(** The arguments say, files of arguments (to depth [d]) in place of their names, that
    these options are given; [n] of the values and names are arguments of their own. *)
Definition own_value (x : given) : nat :=
  match x with G_short _ _ _ | G_long_val _ _ _ => 1 | _ => 0 end.
Inductive says (g : grid) (files : bytes -> option bytes) : nat -> nat -> list bytes -> list given -> Prop :=
| says_nil d : says g files d 0 [] []
| says_given d n x ws l : proper g x -> says g files d n ws l ->
    says g files d (own_value x + n) (words g x ++ ws) (x :: l)
| says_file_eq d m n p path c ls inner ws l : file_name g p -> files path = Some c -> text_of ls c ->
    says g files d m ls inner -> says g files (S d) n ws l ->
    says g files (S d) (m + n) ((x2d :: x2d :: p ++ x3d :: path) :: ws) (inner ++ l)
| says_file_val d m n p path c ls inner ws l : file_name g p -> value_arg path -> files path = Some c -> text_of ls c ->
    says g files d m ls inner -> says g files (S d) n ws l ->
    says g files (S d) (S m + n) ((x2d :: x2d :: p) :: path :: ws) (inner ++ l).

(** The names that end the program (libmy/argv_loc.h:110-117). *)
Definition ending_names : list bytes :=
  [txt "usage"; txt "help"; txt "usage-short"; txt "usage-long"; txt "usage-all"; txt "version"; txt "argv-display"].

(** A flag given with a value (--gmtime=no): these mean yes, all others no. *)
Definition says_yes (v : bytes) : Prop := exists c r, v = c :: r /\ In c (txt "tTyY1").

(** What the environment says about a command line, without the parser: the words of
    a text, and what the words of GLOBAL_ARGV choose. *)
From Coq Require Import ZArith String.
From Verif Require Import Bytes Argv SpecArgv.
Import ListNotations.
Local Open Scope N_scope.

(** [ws] are the words of a text: the longest stretches without a separator. *)
Inductive spelled (sep : byte -> Prop) : list bytes -> bytes -> Prop :=
| Sp_end : forall seps, Forall sep seps -> spelled sep [] seps
| Sp_word : forall seps w rest ws, Forall sep seps -> w <> [] -> Forall (fun b => ~ sep b) w ->
    (rest = [] \/ exists b r, rest = b :: r /\ sep b) -> spelled sep ws rest -> spelled sep (w :: ws) (seps ++ w ++ rest).
(** The words of a variable that may be unset. *)
Definition says (sep : byte -> Prop) (v : option bytes) (ws : list bytes) : Prop :=
  match v with None => ws = [] | Some t => spelled sep ws t end.

Definition space_or_tab (b : byte) : Prop := In b (txt " " ++ [x09]).
Definition list_sep (b : byte) : Prop := In b (txt " ,:" ++ [x09]).

(** The program whose argv[0] is [p]: what follows the last '/'. *)
Definition called (p name : bytes) : Prop :=
  ~ In x2f name /\ (p = name \/ exists dir, p = dir ++ x2f :: name).
(** The lower-case and the upper-case letters. *)
Definition lower : bytes := txt "abcdefghijklmnopqrstuvwxyz".
Definition capital : bytes := txt "ABCDEFGHIJKLMNOPQRSTUVWXYZ".
Definition in_capitals (s t : bytes) : Prop :=
  Forall2 (fun b c => (exists i, nth_error lower i = Some b /\ nth_error capital i = Some c) \/ (~ In b lower /\ c = b)) s t.
(** [n] is the name of the variable of a program whose name is not longer than 256. *)
Definition variable_of (p n : bytes) : Prop :=
  exists name up, called p name /\ (List.length name <= 256)%nat /\ in_capitals name up /\ n = txt "ARGV_" ++ up.

(** What GLOBAL_ARGV may choose: for each setting the words and their meaning, the
    last of them counts. *)
Inductive place := Nowhere | Before | After.
Definition close_words : list (bytes * bool) :=
  [ (txt "close=disable", false); (txt "close=off", false); (txt "close=no", false); (txt "close=0", false);
    (txt "close=enable", true); (txt "close=on", true); (txt "close=yes", true); (txt "close=1", true) ].
Definition toggle_words : list (bytes * bool) :=
  [ (txt "lasttog=disable", false); (txt "lasttog=off", false); (txt "lasttog=no", false); (txt "lasttog=0", false);
    (txt "lasttog=enable", true); (txt "lasttog=on", true); (txt "lasttog=yes", true); (txt "lasttog=1", true) ].
Definition multi_words : list (bytes * bool) := [ (txt "multi=reject", false); (txt "multi=accept", true) ].
Definition env_place_words : list (bytes * place) := [ (txt "env=none", Nowhere); (txt "env=before", Before); (txt "env=after", After) ].

Fixpoint look {A} (tab : list (bytes * A)) (w : bytes) : option A :=
  match tab with [] => None | (k, v) :: r => if bytes_eqb w k then Some v else look r w end.
Fixpoint last_said {A} (tab : list (bytes * A)) (d : A) (ws : list bytes) : A :=
  match ws with
  | [] => d
  | w :: r => last_said tab (match look tab w with Some v => v | None => d end) r
  end.
(** [ch_eq]: "-x=v" is an option with its value; [ch_resume]: a second "--" ends what
    the first began; [ch_again]: an option may be given twice. *)
Record choice := mk_choice { ch_eq : bool; ch_resume : bool; ch_again : bool; ch_place : place }.
Definition chosen (ws : list bytes) : choice :=
  mk_choice (last_said close_words true ws) (last_said toggle_words false ws) (last_said multi_words true ws) (last_said env_place_words Before ws).
Definition chooses (getenv : bytes -> option bytes) (c : choice) : Prop :=
  exists ws, says list_sep (getenv (txt "GLOBAL_ARGV")) ws /\ c = chosen ws.
(** The words of the variable of the program. *)
Definition supplies (getenv : bytes -> option bytes) (p : bytes) (ws : list bytes) : Prop :=
  exists n, variable_of p n /\ says space_or_tab (getenv n) ws.

(** An option, neither a counter nor a list, that is given twice. *)
Definition repeated (g : grid) (l : list (nat * option bytes)) : Prop :=
  exists i o, nth_error g i = Some o /\ o_array o = false /\ o_kind o <> K_incr /\ 1 < times i l.
(** What is given in the variable and what is given in the arguments, in the order
    that counts. *)
Definition in_order {A} (p : place) (es gs : list A) : list A :=
  match p with Before => es ++ gs | After => gs ++ es | Nowhere => gs end.

(** Specification of the usage texts. *)
From Coq Require Import ZArith String.
From Verif Require Import Bytes Argv Usage.
Import ListNotations.

(** No line is wider than [w]. *)
Definition narrow (w : nat) (t : bytes) : Prop :=
  forall a l b, t = a ++ l ++ b -> ~ In nl l -> (length l <= w)%nat.

(** The texts of an entry, and what they must not contain. *)
Definition opt_text (s : option bytes) : bytes := match s with Some s => s | None => [] end.
Definition one_line (e : entry) : Prop :=
  o_short (u_opt e) <> nl /\ ~ In nl (opt_text (o_long (u_opt e))) /\ ~ In nl (opt_text (u_label e)) /\ ~ In nl (opt_text (u_comment e)).

(** An entry without a short name but with a value, whose name leaves no room. *)
Definition too_long (e : entry) : Prop :=
  o_short (u_opt e) = x00 /\ (o_kind (u_opt e) = K_str \/ o_kind (u_opt e) = K_int) /\ (30 <= length (opt_text (o_long (u_opt e))))%nat.

(** A line of the long text: two columns and the comment. *)
Definition pad (n : nat) (s : bytes) : bytes := s ++ repeat sp (n - length s).
Definition is_flag (o : opt) : bool := match o_kind o with K_bool | K_incr => true | _ => false end.
Definition value_text (e : entry) : bytes :=
  if is_flag (u_opt e) then [] else sp :: match u_label e with Some l => l | None => txt "??" end.
Definition bare (e : entry) : bool := byte_eqb (o_short (u_opt e)) x00.
Definition row (e : entry) (name comment : bytes) : bytes :=
  if bare e then pad 34 (txt "[--" ++ name ++ value_text e ++ txt "]") ++ comment
  else pad 18 (txt "[-" ++ [o_short (u_opt e)] ++ value_text e ++ txt "]") ++ pad 16 (txt "or --" ++ name) ++ comment.

(** An entry for whose texts there is room. *)
Definition roomy (e : entry) (name comment : bytes) : Prop :=
  o_long (u_opt e) = Some name /\ u_comment e = Some comment /\ (length comment <= 45)%nat /\ o_kind (u_opt e) <> K_none /\
  if bare e then (length name + length (value_text e) <= 30)%nat
  else (length name <= 10 /\ length (value_text e) <= 14)%nat.

(** Texts of a table, separators left out. *)
Inductive rows : list entry -> list bytes -> Prop :=
| rows_nil : rows [] []
| rows_sep e t l : is_sep (u_opt e) = true -> rows t l -> rows (e :: t) l
| rows_row e name comment t l : is_sep (u_opt e) = false -> roomy e name comment -> rows t l ->
    rows (e :: t) (row e name comment :: l).

(** Shown in the short text: a flag among others, an option with a blank or the
    beginning of a line before its value. *)
Definition short_flag_of (t : list entry) (c : byte) : Prop :=
  exists e, In e t /\ is_flag (u_opt e) = true /\ o_short (u_opt e) = c.
Definition blank (s : bytes) : Prop := s <> [] /\ Forall (fun c => c = sp \/ c = nl) s.
Definition shown_short (t : list entry) (text : bytes) (e : entry) : Prop :=
  if is_flag (u_opt e) then
    exists a m l b, text = a ++ txt "[-" ++ m ++ [o_short (u_opt e)] ++ l ++ txt "]" ++ b /\ Forall (short_flag_of t) (m ++ l)
  else
    exists a g b, text = a ++ txt "[-" ++ [o_short (u_opt e)] ++ g ++ match u_label e with Some l => l | None => txt "??" end ++ txt "]" ++ b /\ blank g.

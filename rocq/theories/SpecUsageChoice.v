(** Specification of what the option parser displays. *)
From Coq Require Import String.
From Verif Require Import Bytes Argv ArgvEnv SpecArgvEnv Usage SpecUsage UsageChoice.
Import ListNotations.

(** The words of GLOBAL_ARGV; the last one of its kind counts. *)
Definition usage_words : list (bytes * style) :=
  [ (txt "usage=short", U_short); (txt "usage=shortrem", U_short_rem); (txt "usage=long", U_long); (txt "usage=all", U_all) ].
Definition error_words : list (bytes * style) :=
  [ (txt "error=none", U_none); (txt "error=see", U_see); (txt "error=short", U_short); (txt "error=shortrem", U_short_rem);
    (txt "error=long", U_long); (txt "error=all", U_all) ].

(** All rows of a table stand in a text, one below the other. *)
Definition lists (l : list bytes) (text : bytes) : Prop :=
  exists a b, text = a ++ [nl] ++ concat (map (fun r => r ++ [nl]) l) ++ b.
(** Every option that has a short name is in the text. *)
Definition names (t : list entry) (text : bytes) : Prop :=
  forall e, In e t -> is_sep (u_opt e) = false -> o_short (u_opt e) <> x00 -> shown_short t text e.

(** What a text of a style has to tell. *)
Definition tells (t : list entry) (l : list bytes) (f : style) (text : bytes) : Prop :=
  match f with
  | U_none => text = []
  | U_see => exists a b, text = a ++ txt "--usage" ++ b
  | U_short | U_short_rem => names t text
  | U_long | U_all => lists l text
  end.

(** [name] is [full] or an abbreviation of it, longer than [n]. *)
Definition abbreviates (n : nat) (full : string) (name : bytes) : Prop :=
  (n < List.length name)%nat /\ exists r, txt full = name ++ r.

(** C101: what --argv-display prints. *)
From Coq Require Import ZArith String Lia.
From Verif Require Import Bytes Bytes_proofs Argv Usage SpecUsage Usage_proofs Messages SpecMisc Variables SpecVariables Variables_proofs.
Import ListNotations.

(** A line for every option, with its type and its value; strings with escapes, as much
    as 255 characters hold. *)
Theorem C101_shows : forall t vals, length vals = length t -> Forall (fun e => is_sep (u_opt e) = false -> has_room e) t ->
  exists w, display_variables t vals = Some w /\ shows_table t vals w.
Proof. intros t vals. exact (table_shown t vals). Qed.
Print Assumptions C101_shows.

(** The tables of both programs have room. *)
Example C101_programs : Forall (fun e => is_sep (u_opt e) = false -> has_room e) (capture_table ++ replay_table).
Proof.
  repeat constructor; try discriminate; vm_compute; repeat split; try discriminate; try lia.
Qed.

Example C101_text : display_variables replay_table
    [V_bool false; V_str (Some (txt "a" ++ [x0a; xc3])); V_str None; V_int 0; V_str None; V_str None; V_arr [txt "x.fstrm"; txt "-"]] = Some (
  txt "[-h]               flag            false (0)" ++ [Usage.nl] ++
  txt "[-t <STRING>]      string          a\n\303" ++ [Usage.nl] ++
  txt "[-u <FILENAME>]    string          (null)" ++ [Usage.nl] ++
  txt "[-a <ADDRESS>]     string          (null)" ++ [Usage.nl] ++
  txt "[-p <PORT>]        string          (null)" ++ [Usage.nl] ++
  txt "[-r <FILE>]        string array    x.fstrm,-" ++ [Usage.nl]).
Proof. vm_compute. reflexivity. Qed.

(** Whatever table and values: nothing is written outside the buffer of 256 bytes. *)
Theorem C101_safe : forall t vals, display_variables t vals <> None.
Proof. exact display_safe. Qed.
Print Assumptions C101_safe.

(** Strings of 300 bytes that all need four characters, or the last of which does not fit. *)
Example C101_long : value_to_string (V_str (Some (repeat xff 300))) = Some (concat (repeat (txt "\377") 63)) /\
  value_to_string (V_str (Some (repeat x61 300))) = Some (repeat x61 255) /\
  value_to_string (V_str (Some (repeat x61 253 ++ [x0a]))) = Some (repeat x61 253).
Proof. vm_compute. auto. Qed.

(** What is shown of two strings is the same only if they are, or if they are cut. *)
Theorem C101_tells_partial : forall s1 s2 w, shows_string s1 w -> shows_string s2 w -> s1 = s2 \/ (251 <= length w)%nat.
Proof.
  intros s1 s2 w (_ & p1 & r1 & -> & R1 & C1) (_ & p2 & r2 & -> & R2 & C2).
  destruct C1 as [->|C1]; [|right; lia]. destruct C2 as [->|C2]; [|right; lia]. left. rewrite !app_nil_r. exact (reads_one w p1 R1 p2 R2).
Qed.
Print Assumptions C101_tells_partial.

Example C101_tells_nonvacuous : exists w, shows_string (txt "a\b") w /\ w = txt "a\\b".
Proof. destruct (string_shown (txt "a\b")) as (w & E & S0). exists w. split; [exact S0|]. vm_compute in E. injection E as <-. reflexivity. Qed.

(** But a value is not always told by its text: no string and the string "(null)", one
    file name with a comma in it and two, no file name and the name "no entries". *)
Theorem C101_tells_refuted : ~ forall v1 v2 w, show_value v1 = Some w -> show_value v2 = Some w -> (length w < 20)%nat -> v1 = v2.
Proof.
  intro H. assert (X : V_str None = V_str (Some (txt "(null)"))); [|discriminate X].
  apply (H _ _ (txt "(null)")); [reflexivity|vm_compute; reflexivity|vm_compute; lia].
Qed.
Print Assumptions C101_tells_refuted.

Example C101_same : show_value (V_arr [txt "a,b"]) = show_value (V_arr [txt "a"; txt "b"]) /\
  show_value (V_arr []) = show_value (V_arr [txt "no entries"]).
Proof. vm_compute. auto. Qed.

(** C99: the usage texts. *)
From Coq Require Import ZArith String.
From Verif Require Import Bytes Argv Usage SpecUsage Usage_proofs.
Import ListNotations.

(** For any table with room for its texts, the long text is its options in order,
    one a line: short name and value, long name, comment, in three columns. *)
Theorem C99_long_shows : forall prog t l, rows t l ->
  usage_long prog t = txt "Usage: " ++ prog ++ [nl] ++ concat (map (fun r => r ++ [nl]) l).
Proof. exact long_shows. Qed.
Print Assumptions C99_long_shows.

(** Both programs have such tables. *)
Ltac rows_go := first [apply rows_nil | apply rows_sep; [reflexivity|]; rows_go |
  eapply rows_row; [reflexivity|split; [reflexivity|split; [reflexivity|split; [vm_compute; lia|split; [discriminate|vm_compute; lia]]]]|rows_go]].
Theorem C99_programs : (exists l, rows capture_table l /\ length l = 12%nat) /\ (exists l, rows replay_table l /\ length l = 6%nat).
Proof. split; eexists; (split; [rows_go|reflexivity]). Qed.
Print Assumptions C99_programs.

Example C99_a_line : row (nth 6 capture_table (mk_entry (mk_opt x00 None K_none false false) None None)) (txt "buffersize")
    (txt "read buffer size, in bytes (default 262144)") =
  txt "[-b <SIZE>]       or --buffersize read buffer size, in bytes (default 262144)".
Proof. reflexivity. Qed.

(** No line is wider than 79, whatever the texts, if no option without a short name
    but with a value has a name of 30 characters or more. *)
Theorem C99_long_fits : forall prog t, ~ In nl prog -> (length prog <= 72)%nat ->
  Forall (fun e => is_sep (u_opt e) = false -> one_line e /\ ~ too_long e) t -> narrow 79 (usage_long prog t).
Proof. exact long_fits. Qed.
Print Assumptions C99_long_fits.

Lemma one_line_b e : negb (byte_eqb (o_short (u_opt e)) nl) && forallb (fun c => negb (byte_eqb c nl))
    (opt_text (o_long (u_opt e)) ++ opt_text (u_label e) ++ opt_text (u_comment e)) = true -> one_line e.
Proof.
  intro H. apply andb_true_iff in H as [H1 H2]. apply plain_b in H2. split.
  - intro E. rewrite (proj2 (byte_eqb_eq _ _) E) in H1. discriminate H1.
  - split; [|split]; intro X; apply H2; rewrite !in_app_iff; tauto.
Qed.
Example C99_long_fits_nonvacuous : Forall (fun e => is_sep (u_opt e) = false -> one_line e /\ ~ too_long e) capture_table.
Proof.
  assert (A : forallb (fun e => negb (byte_eqb (o_short (u_opt e)) nl) && forallb (fun c => negb (byte_eqb c nl))
    (opt_text (o_long (u_opt e)) ++ opt_text (u_label e) ++ opt_text (u_comment e)) && (length (opt_text (o_long (u_opt e))) <? 30)%nat) capture_table = true) by (vm_compute; reflexivity).
  rewrite forallb_forall in A. apply Forall_forall. intros e I _. apply A in I. apply andb_true_iff in I as [I L]. split; [apply one_line_b, I|].
  intros (_ & _ & G). apply Nat.ltb_lt in L. lia.
Qed.

(** With such an option a line can be as wide as its value's label: the precision for
    the label is then negative, which means that there is none. *)
Definition ex_wide : list entry :=
  [mk_entry (mk_opt x00 (Some (repeat x61 30)) K_str false false) (Some (repeat x62 100)) None].
Theorem C99_long_fits_refuted : ~ narrow 79 (usage_long (txt "fstrm_capture") ex_wide).
Proof.
  intro H. specialize (H (txt "Usage: fstrm_capture" ++ [nl] ++ txt "[--" ++ repeat x61 30 ++ [sp]) (repeat x62 100) (txt "]" ++ [nl]) eq_refl).
  assert (N : ~ In nl (repeat x62 100)) by (intro X; apply repeat_spec in X; discriminate X). specialize (H N). rewrite repeat_length in H. lia.
Qed.
Print Assumptions C99_long_fits_refuted.

(** Texts longer than their column are cut: a name at 10, a label at 13, a comment at 45. *)
Example C99_cut : usage_long [] [mk_entry (mk_opt x61 (Some (txt "a-name-too-long")) K_str false false) (Some (txt "<A LABEL TOO LONG>")) (Some (txt "what it is for"))] =
  txt "Usage: " ++ [nl] ++ txt "[-a <A LABEL TOO ]or --a-name-too what it is for" ++ [nl].
Proof. reflexivity. Qed.

(** The short text: no line is wider than 79 either, *)
Theorem C99_short_fits : forall prog t, ~ In nl prog -> (length prog <= 72)%nat ->
  Forall (fun e => one_line e /\ (length (match u_label e with Some l => l | None => txt "??" end) <= 71)%nat) t -> narrow 79 (usage_short prog t).
Proof. exact short_fits. Qed.
Print Assumptions C99_short_fits.

Example C99_short_fits_nonvacuous :
  Forall (fun e => one_line e /\ (length (match u_label e with Some l => l | None => txt "??" end) <= 71)%nat) (capture_table ++ replay_table).
Proof.
  assert (A : forallb (fun e => negb (byte_eqb (o_short (u_opt e)) nl) && forallb (fun c => negb (byte_eqb c nl))
    (opt_text (o_long (u_opt e)) ++ opt_text (u_label e) ++ opt_text (u_comment e)) && (length (match u_label e with Some l => l | None => txt "??" end) <=? 71)%nat)
    (capture_table ++ replay_table) = true) by (vm_compute; reflexivity).
  rewrite forallb_forall in A. apply Forall_forall. intros e I. apply A in I. apply andb_true_iff in I as [I L]. split; [apply one_line_b, I|apply Nat.leb_le, L].
Qed.

(** and every option with a short name is shown, flags in one list or several, others
    with the label of their value. *)
Theorem C99_short_shows_partial : forall prog t e, In e t -> is_sep (u_opt e) = false -> o_short (u_opt e) <> x00 ->
  shown_short t (usage_short prog t) e.
Proof. exact short_shows. Qed.
Print Assumptions C99_short_shows_partial.

Example C99_short_text : usage_short (txt "fstrm_replay") replay_table =
  txt "Usage: fstrm_replay [-h] [-t <STRING>] [-u <FILENAME>] [-a <ADDRESS>] [-p" ++ [nl] ++
  txt "       <PORT>] [-r <FILE>]" ++ [nl].
Proof. reflexivity. Qed.

(** A flag without one is not: with GLOBAL_ARGV=usage=short fstrm_capture does not
    say that there are --localtime and --gmtime. *)
Fixpoint occurs (p s : bytes) : bool := is_prefix p s || match s with [] => false | _ :: s => occurs p s end.
Theorem C99_short_shows_refuted :
  exists e, In e capture_table /\ o_long (u_opt e) = Some (txt "gmtime") /\ is_flag (u_opt e) = true /\
    ~ exists a b, usage_short (txt "fstrm_capture") capture_table = a ++ txt "gmtime" ++ b.
Proof.
  eexists. split; [do 11 right; left; reflexivity|]. split; [reflexivity|]. split; [reflexivity|]. intros (a & b & E).
  assert (A : occurs (txt "gmtime") (usage_short (txt "fstrm_capture") capture_table) = false) by (vm_compute; reflexivity).
  rewrite E in A. clear E. induction a as [|x a IH].
  - cbn [app] in A. assert (P : forall p, is_prefix p (p ++ b) = true) by (induction p as [|x p IH]; [reflexivity|]; cbn; rewrite IH, (proj2 (byte_eqb_eq x x) eq_refl); reflexivity).
    destruct (txt "gmtime" ++ b) eqn:Eb; [discriminate Eb|]. cbn [occurs] in A. rewrite <- Eb, P in A. discriminate A.
  - cbn [app occurs] in A. apply orb_false_iff in A as [_ A]. exact (IH A).
Qed.
Print Assumptions C99_short_shows_refuted.

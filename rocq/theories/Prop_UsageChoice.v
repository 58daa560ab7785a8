(** C100: what the options of the parser itself, and a wrong command line, display. *)
From Coq Require Import ZArith String Lia.
From Verif Require Import Bytes Bytes_proofs Argv ArgvEnv SpecArgvEnv Usage SpecUsage Usage_proofs UsageChoice SpecUsageChoice UsageChoice_proofs Prop_Usage.
Import ListNotations.

(** --usage and --help (where the table has no such option), any abbreviation of them, and -?
    show what the last word usage= of GLOBAL_ARGV asks for, and else all options with
    their comments. *)
Theorem C100_usage : forall prog t l help version v ws name c, rows t l -> says list_sep v ws ->
  (abbreviates 0 "usage" name \/ abbreviates 0 "help" name) -> [c] = txt "?" ->
  exists text, own_option prog t help version (styles_of v) name = Some (Text text) /\ own_char prog t (styles_of v) c = Some (Text text) /\
    tells t l (last_said usage_words U_long ws) text.
Proof.
  intros prog t l help version v ws name c R S0 A C. injection C as ->. rewrite (styles_said v ws S0).
  exists (do_usage prog t (last_said usage_words U_long ws)). split; [exact (own_usage _ _ _ _ _ name A)|]. split; [reflexivity|apply usage_tells, R].
Qed.
Print Assumptions C100_usage.

(** A command line with an error shows what the last word error= asks for. *)
Theorem C100_error : forall prog t l v ws, rows t l -> says list_sep v ws ->
  tells t l (last_said error_words U_long ws) (on_error prog t (styles_of v)).
Proof. intros prog t l v ws R S0. rewrite (styles_said v ws S0). apply usage_tells, R. Qed.
Print Assumptions C100_error.

(** A variable with both words, one of them twice, a wrong word and a word of another kind. *)
Example C100_words : exists ws, says list_sep (Some (txt "usage=all,error=see:usage=short usage=none,,multi=reject")) ws /\
  last_said usage_words U_long ws = U_short /\ last_said error_words U_long ws = U_see /\
  on_error (txt "p") replay_table (styles_of (Some (txt "usage=all,error=see:usage=short usage=none,,multi=reject"))) =
    txt "       Use the '--usage' argument for assistance." ++ [nl].
Proof.
  destruct (ArgvEnv_proofs.spelled_ex global_sep list_sep ArgvEnv_proofs.global_sep_sep (txt "usage=all,error=see:usage=short usage=none,,multi=reject")) as [ws S0].
  exists ws. split; [exact S0|]. apply (ArgvEnv_proofs.spelled_vec global_sep list_sep ArgvEnv_proofs.global_sep_sep) in S0. subst ws. repeat split; vm_compute; reflexivity.
Qed.
Example C100_abbreviated : abbreviates 0 "usage" (txt "us") /\ abbreviates 0 "help" (txt "help") /\ abbreviates 6 "usage-long" (txt "usage-lo").
Proof.
  split; [|split]; (split; [cbn; lia|]).
  - exists (txt "age"). reflexivity.
  - exists []. reflexivity.
  - exists (txt "ng"). reflexivity.
Qed.

(** The other names show the same whatever the variable says; usage- is short for
    usage-short. *)
Theorem C100_named : forall prog t l help version st name, rows t l ->
  (abbreviates 5 "usage-short" name -> exists text, own_option prog t help version st name = Some (Text text) /\ names t text) /\
  (abbreviates 6 "usage-long" name \/ abbreviates 6 "usage-all" name ->
    exists text, own_option prog t help version st name = Some (Text text) /\ lists l text).
Proof.
  intros prog t l help version st name R. split.
  - intro A. exists (do_usage prog t U_short). split; [apply own_short, A|exact (usage_tells prog t l U_short R)].
  - intros [A|A].
    + exists (do_usage prog t U_long). split; [apply own_long, A|exact (usage_tells prog t l U_long R)].
    + exists (do_usage prog t U_all). split; [apply own_all, A|exact (usage_tells prog t l U_all R)].
Qed.
Print Assumptions C100_named.

(** --version shows the version of a program that has one. *)
Theorem C100_version : forall prog t help st name v, abbreviates 0 "version" name ->
  own_option prog t help (Some v) st name = Some (Text (prog ++ txt ": " ++ v ++ [nl])).
Proof. intros prog t help st name v A. exact (own_version prog t help (Some v) st name v eq_refl A). Qed.
Print Assumptions C100_version.

(** fstrm_replay has none. *)
Example C100_replay_version : own_option (txt "fstrm_replay") replay_table None None default_styles (txt "version") =
  Some (Text (txt "fstrm_replay: no version information is available." ++ [nl])).
Proof. reflexivity. Qed.

(** The parser of Argv.v ends the program with status 0 at exactly the names that display
    something. *)
Theorem C100_exits : forall prog t help version st g cap fa name close s,
  name <> [] -> long_matches g 0 name = [] -> is_prefix name (txt "argv-file") = false ->
  (long_option g cap fa name close s = A_exit 0 <-> exists d, own_option prog t help version st name = Some d).
Proof. exact own_exits. Qed.
Print Assumptions C100_exits.

Example C100_exits_nonvacuous : long_matches capture_grid 0 (txt "usage-all") = [] /\ is_prefix (txt "usage-all") (txt "argv-file") = false /\
  long_matches capture_grid 0 (txt "nothing") = [] /\ own_option (txt "p") capture_table None None default_styles (txt "nothing") = None.
Proof. repeat split. Qed.

(** No line of any of the texts is wider than 79. *)
Theorem C100_fits : forall prog t f, ~ In nl prog -> (length prog <= 72)%nat ->
  Forall (fun e => one_line e /\ ~ too_long e /\ (length (match u_label e with Some l => l | None => txt "??" end) <= 71)%nat) t ->
  narrow 79 (do_usage prog t f).
Proof. exact usage_narrow. Qed.
Print Assumptions C100_fits.

Example C100_fits_nonvacuous :
  Forall (fun e => one_line e /\ ~ too_long e /\ (length (match u_label e with Some l => l | None => txt "??" end) <= 71)%nat) replay_table.
Proof.
  repeat constructor; try (intros [X|X]; [discriminate X|]; vm_compute in X; intuition discriminate);
    try (vm_compute; lia); try (vm_compute; intuition discriminate); try (intros (X & _); discriminate X);
    try (intros (_ & [X|X] & _); discriminate X).
Qed.

(** --usage-all says that --help displays the help message.  It never does: the
    message has no effect on anything that is displayed, *)
Theorem C100_help_never : forall prog t help1 help2 version st name,
  own_option prog t help1 version st name = own_option prog t help2 version st name.
Proof. intros prog t help1 help2 version st name. exact (own_no_help prog t help2 version st help1 name). Qed.
Print Assumptions C100_help_never.

(** so it is not true that the help message is displayed. *)
Theorem C100_help_refuted :
  (exists a b, do_usage (txt "fstrm_replay") replay_table U_all = a ++ txt "Use '--help' to display the help message." ++ b) /\
  ~ forall prog t h version st, exists a b, own_option prog t (Some h) version st (txt "help") = Some (Text (a ++ h ++ b)).
Proof.
  split.
  - exists (usage_long (txt "fstrm_replay") replay_table ++ [nl] ++ concat (map line (firstn 4 hints))), ([nl] ++ concat (map line (skipn 5 hints))).
    vm_compute. reflexivity.
  - intro H. destruct (H [] [] [x01] None default_styles) as (a & b & E).
    assert (X : forall s, own_option [] [] (Some [x01]) None default_styles (txt "help") = Some (Text s) -> ~ In x01 s).
    { intros s Es. vm_compute in Es. injection Es as <-. vm_compute. intuition discriminate. }
    apply (X _ E). apply in_or_app. right. left. reflexivity.
Qed.
Print Assumptions C100_help_refuted.

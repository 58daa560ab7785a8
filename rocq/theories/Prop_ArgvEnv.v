(** C79: what the environment adds to a command line. *)
From Coq Require Import ZArith String Lia.
From Verif Require Import Bytes Bytes_proofs Control Misc Capture Startup Argv SpecArgv Argv_proofs Argv2_proofs Argv3_proofs
  ArgvEnv SpecArgvEnv ArgvEnv_proofs ArgvEnv4_proofs Prop_Argv.
Import ListNotations.
Local Open Scope N_scope.

(** Every text has its words, every environment makes its choice, and every program
    whose name has at most 256 bytes its words of the variable: each exactly one. *)
Theorem C79_words : forall (b : bool) t, exists! ws, spelled (if b then space_or_tab else list_sep) ws t.
Proof. exact words_unique. Qed.
Print Assumptions C79_words.
Theorem C79_choice : forall getenv, exists! c, chooses getenv c.
Proof. intro getenv. destruct (chooses_ex getenv) as [c H]. exists c. split; [exact H|]. intros c'. apply chooses_unique. exact H. Qed.
Print Assumptions C79_choice.
Theorem C79_supplied : forall getenv p, (forall name, called p name -> (List.length name <= 256)%nat) -> exists! ws, supplies getenv p ws.
Proof. intros getenv p L. destruct (supplies_ex getenv p L) as [c H]. exists c. split; [exact H|]. intros c'. apply supplies_unique. exact H. Qed.
Print Assumptions C79_supplied.

(** Any arguments: unless GLOBAL_ARGV says something else, the words of the variable are
    read before the arguments; with env=after behind them; with env=none not at all. *)
Theorem C79_variable : forall g files fuel getenv argv0 c ws args,
  chooses getenv c -> supplies getenv argv0 ws -> ch_eq c = true -> ch_resume c = false -> ch_again c = true ->
  (ch_place c = Before -> argv_env g files fuel getenv (argv0 :: args) = E_res (argv_process g files fuel ws args)) /\
  (ch_place c = After -> argv_env g files fuel getenv (argv0 :: args) = E_res (argv_process g files fuel args ws)) /\
  (ch_place c = Nowhere -> argv_process g files fuel [] args <> Undef UB_queue ->
     argv_env g files fuel getenv (argv0 :: args) = E_res (argv_process g files fuel [] args)).
Proof. intros g files fuel getenv argv0 c ws args C W. exact (env_plain g files fuel getenv argv0 c ws C W args). Qed.
Print Assumptions C79_variable.

(** Good options in both: as if all were arguments, in that order; multi=reject ends the
    program exactly if an option that is neither a counter nor a list comes twice. *)
Theorem C79_line : forall g files fuel getenv argv0 c es gs,
  chooses getenv c -> supplies getenv argv0 (flat_map (words g) es) -> ch_eq c = true ->
  good_grid g -> Forall (proper g) es -> Forall (proper g) gs ->
  let l := in_order (ch_place c) es gs in
  let r := argv_env g files fuel getenv (argv0 :: flat_map (words g) gs) in
  (ch_again c = true \/ ~ repeated g (all_sets l) -> r = E_res (argv_process g files fuel [] (flat_map (words g) l))) /\
  (ch_again c = false -> repeated g (all_sets l) -> r = E_res (Exited 1)).
Proof. intros g files fuel getenv argv0 c es gs C W CE G FE FG. exact (env_line g files fuel getenv argv0 c _ C W es gs G FE FG CE eq_refl). Qed.
Print Assumptions C79_line.
(** So for a setting with one value the arguments win over the variable (with env=after
    the variable wins), whenever the program goes on. *)
Theorem C79_later_wins : forall g files fuel getenv argv0 c es gs v past i o w,
  chooses getenv c -> supplies getenv argv0 (flat_map (words g) es) -> ch_eq c = true ->
  good_grid g -> Forall (proper g) es -> Forall (proper g) gs ->
  argv_env g files fuel getenv (argv0 :: flat_map (words g) gs) = E_res (Parsed v past) ->
  nth_error g i = Some o -> (o_kind o = K_str /\ o_array o = false \/ o_kind o = K_int) ->
  last_of (values i (all_sets (match ch_place c with After => es | _ => gs end))) = Some w ->
  nth_error v i = Some (match o_kind o with K_int => V_int (atoi w) | _ => V_str (Some w) end).
Proof. exact env_wins. Qed.
Print Assumptions C79_later_wins.

(** Any arguments: multi=reject never changes a setting, it only ends programs that
    would have gone on. *)
Theorem C79_reject : forall g files fuel getenv getenv' argv0 args c ws,
  chooses getenv c -> chooses getenv' (mk_choice (ch_eq c) (ch_resume c) true (ch_place c)) ->
  supplies getenv argv0 ws -> supplies getenv' argv0 ws ->
  argv_env g files fuel getenv (argv0 :: args) = argv_env g files fuel getenv' (argv0 :: args) \/
  (exists v p, argv_env g files fuel getenv' (argv0 :: args) = E_res (Parsed v p)) /\
  argv_env g files fuel getenv (argv0 :: args) = E_res (Exited 1).
Proof. exact env_reject. Qed.
Print Assumptions C79_reject.
(** close=disable: no option with a '=' is accepted before "--". *)
Theorem C79_no_equals : forall g files fuel getenv argv0 c ws args pre a post,
  chooses getenv c -> supplies getenv argv0 ws -> good_grid g -> ch_eq c = false ->
  args = pre ++ (x2d :: a) :: post \/ (ch_place c <> Nowhere /\ ws = pre ++ (x2d :: a) :: post) -> ~ In (txt "--") pre -> In x3d a ->
  forall v past, argv_env g files fuel getenv (argv0 :: args) <> E_res (Parsed v past).
Proof. intros g files fuel getenv argv0 c ws args pre a post C W. exact (env_no_eq g files fuel getenv argv0 c ws C W args pre a post). Qed.
Print Assumptions C79_no_equals.
(** lasttog=enable: what stands between two "--" may be any value, and options follow. *)
Theorem C79_resume : forall g files fuel getenv argv0 c es gs1 i v gs2,
  chooses getenv c -> supplies getenv argv0 (flat_map (words g) es) -> good_grid g ->
  Forall (proper g) es -> Forall (proper g) gs1 -> Forall (proper g) gs2 -> is_valued g i -> has_letter g i -> v <> txt "--" ->
  ch_eq c = true -> ch_resume c = true ->
  argv_env g files fuel getenv (argv0 :: flat_map (words g) gs1 ++ [x2d; letter g i] :: txt "--" :: v :: txt "--" :: flat_map (words g) gs2) =
  argv_env g files fuel getenv (argv0 :: flat_map (words g) (gs1 ++ G_short_eq i v :: gs2)).
Proof.
  intros g files fuel getenv argv0 c es gs1 i v gs2 C W G FE F1 F2 V L NV CE CR.
  exact (env_dashes g files fuel getenv argv0 c _ C W es gs1 i v gs2 G FE F1 F2 V L NV CE CR eq_refl).
Qed.
Print Assumptions C79_resume.

(** Whatever the environment, fstrm_replay goes on only with a type, a file and exactly
    one destination. *)
Theorem C79_replay_settings : forall files fuel getenv argv v past, argv_env replay_grid files fuel getenv argv = E_res (Parsed v past) ->
  (exists t, v_str v 1 = Some t) /\ v_arr v 6 <> [] /\
  ((exists u, v_str v 2 = Some u) /\ v_str v 4 = None \/ v_str v 2 = None /\ exists a, v_str v 4 = Some a).
Proof. exact env_replay. Qed.
Print Assumptions C79_replay_settings.

(** ** Cases *)
Definition ex_getenv (global : option bytes) (n : bytes) : option bytes :=
  if bytes_eqb n (txt "GLOBAL_ARGV") then global
  else if bytes_eqb n (txt "ARGV_FSTRM_CAPTURE") then Some (txt "  -u   E") else None.
Example ex_supplies global : supplies (ex_getenv global) (txt "/usr/bin/fstrm_capture") (flat_map (words capture_grid) ex_env).
Proof.
  exists (txt "ARGV_FSTRM_CAPTURE"). split.
  - exists (txt "fstrm_capture"), (txt "FSTRM_CAPTURE"). split; [split; [vm_compute; intuition discriminate|right; exists (txt "/usr/bin"); reflexivity]|].
    split; [apply Nat.leb_le; vm_compute; reflexivity|]. split; [apply in_capitals_map; reflexivity|reflexivity].
  - exact (spelled_blank (txt "  -u   E")).
Qed.
Example ex_chooses ws global : says list_sep global ws -> chooses (ex_getenv global) (chosen ws).
Proof. intro H. exists ws. split; [exact H|reflexivity]. Qed.
Example C79_case_default : argv_env capture_grid (fun _ => None) 0 (ex_getenv None) (txt "/usr/bin/fstrm_capture" :: flat_map (words capture_grid) ex_line) =
  E_res (argv_process capture_grid (fun _ => None) 0 (flat_map (words capture_grid) ex_env) (flat_map (words capture_grid) ex_line)).
Proof.
  exact (proj1 (C79_variable _ _ _ _ _ _ _ _ (ex_chooses [] None eq_refl) (ex_supplies None) eq_refl eq_refl eq_refl) eq_refl).
Qed.
(** With env=after the -u of the variable is the later one; -w comes twice. *)
Definition ex_global : bytes := txt "env=none,multi=reject: env=after".
Example ex_choice : chooses (ex_getenv (Some ex_global)) (mk_choice true false false After).
Proof. exact (ex_chooses _ (Some ex_global) (spelled_global ex_global)). Qed.
Example C79_case_reject : argv_env capture_grid (fun _ => None) 0 (ex_getenv (Some ex_global)) (txt "/usr/bin/fstrm_capture" :: flat_map (words capture_grid) ex_line) =
  E_res (Exited 1).
Proof.
  apply (proj2 (C79_line _ _ _ _ _ _ _ _ ex_choice (ex_supplies _) eq_refl capture_good (proj1 ex_proper) (proj2 ex_proper))); [reflexivity|].
  exists 8%nat. eexists. split; [reflexivity|]. split; [reflexivity|]. split; [discriminate|]. vm_compute. reflexivity.
Qed.
Example C79_case_after : exists v p, argv_env capture_grid (fun _ => None) 0 (ex_getenv (Some (txt "env=after"))) (txt "fstrm_capture" :: flat_map (words capture_grid) ex_line) =
  E_res (Parsed v p) /\ nth_error v 3 = Some (V_str (Some (txt "E"))).
Proof. vm_compute. do 2 eexists. split; reflexivity. Qed.
Example C79_case_settings :
  chosen [txt "close=off"; txt "close=maybe"; txt "lasttog=1"; txt "usage=all"; txt "env=none"; txt "Multi=reject"] = mk_choice false true true Nowhere.
Proof. reflexivity. Qed.
Example C79_case_no_equals : argv_env capture_grid (fun _ => None) 0 (ex_getenv (Some (txt "close=no"))) [txt "fstrm_capture"; txt "-u=s"] = E_res (Exited 1).
Proof. reflexivity. Qed.
Example C79_case_resume : argv_env capture_grid (fun _ => None) 0 (ex_getenv (Some (txt "lasttog=on"))) (map txt ["fstrm_capture"; "-w"; "--"; "-x"; "--"; "-d"]%string) =
  argv_env capture_grid (fun _ => None) 0 (ex_getenv (Some (txt "lasttog=on"))) (map txt ["fstrm_capture"; "-w=-x"; "-d"]%string) /\
  argv_env capture_grid (fun _ => None) 0 (ex_getenv None) (map txt ["fstrm_capture"; "-w"; "--"; "-x"; "--"; "-d"]%string) = E_res (Exited 1).
Proof. split; reflexivity. Qed.

(** ** What does not hold *)
(** Called without even a program name, the parser reads a null pointer. *)
Theorem C79_defined_refuted : ~ forall g files fuel getenv argv, argv_env g files fuel getenv argv <> E_null.
Proof. intro H. exact (H [] (fun _ => None) O (fun _ => None) [] eq_refl). Qed.
Print Assumptions C79_defined_refuted.
(** The variable does not only supply defaults: a complete line of arguments that the
    program accepts is refused because of an option in the variable it cannot undo. *)
Definition replay_env (u : option bytes) (n : bytes) : option bytes := if bytes_eqb n (txt "ARGV_FSTRM_REPLAY") then u else None.
Definition replay_args0 : list bytes := map txt ["fstrm_replay"; "-t"; "T"; "-r"; "f"; "-a"; "::1"; "-p"; "5"]%string.
Theorem C79_overrides_refuted : exists u v p,
  argv_env replay_grid (fun _ => None) 0 (replay_env None) replay_args0 = E_res (Parsed v p) /\
  argv_env replay_grid (fun _ => None) 0 (replay_env (Some u)) replay_args0 = E_res (Exited 1) /\
  exists es, Forall (proper replay_grid) es /\ spelled space_or_tab (flat_map (words replay_grid) es) u.
Proof.
  exists (txt "-u s"). do 2 eexists. split; [vm_compute; reflexivity|]. split; [vm_compute; reflexivity|].
  exists [G_short [] 2%nat (txt "s")]. split.
  - constructor; [|constructor]. split; [constructor|]. split; [eexists; split; [reflexivity|left; reflexivity]|]. split; [discriminate|].
    right. intros r E. discriminate.
  - exact (spelled_blank (txt "-u s")).
Qed.
Print Assumptions C79_overrides_refuted.
(** And an accepted file list cannot be replaced: those of the variable stay in front. *)
Theorem C79_files_stay_refuted : exists v p,
  argv_env replay_grid (fun _ => None) 0 (replay_env (Some (txt "-r old"))) replay_args0 = E_res (Parsed v p) /\ v_arr v 6 = [txt "old"; txt "f"].
Proof. do 2 eexists. split; [vm_compute; reflexivity|reflexivity]. Qed.
Print Assumptions C79_files_stay_refuted.

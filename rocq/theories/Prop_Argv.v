(** C71: a command line means what it says.  C72: no command line makes the parser
    leave its memory or the program use a setting it has not got. *)
From Coq Require Import ZArith String Lia.
From Verif Require Import Bytes Control Misc Capture Startup SpecStartup Argv SpecArgv
  Argv_proofs Argv2_proofs Argv3_proofs Argv4_proofs Argv5_proofs Argv6_proofs Argv7_proofs Argv8_proofs.
Import ListNotations.
Local Open Scope N_scope.

(** ** C71 *)
(** Options of fstrm_capture given in any of the ways the usage text shows, in any
    order, any number of times, some of them in the environment: it goes on with
    exactly these settings, a later one taking the place of an earlier one. *)
Theorem C71_capture : forall files fuel es gs, Forall (proper capture_grid) es -> Forall (proper capture_grid) gs ->
  exists past, argv_process capture_grid files fuel (flat_map (words capture_grid) es) (flat_map (words capture_grid) gs) =
    Parsed (meaning capture_grid (es ++ gs)) past.
Proof. intros. eexists. apply capture_line; assumption. Qed.
Print Assumptions C71_capture.
(** So the start is that of C70 with these settings. *)
Theorem C71_capture_start : forall w files fuel es gs f, Forall (proper capture_grid) es -> Forall (proper capture_grid) gs ->
  capture_start w files fuel (flat_map (words capture_grid) es) (flat_map (words capture_grid) gs) f =
  CS_main (main_start w (cmd_of (all_sets (es ++ gs))) f).
Proof. intros. unfold capture_start. rewrite capture_line by assumption. reflexivity. Qed.
Print Assumptions C71_capture_start.
(** fstrm_replay: the same, provided the type, a file and one destination are given;
    otherwise it ends with the usage message. *)
Theorem C71_replay : forall files fuel es gs, Forall (proper replay_grid) es -> Forall (proper replay_grid) gs ->
  let l := all_sets (es ++ gs) in
  let r := argv_process replay_grid files fuel (flat_map (words replay_grid) es) (flat_map (words replay_grid) gs) in
  let complete := mentioned 1 l /\ mentioned 6 l /\ (mentioned 2 l <-> ~ mentioned 4 l) in
  (complete /\ exists past, r = Parsed (meaning replay_grid (es ++ gs)) past) \/ (~ complete /\ r = Exited 1).
Proof. exact replay_line. Qed.
Print Assumptions C71_replay.

(** -dw out --ty=T --unix S -d -w=x, with -u E in the environment. *)
Definition ex_env : list given := [G_short [] 3%nat (txt "E")].
Definition ex_line : list given :=
  [G_short [1%nat] 8%nat (txt "out"); G_long_eq 2%nat (txt "ty") (txt "T"); G_long_val 3%nat (txt "unix") (txt "S"); G_flags [1%nat]; G_short_eq 8%nat (txt "x")].
Example ex_proper : Forall (proper capture_grid) ex_env /\ Forall (proper capture_grid) ex_line.
Proof.
  assert (V : forall i o, nth_error capture_grid i = Some o -> o_kind o = K_str -> is_valued capture_grid i) by (intros i o N K; exists o; tauto).
  assert (D : is_flag capture_grid 1 /\ has_letter capture_grid 1) by (split; [eexists; split; [reflexivity|right; reflexivity]|discriminate]).
  assert (VA : forall b r, b <> x2d -> value_arg (b :: r)) by (intros b r H; right; congruence).
  assert (NM : forall i p o n r, p <> [] -> nth_error capture_grid i = Some o -> o_long o = Some n -> n = p ++ r ->
            long_matches capture_grid 0 p = [i] -> names capture_grid i p).
  { intros i p o n r NE N L E M. split; [exact NE|]. split; [exists o, n, r; repeat split; assumption|].
    intros j o' n' r' N' L' E'. apply (long_matches_complete p capture_grid 0 j o' n' r') in L'; [|assumption..].
    rewrite M in L'. destruct L' as [L'|[]]. exact (eq_sym L'). }
  split; repeat apply Forall_cons; try apply Forall_nil; cbn [proper].
  - split; [constructor|]. split; [eapply V; reflexivity|]. split; [discriminate|apply VA; discriminate].
  - split; [repeat constructor; apply D|]. split; [eapply V; reflexivity|]. split; [discriminate|apply VA; discriminate].
  - split; [eapply V; reflexivity|]. eapply (NM _ _ _ (txt "type") (txt "pe")); [discriminate|reflexivity..].
  - split; [eapply V; reflexivity|]. split; [eapply (NM _ _ _ (txt "unix") []); [discriminate|reflexivity..]|apply VA; discriminate].
  - split; [discriminate|]. repeat constructor; apply D.
  - split; [eapply V; reflexivity|discriminate].
Qed.
Example C71_words : flat_map (words capture_grid) ex_line =
  [txt "-dw"; txt "out"; txt "--ty=T"; txt "--unix"; txt "S"; txt "-d"; txt "-w=x"].
Proof. reflexivity. Qed.
Example C71_case : argv_process capture_grid (fun _ => None) 0 (flat_map (words capture_grid) ex_env) (flat_map (words capture_grid) ex_line) =
  Parsed [V_bool false; V_int 2; V_str (Some (txt "T")); V_str (Some (txt "S")); V_str None; V_str None; V_int 0; V_int 0;
          V_str (Some (txt "x")); V_int 0; V_bool false; V_bool false] false.
Proof. vm_compute. reflexivity. Qed.
Example C71_replay_case :
  argv_process replay_grid (fun _ => None) 0 [] [txt "-t"; txt "T"; txt "-u"; txt "S"; txt "-r"; txt "a"; txt "--read-file=b"] =
    Parsed [V_bool false; V_str (Some (txt "T")); V_str (Some (txt "S")); V_int 0; V_str None; V_str None; V_arr [txt "a"; txt "b"]] true /\
  argv_process replay_grid (fun _ => None) 0 [] [txt "-t"; txt "T"; txt "-u"; txt "S"; txt "-a"; txt "A"; txt "-r"; txt "a"] = Exited 1.
Proof. split; vm_compute; reflexivity. Qed.

(** Both tables are those of the manual pages: each documented letter and long name
    gives the documented setting, with what is documented to come with it. *)
Theorem C71_as_documented : Forall (as_documented capture_grid) capture_doc /\ Forall (as_documented replay_grid) replay_doc.
Proof. exact (conj capture_documented replay_documented). Qed.
Print Assumptions C71_as_documented.
(** A wrong option before "--", in the environment or among the arguments, among
    whatever else: the program does not go on. *)
Theorem C71_wrong_rejected : forall g files fuel env args pre a post,
  env = pre ++ a :: post \/ args = pre ++ a :: post -> ~ In (txt "--") pre -> wrong g a ->
  forall v past, argv_process g files fuel env args <> Parsed v past.
Proof. exact process_wrong. Qed.
Print Assumptions C71_wrong_rejected.
(** -z, -dz and --foo are wrong, and so is --t for fstrm_replay, where --ty is not. *)
Example C71_wrong_case : wrong capture_grid (txt "-dz") /\ wrong capture_grid (txt "--foo=1") /\ wrong replay_grid (txt "--t") /\ names replay_grid 1 (txt "ty").
Proof.
  split; [|split; [|split]].
  - right. exists (txt "dz"), [], x7a. split; [reflexivity|]. split; [cbn; intuition discriminate|]. split; [left; reflexivity|].
    split; [discriminate|]. split; [cbn; tauto|]. split; [|intro F; apply Forall_inv in F; cbn in F; intuition discriminate].
    intros i o N. do 12 (destruct i as [|i]; [injection N as <-; discriminate|]). destruct i; discriminate.
  - left. exists (txt "foo"), (txt "=1"). split; [reflexivity|]. split; [cbn; intuition discriminate|]. split; [right; exists (txt "1"); reflexivity|].
    split; [discriminate|]. right. left. split; [|discriminate].
    intros i (o & n & r & N & L & E). do 12 (destruct i as [|i]; [injection N as <-; injection L as <-; discriminate|]). destruct i; discriminate.
  - left. exists (txt "t"), []. split; [reflexivity|]. split; [cbn; intuition discriminate|]. split; [left; reflexivity|].
    split; [discriminate|]. left. exists 1%nat, 4%nat. split; [discriminate|].
    split; [eexists _, _, (txt "ype")|eexists _, _, (txt "cp")]; (split; [reflexivity|split; reflexivity]).
  - eapply (names_intro _ _ _ _ _ (txt "pe")); [discriminate|reflexivity..].
Qed.
(** An option whose value is missing at the end. *)
Theorem C71_missing_rejected : forall g files fuel env args a, good_grid g -> ~ In (txt "--") args -> asking g a ->
  forall v past, argv_process g files fuel env (args ++ [a]) <> Parsed v past.
Proof. exact process_missing. Qed.
Print Assumptions C71_missing_rejected.
Example C71_missing_case : asking capture_grid (txt "-dw") /\ asking replay_grid (txt "--read").
Proof.
  split.
  - exists 8%nat. split; [eexists; split; [reflexivity|left; reflexivity]|]. right. split; [discriminate|]. exists (txt "d").
    split; [cbn; intuition discriminate|]. split; [discriminate|reflexivity].
  - exists 6%nat. split; [eexists; split; [reflexivity|left; reflexivity]|]. left. exists (txt "read").
    split; [eapply (names_intro _ _ _ _ _ (txt "-file")); [discriminate|reflexivity..]|reflexivity].
Qed.
(** An argument that is no option and no option's value; after "--" any argument. *)
Theorem C71_stray_rejected : forall g files fuel es gs (dashes : bool) a rest, good_grid g -> Forall (proper g) es -> Forall (proper g) gs ->
  (dashes = false -> value_arg a) -> forall v past,
  argv_process g files fuel (flat_map (words g) es) (flat_map (words g) gs ++ (if dashes then [txt "--"] else []) ++ a :: rest) <> Parsed v past.
Proof. exact process_stray. Qed.
Print Assumptions C71_stray_rejected.
(** After "--" an argument is a value even if it looks like an option. *)
Theorem C71_after_dashes : forall g files fuel es gs i v, good_grid g -> Forall (proper g) es -> Forall (proper g) gs ->
  is_valued g i -> has_letter g i ->
  argv_process g files fuel (flat_map (words g) es) (flat_map (words g) gs ++ [[x2d; letter g i]; txt "--"; v]) =
  argv_process g files fuel (flat_map (words g) es) (flat_map (words g) gs ++ [x2d :: letter g i :: x3d :: v]).
Proof. exact process_dashes. Qed.
Print Assumptions C71_after_dashes.
Example C71_dashes_case :
  argv_process capture_grid (fun _ => None) 0 [] (flat_map (words capture_grid) ex_line ++ [txt "-w"; txt "--"; txt "--unix"]) =
    Parsed [V_bool false; V_int 2; V_str (Some (txt "T")); V_str (Some (txt "S")); V_str None; V_str None; V_int 0; V_int 0;
            V_str (Some (txt "--unix")); V_int 0; V_bool false; V_bool false] false /\
  argv_process capture_grid (fun _ => None) 0 [] [txt "-d"; txt "--"; txt "-d"] = Exited 1 /\
  argv_process capture_grid (fun _ => None) 0 [] [txt "-d"; txt "x"; txt "-d"] = Exited 1.
Proof. repeat split; vm_compute; reflexivity. Qed.

(** Options in files of arguments, one word per line, named anywhere on the command
    line or in the environment or in other such files: they mean what they would mean in
    place of the file's name, as long as the queue of options that wait for their values
    has room; if it has not, the parser writes behind it.  (C72: it has one place per
    argument, and the arguments in files are not counted.) *)
Theorem C71_from_files : forall g files fuel d ne na es gs env args, good_grid g ->
  says g files d ne env es -> says g files d na args gs -> (d <= fuel)%nat ->
  argv_process g files fuel env args =
  if (ne + na <=? 1 + List.length args + List.length env)%nat
  then argv_process g files fuel (flat_map (words g) es) (flat_map (words g) gs)
  else Undef UB_queue.
Proof. exact process_says. Qed.
Print Assumptions C71_from_files.
(** -u S --argv=f -d, with -t, T, a blank line and --argv-file, h in the file f and -w=x
    in the file h; three words of their own in all, of the four there is room for. *)
Definition ex_files (p : bytes) : option bytes :=
  if bytes_eqb p (txt "f") then Some (txt "-t" ++ x0a :: txt "T" ++ x0a :: x0a :: txt "--argv-file" ++ x0a :: txt "h")
  else if bytes_eqb p (txt "h") then Some (txt "-w=x" ++ [x0a]) else None.
Example C71_files_said : says capture_grid ex_files 2 0 [] [] /\
  says capture_grid ex_files 2 3 [txt "-u"; txt "S"; txt "--argv=f"; txt "-d"]
    [G_short [] 3%nat (txt "S"); G_short [] 2%nat (txt "T"); G_short_eq 8%nat (txt "x"); G_flags [1%nat]] /\
  argv_process capture_grid ex_files 2 [] [txt "-u"; txt "S"; txt "--argv=f"; txt "-d"] =
    Parsed [V_bool false; V_int 1; V_str (Some (txt "T")); V_str (Some (txt "S")); V_str None; V_str None; V_int 0; V_int 0;
            V_str (Some (txt "x")); V_int 0; V_bool false; V_bool false] false.
Proof.
  assert (V : forall i o, nth_error capture_grid i = Some o -> o_kind o = K_str -> is_valued capture_grid i) by (intros i o N K; exists o; tauto).
  assert (D : is_flag capture_grid 1 /\ has_letter capture_grid 1) by (split; [eexists; split; [reflexivity|right; reflexivity]|discriminate]).
  assert (VA : forall b r, b <> x2d -> value_arg (b :: r)) by (intros b r H; right; congruence).
  assert (OWN : forall p r, p <> [] -> existsb (byte_eqb x3d) p = false -> txt "argv-file" = p ++ r -> long_matches capture_grid 0 p = [] -> file_name capture_grid p).
  { intros p r NE NQ E M. split; [exact NE|]. split; [intro I; apply existsb_in in I; congruence|]. split; [|exists r; exact E].
    intros i B. apply begins_matches in B. rewrite M in B. exact B. }
  split; [constructor|]. split; [|vm_compute; reflexivity].
  apply (says_given capture_grid ex_files 2 2 (G_short [] 3%nat (txt "S")) [txt "--argv=f"; txt "-d"]).
  { split; [constructor|]. split; [eapply V; reflexivity|]. split; [discriminate|apply VA; discriminate]. }
  apply (says_file_eq capture_grid ex_files 1 2 0 (txt "argv") (txt "f") _ [txt "-t"; txt "T"; txt "--argv-file"; txt "h"]
    [G_short [] 2%nat (txt "T"); G_short_eq 8%nat (txt "x")] [txt "-d"] [G_flags [1%nat]] (OWN (txt "argv") (txt "-file") ltac:(discriminate) eq_refl eq_refl eq_refl) eq_refl).
  - apply text_compute. vm_compute. reflexivity.
  - apply (says_given capture_grid ex_files 1 1 (G_short [] 2%nat (txt "T")) [txt "--argv-file"; txt "h"]).
    { split; [constructor|]. split; [eapply V; reflexivity|]. split; [discriminate|apply VA; discriminate]. }
    apply (says_file_val capture_grid ex_files 0 0 0 (txt "argv-file") (txt "h") _ [txt "-w=x"] [G_short_eq 8%nat (txt "x")] [] []
      (OWN (txt "argv-file") [] ltac:(discriminate) eq_refl eq_refl eq_refl) (VA x68 [] ltac:(discriminate)) eq_refl).
    + apply text_compute. vm_compute. reflexivity.
    + apply (says_given capture_grid ex_files 0 0 (G_short_eq 8%nat (txt "x")) []); [split; [eapply V; reflexivity|discriminate]|constructor].
    + constructor.
  - apply (says_given capture_grid ex_files 2 0 (G_flags [1%nat]) []); [split; [discriminate|constructor; [exact D|constructor]]|constructor].
Qed.
(** Every file is a text of arguments, in one way. *)
Theorem C71_every_file_is_a_text : forall c, exists ls, text_of ls c /\ forall ls', text_of ls' c -> ls' = ls.
Proof.
  intro c. destruct (text_total (length c) c (le_n _)) as (ls & T). exists ls. split; [exact T|]. intros ls' T'. exact (text_unique c ls' ls T' T).
Qed.
Print Assumptions C71_every_file_is_a_text.
(** A line of 1025 bytes, a line with a NUL, an empty one and one without newline. *)
Example C71_text_case : text_of [repeat x61 (N.to_nat 1023); txt "aa"; txt "b"; txt "d"]
  (repeat x61 (N.to_nat 1025) ++ [x0a; x62; x00; x63; x0a; x0a; x64]).
Proof. apply text_compute. vm_compute. reflexivity. Qed.
(** A file that cannot be read ends the program, whatever comes after its name. *)
Theorem C71_no_file : forall g files fuel d ne na es gs env args p path rest, good_grid g ->
  says g files d ne env es -> says g files d na args gs -> (d <= fuel)%nat -> (0 < fuel)%nat ->
  (ne + na <= 2 + List.length env + List.length args + List.length rest)%nat ->
  file_name g p -> files path = None ->
  argv_process g files fuel env (args ++ (x2d :: x2d :: p ++ x3d :: path) :: rest) = Exited 1.
Proof. exact process_no_file. Qed.
Print Assumptions C71_no_file.
(** --usage, --version and the like, or a beginning of one: the program shows what is
    asked for and ends well, whatever comes after. *)
Theorem C71_shows_and_ends : forall g files fuel d ne na es gs env args p n t rest, good_grid g ->
  says g files d ne env es -> says g files d na args gs -> (d <= fuel)%nat ->
  (ne + na <= 2 + List.length env + List.length args + List.length rest)%nat ->
  own_name g p n -> In n ending_names -> (forall r, txt "argv-file" <> p ++ r) -> tail_ok t ->
  argv_process g files fuel env (args ++ (x2d :: x2d :: p ++ t) :: rest) = Exited 0.
Proof. exact process_ending. Qed.
Print Assumptions C71_shows_and_ends.
Example C71_ends_case : own_name capture_grid (txt "vers") (txt "version") /\ (forall r, txt "argv-file" <> txt "vers" ++ r) /\
  argv_process capture_grid ex_files 2 [] [txt "-u"; txt "S"; txt "--vers"; txt "--nonsense"] = Exited 0 /\
  argv_process capture_grid ex_files 2 [] [txt "--argv-file=g"; txt "-d"] = Exited 1.
Proof.
  split; [|split; [discriminate|split; vm_compute; reflexivity]].
  split; [discriminate|]. split; [cbn; intuition discriminate|]. split; [|exists (txt "ion"); reflexivity].
  intros i B. apply begins_matches in B. exact B.
Qed.

(** Decimal numbers within int mean themselves. *)
Theorem C71_numbers : forall ds (neg : bool), ds <> [] -> Forall (fun d => d < 10) ds ->
  let z := (if neg then - Z.of_N (number_of ds) else Z.of_N (number_of ds))%Z in
  int_range z -> atoi ((if neg then [x2d] else []) ++ map digit ds) = z.
Proof. exact atoi_digits. Qed.
Print Assumptions C71_numbers.
Example C71_numbers_case : map digit [1; 0; 2; 4] = txt "1024" /\ number_of [1; 0; 2; 4] = 1024 /\ atoi (txt "1024") = 1024%Z /\ atoi (txt "-7") = (-7)%Z.
Proof. repeat split. Qed.
(** A flag given with a value after '=': yes, whatever came before, if the value
    begins with one of t, T, y, Y, 1, and no otherwise; the debug level is that number. *)
Theorem C71_flag_with_value : forall files fuel es gs i p v,
  Forall (proper capture_grid) es -> Forall (proper capture_grid) gs -> is_flag capture_grid i -> names capture_grid i p ->
  exists vals past, argv_process capture_grid files fuel (flat_map (words capture_grid) es)
      (flat_map (words capture_grid) gs ++ [x2d :: x2d :: p ++ x3d :: v]) = Parsed vals past /\
    (forall j, j <> i -> nth_error vals j = nth_error (meaning capture_grid (es ++ gs)) j) /\
    (i <> 1%nat -> exists b, nth_error vals i = Some (V_bool b) /\ (b = true <-> says_yes v)) /\
    (i = 1%nat -> nth_error vals i = Some (V_int (atoi v))).
Proof. exact own_value_said. Qed.
Print Assumptions C71_flag_with_value.
(** --gm --gmtime=no, and -dd --debug=7. *)
Example C71_flag_case : is_flag capture_grid 11 /\ names capture_grid 11 (txt "gmtime") /\
  proper capture_grid (G_long 11 (txt "gm")) /\ ~ says_yes (txt "no") /\ says_yes (txt "Yes") /\
  v_bool (match argv_process capture_grid (fun _ => None) 0 [] [txt "--gm"; txt "--gmtime=no"] with Parsed v _ => v | _ => [] end) 11 = false /\
  v_int (match argv_process capture_grid (fun _ => None) 0 [] [txt "-dd"; txt "--debug=7"] with Parsed v _ => v | _ => [] end) 1 = 7%Z.
Proof.
  assert (NG : forall p r, p <> [] -> txt "gmtime" = p ++ r -> names capture_grid 11 p).
  { intros p r NE E. split; [exact NE|]. split.
    - do 3 eexists. split; [reflexivity|]. split; [reflexivity|]. exact E.
    - intros j o n r' N L E'. destruct p as [|c p]; [congruence|]. injection E as <- _.
      do 12 (destruct j as [|j]; [injection N as <-; cbn in L; injection L as <-; first [reflexivity | discriminate]|]). destruct j; discriminate. }
  assert (FG : is_flag capture_grid 11) by (eexists; split; [reflexivity|left; reflexivity]).
  split; [exact FG|]. split; [apply (NG _ []); [discriminate|reflexivity]|].
  split; [split; [exact FG|apply (NG _ (txt "time")); [discriminate|reflexivity]]|].
  split; [intros (c & r & E & M); injection E as <- <-; cbn in M; intuition discriminate|].
  split; [exists x59, (txt "es"); split; [reflexivity|cbn; tauto]|].
  split; vm_compute; reflexivity.
Qed.
(** Refuted: a text that is no number, or a number out of range, is rejected.  These
    are all accepted: as 0, as 1, as 1. *)
Theorem C71_bad_numbers_refuted : exists v1 v2 v3 p,
  argv_process capture_grid (fun _ => None) 0 [] [txt "--maxconns=ten"] = Parsed v1 p /\ v_int v1 7 = 0%Z /\
  argv_process capture_grid (fun _ => None) 0 [] [txt "--maxconns=1e3"] = Parsed v2 p /\ v_int v2 7 = 1%Z /\
  argv_process capture_grid (fun _ => None) 0 [] [txt "--maxconns=4294967297"] = Parsed v3 p /\ v_int v3 7 = 1%Z.
Proof. eexists _, _, _, _. repeat split; vm_compute; reflexivity. Qed.
Print Assumptions C71_bad_numbers_refuted.
(** Refuted: the argument after an option is its value.  After "-t -u" the next
    argument is the value of -t. *)
Theorem C71_value_follows_refuted : exists v p,
  argv_process capture_grid (fun _ => None) 0 [] [txt "-t"; txt "-u"; txt "S"; txt "T"] = Parsed v p /\
  v_str v 3 = Some (txt "T") /\ v_str v 2 = Some (txt "S").
Proof. eexists _, _. split; [vm_compute; reflexivity|]. split; reflexivity. Qed.
Print Assumptions C71_value_follows_refuted.

(** ** C72 *)
(** Refuted: parsing stays within its memory.  The queue of options that wait for
    their values has one place per argument, but one argument can hold many options:
    a cluster of value-taking letters longer than the command line writes behind it. *)
Theorem C72_queue_overrun_refuted : forall g files fuel ls rest, good_grid g ->
  Forall (fun i => is_valued g i /\ has_letter g i) ls -> (2 + List.length rest < List.length ls)%nat ->
  argv_process g files fuel [] ((x2d :: map (letter g) ls) :: rest) = Undef UB_queue.
Proof. exact process_overruns. Qed.
Print Assumptions C72_queue_overrun_refuted.
(** Both programs; with -www the third write is behind the block. *)
Example C72_overrun_case : good_grid capture_grid /\ good_grid replay_grid /\
  argv_process capture_grid (fun _ => None) 0 [] [txt "-www"] = Undef UB_queue /\
  argv_process capture_grid (fun _ => None) 0 [] [txt "-ww"] = Exited 1 /\
  argv_process replay_grid (fun _ => None) 0 [] [txt "-uuuu"; txt "x"] = Undef UB_queue.
Proof. split; [exact capture_good|]. split; [exact replay_good|]. repeat split; vm_compute; reflexivity. Qed.
(** Refuted: an orderly file of arguments is safe.  Three times "-w" and "x" in a file
    is one more than there is room for. *)
Theorem C72_orderly_file_refuted : exists files gs, says capture_grid files 1 3 [txt "--argv-file=f"] gs /\
  argv_process capture_grid files 1 [] [txt "--argv-file=f"] = Undef UB_queue /\
  exists v past, argv_process capture_grid files 1 [] (flat_map (words capture_grid) gs) = Parsed v past.
Proof.
  exists (fun _ => Some (txt "-w" ++ x0a :: txt "x" ++ x0a :: txt "-w" ++ x0a :: txt "x" ++ x0a :: txt "-w" ++ x0a :: txt "x" ++ [x0a])).
  exists (let w := G_short [] 8%nat (txt "x") in [w; w; w]). split; [|split; [vm_compute; reflexivity|eexists _, _; vm_compute; reflexivity]].
  assert (P : proper capture_grid (G_short [] 8%nat (txt "x"))).
  { split; [constructor|]. split; [eexists; split; [reflexivity|left; reflexivity]|]. split; [discriminate|right; discriminate]. }
  refine (says_file_eq capture_grid _ 0 3 0 (txt "argv-file") (txt "f") _ [txt "-w"; txt "x"; txt "-w"; txt "x"; txt "-w"; txt "x"]
    [G_short [] 8%nat (txt "x"); G_short [] 8%nat (txt "x"); G_short [] 8%nat (txt "x")] [] [] _ eq_refl _ _ _).
  - split; [discriminate|]. split; [cbn; intuition discriminate|]. split; [|exists []; reflexivity]. intros i B. apply begins_matches in B. exact B.
  - apply text_compute. vm_compute. reflexivity.
  - apply (says_given capture_grid _ 0 2 _ [txt "-w"; txt "x"; txt "-w"; txt "x"] _ P).
    apply (says_given capture_grid _ 0 1 _ [txt "-w"; txt "x"] _ P). apply (says_given capture_grid _ 0 0 _ [] _ P). constructor.
  - constructor.
Qed.
Print Assumptions C72_orderly_file_refuted.
(** Refuted: a negative number after --argv-file is looked up in the option it waits
    for, and there is none: NULL is dereferenced. *)
Theorem C72_null_refuted : exists args, argv_process capture_grid (fun _ => None) 0 [] args = Undef UB_null /\
  argv_process replay_grid (fun _ => None) 0 [] args = Undef UB_null.
Proof. exists [txt "--argv-file"; txt "-5"]. split; vm_compute; reflexivity. Qed.
Print Assumptions C72_null_refuted.
(** Refuted: the parser bounds its nesting.  A file of arguments that names itself is
    read again and again, however deep the stack, as long as it can be opened; in fact
    the descriptors run out (C72_ends, C72_circle in Prop_ArgvOpen.v). *)
Theorem C72_self_file_refuted : forall files, files (txt "f") = Some (txt "--argv-file=f" ++ [x0a]) -> forall fuel,
  argv_process capture_grid files fuel [] [txt "--argv-file=f"] = Too_deep /\
  argv_process replay_grid files fuel [] [txt "--argv-file=f"] = Too_deep.
Proof.
  intros files F fuel.
  assert (E : forall g cap s, do_list g cap files fuel [] s = A_go s) by (intros; rewrite do_list_unfold; reflexivity).
  split; unfold argv_process; rewrite E.
  - rewrite (self_file capture_grid _ files eq_refl F fuel). reflexivity.
  - rewrite (self_file replay_grid _ files eq_refl F fuel). reflexivity.
Qed.
Print Assumptions C72_self_file_refuted.
(** Refuted: only the table is read.  Every command line fstrm_replay accepts makes the
    parser read an entry behind the end of the table (the value read does not matter);
    --gmtime does so in fstrm_capture. *)
Theorem C72_reads_past_refuted :
  (forall files fuel env args v past, argv_process replay_grid files fuel env args = Parsed v past -> past = true) /\
  (exists v, argv_process capture_grid (fun _ => None) 0 [] [txt "--gmtime"] = Parsed v true) /\
  (exists v past, argv_process replay_grid (fun _ => None) 0 [] [txt "-t"; txt "T"; txt "-u"; txt "S"; txt "-r"; txt "a"] = Parsed v past).
Proof.
  split; [intros files fuel env args v past H; exact (proj1 (replay_parsed files fuel env args v past H))|].
  split; [eexists|eexists _, _]; vm_compute; reflexivity.
Qed.
Print Assumptions C72_reads_past_refuted.
(** With no file of arguments and no more value-taking options than arguments (say at
    most one in each), any arguments whatever are parsed or rejected.  Missing: the
    cases above. *)
Theorem C72_safe_partial : forall g files fuel env args, Forall no_file (env ++ args) ->
  (total (map (asks g) (env ++ args)) <= 1 + List.length (env ++ args))%nat ->
  (exists v past, argv_process g files fuel env args = Parsed v past) \/ (exists n, argv_process g files fuel env args = Exited n).
Proof. exact process_safe. Qed.
Print Assumptions C72_safe_partial.
Example C72_safe_case : let args := [txt "-dtw"; txt "--"; txt "-x"; txt "y"; txt "-1"] in
  Forall no_file args /\ total (map (asks capture_grid) args) = 3%nat /\
  argv_process capture_grid (fun _ => None) 0 [] args = Exited 1.
Proof.
  split; [repeat constructor; intros r E; discriminate|]. split; vm_compute; reflexivity.
Qed.
(** fstrm_replay goes on only with a content type, a file, and either the path or the
    address and the port: no NULL reaches strlen(), strtoul() or inet_pton(). *)
Theorem C72_replay_has_settings : forall files fuel env args,
  replay_args files fuel env args <> RP_null /\
  forall c, replay_args files fuel env args = RP_run c -> rp_files c <> [].
Proof. exact replay_never_null. Qed.
Print Assumptions C72_replay_has_settings.
Example C72_replay_case : exists c,
  replay_args (fun _ => None) 0 [] [txt "-t"; txt "T"; txt "-a"; txt "::1"; txt "-p"; txt "5"; txt "-r"; txt "x"] = RP_run c /\
  rp_dest c = inr (txt "::1", txt "5") /\
  replay_args (fun _ => None) 0 [] [txt "-t"; txt "T"; txt "-a"; txt "::1"; txt "-r"; txt "x"] = RP_exit 1.
Proof. eexists. split; [vm_compute; reflexivity|]. split; vm_compute; reflexivity. Qed.

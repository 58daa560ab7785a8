(** C72 with the descriptors of files of arguments: parsing ends. *)
From Coq Require Import String Lia.
From Verif Require Import Bytes Control Capture Startup Argv SpecArgv Argv3_proofs Argv5_proofs Argv6_proofs Argv7_proofs ArgvOpen ArgvOpen_proofs SpecArgvOpen ArgvOpen2_proofs Prop_Argv.
Import ListNotations.
Local Open Scope nat_scope.

(** Whatever the files say and however they name each other and the standard input:
    with [fds] descriptors parsing ends, nested at most [fds] + 2 deep, and what it
    does is not a matter of the bound on the nesting in the model. *)
Theorem C72_ends : forall g files fuel fds inp env args, fds + 1 < fuel ->
  open_process g files fuel fds inp env args <> Too_deep /\
  forall fuel', fuel <= fuel' -> open_process g files fuel' fds inp env args = open_process g files fuel fds inp env args.
Proof. exact open_process_ends. Qed.
Print Assumptions C72_ends.
Lemma none_begins g p : (forall i, ~ begins g i p) -> long_matches g 0 p = [].
Proof.
  intro N. destruct (long_matches g 0 p) as [|i l] eqn:E; [reflexivity|]. destruct (N i). apply long_matches_begins. rewrite E. left. reflexivity.
Qed.
(** Files that name each other in a circle of any length use up the descriptors and
    end the program with status 1, whatever follows on the command line. *)
Theorem C72_circle : forall g files (P : bytes -> Prop), (forall i, ~ begins g i (txt "argv-file")) ->
  (forall p, P p -> p <> txt "-" /\ exists c q, files p = Some c /\ text_of [txt "--argv-file=" ++ q] c /\ P q) ->
  forall fds fuel inp p rest, fds < fuel -> P p ->
  open_process g files fuel fds inp [] ((txt "--argv-file=" ++ p) :: rest) = Exited 1.
Proof. intros g files P N. exact (open_process_circle g files P (none_begins g _ N)). Qed.
Print Assumptions C72_circle.
(** Orderly files of arguments, nested no deeper than there are descriptors, mean what
    they say in place: C71_from_files holds with descriptors. *)
Theorem C71_from_open_files : forall g files F fds d ne na es gs env args, good_grid g -> files (txt "-") = Some [] ->
  says g files d ne env es -> says g files d na args gs -> d <= fds -> fds + 1 < F ->
  open_process g files F fds [] env args =
  if ne + na <=? 1 + List.length args + List.length env
  then argv_process g (fun _ => None) 0 (flat_map (words g) es) (flat_map (words g) gs)
  else Undef UB_queue.
Proof. exact open_process_says. Qed.
Print Assumptions C71_from_open_files.
(** More generally, without arguments on the standard input the model without
    descriptors is right about all files that are not nested deeper than there are
    descriptors. *)
Theorem C71_enough_descriptors : forall g files fuel F fds env args, files (txt "-") = Some [] ->
  argv_process g files fuel env args <> Too_deep -> fuel <= F -> fuel <= fds ->
  open_process g files F fds [] env args = argv_process g files fuel env args.
Proof. exact open_process_sim. Qed.
Print Assumptions C71_enough_descriptors.

(** The file named - is the standard input, wherever it is named: its arguments mean what
    they would mean in place of the name, the first time; after that it gives nothing. *)
Theorem C71_standard_input : forall g files F fds d ne na es gs env args inp i j, good_grid g ->
  says_in g files d ne env es inp i -> says_in g files d na args gs i j -> d <= fds -> fds + 1 < F ->
  open_process g files F fds inp env args =
  if ne + na <=? 1 + List.length args + List.length env
  then argv_process g (fun _ => None) 0 (flat_map (words g) es) (flat_map (words g) gs)
  else Undef UB_queue.
Proof. exact open_process_in. Qed.
Print Assumptions C71_standard_input.

(** ** Cases *)
(** --argv=f --argv-file=-, with --argv-file, -, -t and T in the file f and -d on the
    standard input. *)
Definition stdin_files (p : bytes) : option bytes :=
  if bytes_eqb p (txt "f") then Some (txt "--argv-file" ++ x0a :: x2d :: x0a :: txt "-t" ++ x0a :: txt "T") else None.
Example C71_standard_input_case :
  says_in capture_grid stdin_files 1 2 [txt "--argv=f"; txt "--argv-file=-"] [G_flags [1]; G_short [] 2 (txt "T")] (txt "-d" ++ [x0a]) [] /\
  open_process capture_grid stdin_files 4 1 (txt "-d" ++ [x0a]) [] [txt "--argv=f"; txt "--argv-file=-"] =
    Parsed [V_bool false; V_int 1; V_str (Some (txt "T")); V_str None; V_str None; V_str None; V_int 0; V_int 0;
            V_str None; V_int 0; V_bool false; V_bool false] false.
Proof.
  assert (D : is_flag capture_grid 1 /\ has_letter capture_grid 1) by (split; [eexists; split; [reflexivity|right; reflexivity]|discriminate]).
  assert (OWN : forall p r, p <> [] -> existsb (byte_eqb x3d) p = false -> txt "argv-file" = p ++ r -> long_matches capture_grid 0 p = [] -> file_name capture_grid p).
  { intros p r NE NQ E M. split; [exact NE|]. split; [intro I; apply existsb_in in I; congruence|]. split; [|exists r; exact E].
    intros i B. apply begins_matches in B. rewrite M in B. exact B. }
  split; [|vm_compute; reflexivity].
  apply (in_file_eq capture_grid stdin_files 0 2 0 (txt "argv") (txt "f") _ [txt "--argv-file"; txt "-"; txt "-t"; txt "T"]
    [G_flags [1]; G_short [] 2 (txt "T")] [txt "--argv-file=-"] [] _ [] [] (OWN (txt "argv") (txt "-file") ltac:(discriminate) eq_refl eq_refl eq_refl) ltac:(discriminate) eq_refl).
  - apply text_compute. vm_compute. reflexivity.
  - apply (in_dash_val capture_grid stdin_files 0 0 1 (txt "argv-file") [txt "-d"] [G_flags [1]] [txt "-t"; txt "T"] [G_short [] 2 (txt "T")] _ [] []
      (OWN (txt "argv-file") [] ltac:(discriminate) eq_refl eq_refl eq_refl)).
    + apply text_compute. vm_compute. reflexivity.
    + apply (in_given capture_grid stdin_files 0 0 (G_flags [1]) []); [split; [discriminate|constructor; [exact D|constructor]]|constructor].
    + apply (in_given capture_grid stdin_files 0 0 (G_short [] 2 (txt "T")) []); [|constructor].
      split; [constructor|]. split; [eexists; split; [reflexivity|left; reflexivity]|]. split; [discriminate|right; discriminate].
  - apply (in_dash_eq capture_grid stdin_files 1 0 0 (txt "argv-file") [] [] [] [] [] [] [] (OWN (txt "argv-file") [] ltac:(discriminate) eq_refl eq_refl eq_refl)).
    + apply text_compute. vm_compute. reflexivity.
    + constructor.
    + constructor.
Qed.
(** Two files that name each other; both programs. *)
Definition circle_files (p : bytes) : option bytes :=
  if bytes_eqb p (txt "a") then Some (txt "--argv-file=b" ++ [x0a])
  else if bytes_eqb p (txt "b") then Some (txt "--argv-file=a") else None.
Example C72_circle_case : (forall i, ~ begins capture_grid i (txt "argv-file")) /\ (forall i, ~ begins replay_grid i (txt "argv-file")) /\
  let P := fun p => p = txt "a" \/ p = txt "b" in
  P (txt "a") /\ forall p, P p -> p <> txt "-" /\ exists c q, circle_files p = Some c /\ text_of [txt "--argv-file=" ++ q] c /\ P q.
Proof.
  split; [intros i B; apply begins_matches in B; exact B|]. split; [intros i B; apply begins_matches in B; exact B|].
  cbv zeta. split; [left; reflexivity|]. intros p [->| ->]; (split; [discriminate|]).
  - exists (txt "--argv-file=b" ++ [x0a]), (txt "b"). split; [reflexivity|]. split; [|right; reflexivity]. apply text_compute. vm_compute. reflexivity.
  - exists (txt "--argv-file=a"), (txt "a"). split; [reflexivity|]. split; [|left; reflexivity]. apply text_compute. vm_compute. reflexivity.
Qed.
(** The files of C71_files_said, one in the other: two descriptors are enough, one is
    not.  The standard input gives its arguments once, also if it names itself. *)
Definition dash_files (p : bytes) : option bytes := if bytes_eqb p (txt "-") then Some [] else ex_files p.
Example C71_open_case :
  open_process capture_grid dash_files 5 2 [] [] [txt "-u"; txt "S"; txt "--argv=f"; txt "-d"] =
    Parsed [V_bool false; V_int 1; V_str (Some (txt "T")); V_str (Some (txt "S")); V_str None; V_str None; V_int 0; V_int 0;
            V_str (Some (txt "x")); V_int 0; V_bool false; V_bool false] false /\
  open_process capture_grid dash_files 5 1 [] [] [txt "-u"; txt "S"; txt "--argv=f"; txt "-d"] = Exited 1 /\
  open_process capture_grid dash_files 5 0 (txt "-d" ++ x0a :: txt "--argv-file=-" ++ [x0a]) [] [txt "--argv-file=-"; txt "--argv-file"; txt "-"] =
    Parsed [V_bool false; V_int 1; V_str None; V_str None; V_str None; V_str None; V_int 0; V_int 0;
            V_str None; V_int 0; V_bool false; V_bool false] false.
Proof. repeat split; vm_compute; reflexivity. Qed.

(** C92: the memory of the option parser. *)
From Coq Require Import Permutation.
From Verif Require Import Bytes Mem SpecMem ArgvMem SpecArgvMem ArgvMem_proofs.
Local Open Scope nat_scope.

(** Parsing: whatever options there are, whatever the command line, the environment and
    the files of arguments say, nested as they like: nothing is used or freed after it was
    freed.  When the program goes on, there are the strings its options lead to, each its
    own, and besides them only the earlier strings of options given again and what the
    environment left behind. *)
Theorem C92_parsed : forall depth ks args g when words o, exists x o' h,
  process depth ks args (g :: when :: words :: o) heap0 = MOk x o' h /\ NoDup (h_live h) /\
  match x with
  | P_go s => Permutation (h_live h) (vars_own (ps_vars s) ++ ps_lost s) /\
              length (ps_lost s) = again [] (ps_sets s) + env_left when words /\
              (forall i v, nth_error (ps_vars s) i = Some v -> pv_kind v = PK_str -> (pv_ptr v <> None <-> In i (ps_sets s)))
  | _ => True
  end.
Proof. exact process_parsed. Qed.
Print Assumptions C92_parsed.
(** The strings of the options exist as long as the program runs, however often it reads
    them; cleaning up frees each once.  What is left is as many blocks as there were
    strings given to an option that had one, and what the environment left behind. *)
Theorem C92_cleaned_up_partial : forall depth ks args reads g when words o, exists x o' h,
  argv_life depth ks args reads (g :: when :: words :: o) heap0 = MOk x o' h /\ NoDup (h_live h) /\
  match x with
  | Some s => Permutation (h_live h) (ps_lost s) /\ length (h_live h) = again [] (ps_sets s) + env_left when words
  | None => True
  end.
Proof. exact life_accounted. Qed.
Print Assumptions C92_cleaned_up_partial.
(** So nothing is left when no option was given twice and the environment has no arguments,
    or has some and they are used. *)
Theorem C92_nothing_left_partial : forall depth ks args reads g when words o s o' h,
  argv_life depth ks args reads (g :: when :: words :: o) heap0 = MOk (Some s) o' h ->
  NoDup (ps_sets s) -> words = 0 \/ (1 < words /\ when <= 1) -> h_live h = [].
Proof. exact life_clean. Qed.
Print Assumptions C92_nothing_left_partial.

(** ** Cases *)
(** -u a -w b: options 0 and 1 by the queue, then the file in a file of arguments. *)
Definition pm_name (i : nat) : list nat := [1; 1; i; 0].
Definition pm_value : list nat := [1; 2].
Definition pm_pair (i : nat) : list nat := pm_name i ++ pm_value.
(** Two options, and twelve values of the array in a file named on the command line. *)
Definition pm_strs : list nat := flat_map (fun _ => pm_pair 2) [1; 2; 3; 4; 5; 6; 7; 8; 9; 10; 11; 12].
Definition pm_args : list nat := pm_pair 0 ++ pm_pair 1 ++ ([1; 3] ++ [2; 24] ++ pm_strs).
Definition pm_kinds : list pkind := [PK_str; PK_str; PK_strs; PK_num; PK_flag].
Example C92_parsed_case :
  match process 2 pm_kinds 5 ([0; 0; 0] ++ pm_args ++ [1; 7]) heap0 with
  | MOk (P_go s) o h => o = [7] /\ length (h_live h) = 15 /\ ps_lost s = [] /\ ps_sets s = [0; 1] /\ h_next h = 45
  | _ => False
  end /\
  match argv_life 2 pm_kinds 5 3 ([0; 0; 0] ++ pm_args ++ [1] ++ [2; 0; 1; 7]) heap0 with
  | MOk (Some s) o h => o = [7] /\ h_live h = [] /\ NoDup (ps_sets s)
  | _ => False
  end /\
  (* the environment names option 0 and the command line does so again *)
  match argv_life 2 pm_kinds 2 3 ([1; 0; 3] ++ pm_pair 0 ++ pm_pair 0 ++ [1] ++ [0; 0; 0; 7]) heap0 with
  | MOk (Some s) o h => o = [7] /\ length (h_live h) = 1 /\ ps_sets s = [0; 0]
  | _ => False
  end /\
  match process 2 pm_kinds 1 ([0; 0; 0] ++ [1; 9]) heap0 with MOk P_exit _ _ => True | _ => False end.
Proof. vm_compute. repeat split. repeat constructor; cbn; intuition discriminate. Qed.

(** That cleaning up gives back everything is false: an option given twice (-w a -w b),
    a variable ARGV_FSTRM_CAPTURE that holds only blanks, and one that is not to be used
    (GLOBAL_ARGV=env=none). *)
Theorem C92_gives_back_refuted : ~ forall depth ks args reads o s o' h,
  argv_life depth ks args reads o heap0 = MOk (Some s) o' h -> h_live h = [].
Proof.
  intro H. destruct (argv_life 0 [PK_str] 4 0 ([0; 0; 0] ++ pm_pair 0 ++ pm_pair 0 ++ [1]) heap0) as [[s|] o h|u] eqn:E.
  - pose proof (H _ _ _ _ _ _ _ _ E) as X. revert E X. vm_compute. intros [= _ _ <-]. discriminate.
  - revert E. vm_compute. discriminate.
  - revert E. vm_compute. discriminate.
Qed.
Print Assumptions C92_gives_back_refuted.
Example C92_left_case :
  match argv_life 0 [PK_str] 0 0 [0; 0; 1; 1] heap0 with MOk (Some _) _ h => length (h_live h) = 1 | _ => False end /\
  match argv_life 0 [PK_str] 0 0 [1; 2; 5; 1] heap0 with MOk (Some _) _ h => length (h_live h) = 2 | _ => False end.
Proof. vm_compute. auto. Qed.

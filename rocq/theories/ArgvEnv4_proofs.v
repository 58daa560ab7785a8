(** Proofs about the command line with its environment. *)
From Coq Require Import ZArith String Lia.
From Verif Require Import Bytes Bytes_proofs Control Misc Misc_proofs Capture Startup Argv SpecArgv Argv_proofs Argv2_proofs Argv3_proofs Argv4_proofs Argv6_proofs
  ArgvEnv SpecArgvEnv ArgvEnv_proofs ArgvEnv2_proofs ArgvEnv3_proofs.
Import ListNotations.
Local Open Scope N_scope.

Section Env.
Variable g : grid.
Variable files : bytes -> option bytes.
Variable fuel : nat.
Variable getenv : bytes -> option bytes.
Variable argv0 : bytes.
Variable c : choice.
Variable ws : list bytes.
Hypothesis C : chooses getenv c.
Hypothesis W : supplies getenv argv0 ws.

Lemma env_plain args : ch_eq c = true -> ch_resume c = false -> ch_again c = true ->
  (ch_place c = Before -> argv_env g files fuel getenv (argv0 :: args) = E_res (argv_process g files fuel ws args)) /\
  (ch_place c = After -> argv_env g files fuel getenv (argv0 :: args) = E_res (argv_process g files fuel args ws)) /\
  (ch_place c = Nowhere -> argv_process g files fuel [] args <> Undef UB_queue ->
     argv_env g files fuel getenv (argv0 :: args) = E_res (argv_process g files fuel [] args)).
Proof using C W.
  intros CE CR CA. destruct (argv_env_three g files fuel getenv argv0 args c ws C W) as (st & ES & E). rewrite E. subst c. cbn in CE, CR, CA.
  repeat split; intros P; rewrite P.
  - f_equal. apply three_before; assumption.
  - f_equal. apply three_after; assumption.
  - intro U. f_equal. apply three_nowhere; assumption.
Qed.

Lemma env_runs args es gs : good_grid g -> Forall (typed g) (all_sets es) -> Forall (typed g) (all_sets gs) ->
  (forall st cap, choice_of st = c -> runs st g files fuel cap ws (all_sets es)) ->
  (forall st cap, choice_of st = c -> runs st g files fuel cap args (all_sets gs)) ->
  let l := all_sets (in_order (ch_place c) es gs) in let s := line g l in
  argv_env g files fuel getenv (argv0 :: args) = E_res (
    if s_ok s && negb (negb (ch_again c) && rep g l) && check_mand g (used_list g l) && check_xor g (used_list g l) false None
    then Parsed (meant_from g 0 l) (s_past s) else Exited 1).
Proof using C W.
  intros G TE TG RE RG l s. destruct (argv_env_three g files fuel getenv argv0 args c ws C W) as (st & ES & E). rewrite E. f_equal.
  replace (ch_again c) with (se_multi st) by (rewrite <- ES; reflexivity). unfold s, l. clear s l.
  destruct (ch_place c); cbn [in_order]; unfold all_sets; rewrite ?flat_map_app; fold (all_sets es); fold (all_sets gs).
  - rewrite (three_runs st g files fuel _ [] args [] [] (all_sets gs) []).
    + rewrite app_nil_r. reflexivity.
    + rewrite app_nil_r. exact TG.
    + apply runs_nil.
    + apply RG, ES.
    + apply runs_nil.
    + cbn [List.length]. lia.
  - rewrite (three_runs st g files fuel _ ws args [] (all_sets es) (all_sets gs) []).
    + rewrite app_nil_r. reflexivity.
    + rewrite app_nil_r. apply Forall_app. split; assumption.
    + apply RE, ES.
    + apply RG, ES.
    + apply runs_nil.
    + cbn [List.length]. lia.
  - rewrite (three_runs st g files fuel _ [] args ws [] (all_sets gs) (all_sets es)).
    + reflexivity.
    + cbn [app]. apply Forall_app. split; assumption.
    + apply runs_nil.
    + apply RG, ES.
    + apply RE, ES.
    + cbn [List.length]. lia.
Qed.
Lemma order_proper es gs : Forall (proper g) es -> Forall (proper g) gs -> Forall (proper g) (in_order (ch_place c) es gs).
Proof. intros FE FG. destruct (ch_place c); cbn [in_order]; [exact FG|apply Forall_app; split; assumption..]. Qed.

Lemma env_line es gs : good_grid g -> Forall (proper g) es -> Forall (proper g) gs -> ch_eq c = true -> ws = flat_map (words g) es ->
  let l := in_order (ch_place c) es gs in
  let r := argv_env g files fuel getenv (argv0 :: flat_map (words g) gs) in
  (ch_again c = true \/ ~ repeated g (all_sets l) -> r = E_res (argv_process g files fuel [] (flat_map (words g) l))) /\
  (ch_again c = false -> repeated g (all_sets l) -> r = E_res (Exited 1)).
Proof using C W.
  intros G FE FG CE EW l r. unfold r.
  rewrite (env_runs (flat_map (words g) gs) es gs G (all_typed _ _ FE) (all_typed _ _ FG)).
  2,3: intros st cap ES; rewrite ?EW; apply runs_words; try assumption; rewrite <- ES in CE; exact CE.
  fold l. split.
  - intro H. rewrite (process_sets g files fuel l G (order_proper es gs FE FG)). f_equal.
    assert (X : negb (negb (ch_again c) && rep g (all_sets l)) = true).
    { destruct H as [->|H]; [reflexivity|]. rewrite Bool.negb_andb. rewrite <- (rep_spec g (all_sets l)) in H. apply Bool.not_true_is_false in H. rewrite H. apply Bool.orb_true_r. }
    rewrite X, Bool.andb_true_r. reflexivity.
  - intros CA RP. apply rep_spec in RP. rewrite CA, RP. cbn [negb andb]. rewrite Bool.andb_false_r. reflexivity.
Qed.

Lemma env_dashes es gs1 i v gs2 : good_grid g -> Forall (proper g) es -> Forall (proper g) gs1 -> Forall (proper g) gs2 ->
  is_valued g i -> has_letter g i -> v <> txt "--" -> ch_eq c = true -> ch_resume c = true -> ws = flat_map (words g) es ->
  argv_env g files fuel getenv (argv0 :: flat_map (words g) gs1 ++ [x2d; letter g i] :: txt "--" :: v :: txt "--" :: flat_map (words g) gs2) =
  argv_env g files fuel getenv (argv0 :: flat_map (words g) (gs1 ++ G_short_eq i v :: gs2)).
Proof using C W.
  intros G FE F1 F2 V L NV CE CR EW.
  assert (FG : Forall (proper g) (gs1 ++ G_short_eq i v :: gs2)) by (apply Forall_app; split; [exact F1|constructor; [split; assumption|exact F2]]).
  rewrite (env_runs (flat_map (words g) (gs1 ++ G_short_eq i v :: gs2)) es (gs1 ++ G_short_eq i v :: gs2) G (all_typed _ _ FE) (all_typed _ _ FG)).
  2,3: intros st cap ES; rewrite ?EW; apply runs_words; try assumption; rewrite <- ES in CE; exact CE.
  rewrite (env_runs _ es (gs1 ++ G_short_eq i v :: gs2) G (all_typed _ _ FE) (all_typed _ _ FG)).
  - reflexivity.
  - intros st cap ES; rewrite ?EW; apply runs_words; try assumption; rewrite <- ES in CE; exact CE.
  - intros st cap ES. apply runs_dashes; try assumption; [rewrite <- ES in CE; exact CE|rewrite <- ES in CR; exact CR].
Qed.

Lemma env_no_eq args pre a post : good_grid g -> ch_eq c = false ->
  args = pre ++ (x2d :: a) :: post \/ (ch_place c <> Nowhere /\ ws = pre ++ (x2d :: a) :: post) -> ~ In (txt "--") pre -> In x3d a ->
  forall v past, argv_env g files fuel getenv (argv0 :: args) <> E_res (Parsed v past).
Proof using C W.
  intros G CE H NI I v past. destruct (argv_env_three g files fuel getenv argv0 args c ws C W) as (st & ES & E). rewrite E.
  assert (SE : se_close st = false) by (rewrite <- ES in CE; exact CE).
  set (cap := (1 + List.length args + List.length ws)%nat).
  assert (B : forall l, l = pre ++ (x2d :: a) :: post -> forall s, bads (c_do_list st g cap files fuel l s)).
  { intros l -> s. apply list_eq_bads; assumption. }
  intro X. injection X as X. revert X.
  destruct H as [H|[NP H]]; destruct (ch_place c); try congruence; apply three_bads; auto.
Qed.

Lemma env_parsed P v past args : kept g P -> P (start g) -> argv_env g files fuel getenv (argv0 :: args) = E_res (Parsed v past) ->
  exists s, P s /\ s_vals s = v /\ s_past s = past /\ s_ok s = true /\ s_queue s = [] /\
    check_mand g (s_used s) = true /\ check_xor g (s_used s) false None = true.
Proof using C W.
  intros K H0 H. destruct (argv_env_three g files fuel getenv argv0 args c ws C W) as (st & ES & E). rewrite E in H. injection H as H.
  destruct (ch_place c); exact (three_kept st g P files fuel _ _ _ _ v past K H0 H).
Qed.
End Env.

Lemma env_reject g files fuel getenv getenv' argv0 args c ws : chooses getenv c -> chooses getenv' (mk_choice (ch_eq c) (ch_resume c) true (ch_place c)) ->
  supplies getenv argv0 ws -> supplies getenv' argv0 ws ->
  argv_env g files fuel getenv (argv0 :: args) = argv_env g files fuel getenv' (argv0 :: args) \/
  (exists v p, argv_env g files fuel getenv' (argv0 :: args) = E_res (Parsed v p)) /\
  argv_env g files fuel getenv (argv0 :: args) = E_res (Exited 1).
Proof.
  intros C C' W W'. destruct (argv_env_three g files fuel getenv argv0 args c ws C W) as (st & ES & E).
  destruct (argv_env_three g files fuel getenv' argv0 args _ ws C' W') as (st' & ES' & E'). rewrite E, E'. cbn [ch_place].
  rewrite <- ES in ES'. cbn [ch_eq ch_resume ch_place choice_of] in ES'.
  assert (X : se_close st = se_close st' /\ se_toggle st = se_toggle st' /\ se_multi st' = true).
  { apply (f_equal (fun x => (ch_eq x, ch_resume x, ch_again x))) in ES'. cbn in ES'. injection ES' as X Y Z. repeat split; congruence. }
  destruct X as (X & Y & Z).
  assert (D : forall cap l1 l2 l3, E_res (three st g files fuel cap l1 l2 l3) = E_res (three st' g files fuel cap l1 l2 l3) \/
    (exists v p, E_res (three st' g files fuel cap l1 l2 l3) = E_res (Parsed v p)) /\ E_res (three st g files fuel cap l1 l2 l3) = E_res (Exited 1)).
  { intros cap l1 l2 l3. destruct (sim_three st st' g cap X Y Z files fuel l1 l2 l3) as [->|[(v & p & ->) ->]]; [left; reflexivity|right; eauto]. }
  destruct (ch_place c); apply D.
Qed.

(** ** What a later option does *)
Lemma last_of_app l m : m <> [] -> last_of (l ++ m) = last_of m.
Proof.
  intro H. induction l as [|x l IH]; [reflexivity|]. cbn [app]. destruct (l ++ m) eqn:E; [destruct l; [contradiction|discriminate]|].
  rewrite <- IH. reflexivity.
Qed.
Lemma env_wins g files fuel getenv argv0 c es gs v past i o w : chooses getenv c -> supplies getenv argv0 (flat_map (words g) es) -> ch_eq c = true ->
  good_grid g -> Forall (proper g) es -> Forall (proper g) gs ->
  argv_env g files fuel getenv (argv0 :: flat_map (words g) gs) = E_res (Parsed v past) ->
  nth_error g i = Some o -> (o_kind o = K_str /\ o_array o = false \/ o_kind o = K_int) ->
  last_of (values i (all_sets (match ch_place c with After => es | _ => gs end))) = Some w ->
  nth_error v i = Some (match o_kind o with K_int => V_int (atoi w) | _ => V_str (Some w) end).
Proof.
  intros C W CE G FE FG H N K L.
  rewrite (env_runs g files fuel getenv argv0 c _ C W (flat_map (words g) gs) es gs G (all_typed _ _ FE) (all_typed _ _ FG)) in H.
  2,3: intros st cap ES; apply runs_words; try assumption; rewrite <- ES in CE; exact CE.
  injection H as H. match type of H with (if ?x then _ else _) = _ => destruct x end; [|discriminate]. injection H as H _. subst v.
  rewrite meant_from_nth, N. cbn [option_map Nat.add]. f_equal.
  assert (X : last_of (values i (all_sets (in_order (ch_place c) es gs))) = Some w).
  { rewrite <- L. destruct (ch_place c); cbn [in_order]; [reflexivity| |]; unfold all_sets in *; rewrite flat_map_app, values_app;
      apply last_of_app; intro Z; rewrite Z in L; discriminate. }
  unfold meant. destruct K as [[-> ->]| ->]; rewrite X; reflexivity.
Qed.

Lemma env_replay files fuel getenv argv v past : argv_env replay_grid files fuel getenv argv = E_res (Parsed v past) ->
  (exists t, v_str v 1 = Some t) /\ v_arr v 6 <> [] /\
  ((exists u, v_str v 2 = Some u) /\ v_str v 4 = None \/ v_str v 2 = None /\ exists a, v_str v 4 = Some a).
Proof.
  destruct argv as [|a rest]; [discriminate|]. intro H.
  assert (T : exists st cap l1 l3, argv_env replay_grid files fuel getenv (a :: rest) = E_res (three st replay_grid files fuel cap l1 rest l3)) by (repeat eexists; reflexivity).
  destruct T as (st & cap & l1 & l3 & T). rewrite T in H. injection H as H.
  destruct (three_kept st replay_grid _ files fuel cap l1 rest l3 v past (kept_and _ _ _ (sound_kept replay_grid) one_dest_kept)
    (conj (sound_start _) one_dest_start) H) as (s & [S O] & <- & <- & OK & Q & M & X).
  exact (proj2 (replay_final s S O OK Q M X)).
Qed.

(** Every program whose name is not too long has a variable with words. *)
Lemma supplies_ex getenv p : (forall name, called p name -> (List.length name <= 256)%nat) -> exists ws, supplies getenv p ws.
Proof.
  intro H. destruct (called_ex p) as [name Cn]. set (n := txt "ARGV_" ++ map upper name).
  assert (V : variable_of p n) by (exists name, (map upper name); repeat split; [apply Cn|apply Cn|apply H; exact Cn|apply in_capitals_map; reflexivity]).
  destruct (getenv n) as [t|] eqn:E.
  - destruct (spelled_ex blank space_or_tab blank_sep t) as [ws SP]. exists ws, n. rewrite E. split; [exact V|exact SP].
  - exists [], n. rewrite E. split; [exact V|reflexivity].
Qed.
Lemma supplies_unique getenv p ws ws' : supplies getenv p ws -> supplies getenv p ws' -> ws = ws'.
Proof. intros A B. rewrite <- (supplies_words _ _ _ A). exact (supplies_words _ _ _ B). Qed.
Lemma chooses_unique getenv c c' : chooses getenv c -> chooses getenv c' -> c = c'.
Proof. intros A B. destruct (chooses_settings _ _ A) as [_ <-]. destruct (chooses_settings _ _ B) as [_ <-]. reflexivity. Qed.
(** For the examples. *)
Lemma spelled_blank t : spelled space_or_tab (vectorize blank t) t.
Proof. destruct (spelled_ex blank space_or_tab blank_sep t) as [ws H]. rewrite <- (spelled_vec _ _ blank_sep _ _ H). exact H. Qed.
Lemma spelled_global t : spelled list_sep (vectorize global_sep t) t.
Proof. destruct (spelled_ex global_sep list_sep global_sep_sep t) as [ws H]. rewrite <- (spelled_vec _ _ global_sep_sep _ _ H). exact H. Qed.

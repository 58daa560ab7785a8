(** Proofs for C71: a flag or a counter given with a value of its own. *)
From Coq Require Import ZArith String Lia.
From Verif Require Import Bytes Bytes_proofs Control Misc Misc_proofs Capture Startup Argv SpecArgv Argv_proofs Argv2_proofs Argv3_proofs.
Import ListNotations.
Local Open Scope N_scope.

Lemma truth_yes v : truth v = true <-> says_yes v.
Proof.
  unfold truth, says_yes. destruct v as [|b r]; [split; [discriminate|intros (c & r & E & _); discriminate]|].
  rewrite !Bool.orb_true_iff, !byte_eqb_eq. split.
  - intro H. exists b, r. split; [reflexivity|]. cbn. intuition.
  - intros (c & r' & E & I). injection E as <- <-. cbn in I. intuition.
Qed.

Lemma arg1_own g cap fa (G : good_grid g) i p v s : names g i p ->
  arg1 g cap fa (x2d :: x2d :: p ++ x3d :: v) s = A_go (give g (i, Some v) s).
Proof.
  intro NM. rewrite arg1_long.
  change (x2d :: x2d :: p ++ x3d :: v) with ((x2d :: x2d :: p) ++ x3d :: v).
  rewrite split_eq_some by (intros [E|[E|I]]; [discriminate..|exact (prefix_no_eq g G i p NM I)]).
  etransitivity; [exact (long_option_names g cap fa i p (Some v) s NM)|]. apply do_arg_close.
Qed.

Section Own.
Variable files : bytes -> option bytes.
Variable fuel : nat.

Lemma own_value es gs i p v : Forall (proper capture_grid) es -> Forall (proper capture_grid) gs ->
  is_flag capture_grid i -> names capture_grid i p ->
  exists past, argv_process capture_grid files fuel (flat_map (words capture_grid) es)
      (flat_map (words capture_grid) gs ++ [x2d :: x2d :: p ++ x3d :: v]) =
    Parsed (set_nth i (match nth_error capture_grid i with
                       | Some o => match o_kind o with K_bool => V_bool (truth v) | _ => V_int (atoi v) end
                       | None => V_int 0 end) (meaning capture_grid (es ++ gs))) past.
Proof.
  intros FE FG FL NM. pose proof capture_good as G. set (g := capture_grid) in *. unfold argv_process. rewrite do_list_unfold.
  set (args := flat_map (words g) gs ++ [x2d :: x2d :: p ++ x3d :: v]).
  set (cap := (1 + List.length args + List.length (flat_map (words g) es))%nat).
  set (fa := fun path s => match fuel with O => A_deep | S f => match files path with None => A_exit 1 | Some content => do_list g cap files f (file_lines content) s end end).
  assert (LA : List.length args = (List.length (flat_map (words g) gs) + 1)%nat) by (unfold args; rewrite app_length; reflexivity).
  destruct (line_run g cap fa G es (start g) FE eq_refl) as (s1 & E1 & Q1 & H1 & N1); [unfold cap; cbn [s_head start]; lia|].
  rewrite E1. rewrite do_list_unfold. fold fa. cbn [s_head start] in H1. unfold args.
  assert (R : forall gs s, Forall (proper g) gs -> s_queue s = [] -> (s_head s + List.length (flat_map (words g) gs) < cap)%nat -> forall r,
    exists s', do_list_with g cap fa false (flat_map (words g) gs ++ r) s = do_list_with g cap fa false r s' /\
      steps g (all_sets gs) (List.length (flat_map (words g) gs)) s s').
  { clearbody cap fa. clear - G. intro gs. induction gs as [|x gs IH]; intros s F Q H r.
    - exists s. split; [reflexivity|]. apply (steps_refl g fa). exact Q.
    - cbn [flat_map] in H |- *. rewrite app_length in H |- *.
      destruct (words_run g cap fa G x (flat_map (words g) gs ++ r) s (Forall_inv F) Q ltac:(lia)) as (s1 & E1 & S1).
      rewrite <- app_assoc, E1. destruct S1 as (Q1 & H1 & N1).
      destruct (IH s1 (Forall_inv_tail F) Q1 ltac:(lia) r) as (s2 & E2 & S2). exists s2. split; [exact E2|].
      unfold all_sets. cbn [flat_map]. apply (steps_trans g fa _ _ _ _ s s1 s2); [|exact S2]. repeat split; assumption. }
  destruct (R gs s1 FG Q1 ltac:(unfold cap; lia) [x2d :: x2d :: p ++ x3d :: v]) as (s2 & E2 & Q2 & H2 & N2). rewrite E2.
  pose proof (proj1 NM) as NE.
  rewrite (do_list_cons g cap fa) by (intro E; destruct p; [congruence|discriminate]).
  rewrite (arg1_own g cap fa G i p v s2 NM).
  set (l := all_sets (es ++ gs)).
  assert (NS : norm s2 = line g l).
  { unfold l, line, all_sets. rewrite N2, N1, flat_map_app, fold_left_app. reflexivity. }
  assert (T : Forall (typed g) l) by (apply all_typed; apply Forall_app; split; assumption).
  destruct (line_vals g l T) as [V U].
  assert (OK : s_ok s2 = true) by (change (s_ok s2) with (s_ok (norm s2)); rewrite NS; apply capture_line_ok; exact T).
  assert (VV : s_vals s2 = meaning g (es ++ gs)) by (change (s_vals s2) with (s_vals (norm s2)); rewrite NS; exact V).
  destruct FL as (o & No & K). cbn [do_list_with].
  assert (GV : exists val, string_to_value (o_kind o) (o_array o) (Some v) (meant o i l) = Some val /\
    val = match o_kind o with K_bool => V_bool (truth v) | _ => V_int (atoi v) end).
  { destruct K as [-> | ->]; eexists; split; reflexivity. }
  destruct GV as (val & SV & ->).
  assert (O : nth_error (s_vals s2) i = Some (meant o i l)).
  { rewrite VV. unfold meaning. rewrite meant_from_nth. fold l. rewrite No. reflexivity. }
  destruct (give_typed g (i, Some v) s2 _ o _ No O SV) as [EV EO]. cbn [fst snd] in EV, EO.
  rewrite EV, EO, VV, No. unfold mark. cbn [s_ok]. unfold g at 1. rewrite or_capture, OK. cbn [negb andb].
  assert (MX : forall u, check_mand g u = true /\ check_xor g u false None = true).
  { intro u. split.
    - unfold g, capture_grid. do 12 (destruct u as [|? u]; [reflexivity|]; cbn [check_mand o_mand negb orb andb]). destruct u; reflexivity.
    - assert (X : forall gg uu b, forallb (fun o => negb (is_xor o)) gg = true -> check_xor gg uu b None = true).
      { induction gg as [|q gg IH]; intros uu b F; [reflexivity|]. destruct uu as [|x uu]; [reflexivity|].
        cbn [forallb] in F. apply Bool.andb_true_iff in F as [F1 F2]. cbn [check_xor]. apply Bool.negb_true_iff in F1. rewrite F1. apply IH. exact F2. }
      apply X. vm_compute. reflexivity. }
  destruct (MX (s_used (give g (i, Some v) s2))) as [-> ->].
  replace (s_queue (give g (i, Some v) s2)) with (@nil (option nat)).
  2:{ unfold give. cbn [fst snd]. destruct (store_fields g i (Some v) (mark g i s2)) as (-> & _). cbn [mark s_queue]. symmetry. exact Q2. }
  cbn [andb]. eexists. reflexivity.
Qed.

Lemma own_value_said es gs i p v : Forall (proper capture_grid) es -> Forall (proper capture_grid) gs ->
  is_flag capture_grid i -> names capture_grid i p ->
  exists vals past, argv_process capture_grid files fuel (flat_map (words capture_grid) es)
      (flat_map (words capture_grid) gs ++ [x2d :: x2d :: p ++ x3d :: v]) = Parsed vals past /\
    (forall j, j <> i -> nth_error vals j = nth_error (meaning capture_grid (es ++ gs)) j) /\
    (i <> 1%nat -> exists b, nth_error vals i = Some (V_bool b) /\ (b = true <-> says_yes v)) /\
    (i = 1%nat -> nth_error vals i = Some (V_int (atoi v))).
Proof.
  intros FE FG FL NM. destruct (own_value es gs i p v FE FG FL NM) as [past E]. eexists _, past. split; [exact E|].
  assert (LT : (i < List.length (meaning capture_grid (es ++ gs)))%nat).
  { destruct FL as (o & No & _). apply nth_error_Some. unfold meaning. rewrite meant_from_nth, No. discriminate. }
  split; [intros j NE; apply set_nth_other; congruence|].
  destruct FL as (o & No & K). rewrite No. split; intro Hi.
  - exists (truth v). split; [|apply truth_yes]. rewrite set_nth_same by exact LT.
    do 12 (destruct i as [|i]; [first [injection No as <-; cbn in K; reflexivity | injection No as <-; destruct K; discriminate | congruence]|]).
    destruct i; discriminate.
  - subst i. rewrite set_nth_same by exact LT. injection No as <-. reflexivity.
Qed.
End Own.

(** Proofs about the command line parser: what it turns down, and "--". *)
From Coq Require Import ZArith String Lia.
From Verif Require Import Bytes Bytes_proofs Control Misc Misc_proofs Capture Startup Argv SpecArgv
  Argv_proofs Argv2_proofs Argv3_proofs Argv4_proofs Argv5_proofs.
Import ListNotations.
Local Open Scope N_scope.

(** ** The manual pages *)
Lemma names_intro g i p o n r : p <> [] -> nth_error g i = Some o -> o_long o = Some n -> n = p ++ r ->
  long_matches g 0 p = [i] -> names g i p.
Proof.
  intros NE N L E M. split; [exact NE|]. split; [exists o, n, r; repeat split; assumption|].
  intros j o' n' r' N' L' E'. apply (long_matches_complete p g 0 j o' n' r') in L'; [|assumption..].
  rewrite M in L'. destruct L' as [L'|[]]. exact (eq_sym L').
Qed.
Ltac documented r :=
  split; [first [exact I|split; [discriminate|reflexivity]]|];
  split; [eapply (names_intro _ _ _ _ _ r); [discriminate|reflexivity..]|
          eexists; split; [reflexivity|first [reflexivity|split; reflexivity]]].
Lemma capture_documented : Forall (as_documented capture_grid) capture_doc.
Proof. repeat apply Forall_cons; try apply Forall_nil; documented (@nil byte). Qed.
Lemma replay_documented : Forall (as_documented replay_grid) replay_doc.
Proof. repeat apply Forall_cons; try apply Forall_nil; [documented (@nil byte)..|documented (txt "-file")]. Qed.

(** ** Errors are not forgotten *)
Lemma bad_store g i v s : s_ok s = false -> s_ok (store g i v s) = false.
Proof.
  intro H. unfold store. destruct (nth_error g i); [|reflexivity]. destruct (nth_error (s_vals s) i); [|reflexivity].
  destruct (string_to_value _ _ _ _); [exact H|reflexivity].
Qed.
Lemma bad_mark g i s : s_ok s = false -> s_ok (mark g i s) = false.
Proof. intro H. cbn. rewrite H. reflexivity. Qed.
Lemma bad_kept g : kept g (fun s => s_ok s = false).
Proof.
  constructor; cbn [s_ok bad push pop]; try reflexivity; try tauto.
  - intros s i v H _. apply bad_store, bad_mark, H.
  - intros s i H _. apply (bad_mark g i s H).
  - intros s i q v H _. apply bad_store. exact H.
Qed.
Definition bads : ares -> Prop := goes (fun s => s_ok s = false).

Definition fa_of (g : grid) (cap : nat) (files : bytes -> option bytes) (fuel : nat) (path : bytes) (s : astate) : ares :=
  match fuel with O => A_deep | S f => match files path with None => A_exit 1 | Some content => do_list g cap files f (file_lines content) s end end.
Lemma do_list_fa g cap files fuel args s : do_list g cap files fuel args s = do_list_with g cap (fa_of g cap files fuel) false args s.
Proof. apply do_list_unfold. Qed.
Lemma fa_kept g P cap files fuel : kept g P -> forall p s, P s -> goes P (fa_of g cap files fuel p s).
Proof.
  intros K p s H. unfold fa_of. destruct fuel; [exact I|]. destruct (files p); [|exact I]. apply (do_list_kept g P K). exact H.
Qed.
Lemma list_app_goes g cap fa (P : astate -> Prop) : forall pre post s,
  ~ In (txt "--") pre -> (forall s', goes P (do_list_with g cap fa false post s')) ->
  goes P (do_list_with g cap fa false (pre ++ post) s).
Proof.
  induction pre as [|b pre IH]; intros post s NI H; [apply H|]. cbn [app].
  rewrite do_list_cons by (intro E; apply NI; left; exact E).
  destruct (arg1 g cap fa b s); try exact I. apply IH; [|exact H]. intro X. apply NI. right. exact X.
Qed.

Lemma find_short_none g c : (forall i o, nth_error g i = Some o -> o_short o <> c) -> find_short g 0 c = None.
Proof.
  intro H. destruct (find_short g 0 c) as [i|] eqn:F; [|reflexivity].
  destruct (find_short_some g c i F) as (o & N & E). exfalso. exact (H i o N E).
Qed.
Lemma is_number_spec s : is_number s = true -> Forall (fun b => In b number_chars) s.
Proof.
  intro H. destruct s as [|b s]; [constructor|]. unfold is_number in H. apply Forall_forall. intros x I.
  rewrite forallb_forall in H. apply H in I. apply existsb_in in I. exact I.
Qed.
Lemma short_bads g cap whole close : is_number whole = false -> forall cs first s,
  (exists c, In c cs /\ find_short g 0 c = None) \/ s_ok s = false -> bads (short_chars g cap whole first cs close s).
Proof.
  intros NN. induction cs as [|c cs IH]; intros first s H.
  - destruct H as [(c & [] & _)|H]. exact H.
  - cbn [short_chars]. rewrite NN, Bool.andb_false_r. destruct (find_short g 0 c) as [i|] eqn:F.
    + assert (D : bads (do_arg g cap i close s) \/ exists c, In c cs /\ find_short g 0 c = None).
      { destruct H as [(d & [E|I] & N)|H]; [congruence|right; eauto|]. left. apply (do_arg_kept g _ (bad_kept g)); [exact (find_short_lt g c i F)|exact H]. }
      destruct (do_arg g cap i close s); try exact I. apply IH. destruct D as [D|D]; [right; exact D|left; exact D].
    + destruct (byte_eqb c x3f); [exact I|]. apply IH. right. reflexivity.
Qed.
Lemma long_matches_begins g p i : In i (long_matches g 0 p) -> begins g i p.
Proof.
  assert (X : forall l k, In i (long_matches l k p) -> exists j o n r, i = (k + j)%nat /\ nth_error l j = Some o /\ o_long o = Some n /\ n = p ++ r).
  { induction l as [|x l IH]; intros k; [intros []|]. cbn [long_matches].
    assert (R : In i (long_matches l (S k) p) -> exists j o n r, i = (k + j)%nat /\ nth_error (x :: l) j = Some o /\ o_long o = Some n /\ n = p ++ r).
    { intro H. destruct (IH _ H) as (j & o & n & r & E & H1). exists (S j), o, n, r. split; [lia|exact H1]. }
    destruct (o_long x) as [n|] eqn:L; [|exact R]. destruct (is_prefix p n) eqn:Q; [|exact R].
    intros [<- |H]; [|exact (R H)]. apply is_prefix_spec in Q as [r Q]. exists O, x, n, r. split; [lia|]. split; [reflexivity|]. split; assumption. }
  intro H. destruct (X g O H) as (j & o & n & r & -> & H1). cbn [Nat.add]. exists o, n, r. exact H1.
Qed.
Lemma begins_matches g p i : begins g i p -> In i (long_matches g 0 p).
Proof. intros (o & n & r & N & L & E). exact (long_matches_complete p g 0 i o n r N L E). Qed.

Lemma split_tail a t : ~ In x3d a -> tail_ok t -> exists c, split_eq (a ++ t) = (a, c).
Proof.
  intros NI [->|[v ->]]; [exists None; rewrite app_nil_r; apply split_eq_none; exact NI|exists (Some v); apply split_eq_some; exact NI].
Qed.
Lemma no_dash_eq p : ~ In x3d p -> ~ In x3d (x2d :: p).
Proof. intros N [E|I]; [discriminate|exact (N I)]. Qed.

Lemma wrong_bads g cap fa a s : wrong g a -> bads (arg1 g cap fa a s).
Proof.
  intros [(p & t & -> & NI & T & NE & H)|(p & t & c & -> & NI & T & D & IC & NF & NN)].
  - rewrite arg1_long. destruct (split_tail (x2d :: x2d :: p) t) as [cl E]; [apply no_dash_eq, no_dash_eq, NI|exact T|].
    cbn [app] in E. rewrite E. cbn [skipn]. unfold long_option. destruct p as [|b p]; [reflexivity|].
    destruct (long_matches g 0 (b :: p)) as [|i [|j m]] eqn:M; [| |reflexivity].
    + destruct H as [(i & j & _ & B & _)|[[_ AF]|E0]]; [|destruct (is_prefix (b :: p) (txt "argv-file")) eqn:Q|discriminate].
      * apply begins_matches in B. rewrite M in B. destruct B.
      * apply is_prefix_spec in Q as [r Q]. exfalso. exact (AF r Q).
      * destruct (special (b :: p)); [exact I|reflexivity].
    + exfalso. destruct H as [(k & l & NK & B1 & B2)|[[NB _]|E0]]; [|apply (NB i), long_matches_begins; rewrite M; left; reflexivity|discriminate].
      apply begins_matches in B1, B2. rewrite M in B1, B2. destruct B1 as [<-|[]], B2 as [<-|[]]. exact (NK eq_refl).
  - destruct p as [|b p]; [destruct IC|]. assert (B : b <> x2d) by (intros ->; exact (D p eq_refl)).
    cbn [app]. rewrite (arg1_short g cap fa b (p ++ t) s B). destruct (split_tail (x2d :: b :: p) t) as [cl E]; [apply no_dash_eq, NI|exact T|].
    cbn [app] in E. rewrite E. cbn [skipn]. apply short_bads; [|left; exists c; split; [exact IC|apply find_short_none; exact NF]].
    apply Bool.not_true_iff_false. intro X. apply is_number_spec in X. apply NN. exact (Forall_inv_tail X).
Qed.

Lemma wrong_not_dashes g : ~ wrong g (txt "--").
Proof.
  intros [(p & t & E & NI & T & NE & H)|(p & t & c & E & NI & T & D & _)].
  - injection E as E. destruct p; [|discriminate]. exact (NE eq_refl (eq_sym E)).
  - injection E as E. destruct p as [|b p]; [|injection E as <- E; exact (D p eq_refl)].
    destruct T as [->|[v ->]]; discriminate.
Qed.
Lemma list_wrong g cap files fuel pre a post s : ~ In (txt "--") pre -> wrong g a ->
  bads (do_list g cap files fuel (pre ++ a :: post) s).
Proof.
  intros NI W. rewrite do_list_fa. apply list_app_goes; [exact NI|]. intro s'.
  rewrite do_list_cons by (intros ->; exact (wrong_not_dashes g W)).
  pose proof (wrong_bads g cap (fa_of g cap files fuel) a s' W) as B.
  destruct (arg1 g cap (fa_of g cap files fuel) a s') as [s2| | |]; try exact I.
  apply (list_kept g _ (bad_kept g)); [apply fa_kept; apply bad_kept|exact B].
Qed.
Lemma process_wrong g files fuel env args pre a post : env = pre ++ a :: post \/ args = pre ++ a :: post ->
  ~ In (txt "--") pre -> wrong g a -> forall v past, argv_process g files fuel env args <> Parsed v past.
Proof.
  intros H NI W v past. unfold argv_process. set (cap := (_ + _ + _)%nat).
  assert (B : match do_list g cap files fuel env (start g) with A_go s => bads (do_list g cap files fuel args s) | _ => True end).
  { destruct H as [->| ->].
    - pose proof (list_wrong g cap files fuel pre a post (start g) NI W) as B.
      destruct (do_list g cap files fuel (pre ++ a :: post) (start g)); try exact I. apply (do_list_kept g _ (bad_kept g)). exact B.
    - destruct (do_list g cap files fuel env (start g)); try exact I. apply list_wrong; assumption. }
  destruct (do_list g cap files fuel env (start g)) as [s1| | |]; try discriminate.
  destruct (do_list g cap files fuel args s1) as [s2| | |]; try discriminate.
  cbn in B. rewrite B. discriminate.
Qed.

(** ** A value that does not come *)
Definition pending : ares -> Prop := goes (fun s => s_queue s <> []).
Lemma enqueue_pending cap x s : pending (enqueue cap x s).
Proof. unfold enqueue. destruct (_ <? _)%nat; [|exact I]. cbn. destruct (s_queue s); discriminate. Qed.
Lemma valued_pending g cap i s : is_valued g i -> pending (do_arg g cap i None s).
Proof.
  intros (o & N & K). unfold do_arg. rewrite N. replace (has_arg (o_kind o)) with true by (destruct K as [-> | ->]; reflexivity).
  apply enqueue_pending.
Qed.
Lemma short_pending g cap whole i : good_grid g -> is_valued g i -> has_letter g i -> is_number whole = false -> forall cs first s,
  pending (short_chars g cap whole first (cs ++ [letter g i]) None s).
Proof.
  intros G V L NN. induction cs as [|c cs IH]; intros first s; cbn [app short_chars].
  - rewrite (find_short_letter g i G L). pose proof (valued_pending g cap i s V) as P. destruct (do_arg g cap i None s); try exact I. exact P.
  - rewrite NN, Bool.andb_false_r. destruct (find_short g 0 c).
    + destruct (do_arg g cap n None s); try exact I. apply IH.
    + destruct (byte_eqb c x3f); [exact I|apply IH].
Qed.
Lemma letter_not_number g i : good_grid g -> is_valued g i -> ~ In (letter g i) (x3d :: number_chars).
Proof. intros G (o & N & _). unfold letter. rewrite N. exact (gg_letters g G i o N). Qed.
Lemma asking_pending g cap fa a s : good_grid g -> asking g a -> a <> txt "--" /\ pending (arg1 g cap fa a s).
Proof.
  intros G (i & V & [(p & N & ->)|(L & p & NI & D & ->)]).
  - split; [intro E; injection E as E; exact (proj1 N E)|]. rewrite arg1_long.
    rewrite (split_eq_none (x2d :: x2d :: p)) by (apply no_dash_eq, no_dash_eq, (prefix_no_eq g G i p N)).
    cbn [skipn]. rewrite (long_option_names g cap fa i p None s N). apply valued_pending. exact V.
  - destruct (letter_ok g G i L) as [NE1 NE2].
    assert (X : exists c cs, p ++ [letter g i] = c :: cs /\ c <> x2d).
    { destruct p as [|b p]; [exists (letter g i), []; split; [reflexivity|exact NE2]|].
      exists b, (p ++ [letter g i]). split; [reflexivity|]. intros ->. exact (D p eq_refl). }
    destruct X as (c & cs & X & C). split; [rewrite X; intro E; injection E as E _; exact (C E)|].
    rewrite X, (arg1_short g cap fa c cs s C).
    rewrite (split_eq_none (x2d :: c :: cs)).
    2:{ rewrite <- X. apply no_dash_eq. intro H. apply in_app_or in H as [H|[H|[]]]; [exact (NI H)|exact (NE1 H)]. }
    cbn [skipn]. rewrite <- X. apply short_pending; [assumption..|].
    apply Bool.not_true_iff_false. intro Y. apply is_number_spec in Y. apply Forall_inv_tail in Y. apply Forall_app in Y as [_ Y].
    apply (letter_not_number g i G V). right. exact (Forall_inv Y).
Qed.
Lemma process_missing g files fuel env args a : good_grid g -> ~ In (txt "--") args -> asking g a ->
  forall v past, argv_process g files fuel env (args ++ [a]) <> Parsed v past.
Proof.
  intros G NI A v past. unfold argv_process. set (cap := (_ + _ + _)%nat).
  destruct (do_list g cap files fuel env (start g)) as [s1| | |]; try discriminate.
  assert (P : pending (do_list g cap files fuel (args ++ [a]) s1)).
  { rewrite do_list_fa. apply list_app_goes; [exact NI|]. intro s'.
    destruct (asking_pending g cap (fa_of g cap files fuel) a s' G A) as [ND P]. rewrite do_list_cons by exact ND.
    destruct (arg1 g cap (fa_of g cap files fuel) a s'); try exact I. exact P. }
  destruct (do_list g cap files fuel (args ++ [a]) s1) as [s2| | |]; try discriminate.
  cbn in P. destruct (s_queue s2); [congruence|]. rewrite Bool.andb_false_r. cbn [andb]. discriminate.
Qed.

(** ** Arguments nobody waits for, and "--" *)
Lemma line_prefix g cap fa : good_grid g -> forall gs r s, Forall (proper g) gs -> s_queue s = [] ->
  (s_head s + List.length (flat_map (words g) gs) < cap)%nat ->
  exists s', do_list_with g cap fa false (flat_map (words g) gs ++ r) s = do_list_with g cap fa false r s' /\
    steps g (all_sets gs) (List.length (flat_map (words g) gs)) s s'.
Proof.
  intro G. induction gs as [|x gs IH]; intros r s F Q H.
  - exists s. split; [reflexivity|]. apply (steps_refl g fa); exact Q.
  - cbn [flat_map] in H |- *. rewrite app_length in H |- *. rewrite <- app_assoc.
    destruct (words_run g cap fa G x (flat_map (words g) gs ++ r) s (Forall_inv F) Q ltac:(lia)) as (s1 & E1 & S1).
    rewrite E1. destruct S1 as (Q1 & H1 & N1).
    destruct (IH r s1 (Forall_inv_tail F) Q1 ltac:(lia)) as (s2 & E2 & S2). exists s2. split; [exact E2|].
    unfold all_sets. cbn [flat_map]. apply (steps_trans g fa _ _ _ _ s s1 s2); [|exact S2]. repeat split; assumption.
Qed.

Lemma process_stray g files fuel es gs (d : bool) a rest : good_grid g -> Forall (proper g) es -> Forall (proper g) gs ->
  (d = false -> value_arg a) -> forall v past,
  argv_process g files fuel (flat_map (words g) es) (flat_map (words g) gs ++ (if d then [txt "--"] else []) ++ a :: rest) <> Parsed v past.
Proof.
  intros G FE FG D v past. unfold argv_process. rewrite do_list_fa.
  set (cap := (1 + List.length (flat_map (words g) gs ++ (if d then [txt "--"] else []) ++ a :: rest) + List.length (flat_map (words g) es))%nat).
  assert (CAP : (List.length (flat_map (words g) es) + List.length (flat_map (words g) gs) < cap)%nat).
  { unfold cap. rewrite app_length. lia. }
  destruct (line_run g cap (fa_of g cap files fuel) G es (start g) FE eq_refl) as (s1 & E1 & Q1 & H1 & N1); [cbn [s_head start]; lia|].
  rewrite E1, do_list_fa. cbn [s_head start] in H1.
  destruct (line_prefix g cap (fa_of g cap files fuel) G gs ((if d then [txt "--"] else []) ++ a :: rest) s1 FG Q1) as (s2 & E2 & Q2 & _); [lia|].
  rewrite E2.
  assert (B : bads (do_list_with g cap (fa_of g cap files fuel) false ((if d then [txt "--"] else []) ++ a :: rest) s2)).
  { assert (PB : plain_arg g (fa_of g cap files fuel) a s2 = A_go (bad s2)) by (unfold plain_arg; rewrite Q2; reflexivity).
    destruct d; cbn [app].
    - change (do_list_with g cap (fa_of g cap files fuel) false (txt "--" :: a :: rest) s2) with
        (do_list_with g cap (fa_of g cap files fuel) true (a :: rest) s2).
      cbn [do_list_with]. rewrite Bool.andb_false_r. rewrite PB.
      apply (list_kept g _ (bad_kept g)); [apply fa_kept; apply bad_kept|reflexivity].
    - rewrite do_list_cons by (apply value_not_last; exact (D eq_refl)). rewrite arg1_plain by exact (D eq_refl). rewrite PB.
      apply (list_kept g _ (bad_kept g)); [apply fa_kept; apply bad_kept|reflexivity]. }
  destruct (do_list_with g cap (fa_of g cap files fuel) false ((if d then [txt "--"] else []) ++ a :: rest) s2) as [s3| | |]; try discriminate.
  cbn in B. rewrite B. discriminate.
Qed.


Lemma process_dashes g files fuel es gs i v : good_grid g -> Forall (proper g) es -> Forall (proper g) gs -> is_valued g i -> has_letter g i ->
  argv_process g files fuel (flat_map (words g) es) (flat_map (words g) gs ++ [[x2d; letter g i]; txt "--"; v]) =
  argv_process g files fuel (flat_map (words g) es) (flat_map (words g) gs ++ [x2d :: letter g i :: x3d :: v]).
Proof.
  intros G FE FG V L.
  replace (flat_map (words g) gs ++ [x2d :: letter g i :: x3d :: v]) with (flat_map (words g) (gs ++ [G_short_eq i v])).
  2:{ rewrite flat_map_app. reflexivity. }
  rewrite (process_line g files fuel es (gs ++ [G_short_eq i v])).
  2,3: assumption.
  2:{ apply Forall_app. split; [exact FG|]. constructor; [|constructor]. split; assumption. }
  set (l := all_sets (es ++ gs ++ [G_short_eq i v])).
  unfold argv_process. rewrite do_list_fa.
  set (cap := (1 + List.length (flat_map (words g) gs ++ [[x2d; letter g i]; txt "--"; v]) + List.length (flat_map (words g) es))%nat).
  assert (CAP : (List.length (flat_map (words g) es) + List.length (flat_map (words g) gs) < cap)%nat).
  { unfold cap. rewrite app_length. cbn [List.length]. lia. }
  destruct (line_run g cap (fa_of g cap files fuel) G es (start g) FE eq_refl) as (s1 & E1 & Q1 & H1 & N1); [cbn [s_head start]; lia|].
  rewrite E1, do_list_fa. cbn [s_head start] in H1.
  destruct (line_prefix g cap (fa_of g cap files fuel) G gs [[x2d; letter g i]; txt "--"; v] s1 FG Q1) as (s2 & E2 & Q2 & H2 & N2); [lia|].
  rewrite E2. destruct (letter_ok g G i L) as [NE1 NE2].
  rewrite do_list_cons by congruence. rewrite (arg1_short g cap _ (letter g i) [] s2 NE2).
  rewrite (split_eq_none [x2d; letter g i]) by (intros [E|[E|[]]]; [discriminate|congruence]).
  cbn [skipn short_chars]. rewrite (find_short_letter g i G L). rewrite (do_arg_valued g cap i s2 V Q2) by lia.
  change (do_list_with g cap (fa_of g cap files fuel) false [txt "--"; v] (wait g i s2)) with
    (do_list_with g cap (fa_of g cap files fuel) true [v] (wait g i s2)).
  cbn [do_list_with]. rewrite Bool.andb_false_r. rewrite plain_wait.
  set (s3 := store g i (Some v) _). destruct (wait_steps g (fa_of g cap files fuel) i v s2) as (Q3 & _ & N3). fold s3 in Q3, N3.
  assert (NS : norm s3 = line g l).
  { unfold l, line, all_sets. rewrite N3, N2, N1, !flat_map_app, !fold_left_app. reflexivity. }
  assert (T : Forall (typed g) l).
  { apply all_typed. apply Forall_app. split; [exact FE|]. apply Forall_app. split; [exact FG|]. constructor; [|constructor]. split; assumption. }
  destruct (line_vals g l T) as [VV U]. rewrite Q3.
  replace (s_ok s3) with (s_ok (line g l)) by (rewrite <- NS; reflexivity).
  replace (s_used s3) with (used_list g l) by (rewrite <- U, <- NS; reflexivity).
  replace (s_vals s3) with (meaning g (es ++ gs ++ [G_short_eq i v])) by (unfold meaning; fold l; rewrite <- VV, <- NS; reflexivity).
  replace (s_past s3) with (s_past (line g l)) by (rewrite <- NS; reflexivity).
  rewrite Bool.andb_true_r. reflexivity.
Qed.

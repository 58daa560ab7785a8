(** Proofs about the command line parser: where it stays within its queue. *)
From Coq Require Import ZArith String Lia.
From Verif Require Import Bytes Bytes_proofs Control Misc Misc_proofs Capture Startup Argv SpecArgv Argv_proofs Argv2_proofs Argv3_proofs Argv4_proofs.
Import ListNotations.
Local Open Scope N_scope.

Lemma split_eq_parts a : forall p c, split_eq a = (p, c) -> exists r, a = p ++ r.
Proof.
  induction a as [|b a IH]; intros p c E; cbn [split_eq] in E; [injection E as <- <-; exists []; reflexivity|].
  destruct (byte_eqb b x3d); [injection E as <- <-; eexists; reflexivity|].
  destruct (split_eq a) as [p' c']. injection E as <- <-. destruct (IH p' c' eq_refl) as [r ->]. exists r. reflexivity.
Qed.
Lemma count_app {A} (f : A -> bool) l m : count_if f (l ++ m) = (count_if f l + count_if f m)%nat.
Proof. unfold count_if. rewrite filter_app, app_length. reflexivity. Qed.

Section Safe.
Variable g : grid.
Variable cap : nat.
Variable fa : bytes -> astate -> ares.

Definition no_none (s : astate) : Prop := ~ In None (s_queue s).
Definition within (s : astate) (n : nat) (x : ares) : Prop :=
  match x with
  | A_go s' => no_none s' /\ (s_head s' <= s_head s + n)%nat
  | A_exit _ => True
  | _ => False
  end.
Lemma store_within i v s : no_none s -> within s 0 (A_go (store g i v s)).
Proof.
  intro H. unfold within, no_none. destruct (store_fields g i v s) as (-> & -> & _ & _). split; [exact H|lia].
Qed.
Lemma within_weaken s n m x : (n <= m)%nat -> within s n x -> within s m x.
Proof. destruct x; cbn; intuition lia. Qed.

Lemma do_arg_within i close s o : nth_error g i = Some o -> no_none s ->
  (s_head s + (if has_arg (o_kind o) then 1 else 0) <= cap)%nat ->
  within s (if has_arg (o_kind o) then 1 else 0) (do_arg g cap i close s).
Proof.
  intros N H L. unfold do_arg. destruct close as [v|].
  - apply (within_weaken _ 0); [lia|]. exact (store_within i (Some v) (mark g i s) H).
  - rewrite N. destruct (has_arg (o_kind o)).
    + unfold enqueue. change (s_head (mark g i s)) with (s_head s). rewrite (proj2 (Nat.ltb_lt _ _)) by lia.
      cbn [within s_head s_queue]. split; [|lia]. intro I. cbn [s_queue] in I. apply in_app_or in I as [I|[I|[]]]; [exact (H I)|discriminate].
    + exact (store_within i None (mark g i s) H).
Qed.
Lemma takes_value_has c i o : nth_error g i = Some o -> o_short o = c -> has_arg (o_kind o) = true -> takes_value g c = true.
Proof.
  intros N S H. unfold takes_value. apply existsb_exists. exists o. split; [exact (nth_error_In _ _ N)|].
  rewrite S, byte_eqb_refl. destruct (o_kind o); first [reflexivity|discriminate].
Qed.
Lemma short_within whole close : forall cs first s, no_none s -> (s_head s + count_if (takes_value g) cs <= cap)%nat ->
  within s (count_if (takes_value g) cs) (short_chars g cap whole first cs close s).
Proof.
  induction cs as [|c cs IH]; intros first s H L; cbn [short_chars]; [cbn; split; [exact H|lia]|].
  assert (C : count_if (takes_value g) (c :: cs) = ((if takes_value g c then 1 else 0) + count_if (takes_value g) cs)%nat).
  { unfold count_if. cbn [filter]. destruct (takes_value g c); reflexivity. }
  rewrite C in L |- *. destruct (find_short g 0 c) as [i|] eqn:F.
  - destruct (find_short_some g c i F) as (o & N & S).
    assert (LE : ((if has_arg (o_kind o) then 1 else 0) <= (if takes_value g c then 1 else 0))%nat).
    { destruct (has_arg (o_kind o)) eqn:HA; [rewrite (takes_value_has c i o N S HA)|]; lia. }
    pose proof (do_arg_within i close s o N H ltac:(lia)) as W. destruct (do_arg g cap i close s) as [s'| | |]; try exact W.
    cbn [within] in W. destruct W as [W1 W2]. pose proof (IH false s' W1 ltac:(lia)) as W.
    destruct (short_chars g cap whole false cs close s'); cbn [within] in *; intuition lia.
  - destruct (byte_eqb c x3f); [exact I|].
    assert (B : within s ((if takes_value g c then 1 else 0) + count_if (takes_value g) cs) (short_chars g cap whole false cs close (bad s))).
    { apply (within_weaken _ (count_if (takes_value g) cs)); [lia|]. apply (IH false (bad s) H). cbn [s_head bad]. lia. }
    destruct (first && is_number whole); [|exact B].
    destruct (s_queue s) as [|[i|] q] eqn:Q; [exact B| |exfalso; apply H; rewrite Q; left; reflexivity].
    destruct (nth_error g i) as [o|]; [|exact B]. destruct (o_kind o); try exact B.
    apply (within_weaken _ 0); [lia|]. apply (store_within i (Some whole) (pop s q)).
    unfold no_none in *. cbn [s_queue pop]. rewrite Q in H. intro J. apply H. right. exact J.
Qed.
Lemma plain_within v s : no_none s -> within s 0 (plain_arg g fa v s).
Proof.
  intro H. unfold plain_arg. destruct (s_queue s) as [|[i|] q] eqn:Q; [cbn; split; [exact H|lia]| |exfalso; apply H; rewrite Q; left; reflexivity].
  apply (store_within i (Some v) (pop s q)). unfold no_none in *. cbn [s_queue pop]. rewrite Q in H. intro J. apply H. right. exact J.
Qed.
Lemma arg1_within a s : no_file a -> no_none s -> (s_head s + asks g a <= cap)%nat -> within s (asks g a) (arg1 g cap fa a s).
Proof.
  intros NF H L. assert (B : within s 0 (A_go (bad s))) by (cbn; split; [exact H|lia]).
  unfold arg1, asks in *. destruct (is_prefix (txt "--") a) eqn:P.
  - destruct (split_eq a) as [p close] eqn:SE. unfold long_option. destruct (skipn 2 p) as [|b name] eqn:NM; [apply (within_weaken _ 0); [lia|exact B]|].
    destruct (long_matches g 0 (b :: name)) as [|i [|j m]] eqn:M.
    + destruct (is_prefix (b :: name) (txt "argv-file")) eqn:FI.
      * exfalso. apply is_prefix_spec in FI as [r FI]. injection FI as <- _.
        destruct (split_eq_parts a p close SE) as [r' ->]. destruct p as [|p0 [|p1 p]]; try discriminate NM. cbn [skipn] in NM. subst p.
        cbn [app txt list_byte_of_string] in P. apply is_prefix_spec in P as [r2 P]. injection P as -> -> _. exact (NF _ eq_refl).
      * destruct (special _); [exact I|]. apply (within_weaken _ 0); [lia|exact B].
    + destruct (long_matches_valid (b :: name) g 0 i) as (k & o & -> & N); [rewrite M; left; reflexivity|]. cbn [Nat.add] in *.
      pose proof (do_arg_within k close s o N H ltac:(destruct (has_arg (o_kind o)); lia)) as W.
      apply (within_weaken _ (if has_arg (o_kind o) then 1 else 0)); [destruct (has_arg (o_kind o)); lia|exact W].
    + apply (within_weaken _ 0); [lia|exact B].
  - destruct (is_prefix (txt "-") a) eqn:P1; cbn [andb].
    + destruct (negb (lenN a =? 1)); [|apply (within_weaken _ 0); [lia|apply plain_within; exact H]].
      destruct (split_eq a) as [p close] eqn:SE. destruct (split_eq_parts a p close SE) as [r ->]. rewrite count_app in L |- *.
      destruct p as [|p0 p]; cbn [skipn]; [apply (within_weaken _ 0); [lia|exact B]|].
      assert (C : (count_if (takes_value g) p <= count_if (takes_value g) (p0 :: p))%nat).
      { change (p0 :: p) with ([p0] ++ p). rewrite count_app. lia. }
      destruct p as [|c cs]; [apply (within_weaken _ 0); [lia|exact B]|].
      apply (within_weaken _ (count_if (takes_value g) (c :: cs))); [lia|]. apply short_within; [exact H|lia].
    + apply plain_within. exact H.
Qed.
Lemma list_within : forall args last s, Forall no_file args -> no_none s -> (s_head s + total (map (asks g) args) <= cap)%nat ->
  within s (total (map (asks g) args)) (do_list_with g cap fa last args s).
Proof.
  induction args as [|a args IH]; intros last s F H L; cbn [do_list_with map total] in *; [cbn; split; [exact H|lia]|].
  destruct (bytes_eqb a (txt "--") && negb last).
  - apply (within_weaken _ (total (map (asks g) args))); [lia|]. apply IH; [exact (Forall_inv_tail F)|exact H|lia].
  - assert (W : within s (asks g a) (if last then plain_arg g fa a s else arg1 g cap fa a s)).
    { destruct last; [apply (within_weaken _ 0); [lia|]; apply plain_within; exact H|]. apply arg1_within; [exact (Forall_inv F)|exact H|lia]. }
    destruct (if last then plain_arg g fa a s else arg1 g cap fa a s) as [s'| | |]; try exact W. cbn [within] in W. destruct W as [W1 W2].
    pose proof (IH last s' (Forall_inv_tail F) W1 ltac:(lia)) as W3.
    destruct (do_list_with g cap fa last args s'); cbn [within] in *; intuition lia.
Qed.
End Safe.

Lemma total_app l m : total (l ++ m) = (total l + total m)%nat.
Proof. induction l as [|n l IH]; cbn [app total]; lia. Qed.
Lemma process_safe g files fuel env args : Forall no_file (env ++ args) ->
  (total (map (asks g) (env ++ args)) <= 1 + List.length (env ++ args))%nat ->
  (exists v past, argv_process g files fuel env args = Parsed v past) \/ (exists n, argv_process g files fuel env args = Exited n).
Proof.
  intros F T. rewrite map_app, total_app, app_length in T. apply Forall_app in F as [FE FA]. unfold argv_process.
  set (cap := (1 + List.length args + List.length env)%nat).
  assert (W1 : within (start g) (total (map (asks g) env)) (do_list g cap files fuel env (start g))).
  { rewrite do_list_unfold. apply list_within; [exact FE|intros []|]. unfold cap. cbn [s_head start]. lia. }
  destruct (do_list g cap files fuel env (start g)) as [s1| n | |]; try contradiction W1; [|right; eexists; reflexivity].
  cbn [within s_head start] in W1. destruct W1 as [Q1 H1].
  assert (W2 : within s1 (total (map (asks g) args)) (do_list g cap files fuel args s1)).
  { rewrite do_list_unfold. apply list_within; [exact FA|exact Q1|]. unfold cap. lia. }
  destruct (do_list g cap files fuel args s1) as [s2| n | |]; try contradiction W2; [|right; eexists; reflexivity].
  match goal with |- context [if ?b then _ else _] => destruct b end; [left; eexists _, _; reflexivity|right; eexists; reflexivity].
Qed.

(** ** A cluster of options that take values *)
Lemma cluster_overruns g cap whole : good_grid g -> forall ls first s, Forall (fun i => is_valued g i /\ has_letter g i) ls ->
  (cap < s_head s + List.length ls)%nat -> (s_head s <= cap)%nat ->
  short_chars g cap whole first (map (letter g) ls) None s = A_ub UB_queue.
Proof.
  intros G. induction ls as [|i ls IH]; intros first s F L C; [cbn in L; lia|]. cbn [map short_chars].
  destruct (Forall_inv F) as [(o & N & K) HL]. rewrite (find_short_letter g i G HL). unfold do_arg. rewrite N.
  replace (has_arg (o_kind o)) with true by (destruct K as [-> | ->]; reflexivity). unfold enqueue.
  change (s_head (mark g i s)) with (s_head s). destruct (s_head s <? cap)%nat eqn:E; [|reflexivity].
  apply Nat.ltb_lt in E. apply IH; [exact (Forall_inv_tail F)|cbn [s_head]; cbn [List.length] in L; lia|cbn [s_head]; lia].
Qed.
Lemma process_overruns g files fuel ls rest : good_grid g -> Forall (fun i => is_valued g i /\ has_letter g i) ls ->
  (2 + List.length rest < List.length ls)%nat ->
  argv_process g files fuel [] ((x2d :: map (letter g) ls) :: rest) = Undef UB_queue.
Proof.
  intros G F L. destruct ls as [|i ls]; [cbn in L; lia|]. unfold argv_process. rewrite (do_list_unfold _ _ _ _ []). cbn [do_list_with].
  rewrite do_list_unfold.
  pose proof (Forall_inv F) as [_ HL]. destruct (letter_ok g G i HL) as [N1 N2].
  cbn [map]. rewrite do_list_cons by (intro E; injection E as E _; congruence). rewrite arg1_short by exact N2.
  assert (NOEQ : ~ In x3d (map (letter g) (i :: ls))).
  { intro I. apply in_map_iff in I as (j & E & I). rewrite Forall_forall in F. destruct (F j I) as [_ L']. exact (proj1 (letter_ok g G j L') E). }
  rewrite (split_eq_none (x2d :: letter g i :: map (letter g) ls)) by (intros [E|I]; [discriminate|exact (NOEQ I)]).
  cbn [skipn]. change (letter g i :: map (letter g) ls) with (map (letter g) (i :: ls)).
  rewrite (cluster_overruns g _ _ G (i :: ls)); [reflexivity|exact F| |]; cbn [s_head start List.length] in *; unfold bytes in *; lia.
Qed.

(** ** A file of arguments that names itself *)
Definition self_name : bytes := txt "f".
Definition self_arg : bytes := txt "--argv-file=f".
Lemma self_file g cap files : long_matches g 0 (txt "argv-file") = [] -> files self_name = Some (self_arg ++ [x0a]) ->
  forall fuel s, do_list g cap files fuel [self_arg] s = A_deep.
Proof.
  intros M F.
  assert (A : forall fa s, (forall s, fa self_name s = A_deep) -> do_list_with g cap fa false [self_arg] s = A_deep).
  { intros fa s H. rewrite do_list_cons by discriminate.
    change (arg1 g cap fa self_arg s) with (long_option g cap fa (txt "argv-file") (Some self_name) s).
    unfold long_option. rewrite M. change (is_prefix (txt "argv-file") (txt "argv-file")) with true. cbn [txt list_byte_of_string].
    rewrite H. reflexivity. }
  induction fuel as [|n IH]; intro s; rewrite do_list_unfold; apply A; intro s'; [reflexivity|].
  rewrite F. change (file_lines (self_arg ++ [x0a])) with [self_arg]. apply IH.
Qed.

(** Proofs about the command line parser under any settings: good lines, repeated
    options, closed values switched off, "--" twice. *)
From Coq Require Import ZArith String Lia.
From Verif Require Import Bytes Bytes_proofs Control Misc Misc_proofs Capture Startup Argv SpecArgv Argv_proofs Argv2_proofs Argv3_proofs Argv4_proofs Argv6_proofs
  ArgvEnv SpecArgvEnv ArgvEnv_proofs ArgvEnv2_proofs.
Import ListNotations.
Local Open Scope N_scope.

Definition cgive (cf : settings) (g : grid) (x : nat * option bytes) (s : astate) : astate := give g x (again cf g (fst x) s).
Lemma again_fields cf g i s : s_vals (again cf g i s) = s_vals s /\ s_used (again cf g i s) = s_used s /\ s_queue (again cf g i s) = s_queue s /\
  s_head (again cf g i s) = s_head s /\ s_past (again cf g i s) = s_past s.
Proof. unfold again. destruct (nth_error g i); [|repeat split]. match goal with |- context [if ?x then bad s else s] => destruct x end; repeat split. Qed.
Lemma norm_again cf g i s : norm (again cf g i s) = again cf g i (norm s).
Proof. unfold again, used. cbn [norm s_used]. destruct (nth_error g i); [|reflexivity]. match goal with |- context [if ?x then bad s else s] => destruct x end; reflexivity. Qed.
Lemma norm_cgive cf g x s : norm (cgive cf g x s) = cgive cf g x (norm s).
Proof. unfold cgive. rewrite norm_give, norm_again. reflexivity. Qed.

Section Line.
Variable cf : settings.
Variable g : grid.
Variable cap : nat.
Variable fa : bytes -> astate -> ares.
Hypothesis G : good_grid g.
Hypothesis CE : se_close cf = true.

(** From [s] to [s'] exactly the options of [l] are given, at most [n] wait in between. *)
Definition c_steps (l : list (nat * option bytes)) (n : nat) (s s' : astate) : Prop :=
  s_queue s' = [] /\ (s_head s' <= s_head s + n)%nat /\ norm s' = fold_left (fun s x => cgive cf g x s) l (norm s).

Lemma c_do_arg_flag i s : is_flag g i -> c_do_arg cf g cap i None s = A_go (cgive cf g (i, None) s).
Proof. intro F. unfold c_do_arg. rewrite do_arg_flag by exact F. reflexivity. Qed.
Lemma c_do_arg_close i v s : c_do_arg cf g cap i (Some v) s = A_go (cgive cf g (i, Some v) s).
Proof. reflexivity. Qed.
Lemma c_do_arg_valued i s : is_valued g i -> s_queue s = [] -> (s_head s < cap)%nat ->
  c_do_arg cf g cap i None s = A_go (wait g i (again cf g i s)).
Proof.
  intros V Q H. destruct (again_fields cf g i s) as (_ & _ & EQ & EH & _). apply do_arg_valued; [exact V|congruence|rewrite EH; exact H].
Qed.
Definition waited (i : nat) (v : bytes) (s : astate) : astate :=
  let a := again cf g i s in
  store g i (Some v) (mk_astate (s_vals (mark g i a)) (s_used (mark g i a)) [] (S (s_head a)) (s_ok (mark g i a)) (s_past (mark g i a))).
Lemma c_plain_wait i v s : plain_arg g fa v (wait g i (again cf g i s)) = A_go (waited i v s).
Proof. apply plain_wait. Qed.
Lemma c_of_steps i v n s s' : steps g [(i, v)] n (again cf g i s) s' -> c_steps [(i, v)] n s s'.
Proof.
  intros (Q & H & E). destruct (again_fields cf g i s) as (_ & _ & _ & EH & _). rewrite EH in H. split; [exact Q|]. split; [exact H|].
  rewrite E. cbn [fold_left]. unfold cgive. cbn [fst]. rewrite norm_again. reflexivity.
Qed.
Lemma c_wait_steps i v s : c_steps [(i, Some v)] 1 s (waited i v s).
Proof using fa. apply c_of_steps. exact (wait_steps g fa i v (again cf g i s)). Qed.
Lemma c_give_steps x s : s_queue s = [] -> c_steps [x] 0 s (cgive cf g x s).
Proof using fa.
  intro Q. destruct x as [i v]. apply c_of_steps. apply (give_steps g fa (i, v)). destruct (again_fields cf g i s) as (_ & _ & EQ & _ & _). cbn [fst]. congruence.
Qed.
Lemma c_steps_refl s : s_queue s = [] -> c_steps [] 0 s s.
Proof using fa. intro Q. split; [exact Q|]. split; [lia|reflexivity]. Qed.
Lemma c_steps_trans l1 l2 n1 n2 s1 s2 s3 : c_steps l1 n1 s1 s2 -> c_steps l2 n2 s2 s3 -> c_steps (l1 ++ l2) (n1 + n2) s1 s3.
Proof using fa.
  intros (Q1 & H1 & E1) (Q2 & H2 & E2). split; [exact Q2|]. split; [lia|]. rewrite fold_left_app, <- E1, E2. reflexivity.
Qed.
Lemma c_short_flags whole fl : Forall (fun i => is_flag g i /\ has_letter g i) fl -> forall first tl s, s_queue s = [] ->
  exists s' first', c_short_chars cf g cap whole first (map (letter g) fl ++ tl) None s = c_short_chars cf g cap whole first' tl None s' /\
    c_steps (map (fun i => (i, None)) fl) 0 s s'.
Proof using G fa.
  induction 1 as [|i fl [F L] _ IH]; intros first tl s Q.
  - exists s, first. split; [reflexivity|apply c_steps_refl; exact Q].
  - cbn [map app c_short_chars]. rewrite (find_short_letter g i G L), (c_do_arg_flag i s F).
    pose proof (c_give_steps (i, None) s Q) as S1.
    destruct (IH false tl (cgive cf g (i, None) s) (proj1 S1)) as (s' & f' & E & S2).
    exists s', f'. split; [exact E|]. exact (c_steps_trans [(i, None)] _ 0 0 _ _ _ S1 S2).
Qed.

(** One argument, by its shape. *)
Lemma c_do_list_cons a r s : a <> [x2d; x2d] ->
  c_do_list_with cf g cap fa false (a :: r) s = match c_arg1 cf g cap fa a s with A_go s' => c_do_list_with cf g cap fa false r s' | y => y end.
Proof.
  intro H. cbn [c_do_list_with]. replace (bytes_eqb a (txt "--")) with false by (symmetry; apply bytes_eqb_neq; exact H).
  cbn [andb]. destruct (c_arg1 cf g cap fa a s); reflexivity.
Qed.
Lemma c_arg1_plain v s : value_arg v -> c_arg1 cf g cap fa v s = plain_arg g fa v s.
Proof.
  intros [-> | H]; [reflexivity|]. unfold c_arg1.
  destruct (is_prefix (txt "--") v) eqn:P; [apply is_prefix_spec in P as [r P]; exfalso; exact (H _ P)|].
  destruct (is_prefix (txt "-") v) eqn:P2; [apply is_prefix_spec in P2 as [r P2]; exfalso; exact (H _ P2)|reflexivity].
Qed.
Lemma c_arg1_short0 b cs s : b <> x2d ->
  c_arg1 cf g cap fa (x2d :: b :: cs) s =
  let '(p, close) := c_split cf (x2d :: b :: cs) in
  match skipn 1 p with [] => A_go (bad s) | cs => c_short_chars cf g cap p true cs close s end.
Proof.
  intro H. unfold c_arg1. replace (is_prefix (txt "--") (x2d :: b :: cs)) with false.
  2:{ symmetry. apply Bool.not_true_iff_false. intro P. apply is_prefix_spec in P as [r P]. injection P as P _. congruence. }
  replace (is_prefix (txt "-") (x2d :: b :: cs)) with true by reflexivity.
  replace (lenN (x2d :: b :: cs) =? 1) with false; [reflexivity|]. symmetry. apply N.eqb_neq. unfold lenN. cbn [List.length]. lia.
Qed.
Lemma c_arg1_short b cs s : b <> x2d ->
  c_arg1 cf g cap fa (x2d :: b :: cs) s =
  let '(p, close) := split_eq (x2d :: b :: cs) in
  match skipn 1 p with [] => A_go (bad s) | cs => c_short_chars cf g cap p true cs close s end.
Proof using CE. intro H. rewrite c_arg1_short0 by exact H. unfold c_split. rewrite CE. reflexivity. Qed.
Lemma c_arg1_long p s : c_arg1 cf g cap fa (x2d :: x2d :: p) s =
  let '(q, close) := split_eq (x2d :: x2d :: p) in c_long_option cf g cap fa (skipn 2 q) close s.
Proof using CE. unfold c_arg1, c_split. rewrite CE. reflexivity. Qed.
Lemma c_long_option_names i p close s : names g i p -> c_long_option cf g cap fa p close s = c_do_arg cf g cap i close s.
Proof.
  intro N. unfold c_long_option. rewrite (long_matches_names g i p N). destruct N as (NE & _). destruct p; [congruence|reflexivity].
Qed.

Lemma c_words_run x r s : proper g x -> s_queue s = [] -> (s_head s < cap)%nat ->
  exists s', c_do_list_with cf g cap fa false (words g x ++ r) s = c_do_list_with cf g cap fa false r s' /\
    c_steps (sets x) (List.length (words g x)) s s'.
Proof using G CE.
  assert (W : forall l n m s s', (n <= m)%nat -> c_steps l n s s' -> c_steps l m s s').
  { intros l n m s0 s' L (Q & H & E). split; [exact Q|]. split; [lia|exact E]. }
  intros P Q H. destruct x as [fl | fl i v | i v | i p | i p v | i p v]; cbn [proper words sets app] in *.
  - destruct P as [NE F]. destruct fl as [|i fl]; [congruence|]. cbn [map].
    pose proof (Forall_inv F) as [_ L]. destruct (letter_ok g G i L) as [_ NE2].
    rewrite c_do_list_cons by congruence. rewrite (c_arg1_short _ _ s NE2).
    rewrite (split_eq_none (x2d :: letter g i :: map (letter g) fl)).
    2:{ intros [E|I]; [discriminate|]. exact (letters_no_eq g G (i :: fl) F I). }
    cbn [skipn]. change (letter g i :: map (letter g) fl) with (map (letter g) (i :: fl)).
    destruct (c_short_flags (x2d :: map (letter g) (i :: fl)) (i :: fl) F true [] s Q) as (s' & f' & E & ST).
    exists s'. rewrite app_nil_r in E. cbn [map app] in E |- *. rewrite E. cbn [c_short_chars]. split; [reflexivity|]. apply (W _ O 1%nat); [lia|exact ST].
  - destruct P as (F & V & L & VA). destruct (letter_ok g G i L) as [NE1 NE2].
    assert (X : exists c cs, map (letter g) fl ++ [letter g i] = c :: cs /\ c <> x2d).
    { destruct fl as [|j fl]; [exists (letter g i), []; split; [reflexivity|exact NE2]|].
      exists (letter g j), (map (letter g) fl ++ [letter g i]). split; [reflexivity|].
      apply (letter_ok g G j). apply (Forall_inv F). }
    destruct X as (c & cs & X & C). assert (NOEQ : ~ In x3d (map (letter g) fl ++ [letter g i])).
    { intro I. apply in_app_or in I as [I|[E|[]]]; [exact (letters_no_eq g G fl F I)|exact (NE1 E)]. }
    rewrite X. rewrite c_do_list_cons by congruence. rewrite (c_arg1_short c cs s C).
    rewrite (split_eq_none (x2d :: c :: cs)) by (rewrite <- X; intros [E|I]; [discriminate|exact (NOEQ I)]).
    cbn [skipn]. rewrite <- X.
    destruct (c_short_flags (x2d :: map (letter g) fl ++ [letter g i]) fl F true [letter g i] s Q) as (s1 & f1 & E & S1).
    replace (match map (letter g) fl ++ [letter g i] with [] => A_go (bad s) | _ :: _ =>
               c_short_chars cf g cap (x2d :: map (letter g) fl ++ [letter g i]) true (map (letter g) fl ++ [letter g i]) None s end)
      with (c_short_chars cf g cap (x2d :: map (letter g) fl ++ [letter g i]) true (map (letter g) fl ++ [letter g i]) None s)
      by (rewrite X; reflexivity).
    rewrite E. cbn [c_short_chars]. rewrite (find_short_letter g i G L).
    destruct S1 as (Q1 & H1 & E1). assert (S1 : c_steps (map (fun i => (i, None)) fl) 0 s s1) by (repeat split; assumption).
    rewrite (c_do_arg_valued i s1 V Q1) by lia.
    rewrite c_do_list_cons by (apply value_not_last; exact VA). rewrite (c_arg1_plain v _ VA), c_plain_wait.
    eexists. split; [reflexivity|]. cbn [List.length].
    apply (W _ (0 + 1)%nat); [lia|]. apply (c_steps_trans _ _ 0 1 _ _ _ S1 (c_wait_steps i v s1)).
  - destruct P as (V & L). destruct (letter_ok g G i L) as [NE1 NE2].
    rewrite c_do_list_cons by congruence. rewrite (c_arg1_short (letter g i) (x3d :: v) s NE2).
    change (x2d :: letter g i :: x3d :: v) with ([x2d; letter g i] ++ x3d :: v).
    rewrite split_eq_some by (cbn; intros [E|[E|[]]]; [discriminate|congruence]).
    cbn [skipn c_short_chars]. rewrite (find_short_letter g i G L). rewrite c_do_arg_close.
    exists (cgive cf g (i, Some v) s). split; [reflexivity|]. apply (W _ O 1%nat); [lia|]. apply c_give_steps. exact Q.
  - destruct P as (F & N). pose proof (proj1 N) as NE. rewrite c_do_list_cons by (intro E; injection E as E; congruence).
    rewrite c_arg1_long.
    rewrite (split_eq_none (x2d :: x2d :: p)) by (intros [E|[E|I]]; [discriminate..|exact (prefix_no_eq g G i p N I)]).
    cbn [skipn]. rewrite (c_long_option_names i p None s N), (c_do_arg_flag i s F).
    exists (cgive cf g (i, None) s). split; [reflexivity|]. apply (W _ O 1%nat); [lia|]. apply c_give_steps. exact Q.
  - destruct P as (V & N & VA). pose proof (proj1 N) as NE. rewrite c_do_list_cons by (intro E; injection E as E; congruence).
    rewrite c_arg1_long.
    rewrite (split_eq_none (x2d :: x2d :: p)) by (intros [E|[E|I]]; [discriminate..|exact (prefix_no_eq g G i p N I)]).
    cbn [skipn]. rewrite (c_long_option_names i p None s N), (c_do_arg_valued i s V Q H).
    rewrite c_do_list_cons by (apply value_not_last; exact VA). rewrite (c_arg1_plain v _ VA), c_plain_wait.
    eexists. split; [reflexivity|]. apply (W _ 1%nat 2%nat); [lia|]. apply c_wait_steps.
  - destruct P as (V & N). pose proof (proj1 N) as NE.
    rewrite c_do_list_cons by (intro E; destruct p; [congruence|discriminate]).
    rewrite c_arg1_long.
    change (x2d :: x2d :: p ++ x3d :: v) with ((x2d :: x2d :: p) ++ x3d :: v).
    rewrite split_eq_some by (intros [E|[E|I]]; [discriminate..|exact (prefix_no_eq g G i p N I)]).
    cbn [skipn]. change (@Some (list byte) v) with (@Some bytes v). rewrite (c_long_option_names i p (Some v) s N), c_do_arg_close.
    exists (cgive cf g (i, Some v) s). split; [reflexivity|]. apply (W _ O 1%nat); [lia|]. apply c_give_steps. exact Q.
Qed.

Lemma c_line_run : forall gs s, Forall (proper g) gs -> s_queue s = [] -> (s_head s + List.length (flat_map (words g) gs) < cap)%nat ->
  exists s', c_do_list_with cf g cap fa false (flat_map (words g) gs) s = A_go s' /\
    c_steps (all_sets gs) (List.length (flat_map (words g) gs)) s s'.
Proof using G CE.
  induction gs as [|x gs IH]; intros s F Q H.
  - exists s. split; [reflexivity|]. apply c_steps_refl. exact Q.
  - cbn [flat_map] in H |- *. rewrite app_length in H |- *.
    destruct (c_words_run x (flat_map (words g) gs) s (Forall_inv F) Q ltac:(lia)) as (s1 & E1 & S1).
    rewrite E1. destruct S1 as (Q1 & H1 & N1).
    destruct (IH s1 (Forall_inv_tail F) Q1 ltac:(lia)) as (s2 & E2 & S2). exists s2. split; [exact E2|].
    unfold all_sets. cbn [flat_map]. apply (c_steps_trans _ _ _ _ s s1 s2); [|exact S2]. repeat split; assumption.
Qed.
End Line.

Lemma c_line_prefix cf g cap fa : good_grid g -> se_close cf = true -> forall gs r s, Forall (proper g) gs -> s_queue s = [] ->
  (s_head s + List.length (flat_map (words g) gs) < cap)%nat ->
  exists s', c_do_list_with cf g cap fa false (flat_map (words g) gs ++ r) s = c_do_list_with cf g cap fa false r s' /\
    c_steps cf g (all_sets gs) (List.length (flat_map (words g) gs)) s s'.
Proof.
  intros G CE. induction gs as [|x gs IH]; intros r s F Q H.
  - exists s. split; [reflexivity|]. apply (c_steps_refl cf g fa); exact Q.
  - cbn [flat_map] in H |- *. rewrite app_length in H |- *. rewrite <- app_assoc.
    destruct (c_words_run cf g cap fa G CE x (flat_map (words g) gs ++ r) s (Forall_inv F) Q ltac:(lia)) as (s1 & E1 & S1).
    rewrite E1. destruct S1 as (Q1 & H1 & N1).
    destruct (IH r s1 (Forall_inv_tail F) Q1 ltac:(lia)) as (s2 & E2 & S2). exists s2. split; [exact E2|].
    unfold all_sets. cbn [flat_map]. apply (c_steps_trans cf g fa _ _ _ _ s s1 s2); [|exact S2]. repeat split; assumption.
Qed.

(** ** Options given twice *)
Definition cut (r : bool) (s : astate) : astate := mk_astate (s_vals s) (s_used s) (s_queue s) (s_head s) (s_ok s && negb r) (s_past s).
Definition single (o : opt) : bool := negb (o_array o) && negb (match o_kind o with K_incr => true | _ => false end).
Definition rep (g : grid) (l : list (nat * option bytes)) : bool :=
  existsb (fun i => match nth_error g i with Some o => single o && (1 <? times i l) | None => false end) (seq 0 (List.length g)).
Lemma rep_spec g l : rep g l = true <-> repeated g l.
Proof.
  unfold rep, repeated. rewrite existsb_exists. split.
  - intros (i & _ & H). destruct (nth_error g i) as [o|] eqn:N; [|discriminate]. exists i, o. split; [exact N|].
    unfold single in H. apply Bool.andb_true_iff in H as [H T]. apply N.ltb_lt in T. apply Bool.andb_true_iff in H as [A K].
    split; [destruct (o_array o); [discriminate|reflexivity]|]. split; [|exact T]. intro E. rewrite E in K. discriminate.
  - intros (i & o & N & A & K & T). exists i. split; [apply in_seq; assert (i < List.length g)%nat by (apply nth_error_Some; congruence); lia|].
    rewrite N. unfold single. rewrite A. apply N.ltb_lt in T. rewrite T. destruct (o_kind o); try reflexivity. congruence.
Qed.
Lemma rep_snoc g l i v : rep g (l ++ [(i, v)]) = rep g l || match nth_error g i with Some o => single o && (0 <? times i l) | None => false end.
Proof.
  apply Bool.eq_true_iff_eq. rewrite Bool.orb_true_iff, !rep_spec. unfold repeated, single. split.
  - intros (j & o & N & A & K & T). rewrite times_app in T. cbn [times] in T. destruct (Nat.eqb j i) eqn:E.
    + apply Nat.eqb_eq in E. subst j. right. rewrite N, A. replace (0 <? times i l) with true by (symmetry; apply N.ltb_lt; lia).
      destruct (o_kind o); try reflexivity. congruence.
    + left. exists j, o. repeat split; try assumption. lia.
  - intros [(j & o & N & A & K & T)|H].
    + exists j, o. repeat split; try assumption. rewrite times_app. lia.
    + destruct (nth_error g i) as [o|] eqn:N; [|discriminate]. exists i, o. split; [exact N|].
      apply Bool.andb_true_iff in H as [H T]. apply N.ltb_lt in T. apply Bool.andb_true_iff in H as [A K].
      split; [destruct (o_array o); [discriminate|reflexivity]|]. split; [intro E; rewrite E in K; discriminate|].
      rewrite times_app. cbn [times]. rewrite Nat.eqb_refl. lia.
Qed.
Lemma cut_cut a b s : cut a (cut b s) = cut (b || a) s.
Proof. unfold cut. cbn. f_equal. destruct (s_ok s), a, b; reflexivity. Qed.
Lemma cut_false s : cut false s = s.
Proof. unfold cut. destruct s as [a b d e f h]. cbn. destruct f; reflexivity. Qed.
Lemma bad_cut s : bad s = cut true s.
Proof. unfold bad, cut. cbn. rewrite Bool.andb_false_r. reflexivity. Qed.
Lemma store_cut g i v r s : store g i v (cut r s) = cut r (store g i v s).
Proof.
  unfold store. cbn [cut s_vals]. destruct (nth_error g i); [|reflexivity]. destruct (nth_error (s_vals s) i); [|reflexivity].
  destruct (string_to_value _ _ _ _); reflexivity.
Qed.
Lemma mark_cut g i r s : mark g i (cut r s) = cut r (mark g i s).
Proof.
  unfold mark, cut, check_or. cbn [s_vals s_used s_queue s_head s_ok s_past]. f_equal.
  - rewrite (or_below_ext g _ (mk_astate (s_vals s) (set_nth i true (s_used s)) (s_queue s) (s_head s) (s_ok s) (s_past s))) by reflexivity.
    rewrite (or_above_ext g _ (mk_astate (s_vals s) (set_nth i true (s_used s)) (s_queue s) (s_head s) (s_ok s) (s_past s))) by reflexivity.
    destruct (s_ok s), r; cbn [andb negb]; rewrite ?Bool.andb_true_r, ?Bool.andb_false_r; reflexivity.
  - f_equal. f_equal; [f_equal; apply or_below_ext; reflexivity|apply reads_past_ext; reflexivity].
Qed.
Definition twice (cf : settings) (g : grid) (i : nat) (s : astate) : bool :=
  match nth_error g i with Some o => negb (se_multi cf) && single o && used s i | None => false end.
Lemma again_cut cf g i s : again cf g i s = cut (twice cf g i s) s.
Proof.
  unfold again, twice, single. destruct (nth_error g i) as [o|]; [|symmetry; apply cut_false].
  replace (negb (se_multi cf) && (negb (o_array o) && negb match o_kind o with K_incr => true | _ => false end) && used s i)
    with (negb (se_multi cf) && used s i && negb (o_array o) && negb match o_kind o with K_incr => true | _ => false end).
  2:{ destruct (negb (se_multi cf)), (used s i), (negb (o_array o)), (negb match o_kind o with K_incr => true | _ => false end); reflexivity. }
  match goal with |- (if ?x then _ else _) = cut ?y _ => destruct x end; [apply bad_cut|symmetry; apply cut_false].
Qed.
Lemma cgive_cut cf g x r s : cgive cf g x (cut r s) = cut (r || twice cf g (fst x) s) (give g x s).
Proof.
  unfold cgive. rewrite again_cut, cut_cut. unfold give. rewrite mark_cut, store_cut. reflexivity.
Qed.
Definition c_line (cf : settings) (g : grid) (l : list (nat * option bytes)) : astate := fold_left (fun s x => cgive cf g x s) l (start g).
Lemma c_line_spec cf g l : Forall (typed g) l -> c_line cf g l = cut (negb (se_multi cf) && rep g l) (line g l).
Proof.
  induction l as [|[i v] l IH] using rev_ind; intro F.
  - replace (rep g []) with false.
    + rewrite Bool.andb_false_r. symmetry. apply cut_false.
    + symmetry. apply Bool.not_true_iff_false. intro H. apply rep_spec in H as (i & o & _ & _ & _ & T). cbn in T. lia.
  - apply Forall_app in F as [F FX]. apply Forall_inv in FX. destruct (typed_nth g _ FX) as [o N]. cbn [fst] in N.
    unfold c_line in *. rewrite fold_left_app, IH by exact F. cbn [fold_left]. rewrite cgive_cut, line_snoc. f_equal. cbn [fst].
    rewrite rep_snoc, N. unfold twice. rewrite N. destruct (line_vals g l F) as [_ U].
    replace (used (line g l) i) with (0 <? times i l).
    2:{ unfold used. rewrite U. assert (X := used_list_nth g l i). assert (LT : (i < List.length g)%nat) by (apply nth_error_Some; congruence).
        rewrite (proj2 (Nat.ltb_lt _ _) LT) in X. symmetry. apply nth_error_nth. exact X. }
    destruct (se_multi cf), (rep g l), (single o), (0 <? times i l); reflexivity.
Qed.

(** ** Three lists that run through *)
Definition runs (cf : settings) (g : grid) (files : bytes -> option bytes) (fuel cap : nat) (args : list bytes) (l : list (nat * option bytes)) : Prop :=
  forall s, s_queue s = [] -> (s_head s + List.length args < cap)%nat ->
  exists s', c_do_list cf g cap files fuel args s = A_go s' /\ c_steps cf g l (List.length args) s s'.
Lemma runs_nil cf g files fuel cap : runs cf g files fuel cap [] [].
Proof. intros s Q _. exists s. split; [apply c_do_list_nil|apply (c_steps_refl cf g (fun _ => A_go)); exact Q]. Qed.
Lemma runs_words cf g files fuel cap gs : good_grid g -> se_close cf = true -> Forall (proper g) gs ->
  runs cf g files fuel cap (flat_map (words g) gs) (all_sets gs).
Proof.
  intros G CE F s Q H. rewrite c_do_list_fa. exact (c_line_run cf g cap (c_fa cf g cap files fuel) G CE gs s F Q H).
Qed.
Lemma three_runs cf g files fuel cap l1 l2 l3 a1 a2 a3 : Forall (typed g) (a1 ++ a2 ++ a3) ->
  runs cf g files fuel cap l1 a1 -> runs cf g files fuel cap l2 a2 -> runs cf g files fuel cap l3 a3 ->
  (List.length l1 + List.length l2 + List.length l3 < cap)%nat ->
  let l := a1 ++ a2 ++ a3 in let s := line g l in
  three cf g files fuel cap l1 l2 l3 =
  if s_ok s && negb (negb (se_multi cf) && rep g l) && check_mand g (used_list g l) && check_xor g (used_list g l) false None
  then Parsed (meant_from g 0 l) (s_past s) else Exited 1.
Proof.
  intros T R1 R2 R3 CAP l s. unfold three.
  destruct (R1 (start g) eq_refl) as (s1 & E1 & Q1 & H1 & N1); [cbn [s_head start]; lia|]. rewrite E1. cbn [after_list]. cbn [s_head start] in H1.
  destruct (R2 s1 Q1) as (s2 & E2 & Q2 & H2 & N2); [lia|]. rewrite E2. cbn [after_list].
  destruct (R3 s2 Q2) as (s3 & E3 & Q3 & H3 & N3); [lia|]. rewrite E3. cbn [after_list].
  assert (NS : norm s3 = cut (negb (se_multi cf) && rep g l) s).
  { unfold s. rewrite <- (c_line_spec cf g l T). unfold c_line, l. rewrite !fold_left_app, N3, N2, N1. reflexivity. }
  destruct (line_vals g l T) as [V U]. unfold finish. rewrite Q3.
  replace (s_ok s3) with (s_ok (norm s3)) by reflexivity. replace (s_used s3) with (s_used (norm s3)) by reflexivity.
  replace (s_vals s3) with (s_vals (norm s3)) by reflexivity. replace (s_past s3) with (s_past (norm s3)) by reflexivity.
  rewrite NS. cbn [cut s_ok s_used s_vals s_past]. fold s in V, U. rewrite V, U, Bool.andb_true_r. reflexivity.
Qed.
Lemma process_sets g files fuel gs : good_grid g -> Forall (proper g) gs ->
  let l := all_sets gs in let s := line g l in
  argv_process g files fuel [] (flat_map (words g) gs) =
  if s_ok s && check_mand g (used_list g l) && check_xor g (used_list g l) false None then Parsed (meant_from g 0 l) (s_past s) else Exited 1.
Proof. intros G F. exact (process_line g files fuel [] gs G (Forall_nil _) F). Qed.

(** ** Repetitions rejected: any arguments *)
Section Sim.
Variables c c' : settings.
Variable g : grid.
Variable cap : nat.
Hypothesis SC : se_close c = se_close c'.
Hypothesis ST : se_toggle c = se_toggle c'.
Hypothesis SM : se_multi c' = true.

Definition sim (x y : ares) : Prop :=
  match x, y with A_go s, A_go s' => exists r, s = cut r s' | A_exit n, A_exit m => n = m | A_ub u, A_ub v => u = v | A_deep, A_deep => True | _, _ => False end.
Definition sims (f f' : astate -> ares) : Prop := forall r s, sim (f (cut r s)) (f' s).
Lemma sim_bad r s : sim (A_go (bad (cut r s))) (A_go (bad s)).
Proof. exists false. rewrite cut_false. reflexivity. Qed.
Lemma sim_bind x y k k' : sim x y -> sims k k' ->
  sim (match x with A_go s => k s | A_exit n => A_exit n | A_ub u => A_ub u | A_deep => A_deep end)
      (match y with A_go s => k' s | A_exit n => A_exit n | A_ub u => A_ub u | A_deep => A_deep end).
Proof.
  intros H KK. destruct x, y; cbn [sim] in H; try contradiction; try exact H. destruct H as [r ->]. apply KK.
Qed.
Lemma sim_enqueue x r s : sim (enqueue cap x (cut r s)) (enqueue cap x s).
Proof. unfold enqueue. cbn [cut s_head]. destruct (_ <? _)%nat; [|reflexivity]. exists r. reflexivity. Qed.
Lemma sim_do_arg i close r s : sim (c_do_arg c g cap i close (cut r s)) (c_do_arg c' g cap i close s).
Proof using SM.
  unfold c_do_arg. rewrite (again_accept c' g SM), again_cut, cut_cut. set (q := r || _). unfold do_arg. rewrite mark_cut.
  destruct close; [exists q; apply store_cut|]. destruct (nth_error g i); [|exists q; reflexivity].
  destruct (has_arg (o_kind o)); [apply sim_enqueue|exists q; apply store_cut].
Qed.
Lemma sim_short whole close : forall cs first, sims (c_short_chars c g cap whole first cs close) (c_short_chars c' g cap whole first cs close).
Proof using SM.
  induction cs as [|b cs IH]; intros first r s; cbn [c_short_chars]; [exists r; reflexivity|]. destruct (find_short g 0 b).
  - apply sim_bind; [apply sim_do_arg|apply IH].
  - destruct (byte_eqb b x3f); [reflexivity|].
    assert (B : sim (c_short_chars c g cap whole false cs close (bad (cut r s))) (c_short_chars c' g cap whole false cs close (bad s))).
    { replace (bad (cut r s)) with (cut r (bad s)) by reflexivity. apply IH. }
    cbn [cut s_queue].
    destruct (if first && is_number whole then s_queue s else []) as [|[i|] q]; [exact B| |reflexivity].
    destruct (nth_error g i) as [o|]; [|exact B]. destruct (o_kind o); try exact B. exists r.
    exact (store_cut g i (Some whole) r (mk_astate (s_vals s) (s_used s) q (s_head s) (s_ok s) (s_past s))).
Qed.
Lemma sim_plain fa fa' a : (forall p, sims (fa p) (fa' p)) -> sims (plain_arg g fa a) (plain_arg g fa' a).
Proof.
  intros F r s. unfold plain_arg. cbn [cut s_queue]. destruct (s_queue s) as [|[i|] q]; [apply sim_bad| |].
  - exists r. exact (store_cut g i (Some a) r (mk_astate (s_vals s) (s_used s) q (s_head s) (s_ok s) (s_past s))).
  - exact (F a r (mk_astate (s_vals s) (s_used s) q (s_head s) (s_ok s) (s_past s))).
Qed.
Lemma sim_arg1 fa fa' a : (forall p, sims (fa p) (fa' p)) -> sims (c_arg1 c g cap fa a) (c_arg1 c' g cap fa' a).
Proof using SM SC.
  intros F r s. unfold c_arg1, c_split. rewrite SC. destruct (is_prefix (txt "--") a).
  - destruct (if se_close c' then split_eq a else (a, None)) as [p close]. unfold c_long_option. destruct (skipn 2 p) as [|b nm]; [apply sim_bad|].
    destruct (long_matches g 0 (b :: nm)) as [|i [|j m]]; [|apply sim_do_arg|apply sim_bad].
    destruct (is_prefix _ _); [destruct close; [apply F|apply sim_enqueue]|]. destruct (special _); [reflexivity|apply sim_bad].
  - destruct (is_prefix (txt "-") a && negb (lenN a =? 1)); [|apply sim_plain; exact F].
    destruct (if se_close c' then split_eq a else (a, None)) as [p close]. destruct (skipn 1 p); [apply sim_bad|apply sim_short].
Qed.
Lemma sim_list fa fa' : (forall p, sims (fa p) (fa' p)) -> forall args last, sims (c_do_list_with c g cap fa last args) (c_do_list_with c' g cap fa' last args).
Proof using SM SC ST.
  intro F. induction args as [|a args IH]; intros last r s; cbn [c_do_list_with]; [exists r; reflexivity|]. rewrite ST.
  destruct (bytes_eqb a (txt "--") && (negb last || se_toggle c')); [apply IH|].
  assert (X : sim (if last then plain_arg g fa a (cut r s) else c_arg1 c g cap fa a (cut r s)) (if last then plain_arg g fa' a s else c_arg1 c' g cap fa' a s)).
  { destruct last; [apply sim_plain|apply sim_arg1]; exact F. }
  destruct (if last then plain_arg g fa a (cut r s) else c_arg1 c g cap fa a (cut r s)), (if last then plain_arg g fa' a s else c_arg1 c' g cap fa' a s);
    cbn [sim] in X; try contradiction; try exact X. destruct X as [r' ->]. apply IH.
Qed.
Lemma sim_do_list files : forall fuel args, sims (c_do_list c g cap files fuel args) (c_do_list c' g cap files fuel args).
Proof using SM SC ST.
  induction fuel as [|f IH]; intros args r s; rewrite (c_do_list_unfold c), (c_do_list_unfold c'); apply sim_list; intros p r' s'; [exact I|].
  destruct (files p); [apply IH|reflexivity].
Qed.
Lemma sim_three files fuel l1 l2 l3 :
  three c g files fuel cap l1 l2 l3 = three c' g files fuel cap l1 l2 l3 \/
  (exists v p, three c' g files fuel cap l1 l2 l3 = Parsed v p) /\ three c g files fuel cap l1 l2 l3 = Exited 1.
Proof using SM SC ST.
  unfold three. pose proof (sim_do_list files fuel l1 false (start g)) as H. rewrite cut_false in H.
  destruct (c_do_list c g cap files fuel l1 (start g)), (c_do_list c' g cap files fuel l1 (start g)); cbn [sim] in H; try contradiction; cbn [after_list];
    try (left; congruence). destruct H as [r ->]. pose proof (sim_do_list files fuel l2 r s0) as H.
  destruct (c_do_list c g cap files fuel l2 (cut r s0)), (c_do_list c' g cap files fuel l2 s0); cbn [sim] in H; try contradiction; cbn [after_list];
    try (left; congruence). destruct H as [r' ->]. pose proof (sim_do_list files fuel l3 r' s1) as H.
  destruct (c_do_list c g cap files fuel l3 (cut r' s1)), (c_do_list c' g cap files fuel l3 s1); cbn [sim] in H; try contradiction; cbn [after_list];
    try (left; congruence). destruct H as [q ->]. unfold finish. cbn [cut s_ok s_used s_queue s_vals s_past].
  destruct q; [|left; rewrite Bool.andb_true_r; reflexivity]. rewrite Bool.andb_false_r. cbn [andb].
  match goal with |- context [if ?x then Parsed _ _ else _] => destruct x end; [right|left; reflexivity]. split; [eauto|reflexivity].
Qed.
End Sim.

(** ** Closed values switched off *)
Lemma c_list_app_goes cf g cap fa (P : astate -> Prop) : forall pre post s,
  ~ In (txt "--") pre -> (forall s', goes P (c_do_list_with cf g cap fa false post s')) ->
  goes P (c_do_list_with cf g cap fa false (pre ++ post) s).
Proof.
  induction pre as [|b pre IH]; intros post s NI H; [apply H|]. cbn [app].
  rewrite c_do_list_cons by (intro E; apply NI; left; exact E).
  destruct (c_arg1 cf g cap fa b s); try exact I. apply IH; [|exact H]. intro X. apply NI. right. exact X.
Qed.
Lemma c_short_bads cf g cap whole close : is_number whole = false -> forall cs first s,
  (exists b, In b cs /\ find_short g 0 b = None) \/ s_ok s = false -> bads (c_short_chars cf g cap whole first cs close s).
Proof.
  intros NN. induction cs as [|b cs IH]; intros first s H.
  - destruct H as [(b & [] & _)|H]. exact H.
  - cbn [c_short_chars]. rewrite NN, Bool.andb_false_r. destruct (find_short g 0 b) as [i|] eqn:F.
    + assert (D : bads (c_do_arg cf g cap i close s) \/ exists b, In b cs /\ find_short g 0 b = None).
      { destruct H as [(d & [E|I] & N)|H]; [congruence|right; eauto|]. left. apply (c_do_arg_kept cf g _ (bad_kept g)); [exact (find_short_lt g b i F)|exact H]. }
      destruct (c_do_arg cf g cap i close s); try exact I. apply IH. destruct D as [D|D]; [right; exact D|left; exact D].
    + destruct (byte_eqb b x3f); [exact I|]. apply IH. right. reflexivity.
Qed.
Lemma prefix_eq_false p n : In x3d p -> ~ In x3d n -> is_prefix p n = false.
Proof.
  intros H N. apply Bool.not_true_iff_false. intro E. apply is_prefix_spec in E as [r ->]. apply N, in_or_app. left. exact H.
Qed.
Lemma eq_bads cf g cap fa a s : good_grid g -> se_close cf = false -> In x3d a -> bads (c_arg1 cf g cap fa (x2d :: a) s).
Proof.
  intros G CE H. destruct a as [|b a]; [destruct H|]. destruct (byte_eqb b x2d) eqn:B.
  - apply byte_eqb_eq in B. subst b. destruct H as [H|H]; [discriminate|]. unfold c_arg1, c_split. rewrite CE.
    replace (is_prefix (txt "--") (x2d :: x2d :: a)) with true by reflexivity. cbn [skipn]. unfold c_long_option.
    destruct a as [|d a]; [destruct H|].
    assert (NB : long_matches g 0 (d :: a) = []).
    { destruct (long_matches g 0 (d :: a)) as [|i m] eqn:M; [reflexivity|]. exfalso.
      destruct (long_matches_begins g (d :: a) i) as (o & n & r & N & L & E); [rewrite M; left; reflexivity|].
      apply (gg_long g G i o n N L). rewrite E. apply in_or_app. left. exact H. }
    rewrite NB. rewrite (prefix_eq_false (d :: a) (txt "argv-file") H) by (vm_compute; intuition discriminate).
    unfold special. rewrite !(prefix_eq_false (d :: a)) by (first [exact H|vm_compute; intuition discriminate]). reflexivity.
  - assert (NB : b <> x2d) by (intros ->; discriminate). rewrite (c_arg1_short0 cf g cap fa b a s NB). unfold c_split. rewrite CE. cbn [skipn].
    apply c_short_bads.
    + apply Bool.not_true_iff_false. intro X. apply is_number_spec in X. apply Forall_inv_tail in X. rewrite Forall_forall in X. apply X in H.
      vm_compute in H. intuition discriminate.
    + left. exists x3d. split; [exact H|]. apply find_short_none. intros i o N E. apply (gg_letters g G i o N). left. symmetry. exact E.
Qed.
Lemma list_eq_bads cf g cap files fuel pre a post s : good_grid g -> se_close cf = false -> ~ In (txt "--") pre -> In x3d a ->
  bads (c_do_list cf g cap files fuel (pre ++ (x2d :: a) :: post) s).
Proof.
  intros G CE NI H. rewrite c_do_list_fa. apply c_list_app_goes; [exact NI|]. intro s'.
  rewrite c_do_list_cons.
  2:{ intro E. injection E as ->. destruct H as [H|[]]. discriminate. }
  pose proof (eq_bads cf g cap (c_fa cf g cap files fuel) a s' G CE H) as B.
  destruct (c_arg1 cf g cap (c_fa cf g cap files fuel) (x2d :: a) s') as [s2| | |]; try exact I.
  apply (c_list_kept cf g _ (bad_kept g)); [intros p s0; apply (c_fa_kept cf g _ (bad_kept g))|exact B].
Qed.
Lemma three_bads cf g files fuel cap l1 l2 l3 : (forall s, bads (c_do_list cf g cap files fuel l1 s)) \/
  (forall s, bads (c_do_list cf g cap files fuel l2 s)) \/ (forall s, bads (c_do_list cf g cap files fuel l3 s)) ->
  forall v past, three cf g files fuel cap l1 l2 l3 <> Parsed v past.
Proof.
  intros H v past. unfold three.
  assert (K : forall l s, s_ok s = false -> bads (c_do_list cf g cap files fuel l s)) by (intros; apply (c_do_list_kept cf g _ (bad_kept g)); assumption).
  destruct (c_do_list cf g cap files fuel l1 (start g)) as [s1| | |] eqn:E1; try discriminate. cbn [after_list].
  destruct (c_do_list cf g cap files fuel l2 s1) as [s2| | |] eqn:E2; try discriminate. cbn [after_list].
  destruct (c_do_list cf g cap files fuel l3 s2) as [s3| | |] eqn:E3; try discriminate. cbn [after_list].
  assert (B : s_ok s3 = false).
  { destruct H as [H|[H|H]].
    - pose proof (H (start g)) as B. rewrite E1 in B. pose proof (K l2 s1 B) as B2. rewrite E2 in B2. pose proof (K l3 s2 B2) as B3. rewrite E3 in B3. exact B3.
    - pose proof (H s1) as B2. rewrite E2 in B2. pose proof (K l3 s2 B2) as B3. rewrite E3 in B3. exact B3.
    - pose proof (H s2) as B3. rewrite E3 in B3. exact B3. }
  unfold finish. rewrite B. discriminate.
Qed.

(** ** "--" twice *)
Lemma runs_dashes cf g files fuel cap gs1 i v gs2 : good_grid g -> se_close cf = true -> se_toggle cf = true ->
  Forall (proper g) gs1 -> Forall (proper g) gs2 -> is_valued g i -> has_letter g i -> v <> txt "--" ->
  runs cf g files fuel cap (flat_map (words g) gs1 ++ [x2d; letter g i] :: txt "--" :: v :: txt "--" :: flat_map (words g) gs2)
    (all_sets (gs1 ++ G_short_eq i v :: gs2)).
Proof.
  intros G CE CT F1 F2 V L NV s Q H. rewrite c_do_list_fa. set (fa := c_fa cf g cap files fuel). rewrite app_length in H. cbn [List.length] in H.
  destruct (c_line_prefix cf g cap fa G CE gs1 ([x2d; letter g i] :: txt "--" :: v :: txt "--" :: flat_map (words g) gs2) s F1 Q) as (s1 & E1 & Q1 & H1 & N1); [lia|].
  rewrite E1. destruct (letter_ok g G i L) as [NE1 NE2].
  rewrite c_do_list_cons by congruence. rewrite (c_arg1_short cf g cap fa CE (letter g i) [] s1 NE2).
  rewrite (split_eq_none [x2d; letter g i]) by (intros [E|[E|[]]]; [discriminate|congruence]).
  cbn [skipn c_short_chars]. rewrite (find_short_letter g i G L). rewrite (c_do_arg_valued cf g cap i s1 V Q1) by lia.
  set (w := wait g i (again cf g i s1)).
  change (c_do_list_with cf g cap fa false (txt "--" :: v :: txt "--" :: flat_map (words g) gs2) w)
    with (c_do_list_with cf g cap fa true (v :: txt "--" :: flat_map (words g) gs2) w).
  cbn [c_do_list_with]. replace (bytes_eqb v (txt "--")) with false by (symmetry; apply bytes_eqb_neq; exact NV). cbn [andb].
  unfold w. rewrite (c_plain_wait cf g fa i v s1). rewrite CT, bytes_eqb_refl. cbn [andb orb negb].
  destruct (c_wait_steps cf g fa i v s1) as (Q2 & H2 & N2).
  destruct (c_line_run cf g cap fa G CE gs2 (waited cf g i v s1) F2 Q2) as (s3 & E3 & Q3 & H3 & N3); [lia|].
  exists s3. split; [exact E3|]. split; [exact Q3|]. split; [rewrite app_length; cbn [List.length]; lia|].
  unfold all_sets. rewrite flat_map_app. cbn [flat_map sets app]. rewrite fold_left_app. cbn [fold_left]. rewrite N3, N2, N1. reflexivity.
Qed.

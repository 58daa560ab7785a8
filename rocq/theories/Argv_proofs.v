(** Proofs about the command line parser. *)
From Coq Require Import ZArith String Lia.
From Verif Require Import Bytes Bytes_proofs Control Misc Misc_proofs Capture Startup Argv SpecArgv.
Import ListNotations.
Local Open Scope N_scope.

Lemma byte_eqb_refl a : byte_eqb a a = true.
Proof. apply byte_eqb_eq. reflexivity. Qed.
Lemma byte_eqb_neq a b : byte_eqb a b = false <-> a <> b.
Proof. rewrite <- byte_eqb_eq. destruct (byte_eqb a b); split; congruence. Qed.

(** ** Lists *)
Lemma set_nth_length {A} n (x : A) l : List.length (set_nth n x l) = List.length l.
Proof. revert n. induction l as [|y l IH]; intros [|n]; cbn; auto. Qed.
Lemma set_nth_same {A} n (x : A) l : (n < List.length l)%nat -> nth_error (set_nth n x l) n = Some x.
Proof.
  revert n. induction l as [|y l IH]; intros [|n] H; cbn in *; try lia; [reflexivity|]. apply IH. lia.
Qed.
Lemma set_nth_other {A} n m (x : A) l : n <> m -> nth_error (set_nth n x l) m = nth_error l m.
Proof.
  revert n m. induction l as [|y l IH]; intros [|n] [|m] H; cbn; try reflexivity; try congruence. apply IH. congruence.
Qed.
Lemma nth_nth_error {A} n (l : list A) d : nth n l d = match nth_error l n with Some x => x | None => d end.
Proof. revert n. induction l as [|y l IH]; intros [|n]; cbn; auto. Qed.
Lemma set_nth_nth {A} n m (x : A) l d : nth m (set_nth n x l) d =
  if Nat.eqb n m then (if Nat.ltb n (List.length l) then x else d) else nth m l d.
Proof.
  revert n m. induction l as [|y l IH]; intros [|n] [|m]; cbn; try reflexivity.
  - destruct (Nat.eqb n m); reflexivity.
  - apply IH.
Qed.

(** ** Names *)
Lemma split_eq_none a : ~ In x3d a -> split_eq a = (a, None).
Proof.
  induction a as [|b a IH]; cbn; [reflexivity|]. intro H. rewrite (proj2 (byte_eqb_neq b x3d)) by (intro; subst; tauto).
  rewrite IH by tauto. reflexivity.
Qed.
Lemma split_eq_some a v : ~ In x3d a -> split_eq (a ++ x3d :: v) = (a, Some v).
Proof.
  induction a as [|b a IH]; [reflexivity|]. intro H. cbn [split_eq app]. rewrite (proj2 (byte_eqb_neq b x3d)) by (intro; subst; cbn in H; tauto).
  rewrite IH by (cbn in H; tauto). reflexivity.
Qed.
Lemma is_prefix_spec p s : is_prefix p s = true <-> exists r, s = p ++ r.
Proof.
  revert s. induction p as [|a p IH]; intros s; cbn; [split; [eauto|reflexivity]|].
  destruct s as [|b s]; [split; [discriminate|intros [r H]; discriminate]|].
  rewrite Bool.andb_true_iff, byte_eqb_eq, IH. split.
  - intros [-> [r ->]]. eauto.
  - intros [r H]. injection H as -> ->. eauto.
Qed.
Lemma find_short_from c : forall l i k o, nth_error l k = Some o -> o_short o = c ->
  (forall j o', (j < k)%nat -> nth_error l j = Some o' -> o_short o' <> c) -> find_short l i c = Some (i + k)%nat.
Proof.
  induction l as [|x l IH]; intros i k o N SH F; [destruct k; discriminate|]. cbn. destruct k as [|k].
  - cbn in N. injection N as ->. rewrite SH, byte_eqb_refl. f_equal. lia.
  - rewrite (proj2 (byte_eqb_neq _ _)) by (apply (F O x); [lia|reflexivity]).
    rewrite (IH (S i) k o N SH); [f_equal; lia|]. intros j o' J N'. apply (F (S j) o'); [lia|exact N'].
Qed.
Lemma find_short_letter g i : good_grid g -> has_letter g i -> find_short g 0 (letter g i) = Some i.
Proof.
  unfold has_letter, letter. intros G H. destruct (nth_error g i) as [o|] eqn:N; [|congruence].
  apply (find_short_from _ g 0 i o N eq_refl). intros j o' J N' E.
  pose proof (gg_distinct g G j i o' o N' N E ltac:(congruence)). lia.
Qed.
Lemma find_short_in c : forall l i k, find_short l i c = Some k ->
  exists j o, k = (i + j)%nat /\ nth_error l j = Some o /\ o_short o = c.
Proof.
  induction l as [|x l IH]; intros i k H; cbn in H; [discriminate|]. destruct (byte_eqb (o_short x) c) eqn:E.
  - injection H as <-. exists O, x. apply byte_eqb_eq in E. split; [lia|]. split; [reflexivity|exact E].
  - destruct (IH _ _ H) as (j & o & -> & N & SH). exists (S j), o. split; [lia|]. split; assumption.
Qed.
Lemma find_short_some g c k : find_short g 0 c = Some k -> exists o, nth_error g k = Some o /\ o_short o = c.
Proof. intro H. destruct (find_short_in _ _ _ _ H) as (j & o & -> & N & S). exists o. split; assumption. Qed.

Lemma long_matches_none p : forall l i, (forall j o n r, nth_error l j = Some o -> o_long o = Some n -> n = p ++ r -> False) ->
  long_matches l i p = [].
Proof.
  induction l as [|x l IH]; intros i H; [reflexivity|]. cbn.
  assert (R : long_matches l (S i) p = []).
  { apply IH. intros j o n r N. apply (H (S j) o n r N). }
  destruct (o_long x) as [n|] eqn:L; [|exact R]. destruct (is_prefix p n) eqn:P; [|exact R]. exfalso.
  apply is_prefix_spec in P as [r P]. exact (H O x n r eq_refl L P).
Qed.
Lemma long_matches_one p : forall l i k o n r, nth_error l k = Some o -> o_long o = Some n -> n = p ++ r ->
  (forall j o' n' r', nth_error l j = Some o' -> o_long o' = Some n' -> n' = p ++ r' -> j = k) ->
  long_matches l i p = [(i + k)%nat].
Proof.
  induction l as [|x l IH]; intros i k o n r N L E F; [destruct k; discriminate|]. cbn. destruct k as [|k].
  - cbn in N. injection N as ->. rewrite L. rewrite (proj2 (is_prefix_spec p n)) by eauto.
    rewrite long_matches_none; [f_equal; lia|]. intros j o' n' r' N' L' E'. specialize (F (S j) o' n' r' N' L' E'). discriminate.
  - assert (R : long_matches l (S i) p = [(i + S k)%nat]).
    { rewrite (IH (S i) k o n r N L E); [f_equal; lia|]. intros j o' n' r' N' L' E'.
      specialize (F (S j) o' n' r' N' L' E'). congruence. }
    destruct (o_long x) as [m|] eqn:M; [|exact R]. destruct (is_prefix p m) eqn:P; [|exact R]. exfalso.
    apply is_prefix_spec in P as [r' P]. specialize (F O x m r' eq_refl M P). discriminate.
Qed.
Lemma long_matches_names g i p : names g i p -> long_matches g 0 p = [i].
Proof. intros (_ & (o & n & r & N & L & E) & F). exact (long_matches_one p g 0 i o n r N L E F). Qed.
Lemma long_matches_valid p : forall l i k, In k (long_matches l i p) -> exists j o, k = (i + j)%nat /\ nth_error l j = Some o.
Proof.
  induction l as [|x l IH]; intros i k H; cbn in H; [contradiction|].
  assert (R : In k (long_matches l (S i) p) -> exists j o, k = (i + j)%nat /\ nth_error (x :: l) j = Some o).
  { intro I. destruct (IH _ _ I) as (j & o & -> & N). exists (S j), o. split; [lia|exact N]. }
  destruct (o_long x); [|apply R; exact H]. destruct (is_prefix p b); [|apply R; exact H].
  destruct H as [<-|H]; [|apply R; exact H]. exists O, x. split; [lia|reflexivity].
Qed.

Lemma long_matches_complete p : forall l i j o n r, nth_error l j = Some o -> o_long o = Some n -> n = p ++ r ->
  In (i + j)%nat (long_matches l i p).
Proof.
  induction l as [|x l IH]; intros i j o n r N L E; [destruct j; discriminate|]. cbn [long_matches]. destruct j as [|j].
  - cbn in N. injection N as ->. rewrite L. rewrite (proj2 (is_prefix_spec p n)) by eauto. left. lia.
  - pose proof (IH (S i) j o n r N L E) as I. replace (S i + j)%nat with (i + S j)%nat in I by lia.
    destruct (o_long x); [|exact I]. destruct (is_prefix p b); [right|]; exact I.
Qed.

(** ** A good command line *)
Definition norm (s : astate) : astate := mk_astate (s_vals s) (s_used s) [] 0 (s_ok s) (s_past s).
Definition give (g : grid) (x : nat * option bytes) (s : astate) : astate := store g (fst x) (snd x) (mark g (fst x) s).

Lemma used_ext s s' : s_used s = s_used s' -> forall i, used s i = used s' i.
Proof. unfold used. congruence. Qed.
Lemma or_below_ext g s s' : s_used s = s_used s' -> forall f i, or_below g f s i = or_below g f s' i.
Proof.
  intros E. induction f as [|f IH]; intros [|[|i]]; cbn; try reflexivity. rewrite (used_ext _ _ E i), IH. reflexivity.
Qed.
Lemma or_above_ext g s s' : s_used s = s_used s' -> forall f i, or_above g f s i = or_above g f s' i.
Proof.
  intros E. induction f as [|f IH]; intros i; cbn; [reflexivity|]. rewrite (used_ext _ _ E (i + 2)%nat), IH. reflexivity.
Qed.
Lemma reads_past_ext g s s' : s_used s = s_used s' -> forall f i, reads_past g f s i = reads_past g f s' i.
Proof.
  intros E. induction f as [|f IH]; intros i; cbn; [reflexivity|]. rewrite (used_ext _ _ E (i + 2)%nat), IH. reflexivity.
Qed.
Lemma norm_store g i v s : norm (store g i v s) = store g i v (norm s).
Proof.
  unfold store. cbn [norm s_vals]. destruct (nth_error g i); [|reflexivity]. destruct (nth_error (s_vals s) i); [|reflexivity].
  destruct (string_to_value _ _ _ _); reflexivity.
Qed.
Lemma norm_mark g i s : norm (mark g i s) = mark g i (norm s).
Proof.
  unfold mark, norm, check_or. cbn [s_vals s_used s_queue s_head s_ok s_past]. f_equal.
  - f_equal. f_equal. f_equal; [apply or_below_ext; reflexivity|apply or_above_ext; reflexivity].
  - f_equal. f_equal; [f_equal; apply or_below_ext; reflexivity|apply reads_past_ext; reflexivity].
Qed.
Lemma norm_give g x s : norm (give g x s) = give g x (norm s).
Proof. unfold give. rewrite norm_store, norm_mark. reflexivity. Qed.
Lemma norm_norm s : norm (norm s) = norm s. Proof. reflexivity. Qed.
Lemma store_fields g i v s : s_queue (store g i v s) = s_queue s /\ s_head (store g i v s) = s_head s /\
  s_used (store g i v s) = s_used s /\ s_past (store g i v s) = s_past s.
Proof.
  unfold store. destruct (nth_error g i); [|repeat split]. destruct (nth_error (s_vals s) i); [|repeat split].
  destruct (string_to_value _ _ _ _); repeat split.
Qed.

Section Line.
Variable g : grid.
Variable cap : nat.
Variable fa : bytes -> astate -> ares.
Hypothesis G : good_grid g.

(** From [s] to [s'] exactly the options of [l] are given, at most [n] wait in between. *)
Definition steps (l : list (nat * option bytes)) (n : nat) (s s' : astate) : Prop :=
  s_queue s' = [] /\ (s_head s' <= s_head s + n)%nat /\ norm s' = fold_left (fun s x => give g x s) l (norm s).

Lemma do_arg_flag i s : is_flag g i -> do_arg g cap i None s = A_go (give g (i, None) s).
Proof.
  intros (o & N & K). unfold do_arg. rewrite N. destruct K as [-> | ->]; reflexivity.
Qed.
Lemma do_arg_close i v s : do_arg g cap i (Some v) s = A_go (give g (i, Some v) s).
Proof. reflexivity. Qed.
Definition wait (i : nat) (s : astate) : astate :=
  let s1 := mark g i s in mk_astate (s_vals s1) (s_used s1) [Some i] (S (s_head s1)) (s_ok s1) (s_past s1).
Lemma do_arg_valued i s : is_valued g i -> s_queue s = [] -> (s_head s < cap)%nat ->
  do_arg g cap i None s = A_go (wait i s).
Proof.
  intros (o & N & K) Q H. unfold do_arg. rewrite N.
  replace (has_arg (o_kind o)) with true by (destruct K as [-> | ->]; reflexivity).
  unfold enqueue. change (s_head (mark g i s)) with (s_head s). rewrite (proj2 (Nat.ltb_lt _ _) H).
  change (s_queue (mark g i s)) with (s_queue s). rewrite Q. reflexivity.
Qed.
Lemma plain_wait i v s : plain_arg g fa v (wait i s) =
  A_go (store g i (Some v) (mk_astate (s_vals (mark g i s)) (s_used (mark g i s)) [] (S (s_head s)) (s_ok (mark g i s)) (s_past (mark g i s)))).
Proof. reflexivity. Qed.
Lemma wait_steps i v s : steps [(i, Some v)] 1 s
  (store g i (Some v) (mk_astate (s_vals (mark g i s)) (s_used (mark g i s)) [] (S (s_head s)) (s_ok (mark g i s)) (s_past (mark g i s)))).
Proof.
  unfold steps. destruct (store_fields g i (Some v) (mk_astate (s_vals (mark g i s)) (s_used (mark g i s)) [] (S (s_head s)) (s_ok (mark g i s)) (s_past (mark g i s)))) as (-> & -> & _ & _).
  split; [reflexivity|]. split; [cbn; lia|]. rewrite norm_store. cbn [fold_left]. unfold give. cbn [fst snd]. rewrite <- norm_mark. reflexivity.
Qed.
Lemma give_steps x s : s_queue s = [] -> steps [x] 0 s (give g x s).
Proof.
  intro Q. unfold steps, give. destruct (store_fields g (fst x) (snd x) (mark g (fst x) s)) as (-> & -> & _ & _).
  split; [exact Q|]. split; [cbn; lia|]. rewrite norm_store, norm_mark. reflexivity.
Qed.
Lemma steps_refl s : s_queue s = [] -> steps [] 0 s s.
Proof. intro Q. split; [exact Q|]. split; [lia|reflexivity]. Qed.
Lemma steps_trans l1 l2 n1 n2 s1 s2 s3 : steps l1 n1 s1 s2 -> steps l2 n2 s2 s3 -> steps (l1 ++ l2) (n1 + n2) s1 s3.
Proof.
  intros (Q1 & H1 & E1) (Q2 & H2 & E2). split; [exact Q2|]. split; [lia|]. rewrite fold_left_app, <- E1, E2. reflexivity.
Qed.

Lemma short_flags whole fl : Forall (fun i => is_flag g i /\ has_letter g i) fl -> forall first tl s, s_queue s = [] ->
  exists s' first', short_chars g cap whole first (map (letter g) fl ++ tl) None s = short_chars g cap whole first' tl None s' /\
    steps (map (fun i => (i, None)) fl) 0 s s'.
Proof.
  induction 1 as [|i fl [F L] _ IH]; intros first tl s Q.
  - exists s, first. split; [reflexivity|apply steps_refl; exact Q].
  - cbn [map app short_chars]. rewrite (find_short_letter g i G L), (do_arg_flag i s F).
    pose proof (give_steps (i, None) s Q) as S1.
    destruct (IH false tl (give g (i, None) s) (proj1 S1)) as (s' & f' & E & S2).
    exists s', f'. split; [exact E|]. exact (steps_trans [(i, None)] _ 0 0 _ _ _ S1 S2).
Qed.

Lemma letter_ok i : has_letter g i -> letter g i <> x3d /\ letter g i <> x2d.
Proof.
  unfold has_letter, letter. destruct (nth_error g i) as [o|] eqn:N; [|congruence]. intros _.
  pose proof (gg_letters g G i o N) as F. split; intro E; apply F; rewrite E; [left; reflexivity|right].
  vm_compute. tauto.
Qed.
Lemma letters_no_eq fl : Forall (fun i => is_flag g i /\ has_letter g i) fl -> ~ In x3d (map (letter g) fl).
Proof.
  intros F I. apply in_map_iff in I as (i & E & I). rewrite Forall_forall in F. destruct (F i I) as [_ L].
  exact (proj1 (letter_ok i L) E).
Qed.
Lemma prefix_no_eq i p : names g i p -> ~ In x3d p.
Proof.
  intros (_ & (o & n & r & N & L & E) & _) I. apply (gg_long g G i o n N L). subst n. apply in_or_app. left. exact I.
Qed.

(** One argument, by its shape. *)
Lemma do_list_cons a r s : a <> [x2d; x2d] ->
  do_list_with g cap fa false (a :: r) s = match arg1 g cap fa a s with A_go s' => do_list_with g cap fa false r s' | y => y end.
Proof.
  intro H. cbn [do_list_with]. replace (bytes_eqb a (txt "--")) with false by (symmetry; apply bytes_eqb_neq; exact H).
  cbn [andb]. destruct (arg1 g cap fa a s); reflexivity.
Qed.
Lemma arg1_plain v s : value_arg v -> arg1 g cap fa v s = plain_arg g fa v s.
Proof.
  intros [-> | H]; [reflexivity|]. unfold arg1.
  destruct (is_prefix (txt "--") v) eqn:P; [apply is_prefix_spec in P as [r P]; exfalso; exact (H _ P)|].
  destruct (is_prefix (txt "-") v) eqn:P2; [apply is_prefix_spec in P2 as [r P2]; exfalso; exact (H _ P2)|reflexivity].
Qed.
Lemma arg1_short c cs s : c <> x2d ->
  arg1 g cap fa (x2d :: c :: cs) s =
  let '(p, close) := split_eq (x2d :: c :: cs) in
  match skipn 1 p with [] => A_go (bad s) | cs => short_chars g cap p true cs close s end.
Proof.
  intro H. unfold arg1. replace (is_prefix (txt "--") (x2d :: c :: cs)) with false.
  2:{ symmetry. apply Bool.not_true_iff_false. intro P. apply is_prefix_spec in P as [r P]. injection P as P _. congruence. }
  replace (is_prefix (txt "-") (x2d :: c :: cs)) with true by reflexivity.
  replace (lenN (x2d :: c :: cs) =? 1) with false; [reflexivity|]. symmetry. apply N.eqb_neq. unfold lenN. cbn [List.length]. lia.
Qed.
Lemma arg1_long p s : arg1 g cap fa (x2d :: x2d :: p) s =
  let '(q, close) := split_eq (x2d :: x2d :: p) in long_option g cap fa (skipn 2 q) close s.
Proof. reflexivity. Qed.
Lemma long_option_names i p close s : names g i p -> long_option g cap fa p close s = do_arg g cap i close s.
Proof.
  intro N. unfold long_option. rewrite (long_matches_names g i p N). destruct N as (NE & _). destruct p; [congruence|reflexivity].
Qed.

Lemma value_not_last v : value_arg v -> v <> [x2d; x2d].
Proof. intros [-> | H]; [discriminate|apply H]. Qed.

Lemma words_run x r s : proper g x -> s_queue s = [] -> (s_head s < cap)%nat ->
  exists s', do_list_with g cap fa false (words g x ++ r) s = do_list_with g cap fa false r s' /\
    steps (sets x) (List.length (words g x)) s s'.
Proof.
  assert (W : forall l n m s s', (n <= m)%nat -> steps l n s s' -> steps l m s s').
  { intros l n m s0 s' L (Q & H & E). split; [exact Q|]. split; [lia|exact E]. }
  intros P Q H. destruct x as [fl | fl i v | i v | i p | i p v | i p v]; cbn [proper words sets app] in *.
  - destruct P as [NE F]. destruct fl as [|i fl]; [congruence|]. cbn [map].
    pose proof (Forall_inv F) as [_ L]. destruct (letter_ok i L) as [_ NE2].
    rewrite do_list_cons by congruence. rewrite (arg1_short _ _ s NE2).
    rewrite (split_eq_none (x2d :: letter g i :: map (letter g) fl)).
    2:{ intros [E|I]; [discriminate|]. exact (letters_no_eq (i :: fl) F I). }
    cbn [skipn]. change (letter g i :: map (letter g) fl) with (map (letter g) (i :: fl)).
    destruct (short_flags (x2d :: map (letter g) (i :: fl)) (i :: fl) F true [] s Q) as (s' & f' & E & ST).
    exists s'. rewrite app_nil_r in E. cbn [map app] in E |- *. rewrite E. cbn [short_chars]. split; [reflexivity|]. apply (W _ O 1%nat); [lia|exact ST].
  - destruct P as (F & V & L & VA). destruct (letter_ok i L) as [NE1 NE2].
    assert (X : exists c cs, map (letter g) fl ++ [letter g i] = c :: cs /\ c <> x2d).
    { destruct fl as [|j fl]; [exists (letter g i), []; split; [reflexivity|exact NE2]|].
      exists (letter g j), (map (letter g) fl ++ [letter g i]). split; [reflexivity|].
      apply (letter_ok j). apply (Forall_inv F). }
    destruct X as (c & cs & X & C). assert (NOEQ : ~ In x3d (map (letter g) fl ++ [letter g i])).
    { intro I. apply in_app_or in I as [I|[E|[]]]; [exact (letters_no_eq fl F I)|exact (NE1 E)]. }
    rewrite X. rewrite do_list_cons by congruence. rewrite (arg1_short c cs s C).
    rewrite (split_eq_none (x2d :: c :: cs)) by (rewrite <- X; intros [E|I]; [discriminate|exact (NOEQ I)]).
    cbn [skipn]. rewrite <- X.
    destruct (short_flags (x2d :: map (letter g) fl ++ [letter g i]) fl F true [letter g i] s Q) as (s1 & f1 & E & S1).
    replace (match map (letter g) fl ++ [letter g i] with [] => A_go (bad s) | _ :: _ =>
               short_chars g cap (x2d :: map (letter g) fl ++ [letter g i]) true (map (letter g) fl ++ [letter g i]) None s end)
      with (short_chars g cap (x2d :: map (letter g) fl ++ [letter g i]) true (map (letter g) fl ++ [letter g i]) None s)
      by (rewrite X; reflexivity).
    rewrite E. cbn [short_chars]. rewrite (find_short_letter g i G L).
    destruct S1 as (Q1 & H1 & E1). assert (S1 : steps (map (fun i => (i, None)) fl) 0 s s1) by (repeat split; assumption).
    rewrite (do_arg_valued i s1 V Q1) by lia.
    rewrite do_list_cons by (apply value_not_last; exact VA). rewrite (arg1_plain v _ VA), plain_wait.
    eexists. split; [reflexivity|]. cbn [List.length].
    apply (W _ (0 + 1)%nat); [lia|]. apply (steps_trans _ _ 0 1 _ _ _ S1 (wait_steps i v s1)).
  - destruct P as (V & L). destruct (letter_ok i L) as [NE1 NE2].
    rewrite do_list_cons by congruence. rewrite (arg1_short (letter g i) (x3d :: v) s NE2).
    change (x2d :: letter g i :: x3d :: v) with ([x2d; letter g i] ++ x3d :: v).
    rewrite split_eq_some by (cbn; intros [E|[E|[]]]; [discriminate|congruence]).
    cbn [skipn short_chars]. rewrite (find_short_letter g i G L). rewrite do_arg_close.
    exists (give g (i, Some v) s). split; [reflexivity|]. apply (W _ O 1%nat); [lia|]. apply give_steps. exact Q.
  - destruct P as (F & N). pose proof (proj1 N) as NE. rewrite do_list_cons by (intro E; injection E as E; congruence).
    rewrite arg1_long.
    rewrite (split_eq_none (x2d :: x2d :: p)) by (intros [E|[E|I]]; [discriminate..|exact (prefix_no_eq i p N I)]).
    cbn [skipn]. rewrite (long_option_names i p None s N), (do_arg_flag i s F).
    exists (give g (i, None) s). split; [reflexivity|]. apply (W _ O 1%nat); [lia|]. apply give_steps. exact Q.
  - destruct P as (V & N & VA). pose proof (proj1 N) as NE. rewrite do_list_cons by (intro E; injection E as E; congruence).
    rewrite arg1_long.
    rewrite (split_eq_none (x2d :: x2d :: p)) by (intros [E|[E|I]]; [discriminate..|exact (prefix_no_eq i p N I)]).
    cbn [skipn]. rewrite (long_option_names i p None s N), (do_arg_valued i s V Q H).
    rewrite do_list_cons by (apply value_not_last; exact VA). rewrite (arg1_plain v _ VA), plain_wait.
    eexists. split; [reflexivity|]. apply (W _ 1%nat 2%nat); [lia|]. apply wait_steps.
  - destruct P as (V & N). pose proof (proj1 N) as NE.
    rewrite do_list_cons by (intro E; destruct p; [congruence|discriminate]).
    rewrite arg1_long.
    change (x2d :: x2d :: p ++ x3d :: v) with ((x2d :: x2d :: p) ++ x3d :: v).
    rewrite split_eq_some by (intros [E|[E|I]]; [discriminate..|exact (prefix_no_eq i p N I)]).
    cbn [skipn]. change (@Some (list byte) v) with (@Some bytes v). rewrite (long_option_names i p (Some v) s N), do_arg_close.
    exists (give g (i, Some v) s). split; [reflexivity|]. apply (W _ O 1%nat); [lia|]. apply give_steps. exact Q.
Qed.

Lemma line_run : forall gs s, Forall (proper g) gs -> s_queue s = [] -> (s_head s + List.length (flat_map (words g) gs) < cap)%nat ->
  exists s', do_list_with g cap fa false (flat_map (words g) gs) s = A_go s' /\
    steps (all_sets gs) (List.length (flat_map (words g) gs)) s s'.
Proof.
  induction gs as [|x gs IH]; intros s F Q H.
  - exists s. split; [reflexivity|]. apply steps_refl. exact Q.
  - cbn [flat_map] in H |- *. rewrite app_length in H |- *.
    destruct (words_run x (flat_map (words g) gs) s (Forall_inv F) Q ltac:(lia)) as (s1 & E1 & S1).
    rewrite E1. destruct S1 as (Q1 & H1 & N1).
    destruct (IH s1 (Forall_inv_tail F) Q1 ltac:(lia)) as (s2 & E2 & S2). exists s2. split; [exact E2|].
    unfold all_sets. cbn [flat_map]. apply (steps_trans _ _ _ _ s s1 s2); [|exact S2]. repeat split; assumption.
Qed.
End Line.

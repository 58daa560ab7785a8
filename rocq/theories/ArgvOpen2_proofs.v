(** Proofs about orderly files of arguments and the standard input. *)
From Coq Require Import String Lia.
From Verif Require Import Bytes Bytes_proofs Control Misc Misc_proofs Capture Startup Argv SpecArgv
  Argv_proofs Argv2_proofs Argv3_proofs Argv4_proofs Argv5_proofs Argv6_proofs Argv7_proofs ArgvOpen ArgvOpen_proofs SpecArgvOpen.
Import ListNotations.
Local Open Scope nat_scope.

Lemma not_last a : a <> [x2d; x2d] -> bytes_eqb a (txt "--") && negb false = false.
Proof. intro H. replace (bytes_eqb a (txt "--")) with false by (symmetry; apply bytes_eqb_neq; exact H). reflexivity. Qed.

(** ** Arguments that name no file *)
Section Grid.
Variables (g : grid) (cap : nat).
Hypothesis G : good_grid g.
Variable fb : oargs.
Lemma open_skip r i : forall ws s, Forall (fun a => a <> [x2d; x2d]) ws -> do_list_with g cap no_args false ws s <> A_deep ->
  open_list_with g cap fb false (ws ++ r) s i =
  match do_list_with g cap no_args false ws s with A_go s' => open_list_with g cap fb false r s' i | y => (y, i) end.
Proof.
  induction ws as [|a ws IH]; intros s F D; [reflexivity|]. inversion_clear F as [|? ? N F'].
  cbn [app]. rewrite open_cons by (apply not_last; exact N). rewrite do_list_cons in * by exact N.
  change (arg1 g cap no_args a s) with (one g cap no_args false a s) in *.
  destruct (wants g false a s) as [[p s']|] eqn:W.
  - rewrite one_wants, W in D. destruct (D eq_refl).
  - destruct (one g cap no_args false a s) as [s'| | |]; try reflexivity. apply IH; assumption.
Qed.
Lemma words_no_last x : proper g x -> Forall (fun a => a <> [x2d; x2d]) (words g x).
Proof.
  intro P. destruct x as [fl | fl i v | i v | i p | i p v | i p v]; cbn [proper words] in *.
  - destruct P as [NE F]. destruct fl as [|i fl]; [congruence|]. pose proof (Forall_inv F) as [_ L].
    destruct (letter_ok g G i L) as [_ NE2]. repeat constructor. cbn [map]. congruence.
  - destruct P as (F & V & L & VA). constructor; [|constructor; [apply value_not_last; exact VA|constructor]].
    destruct fl as [|j fl]; cbn [map app]; [destruct (letter_ok g G i L) as [_ NE2]; congruence|].
    pose proof (Forall_inv F) as [_ Lj]. destruct (letter_ok g G j Lj) as [_ NE2]. congruence.
  - repeat constructor. destruct P as (V & L). congruence.
  - repeat constructor. destruct P as (_ & NE & _). intro E. injection E as E. congruence.
  - destruct P as (_ & (NE & _) & VA). constructor; [intro E; injection E as E; congruence|].
    constructor; [apply value_not_last; exact VA|constructor].
  - repeat constructor. intro E. destruct p; discriminate E.
Qed.
Lemma words_open x r s i : proper g x -> s_queue s = [] -> s_head s <= cap ->
  if s_head s + own_value x <=? cap
  then exists s', open_list_with g cap fb false (words g x ++ r) s i = open_list_with g cap fb false r s' i /\ moved g (sets x) (own_value x) s s'
  else fst (open_list_with g cap fb false (words g x ++ r) s i) = A_ub UB_queue.
Proof.
  intros P Q H. pose proof (words_exact g cap no_args G x [] s P Q H) as W. unfold then_ in W. rewrite app_nil_r in W.
  pose proof (words_no_last x P) as NL. destruct (s_head s + own_value x <=? cap).
  - destruct W as (s' & E & M). cbn [do_list_with] in E. exists s'. split; [|exact M].
    rewrite open_skip; [rewrite E; reflexivity|exact NL|rewrite E; discriminate].
  - rewrite open_skip; [rewrite W; reflexivity|exact NL|rewrite W; discriminate].
Qed.

(** ** Arguments that name one *)
Lemma wants_eq p path s : file_name g p -> wants g false (x2d :: x2d :: p ++ x3d :: path) s = Some (path, s).
Proof.
  intro F. destruct (own_no_match g _ _ F) as [NE M]. destruct F as (_ & NQ & _ & r & E). unfold wants.
  change (is_prefix (txt "--") (x2d :: x2d :: p ++ x3d :: path)) with true. cbv iota.
  change (x2d :: x2d :: p ++ x3d :: path) with ((x2d :: x2d :: p) ++ x3d :: path).
  rewrite split_eq_some by (intros [X|[X|I]]; [discriminate..|exact (NQ I)]). cbn [skipn].
  destruct p; [congruence|]. rewrite M, (proj2 (is_prefix_spec _ _) (ex_intro _ r E)). reflexivity.
Qed.
Lemma wants_name p s : file_name g p -> wants g false (x2d :: x2d :: p) s = None.
Proof.
  intros (NE & NQ & _). unfold wants. change (is_prefix (txt "--") (x2d :: x2d :: p)) with true. cbv iota.
  rewrite split_eq_none by (intros [X|[X|I]]; [discriminate..|exact (NQ I)]). cbn [skipn]. destruct p; reflexivity.
Qed.
Lemma wants_value path s q : value_arg path -> s_queue s = None :: q ->
  wants g false path s = Some (path, mk_astate (s_vals s) (s_used s) q (s_head s) (s_ok s) (s_past s)).
Proof.
  intros VA Q. assert (P : wants_plain path s = Some (path, mk_astate (s_vals s) (s_used s) q (s_head s) (s_ok s) (s_past s))).
  { unfold wants_plain. rewrite Q. reflexivity. }
  destruct VA as [-> | H]; [exact P|]. unfold wants.
  destruct (is_prefix (txt "--") path) eqn:P1; [apply is_prefix_spec in P1 as [r P1]; exfalso; exact (H _ P1)|].
  destruct (is_prefix (txt "-") path) eqn:P2; [apply is_prefix_spec in P2 as [r P2]; exfalso; exact (H _ P2)|exact P].
Qed.
Lemma open_eq p path r s i : file_name g p -> open_list_with g cap fb false ((x2d :: x2d :: p ++ x3d :: path) :: r) s i =
  let '(x, j) := fb path s i in match x with A_go s' => open_list_with g cap fb false r s' j | y => (y, j) end.
Proof.
  intro F. rewrite open_cons by (apply not_last; intro E; destruct p; [destruct F as (NE & _); congruence|discriminate E]).
  rewrite wants_eq by exact F. reflexivity.
Qed.
Lemma open_val p path r s i : file_name g p -> value_arg path -> s_queue s = [] ->
  open_list_with g cap fb false ((x2d :: x2d :: p) :: path :: r) s i =
  if s_head s <? cap
  then let '(x, j) := fb path (mk_astate (s_vals s) (s_used s) [] (S (s_head s)) (s_ok s) (s_past s)) i in
       match x with A_go s' => open_list_with g cap fb false r s' j | y => (y, j) end
  else (A_ub UB_queue, i).
Proof.
  intros F VA Q. rewrite open_cons by (apply not_last; intro E; injection E as E; destruct F as (NE & _); congruence).
  rewrite wants_name by exact F. change (one g cap no_args false (x2d :: x2d :: p) s) with (arg1 g cap no_args (x2d :: x2d :: p) s).
  rewrite arg1_file_val by exact F. unfold enqueue. destruct (s_head s <? cap); [|reflexivity].
  rewrite open_cons by (apply not_last, value_not_last; exact VA). rewrite Q. cbn [app].
  rewrite (wants_value path _ []) by (exact VA || reflexivity). reflexivity.
Qed.
End Grid.

(** ** Orderly arguments *)
Lemma in_rest g files d n ws l i j : says_in g files d n ws l i j -> j = i \/ j = [].
Proof.
  induction 1 as [d i|d n x ws l i j P S IH|d m n p path c ls inner ws l i j k F ND FP T Si IHi So IHo
    |d m n p path c ls inner ws l i j k F VA ND FP T Si IHi So IHo|d m n p ls inner ws l i j k F T Si IHi So IHo|d m n p ls inner ws l i j k F T Si IHi So IHo];
    [left; reflexivity|exact IH|..]; destruct IHi as [->| ->], IHo as [->| ->]; auto.
Qed.
Lemma text_nothing ls : text_of ls [] -> ls = [].
Proof.
  intro T. apply file_lines_text in T. exact (eq_sym T).
Qed.
Lemma in_proper g files d n ws l i j : says_in g files d n ws l i j -> Forall (proper g) l.
Proof. induction 1; [constructor|constructor; assumption|apply Forall_app; split; assumption..]. Qed.

Definition runs (g : grid) (cap : nat) (fb : oargs) (ws : list bytes) (l : list given) (n : nat) (i j : bytes) (r : list bytes) (s : astate) : Prop :=
  if s_head s + n <=? cap
  then exists s', open_list_with g cap fb false (ws ++ r) s i = open_list_with g cap fb false r s' j /\ moved g (all_sets l) n s s'
  else fst (open_list_with g cap fb false (ws ++ r) s i) = A_ub UB_queue.
Lemma runs_file g cap fa fb ls inner m i j ws l n k r s x : s_queue s = [] -> s_head s <= cap ->
  x = open_list_with g cap fa false ls s i ->
  runs g cap fa ls inner m i j [] s ->
  (forall s, s_queue s = [] -> s_head s <= cap -> runs g cap fb ws l n j k r s) ->
  let y := let '(x, j) := x in match x with A_go s' => open_list_with g cap fb false (ws ++ r) s' j | y => (y, j) end in
  if s_head s + (m + n) <=? cap
  then exists s', y = open_list_with g cap fb false r s' k /\ moved g (all_sets (inner ++ l)) (m + n) s s'
  else fst y = A_ub UB_queue.
Proof.
  intros Q H -> IN OUT. cbn zeta. unfold runs in IN. rewrite app_nil_r in IN. destruct (s_head s + m <=? cap) eqn:L1.
  - destruct IN as (s1 & E1 & M1). rewrite E1. cbn [open_list_with]. pose proof M1 as (Q1 & H1 & _). apply Nat.leb_le in L1.
    pose proof (OUT s1 Q1 ltac:(lia)) as O1. unfold runs in O1. rewrite H1, <- Nat.add_assoc in O1.
    destruct (s_head s + (m + n) <=? cap) eqn:L2; [|exact O1]. destruct O1 as (s2 & E2 & M2).
    exists s2. split; [exact E2|]. unfold all_sets. rewrite flat_map_app. apply (moved_trans g _ _ m n s s1 s2 M1 M2).
  - apply Nat.leb_gt in L1. rewrite (proj2 (Nat.leb_gt _ _)) by lia.
    destruct (open_list_with g cap fa false ls s i) as [z j']. cbn [fst] in IN. subst z. reflexivity.
Qed.
Lemma in_empty g files d n l i j : says_in g files d n [] l i j -> n = 0 /\ l = [] /\ j = i.
Proof.
  intro S. remember [] as ws eqn:W. destruct S; try discriminate W; [auto|]. destruct x; discriminate W.
Qed.
Lemma runs_nothing g cap fb i s r : s_queue s = [] -> s_head s <= cap -> runs g cap fb [] [] 0 i i r s.
Proof.
  intros Q H. unfold runs. rewrite Nat.add_0_r, (proj2 (Nat.leb_le _ _) H). exists s. split; [reflexivity|]. apply moved_refl. exact Q.
Qed.
Lemma fewer (j i : bytes) : j = i \/ j = [] -> left_over j <= left_over i.
Proof. intros [->| ->]; cbn [left_over]; lia. Qed.
Lemma in_run g cap files : good_grid g -> forall d n ws l i j, says_in g files d n ws l i j ->
  forall fuel fds r s, d <= fds -> fds + left_over i < fuel -> s_queue s = [] -> s_head s <= cap ->
  runs g cap (oa_of g cap files fuel fds) ws l n i j r s.
Proof.
  intro G.
  induction 1 as [d i|d n x ws l i j P S IH|d m n p path c ls inner ws l i j k F ND FP T Si IHi So IHo
    |d m n p path c ls inner ws l i j k F VA ND FP T Si IHi So IHo|d m n p ls inner ws l i j k F T Si IHi So IHo|d m n p ls inner ws l i j k F T Si IHi So IHo];
    intros fuel fds r s D L Q H.
  - apply runs_nothing; assumption.
  - unfold runs. rewrite <- app_assoc. pose proof (words_open g cap G (oa_of g cap files fuel fds) x (ws ++ r) s i P Q H) as W.
    destruct (s_head s + own_value x <=? cap) eqn:L1.
    + destruct W as (s1 & E1 & M1). rewrite E1. pose proof M1 as (Q1 & H1 & _). apply Nat.leb_le in L1.
      pose proof (IH fuel fds r s1 D L Q1 ltac:(lia)) as O1. unfold runs in O1. rewrite H1, <- Nat.add_assoc in O1.
      destruct (s_head s + (own_value x + n) <=? cap) eqn:L2; [|exact O1]. destruct O1 as (s2 & E2 & M2).
      exists s2. split; [exact E2|]. unfold all_sets. cbn [flat_map]. apply (moved_trans g _ _ _ n s s1 s2 M1 M2).
    + apply Nat.leb_gt in L1. rewrite (proj2 (Nat.leb_gt _ _)) by lia. exact W.
  - pose proof (fewer _ _ (in_rest _ _ _ _ _ _ _ _ Si)) as LJ. destruct fuel as [|f]; [lia|]. destruct fds as [|fds]; [lia|].
    unfold runs. cbn [app]. rewrite open_eq by exact F.
    apply (runs_file g cap (oa_of g cap files f fds) (oa_of g cap files (Datatypes.S f) (Datatypes.S fds)) ls inner m i j ws l n k r s); try assumption.
    + cbn [oa_of]. rewrite (proj2 (bytes_eqb_neq _ _)) by exact ND. rewrite FP, (file_lines_text ls c T), open_unfold. reflexivity.
    + apply IHi; [lia..|exact Q|exact H].
    + intros s' Q' H'. apply IHo; [exact D|lia|exact Q'|exact H'].
  - pose proof (fewer _ _ (in_rest _ _ _ _ _ _ _ _ Si)) as LJ. destruct fuel as [|f]; [lia|]. destruct fds as [|fds]; [lia|].
    unfold runs. cbn [app]. rewrite open_val by assumption. destruct (s_head s <? cap) eqn:L0.
    2:{ apply Nat.ltb_ge in L0. rewrite (proj2 (Nat.leb_gt _ _)) by lia. reflexivity. }
    apply Nat.ltb_lt in L0. set (s0 := mk_astate _ _ _ _ _ _).
    assert (H0 : s_head s0 = Datatypes.S (s_head s)) by reflexivity.
    pose proof (runs_file g cap (oa_of g cap files f fds) (oa_of g cap files (Datatypes.S f) (Datatypes.S fds)) ls inner m i j ws l n k r s0
      (oa_of g cap files (Datatypes.S f) (Datatypes.S fds) path s0 i) eq_refl ltac:(lia)) as X. cbn zeta in X.
    rewrite H0 in X. replace (Datatypes.S (s_head s) + (m + n)) with (s_head s + (Datatypes.S m + n)) in X by lia.
    assert (Y : _) by (apply X; [cbn [oa_of]; rewrite (proj2 (bytes_eqb_neq _ _)) by exact ND; rewrite FP, (file_lines_text ls c T), open_unfold; reflexivity
      |apply IHi; [lia..|reflexivity|lia]|intros s' Q' H'; apply IHo; [exact D|lia|exact Q'|exact H']]).
    destruct (s_head s + (Datatypes.S m + n) <=? cap); [|exact Y]. destruct Y as (s' & E & Q' & H' & N'). exists s'. split; [exact E|].
    split; [exact Q'|]. split; [rewrite H', H0; lia|exact N'].
  - pose proof (fewer _ _ (in_rest _ _ _ _ _ _ _ _ Si)) as LJ. destruct fuel as [|f]; [lia|].
    unfold runs. cbn [app]. rewrite open_eq by exact F.
    apply (runs_file g cap (oa_of g cap files f fds) (oa_of g cap files (Datatypes.S f) fds) ls inner m [] j ws l n k r s); try assumption.
    + cbn [oa_of]. change (bytes_eqb (txt "-") (txt "-")) with true. cbv iota. rewrite (file_lines_text ls i T), open_unfold. reflexivity.
    + destruct i as [|b i]; [|apply IHi; [lia| |exact Q|exact H]; cbn [left_over] in *; lia].
      rewrite (text_nothing ls T) in *. destruct (in_empty _ _ _ _ _ _ _ Si) as (-> & -> & ->). apply runs_nothing; assumption.
    + intros s' Q' H'. apply IHo; [exact D| |exact Q'|exact H']. cbn [left_over] in *. lia.
  - pose proof (fewer _ _ (in_rest _ _ _ _ _ _ _ _ Si)) as LJ. destruct fuel as [|f]; [lia|].
    unfold runs. cbn [app]. rewrite open_val by (try exact F; try exact Q; left; reflexivity). destruct (s_head s <? cap) eqn:L0.
    2:{ apply Nat.ltb_ge in L0. rewrite (proj2 (Nat.leb_gt _ _)) by lia. reflexivity. }
    apply Nat.ltb_lt in L0. set (s0 := mk_astate _ _ _ _ _ _).
    assert (H0 : s_head s0 = Datatypes.S (s_head s)) by reflexivity.
    pose proof (runs_file g cap (oa_of g cap files f fds) (oa_of g cap files (Datatypes.S f) fds) ls inner m [] j ws l n k r s0
      (oa_of g cap files (Datatypes.S f) fds (txt "-") s0 i) eq_refl ltac:(lia)) as X. cbn zeta in X.
    rewrite H0 in X. replace (Datatypes.S (s_head s) + (m + n)) with (s_head s + (Datatypes.S m + n)) in X by lia.
    assert (X1 : oa_of g cap files (Datatypes.S f) fds (txt "-") s0 i = open_list_with g cap (oa_of g cap files f fds) false ls s0 []).
    { cbn [oa_of]. change (bytes_eqb (txt "-") (txt "-")) with true. cbv iota. rewrite (file_lines_text ls i T), open_unfold. reflexivity. }
    assert (X2 : runs g cap (oa_of g cap files f fds) ls inner m [] j [] s0).
    { destruct i as [|b i]; [|apply IHi; [lia| |reflexivity|lia]; cbn [left_over] in *; lia].
      rewrite (text_nothing ls T) in *. destruct (in_empty _ _ _ _ _ _ _ Si) as (-> & -> & ->). apply runs_nothing; [reflexivity|lia]. }
    assert (X3 : forall s, s_queue s = [] -> s_head s <= cap -> runs g cap (oa_of g cap files (Datatypes.S f) fds) ws l n j k r s).
    { intros s' Q' H'. apply IHo; [exact D| |exact Q'|exact H']. cbn [left_over] in *. lia. }
    pose proof (X X1 X2 X3) as Y.
    destruct (s_head s + (Datatypes.S m + n) <=? cap); [|exact Y]. destruct Y as (s' & E & Q' & H' & N'). exists s'. split; [exact E|].
    split; [exact Q'|]. split; [rewrite H', H0; lia|exact N'].
Qed.

(** ** The whole *)
Lemma open_process_in g files F fds d ne na es gs env args inp i j : good_grid g ->
  says_in g files d ne env es inp i -> says_in g files d na args gs i j -> d <= fds -> fds + 1 < F ->
  open_process g files F fds inp env args =
  if ne + na <=? 1 + List.length args + List.length env
  then argv_process g (fun _ => None) 0 (flat_map (words g) es) (flat_map (words g) gs)
  else Undef UB_queue.
Proof.
  intros G SE SA D L. assert (LE : forall i, left_over i <= 1) by (intros [|? ?]; cbn [left_over]; lia).
  pose proof (in_proper _ _ _ _ _ _ _ _ SE) as PE. pose proof (in_proper _ _ _ _ _ _ _ _ SA) as PA.
  rewrite (process_line g (fun _ => None) 0 es gs G PE PA).
  unfold open_process. fold (room env args). set (cap := room env args).
  pose proof (in_run g cap files G _ _ _ _ _ _ SE F fds [] (start g) D ltac:(specialize (LE inp); lia) eq_refl (Nat.le_0_l _)) as E. unfold runs in E.
  rewrite app_nil_r, <- open_unfold in E. cbn [s_head start] in E. rewrite Nat.add_0_l in E.
  destruct (ne <=? cap) eqn:L1.
  2:{ apply Nat.leb_gt in L1. rewrite (proj2 (Nat.leb_gt _ _)) by lia.
      destruct (open_list g cap files F fds env (start g) inp) as [x ?]. cbn [fst] in E. subst x. reflexivity. }
  destruct E as (s1 & E1 & Q1 & H1 & N1). rewrite E1. cbn [open_list_with]. cbn [s_head start] in H1.
  apply Nat.leb_le in L1.
  pose proof (in_run g cap files G _ _ _ _ _ _ SA F fds [] s1 D ltac:(specialize (LE i); lia) Q1 ltac:(lia)) as A. unfold runs in A.
  rewrite app_nil_r, <- open_unfold in A. replace (s_head s1) with ne in A by (rewrite H1; reflexivity).
  destruct (ne + na <=? cap) eqn:L2.
  2:{ destruct (open_list g cap files F fds args s1 i) as [x ?]. cbn [fst] in A. subst x. reflexivity. }
  destruct A as (s2 & E2 & Q2 & H2 & N2). rewrite E2. cbn [open_list_with]. rewrite Q2.
  set (l := all_sets (es ++ gs)). set (s := line g l).
  assert (NS : norm s2 = s).
  { unfold s, l, line, all_sets. rewrite N2, N1, flat_map_app, fold_left_app. reflexivity. }
  assert (T : Forall (typed g) l) by (apply all_typed; apply Forall_app; split; assumption).
  destruct (line_vals g l T) as [V U].
  replace (s_ok s2) with (s_ok s) by (rewrite <- NS; reflexivity).
  replace (s_used s2) with (used_list g l) by (rewrite <- U; fold s; rewrite <- NS; reflexivity).
  replace (s_vals s2) with (meaning g (es ++ gs)) by (unfold meaning; fold l; rewrite <- V; fold s; rewrite <- NS; reflexivity).
  replace (s_past s2) with (s_past s) by (rewrite <- NS; reflexivity).
  rewrite Bool.andb_true_r. reflexivity.
Qed.

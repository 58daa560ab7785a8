(** Proofs about the command line parser: the two tables, any command line. *)
From Coq Require Import ZArith String Lia.
From Verif Require Import Bytes Bytes_proofs Control Misc Misc_proofs Capture Startup Argv SpecArgv Argv_proofs Argv2_proofs.
Import ListNotations.
Local Open Scope N_scope.

(** ** The tables *)
Fixpoint distinct_b (l : list byte) : bool :=
  match l with
  | [] => true
  | c :: r => (byte_eqb c x00 || negb (existsb (byte_eqb c) r)) && distinct_b r
  end.
Definition good_b (g : grid) : bool :=
  distinct_b (map o_short g) &&
  forallb (fun o => negb (existsb (byte_eqb (o_short o)) (x3d :: number_chars)) &&
                    match o_long o with Some n => negb (existsb (byte_eqb x3d) n) | None => true end) g.
Lemma existsb_in c l : existsb (byte_eqb c) l = true <-> In c l.
Proof.
  rewrite existsb_exists. split; [intros (x & I & E); apply byte_eqb_eq in E; subst; exact I|].
  intro I. exists c. split; [exact I|apply byte_eqb_refl].
Qed.
Lemma distinct_lt : forall l i j c, distinct_b l = true -> (i < j)%nat -> nth_error l i = Some c -> nth_error l j = Some c -> c = x00.
Proof.
  induction l as [|d l IH]; intros [|i] [|j] c D L N M; try discriminate; try lia; cbn [distinct_b] in D;
    apply Bool.andb_true_iff in D as [D1 D2]; cbn [nth_error] in N, M.
  - injection N as ->. apply Bool.orb_true_iff in D1 as [D1|D1]; [apply byte_eqb_eq in D1; exact D1|].
    apply Bool.negb_true_iff in D1. exfalso. rewrite (proj2 (existsb_in c l) (nth_error_In _ _ M)) in D1. discriminate.
  - apply (IH i j c D2); [lia|assumption..].
Qed.
Lemma good_b_good g : good_b g = true -> good_grid g.
Proof.
  unfold good_b. intro H. apply Bool.andb_true_iff in H as [D F]. rewrite forallb_forall in F.
  assert (W : forall i o, nth_error g i = Some o -> ~ In (o_short o) (x3d :: number_chars) /\ match o_long o with Some n => ~ In x3d n | None => True end).
  { intros i o N. specialize (F o (nth_error_In _ _ N)). apply Bool.andb_true_iff in F as [F1 F2]. split.
    - intro I. apply existsb_in in I. rewrite I in F1. discriminate.
    - destruct (o_long o); [|exact I]. intro I. apply existsb_in in I. rewrite I in F2. discriminate. }
  constructor.
  - intros i j o o' N N' E NZ. pose proof (map_nth_error o_short i g N) as M. pose proof (map_nth_error o_short j g N') as M'.
    rewrite <- E in M'. destruct (Nat.lt_trichotomy i j) as [L|[L|L]]; [|exact L|].
    + exfalso. exact (NZ (distinct_lt _ _ _ _ D L M M')).
    + exfalso. exact (NZ (distinct_lt _ _ _ _ D L M' M)).
  - intros i o N. exact (proj1 (W i o N)).
  - intros i o n N L. pose proof (proj2 (W i o N)) as X. rewrite L in X. exact X.
Qed.
Lemma capture_good : good_grid capture_grid.
Proof. apply good_b_good. vm_compute. reflexivity. Qed.
Lemma replay_good : good_grid replay_grid.
Proof. apply good_b_good. vm_compute. reflexivity. Qed.

(** ** fstrm_capture: a good command line *)
Lemma sep_capture i : sep_at capture_grid i = false.
Proof. do 12 (destruct i as [|i]; [reflexivity|]). unfold sep_at. destruct i; reflexivity. Qed.
Lemma or_capture s i : check_or capture_grid s i = false.
Proof.
  unfold check_or. apply Bool.orb_false_iff. change (List.length capture_grid) with 12%nat. generalize 12%nat as f. intro f. split.
  - destruct f; [reflexivity|]. destruct i as [|[|i]]; cbn [or_below]; [reflexivity..|]. rewrite sep_capture. reflexivity.
  - destruct f; [reflexivity|]. cbn [or_above]. rewrite sep_capture. destruct (_ <=? _)%nat; reflexivity.
Qed.
Lemma line_ok_step g l x : Forall (typed g) (l ++ [x]) -> s_ok (line g (l ++ [x])) = s_ok (mark g (fst x) (line g l)).
Proof.
  intro F. apply Forall_app in F as [F FX]. apply Forall_inv in FX. destruct (line_vals g l F) as [V U].
  destruct (typed_nth g x FX) as [o N]. destruct x as [i v]. rewrite line_snoc.
  assert (O : nth_error (s_vals (line g l)) i = Some (meant o i l)).
  { rewrite V, meant_from_nth. cbn [fst] in N. rewrite N. reflexivity. }
  exact (proj2 (give_typed g (i, v) (line g l) _ o _ N O (meant_same g o i l v N FX))).
Qed.
Lemma capture_line_ok l : Forall (typed capture_grid) l -> s_ok (line capture_grid l) = true.
Proof.
  induction l as [|x l IH] using rev_ind; intro F; [reflexivity|]. rewrite (line_ok_step _ _ _ F).
  apply Forall_app in F as [F _]. unfold mark. cbn [s_ok]. rewrite or_capture, (IH F). reflexivity.
Qed.
Lemma capture_line files fuel es gs : Forall (proper capture_grid) es -> Forall (proper capture_grid) gs ->
  argv_process capture_grid files fuel (flat_map (words capture_grid) es) (flat_map (words capture_grid) gs) =
  Parsed (meaning capture_grid (es ++ gs)) (s_past (line capture_grid (all_sets (es ++ gs)))).
Proof.
  intros FE FG. rewrite (process_line capture_grid files fuel es gs capture_good FE FG).
  rewrite capture_line_ok by (apply all_typed; apply Forall_app; split; assumption). reflexivity.
Qed.
Lemma capture_cmd_of l : capture_cmd (meaning capture_grid l) = cmd_of (all_sets l).
Proof. reflexivity. Qed.

(** ** fstrm_replay: a good command line *)
Lemma used_at g l i s : s_used s = used_list g l -> (i < List.length g)%nat -> used s i = (0 <? times i l).
Proof.
  intros U L. unfold used. rewrite U, nth_nth_error, used_list_nth, (proj2 (Nat.ltb_lt _ _) L). reflexivity.
Qed.
Lemma typed_replay x : typed replay_grid x -> In (fst x) [0; 1; 2; 4; 5; 6]%nat.
Proof.
  intros [[(o & N & K) _]|[(o & N & K) _]]; destruct x as [i v]; cbn [fst] in *;
    do 7 (destruct i as [|i]; [first [cbn; tauto | injection N as <-; destruct K; discriminate]|]); destruct i; discriminate.
Qed.
Lemma check_or_replay s i : In i [0; 1; 2; 4; 5; 6]%nat ->
  check_or replay_grid s i = match i with 2%nat => used s 4 | 4%nat => used s 2 | _ => false end.
Proof.
  intros I. assert (B : forall b : bool, (if b then true else false) = b) by (intros []; reflexivity).
  repeat (destruct I as [<-|I]); [..|contradiction]; unfold check_or; cbn -[used]; rewrite ?B; try reflexivity; destruct (used s _); reflexivity.
Qed.
Lemma replay_line_ok l : Forall (typed replay_grid) l ->
  s_ok (line replay_grid l) = negb ((0 <? times 2 l) && (0 <? times 4 l)).
Proof.
  induction l as [|x l IH] using rev_ind; intro F; [reflexivity|]. rewrite (line_ok_step _ _ _ F).
  apply Forall_app in F as [F FX]. apply Forall_inv in FX. destruct (line_vals _ l F) as [_ U].
  pose proof (typed_replay x FX) as I. specialize (IH F). destruct x as [i v]. cbn [fst] in *. unfold mark. cbn [s_ok].
  rewrite check_or_replay by exact I. rewrite IH, !times_app.
  assert (P : forall a b, (0 <? a + b) = (0 <? a) || (0 <? b)).
  { intros a b. destruct a, b; reflexivity. }
  rewrite !P. unfold used. cbn [s_used]. rewrite !set_nth_nth, U. rewrite !nth_nth_error, !used_list_nth.
  repeat (destruct I as [<-|I]); [..|contradiction]; cbn -[times]; cbn [times Nat.eqb];
    destruct (0 <? times 2 l), (0 <? times 4 l); reflexivity.
Qed.
Lemma replay_checks l : check_mand replay_grid (used_list replay_grid l) && check_xor replay_grid (used_list replay_grid l) false None =
  (0 <? times 1 l) && (0 <? times 6 l) && ((0 <? times 2 l) || (0 <? times 4 l)).
Proof.
  unfold used_list. cbn -[times]. destruct (0 <? times 1 l), (0 <? times 6 l), (0 <? times 2 l), (0 <? times 4 l); reflexivity.
Qed.
Lemma given_bool i l : (0 <? times i l) = true <-> mentioned i l.
Proof. rewrite N.ltb_lt. apply times_pos. Qed.
Definition replay_complete (l : list (nat * option bytes)) : Prop :=
  mentioned 1 l /\ mentioned 6 l /\ (mentioned 2 l <-> ~ mentioned 4 l).
Lemma replay_line files fuel es gs : Forall (proper replay_grid) es -> Forall (proper replay_grid) gs ->
  let l := all_sets (es ++ gs) in
  let r := argv_process replay_grid files fuel (flat_map (words replay_grid) es) (flat_map (words replay_grid) gs) in
  (replay_complete l /\ exists past, r = Parsed (meaning replay_grid (es ++ gs)) past) \/ (~ replay_complete l /\ r = Exited 1).
Proof.
  intros FE FG l r. unfold r. rewrite (process_line replay_grid files fuel es gs replay_good FE FG). fold l.
  rewrite replay_line_ok by (apply all_typed; apply Forall_app; split; assumption).
  rewrite <- Bool.andb_assoc, replay_checks. unfold replay_complete.
  pose proof (given_bool 1 l) as B1. pose proof (given_bool 6 l) as B6. pose proof (given_bool 2 l) as B2. pose proof (given_bool 4 l) as B4.
  destruct (0 <? times 1 l), (0 <? times 6 l), (0 <? times 2 l), (0 <? times 4 l); cbn [andb orb negb];
    first [left; split; [intuition discriminate|eexists; reflexivity] | right; split; [intuition discriminate|reflexivity]].
Qed.

(** ** Numbers *)
Lemma digit_to_N d : d < 10 -> to_N (digit d) = 48 + d.
Proof.
  intro H. assert (C : d = 0 \/ d = 1 \/ d = 2 \/ d = 3 \/ d = 4 \/ d = 5 \/ d = 6 \/ d = 7 \/ d = 8 \/ d = 9) by lia.
  repeat (destruct C as [->|C]; [reflexivity|]). subst. reflexivity.
Qed.
Lemma dec_digit_digit d : d < 10 -> dec_digit (digit d) = Some d.
Proof.
  intro H. unfold dec_digit. rewrite (digit_to_N d H).
  rewrite (proj2 (N.leb_le 48 (48 + d))), (proj2 (N.leb_le (48 + d) 57)) by lia. cbn [andb]. f_equal. lia.
Qed.
Lemma dec_value_digits ds : Forall (fun d => d < 10) ds -> forall acc, dec_value acc (map digit ds) = acc * 10 ^ lenN ds + number_of ds.
Proof.
  induction 1 as [|d ds D _ IH]; intro acc; cbn [map dec_value number_of]; [unfold lenN; cbn; lia|].
  rewrite (dec_digit_digit d D), IH. unfold lenN. cbn [List.length]. rewrite Nat2N.inj_succ, N.pow_succ_r'. lia.
Qed.
Lemma to_int_id z : int_range z -> to_int z = z.
Proof. unfold int_range, to_int. intro H. rewrite Z.mod_small by lia. lia. Qed.
Lemma digit_space d : d < 10 -> isspace (digit d) = false.
Proof. intro H. unfold isspace. rewrite (digit_to_N d H). rewrite (proj2 (N.eqb_neq _ _)) by lia. rewrite (proj2 (N.leb_gt _ 13)) by lia. rewrite Bool.andb_false_r. reflexivity. Qed.
Lemma atoi_digits ds (neg : bool) : ds <> [] -> Forall (fun d => d < 10) ds ->
  let z := (if neg then - Z.of_N (number_of ds) else Z.of_N (number_of ds))%Z in
  int_range z -> atoi ((if neg then [x2d] else []) ++ map digit ds) = z.
Proof.
  intros NE F z R. destruct ds as [|d ds]; [congruence|]. pose proof (Forall_inv F) as D.
  assert (NP : forall c r, (to_N c < 48) -> is_prefix [c] (digit d :: r) = false).
  { intros c r C. cbn [is_prefix]. rewrite (proj2 (byte_eqb_neq c (digit d))); [reflexivity|].
    intro E. apply (f_equal to_N) in E. rewrite (digit_to_N d D) in E. lia. }
  assert (V : Z.of_N (dec_value 0 (map digit (d :: ds))) = Z.of_N (number_of (d :: ds))).
  { rewrite (dec_value_digits _ F). reflexivity. }
  subst z. rewrite <- V in R |- *. unfold atoi. destruct neg; cbn [app]; pose proof R as R'; unfold int_range in R'.
  - cbn [skip_space]. change (isspace x2d) with false. cbv iota. change (is_prefix (txt "-") (x2d :: map digit (d :: ds))) with true.
    cbn [orb skipn]. cbv zeta. rewrite Z.max_r by lia. apply to_int_id. exact R.
  - cbn [map skip_space]. rewrite (digit_space d D). change (digit d :: map digit ds) with (map digit (d :: ds)).
    change (txt "-") with [x2d]. change (txt "+") with [x2b]. cbn [map]. rewrite !NP by reflexivity. cbn [orb].
    change (digit d :: map digit ds) with (map digit (d :: ds)). rewrite Z.min_r by lia. apply to_int_id. exact R.
Qed.

(** The number a text stands for. *)
From Coq Require Import ZArith Lia String.
From Verif Require Import Bytes Bytes_proofs Misc Misc_proofs Argv SpecArgv SpecArgvNum Argv_proofs Argv3_proofs.
Import ListNotations.
Local Open Scope N_scope.

Lemma byte_eqb_spec a b : reflect (a = b) (byte_eqb a b).
Proof. apply iff_reflect. symmetry. apply byte_eqb_eq. Qed.
Lemma isspace_blank b : isspace b = true <-> blank b.
Proof. unfold blank. destruct b; vm_compute; intuition (try discriminate; auto 10). Qed.
Lemma dec_digit_is b : (exists d, dec_digit b = Some d) <-> is_digit b.
Proof.
  split.
  - intros (d & E). unfold dec_digit in E. destruct ((48 <=? to_N b) && (to_N b <=? 57)) eqn:C; [|discriminate]. injection E as <-.
    apply andb_prop in C as [C1 C2]. apply N.leb_le in C1, C2. exists (to_N b - 48). split; [lia|]. unfold digit. replace (48 + (to_N b - 48)) with (to_N b) by lia.
    destruct b; reflexivity.
  - intros (d & D & ->). exists d. now apply dec_digit_digit.
Qed.
Lemma skip_blanks bl t : Forall blank bl -> skip_space (bl ++ t) = skip_space t.
Proof. induction 1 as [|b bl B F IH]; [reflexivity|]. cbn [app skip_space]. rewrite (proj2 (isspace_blank b) B). exact IH. Qed.
Lemma skip_none t : ~ starts_with blank t -> skip_space t = t.
Proof. destruct t as [|b t]; [reflexivity|]. cbn [starts_with skip_space]. intro N. destruct (isspace b) eqn:E; [|reflexivity]. apply isspace_blank in E. contradiction. Qed.
Lemma digits_then ds rest : Forall (fun d => d < 10) ds -> ~ starts_with is_digit rest ->
  forall acc, dec_value acc (map digit ds ++ rest) = acc * 10 ^ lenN ds + number_of ds.
Proof.
  induction 1 as [|d ds D _ IH]; intros N acc; cbn [map app dec_value number_of].
  - unfold lenN. cbn [List.length]. destruct rest as [|b rest]; [cbn; lia|]. cbn [dec_value starts_with] in *.
    destruct (dec_digit b) eqn:E; [|cbn; lia]. exfalso. apply N. apply dec_digit_is. eauto.
  - rewrite (dec_digit_digit d D), IH by exact N. unfold lenN. cbn [List.length]. rewrite Nat2N.inj_succ, N.pow_succ_r'. lia.
Qed.
Lemma digit_no_sign d : d < 10 -> ~ (blank (digit d) \/ digit d = x2b \/ digit d = x2d).
Proof.
  intros D [B|[E|E]].
  - apply isspace_blank in B. rewrite (digit_space d D) in B. discriminate.
  - apply (f_equal to_N) in E. rewrite (digit_to_N d D) in E. change (to_N x2b) with 43 in E. lia.
  - apply (f_equal to_N) in E. rewrite (digit_to_N d D) in E. change (to_N x2d) with 45 in E. lia.
Qed.
Lemma to_int_wraps z : wraps_to z (to_int z).
Proof.
  unfold wraps_to, int_range, to_int. pose proof (Z.mod_pos_bound (z + 2 ^ 31) (2 ^ 32) ltac:(lia)).
  pose proof (Z.div_mod (z + 2 ^ 31) (2 ^ 32) ltac:(lia)). split; [lia|]. exists ((z + 2 ^ 31) / 2 ^ 32)%Z. lia.
Qed.
Lemma atoi_reads t s ds rest : reads_as t s ds rest -> wraps_to (clamped (signed s (number_of ds))) (atoi t).
Proof.
  intros (bl & B & F & -> & N & NS). unfold atoi. rewrite (skip_blanks _ _ B). change (txt "-") with [x2d]. change (txt "+") with [x2b].
  assert (V : dec_value 0 (map digit ds ++ rest) = number_of ds) by (rewrite digits_then by assumption; lia).
  destruct s; cbn [sign_text app signed].
  - rewrite skip_none by (cbn [starts_with]; intro X; apply isspace_blank in X; discriminate). cbn [is_prefix]. change (byte_eqb x2d x2b) with false. change (byte_eqb x2b x2b) with true.
    cbn [andb orb skipn]. rewrite V. unfold clamped. rewrite Z.max_r by lia. apply to_int_wraps.
  - rewrite skip_none by (cbn [starts_with]; intro X; apply isspace_blank in X; discriminate). cbn [is_prefix]. change (byte_eqb x2d x2d) with true.
    cbn [andb orb skipn]. rewrite V. unfold clamped. rewrite Z.min_r by lia. apply to_int_wraps.
  - assert (X : ~ starts_with (fun b => blank b \/ b = x2b \/ b = x2d) (map digit ds ++ rest)).
    { destruct ds as [|d ds]; [exact (NS eq_refl eq_refl)|]. exact (digit_no_sign d (Forall_inv F)). }
    assert (Y : skip_space (map digit ds ++ rest) = map digit ds ++ rest).
    { apply skip_none. intro Z. apply X. destruct (map digit ds ++ rest); cbn [starts_with] in *; auto. }
    assert (P : forall c, c = x2b \/ c = x2d -> is_prefix [c] (map digit ds ++ rest) = false).
    { intros c C. destruct (map digit ds ++ rest) as [|b l]; [reflexivity|]. cbn [is_prefix starts_with] in *. destruct (byte_eqb_spec c b) as [E|E]; [|reflexivity].
      exfalso. apply X. subst. tauto. }
    rewrite Y. rewrite !P by tauto. cbn [orb]. rewrite V. unfold clamped. rewrite Z.max_r by lia. apply to_int_wraps.
Qed.
Lemma split_blanks t : exists bl u, t = bl ++ u /\ Forall blank bl /\ ~ starts_with blank u.
Proof.
  induction t as [|b t (bl & u & -> & F & N)]; [exists [], []; repeat split; [constructor|intros []]|].
  destruct (isspace b) eqn:E.
  - exists (b :: bl), u. repeat split; [constructor; [now apply isspace_blank|exact F]|exact N].
  - exists [], (b :: bl ++ u). repeat split; [constructor|]. cbn [starts_with]. intro X. apply isspace_blank in X. congruence.
Qed.
Lemma split_digits t : exists ds u, t = map digit ds ++ u /\ Forall (fun d => d < 10) ds /\ ~ starts_with is_digit u.
Proof.
  induction t as [|b t (ds & u & -> & F & N)]; [exists [], []; repeat split; [constructor|intros []]|].
  destruct (dec_digit b) as [d|] eqn:E.
  - destruct (proj1 (dec_digit_is b) (ex_intro _ d E)) as (d' & D & ->). exists (d' :: ds), u. repeat split; [constructor; assumption|exact N].
  - exists [], (b :: map digit ds ++ u). repeat split; [constructor|]. cbn [starts_with]. intro X. apply dec_digit_is in X as (d & X). congruence.
Qed.
Lemma every_reads t : exists s ds rest, reads_as t s ds rest.
Proof.
  destruct (split_blanks t) as (bl & u & -> & B & N).
  assert (C : (exists v, u = x2b :: v) \/ (exists v, u = x2d :: v) \/ ~ starts_with (fun b => b = x2b \/ b = x2d) u).
  { destruct u as [|b u]; [right; right; intros []|]. destruct (byte_eqb_spec b x2b) as [->|N1]; [left; eauto|]. destruct (byte_eqb_spec b x2d) as [->|N2]; [right; left; eauto|].
    right. right. intros [?|?]; contradiction. }
  destruct C as [(v & ->)|[(v & ->)|C]].
  - destruct (split_digits v) as (ds & w & -> & F & NW). exists Plus, ds, w, bl. repeat split; try assumption; discriminate.
  - destruct (split_digits v) as (ds & w & -> & F & NW). exists Minus, ds, w, bl. repeat split; try assumption; discriminate.
  - destruct (split_digits u) as (ds & w & -> & F & NW). exists Unsigned, ds, w, bl. repeat split; try assumption.
    intros _ ->. cbn [map app] in *. destruct w; [intros []|]. cbn [starts_with] in *. tauto.
Qed.
Lemma numbers_exactly t : exists s ds rest, reads_as t s ds rest /\ wraps_to (clamped (signed s (number_of ds))) (atoi t).
Proof. destruct (every_reads t) as (s & ds & rest & R). exists s, ds, rest. split; [exact R|]. exact (atoi_reads _ _ _ _ R). Qed.
Lemma wraps_unique z i j : wraps_to z i -> wraps_to z j -> i = j.
Proof. unfold wraps_to, int_range. intros (A & k & E) (B & l & F). lia. Qed.
Lemma number_only t s ds rest i : reads_as t s ds rest -> (wraps_to (clamped (signed s (number_of ds))) i <-> atoi t = i).
Proof.
  intro R. apply atoi_reads in R. split; [|intros <-; exact R]. intro W. exact (wraps_unique _ _ _ R W).
Qed.
Lemma no_digit b : dec_digit b = None -> ~ is_digit b.
Proof. intros E X. apply dec_digit_is in X as (d & X). congruence. Qed.

From Verif Require Import Bytes Spec.
Ltac Zify.zify_post_hook ::= Z.div_mod_to_equations.
Local Open Scope N_scope.

Lemma to_N_lt b : to_N b < 256.
Proof. pose proof (Strings.Byte.to_N_bounded b). lia. Qed.

Lemma to_N_byte_of_N n : to_N (byte_of_N n) = n mod 256.
Proof.
  unfold byte_of_N.
  destruct (Strings.Byte.of_N (n mod 256)) eqn:E.
  - apply Strings.Byte.to_of_N in E. exact E.
  - apply Strings.Byte.of_N_None_iff in E. lia.
Qed.

Lemma byte_of_N_to_N b : byte_of_N (to_N b) = b.
Proof.
  unfold byte_of_N. rewrite N.mod_small by apply to_N_lt.
  rewrite Strings.Byte.of_to_N. reflexivity.
Qed.

Lemma to_N_inj a b : to_N a = to_N b -> a = b.
Proof. intro H. rewrite <- (byte_of_N_to_N a), H. apply byte_of_N_to_N. Qed.

Lemma byte_of_N_ext a b : a mod 256 = b mod 256 -> byte_of_N a = byte_of_N b.
Proof. intro H. apply to_N_inj. rewrite !to_N_byte_of_N. exact H. Qed.

Lemma byte_of_N_eq n b : n mod 256 = to_N b -> byte_of_N n = b.
Proof. intro H. apply to_N_inj. rewrite to_N_byte_of_N. exact H. Qed.

Lemma lenN_app {A} (a b : list A) : lenN (a ++ b) = lenN a + lenN b.
Proof. unfold lenN. rewrite app_length. lia. Qed.
Lemma lenN_cons {A} (x : A) l : lenN (x :: l) = 1 + lenN l.
Proof. unfold lenN. cbn [length]. lia. Qed.
Lemma lenN_nil {A} : lenN (@nil A) = 0.
Proof. reflexivity. Qed.
Lemma lenN_firstn {A} n (l : list A) : lenN (firstn n l) = N.min (N.of_nat n) (lenN l).
Proof. unfold lenN. rewrite firstn_length. lia. Qed.
Lemma lenN_skipn {A} n (l : list A) : lenN (skipn n l) = lenN l - N.of_nat n.
Proof. unfold lenN. rewrite skipn_length. lia. Qed.
Lemma lenN_0 {A} (l : list A) : lenN l = 0 -> l = [].
Proof. unfold lenN. destruct l; cbn; [easy|lia]. Qed.
Lemma lenN_length {A} (l : list A) : N.to_nat (lenN l) = length l.
Proof. unfold lenN. lia. Qed.

Lemma lenN_be32 n : lenN (be32 n) = 4.
Proof. reflexivity. Qed.
Lemma length_be32 n : length (be32 n) = 4%nat.
Proof. reflexivity. Qed.

Lemma htonl_be32 v : htonl_bytes v = be32 v.
Proof. unfold htonl_bytes, be32. rewrite !N.shiftr_div_pow2. reflexivity. Qed.

Lemma lor_shiftl_add a b n : b < 2 ^ n -> N.lor (N.shiftl a n) b = a * 2 ^ n + b.
Proof.
  intro H. rewrite <- N.lxor_lor.
  - rewrite <- N.add_nocarry_lxor.
    + rewrite N.shiftl_mul_pow2. reflexivity.
    + apply N.bits_inj. intro i. rewrite N.land_spec, N.bits_0.
      destruct (N.lt_ge_cases i n).
      * rewrite N.shiftl_spec_low by assumption. reflexivity.
      * rewrite (N.testbit_eqb b i). rewrite N.div_small; [cbn; apply andb_false_r|].
        eapply N.lt_le_trans; [exact H|]. apply N.pow_le_mono_r; lia.
  - apply N.bits_inj. intro i. rewrite N.land_spec, N.bits_0.
    destruct (N.lt_ge_cases i n).
    + rewrite N.shiftl_spec_low by assumption. reflexivity.
    + rewrite (N.testbit_eqb b i). rewrite N.div_small; [cbn; apply andb_false_r|].
      eapply N.lt_le_trans; [exact H|]. apply N.pow_le_mono_r; lia.
Qed.

Lemma ntohl_val b0 b1 b2 b3 r :
  ntohl_bytes (b0 :: b1 :: b2 :: b3 :: r) =
  to_N b0 * 2 ^ 24 + (to_N b1 * 2 ^ 16 + (to_N b2 * 2 ^ 8 + to_N b3)).
Proof.
  unfold ntohl_bytes.
  pose proof (to_N_lt b0); pose proof (to_N_lt b1); pose proof (to_N_lt b2); pose proof (to_N_lt b3).
  change (2 ^ 24) with 16777216; change (2 ^ 16) with 65536; change (2^8) with 256.
  rewrite (lor_shiftl_add (to_N b2)) by (change (2^8) with 256; lia).
  rewrite (lor_shiftl_add (to_N b1)) by (change (2^8) with 256; change (2^16) with 65536; lia).
  rewrite (lor_shiftl_add (to_N b0)) by (change (2^8) with 256; change (2^16) with 65536; change (2^24) with 16777216; lia).
  reflexivity.
Qed.

Lemma ntohl_be_value b : length b = 4%nat -> ntohl_bytes b = be_value b.
Proof.
  destruct b as [|b0 [|b1 [|b2 [|b3 [|]]]]]; try discriminate. intros _.
  rewrite ntohl_val. unfold be_value. cbn [fold_left].
  change (2 ^ 24) with 16777216; change (2 ^ 16) with 65536; change (2^8) with 256. lia.
Qed.

Lemma ntohl_be32 v r : ntohl_bytes (be32 v ++ r) = v mod 2 ^ 32.
Proof.
  unfold be32. cbn [app]. rewrite ntohl_val, !to_N_byte_of_N.
  change (2 ^ 24) with 16777216; change (2 ^ 16) with 65536; change (2^8) with 256; change (2^32) with 4294967296.
  lia.
Qed.

Lemma ntohl_be32_small v r : v < 2 ^ 32 -> ntohl_bytes (be32 v ++ r) = v.
Proof. intro. rewrite ntohl_be32. apply N.mod_small. assumption. Qed.

Lemma ntohl_lt b : ntohl_bytes b < 2 ^ 32.
Proof.
  change (2^32) with 4294967296.
  destruct b as [|b0 [|b1 [|b2 [|b3 r]]]]; try (cbn; lia).
  rewrite ntohl_val.
  pose proof (to_N_lt b0); pose proof (to_N_lt b1); pose proof (to_N_lt b2); pose proof (to_N_lt b3).
  change (2 ^ 24) with 16777216; change (2 ^ 16) with 65536; change (2^8) with 256.
  lia.
Qed.

Lemma be32_ntohl b : (4 <= length b)%nat -> be32 (ntohl_bytes b) = firstn 4 b.
Proof.
  destruct b as [|b0 [|b1 [|b2 [|b3 r]]]]; cbn [length]; try lia. intros _.
  rewrite ntohl_val. unfold be32. cbn [firstn].
  pose proof (to_N_lt b0); pose proof (to_N_lt b1); pose proof (to_N_lt b2); pose proof (to_N_lt b3).
  change (2 ^ 24) with 16777216; change (2 ^ 16) with 65536; change (2^8) with 256.
  f_equal; [|f_equal; [|f_equal; [|f_equal]]]; apply byte_of_N_eq; lia.
Qed.

Lemma be32_inj a b : a < 2 ^ 32 -> b < 2 ^ 32 -> be32 a = be32 b -> a = b.
Proof.
  intros Ha Hb H. rewrite <- (ntohl_be32_small a []), <- (ntohl_be32_small b []) by assumption.
  rewrite H. reflexivity.
Qed.

Lemma be32_mod v : be32 (v mod 2 ^ 32) = be32 v.
Proof.
  unfold be32. change (2 ^ 24) with 16777216; change (2 ^ 16) with 65536; change (2^8) with 256; change (2^32) with 4294967296.
  f_equal; [|f_equal; [|f_equal; [|f_equal]]]; apply byte_of_N_ext; lia.
Qed.

Lemma bytes_eqb_eq a b : bytes_eqb a b = true <-> a = b.
Proof.
  revert b. induction a as [|x a IH]; intros [|y b]; cbn; try easy.
  rewrite andb_true_iff, IH. unfold byte_eqb. rewrite N.eqb_eq. split.
  - intros [H ->]. apply to_N_inj in H. subst; reflexivity.
  - intros [= -> ->]. auto.
Qed.
Lemma bytes_eqb_refl a : bytes_eqb a a = true.
Proof. apply bytes_eqb_eq. reflexivity. Qed.
Lemma bytes_eqb_neq a b : bytes_eqb a b = false <-> a <> b.
Proof.
  rewrite <- bytes_eqb_eq. destruct (bytes_eqb a b); split; congruence.
Qed.
Lemma bytes_eq_dec (a b : bytes) : {a = b} + {a <> b}.
Proof.
  destruct (bytes_eqb a b) eqn:E; [left; apply bytes_eqb_eq; assumption|right; apply bytes_eqb_neq; assumption].
Qed.

(** ** List helpers *)
Lemma firstn_app_exact {A} (a b : list A) n : n = length a -> firstn n (a ++ b) = a.
Proof. intros ->. rewrite firstn_app, firstn_all, Nat.sub_diag, firstn_O. apply app_nil_r. Qed.
Lemma skipn_app_exact {A} (a b : list A) n : n = length a -> skipn n (a ++ b) = b.
Proof. intros ->. rewrite skipn_app, skipn_all, Nat.sub_diag. reflexivity. Qed.

Lemma split_at {A} (l : list A) n : (n <= length l)%nat ->
  exists a b, l = a ++ b /\ length a = n.
Proof.
  intro H. exists (firstn n l), (skipn n l). rewrite firstn_skipn. split; [reflexivity|].
  rewrite firstn_length. lia.
Qed.

Lemma app_eq_len {A} (a b c d : list A) :
  a ++ b = c ++ d -> length a = length c -> a = c /\ b = d.
Proof.
  revert c. induction a as [|x a IH]; intros [|y c] H L; try discriminate; auto.
  cbn in *. injection H as -> H. injection L as L. destruct (IH _ H L). subst; auto.
Qed.

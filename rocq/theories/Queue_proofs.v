(** Index arithmetic of the queues. *)
From Verif Require Import Bytes Bytes_proofs Queue SpecQueue.
Local Open Scope N_scope.

Lemma queue_init_spec num : num < 2 ^ 32 -> queue_init_ok num = true <-> queue_size num.
Proof.
  intro B. unfold queue_init_ok, queue_size. rewrite negb_true_iff, orb_false_iff, negb_false_iff.
  split.
  - intros [H1 H2]. assert (2 <= num) by lia. apply N.eqb_eq in H2.
    assert (W : wrap32 (num + 2 ^ 32 - 1) = num - 1).
    { unfold wrap32. replace (num + 2 ^ 32 - 1) with ((num - 1) + 1 * 2 ^ 32) by lia. rewrite N.mod_add by lia. apply N.mod_small. lia. }
    rewrite W in H2. exists (N.log2 num).
    pose proof (N.log2_spec num ltac:(lia)) as [L1 L2].
    assert (K1 : 1 <= N.log2 num) by (change 1 with (N.log2 2); apply N.log2_le_mono; lia).
    assert (K2 : N.log2 num <= 31) by (change 31 with (N.log2 (2 ^ 32 - 1)); apply N.log2_le_mono; lia).
    split; [lia|]. destruct (N.eq_dec num (2 ^ N.log2 num)) as [E|E]; [exact E|]. exfalso.
    assert (LP : N.log2 (num - 1) = N.log2 num).
    { apply N.log2_unique; [lia|]. lia. }
    assert (T1 : N.testbit (num - 1) (N.log2 num) = true) by (rewrite <- LP; apply N.bit_log2; lia).
    assert (T2 : N.testbit num (N.log2 num) = true) by (apply N.bit_log2; lia).
    assert (T : N.testbit (N.land (num - 1) num) (N.log2 num) = true) by (rewrite N.land_spec, T1, T2; reflexivity).
    rewrite H2, N.bits_0 in T. discriminate.
  - intros (k & K & ->). assert (P : 2 <= 2 ^ k) by (change 2 with (2 ^ 1) at 1; apply N.pow_le_mono_r; lia).
    split; [lia|]. apply N.eqb_eq.
    assert (W : wrap32 (2 ^ k + 2 ^ 32 - 1) = N.ones k).
    { rewrite N.ones_equiv. unfold wrap32. replace (2 ^ k + 2 ^ 32 - 1) with ((2 ^ k - 1) + 1 * 2 ^ 32) by lia. rewrite N.mod_add by lia.
      rewrite N.mod_small by lia. lia. }
    rewrite W, N.land_comm, N.land_ones. apply N.mod_same. lia.
Qed.

Section Index.
Variable num : N.
Hypothesis QS : queue_size num.
Let nn := N.to_nat num.

Lemma num_bounds : 2 <= num <= 2 ^ 31.
Proof.
  destruct QS as (k & K & ->). split.
  - change 2 with (2 ^ 1) at 1. apply N.pow_le_mono_r; lia.
  - apply N.pow_le_mono_r; lia.
Qed.

Lemma num_divides : exists m, 2 ^ 32 = num * m /\ 2 <= m.
Proof.
  destruct QS as (k & K & ->). exists (2 ^ (32 - k)). split.
  - rewrite <- N.pow_add_r. f_equal. lia.
  - change 2 with (2 ^ 1) at 1. apply N.pow_le_mono_r; lia.
Qed.

Lemma mask_eq x : N.land x (wrap32 (num + 2 ^ 32 - 1)) = x mod num.
Proof.
  pose proof num_bounds as B. destruct QS as (k & K & E).
  assert (W : wrap32 (num + 2 ^ 32 - 1) = N.ones k).
  { rewrite N.ones_equiv, <- E. unfold wrap32. replace (num + 2 ^ 32 - 1) with ((num - 1) + 1 * 2 ^ 32) by lia. rewrite N.mod_add by lia.
    rewrite N.mod_small by lia. lia. }
  rewrite W, N.land_ones, E. reflexivity.
Qed.

(** The index of the [j]-th element ever inserted. *)
Definition idx (j : nat) : N := N.of_nat j mod num.

Lemma idx_lt j : idx j < num.
Proof. pose proof num_bounds. apply N.mod_lt. lia. Qed.

Lemma idx_split j : exists a, N.of_nat j = num * a + idx j.
Proof. pose proof num_bounds. exists (N.of_nat j / num). unfold idx. apply N.div_mod. lia. Qed.

Lemma mod_of a b : b < num -> (num * a + b) mod num = b.
Proof. intro H. rewrite N.mul_comm, N.add_comm, N.mod_add by lia. apply N.mod_small. exact H. Qed.

Lemma q_next_idx j : q_next (idx j) num = idx (S j).
Proof.
  pose proof num_bounds as B. pose proof (idx_lt j) as L. destruct (idx_split j) as (a & E).
  unfold q_next. rewrite mask_eq. unfold wrap32. rewrite (N.mod_small (idx j + 1)) by lia.
  unfold idx at 2. replace (N.of_nat (S j)) with ((idx j + 1) + a * num) by lia. rewrite N.mod_add by lia. reflexivity.
Qed.

Lemma diff_cases i j : (i <= j)%nat -> (j < i + nn)%nat ->
  (idx i <= idx j /\ N.of_nat (j - i) = idx j - idx i) \/ (idx j < idx i /\ N.of_nat (j - i) = num + idx j - idx i).
Proof.
  intros L1 L2. pose proof (idx_lt i). pose proof (idx_lt j). destruct (idx_split i) as (a & Ea). destruct (idx_split j) as (b & Eb).
  assert (N.of_nat (j - i) = N.of_nat j - N.of_nat i) by lia.
  assert (D : N.of_nat j - N.of_nat i < num) by (unfold nn in L2; lia).
  assert (a = b \/ b = a + 1) as [->| ->].
  { assert (a < b + 1) by nia. assert (b < a + 2) by nia. lia. }
  - left. lia.
  - right. rewrite N.mul_add_distr_l in Eb. lia.
Qed.

Lemma q_count_idx i j : (i <= j)%nat -> (j < i + nn)%nat -> q_count (idx j) (idx i) num = N.of_nat (j - i).
Proof.
  intros L1 L2. pose proof num_bounds as B. destruct num_divides as (m & M1 & M2).
  pose proof (idx_lt i). pose proof (idx_lt j). unfold q_count. rewrite mask_eq. unfold wrap32.
  destruct (diff_cases i j L1 L2) as [[C E]|[C E]]; rewrite E.
  - replace (idx j + 2 ^ 32 - idx i) with ((idx j - idx i) + 1 * 2 ^ 32) by lia. rewrite N.mod_add by lia.
    rewrite (N.mod_small _ (2 ^ 32)) by lia. apply N.mod_small. lia.
  - rewrite (N.mod_small _ (2 ^ 32)) by lia. rewrite M1. replace (idx j + num * m - idx i) with (num * (m - 1) + (num + idx j - idx i)) by nia.
    apply mod_of. lia.
Qed.

Lemma q_space_idx i j : (i <= j)%nat -> (j < i + nn)%nat -> q_space (idx j) (idx i) num = N.of_nat (nn - 1 - (j - i)).
Proof.
  intros L1 L2. pose proof num_bounds as B. destruct num_divides as (m & M1 & M2).
  pose proof (idx_lt i). pose proof (idx_lt j). unfold q_space. rewrite mask_eq. unfold wrap32.
  rewrite (N.mod_small (idx j + 1)) by lia.
  destruct (diff_cases i j L1 L2) as [[C E]|[C E]].
  - replace (N.of_nat (nn - 1 - (j - i))) with (num - 1 - (idx j - idx i)) by (unfold nn in *; lia).
    rewrite (N.mod_small _ (2 ^ 32)) by lia. rewrite M1. replace (idx i + num * m - (idx j + 1)) with (num * (m - 1) + (num - 1 - (idx j - idx i))) by nia.
    apply mod_of. lia.
  - replace (N.of_nat (nn - 1 - (j - i))) with (idx i - idx j - 1) by (unfold nn in *; lia).
    replace (idx i + 2 ^ 32 - (idx j + 1)) with ((idx i - idx j - 1) + 1 * 2 ^ 32) by lia. rewrite N.mod_add by lia.
    rewrite (N.mod_small _ (2 ^ 32)) by lia. apply N.mod_small. lia.
Qed.

Variable sz : nat.
Hypothesis FIT : num * N.of_nat sz <= 2 ^ 32.

Definition cell (j i : nat) : nat := (N.to_nat (idx j) * sz + i)%nat.

Lemma q_addr_idx j i : (i < sz)%nat -> q_addr (idx j) (N.of_nat sz) i = cell j i.
Proof.
  intro L. unfold q_addr, cell, wrap32. pose proof (idx_lt j). rewrite N.mod_small by nia. rewrite N2Nat.inj_mul, Nat2N.id. reflexivity.
Qed.

Lemma cell_lt j i : (i < sz)%nat -> (cell j i < nn * sz)%nat.
Proof. intro L. unfold cell, nn. pose proof (idx_lt j). assert (N.to_nat (idx j) < N.to_nat num)%nat by lia. nia. Qed.

Lemma cell_inj j i j' i' : (i < sz)%nat -> (i' < sz)%nat -> cell j i = cell j' i' -> idx j = idx j' /\ i = i'.
Proof.
  intros L L' E. unfold cell in E. assert (N.to_nat (idx j) = N.to_nat (idx j')) by nia. split; [lia|]. nia.
Qed.

Lemma idx_ne i j : (i < j)%nat -> (j < i + nn)%nat -> idx i <> idx j.
Proof. intros L1 L2 E. destruct (diff_cases i j) as [[C D]|[C D]]; lia. Qed.
End Index.

(** ** Byte arrays *)
Lemma put_byte_length m : forall a b, length (put_byte a b m) = length m.
Proof. induction m; intros [|a'] b; cbn; auto. Qed.
Lemma nth_put_same m : forall a b d, (a < length m)%nat -> nth a (put_byte a b m) d = b.
Proof. induction m; intros [|a'] b d L; cbn in *; try lia; auto. apply IHm. lia. Qed.
Lemma nth_put_other m : forall a a' b d, a <> a' -> nth a' (put_byte a b m) d = nth a' m d.
Proof. induction m; intros [|a1] [|a2] b d N; cbn; try reflexivity; try lia. apply IHm. lia. Qed.

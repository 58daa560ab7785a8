(** Which payloads share their printed text with another. *)
From Verif Require Import Bytes Bytes_proofs Misc SpecMisc Misc_proofs.
Local Open Scope N_scope.

Lemma hex_digit_val a v : digit 16 a v -> to_N a < 65 \/ 97 <= to_N a -> a = hex_digit v /\ v < 16.
Proof.
  intros D L. inversion D as [b c H1 H2|b c H1 H2|b c H1 H2]; subst; unfold hex_digit.
  - split; [|lia]. replace (to_N a - 48 <? 10) with true by lia. replace (48 + (to_N a - 48)) with (to_N a) by lia. symmetry. apply byte_of_N_to_N.
  - lia.
  - split; [|lia]. replace (to_N a - 87 <? 10) with false by lia. replace (87 + (to_N a - 87)) with (to_N a) by lia. symmetry. apply byte_of_N_to_N.
Qed.

Lemma isprint_spec c : isprint c = true <-> printable c.
Proof. unfold isprint, printable. rewrite andb_true_iff, !N.leb_le. tauto. Qed.

Lemma digits_one_inv a v : digits 16 [a] v -> digit 16 a v.
Proof.
  intro D. inversion D as [? ? D1|t w x y D1 D2 Q1]; subst; [assumption|].
  destruct t as [|? [|? ?]]; [inversion D1; subst; destruct s; discriminate|discriminate|discriminate].
Qed.

Lemma digits_two_inv a b n : digits 16 [a; b] n -> exists v d, digit 16 a v /\ digit 16 b d /\ n = v * 16 + d.
Proof.
  intro D. inversion D as [|t v y d D1 D2 Q1]; subst.
  destruct t as [|a' [|? t]]; [discriminate| |destruct t; discriminate].
  injection Q1 as -> ->. exists v, d. auto using digits_one_inv.
Qed.

Lemma escape_print c e : escape c e -> e = print_char c /\ ~ printable c.
Proof.
  intros [k a b P D F]. split; [|exact P].
  inversion F as [|? ? La F1]; subst. inversion F1 as [|? ? Lb F2]; subst.
  destruct (digits_two_inv _ _ _ D) as (v & d & D3 & D2 & E2).
  destruct (hex_digit_val _ _ D3 La) as [-> V1]. destruct (hex_digit_val _ _ D2 Lb) as [-> V2].
  unfold print_char. replace (isprint k) with false by (symmetry; apply not_true_is_false; rewrite isprint_spec; exact P).
  rewrite E2. rewrite N.div_add_l by lia. rewrite (N.div_small d 16), N.add_0_r by lia.
  rewrite (N.add_comm _ d), N.mod_add by lia. rewrite (N.mod_small d) by lia. reflexivity.
Qed.

Lemma print_escape c : ~ printable c -> escape c (print_char c).
Proof.
  intro P. pose proof (shown_b_all c) as B. unfold shown_b in B.
  destruct (print_char c) as [|d [|e [|a [|b [|? ?]]]]] eqn:Q; try discriminate.
  - exfalso. apply P. unfold printable. apply andb_prop in B. destruct B as [B _]. apply andb_prop in B. destruct B as [B _]. lia.
  - exfalso. apply P. apply andb_prop in B. destruct B as [B _]. apply andb_prop in B. destruct B as [B _]. apply beqb_eq in B. subst. vm_compute. split; discriminate.
  - repeat (apply andb_prop in B; let B' := fresh "B" in destruct B as [B B']).
    apply beqb_eq in B3, B4. subst d e. apply N.eqb_eq in B0. constructor; [exact P| |].
    + rewrite <- B0. apply (digits_more 16 [a] (hexval a) b (hexval b)); [apply digits_one|]; apply hex_digit_ok; assumption.
    + constructor; [lia|constructor; [lia|constructor]].
Qed.

Lemma print_plain c : printable c -> c <> x22 -> print_char c = [c].
Proof.
  intros P Q. unfold print_char. rewrite (proj2 (isprint_spec c) P).
  destruct (byte_eqb c x22) eqn:E; [|reflexivity]. apply beqb_eq in E. contradiction.
Qed.

(** How a printed character may begin. *)
Lemma print_head c : print_char c = [x5c; x22] /\ c = x22 \/ print_char c = [c] /\ c <> x22 /\ printable c \/
  ~ printable c /\ exists a b, print_char c = [x5c; x78; a; b] /\ printable a /\ printable b /\ a <> x5c /\ b <> x5c /\ a <> x22 /\ b <> x22.
Proof.
  destruct (isprint c) eqn:P.
  - apply isprint_spec in P. destruct (Byte.byte_eq_dec c x22) as [->|N]; [left; split; reflexivity|].
    right. left. split; [apply print_plain; assumption|]. split; assumption.
  - right. right. assert (P' : ~ printable c) by (rewrite <- isprint_spec; congruence). split; [exact P'|].
    pose proof (print_escape c P') as E. remember (print_char c) as e eqn:He. destruct E as [c a b _ _ _].
    exists a, b. split; [reflexivity|].
    pose proof (shown_b_all c) as B. unfold shown_b in B. rewrite <- He in B.
    repeat (apply andb_prop in B; let B' := fresh "B" in destruct B as [B B']).
    unfold printable. repeat split; try lia; intros ->; try discriminate B1; try discriminate B2.
Qed.

Lemma print_one s c r : flat_map print_char s = c :: r -> c <> x5c -> printable c -> c <> x22 -> exists s', s = c :: s' /\ flat_map print_char s' = r.
Proof.
  destruct s as [|d s]; cbn [flat_map]; [discriminate|]. intros E N P Q.
  destruct (print_head d) as [[H _]|[[H _]|[_ (a & b & H & _)]]]; rewrite H in E; cbn [app] in E.
  - exfalso. apply N. congruence.
  - exists s. split; congruence.
  - exfalso. apply N. congruence.
Qed.

(** A backslash followed by what an escape starts with. *)
Lemma print_slash s a b r : flat_map print_char (x5c :: s) = x5c :: x78 :: a :: b :: r ->
  printable a -> printable b -> a <> x5c -> b <> x5c -> a <> x22 -> b <> x22 -> exists s', s = x78 :: a :: b :: s'.
Proof.
  intros E Pa Pb Na Nb Qa Qb. cbn [flat_map] in E. change (print_char x5c) with [x5c] in E. cbn [app] in E.
  assert (E1 : flat_map print_char s = x78 :: a :: b :: r) by congruence.
  apply print_one in E1; [|discriminate|vm_compute; split; discriminate|discriminate]. destruct E1 as (s1 & -> & E1).
  apply print_one in E1; try assumption. destruct E1 as (s2 & -> & E1).
  apply print_one in E1; try assumption. destruct E1 as (s3 & -> & E1). exists s3. reflexivity.
Qed.

Lemma no_quote s r : flat_map print_char s <> x22 :: r.
Proof.
  destruct s as [|d s]; cbn [flat_map]; [discriminate|].
  destruct (print_head d) as [[H _]|[[H [Q _]]|[_ (a & b & H & _)]]]; rewrite H; cbn [app]; congruence.
Qed.

Lemma flat_differ s : forall s', s' <> s -> flat_map print_char s' = flat_map print_char s ->
  Exists (fun c => ~ printable c) s \/ exists pre c e post, escape c e /\ s = pre ++ e ++ post.
Proof.
  induction s as [|c s IH]; intros [|d s'] N E.
  - contradiction.
  - exfalso. cbn [flat_map] in E. destruct (print_head d) as [[H _]|[[H _]|[_ (? & ? & H & _)]]]; rewrite H in E; discriminate E.
  - exfalso. cbn [flat_map] in E. destruct (print_head c) as [[H _]|[[H _]|[_ (? & ? & H & _)]]]; rewrite H in E; discriminate E.
  - destruct (Byte.byte_eq_dec d c) as [->|D].
    + cbn [flat_map] in E. apply app_inv_head in E. destruct (IH s') as [X|(pre & c' & e & post & X & ->)]; [congruence|exact E| |].
      * left. right. exact X.
      * right. exists (c :: pre), c', e, post. split; [exact X|reflexivity].
    + pose proof (print_head c) as [[H Q]|[(H & Q & P)|[P _]]]; [| |left; left; exact P].
      * subst c. exfalso. cbn [flat_map] in E. rewrite H in E. cbn [app] in E.
        destruct (print_head d) as [[_ H']|[[H' _]|[_ (a & b & H' & _)]]]; [contradiction| |rewrite H' in E; discriminate E].
        rewrite H' in E. cbn [app] in E. assert (E' : flat_map print_char s' = x22 :: flat_map print_char s) by congruence.
        exact (no_quote _ _ E').
      * destruct (print_head d) as [[H' Q']|[(H' & Q' & P')|[P' (a & b & H' & Pa & Pb & Na & Nb & Qa & Qb)]]].
        -- subst d. exfalso. cbn [flat_map] in E. rewrite H, H' in E. cbn [app] in E.
           assert (E' : flat_map print_char s = x22 :: flat_map print_char s') by congruence. exact (no_quote _ _ E').
        -- exfalso. cbn [flat_map] in E. rewrite H, H' in E. cbn [app] in E. apply D. congruence.
        -- assert (c = x5c) as ->. { cbn [flat_map] in E. rewrite H, H' in E. cbn [app] in E. congruence. }
           assert (E' : flat_map print_char (x5c :: s) = x5c :: x78 :: a :: b :: flat_map print_char s').
           { rewrite <- E. cbn [flat_map]. rewrite H'. reflexivity. }
           apply print_slash in E'; try assumption. destruct E' as [s1 ->]. right. exists [], d, [x5c; x78; a; b], s1.
           split; [|reflexivity]. rewrite <- H'. apply print_escape, P'.
Qed.

Lemma escape_flat c e : escape c e -> flat_map print_char e = e.
Proof.
  intro X. destruct (escape_print _ _ X) as [-> P]. destruct (print_head c) as [[H ->]|[(_ & _ & P')|[_ (a & b & H & Pa & Pb & Na & Nb & Qa & Qb)]]].
  - exfalso. apply P. vm_compute. split; discriminate.
  - contradiction.
  - rewrite H. cbn [flat_map]. rewrite (print_plain a), (print_plain b) by assumption. reflexivity.
Qed.

Lemma print_string_eq s s' : print_string s = print_string s' <-> flat_map print_char s = flat_map print_char s'.
Proof.
  unfold print_string. split; [|intros ->; reflexivity]. intro E. apply app_inv_head in E. apply app_inv_tail in E. exact E.
Qed.

Lemma escape_length c e : escape c e -> length e = 4%nat.
Proof. intros []. reflexivity. Qed.

Lemma ambiguous_exactly s : (exists s', s' <> s /\ print_string s' = print_string s) <->
  Exists (fun c => ~ printable c) s \/ exists pre c e post, escape c e /\ s = pre ++ e ++ post.
Proof.
  split.
  - intros (s' & N & E). apply (flat_differ s s' N). apply print_string_eq, E.
  - intros [X|(pre & c & e & post & X & ->)].
    + apply Exists_exists in X. destruct X as (c & I' & P). apply in_split in I'. destruct I' as (pre & post & ->).
      exists (pre ++ print_char c ++ post). pose proof (print_escape c P) as X. split.
      * intro E. apply app_inv_head in E. assert (L : length (print_char c ++ post) = length (c :: post)) by (rewrite E; reflexivity).
        rewrite app_length, (escape_length _ _ X) in L. cbn [length] in L. lia.
      * apply print_string_eq. rewrite !flat_map_app, (escape_flat c (print_char c) X). reflexivity.
    + exists (pre ++ [c] ++ post). split.
      * intro E. apply app_inv_head in E. assert (L : length ([c] ++ post) = length (e ++ post)) by (rewrite E; reflexivity).
        rewrite !app_length, (escape_length _ _ X) in L. cbn [length] in L. lia.
      * apply print_string_eq. rewrite !flat_map_app, (escape_flat c e X). destruct (escape_print c e X) as [-> _].
        cbn [flat_map]. rewrite app_nil_r. reflexivity.
Qed.

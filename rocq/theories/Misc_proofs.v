(** Proofs about times, printed text and option texts. *)
From Verif Require Import Bytes Bytes_proofs Misc SpecMisc.
Local Open Scope Z_scope.

(** ** Time *)
Lemma i64_ok z : - 2 ^ 63 <= z < 2 ^ 63 -> i64 z = Ok z.
Proof. intro H. unfold i64. destruct ((- 2 ^ 63 <=? z) && (z <? 2 ^ 63)) eqn:E; [reflexivity|lia]. Qed.
Lemma i64_inv z r : i64 z = Ok r -> r = z.
Proof. unfold i64. destruct (_ && _); intro H; [injection H as <-; reflexivity|discriminate]. Qed.

Lemma ts_carry_inv fuel : forall b r, ts_carry fuel b = Ok r -> 0 <= tv_nsec b -> normal r /\ nanos r = nanos b.
Proof.
  induction fuel as [|f IH]; intros b r H N; cbn [ts_carry] in H; destruct (1000000000 <=? tv_nsec b) eqn:E; try discriminate.
  - injection H as <-. split; [unfold normal; lia|reflexivity].
  - destruct (i64 (tv_sec b + 1)) as [s|] eqn:E1; [|discriminate]. apply i64_inv in E1. subst s. cbn [obind] in H.
    apply IH in H; [|cbn; lia]. destruct H as [H1 H2]. split; [assumption|]. rewrite H2. unfold nanos. cbn. lia.
  - injection H as <-. split; [unfold normal; lia|reflexivity].
Qed.

Lemma ts_carry_ok fuel : forall b, 0 <= tv_nsec b -> tv_nsec b / 1000000000 <= Z.of_nat fuel ->
  - 2 ^ 63 <= tv_sec b -> tv_sec b + tv_nsec b / 1000000000 < 2 ^ 63 -> exists r, ts_carry fuel b = Ok r.
Proof.
  induction fuel as [|f IH]; intros b N F L1 L2; cbn [ts_carry]; destruct (1000000000 <=? tv_nsec b) eqn:E; eauto.
  - exfalso. assert (1 <= tv_nsec b / 1000000000) by (apply Z.div_le_lower_bound; lia). lia.
  - assert (1 <= tv_nsec b / 1000000000) by (apply Z.div_le_lower_bound; lia).
    rewrite i64_ok by lia. cbn [obind].
    assert (D : (tv_nsec b - 1000000000) / 1000000000 = tv_nsec b / 1000000000 - 1).
    { replace (tv_nsec b - 1000000000) with (tv_nsec b + (-1) * 1000000000) by lia. rewrite Z.div_add by lia. lia. }
    apply IH; cbn [tv_sec tv_nsec]; rewrite ?D; lia.
Qed.

Lemma add_exact a b r : timespec_add a b = Ok r -> 0 <= tv_nsec a + tv_nsec b -> normal r /\ nanos r = nanos a + nanos b.
Proof.
  unfold timespec_add. destruct (i64 (tv_sec b + tv_sec a)) as [s|] eqn:E1; [|discriminate]. cbn [obind].
  destruct (i64 (tv_nsec b + tv_nsec a)) as [n|] eqn:E2; [|discriminate]. cbn [obind]. apply i64_inv in E1, E2. subst.
  intros H N. apply ts_carry_inv in H; [|cbn; lia]. destruct H as [H1 H2]. split; [assumption|]. rewrite H2. unfold nanos. cbn. lia.
Qed.

Lemma add_defined a b : normal a -> normal b -> - 2 ^ 63 <= tv_sec a + tv_sec b < 2 ^ 63 - 1 ->
  exists r, timespec_add a b = Ok r.
Proof.
  intros A B L. unfold normal in *. unfold timespec_add. rewrite i64_ok by lia. cbn [obind]. rewrite i64_ok by lia. cbn [obind].
  assert (D : 0 <= (tv_nsec b + tv_nsec a) / 1000000000 <= 1).
  { split; [apply Z.div_pos; lia|]. apply Z.lt_succ_r. apply Z.div_lt_upper_bound; lia. }
  apply ts_carry_ok; cbn [tv_sec tv_nsec]; lia.
Qed.

Lemma sub_exact a b r : timespec_sub a b = Ok r -> normal a -> normal b -> normal r /\ nanos r = nanos b - nanos a.
Proof.
  unfold timespec_sub, normal. destruct (i64 (tv_sec b - tv_sec a)) as [s|] eqn:E1; [|discriminate]. cbn [obind].
  destruct (i64 (tv_nsec b - tv_nsec a)) as [n|] eqn:E2; [|discriminate]. cbn [obind]. apply i64_inv in E1, E2. subst.
  intros H A B. destruct (tv_nsec b - tv_nsec a <? 0) eqn:E.
  - destruct (i64 _) as [s|] eqn:E1 in H; [|discriminate]. apply i64_inv in E1. subst. cbn in H. injection H as <-. unfold nanos. cbn. lia.
  - injection H as <-. unfold nanos. cbn. lia.
Qed.

Lemma sub_defined a b : normal a -> normal b -> - 2 ^ 63 < tv_sec b - tv_sec a < 2 ^ 63 -> exists r, timespec_sub a b = Ok r.
Proof.
  unfold normal. intros A B L. unfold timespec_sub. rewrite i64_ok by lia. cbn [obind]. rewrite i64_ok by lia. cbn [obind].
  destruct (_ <? 0); eauto. rewrite i64_ok by lia. cbn. eauto.
Qed.

Lemma nap_exact ks : forall rqt rs, my_nanosleep rqt ks = Some rs -> ~ In KN_err ks -> slept rs ks = nanos rqt.
Proof.
  induction ks as [|[|m|] ks IH]; intros rqt rs H NE; cbn [my_nanosleep] in H; try discriminate.
  - injection H as <-. cbn [slept]. lia.
  - destruct (my_nanosleep m ks) as [l|] eqn:E; [|discriminate]. injection H as <-. cbn [slept].
    rewrite (IH m l E); [lia|]. intro; apply NE; right; assumption.
  - exfalso. apply NE. left. reflexivity.
Qed.

(** ** Printing *)
Local Open Scope N_scope.

Lemma print_char_printable c : Forall printable (print_char c).
Proof. destruct c; vm_compute; repeat constructor; discriminate. Qed.

Lemma print_string_printable s : Forall printable (print_string s).
Proof.
  unfold print_string. apply Forall_app. split; [constructor; [vm_compute; split; discriminate|constructor]|].
  apply Forall_app. split; [|constructor; [vm_compute; split; discriminate|constructor]].
  induction s; cbn [flat_map]; [constructor|]. apply Forall_app. split; [apply print_char_printable|assumption].
Qed.

Lemma beqb_eq a b : byte_eqb a b = true -> a = b.
Proof. unfold byte_eqb. intro H. apply N.eqb_eq in H. apply to_N_inj, H. Qed.

Definition hexval (c : byte) : N :=
  let n := to_N c in if 97 <=? n then n - 87 else n - 48.
Definition shown_b (c : byte) : bool :=
  let p := (32 <=? to_N c) && (to_N c <=? 126) in
  match print_char c with
  | [d] => p && negb (byte_eqb c x22) && byte_eqb d c
  | [d; e] => byte_eqb c x22 && byte_eqb d x5c && byte_eqb e x22
  | [d; e; a; b] => negb p && byte_eqb d x5c && byte_eqb e x78 &&
      (((48 <=? to_N a) && (to_N a <=? 57)) || ((97 <=? to_N a) && (to_N a <=? 102))) &&
      (((48 <=? to_N b) && (to_N b <=? 57)) || ((97 <=? to_N b) && (to_N b <=? 102))) &&
      (hexval a * 16 + hexval b =? to_N c)
  | _ => false
  end.
Lemma shown_b_all c : shown_b c = true.
Proof. destruct c; vm_compute; reflexivity. Qed.

Lemma hex_digit_ok a : ((48 <=? to_N a) && (to_N a <=? 57)) || ((97 <=? to_N a) && (to_N a <=? 102)) = true -> digit 16 a (hexval a).
Proof.
  intro H. unfold hexval. destruct (97 <=? to_N a) eqn:E.
  - apply dig_lower; lia.
  - apply dig_dec; lia.
Qed.

Lemma print_char_shown c t s : shown t s -> shown (print_char c ++ t) (c :: s).
Proof.
  intro H. pose proof (shown_b_all c) as B. unfold shown_b in B.
  destruct (print_char c) as [|d [|e [|a [|b [|? ?]]]]]; try discriminate; cbn [app].
  - apply andb_prop in B. destruct B as [B B3]. apply andb_prop in B. destruct B as [B1 B2].
    apply beqb_eq in B3. subst d. apply sh_plain; [unfold printable; lia| |assumption].
    intros ->. discriminate B2.
  - apply andb_prop in B. destruct B as [B B3]. apply andb_prop in B. destruct B as [B1 B2].
    apply beqb_eq in B1, B2, B3. subst. apply sh_quote. assumption.
  - repeat (apply andb_prop in B; let B' := fresh "B" in destruct B as [B B']).
    apply beqb_eq in B3, B4. subst d e. apply sh_hex; [unfold printable; lia| |assumption].
    apply N.eqb_eq in B0. rewrite <- B0. apply (digits_more 16 [a] (hexval a) b (hexval b)).
    + apply digits_one, hex_digit_ok, B2.
    + apply hex_digit_ok, B1.
Qed.

Lemma print_string_shown s : exists t, print_string s = [x22] ++ t ++ [x22] /\ shown t s.
Proof.
  exists (flat_map print_char s). split; [reflexivity|].
  induction s as [|c s IH]; cbn [flat_map]; [constructor|]. apply print_char_shown, IH.
Qed.

Lemma print_char_length c : (1 <= length (print_char c) <= 4)%nat.
Proof. destruct c; vm_compute; split; repeat constructor. Qed.

Lemma print_string_length s : (length s + 2 <= length (print_string s) <= 4 * length s + 2)%nat.
Proof.
  unfold print_string. rewrite !app_length. cbn [length].
  assert (length s <= length (flat_map print_char s) <= 4 * length s)%nat; [|lia].
  induction s as [|c s IH]; cbn [flat_map length]; [lia|]. rewrite app_length. pose proof (print_char_length c). lia.
Qed.

(** Reading one printed character back. *)
Definition hex_val (c : byte) : N := if to_N c <? 58 then to_N c - 48 else to_N c - 87.
Definition unprint1 (s : bytes) : option (byte * bytes) :=
  match s with
  | [] => None
  | c :: r =>
      if byte_eqb c x22 then None
      else if byte_eqb c x5c then
        match r with
        | d :: r' =>
            if byte_eqb d x22 then Some (x22, r')
            else match r' with h :: l :: r'' => Some (byte_of_N (hex_val h * 16 + hex_val l), r'') | _ => None end
        | [] => None
        end
      else Some (c, r)
  end.

Lemma unprint1_eq c r : c <> x5c -> unprint1 (print_char c ++ r) = Some (c, r).
Proof. intro N. destruct c; try reflexivity. contradiction N; reflexivity. Qed.

Lemma flat_inj s : forall s' r r', ~ In x5c s -> ~ In x5c s' ->
  flat_map print_char s ++ x22 :: r = flat_map print_char s' ++ x22 :: r' -> s = s' /\ r = r'.
Proof.
  induction s as [|c s IH]; intros [|c' s'] r r' N N' E; cbn [flat_map app] in E.
  - injection E as ->. auto.
  - exfalso. rewrite <- app_assoc in E. assert (Q : unprint1 (x22 :: r) = None) by reflexivity. rewrite E, unprint1_eq in Q; [discriminate|].
    intros ->. apply N'. left. reflexivity.
  - exfalso. rewrite <- app_assoc in E. assert (Q : unprint1 (x22 :: r') = None) by reflexivity. rewrite <- E, unprint1_eq in Q; [discriminate|].
    intros ->. apply N. left. reflexivity.
  - rewrite <- !app_assoc in E. assert (Q : unprint1 (print_char c ++ flat_map print_char s ++ x22 :: r) = Some (c', flat_map print_char s' ++ x22 :: r')).
    { rewrite E. apply unprint1_eq. intros ->. apply N'. left. reflexivity. }
    rewrite unprint1_eq in Q by (intros ->; apply N; left; reflexivity). injection Q as -> Q.
    destruct (IH s' r r') as [-> ->]; auto; intro; [apply N|apply N']; right; assumption.
Qed.

Lemma print_string_prefix s s' r r' : ~ In x5c s -> ~ In x5c s' -> print_string s ++ r = print_string s' ++ r' -> s = s' /\ r = r'.
Proof.
  intros N N' E. unfold print_string in E. rewrite <- !app_assoc in E. cbn [app] in E. injection E as E. apply flat_inj in E; assumption.
Qed.

Lemma print_string_inj s s' : ~ In x5c s -> ~ In x5c s' -> print_string s = print_string s' -> s = s'.
Proof. intros N N' E. apply (print_string_prefix s s' [] []); auto. rewrite !app_nil_r. exact E. Qed.

Lemma print_all_inj fs : forall fs', Forall (fun s => ~ In x5c s) fs -> Forall (fun s => ~ In x5c s) fs' ->
  flat_map print_data_frame fs = flat_map print_data_frame fs' -> fs = fs'.
Proof.
  induction fs as [|f fs IH]; intros [|f' fs'] N N' E; cbn [flat_map] in E; auto; try discriminate.
  inversion N; inversion N'; subst.
  assert (P : forall f X, print_data_frame f ++ X = x20 :: print_string f ++ x0a :: X).
  { intros. unfold print_data_frame. rewrite <- !app_assoc. reflexivity. }
  rewrite !P in E. assert (E' : print_string f ++ x0a :: flat_map print_data_frame fs = print_string f' ++ x0a :: flat_map print_data_frame fs').
  { remember (print_string f ++ x0a :: flat_map print_data_frame fs). remember (print_string f' ++ x0a :: flat_map print_data_frame fs').
    injection E as E. exact E. }
  clear E P. rename E' into E.
  apply print_string_prefix in E; [|assumption|assumption]. destruct E as [-> E]. injection E as E. f_equal. apply IH; assumption.
Qed.

Lemma count_zero s : Forall printable s -> count_occ Byte.byte_eq_dec s x0a = 0%nat.
Proof.
  induction 1 as [|c s P F IH]; [reflexivity|]. cbn. destruct (Byte.byte_eq_dec c x0a) as [->|]; [|exact IH].
  exfalso. destruct P as [P _]. vm_compute in P. contradiction P; reflexivity.
Qed.

Lemma print_lines fs : count_occ Byte.byte_eq_dec (flat_map print_data_frame fs) x0a = length fs.
Proof.
  induction fs as [|f fs IH]; [reflexivity|]. cbn [flat_map length]. unfold print_data_frame at 1.
  rewrite !count_occ_app, IH, (count_zero (print_string f)) by apply print_string_printable. reflexivity.
Qed.

Lemma print_not_inj : exists s s', s <> s' /\ print_string s = print_string s'.
Proof. exists [x0a], [x5c; x78; x30; x61]. split; [discriminate|vm_compute; reflexivity]. Qed.

(** ** Numbers *)
Lemma digit_val_spec b c d : b <= 36 -> digit b c d <-> d = digit_val c /\ d < b.
Proof.
  intro B. unfold digit_val. split.
  - intros [b' c' H1 H2|b' c' H1 H2|b' c' H1 H2].
    + destruct ((48 <=? to_N c') && (to_N c' <=? 57)) eqn:E; lia.
    + destruct ((48 <=? to_N c') && (to_N c' <=? 57)) eqn:E; [lia|]. destruct ((65 <=? to_N c') && (to_N c' <=? 90)) eqn:E2; lia.
    + destruct ((48 <=? to_N c') && (to_N c' <=? 57)) eqn:E; [lia|]. destruct ((65 <=? to_N c') && (to_N c' <=? 90)) eqn:E2; [lia|].
      destruct ((97 <=? to_N c') && (to_N c' <=? 122)) eqn:E3; lia.
  - intros [-> H]. destruct ((48 <=? to_N c) && (to_N c <=? 57)) eqn:E; [apply dig_dec; lia|].
    destruct ((65 <=? to_N c) && (to_N c <=? 90)) eqn:E2; [apply dig_upper; lia|].
    destruct ((97 <=? to_N c) && (to_N c <=? 122)) eqn:E3; [apply dig_lower; lia|]. lia.
Qed.

Definition value (b : N) (s : bytes) (acc : N) : N := fold_left (fun a c => a * b + digit_val c) s acc.

Lemma digits_spec b s v : b <= 36 -> digits b s v <-> s <> [] /\ Forall (fun c => digit_val c < b) s /\ v = value b s 0.
Proof.
  intro B. split.
  - induction 1 as [c d H|s v c d H IH D].
    + apply digit_val_spec in H; [|assumption]. destruct H as [-> H]. split; [discriminate|]. split; [constructor; [assumption|constructor]|]. reflexivity.
    + apply digit_val_spec in D; [|assumption]. destruct D as [-> D]. destruct IH as (I1 & I2 & I3). split; [destruct s; discriminate|].
      split; [apply Forall_app; split; [assumption|constructor; [assumption|constructor]]|].
      unfold value in *. rewrite fold_left_app. cbn. rewrite <- I3. reflexivity.
  - intros (N & F & ->). revert N F. induction s as [|c s IH] using rev_ind; [congruence|]. intros _ F.
    apply Forall_app in F. destruct F as [F1 F2]. inversion F2; subst. unfold value. rewrite fold_left_app. cbn [fold_left].
    destruct s as [|c' s'].
    + cbn [fold_left app]. rewrite N.mul_0_l, N.add_0_l. constructor. apply digit_val_spec; auto.
    + apply digits_more; [apply IH; [discriminate|assumption]|]. apply digit_val_spec; auto.
Qed.

Lemma scan_digits_spec b : forall s acc v, scan_digits b acc s = (v, []) <-> Forall (fun c => digit_val c < b) s /\ v = value b s acc.
Proof.
  induction s as [|c s IH]; intros acc v; cbn [scan_digits].
  - split; [intro H; injection H as <-; auto|intros [_ ->]; reflexivity].
  - destruct (digit_val c <? b) eqn:E.
    + rewrite IH. unfold value. cbn [fold_left]. split; intros [H1 H2]; split; auto; [constructor; [lia|assumption]|inversion H1; assumption].
    + split; [discriminate|]. intros [H _]. inversion H; subst. lia.
Qed.

Definition dec_scan (b : N) (s : bytes) : option (N * bytes) :=
  match s with c :: _ => if digit_val c <? b then Some (scan_digits b 0 s) else None | [] => None end.

Lemma dec_scan_spec b s v : b <= 36 -> dec_scan b s = Some (v, []) <-> digits b s v.
Proof.
  intro B. rewrite digits_spec by assumption. unfold dec_scan. destruct s as [|c s].
  - split; [discriminate|intros [H _]; congruence].
  - destruct (digit_val c <? b) eqn:E.
    + split.
      * intro H. assert (H' : scan_digits b 0 (c :: s) = (v, [])) by congruence. apply scan_digits_spec in H'. split; [discriminate|exact H'].
      * intros (_ & H). f_equal. apply scan_digits_spec. exact H.
    + split; [discriminate|]. intros (_ & H & _). inversion H; subst. lia.
Qed.

Lemma scan_number_eq s : scan_number s =
  match s with
  | c0 :: r0 =>
      if byte_eqb c0 x30 then
        match r0 with
        | x :: c :: r => if (byte_eqb x x78 || byte_eqb x x58) && (digit_val c <? 16) then dec_scan 16 (c :: r) else dec_scan 8 s
        | _ => dec_scan 8 s
        end
      else dec_scan 10 s
  | [] => None
  end.
Proof. destruct s as [|c0 r0]; [reflexivity|]. destruct c0; try reflexivity. Qed.

Lemma byte_eqb_eq a b : byte_eqb a b = true <-> a = b.
Proof. unfold byte_eqb. rewrite N.eqb_eq. split; [apply to_N_inj|congruence]. Qed.

Lemma digits_cons_lt b c s v : b <= 36 -> digits b (c :: s) v -> digit_val c < b.
Proof. intros B D. apply digits_spec in D; [|assumption]. destruct D as (_ & F & _). inversion F; assumption. Qed.

Lemma scan_number_spec s v : scan_number s = Some (v, []) <-> numeral s v.
Proof.
  rewrite scan_number_eq. split.
  - destruct s as [|c0 r0]; [discriminate|]. destruct (byte_eqb c0 x30) eqn:E0.
    + apply byte_eqb_eq in E0. subst c0. destruct r0 as [|x [|c r]].
      * intro H. apply num_oct. apply dec_scan_spec; [lia|exact H].
      * intro H. apply num_oct. apply dec_scan_spec; [lia|exact H].
      * destruct (_ && _) eqn:E; intro H.
        -- apply andb_prop in E. destruct E as [E _]. apply orb_prop in E. rewrite !byte_eqb_eq in E. apply num_hex; [exact E|].
           apply dec_scan_spec; [lia|exact H].
        -- apply num_oct. apply dec_scan_spec; [lia|exact H].
    + intro H. apply num_dec; [|apply dec_scan_spec; [lia|exact H]]. intros ->. discriminate.
  - intros [c s' v' N D|s' v' D|x s' v' X D].
    + destruct (byte_eqb c x30) eqn:E; [apply byte_eqb_eq in E; contradiction|]. apply dec_scan_spec; [lia|exact D].
    + change (byte_eqb x30 x30) with true. cbn iota.
      assert (Q : dec_scan 8 (x30 :: s') = Some (v', [])) by (apply dec_scan_spec; [lia|exact D]).
      destruct s' as [|x [|c r]]; try exact Q.
      destruct ((byte_eqb x x78 || byte_eqb x x58) && (digit_val c <? 16)) eqn:E; [|exact Q]. exfalso.
      apply andb_prop in E. destruct E as [E _]. apply orb_prop in E. rewrite !byte_eqb_eq in E.
      apply digits_spec in D; [|lia]. destruct D as (_ & F & _). inversion F as [|? ? _ F2]; subst. inversion F2 as [|? ? L _]; subst.
      destruct E as [-> | ->]; vm_compute in L; discriminate.
    + change (byte_eqb x30 x30) with true. cbn iota. destruct s' as [|c r]; [apply digits_spec in D; [destruct D; congruence|lia]|].
      assert (Y : byte_eqb x x78 || byte_eqb x x58 = true) by (apply orb_true_iff; rewrite !byte_eqb_eq; exact X).
      rewrite Y. pose proof (digits_cons_lt 16 _ _ _ ltac:(lia) D) as L. destruct (digit_val c <? 16) eqn:E; [|lia]. cbn [andb].
      apply dec_scan_spec; [lia|exact D].
Qed.

Lemma isspace_spec c : isspace c = true <-> (to_N c = 32 \/ 9 <= to_N c <= 13).
Proof. unfold isspace. rewrite orb_true_iff, andb_true_iff. lia. Qed.

Lemma numeral_head s v : numeral s v -> exists c r, s = c :: r /\ digit_val c < 10.
Proof.
  intros [c s' v' N D|s' v' D|x s' v' X D].
  - exists c, s'. split; [reflexivity|]. exact (digits_cons_lt 10 _ _ _ ltac:(lia) D).
  - exists x30, s'. split; [reflexivity|]. reflexivity.
  - exists x30, (x :: s'). split; [reflexivity|]. reflexivity.
Qed.

Lemma skip_space_app ws t : Forall (fun c => to_N c = 32 \/ 9 <= to_N c <= 13) ws ->
  match t with c :: _ => isspace c = false | [] => True end -> skip_space (ws ++ t) = t.
Proof.
  intros F T. induction F as [|c ws P F IH]; cbn [app skip_space].
  - destruct t as [|c t]; [reflexivity|]. cbn. rewrite T. reflexivity.
  - apply isspace_spec in P. rewrite P. exact IH.
Qed.

Lemma skip_space_split s : exists ws, s = ws ++ skip_space s /\ Forall (fun c => to_N c = 32 \/ 9 <= to_N c <= 13) ws.
Proof.
  induction s as [|c s IH]; [exists []; auto|]. cbn [skip_space]. destruct (isspace c) eqn:E.
  - destruct IH as (ws & E2 & F). exists (c :: ws). split; [cbn; f_equal; exact E2|]. constructor; [apply isspace_spec; exact E|exact F].
  - exists []. auto.
Qed.

Definition split_sign (t : bytes) : bool * bytes :=
  match t with c :: r => if byte_eqb c x2d then (true, r) else if byte_eqb c x2b then (false, r) else (false, t) | [] => (false, []) end.

Lemma split_sign_eq t :
  match t with x2d :: r => (true, r) | x2b :: r => (false, r) | _ => (false, t) end = split_sign t.
Proof. destruct t as [|c r]; [reflexivity|]. destruct c; reflexivity. Qed.

Definition signed (neg : bool) (v : N) : N := if neg then (2 ^ 64 - v) mod 2 ^ 64 else v.

Lemma strtoul0_eq s : strtoul0 s =
  let '(neg, u) := split_sign (skip_space s) in
  match scan_number u with
  | None => (0, s)
  | Some (v, rest) => if 2 ^ 64 <=? v then (2 ^ 64 - 1, rest) else (signed neg v, rest)
  end.
Proof. unfold strtoul0. cbv zeta. rewrite split_sign_eq. reflexivity. Qed.

Lemma parse_ok neg u s v : split_sign (skip_space s) = (neg, u) -> numeral u v -> v < 2 ^ 64 -> signed neg v <= 65535 ->
  parse_port s = Some (signed neg v).
Proof.
  intros E N L1 L2. unfold parse_port. rewrite strtoul0_eq, E. apply scan_number_spec in N. rewrite N.
  destruct (2 ^ 64 <=? v) eqn:E2; [lia|]. destruct (signed neg v <=? 65535) eqn:E3; [reflexivity|lia].
Qed.

Lemma head_not_sign c r : digit_val c < 10 -> split_sign (c :: r) = (false, c :: r) /\ isspace c = false.
Proof. intro H. split; destruct c; try reflexivity; vm_compute in H; discriminate. Qed.

Lemma parse_port_spec s p : parse_port s = Some p <-> p <= 65535 /\ (port_text s p \/ s = [] /\ p = 0).
Proof.
  split.
  - unfold parse_port. rewrite strtoul0_eq. destruct (skip_space_split s) as (ws & Es & F).
    destruct (split_sign (skip_space s)) as [neg u] eqn:E. destruct (scan_number u) as [[v rest]|] eqn:EN.
    + destruct (2 ^ 64 <=? v) eqn:E2.
      * destruct rest; [|discriminate]. destruct (2 ^ 64 - 1 <=? 65535) eqn:X; [vm_compute in X; discriminate|discriminate].
      * destruct rest; [|discriminate]. destruct (signed neg v <=? 65535) eqn:E3; [|discriminate]. intro H. injection H as <-.
        apply scan_number_spec in EN. split; [lia|]. left. rewrite Es. unfold split_sign in E.
        destruct (skip_space s) as [|c r].
        { injection E as <- <-. inversion EN. }
        destruct (byte_eqb c x2d) eqn:B1.
        { injection E as <- <-. apply byte_eqb_eq in B1. subst c. apply port_minus; [assumption|assumption|lia]. }
        destruct (byte_eqb c x2b) eqn:B2.
        { injection E as <- <-. apply byte_eqb_eq in B2. subst c. apply port_plus; assumption. }
        injection E as <- <-. apply port_plain; assumption.
    + destruct s as [|c s']; [|discriminate]. intro H. cbn in H. injection H as <-. split; [lia|]. right. auto.
  - intros (L & [P|[-> ->]]); [|reflexivity].
    destruct P as [ws s v F N|ws s v F N|ws s v F N LV].
    + destruct (numeral_head _ _ N) as (c & r & -> & D). destruct (head_not_sign c r D) as [H1 H2].
      apply (parse_ok false (c :: r) _ v); auto; [|lia]. rewrite skip_space_app by assumption. exact H1.
    + apply (parse_ok false s _ v); auto; [|lia]. rewrite skip_space_app by (auto; reflexivity). reflexivity.
    + apply (parse_ok true s _ v); auto. rewrite skip_space_app by (auto; reflexivity). reflexivity.
Qed.

Lemma tcp_init_spec p4 p6 a p i n : tcp_init p4 p6 a p = Some (i, n) <->
  exists sa sp, a = Some sa /\ p = Some sp /\ n <= 65535 /\ (port_text sp n \/ sp = [] /\ n = 0) /\
    (exists x, p4 sa = Some x /\ i = Inet4 x \/ p4 sa = None /\ p6 sa = Some x /\ i = Inet6 x).
Proof.
  unfold tcp_init, tcp_address. destruct a as [sa|], p as [sp|]; try (split; [discriminate|intros (?&?&?&?&_); discriminate]).
  split.
  - intro H. exists sa, sp. split; [reflexivity|]. split; [reflexivity|].
    destruct (p4 sa) as [x|] eqn:E4; [|destruct (p6 sa) as [x|] eqn:E6; [|discriminate]];
      (destruct (parse_port sp) as [m|] eqn:EP; [|discriminate]; injection H as <- <-; apply parse_port_spec in EP; destruct EP;
       split; [assumption|]; split; [assumption|]; exists x; auto).
  - intros (sa' & sp' & A & P & L & T & x & X). injection A as <-. injection P as <-.
    assert (EP : parse_port sp = Some n) by (apply parse_port_spec; auto).
    destruct X as [[-> ->]|(-> & -> & ->)]; rewrite EP; reflexivity.
Qed.

Lemma c_string_app p n : ~ In x00 p -> c_string (p ++ repeat x00 n) = p.
Proof.
  intro H. induction p as [|c p IH]; [destruct n; reflexivity|]. cbn [app c_string]. destruct (byte_eqb c x00) eqn:E.
  - apply byte_eqb_eq in E. subst. exfalso. apply H. left. reflexivity.
  - rewrite IH; [reflexivity|]. intro; apply H; right; assumption.
Qed.

Lemma unix_init_spec path a : unix_init path = Some a <->
  exists p, path = Some p /\ (length p <= 107)%nat /\ a = p ++ repeat x00 (108 - length p).
Proof.
  unfold unix_init, sun_path_size. destruct path as [p|]; [|split; [discriminate|intros (? & ? & _); discriminate]].
  destruct (108 <? length p + 1)%nat eqn:E.
  - split; [discriminate|]. intros (q & Q & L & _). injection Q as <-. lia.
  - cbv zeta. rewrite firstn_all2 by lia. split.
    + intro H. injection H as <-. exists p. repeat split; lia.
    + intros (q & Q & L & ->). injection Q as <-. reflexivity.
Qed.

Lemma unix_path_kept p a : unix_init (Some p) = Some a -> ~ In x00 p -> length a = 108%nat /\ c_string a = p.
Proof.
  intros H N. apply unix_init_spec in H. destruct H as (q & Q & L & ->). injection Q as <-.
  split; [rewrite app_length, repeat_length; lia|apply c_string_app, N].
Qed.

From Verif Require Import Bytes Spec Bytes_proofs Control.
Ltac Zify.zify_post_hook ::= Z.div_mod_to_equations.
Local Open Scope N_scope.

Definition fields (cts : list bytes) : bytes := concat (map ct_field cts).

Lemma fields_cons ct cts : fields (ct :: cts) = ct_field ct ++ fields cts.
Proof. reflexivity. Qed.

Lemma lenN_ct_field ct : lenN (ct_field ct) = 8 + lenN ct.
Proof. unfold ct_field. rewrite !lenN_app, !lenN_be32. lia. Qed.

Lemma lenN_ctl_payload t cts : lenN (ctl_payload t cts) = 4 + lenN (fields cts).
Proof. unfold ctl_payload. rewrite lenN_app, lenN_be32. reflexivity. Qed.

Lemma lenN_ctl_frame t cts : lenN (ctl_frame t cts) = 8 + lenN (ctl_payload t cts).
Proof. unfold ctl_frame. rewrite !lenN_app, !lenN_be32. lia. Qed.

Lemma type_known_spec t : type_known t = true <-> known_type t.
Proof.
  unfold type_known, known_type, FSTRM_CONTROL_ACCEPT, FSTRM_CONTROL_START, FSTRM_CONTROL_STOP,
    FSTRM_CONTROL_READY, FSTRM_CONTROL_FINISH, T_ACCEPT, T_START, T_STOP, T_READY, T_FINISH.
  rewrite !orb_true_iff, !N.eqb_eq. lia.
Qed.

Lemma known_type_lt t : known_type t -> t < 2 ^ 32.
Proof.
  unfold known_type, T_ACCEPT, T_START, T_STOP, T_READY, T_FINISH.
  change (2^32) with 4294967296. lia.
Qed.

(** ** Loads *)
Lemma load_be32_eq mem len : len <= lenN mem ->
  fs_load_be32 mem len =
  if len <? 4 then Ok None else Ok (Some (ntohl_bytes mem, skipn 4 mem, len - 4)).
Proof.
  intro H. unfold fs_load_be32.
  destruct (len <? 4) eqn:E; [reflexivity|].
  destruct (lenN mem <? 4) eqn:E2; [lia|reflexivity].
Qed.

Lemma load_bytes_eq n mem len : len <= lenN mem ->
  fs_load_bytes n mem len =
  if len <? n then Ok None
  else Ok (Some (firstn (N.to_nat n) mem, skipn (N.to_nat n) mem, len - n)).
Proof.
  intro H. unfold fs_load_bytes.
  destruct (len <? n) eqn:E; [reflexivity|].
  destruct (lenN mem <? n) eqn:E2; [lia|reflexivity].
Qed.

Lemma load_be32_at v rest len : v < 2 ^ 32 -> 4 <= len -> 
  fs_load_be32 (be32 v ++ rest) len = Ok (Some (v, rest, len - 4)).
Proof.
  intros Hv Hl. unfold fs_load_be32.
  destruct (len <? 4) eqn:E; [lia|].
  destruct (lenN (be32 v ++ rest) <? 4) eqn:E2.
  { rewrite lenN_app, lenN_be32 in E2. lia. }
  rewrite ntohl_be32_small by assumption. reflexivity.
Qed.

(** ** Decoding the fields *)
Lemma decode_fields_complete cts : Forall (fun ct => lenN ct <= CT_MAX) cts ->
  forall fuel c extra,
    (N.to_nat (lenN (fields cts)) < fuel)%nat ->
    decode_fields fuel c (fields cts ++ extra) (lenN (fields cts)) =
    Ok (r_success, mk_control (c_type c) (c_cts c ++ cts)).
Proof.
  induction 1 as [|ct cts Hct Hcts IH]; intros fuel c extra Hf.
  - destruct fuel; [lia|]. cbn. rewrite app_nil_r. destruct c; reflexivity.
  - destruct fuel as [|fuel]; [lia|].
    assert (Hl : lenN (fields (ct :: cts)) = 8 + lenN ct + lenN (fields cts)).
    { rewrite fields_cons, lenN_app, lenN_ct_field. lia. }
    unfold CT_MAX in Hct.
    cbn [decode_fields].
    destruct (0 <? lenN (fields (ct :: cts))) eqn:E; [|lia].
    rewrite fields_cons. unfold ct_field. rewrite <- !app_assoc.
    rewrite load_be32_at by (unfold F_CONTENT_TYPE; change (2^32) with 4294967296; rewrite ?lenN_app, ?lenN_be32; lia).
    cbn [obind]. unfold F_CONTENT_TYPE at 1, FSTRM_CONTROL_FIELD_CONTENT_TYPE.
    rewrite N.eqb_refl.
    rewrite load_be32_at by (change (2^32) with 4294967296; rewrite ?lenN_app, ?lenN_be32; lia).
    cbn [obind].
    rewrite !lenN_app, !lenN_be32.
    destruct (_ <? lenN ct) eqn:E1; [lia|].
    destruct (FSTRM_CONTROL_FIELD_CONTENT_TYPE_LENGTH_MAX <? lenN ct) eqn:E2.
    { unfold FSTRM_CONTROL_FIELD_CONTENT_TYPE_LENGTH_MAX in E2. lia. }
    rewrite load_bytes_eq by (rewrite !lenN_app; lia).
    destruct (_ <? lenN ct) eqn:E3; [lia|].
    cbn [obind].
    rewrite firstn_app_exact, skipn_app_exact by (rewrite lenN_length; reflexivity).
    replace (4 + (4 + lenN ct) + lenN (fields cts) - 4 - 4 - lenN ct) with (lenN (fields cts)) by lia.
    replace (4 + (4 + (lenN ct + lenN (fields cts))) - 4 - 4 - lenN ct) with (lenN (fields cts)) by lia.
    rewrite IH by lia. cbn [c_type c_cts]. rewrite <- app_assoc. reflexivity.
Qed.

Lemma decode_fields_sound fuel : forall c mem len,
  len <= lenN mem -> (N.to_nat len < fuel)%nat ->
  exists r c', decode_fields fuel c mem len = Ok (r, c') /\ c_type c' = c_type c /\
    (r = r_success \/ r = r_failure) /\
    (r = r_success -> exists cts, firstn (N.to_nat len) mem = fields cts /\
       c_cts c' = c_cts c ++ cts /\ Forall (fun ct => lenN ct <= CT_MAX) cts).
Proof.
  induction fuel as [|fuel IH]; intros c mem len Hm Hf; [lia|].
  cbn [decode_fields].
  destruct (0 <? len) eqn:E0.
  2:{ exists r_success, c. repeat split; auto. intros _. exists [].
      assert (len = 0) by lia. subst. cbn. rewrite app_nil_r. auto. }
  assert (Fail : forall c0, c_type c0 = c_type c -> exists r c', Ok (r_failure, c0) = Ok (r, c') /\ c_type c' = c_type c /\
    (r = r_success \/ r = r_failure) /\
    (r = r_success -> exists cts, firstn (N.to_nat len) mem = fields cts /\
       c_cts c' = c_cts c ++ cts /\ Forall (fun ct => lenN ct <= CT_MAX) cts)).
  { intros c0 Hc0. exists r_failure, c0. repeat split; auto. discriminate. }
  rewrite load_be32_eq by assumption.
  destruct (len <? 4) eqn:E1; cbn [obind]; [apply Fail; reflexivity|].
  destruct (ntohl_bytes mem =? FSTRM_CONTROL_FIELD_CONTENT_TYPE) eqn:E2; [|apply Fail; reflexivity].
  rewrite load_be32_eq by (rewrite lenN_skipn; lia).
  destruct (len - 4 <? 4) eqn:E3; cbn [obind]; [apply Fail; reflexivity|].
  set (n := ntohl_bytes (skipn 4 mem)) in *.
  destruct (len - 4 - 4 <? n) eqn:E4; [apply Fail; reflexivity|].
  destruct (FSTRM_CONTROL_FIELD_CONTENT_TYPE_LENGTH_MAX <? n) eqn:E5; [apply Fail; reflexivity|].
  rewrite load_bytes_eq by (rewrite !lenN_skipn; lia).
  rewrite E4. cbn [obind].
  set (ct := firstn (N.to_nat n) (skipn 4 (skipn 4 mem))).
  assert (Hct : lenN ct = n).
  { unfold ct. rewrite lenN_firstn, !lenN_skipn. lia. }
  destruct (IH (mk_control (c_type c) (c_cts c ++ [ct]))
               (skipn (N.to_nat n) (skipn 4 (skipn 4 mem))) (len - 4 - 4 - n)) as (r & c' & Heq & Ht & Hr & Hs).
  - rewrite !lenN_skipn. lia.
  - lia.
  - exists r, c'. split; [exact Heq|]. split; [exact Ht|]. split; [exact Hr|].
    intro Hrs. destruct (Hs Hrs) as (cts & Hfn & Hc' & Hall).
    exists (ct :: cts). split.
    + rewrite fields_cons, <- Hfn. unfold ct_field, F_CONTENT_TYPE. rewrite Hct.
      replace (be32 1) with (firstn 4 mem).
      2:{ rewrite <- be32_ntohl by (unfold lenN in *; lia).
          f_equal. unfold FSTRM_CONTROL_FIELD_CONTENT_TYPE in E2. lia. }
      replace (be32 n) with (firstn 4 (skipn 4 mem)).
      2:{ rewrite <- be32_ntohl; [reflexivity|]. rewrite skipn_length. unfold lenN in *; lia. }
      unfold ct. clear - E0 E1 E3 E4 Hm.
      replace (N.to_nat len) with (4 + (4 + (N.to_nat n + N.to_nat (len - 4 - 4 - n))))%nat by lia.
      assert (K : forall {A} (a b : nat) (l : list A), firstn (a + b) l = firstn a l ++ firstn b (skipn a l)).
      { intros A a. induction a; intros b l; [reflexivity|]. destruct l; cbn.
        - rewrite firstn_nil. reflexivity.
        - f_equal. apply IHa. }
      rewrite !K, <- !app_assoc. reflexivity.
    + split.
      * rewrite Hc'. cbn [c_cts]. rewrite <- app_assoc. reflexivity.
      * constructor; [|assumption]. unfold CT_MAX, FSTRM_CONTROL_FIELD_CONTENT_TYPE_LENGTH_MAX in *. lia.
Qed.

Lemma decode_limits_spec c :
  known_type (c_type c) ->
  (decode_limits c = r_success \/ decode_limits c = r_failure) /\
  (decode_limits c = r_success <->
   (c_type c = T_START -> (length (c_cts c) <= 1)%nat) /\
   (c_type c = T_STOP \/ c_type c = T_FINISH -> c_cts c = [])).
Proof.
  destruct c as [t cts]. cbn [c_type c_cts]. unfold decode_limits. cbn [c_type c_cts].
  unfold known_type, FSTRM_CONTROL_START, FSTRM_CONTROL_STOP, FSTRM_CONTROL_FINISH,
   T_ACCEPT, T_START, T_STOP, T_READY, T_FINISH.
  intro K.
  destruct (t =? 2) eqn:E2.
  - destruct (1 <? length cts)%nat eqn:E; (split; [auto|]); split; intros H.
    + discriminate.
    + exfalso. destruct H as [H _]. assert (t = 2) by lia. specialize (H H0). lia.
    + split; [lia|intro]. lia.
    + reflexivity.
  - destruct ((t =? 3) || (t =? 5)) eqn:E35.
    + destruct (0 <? length cts)%nat eqn:E; (split; [auto|]); split; intros H.
      * discriminate.
      * exfalso. destruct H as [_ H]. rewrite H in E by lia. cbn in E. lia.
      * split; [lia|]. intros _. destruct cts; [reflexivity|cbn in E; lia].
      * reflexivity.
    + split; [auto|]. split; [|reflexivity]. intros _. split; lia.
Qed.

Lemma decode_body_sound c mem len :
  c_cts c = [] -> len <= lenN mem ->
  exists r c', decode_body c mem len = Ok (r, c') /\
    (r = r_success \/ r = r_failure) /\
    (r = r_success ->
       firstn (N.to_nat len) mem = ctl_payload (c_type c') (c_cts c') /\
       known_type (c_type c') /\ Forall (fun ct => lenN ct <= CT_MAX) (c_cts c') /\
       (c_type c' = T_START -> (length (c_cts c') <= 1)%nat) /\
       (c_type c' = T_STOP \/ c_type c' = T_FINISH -> c_cts c' = [])).
Proof.
  intros Hc Hm. unfold decode_body. rewrite load_be32_eq by assumption.
  destruct (len <? 4) eqn:E1; cbn [obind].
  { exists r_failure, c. repeat split; auto; discriminate. }
  destruct (type_known (ntohl_bytes mem)) eqn:ET.
  2:{ exists r_failure, c. repeat split; auto; discriminate. }
  apply type_known_spec in ET.
  destruct (decode_fields_sound (S (N.to_nat (len - 4))) (mk_control (ntohl_bytes mem) (c_cts c)) (skipn 4 mem) (len - 4))
    as (r & c' & Heq & Ht & Hr & Hs).
  { rewrite lenN_skipn. lia. }
  { lia. }
  rewrite Heq. cbn [obind].
  destruct Hr as [-> | ->].
  - destruct (Hs eq_refl) as (cts & Hfn & Hc' & Hall).
    cbn [c_type c_cts] in *.
    assert (KT : known_type (c_type c')) by (rewrite Ht; exact ET).
    destruct (decode_limits_spec c' KT) as [Hd Hiff].
    exists (decode_limits c'), c'. split; [reflexivity|]. split; [exact Hd|].
    intro Hok. apply Hiff in Hok. destruct Hok as [Hst Hsp].
    rewrite Hc, app_nil_l in Hc'. rewrite Hc' in *.
    repeat split; auto.
    unfold ctl_payload. fold (fields cts). rewrite <- Hfn, Ht, be32_ntohl by (unfold lenN in *; lia).
    replace (N.to_nat len) with (4 + N.to_nat (len - 4))%nat by lia.
    assert (4 <= length mem)%nat by (unfold lenN in *; lia).
    destruct mem as [|b0 [|b1 [|b2 [|b3 m]]]]; cbn [length] in *; try lia. reflexivity.
  - exists r_failure, c'. split; [reflexivity|]. split; [auto|discriminate].
Qed.

Lemma decode_body_complete c t cts extra :
  c_cts c = [] -> ctl_ok t cts ->
  decode_body c (ctl_payload t cts ++ extra) (lenN (ctl_payload t cts)) = Ok (r_success, mk_control t cts).
Proof.
  intros Hc [K1 K2 K3 K4 K5]. unfold decode_body.
  unfold ctl_payload at 1. rewrite <- app_assoc.
  rewrite load_be32_at by (try apply known_type_lt; try assumption; rewrite lenN_ctl_payload; lia).
  cbn [obind].
  rewrite (proj2 (type_known_spec t) K1).
  fold (fields cts). rewrite lenN_ctl_payload.
  replace (4 + lenN (fields cts) - 4) with (lenN (fields cts)) by lia.
  rewrite decode_fields_complete by (try assumption; lia).
  cbn [obind c_type c_cts]. rewrite Hc, app_nil_l.
  destruct (decode_limits_spec (mk_control t cts) K1) as [_ H].
  rewrite (proj2 H) by (cbn; auto). reflexivity.
Qed.

Lemma firstn_lenN {A} (l : list A) : firstn (N.to_nat (lenN l)) l = l.
Proof. rewrite lenN_length. apply firstn_all. Qed.

(** ** Decode: exact characterisation *)
Lemma control_decode_total c0 mem len flags : len <= lenN mem ->
  exists r c', control_decode c0 mem len flags = Ok (r, c') /\
    (r = r_success \/ r = r_failure) /\
    (r = r_success -> ctl_ok (c_type c') (c_cts c') /\
       firstn (N.to_nat len) mem = ctl_wire (N.odd flags) (c_type c') (c_cts c')).
Proof.
  intros Hm. unfold control_decode, flag_with_header. rewrite <- N.bit0_odd.
  assert (Fail : forall c1, exists r c', Ok (r_failure, c1) = Ok (r, c') /\
    (r = r_success \/ r = r_failure) /\
    (r = r_success -> ctl_ok (c_type c') (c_cts c') /\
       firstn (N.to_nat len) mem = ctl_wire (N.testbit flags 0) (c_type c') (c_cts c'))).
  { intro c1. exists r_failure, c1. repeat split; auto; discriminate. }
  destruct (N.testbit flags 0) eqn:EF.
  - rewrite load_be32_eq by assumption.
    destruct (len <? 4) eqn:E1; cbn [obind]; [apply Fail|].
    destruct (ntohl_bytes mem =? 0) eqn:E2; cbn [negb]; [|apply Fail].
    rewrite load_be32_eq by (rewrite lenN_skipn; lia).
    destruct (len - 4 <? 4) eqn:E3; cbn [obind]; [apply Fail|].
    destruct (FSTRM_CONTROL_FRAME_LENGTH_MAX <? ntohl_bytes (skipn 4 mem)) eqn:E4; [apply Fail|].
    destruct (ntohl_bytes (skipn 4 mem) =? len - 4 - 4) eqn:E5; cbn [negb]; [|apply Fail].
    destruct (decode_body_sound (control_reset c0) (skipn 4 (skipn 4 mem)) (len - 4 - 4)) as (r & c' & Heq & Hr & Hs).
    { reflexivity. }
    { rewrite !lenN_skipn. lia. }
    exists r, c'. split; [exact Heq|]. split; [exact Hr|]. intro Hrs.
    destruct (Hs Hrs) as (Hf & H1 & H2 & H3 & H4).
    assert (HL : lenN (ctl_payload (c_type c') (c_cts c')) = len - 4 - 4).
    { rewrite <- Hf, lenN_firstn, !lenN_skipn. lia. }
    split.
    + constructor; auto. rewrite HL. unfold FSTRM_CONTROL_FRAME_LENGTH_MAX, CTL_MAX in *. lia.
    + cbn [ctl_wire]. unfold ctl_frame. rewrite HL, <- Hf.
      assert (8 <= length mem)%nat by (unfold lenN in *; lia).
      replace (be32 0) with (firstn 4 mem) by (rewrite <- be32_ntohl by lia; f_equal; lia).
      replace (be32 (len - 4 - 4)) with (firstn 4 (skipn 4 mem))
        by (rewrite <- be32_ntohl by (rewrite skipn_length; lia); f_equal; lia).
      replace (N.to_nat len) with (8 + N.to_nat (len - 4 - 4))%nat by lia.
      do 8 (destruct mem as [|? mem]; [cbn [length] in *; lia|]). reflexivity.
  - destruct (FSTRM_CONTROL_FRAME_LENGTH_MAX <? len) eqn:E1; [apply Fail|].
    destruct (decode_body_sound (control_reset c0) mem len) as (r & c' & Heq & Hr & Hs).
    { reflexivity. }
    { assumption. }
    exists r, c'. split; [exact Heq|]. split; [exact Hr|]. intro Hrs.
    destruct (Hs Hrs) as (Hf & H1 & H2 & H3 & H4). split; [|exact Hf].
    constructor; auto. rewrite <- Hf, lenN_firstn.
    unfold FSTRM_CONTROL_FRAME_LENGTH_MAX, CTL_MAX in *. lia.
Qed.

Lemma control_decode_complete c0 t cts flags extra :
  ctl_ok t cts ->
  control_decode c0 (ctl_wire (N.odd flags) t cts ++ extra) (lenN (ctl_wire (N.odd flags) t cts)) flags
  = Ok (r_success, mk_control t cts).
Proof.
  intro K. unfold control_decode, flag_with_header. rewrite <- N.bit0_odd.
  pose proof (ok_total _ _ K) as KL. unfold CTL_MAX in KL.
  destruct (N.testbit flags 0); cbn [ctl_wire].
  - unfold ctl_frame at 1. rewrite <- !app_assoc, lenN_ctl_frame.
    rewrite load_be32_at by (change (2^32) with 4294967296; lia).
    cbn [obind]. change (negb (0 =? 0)) with false. cbv iota.
    rewrite load_be32_at by (change (2^32) with 4294967296; lia).
    cbn [obind].
    unfold FSTRM_CONTROL_FRAME_LENGTH_MAX.
    destruct (512 <? lenN (ctl_payload t cts)) eqn:E; [lia|].
    replace (8 + lenN (ctl_payload t cts) - 4 - 4) with (lenN (ctl_payload t cts)) by lia.
    rewrite N.eqb_refl. cbn [negb].
    apply decode_body_complete; [reflexivity|assumption].
  - unfold FSTRM_CONTROL_FRAME_LENGTH_MAX.
    destruct (512 <? lenN (ctl_payload t cts)) eqn:E; [lia|].
    apply decode_body_complete; [reflexivity|assumption].
Qed.

Lemma control_decode_iff c0 buf flags c' :
  control_decode c0 buf (lenN buf) flags = Ok (r_success, c') <->
  ctl_ok (c_type c') (c_cts c') /\ buf = ctl_wire (N.odd flags) (c_type c') (c_cts c').
Proof.
  split.
  - intro H. destruct (control_decode_total c0 buf (lenN buf) flags) as (r & c1 & Heq & _ & Hs); [lia|].
    rewrite H in Heq. injection Heq as <- <-. rewrite firstn_lenN in Hs. auto.
  - intros [K Hb]. pose proof (control_decode_complete c0 _ _ flags [] K) as H.
    rewrite app_nil_r, <- Hb in H. rewrite H. destruct c'; reflexivity.
Qed.

(** Decode depends only on the announced bytes, not on what follows them nor on
    the previous content of the object. *)
Lemma load_be32_frame mem e1 e2 len : len <= lenN mem ->
  (len < 4 /\ fs_load_be32 (mem ++ e1) len = Ok None /\ fs_load_be32 (mem ++ e2) len = Ok None) \/
  (4 <= len /\ exists v m, lenN m = lenN mem - 4 /\ fs_load_be32 (mem ++ e1) len = Ok (Some (v, m ++ e1, len - 4)) /\
    fs_load_be32 (mem ++ e2) len = Ok (Some (v, m ++ e2, len - 4))).
Proof.
  intro H. rewrite !load_be32_eq by (rewrite lenN_app; lia).
  destruct (len <? 4) eqn:E; [left; split; [lia|auto]|right]. split; [lia|].
  assert (4 <= length mem)%nat by (unfold lenN in *; lia).
  destruct mem as [|b0 [|b1 [|b2 [|b3 m]]]]; cbn [length] in *; try lia.
  exists (ntohl_bytes (b0 :: b1 :: b2 :: b3 :: m)), m. split; [unfold lenN; cbn [length]; lia|].
  auto.
Qed.

Lemma decode_fields_frame fuel : forall c mem e1 e2 len, len <= lenN mem ->
  decode_fields fuel c (mem ++ e1) len = decode_fields fuel c (mem ++ e2) len.
Proof.
  induction fuel as [|fuel IH]; intros c mem e1 e2 len H; [reflexivity|]. cbn [decode_fields].
  destruct (0 <? len); [|reflexivity].
  destruct (load_be32_frame mem e1 e2 len H) as [(L & -> & ->)|(L & v & m & Hm & -> & ->)]; cbn [obind]; [reflexivity|].
  destruct (v =? _); [|reflexivity].
  destruct (load_be32_frame m e1 e2 (len - 4)) as [(L1 & -> & ->)|(L1 & v1 & m1 & Hm1 & -> & ->)]; cbn [obind]; [lia|reflexivity|].
  destruct (len - 4 - 4 <? v1) eqn:E; [reflexivity|].
  destruct (FSTRM_CONTROL_FIELD_CONTENT_TYPE_LENGTH_MAX <? v1); [reflexivity|].
  rewrite !load_bytes_eq by (rewrite lenN_app; lia). rewrite E. cbn [obind].
  assert (HH : (N.to_nat v1 <= length m1)%nat) by (unfold lenN in *; lia).
  rewrite !firstn_app, !skipn_app.
  replace (N.to_nat v1 - length m1)%nat with 0%nat by lia. cbn [firstn skipn].
  rewrite !app_nil_r. apply IH. rewrite lenN_skipn. lia.
Qed.

Lemma control_decode_frame c0 c1 mem e1 e2 flags :
  control_decode c0 (mem ++ e1) (lenN mem) flags = control_decode c1 (mem ++ e2) (lenN mem) flags.
Proof.
  assert (B : forall m len, len <= lenN m ->
    decode_body (mk_control 0 []) (m ++ e1) len = decode_body (mk_control 0 []) (m ++ e2) len).
  { intros m len H. unfold decode_body.
    destruct (load_be32_frame m e1 e2 len H) as [(L & -> & ->)|(L & v & m1 & Hm & -> & ->)]; cbn [obind]; [reflexivity|].
    destruct (type_known v); [|reflexivity].
    rewrite (decode_fields_frame _ _ m1 e1 e2) by lia. reflexivity. }
  unfold control_decode, control_reset. destruct (flag_with_header flags).
  - destruct (load_be32_frame mem e1 e2 (lenN mem)) as [(L & -> & ->)|(L & v & m & Hm & -> & ->)]; cbn [obind]; [lia|reflexivity|].
    destruct (negb (v =? 0)); [reflexivity|].
    destruct (load_be32_frame m e1 e2 (lenN mem - 4)) as [(L1 & -> & ->)|(L1 & v1 & m1 & Hm1 & -> & ->)]; cbn [obind]; [lia|reflexivity|].
    destruct (_ <? v1); [reflexivity|]. destruct (negb _); [reflexivity|].
    apply B. lia.
  - destruct (_ <? lenN mem); [reflexivity|]. apply B. lia.
Qed.

(** ** Encoded size *)
Lemma encoded_size_loop_spec t cts : forall len,
  encoded_size_loop t cts len =
  if forallb (fun ct => lenN ct <=? CT_MAX) (visible t cts)
  then Some (len + lenN (fields (visible t cts))) else None.
Proof.
  unfold visible, T_START, T_STOP, T_FINISH, CT_MAX.
  destruct (t =? 2) eqn:E2.
  - intros len. destruct cts as [|ct rest]; [cbn; f_equal; lia|].
    cbn [encoded_size_loop firstn]. unfold FSTRM_CONTROL_STOP, FSTRM_CONTROL_FINISH, FSTRM_CONTROL_START, FSTRM_CONTROL_FIELD_CONTENT_TYPE_LENGTH_MAX.
    destruct ((t =? 3) || (t =? 5)) eqn:E; [lia|]. rewrite E2.
    unfold fields. cbn [forallb map concat]. rewrite app_nil_r, lenN_ct_field, andb_true_r.
    rewrite (N.leb_antisym 256 (lenN ct)).
    destruct (256 <? lenN ct); cbn [negb]; [reflexivity|]. f_equal. lia.
  - destruct ((t =? 3) || (t =? 5)) eqn:E.
    + intros len. destruct cts; cbn [encoded_size_loop]; unfold FSTRM_CONTROL_STOP, FSTRM_CONTROL_FINISH; rewrite ?E; cbn; f_equal; lia.
    + induction cts as [|ct rest IH]; intros len; [cbn; f_equal; lia|].
      cbn [encoded_size_loop forallb]. unfold FSTRM_CONTROL_STOP, FSTRM_CONTROL_FINISH, FSTRM_CONTROL_START, FSTRM_CONTROL_FIELD_CONTENT_TYPE_LENGTH_MAX.
      rewrite E, E2, fields_cons, lenN_app, lenN_ct_field.
      rewrite (N.leb_antisym 256 (lenN ct)).
      destruct (256 <? lenN ct); cbn [negb andb]; [reflexivity|].
      rewrite IH. destruct (forallb (fun ct : list byte => lenN ct <=? 256) rest); [|reflexivity]. f_equal. lia.
Qed.

Definition encodable (hdr : bool) (t : N) (cts : list bytes) : bool :=
  forallb (fun ct => lenN ct <=? CT_MAX) (visible t cts) &&
  (lenN (ctl_wire hdr t (visible t cts)) <=? CTL_MAX).

Lemma encoded_size_eq c flags :
  control_encoded_size c flags =
  if encodable (N.odd flags) (c_type c) (c_cts c)
  then (r_success, Some (lenN (ctl_wire (N.odd flags) (c_type c) (visible (c_type c) (c_cts c)))))
  else (r_failure, None).
Proof.
  unfold control_encoded_size, encodable, flag_with_header. rewrite <- N.bit0_odd.
  rewrite encoded_size_loop_spec.
  destruct (forallb _ _); cbn [andb]; [|reflexivity].
  set (v := visible _ _).
  assert (L : (if N.testbit flags 0 then 4 + 4 else 0) + 4 + lenN (fields v) = lenN (ctl_wire (N.testbit flags 0) (c_type c) v)).
  { destruct (N.testbit flags 0); cbn [ctl_wire]; rewrite ?lenN_ctl_frame, lenN_ctl_payload; lia. }
  rewrite L. unfold FSTRM_CONTROL_FRAME_LENGTH_MAX, CTL_MAX.
  rewrite (N.leb_antisym 512). destruct (512 <? _); reflexivity.
Qed.

(** ** Encode *)
Lemma splice_at pre bs mid post : length bs = length mid ->
  splice (pre ++ mid ++ post) (length pre) bs = pre ++ bs ++ post.
Proof.
  intro H. unfold splice. rewrite firstn_app_exact by reflexivity.
  f_equal. f_equal. rewrite app_assoc, skipn_app_exact; [reflexivity|].
  rewrite app_length. lia.
Qed.

Lemma store_ok pre mid post len bs :
  length bs = length mid -> lenN bs <= len ->
  fs_store_bytes (pre ++ mid ++ post) (length pre) len bs =
  Ok (Some ((pre ++ bs) ++ post, length (pre ++ bs), len - lenN bs)).
Proof.
  intros H1 H2. unfold fs_store_bytes.
  destruct (len <? lenN bs) eqn:E; [lia|].
  destruct (_ <? _)%nat eqn:E2; [rewrite !app_length in E2; lia|].
  rewrite splice_at by assumption. rewrite app_length, <- app_assoc. reflexivity.
Qed.

(** Storing [bs] at the end of a prefix in a large enough buffer. *)
Lemma store_step pre rest len bs :
  (length bs <= length rest)%nat -> lenN bs <= len ->
  fs_store_bytes (pre ++ rest) (length pre) len bs =
  Ok (Some ((pre ++ bs) ++ skipn (length bs) rest, length (pre ++ bs), len - lenN bs)).
Proof.
  intros H1 H2. rewrite <- (firstn_skipn (length bs) rest) at 1.
  apply store_ok; [|assumption]. rewrite firstn_length. lia.
Qed.

Lemma encode_loop_ok t cts : forall pre rest len,
  (length (fields (visible t cts)) <= length rest)%nat -> lenN (fields (visible t cts)) <= len ->
  encode_loop t cts (pre ++ rest) (length pre) len =
  Ok (r_success, (pre ++ fields (visible t cts)) ++ skipn (length (fields (visible t cts))) rest).
Proof.
  unfold visible, T_START, T_STOP, T_FINISH.
  assert (One : forall ct rest' pre rest len,
     (length (ct_field ct) <= length rest)%nat -> lenN (ct_field ct) <= len ->
     ((t =? 3) || (t =? 5)) = false ->
     encode_loop t (ct :: rest') (pre ++ rest) (length pre) len =
     let mem3 := (pre ++ ct_field ct) ++ skipn (length (ct_field ct)) rest in
     if t =? 2 then Ok (r_success, mem3) else encode_loop t rest' mem3 (length (pre ++ ct_field ct)) (len - lenN (ct_field ct))).
  { intros ct rest' pre rest len H1 H2 E. cbn [encode_loop].
    unfold FSTRM_CONTROL_STOP, FSTRM_CONTROL_FINISH, FSTRM_CONTROL_START, FSTRM_CONTROL_FIELD_CONTENT_TYPE. rewrite E.
    rewrite lenN_ct_field in H2.
    assert (H1' : (8 + length ct <= length rest)%nat).
    { unfold ct_field in H1. rewrite !app_length, !length_be32 in H1. lia. }
    unfold fs_store_be32. rewrite !htonl_be32.
    rewrite store_step by (rewrite ?length_be32, ?lenN_be32; lia). cbn [obind].
    rewrite store_step by (rewrite ?skipn_length, ?length_be32, ?lenN_be32; lia). cbn [obind].
    rewrite store_step by (rewrite ?skipn_length, ?length_be32, ?lenN_be32; lia). cbn [obind].
    cbv zeta.
    assert (EQ1 : ((pre ++ be32 1) ++ be32 (lenN ct)) ++ ct = pre ++ ct_field ct).
    { unfold ct_field, F_CONTENT_TYPE. rewrite <- !app_assoc. reflexivity. }
    rewrite EQ1.
    assert (EQ2 : skipn (length ct) (skipn (length (be32 (lenN ct))) (skipn (length (be32 1)) rest)) = skipn (length (ct_field ct)) rest).
    { unfold ct_field. rewrite !app_length, !length_be32.
      assert (S2 : forall a b, skipn a (skipn b rest) = skipn (b + a) rest).
      { intros a b. clear. revert rest. induction b; intros rest; [reflexivity|].
        destruct rest; [cbn; rewrite !skipn_nil; reflexivity|]. cbn. apply IHb. }
      cbn [length be32]. assert (S3 : forall a b (l : bytes), skipn a (skipn b l) = skipn (b + a) l).
      { intros a b. clear. induction b; intros l; [reflexivity|].
        destruct l; [cbn; rewrite !skipn_nil; reflexivity|]. cbn. apply IHb. }
      rewrite !S3. f_equal; lia. }
    rewrite EQ2, !lenN_be32, lenN_ct_field.
    replace (len - 4 - 4 - lenN ct) with (len - (8 + lenN ct)) by lia.
    reflexivity. }
  destruct (t =? 2) eqn:E2.
  - intros pre rest len H1 H2. destruct cts as [|ct rest'].
    { cbn. rewrite app_nil_r. reflexivity. }
    cbn [firstn] in *. unfold fields in *. cbn [map concat] in *. rewrite app_nil_r in *.
    rewrite One by (try assumption; lia). reflexivity.
  - destruct ((t =? 3) || (t =? 5)) eqn:E.
    + intros pre rest len _ _. destruct cts; cbn [encode_loop]; unfold FSTRM_CONTROL_STOP, FSTRM_CONTROL_FINISH; rewrite ?E; cbn; rewrite app_nil_r; reflexivity.
    + induction cts as [|ct rest' IH]; intros pre rest len H1 H2.
      { cbn. rewrite app_nil_r. reflexivity. }
      rewrite fields_cons, app_length in H1. rewrite fields_cons, lenN_app in H2.
      rewrite One by (try reflexivity; lia). cbv zeta.
      rewrite IH by (rewrite ?skipn_length; lia).
      rewrite fields_cons. f_equal. f_equal. rewrite <- !app_assoc. f_equal. f_equal. f_equal.
      rewrite app_length.
      assert (S2 : forall a b (l : bytes), skipn a (skipn b l) = skipn (b + a) l).
      { intros a b. clear. induction b; intros l; [reflexivity|].
        destruct l; [cbn; rewrite !skipn_nil; reflexivity|]. cbn. apply IHb. }
      rewrite S2. reflexivity.
Qed.

Lemma skipn_skipn' {A} a b (l : list A) : skipn a (skipn b l) = skipn (b + a) l.
Proof.
  revert l. induction b; intros l; [reflexivity|].
  destruct l; [cbn; rewrite !skipn_nil; reflexivity|]. cbn. apply IHb.
Qed.

Lemma encode_body_ok c pre rest len :
  let w := ctl_payload (c_type c) (visible (c_type c) (c_cts c)) in
  (length w <= length rest)%nat -> lenN w <= len ->
  encode_body c (pre ++ rest) (length pre) len =
  Ok (r_success, (pre ++ w) ++ skipn (length w) rest).
Proof.
  cbv zeta. unfold ctl_payload. fold (fields (visible (c_type c) (c_cts c))).
  set (f := fields _). rewrite app_length, lenN_app, lenN_be32, length_be32. intros H1 H2.
  unfold encode_body, fs_store_be32. rewrite htonl_be32.
  rewrite store_step by (rewrite ?length_be32, ?lenN_be32; lia). cbn [obind].
  rewrite encode_loop_ok; fold f; [| rewrite skipn_length, length_be32; lia | rewrite lenN_be32; lia].
  f_equal. f_equal. rewrite skipn_skipn', length_be32, <- !app_assoc. reflexivity.
Qed.

(** Complete description of encode. *)
Lemma control_encode_eq c mem cap flags :
  cap <= lenN mem ->
  let w := ctl_wire (N.odd flags) (c_type c) (visible (c_type c) (c_cts c)) in
  control_encode c mem cap flags =
  if encodable (N.odd flags) (c_type c) (c_cts c) && (lenN w <=? cap)
  then Ok (r_success, w ++ skipn (length w) mem, lenN w)
  else Ok (r_failure, mem, cap).
Proof.
  intros Hcap w. unfold control_encode. rewrite encoded_size_eq. fold w.
  destruct (encodable _ _ _); cbn [andb]; [|reflexivity].
  rewrite (N.leb_antisym cap). destruct (cap <? lenN w) eqn:E; cbn [negb]; [reflexivity|].
  unfold flag_with_header. subst w. rewrite <- N.bit0_odd in *.
  destruct (N.testbit flags 0); cbn [ctl_wire] in *.
  - set (p := ctl_payload (c_type c) (visible (c_type c) (c_cts c))) in *.
    assert (LW : lenN (ctl_frame (c_type c) (visible (c_type c) (c_cts c))) = 8 + lenN p)
      by (rewrite lenN_ctl_frame; reflexivity).
    unfold ctl_frame in *. fold p in LW, E |- *.
    set (W := be32 0 ++ be32 (lenN p) ++ p) in *.
    assert (LM : (length W <= length mem)%nat) by (unfold lenN in *; lia).
    assert (LW' : length W = (8 + length p)%nat) by (unfold lenN in *; lia).
    unfold fs_store_be32. rewrite !htonl_be32.
    change (fs_store_bytes mem 0 (lenN W) (be32 0)) with (fs_store_bytes ([] ++ mem) (length (@nil byte)) (lenN W) (be32 0)).
    rewrite store_step by (rewrite ?length_be32, ?lenN_be32; lia). cbn [obind].
    replace (lenN W - 2 * 4) with (lenN p) by lia.
    rewrite store_step by (rewrite ?skipn_length, ?length_be32, ?lenN_be32; lia). cbn [obind].
    rewrite encode_body_ok; fold p.
    + cbn [obind]. f_equal. f_equal. f_equal. cbn [app].
      rewrite !skipn_skipn', !length_be32, LW'. unfold W. rewrite <- !app_assoc. reflexivity.
    + rewrite !skipn_length, !length_be32. lia.
    + rewrite !lenN_be32. lia.
  - set (p := ctl_payload (c_type c) (visible (c_type c) (c_cts c))) in *.
    assert (LM : (length p <= length mem)%nat) by (unfold lenN in *; lia).
    change (encode_body c mem 0 (lenN p)) with (encode_body c ([] ++ mem) (length (@nil byte)) (lenN p)).
    rewrite encode_body_ok; fold p; [|assumption|lia].
    reflexivity.
Qed.

Lemma visible_ok t cts :
  known_type t -> encodable false t cts = true -> ctl_ok t (visible t cts).
Proof.
  intros K H. unfold encodable in H. apply andb_true_iff in H. destruct H as [H1 H2].
  cbn [ctl_wire] in H2. constructor.
  - assumption.
  - apply Forall_forall. intros x Hx. rewrite forallb_forall in H1. specialize (H1 x Hx). lia.
  - lia.
  - intros ->. change (length (firstn 1 cts) <= 1)%nat. rewrite firstn_length. lia.
  - intros HT. unfold visible, T_START, T_STOP, T_FINISH in *.
    destruct (t =? 2) eqn:E; [lia|]. destruct ((t =? 3) || (t =? 5)) eqn:E'; [reflexivity|lia].
Qed.

Lemma encodable_hdr t cts : encodable true t cts = true -> encodable false t cts = true.
Proof.
  unfold encodable. rewrite !andb_true_iff. intros [H1 H2]. split; [assumption|].
  cbn [ctl_wire] in *. rewrite lenN_ctl_frame in H2. lia.
Qed.

Lemma encodable_any h t cts : encodable h t cts = true -> encodable false t cts = true.
Proof. destruct h; [apply encodable_hdr|auto]. Qed.

Lemma visible_idem t cts : visible t (visible t cts) = visible t cts.
Proof.
  unfold visible. destruct (t =? T_START).
  - rewrite firstn_firstn. reflexivity.
  - destruct ((t =? T_STOP) || (t =? T_FINISH)); reflexivity.
Qed.

Lemma visible_of_ok t cts : ctl_ok t cts -> visible t cts = cts.
Proof.
  intros [K1 K2 K3 K4 K5]. unfold visible.
  destruct (t =? T_START) eqn:E.
  - apply firstn_all2. apply K4. lia.
  - destruct ((t =? T_STOP) || (t =? T_FINISH)) eqn:E'; [|reflexivity].
    symmetry. apply K5. lia.
Qed.

(** Round trip. *)
Lemma control_roundtrip c mem cap flags mem' n c0 :
  cap <= lenN mem -> known_type (c_type c) ->
  control_encode c mem cap flags = Ok (r_success, mem', n) ->
  control_decode c0 mem' n flags = Ok (r_success, mk_control (c_type c) (visible (c_type c) (c_cts c))).
Proof.
  intros Hcap K H. rewrite control_encode_eq in H by assumption.
  destruct (encodable (N.odd flags) _ _) eqn:E; cbn [andb] in H; [|discriminate].
  destruct (lenN _ <=? cap) eqn:E2; [|discriminate].
  injection H as <- <-.
  apply control_decode_complete. apply visible_ok; [assumption|].
  eapply encodable_any; eassumption.
Qed.

Lemma control_encode_wire c mem cap flags mem' n :
  cap <= lenN mem ->
  control_encode c mem cap flags = Ok (r_success, mem', n) ->
  firstn (N.to_nat n) mem' = ctl_wire (N.odd flags) (c_type c) (visible (c_type c) (c_cts c)).
Proof.
  intros Hcap H. rewrite control_encode_eq in H by assumption.
  destruct (encodable (N.odd flags) _ _ && _) eqn:E; [|discriminate].
  injection H as <- <-. apply firstn_app_exact. apply lenN_length.
Qed.

(** Canonicity. *)
Lemma control_decode_reencode c0 buf flags c' mem cap :
  control_decode c0 buf (lenN buf) flags = Ok (r_success, c') ->
  cap <= lenN mem -> lenN buf <= cap -> (N.odd flags = true -> lenN buf <= CTL_MAX) ->
  control_encode c' mem cap flags = Ok (r_success, buf ++ skipn (length buf) mem, lenN buf).
Proof.
  intros H Hcap Hb Hl. apply control_decode_iff in H. destruct H as [K ->].
  rewrite control_encode_eq by assumption.
  rewrite (visible_of_ok _ _ K).
  assert (E : encodable (N.odd flags) (c_type c') (c_cts c') = true).
  { unfold encodable. rewrite (visible_of_ok _ _ K). apply andb_true_iff. split.
    - apply forallb_forall. intros x Hx. pose proof (ok_len _ _ K) as F.
      rewrite Forall_forall in F. specialize (F x Hx). lia.
    - pose proof (ok_total _ _ K). destruct (N.odd flags); cbn [ctl_wire] in *; [|lia].
      specialize (Hl eq_refl). lia. }
  rewrite E. cbn [andb]. destruct (lenN _ <=? cap) eqn:E2; [reflexivity|lia].
Qed.

(** ** Accessors and matching *)
Lemma get_num_eq c : control_get_num c = (r_success, length (visible (c_type c) (c_cts c))).
Proof.
  unfold control_get_num, visible, FSTRM_CONTROL_STOP, FSTRM_CONTROL_FINISH, FSTRM_CONTROL_START, T_START, T_STOP, T_FINISH.
  destruct (c_type c =? 3) eqn:E3, (c_type c =? 5) eqn:E5, (c_type c =? 2) eqn:E2; cbn [orb]; try lia; try reflexivity.
  f_equal. rewrite firstn_length. destruct (1 <? _)%nat eqn:E; lia.
Qed.

Lemma visible_prefix t cts : exists rest, cts = visible t cts ++ rest.
Proof.
  unfold visible. destruct (t =? T_START).
  - exists (skipn 1 cts). rewrite firstn_skipn. reflexivity.
  - destruct ((t =? T_STOP) || (t =? T_FINISH)); [exists cts; reflexivity|exists []; rewrite app_nil_r; reflexivity].
Qed.

Lemma match_loop_spec c m pre l rest : c_cts c = pre ++ l ++ rest ->
  (match_loop c m (length pre) (length l) = r_success /\ In m l) \/
  (match_loop c m (length pre) (length l) = r_failure /\ ~ In m l).
Proof.
  revert pre. induction l as [|x l IH]; intros pre Hc; [right; cbn; auto|].
  cbn [length match_loop]. unfold control_get_field.
  assert (L : (length pre <? length (c_cts c))%nat = true).
  { rewrite Hc, !app_length. cbn [length]. apply Nat.ltb_lt. lia. }
  rewrite L.
  assert (NE : nth_error (c_cts c) (length pre) = Some x).
  { rewrite Hc, nth_error_app2, Nat.sub_diag by lia. reflexivity. }
  rewrite NE.
  assert (IH' := IH (pre ++ [x])). rewrite app_length in IH'. cbn [length] in IH'.
  rewrite Nat.add_1_r in IH'. rewrite <- app_assoc in IH'. specialize (IH' Hc).
  destruct (bytes_eq_dec x m) as [->|Hne].
  - rewrite N.eqb_refl, bytes_eqb_refl. cbn [negb]. left. split; [reflexivity|left; reflexivity].
  - assert (HB : bytes_eqb x m = false) by (apply bytes_eqb_neq; assumption). rewrite HB.
    destruct (negb (lenN x =? lenN m)).
    + destruct IH' as [[-> H]|[-> H]]; [left|right]; (split; [reflexivity|]); cbn; intuition.
    + destruct IH' as [[-> H]|[-> H]]; [left|right]; (split; [reflexivity|]); cbn; intuition.
Qed.

Lemma control_match_spec c m :
  let t := c_type c in
  let vis := visible t (c_cts c) in
  (control_match c m = r_success \/ control_match c m = r_failure) /\
  (control_match c m = r_success <->
   t <> T_STOP /\ t <> T_FINISH /\ (vis = [] \/ exists s, m = Some s /\ In s vis)).
Proof.
  cbv zeta. unfold control_match. rewrite get_num_eq.
  unfold FSTRM_CONTROL_STOP, FSTRM_CONTROL_FINISH, T_STOP, T_FINISH.
  destruct ((c_type c =? 3) || (c_type c =? 5)) eqn:E.
  { split; [auto|]. split; [discriminate|]. lia. }
  destruct (visible_prefix (c_type c) (c_cts c)) as [rest Hr].
  set (vis := visible (c_type c) (c_cts c)) in *.
  destruct (length vis =? 0)%nat eqn:E0.
  { split; [auto|]. split; [intros _|reflexivity].
    destruct vis; [|cbn in E0; lia]. repeat split; try lia. auto. }
  assert (Hne : vis <> []) by (intros ->; cbn in E0; lia).
  destruct m as [s|].
  - destruct (match_loop_spec c s [] vis rest) as [[H1 H2]|[H1 H2]]; [assumption| |]; cbn [length] in H1; rewrite H1.
    + split; [auto|]. split; [|reflexivity]. intros _. repeat split; try lia. right. exists s. auto.
    + split; [auto|]. split; [discriminate|]. intros (_ & _ & [H|(s' & [= <-] & H)]); contradiction.
  - split; [auto|]. split; [discriminate|]. intros (_ & _ & [H|(s' & [=] & H)]); contradiction.
Qed.

Lemma get_field_eq c i : control_get_field c i =
  match nth_error (c_cts c) i with Some x => (r_success, Some x) | None => (r_failure, None) end.
Proof.
  unfold control_get_field. destruct (i <? length (c_cts c))%nat eqn:E.
  - destruct (nth_error (c_cts c) i) eqn:N; [reflexivity|]. apply nth_error_None in N. lia.
  - destruct (nth_error (c_cts c) i) eqn:N; [|reflexivity].
    assert (nth_error (c_cts c) i <> None) by congruence. apply nth_error_Some in H. lia.
Qed.

(** ** Statements used by the property files *)
Lemma encodable_fits h t cts : encodable h t cts = true <-> fits h t (visible t cts).
Proof.
  unfold encodable, fits. rewrite andb_true_iff, forallb_forall, Forall_forall.
  split; intros [H1 H2]; (split; [|lia]); intros x Hx; specialize (H1 x Hx); lia.
Qed.

Lemma encode_exact c mem cap flags : cap <= lenN mem ->
  match control_encoded_size c flags with
  | (r_success, Some n) =>
      (n <= cap -> exists w, lenN w = n /\
         control_encode c mem cap flags = Ok (r_success, w ++ skipn (length w) mem, n)) /\
      (cap < n -> control_encode c mem cap flags = Ok (r_failure, mem, cap))
  | (r_failure, None) => control_encode c mem cap flags = Ok (r_failure, mem, cap)
  | _ => False
  end.
Proof.
  intro H. rewrite encoded_size_eq, control_encode_eq by assumption.
  destruct (encodable (N.odd flags) (c_type c) (c_cts c)) eqn:E; cbn [andb]; [|reflexivity].
  set (w := ctl_wire _ _ _). split; intro Hn.
  - exists w. split; [reflexivity|]. destruct (lenN w <=? cap) eqn:E2; [reflexivity|lia].
  - destruct (lenN w <=? cap) eqn:E2; [lia|reflexivity].
Qed.

Lemma decode_accepts_iff c0 buf flags :
  (forall t cts, control_decode c0 buf (lenN buf) flags = Ok (r_success, mk_control t cts) <->
     ctl_ok t cts /\ buf = ctl_wire (N.odd flags) t cts) /\
  ((~ exists t cts, ctl_ok t cts /\ buf = ctl_wire (N.odd flags) t cts) ->
   exists c', control_decode c0 buf (lenN buf) flags = Ok (r_failure, c')).
Proof.
  split.
  - intros t cts. rewrite control_decode_iff. reflexivity.
  - intro Hn. destruct (control_decode_total c0 buf (lenN buf) flags) as (r & c' & H1 & [-> | ->] & H3); [lia| |eauto].
    exfalso. apply Hn. rewrite firstn_lenN in H3. eauto.
Qed.

Lemma decode_safe c0 c1 mem len flags tail1 tail2 :
  len = lenN mem ->
  exists r c', (r = r_success \/ r = r_failure) /\
    control_decode c0 (mem ++ tail1) len flags = Ok (r, c') /\
    control_decode c1 (mem ++ tail2) len flags = Ok (r, c').
Proof.
  intros ->.
  destruct (control_decode_total c0 (mem ++ tail1) (lenN mem) flags) as (r & c' & H1 & H2 & _).
  { rewrite lenN_app. lia. }
  exists r, c'. split; [assumption|]. split; [assumption|].
  rewrite <- H1. apply control_decode_frame.
Qed.

Lemma decode_injective c0 c1 b1 b2 flags c' :
  control_decode c0 b1 (lenN b1) flags = Ok (r_success, c') ->
  control_decode c1 b2 (lenN b2) flags = Ok (r_success, c') -> b1 = b2.
Proof. rewrite !control_decode_iff. intros [_ ->] [_ ->]. reflexivity. Qed.

Lemma encodable_iff c flags :
  (fits (N.odd flags) (c_type c) (visible (c_type c) (c_cts c)) ->
     control_encoded_size c flags =
     (r_success, Some (lenN (ctl_wire (N.odd flags) (c_type c) (visible (c_type c) (c_cts c)))))) /\
  (~ fits (N.odd flags) (c_type c) (visible (c_type c) (c_cts c)) ->
     control_encoded_size c flags = (r_failure, None)).
Proof.
  rewrite <- encodable_fits, encoded_size_eq.
  destruct (encodable _ _ _); split; intro H; try reflexivity; try discriminate. now contradiction H.
Qed.

Lemma match_iff c m :
  (matches (c_type c) (visible (c_type c) (c_cts c)) m -> control_match c m = r_success) /\
  (~ matches (c_type c) (visible (c_type c) (c_cts c)) m -> control_match c m = r_failure).
Proof.
  destruct (control_match_spec c m) as [H1 H2]. unfold matches. split; intro H.
  - apply H2, H.
  - destruct H1 as [H1|H1]; [|assumption]. exfalso. apply H, H2, H1.
Qed.

Lemma accessors_decoded c0 buf flags c i :
  control_decode c0 buf (lenN buf) flags = Ok (r_success, c) ->
  control_get_type c = (r_success, Some (c_type c)) /\
  control_get_num c = (r_success, length (c_cts c)) /\
  buf = ctl_wire (N.odd flags) (c_type c) (c_cts c) /\
  control_get_field c i =
    match nth_error (c_cts c) i with
    | Some ct => (r_success, Some ct)
    | None => (r_failure, None)
    end.
Proof.
  intro H. apply control_decode_iff in H. destruct H as [K ->].
  split; [|split; [|split]].
  - unfold control_get_type. rewrite (proj2 (type_known_spec _) (ok_type _ _ K)). reflexivity.
  - rewrite get_num_eq, (visible_of_ok _ _ K). reflexivity.
  - reflexivity.
  - apply get_field_eq.
Qed.

(** Whether an API-built object is faithful: the setters keep what they are given. *)
Lemma built_object t cts : known_type t ->
  exists c, control_set_type control_init t = (r_success, c) /\
  fold_left (fun c ct => snd (control_add_field c ct)) cts c = mk_control t cts.
Proof.
  intro K. unfold control_set_type. rewrite (proj2 (type_known_spec _) K). eexists. split; [reflexivity|].
  cbn [control_init c_cts].
  enough (G : forall l, fold_left (fun c ct => snd (control_add_field c ct)) cts (mk_control t l) = mk_control t (l ++ cts)) by apply G.
  induction cts as [|ct cts IH]; intros l; cbn; [rewrite app_nil_r; reflexivity|].
  unfold control_add_field in IH. cbn in IH. rewrite IH, <- app_assoc. reflexivity.
Qed.

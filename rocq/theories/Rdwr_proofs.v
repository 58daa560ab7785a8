From Verif Require Import Bytes Spec Bytes_proofs Io Io_proofs SpecTrace Control Control_proofs Rdwr.
Ltac Zify.zify_post_hook ::= Z.div_mod_to_equations.
Local Open Scope N_scope.

(** ** Traces, one event at a time *)
Lemma tsteps_app s a b : tsteps s (a ++ b) =
  match tsteps s a with Some s' => tsteps s' b | None => None end.
Proof.
  revert s. induction a as [|e a IH]; intros s; cbn; [reflexivity|].
  destruct (tstep s e); [apply IH|reflexivity].
Qed.

Lemma transport_state_snoc h e : transport_state (h ++ [e]) =
  match transport_state h with Some s => tstep s e | None => None end.
Proof.
  unfold transport_state. rewrite tsteps_app. destruct (tsteps TClosed h); [|reflexivity].
  cbn. destruct (tstep t e); reflexivity.
Qed.

Lemma write_control_frame_eq rw c :
  write_control_frame rw c =
  if encodable true (c_type c) (c_cts c)
  then rdwr_write rw [ctl_frame (c_type c) (visible (c_type c) (c_cts c))]
  else Ret (r_failure, rw).
Proof.
  unfold write_control_frame. rewrite encoded_size_eq. change (N.odd 1) with true.
  destruct (encodable true (c_type c) (c_cts c)) eqn:E; [|reflexivity].
  set (w := ctl_wire true (c_type c) (visible (c_type c) (c_cts c))).
  rewrite control_encode_eq.
  2:{ unfold lenN. rewrite repeat_length. lia. }
  change (N.odd 1) with true. rewrite E. cbn [andb]. fold w. rewrite N.leb_refl. cbn [lift bind res_eqb negb].
  rewrite firstn_app_exact by apply lenN_length. reflexivity.
Qed.

Lemma write_control_eq rw t ct : type_known t = true ->
  write_control rw t ct =
  let cts := match ct with Some b => [b] | None => [] end in
  if encodable true t cts then rdwr_write rw [ctl_frame t (visible t cts)] else Ret (r_failure, rw).
Proof.
  intro K. unfold write_control, control_set_type. rewrite K. cbn [c_cts control_init].
  destruct ct as [b|]; cbn [control_add_field snd c_type c_cts app]; rewrite write_control_frame_eq; reflexivity.
Qed.

Lemma decode_noheader c0 frame :
  exists r c', control_decode c0 frame (lenN frame) 0 = Ok (r, c') /\
   (r = r_success \/ r = r_failure) /\
   (r = r_success -> ctl_ok (c_type c') (c_cts c') /\ frame = ctl_payload (c_type c') (c_cts c')).
Proof.
  destruct (control_decode_total c0 frame (lenN frame) 0) as (r & c' & H1 & H2 & H3); [lia|].
  rewrite firstn_lenN in H3. eauto.
Qed.

Lemma get_type_ok c : known_type (c_type c) -> control_get_type c = (r_success, Some (c_type c)).
Proof. intro H. unfold control_get_type. rewrite (proj2 (type_known_spec _) H). reflexivity. Qed.

Section Sess.
Variable okb : res -> bool.
Hypothesis okb_success : okb r_success = true.

Local Notation sessions := (sessions okb).

Lemma sessions_snoc h e : sessions (h ++ [e]) = sess_step okb (sessions h) e.
Proof. unfold SpecTrace.sessions. rewrite fold_left_app. reflexivity. Qed.

Lemma received_snoc h e : received (h ++ [e]) = in_step (received h) e.
Proof. unfold received. rewrite fold_left_app. reflexivity. Qed.

Lemma add_last_snoc ss cur b : add_last (ss ++ [cur]) b = ss ++ [cur ++ b].
Proof. unfold add_last. rewrite rev_app_distr. cbn. rewrite rev_involutive. reflexivity. Qed.

Definition legal (h : trace) : Prop := transport_state h <> None.

(** The transport is in the state the rdwr object believes. *)
Definition RWI (rw : rdwr) (h : trace) : Prop :=
  transport_state h = Some (if rw_opened rw then TOpen else TClosed).

Lemma RWI_legal rw h : RWI rw h -> legal h.
Proof. unfold RWI, legal. intros ->. discriminate. Qed.

(** Same object, possibly different opened flag. *)
Definition same_ops (rw rw' : rdwr) : Prop := exists b, rw' = set_opened rw b.

Lemma same_ops_refl rw : same_ops rw rw.
Proof. exists (rw_opened rw). destruct rw; reflexivity. Qed.
Lemma same_ops_set rw b : same_ops rw (set_opened rw b).
Proof. exists b. reflexivity. Qed.
Lemma same_ops_trans a b c : same_ops a b -> same_ops b c -> same_ops a c.
Proof. intros [x ->] [y ->]. exists y. reflexivity. Qed.

Lemma same_ops_fields a b : same_ops a b ->
  rw_h b = rw_h a /\ rw_has_destroy b = rw_has_destroy a /\ rw_has_open b = rw_has_open a /\
  rw_has_close b = rw_has_close a /\ rw_has_read b = rw_has_read a /\ rw_has_write b = rw_has_write a.
Proof. intros [x ->]. cbn. auto 10. Qed.

(** Nothing new on the wire, legal so far. *)
Definition quiet (h h' : trace) : Prop := sessions h' = sessions h /\ legal h'.

Lemma quiet_refl rw h : RWI rw h -> quiet h h.
Proof. intro H. split; [reflexivity|eapply RWI_legal; eassumption]. Qed.

(** ** rdwr rules *)
Lemma wp_rdwr_close rw (Q : post _) h :
  rw_has_close rw = true -> (RWI rw h \/ (rw_opened rw = true /\ transport_state h = Some TBroken)) ->
  quiet h h ->
  (quiet h h -> Q h Cut) ->
  (forall h' r, sessions h' = sessions h -> received h' = received h ->
     RWI (set_opened rw false) h' -> (h' = h \/ exists a, h' = h ++ [(QClose (rw_h rw), a)]) ->
     (rw_opened rw = false -> h' = h) -> Q h' (Done (r, set_opened rw false))) ->
  wp (rdwr_close rw) Q h.
Proof.
  intros HC HI HQ Hcut HD. unfold rdwr_close. rewrite HC. cbn [negb].
  destruct (rw_opened rw) eqn:EO.
  - cbn. split; [auto|]. intros a Ha. destruct a; try contradiction. cbn.
    apply HD.
    + rewrite sessions_snoc. reflexivity.
    + rewrite received_snoc. reflexivity.
    + unfold RWI in *. rewrite transport_state_snoc.
      destruct HI as [HI|[_ HI]]; rewrite ?EO in HI; rewrite HI; reflexivity.
    + right. eexists. reflexivity.
    + discriminate.
  - cbn.
    assert (E : rw = set_opened rw false) by (destruct rw; cbn in *; subst; reflexivity).
    rewrite E at 1. apply HD; auto.
    destruct HI as [HI|[X _]]; [|congruence].
    unfold RWI in *. rewrite EO in HI. exact HI.
Qed.

Lemma wp_rdwr_open rw (Q : post _) h :
  rw_has_open rw = true -> RWI rw h ->
  Q h Cut ->
  (forall h', h' = h ++ [(QOpen (rw_h rw), ARes r_success)] -> RWI (set_opened rw true) h' -> sessions h' = sessions h ++ [[]] -> received h' = [] ->
     Q h' (Done (r_success, set_opened rw true))) ->
  (forall h' r, h' = h ++ [(QOpen (rw_h rw), ARes r)] -> r <> r_success -> RWI rw h' -> sessions h' = sessions h -> received h' = received h ->
     Q h' (Done (r, rw))) ->
  wp (rdwr_open rw) Q h.
Proof.
  intros HO HI Hcut HS HF. unfold rdwr_open. rewrite HO. cbn.
  split; [assumption|]. intros a Ha. destruct a; try contradiction. cbn.
  destruct r; cbn; [apply HS|apply HF|apply HF|apply HF|apply HF]; try discriminate; try reflexivity;
    try (unfold RWI in *; rewrite transport_state_snoc, HI; destruct (rw_opened rw); reflexivity);
    try (rewrite sessions_snoc; reflexivity); try (rewrite received_snoc; reflexivity).
Qed.

Lemma wp_rdwr_read rw n (Q : post _) h :
  rw_has_close rw = true -> rw_has_read rw = true -> RWI rw h ->
  (forall h', quiet h h' -> Q h' Cut) ->
  (forall h' bs, rw_opened rw = true -> lenN bs = n -> RWI rw h' -> quiet h h' ->
     received h' = received h ++ bs ->
     Q h' (Done (r_success, bs, rw))) ->
  (forall h' r, r <> r_success -> RWI (set_opened rw false) h' -> quiet h h' ->
     received h' = received h -> (r = r_failure \/ rw_opened rw = true) ->
     Q h' (Done (r, [], set_opened rw false))) ->
  wp (rdwr_read rw n) Q h.
Proof.
  intros HC HR HI Hcut HS HF. unfold rdwr_read. rewrite HR.
  destruct (rw_opened rw) eqn:EO; cbn [negb].
  2:{ cbn. assert (E : rw = set_opened rw false) by (destruct rw; cbn in *; subst; reflexivity).
      rewrite E at 1. apply HF; auto; try discriminate.
      - unfold RWI in *. rewrite EO in HI. exact HI.
      - eapply quiet_refl; eassumption. }
  unfold RWI in HI. rewrite EO in HI.
  cbn [negb bind ask_read wp]. split.
  { apply Hcut. split; [reflexivity|]. unfold legal. rewrite HI. discriminate. }
  intros a Ha. destruct a; try contradiction. cbn [bind].
  destruct (res_eqb r r_success) eqn:ER; cbn [negb].
  - apply res_eqb_true in ER. subst r. cbn. apply HS; auto.
    + unfold RWI. rewrite transport_state_snoc, HI, EO. reflexivity.
    + split; [rewrite sessions_snoc; reflexivity|]. unfold legal. rewrite transport_state_snoc, HI. discriminate.
    + rewrite received_snoc. reflexivity.
  - pose proof (res_eqb_false _ _ ER) as Hne. apply wp_bind_i.
    assert (T1 : transport_state (h ++ [(QRead (rw_h rw) n, ARead r bs)]) = Some TBroken).
    { rewrite transport_state_snoc, HI. cbn. rewrite ER. reflexivity. }
    assert (S1 : sessions (h ++ [(QRead (rw_h rw) n, ARead r bs)]) = sessions h).
    { rewrite sessions_snoc. reflexivity. }
    assert (R1 : received (h ++ [(QRead (rw_h rw) n, ARead r bs)]) = received h).
    { rewrite received_snoc. cbn. destruct r; try reflexivity. contradiction. }
    apply wp_rdwr_close; auto.
    + split; [reflexivity|]. unfold legal. rewrite T1. discriminate.
    + intros [_ L]. cbn. apply Hcut. split; assumption.
    + intros h' r0 HS' HR' HI' _ _. cbn. apply HF; auto.
      * split; [congruence|]. eapply RWI_legal; eassumption.
      * congruence.
Qed.

(** Like [quiet], but the bytes [b] of one write may have been counted. *)
Definition wrote (h h' : trace) (b : bytes) : Prop :=
  legal h' /\ (sessions h' = sessions h \/ sessions h' = add_last (sessions h) b).

Lemma quiet_wrote h h' b : quiet h h' -> wrote h h' b.
Proof. intros [H1 H2]. split; auto. Qed.

Lemma wp_rdwr_write rw iov (Q : post _) h :
  rw_has_close rw = true -> rw_has_write rw = true -> RWI rw h ->
  (forall h', rw_opened rw = true -> wrote h h' (concat iov) -> Q h' Cut) ->
  (forall h', rw_opened rw = true -> RWI rw h' -> sessions h' = add_last (sessions h) (concat iov) ->
     received h' = received h -> Q h' (Done (r_success, rw))) ->
  (forall h' r, r <> r_success -> RWI (set_opened rw false) h' -> wrote h h' (concat iov) ->
     received h' = received h -> (rw_opened rw = false -> h' = h) -> Q h' (Done (r, set_opened rw false))) ->
  wp (rdwr_write rw iov) Q h.
Proof.
  intros HC HW HI Hcut HS HF. unfold rdwr_write. rewrite HW.
  destruct (rw_opened rw) eqn:EO; cbn [negb].
  2:{ cbn. assert (E : rw = set_opened rw false) by (destruct rw; cbn in *; subst; reflexivity).
      rewrite E at 1. apply HF; auto; try discriminate.
      - unfold RWI in *. rewrite EO in HI. exact HI.
      - apply quiet_wrote. eapply quiet_refl; eassumption. }
  unfold RWI in HI. rewrite EO in HI.
  cbn [bind ask_res wp]. split.
  { apply Hcut; [reflexivity|]. apply quiet_wrote. split; [reflexivity|]. unfold legal. rewrite HI. discriminate. }
  intros a Ha. destruct a; try contradiction. cbn [bind].
  destruct (res_eqb r r_success) eqn:ER; cbn [negb].
  - apply res_eqb_true in ER. subst r. cbn. apply HS; auto.
    + unfold RWI. rewrite transport_state_snoc, HI, EO. reflexivity.
    + rewrite sessions_snoc. cbn. rewrite okb_success. reflexivity.
    + rewrite received_snoc. reflexivity.
  - pose proof (res_eqb_false _ _ ER) as Hne. apply wp_bind_i.
    assert (T1 : transport_state (h ++ [(QWrite (rw_h rw) iov, ARes r)]) = Some TBroken).
    { rewrite transport_state_snoc, HI. cbn. rewrite ER. reflexivity. }
    assert (S1 : let s := sessions (h ++ [(QWrite (rw_h rw) iov, ARes r)]) in
                 s = sessions h \/ s = add_last (sessions h) (concat iov)).
    { cbv zeta. rewrite sessions_snoc. cbn. destruct (okb r); auto. }
    assert (R1 : received (h ++ [(QWrite (rw_h rw) iov, ARes r)]) = received h).
    { rewrite received_snoc. reflexivity. }
    apply wp_rdwr_close; auto.
    + split; [reflexivity|]. unfold legal. rewrite T1. discriminate.
    + intros [_ L]. cbn. apply Hcut; [reflexivity|]. split; assumption.
    + intros h' r0 HS' HR' HI' _ _. cbn. apply HF; auto; try congruence.
      split; [eapply RWI_legal; eassumption|]. rewrite HS'. exact S1.
Qed.

Lemma wp_rdwr_destroy rw (Q : post _) h :
  RWI rw h ->
  Q h Cut ->
  (forall h' r, sessions h' = sessions h ->
      (h' = h \/ exists a, h' = h ++ [(QDestroy (rw_h rw), a)]) ->
      legal h' -> Q h' (Done r)) ->
  wp (rdwr_destroy rw) Q h.
Proof.
  intros HI Hcut HD. unfold rdwr_destroy. destruct (rw_has_destroy rw); cbn.
  - split; [assumption|]. intros a Ha. destruct a; try contradiction. cbn. apply HD.
    + rewrite sessions_snoc. reflexivity.
    + right. eexists. reflexivity.
    + unfold legal. rewrite transport_state_snoc, HI. destruct (rw_opened rw); discriminate.
  - apply HD; auto. eapply RWI_legal; eassumption.
Qed.

(** ** Control frames *)
Lemma wp_write_control_frame rw c (Q : post _) h :
  rw_has_close rw = true -> rw_has_write rw = true -> RWI rw h ->
  let fr := ctl_frame (c_type c) (visible (c_type c) (c_cts c)) in
  (forall h', rw_opened rw = true -> wrote h h' fr -> Q h' Cut) ->
  (forall h', rw_opened rw = true -> RWI rw h' ->
     encodable true (c_type c) (c_cts c) = true ->
     sessions h' = add_last (sessions h) fr ->
     received h' = received h -> Q h' (Done (r_success, rw))) ->
  (forall h' r rw', r <> r_success -> same_ops rw rw' -> RWI rw' h' -> wrote h h' fr ->
     received h' = received h -> (rw_opened rw = false -> h' = h) -> Q h' (Done (r, rw'))) ->
  wp (write_control_frame rw c) Q h.
Proof.
  intros HC HW HI fr Hcut HS HF. rewrite write_control_frame_eq.
  destruct (encodable true (c_type c) (c_cts c)) eqn:E.
  - apply wp_rdwr_write; auto; unfold fr in *; cbn [concat]; rewrite app_nil_r; auto.
    intros. apply HF; auto. apply same_ops_set.
  - cbn. apply HF; auto; try discriminate; try apply same_ops_refl.
    apply quiet_wrote. eapply quiet_refl; eassumption.
Qed.

Lemma quiet_trans a b c : quiet a b -> quiet b c -> quiet a c.
Proof. intros [H1 _] [H2 H3]. split; [congruence|assumption]. Qed.

Lemma quiet_iso h n : legal h -> quiet h (h ++ [(QIsoUb n, AUnit)]) .
Proof.
  intro L. split; [rewrite sessions_snoc; reflexivity|].
  unfold legal in *. rewrite transport_state_snoc. destruct (transport_state h); [discriminate|contradiction].
Qed.

Lemma wp_read_tail rw c (Q : post _) h :
  rw_has_close rw = true -> rw_has_read rw = true -> RWI rw h ->
  (forall h', quiet h h' -> Q h' Cut) ->
  (forall h' c', rw_opened rw = true -> RWI rw h' -> quiet h h' ->
     ctl_ok (c_type c') (c_cts c') ->
     received h' = received h ++ be32 (lenN (ctl_payload (c_type c') (c_cts c'))) ++ ctl_payload (c_type c') (c_cts c') ->
     Q h' (Done (r_success, Some (c_type c'), c', rw))) ->
  (forall h' r t c' rw', r <> r_success -> same_ops rw rw' -> RWI rw' h' -> quiet h h' ->
     (r = r_failure \/ rw_opened rw' = false) -> Q h' (Done (r, t, c', rw'))) ->
  wp (read_control_frame_tail rw c) Q h.
Proof.
  intros HC HR HI Hcut HS HF. unfold read_control_frame_tail. apply wp_bind_i.
  apply wp_rdwr_read; auto; unfold bind_post.
  2:{ intros h1 r Hr HI1 HQ1 _ _.
      destruct (res_eqb r r_success) eqn:E; [apply res_eqb_true in E; contradiction|].
      cbn. apply HF; auto. apply same_ops_set. }
  intros h1 b Hop Lb HI1 HQ1 HR1. cbn [res_eqb negb].
  set (len := ntohl_bytes b).
  destruct (FSTRM_CONTROL_FRAME_LENGTH_MAX <? len) eqn:EL.
  { cbn. apply HF; auto; try discriminate. apply same_ops_refl. }
  assert (Cont : forall h2, RWI rw h2 -> quiet h h2 -> received h2 = received h1 ->
    wp (bind (rdwr_read rw len) (fun z => match z with (r, frame, rw) =>
      if negb (res_eqb r r_success) then Ret (r, None, c, rw)
      else bind (lift (control_decode c frame len 0)) (fun z => match z with (r, c') =>
        if negb (res_eqb r r_success) then Ret (r, None, c', rw)
        else match control_get_type c' with
             | (r_success, t) => Ret (r_success, t, c', rw)
             | (r, t) => Ret (r, t, c', rw)
             end end) end)) Q h2).
  { intros h2 HI2 HQ2 HR2. apply wp_bind_i. apply wp_rdwr_read; auto; unfold bind_post.
    - intros h' Hq. apply Hcut. eapply quiet_trans; eassumption.
    - intros h3 frame _ Lf HI3 HQ3 HR3. cbn [res_eqb negb]. rewrite <- Lf.
      destruct (decode_noheader c frame) as (r & c' & -> & Hr & Hs). cbn [lift bind].
      assert (HQ03 : quiet h h3) by (eapply quiet_trans; eassumption).
      destruct Hr as [-> | ->].
      + destruct (Hs eq_refl) as [K ->]. cbn [res_eqb negb].
        rewrite (get_type_ok _ (ok_type _ _ K)). cbn. apply HS; auto.
        rewrite HR3, HR2, HR1, <- app_assoc. f_equal. f_equal.
        rewrite Lf. unfold len. rewrite be32_ntohl.
        * symmetry. apply firstn_all2. unfold lenN in Lb. lia.
        * unfold lenN in Lb. lia.
      + cbn. apply HF; auto; try discriminate. apply same_ops_refl.
    - intros h3 r Hr HI3 HQ3 _ _.
      destruct (res_eqb r r_success) eqn:E; [apply res_eqb_true in E; contradiction|].
      cbn. apply HF; auto; [apply same_ops_set|]. eapply quiet_trans; eassumption. }
  destruct (len =? 0).
  - cbn [ask_unit bind wp]. split.
    { apply Hcut. assumption. }
    intros a Ha. destruct a; try contradiction. cbn [bind].
    apply Cont.
    + unfold RWI in *. rewrite transport_state_snoc, HI1. reflexivity.
    + eapply quiet_trans; [eassumption|]. apply quiet_iso. eapply RWI_legal; eassumption.
    + rewrite received_snoc. reflexivity.
  - cbn [bind]. apply Cont; auto.
Qed.

Lemma wp_read_control rw oc wanted (Q : post _) h :
  rw_has_close rw = true -> rw_has_read rw = true -> RWI rw h ->
  (forall h', quiet h h' -> Q h' Cut) ->
  (forall h' cts, rw_opened rw = true -> RWI rw h' -> quiet h h' ->
     ctl_ok wanted cts -> received h' = received h ++ ctl_frame wanted cts ->
     Q h' (Done (r_success, Some (mk_control wanted cts), rw))) ->
  (forall h' r c' rw', r <> r_success -> same_ops rw rw' -> RWI rw' h' -> quiet h h' ->
     Q h' (Done (r, Some c', rw'))) ->
  wp (read_control rw oc wanted) Q h.
Proof.
  intros HC HR HI Hcut HS HF. unfold read_control. apply wp_bind_i.
  set (c := match oc with Some c => c | None => control_init end).
  unfold read_control_frame; cbv iota. apply wp_bind_i. apply wp_rdwr_read; auto; unfold bind_post.
  2:{ intros h1 r Hr HI1 HQ1 _ _.
      destruct (res_eqb r r_success) eqn:E; [apply res_eqb_true in E; contradiction|].
      cbn. rewrite E. cbn. apply HF; auto. apply same_ops_set. }
  intros h1 b Hop Lb HI1 HQ1 HR1. cbn [res_eqb negb].
  destruct (ntohl_bytes b =? 0) eqn:E0; cbn [negb].
  2:{ cbn. apply HF; auto; try discriminate. apply same_ops_refl. }
  apply wp_read_tail; auto.
  - intros h' Hq. apply Hcut. eapply quiet_trans; eassumption.
  - intros h2 c' _ HI2 HQ2 K HR2. cbn [res_eqb negb].
    assert (quiet h h2) by (eapply quiet_trans; eassumption).
    destruct (c_type c' =? wanted) eqn:EW; cbn.
    + apply N.eqb_eq in EW. subst wanted. destruct c' as [t cts]. apply HS; auto.
      cbn [c_type c_cts] in *. rewrite HR2, HR1, <- app_assoc. f_equal. unfold ctl_frame.
      rewrite app_assoc. rewrite app_assoc. f_equal. f_equal.
      apply N.eqb_eq in E0. rewrite <- E0. rewrite be32_ntohl by (unfold lenN in Lb; lia).
      symmetry. apply firstn_all2. unfold lenN in Lb. lia.
    + apply HF; auto; try discriminate. apply same_ops_refl.
  - intros h2 r t c' rw' Hr Hso HI2 HQ2 _.
    destruct (res_eqb r r_success) eqn:E; [apply res_eqb_true in E; contradiction|].
    cbn. apply HF; auto. eapply quiet_trans; eassumption.
Qed.

End Sess.

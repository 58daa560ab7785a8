(** The reader against arbitrary transports. *)
From Verif Require Import Bytes Spec Bytes_proofs Io Io_proofs SpecTrace SpecStream
  Control Control_proofs Rdwr Rdwr_proofs Reader Api SpecApi SpecReader Reader_source_proofs.
From Verif Require Writer2_proofs.
Ltac Zify.zify_post_hook ::= Z.div_mod_to_equations.
Local Open Scope N_scope.

Definition ready_accepts (c : control) (ct : bytes) : bool := res_eqb (control_match c (Some ct)) r_success.

Lemma accept_loop_eq ready cts : forall acc,
  accept_loop ready cts acc = mk_control (c_type acc) (c_cts acc ++ filter (ready_accepts ready) cts).
Proof.
  induction cts as [|ct cts IH]; intros acc; cbn [accept_loop filter].
  - rewrite app_nil_r. destruct acc; reflexivity.
  - unfold ready_accepts at 1. destruct (res_eqb _ _); rewrite IH; [|reflexivity].
    cbn. rewrite <- app_assoc. reflexivity.
Qed.

Lemma start_match_iff c cts : forall acc, start_match_loop c cts acc = true <->
  (cts = [] /\ acc = true) \/ exists ct, In ct cts /\ control_match c (Some ct) = r_success.
Proof.
  induction cts as [|ct cts IH]; intros acc; cbn [start_match_loop].
  - split; [auto|]. intros [[_ H]|(ct & [] & _)]. assumption.
  - destruct (res_eqb (control_match c (Some ct)) r_success) eqn:E.
    + apply res_eqb_true in E. split; [intros _|reflexivity]. right. exists ct. cbn. auto.
    + apply res_eqb_false in E. rewrite IH. split.
      * intros [[_ H]|(x & H1 & H2)]; [discriminate|]. right. exists x. cbn. auto.
      * intros [[H _]|(x & [<-|H1] & H2)]; [discriminate|contradiction|]. right. eauto.
Qed.

Lemma start_loop_accepted st wanted : ctl_ok T_START st ->
  (start_match_loop (mk_control T_START st) wanted true = true <-> start_accepted wanted st).
Proof.
  intro K. rewrite start_match_iff. unfold start_accepted.
  pose proof (visible_of_ok _ _ K) as V.
  assert (M : forall ct, control_match (mk_control T_START st) (Some ct) = r_success <-> (st = [] \/ In ct st)).
  { intro ct. destruct (control_match_spec (mk_control T_START st) (Some ct)) as [_ H]. cbn [c_type c_cts] in H.
    rewrite V in H. rewrite H. split.
    - intros (_ & _ & [->|(s & [= <-] & I)]); auto.
    - intros [->|I]; (split; [discriminate|split; [discriminate|]]); auto. right. eauto. }
  pose proof (ok_start _ _ K eq_refl) as L.
  split.
  - intros [[-> _]|(ct & I & E)]; [auto|]. apply M in E. destruct E as [->|I2]; [auto|].
    right. right. exists ct. split; [assumption|].
    destruct st as [|x [|y st]]; cbn in L; try lia; [contradiction|]. destruct I2 as [->|[]]. reflexivity.
  - intros [->|[->|(c & I & ->)]]; auto.
    + destruct wanted as [|w ws]; [auto|]. right. exists w. split; [left; reflexivity|]. apply M. auto.
    + right. exists c. split; [assumption|]. apply M. right. left. reflexivity.
Qed.

Lemma total_read_app a b : total_read (a ++ b) = (total_read a + total_read b)%nat.
Proof.
  induction a as [|[q x] a IH]; [reflexivity|]. cbn [app total_read].
  destruct q; try exact IH. destruct x; try exact IH. destruct r; try exact IH. rewrite IH. lia.
Qed.

Lemma received_le tr : (length (received tr) <= total_read tr)%nat.
Proof.
  induction tr as [|e tr IH] using rev_ind; [cbn; lia|].
  rewrite received_snoc, total_read_app. destruct e as [q a].
  destruct q, a; cbn [in_step total_read]; try lia; destruct r; cbn [length in_step]; rewrite ?app_length; lia.
Qed.

(** Static facts. *)
Record rok (bi : bool) (wanted : list bytes) (max : N) (r : reader) : Prop := {
  ro_destroy : rw_has_destroy (r_rdwr r) = true;
  ro_open : rw_has_open (r_rdwr r) = true;
  ro_close : rw_has_close (r_rdwr r) = true;
  ro_read : rw_has_read (r_rdwr r) = true;
  ro_write : rw_has_write (r_rdwr r) = bi;
  ro_want : r_cts r = wanted;
  ro_maxf : r_max r = max;
  ro_alloc : 1 <= r_alloc r
}.

Record same_rd (r r' : reader) : Prop := {
  sd_cts : r_cts r' = r_cts r;
  sd_max : r_max r' = r_max r;
  sd_rw : same_ops (r_rdwr r) (r_rdwr r');
  sd_alloc : r_alloc r <= r_alloc r'
}.

Lemma same_rd_refl r : same_rd r r.
Proof. split; auto; [apply same_ops_refl|lia]. Qed.
Lemma same_rd_trans a b c : same_rd a b -> same_rd b c -> same_rd a c.
Proof. intros [] []. split; try congruence; [eapply same_ops_trans; eassumption|lia]. Qed.

Lemma rok_same bi wanted max r r' : rok bi wanted max r -> same_rd r r' -> rok bi wanted max r'.
Proof.
  intros [] [H1 H2 H3]. destruct (same_ops_fields _ _ H3) as (E1 & E2 & E3 & E4 & E5 & E6).
  split; try congruence. lia.
Qed.

Lemma write_finish_eq rw : write_control rw FSTRM_CONTROL_FINISH None = rdwr_write rw [finish_frame].
Proof. rewrite write_control_eq by reflexivity. reflexivity. Qed.

Section Sess.
Variable okb : res -> bool.
Hypothesis okb_success : okb r_success = true.
Local Notation sessions := (sessions okb).
Local Notation quiet := (quiet okb).
Local Notation wrote := (wrote okb).

Lemma wp_open_uni bi wanted max r (Q : post _) h :
  rok bi wanted max r -> RWI (r_rdwr r) h ->
  (forall h', quiet h h' -> Q h' Cut) ->
  (forall h' r' st, same_rd r r' -> r_state r' = rs_opened -> rw_opened (r_rdwr r') = true ->
     RWI (r_rdwr r') h' -> quiet h h' -> received h' = received h ++ ctl_frame T_START st ->
     ctl_ok T_START st -> start_accepted wanted st ->
     r_start r' = Some (mk_control T_START st) -> r_ready r' = r_ready r -> r_accept r' = r_accept r ->
     r_stop_c r' = r_stop_c r ->
     Q h' (Done (r_success, r'))) ->
  (forall h' x r', x <> r_success -> same_rd r r' -> r_state r' = r_state r -> RWI (r_rdwr r') h' -> quiet h h' ->
     Q h' (Done (x, r'))) ->
  wp (reader_open_unidirectional r) Q h.
Proof.
  intros R HI Hcut HS HF. unfold reader_open_unidirectional. apply wp_bind_i.
  apply (wp_read_control okb); try apply R; auto; unfold bind_post.
  - intros h' st Ho HI' HQ K Hr. cbn [res_eqb negb]. cbv zeta. cbn [set_rstart set_rrdwr r_cts].
    pose proof (start_loop_accepted st wanted K) as SL. rewrite (ro_want _ _ _ _ R).
    destruct (start_match_loop (mk_control FSTRM_CONTROL_START st) wanted true) eqn:E; cbn [negb].
    + apply (HS h' _ st); cbn; auto.
      * split; cbn; auto; try apply same_ops_refl; lia.
      * apply SL. exact E.
    + apply HF; cbn; auto; try discriminate. split; cbn; auto; try apply same_ops_refl; lia.
  - intros h' x c' rw' Hx So HI' HQ. cbv zeta.
    destruct (res_eqb x r_success) eqn:E; [apply res_eqb_true in E; contradiction|]. cbn [negb].
    apply HF; cbn; auto. split; cbn; auto. lia.
Qed.

(** What one open may have put into the new session. *)
Definition nofin (bi : bool) (wanted : list bytes) (s : bytes) : Prop :=
  s = [] \/ exists cts, bi = true /\ incl cts wanted /\ s = ctl_frame T_ACCEPT cts.

Lemma nofin_session bi wanted s : nofin bi wanted s -> reader_session bi wanted s.
Proof.
  intros [->|(cts & -> & I & ->)].
  - apply (rses bi wanted [] false false); [intros [|]; discriminate|intros x []].
  - pose proof (rses true wanted cts true false (fun _ => eq_refl) I) as X. rewrite app_nil_r in X. exact X.
Qed.

(** Sessions so far: all are reader sessions; if the transport is open the last
    one has no FINISH. *)
Definition SR (bi : bool) (wanted : list bytes) (h : trace) : Prop :=
  legal h /\ Forall (reader_session bi wanted) (sessions h).
Definition SRo (bi : bool) (wanted : list bytes) (rw : rdwr) (h : trace) : Prop :=
  RWI rw h /\ Forall (reader_session bi wanted) (sessions h) /\
  (rw_opened rw = true -> exists ss s, sessions h = ss ++ [s] /\ Forall (reader_session bi wanted) ss /\ nofin bi wanted s).

Lemma SRo_SR bi wanted rw h : SRo bi wanted rw h -> SR bi wanted h.
Proof. intros (H1 & H2 & _). split; [eapply RWI_legal; eassumption|assumption]. Qed.

Lemma SRo_quiet bi wanted rw rw' h h' : SRo bi wanted rw h -> quiet h h' -> RWI rw' h' ->
  (rw_opened rw' = true -> rw_opened rw = true) -> SRo bi wanted rw' h'.
Proof.
  intros (H1 & H2 & H3) [Q1 Q2] HI Ho. split; [assumption|]. rewrite Q1. split; [assumption|]. auto.
Qed.

Lemma SR_quiet bi wanted rw h h' : SRo bi wanted rw h -> quiet h h' -> SR bi wanted h'.
Proof. intros (H1 & H2 & H3) [Q1 Q2]. split; [assumption|]. rewrite Q1. assumption. Qed.

Lemma wp_open bi wanted max r (Q : post _) h :
  rok bi wanted max r -> SRo bi wanted (r_rdwr r) h -> r_state r <> rs_opened ->
  (forall h', SR bi wanted h' -> Q h' Cut) ->
  (forall h' r' rdy st, same_rd r r' -> r_state r' = rs_opened -> rw_opened (r_rdwr r') = true ->
     SRo bi wanted (r_rdwr r') h' -> ctl_ok T_READY rdy -> ctl_ok T_START st -> start_accepted wanted st ->
     received h' = (if bi then ctl_frame T_READY rdy else []) ++ ctl_frame T_START st ->
     r_start r' = Some (mk_control T_START st) ->
     (bi = true -> r_ready r' = Some (mk_control T_READY rdy) /\
        r_accept r' = Some (mk_control T_ACCEPT (filter (ready_accepts (mk_control T_READY rdy)) wanted)) /\
        exists ss, sessions h' = ss ++ [ctl_frame T_ACCEPT (filter (ready_accepts (mk_control T_READY rdy)) wanted)]) ->
     (bi = false -> r_ready r' = r_ready r /\ r_accept r' = r_accept r) ->
     r_stop_c r' = r_stop_c r ->
     Q h' (Done (r_success, r'))) ->
  (forall h' x r', x <> r_success -> same_rd r r' -> r_state r' = r_state r ->
     SRo bi wanted (r_rdwr r') h' -> Q h' (Done (x, r'))) ->
  wp (reader_open r) Q h.
Proof.
  intros R HI NO Hcut HS HF. unfold reader_open.
  assert (Go : wp (bind (rdwr_open (r_rdwr r)) (fun z => match z with (x, rw) =>
      let r := set_rrdwr r rw in
      if negb (res_eqb x r_success) then Ret (x, r)
      else bind (if rw_has_write (r_rdwr r) then reader_open_bidirectional r
                     else reader_open_unidirectional r) (fun z => match z with (x, r) =>
        if negb (res_eqb x r_success) then Ret (x, r)
        else Ret (r_success, set_rstate r rs_opened) end) end)) Q h).
  2:{ destruct (r_state r); try exact Go. contradiction. }
  apply wp_bind_i. destruct HI as (HI & HA & HL).
  assert (NilS : reader_session bi wanted []) by (apply nofin_session; left; reflexivity).
  apply (wp_rdwr_open okb); try apply R; auto; unfold bind_post.
  - apply Hcut. split; [eapply RWI_legal; eassumption|assumption].
  - intros h1 _ HI1 Hs1 Hr1. cbn [res_eqb negb]. cbv zeta. cbn [set_rrdwr r_rdwr set_opened rw_has_write].
    rewrite (ro_write _ _ _ _ R). apply wp_bind_i.
    set (r1 := set_rrdwr r (set_opened (r_rdwr r) true)).
    assert (SD1 : same_rd r r1) by (split; cbn; auto; try apply same_ops_set; lia).
    assert (R1 : rok bi wanted max r1) by (eapply rok_same; eassumption).
    assert (A1 : Forall (reader_session bi wanted) (sessions h1)) by (rewrite Hs1; apply Forall_app; auto).
    assert (SR1 : SR bi wanted h1) by (split; [eapply RWI_legal; eassumption|assumption]).
    destruct bi.
    + unfold reader_open_bidirectional. apply wp_bind_i.
      apply (wp_read_control okb); try apply R1; auto; unfold bind_post.
      * intros h' [E L]. apply Hcut. split; [assumption|]. rewrite E. assumption.
      * intros h2 rdy _ HI2 [Hs2 L2] K2 Hr2. rewrite Hr1 in Hr2. cbn [app] in Hr2. cbn [res_eqb negb]. cbv zeta.
        set (rd2 := mk_control FSTRM_CONTROL_READY rdy) in *.
        set (acc0 := match r_accept _ with Some a => control_reset a | None => control_init end).
        assert (E0 : acc0 = mk_control 0 []) by (unfold acc0; destruct (r_accept _); reflexivity).
        rewrite E0. unfold control_set_type. change (type_known FSTRM_CONTROL_ACCEPT) with true. cbn iota.
        rewrite accept_loop_eq. cbn [c_type c_cts app set_rready set_rrdwr r_cts]. change (r_cts r1) with (r_cts r).
        rewrite (ro_want _ _ _ _ R).
        set (acts := filter (ready_accepts rd2) wanted).
        assert (IA : incl acts wanted) by (intros y Hy; apply filter_In in Hy; tauto).
        apply wp_bind_i.
        apply (wp_write_control_frame okb okb_success); cbn [set_raccept set_rready set_rrdwr r_rdwr c_type c_cts]; try apply R1; auto.
        -- intros h3 _ [L3 Hs3]. apply Hcut. split; [assumption|].
           change (visible FSTRM_CONTROL_ACCEPT acts) with acts in Hs3.
           destruct Hs3 as [-> | ->]; rewrite Hs2; [assumption|]. rewrite Hs1, add_last_snoc.
           apply Forall_app. split; [assumption|]. constructor; [|constructor]. apply nofin_session. right. exists acts. auto.
        -- intros h3 _ HI3 _ Hs3 Hr3. change (visible FSTRM_CONTROL_ACCEPT acts) with acts in Hs3.
           rewrite Hs2, Hs1, add_last_snoc in Hs3. cbn [app] in Hs3. unfold bind_post. cbn [res_eqb negb]. cbv zeta.
           set (r2 := set_rrdwr (set_raccept _ _) _).
           assert (SD2 : same_rd r r2) by (split; cbn; auto; try apply same_ops_set; lia).
           assert (R2 : rok true wanted max r2) by exact (rok_same _ _ _ _ _ R SD2).
           assert (S3 : SRo true wanted (r_rdwr r2) h3).
           { split; [exact HI3|]. split.
             - rewrite Hs3. apply Forall_app. split; [assumption|]. constructor; [|constructor].
               apply nofin_session. right. exists acts. auto.
             - intros _. exists (sessions h), (ctl_frame FSTRM_CONTROL_ACCEPT acts). split; [assumption|]. split; [assumption|].
               right. exists acts. auto. }
           apply (wp_open_uni true wanted max); auto; unfold bind_post.
           ++ intros h' Hq. apply Hcut. eapply SR_quiet; eassumption.
           ++ intros h4 r' st SD St Ho HI4 HQ4 Hr4 K4 Acc Es Er Ea Eo. cbn [res_eqb negb]. cbn.
              apply (HS h4 _ rdy st); cbn; auto.
              ** apply (same_rd_trans r r2); [assumption|]. destruct SD. split; cbn; auto.
              ** eapply SRo_quiet; eauto.
              ** rewrite Hr4, Hr3, Hr2. reflexivity.
              ** intros _. rewrite Er, Ea. split; [reflexivity|]. split; [reflexivity|].
                 exists (sessions h). destruct HQ4 as [-> _]. exact Hs3.
              ** discriminate.
           ++ intros h4 x r' Hx SD St HI4 HQ4. rewrite Writer2_proofs.ne_eqb by assumption. cbn [negb]. cbn.
              apply HF; auto; [eapply same_rd_trans; eassumption|]. eapply SRo_quiet; eauto.
        -- intros h3 x rw' Hx So HI3 [L3 Hs3] Hr3 _. change (visible FSTRM_CONTROL_ACCEPT acts) with acts in Hs3.
           unfold bind_post. rewrite Writer2_proofs.ne_eqb by assumption. cbn [negb]. cbv zeta. cbn.
           rewrite Writer2_proofs.ne_eqb by assumption. cbn.
           apply HF; cbn; auto.
           ++ split; cbn; auto; try lia; try (eapply same_ops_trans; [apply same_ops_set|eassumption]).
           ++ assert (X : exists s, sessions h3 = sessions h ++ [s] /\ nofin true wanted s).
              { destruct Hs3 as [-> | ->]; rewrite Hs2, Hs1; [exists []; split; [reflexivity|left; reflexivity]|].
                rewrite add_last_snoc. eexists. split; [reflexivity|]. right. exists acts. auto. }
              destruct X as (s & E & NF). split; [assumption|]. rewrite E. split.
              ** apply Forall_app. split; [assumption|]. constructor; [|constructor]. apply nofin_session. assumption.
              ** intros _. exists (sessions h), s. auto.
      * intros h2 x c' rw' Hx So HI2 [Hs2 L2]. cbv zeta. rewrite Writer2_proofs.ne_eqb by assumption. cbn [negb]. cbn.
        rewrite Writer2_proofs.ne_eqb by assumption. cbn. apply HF; cbn; auto.
        -- split; cbn; auto; try lia; try (eapply same_ops_trans; [apply same_ops_set|eassumption]).
        -- split; [assumption|]. rewrite Hs2. split; [assumption|]. intros _. exists (sessions h), []. split; [assumption|]. split; [assumption|left; reflexivity].
    + assert (S1 : SRo false wanted (r_rdwr r1) h1).
      { split; [exact HI1|]. split; [assumption|]. intros _. exists (sessions h), []. split; [assumption|]. split; [assumption|left; reflexivity]. }
      apply (wp_open_uni false wanted max); auto; unfold bind_post.
      * intros h' Hq. apply Hcut. eapply SR_quiet; eassumption.
      * intros h4 r' st SD St Ho HI4 HQ4 Hr4 K4 Acc Es Er Ea Eo. cbn [res_eqb negb]. cbn.
        assert (KR : ctl_ok T_READY []).
        { split; auto; try (unfold known_type; tauto); try discriminate; try (vm_compute; discriminate). }
        apply (HS h4 _ [] st); cbn; auto.
        -- apply (same_rd_trans r r1); [assumption|]. destruct SD. split; cbn; auto.
        -- eapply SRo_quiet; eauto.
        -- rewrite Hr4, Hr1. reflexivity.
        -- discriminate.
      * intros h4 x r' Hx SD St HI4 HQ4. rewrite Writer2_proofs.ne_eqb by assumption. cbn [negb]. cbn.
        apply HF; auto; [eapply same_rd_trans; eassumption|]. eapply SRo_quiet; eauto.
  - intros h1 x _ Hx HI1 Hs1 Hr1. cbv zeta. rewrite Writer2_proofs.ne_eqb by assumption. cbn [negb]. cbn.
    apply HF; cbn; auto.
    + split; cbn; auto; try apply same_ops_refl; lia.
    + split; [assumption|]. rewrite Hs1. split; assumption.
Qed.

Definition same_ctl (r r' : reader) : Prop :=
  r_start r' = r_start r /\ r_ready r' = r_ready r /\ r_accept r' = r_accept r /\ r_stop_c r' = r_stop_c r.

Lemma same_ctl_trans a b c : same_ctl a b -> same_ctl b c -> same_ctl a c.
Proof. unfold same_ctl. intuition congruence. Qed.

Lemma wp_next_data bi wanted max (Q : post _) hd : forall fuel r h b ds,
  rok bi wanted max r -> SRo bi wanted (r_rdwr r) h -> r_state r = rs_opened -> rw_opened (r_rdwr r) = true ->
  carries max b ds -> received h = hd ++ b ->
  (forall h', SR bi wanted h' -> Q h' Cut) ->
  (forall h', SR bi wanted h' -> (length (received h) + fuel <= length (received h'))%nat -> Q h' (Stuck FFuel)) ->
  (forall h' d r' b', same_rd r r' -> r_state r' = rs_opened -> rw_opened (r_rdwr r') = true -> SRo bi wanted (r_rdwr r') h' ->
     carries max b' (ds ++ [d]) -> received h' = hd ++ b' -> same_ctl r r' ->
     Q h' (Done (r_success, Some d, r'))) ->
  (forall h' r' b', same_rd r r' -> r_state r' = rs_closing -> rw_opened (r_rdwr r') = true -> SRo bi wanted (r_rdwr r') h' ->
     carries max b' ds -> received h' = hd ++ b' ++ stop_frame ->
     r_start r' = r_start r -> r_ready r' = r_ready r -> r_accept r' = r_accept r ->
     r_stop_c r' = Some (mk_control T_STOP []) ->
     Q h' (Done (r_stop, None, r'))) ->
  (forall h' x r', same_rd r r' -> r_state r' = rs_failed -> SRo bi wanted (r_rdwr r') h' ->
     (x = r_stop -> rw_opened (r_rdwr r') = false) -> same_ctl r r' -> Q h' (Done (x, None, r'))) ->
  wp (reader_next_data fuel r) Q h.
Proof.
  induction fuel as [|fuel IH]; intros r h b ds R HI St Ho CA Hr Hcut Hst HD HS HF.
  { cbn. apply Hst; [eapply SRo_SR; eassumption|lia]. }
  cbn [reader_next_data]. unfold reader_read_be32. apply wp_bind_i, wp_bind_i.
  pose proof (proj1 HI) as HRW.
  apply (wp_rdwr_read okb); try apply R; auto.
  { intros h' Hq. apply Hcut. eapply SR_quiet; eassumption. }
  2:{ intros h1 x Hx HI1 HQ1 Hr1 _. unfold bind_post. cbn [wp].
      rewrite Writer2_proofs.ne_eqb by assumption. cbn [negb wp]. apply HF; cbn; auto.
      - split; cbn; auto; try apply same_ops_set; lia.
      - eapply SRo_quiet; eauto; cbn; discriminate.
      - repeat split. }
  intros h1 bs _ Lb HI1 HQ1 Hr1. unfold bind_post. cbn [wp res_eqb negb].
  set (len := ntohl_bytes bs).
  assert (Eb : bs = be32 len).
  { unfold len. rewrite be32_ntohl by (unfold lenN in Lb; lia). symmetry. apply firstn_all2. unfold lenN in Lb. lia. }
  assert (Hlen : len < 2 ^ 32) by apply ntohl_lt.
  assert (E1 : set_rrdwr r (r_rdwr r) = r) by (destruct r; reflexivity). rewrite E1.
  assert (S1 : SRo bi wanted (r_rdwr r) h1) by (eapply SRo_quiet; eauto).
  destruct (len =? 0) eqn:E0; cbn [negb].
  - set (c := match r_tmp r with Some c => c | None => control_init end).
    unfold read_control_frame. apply wp_bind_i.
    apply (wp_read_tail okb); try apply R; auto.
    + intros h' Hq. apply Hcut. eapply SR_quiet; eassumption.
    + intros h2 c' _ HI2 HQ2 K Hr2. unfold bind_post. cbn [res_eqb negb]. cbv zeta.
      assert (S2 : SRo bi wanted (r_rdwr r) h2) by (eapply SRo_quiet; eauto).
      assert (Hr2' : received h2 = hd ++ b ++ ctl_frame (c_type c') (c_cts c')).
      { rewrite Hr2, Hr1, Hr, Eb. apply N.eqb_eq in E0. rewrite E0. unfold ctl_frame. rewrite <- !app_assoc. reflexivity. }
      destruct (c_type c' =? FSTRM_CONTROL_STOP) eqn:ES.
      * apply N.eqb_eq in ES. destruct c' as [t cts]. cbn [c_type c_cts] in *. subst t.
        assert (cts = []) by (apply (ok_stop _ _ K); left; reflexivity). subst cts.
        cbn [wp]. apply (HS h2 _ b); cbn; auto.
        split; cbn; auto; try apply same_ops_refl; lia.
      * apply N.eqb_neq in ES.
        set (r2 := set_rtmp _ _).
        assert (SD : same_rd r r2) by (split; cbn; auto; try apply same_ops_refl; lia).
        assert (SC : same_ctl r r2) by (repeat split).
        apply (IH r2 h2 (b ++ ctl_frame (c_type c') (c_cts c')) ds); auto.
        -- exact (rok_same _ _ _ _ _ R SD).
        -- apply c_ctl; auto.
        -- intros h' HSR HL. apply Hst; auto. rewrite Hr2' in HL. rewrite Hr. rewrite !app_length in *.
           pose proof (lenN_ctl_frame (c_type c') (c_cts c')) as LF. unfold lenN in LF. lia.
        -- intros h' d r' b' SD' ? ? ? ? ? SC'. apply (HD h' d r' b'); auto;
             try exact (same_rd_trans _ _ _ SD SD'); exact (same_ctl_trans _ _ _ SC SC').
        -- intros h' r' b' SD' ? ? ? ? ? SC1 SC2 SC3 ?. destruct SC as (A1 & A2 & A3 & A4). apply (HS h' r' b'); auto; try congruence.
           exact (same_rd_trans _ _ _ SD SD').
        -- intros h' x r' SD' ? ? ? SC'. apply HF; auto;
             try exact (same_rd_trans _ _ _ SD SD'); exact (same_ctl_trans _ _ _ SC SC').
    + intros h2 x t c' rw' Hx So HI2 HQ2 Hcl. unfold bind_post. cbv zeta. rewrite Writer2_proofs.ne_eqb by assumption. cbn [negb wp].
      apply HF; cbn; auto.
      * split; cbn; auto. lia.
      * eapply SRo_quiet; eauto.
      * intros ->. destruct Hcl as [H|H]; [discriminate|assumption].
      * repeat split.
  - rewrite (ro_maxf _ _ _ _ R). destruct (max <? len) eqn:EM.
    { cbn [wp]. apply HF; cbn; auto; try discriminate.
      - split; cbn; auto; try apply same_ops_refl; lia.
      - repeat split. }
    destruct (reserve_64 (r_alloc r) len) as (a & Ea & A1 & A2); [apply R|assumption|]. rewrite Ea. cbv zeta.
    destruct (a <? len) eqn:E2; [lia|]. apply wp_bind_i. cbn [set_ralloc r_rdwr].
    apply (wp_rdwr_read okb); try apply R; auto.
    + intros h' Hq. apply Hcut. eapply SR_quiet; eassumption.
    + intros h2 data _ Ld HI2 HQ2 Hr2. unfold bind_post. cbn [res_eqb negb wp].
      apply (HD h2 data _ (b ++ data_frame data)); cbn; auto.
      * split; cbn; auto; try apply same_ops_refl; lia.
      * eapply SRo_quiet; eauto.
      * apply c_data; auto; [split; lia|lia].
      * rewrite Hr2, Hr1, Hr. unfold data_frame. rewrite Ld, <- Eb, <- !app_assoc. reflexivity.
      * repeat split.
    + intros h2 x Hx HI2 HQ2 Hr2 _. unfold bind_post. rewrite Writer2_proofs.ne_eqb by assumption. cbn [negb wp].
      apply HF; cbn; auto.
      * split; cbn; auto; try apply same_ops_set; lia.
      * eapply SRo_quiet; eauto; cbn; discriminate.
      * repeat split.
Qed.

Lemma wp_close_r bi wanted max r (Q : post _) h :
  rok bi wanted max r -> SRo bi wanted (r_rdwr r) h -> (r_state r = rs_opened \/ r_state r = rs_closing) ->
  (forall h', SR bi wanted h' -> Q h' Cut) ->
  (forall h' x r', same_rd r r' -> r_state r' = rs_closed -> rw_opened (r_rdwr r') = false -> SRo bi wanted (r_rdwr r') h' ->
     same_ctl r r' -> Q h' (Done (x, r'))) ->
  wp (reader_close r) Q h.
Proof.
  intros R HI St Hcut HD. unfold reader_close.
  destruct HI as (HI & HA & HL).
  assert (CLOSE : forall h1 rw1, same_ops (r_rdwr r) rw1 -> RWI rw1 h1 -> Forall (reader_session bi wanted) (sessions h1) ->
     forall f, wp (bind (rdwr_close rw1) (fun z => match z with (x, rw) => Ret (f x, set_rrdwr (set_rstate r rs_closed) rw) end)) Q h1).
  { intros h1 rw1 So HI1 HA1 f. apply wp_bind_i.
    destruct (same_ops_fields _ _ So) as (_ & _ & _ & E4 & _).
    assert (L1 : legal h1) by (eapply RWI_legal; eassumption).
    apply (wp_rdwr_close okb); auto.
    - rewrite E4. apply R.
    - split; auto.
    - intros _. cbn. apply Hcut. split; assumption.
    - intros h2 x Hs2 _ HI2 _ _. cbn. apply HD; cbn; auto.
      + split; cbn; auto; [|lia]. eapply same_ops_trans; [eassumption|apply same_ops_set].
      + split; [assumption|]. rewrite Hs2. split; [assumption|]. cbn. discriminate.
      + repeat split. }
  assert (Go : wp (let r := set_rstate r rs_closed in
      if rw_has_write (r_rdwr r) then
        bind (write_control (r_rdwr r) FSTRM_CONTROL_FINISH None) (fun z => match z with (x, rw) =>
        if negb (res_eqb x r_success) then
          bind (rdwr_close rw) (fun z => match z with (_, rw) => Ret (x, set_rrdwr r rw) end)
        else
          bind (rdwr_close rw) (fun z => match z with (x, rw) => Ret (x, set_rrdwr r rw) end) end)
      else
        bind (rdwr_close (r_rdwr r)) (fun z => match z with (x, rw) => Ret (x, set_rrdwr r rw) end)) Q h).
  2:{ destruct St as [E|E]; rewrite E; exact Go. }
  cbv zeta. cbn [set_rstate r_rdwr]. rewrite (ro_write _ _ _ _ R).
  assert (FIN : rw_opened (r_rdwr r) = true -> bi = true -> forall h1, wrote h h1 (finish_frame) -> Forall (reader_session bi wanted) (sessions h1)).
  { intros Ho -> h1 [L1 [E|E]]; rewrite E; auto. destruct (HL Ho) as (ss & s & Es & Fs & NF). rewrite Es, add_last_snoc.
    apply Forall_app. split; [assumption|]. constructor; [|constructor].
    destruct NF as [->|(cts & _ & I & ->)].
    - apply (rses true wanted [] false true); [auto|intros y []].
    - apply (rses true wanted cts true true); auto. }
  destruct bi.
  - rewrite write_finish_eq. apply wp_bind_i. apply (wp_rdwr_write okb okb_success); cbn [concat]; rewrite ?app_nil_r; try apply R; auto.
    + intros h1 Ho W. cbn. apply Hcut. split; [apply W|]. apply FIN; auto.
    + intros h1 Ho HI1 Hs1 Hr1. unfold bind_post. cbn [res_eqb negb].
      apply (CLOSE h1 (r_rdwr r) (same_ops_refl _) HI1) with (f := fun x => x). apply FIN; auto.
      split; [eapply RWI_legal; eassumption|]. right. assumption.
    + intros h1 x Hx HI1 W _ Hno. unfold bind_post. rewrite Writer2_proofs.ne_eqb by assumption. cbn [negb].
      apply (CLOSE h1 _ (same_ops_set _ _) HI1) with (f := fun _ => x).
      destruct (rw_opened (r_rdwr r)) eqn:Ho; [apply FIN; auto|]. rewrite (Hno eq_refl). assumption.
  - apply (CLOSE h (r_rdwr r) (same_ops_refl _) HI HA) with (f := fun x => x).
Qed.

(** The invariant tying a reader to the application's view of it. *)
Record RI (bi : bool) (wanted : list bytes) (max : N) (r : reader) (h : trace) (ph : rphase) : Prop := {
  ri_ok : rok bi wanted max r;
  ri_sess : SRo bi wanted (r_rdwr r) h;
  ri_state : r_state r = match ph with
                         | P_fresh => rs_opening
                         | P_reading _ => rs_opened
                         | P_stopped _ => rs_closing
                         | P_failed => rs_failed
                         | P_closed => rs_closed
                         end;
  ri_open : forall ds, ph = P_reading ds -> rw_opened (r_rdwr r) = true;
  ri_recv : phase_received bi wanted max ph (received h)
}.

Lemma wp_open_RI bi wanted max r (Q : post _) h ph :
  RI bi wanted max r h ph -> (forall ds, ph <> P_reading ds) ->
  (forall h', SR bi wanted h' -> Q h' Cut) ->
  (forall h' r', RI bi wanted max r' h' (P_reading []) -> Q h' (Done (r_success, r'))) ->
  (forall h' x r', x <> r_success -> RI bi wanted max r' h' (after_failed_open ph) -> Q h' (Done (x, r'))) ->
  wp (reader_open r) Q h.
Proof.
  intros I NR Hcut HS HF. apply (wp_open bi wanted max); try apply I; auto.
  - rewrite (ri_state _ _ _ _ _ _ I). destruct ph; try discriminate. destruct (NR ds eq_refl).
  - intros h' r' rdy st SD St Ho SRR KR KS Acc Er _ _ _ _. apply HS. split; auto.
    + exact (rok_same _ _ _ _ _ (ri_ok _ _ _ _ _ _ I) SD).
    + cbn. exists (received h'), []. split; [|split; [constructor|rewrite app_nil_r; reflexivity]].
      exists rdy, st. auto.
  - intros h' x r' Hx SD St SRR. apply HF; auto. split; auto.
    + exact (rok_same _ _ _ _ _ (ri_ok _ _ _ _ _ _ I) SD).
    + rewrite St, (ri_state _ _ _ _ _ _ I). destruct ph; reflexivity.
    + intros ds E. destruct ph; cbn in E; try discriminate. destruct (NR ds0 eq_refl).
    + destruct ph; cbn; auto. destruct (NR ds eq_refl).
Qed.

Lemma wp_next_RI bi wanted max r (Q : post _) h ds fuel :
  RI bi wanted max r h (P_reading ds) ->
  (forall h', SR bi wanted h' -> Q h' Cut) ->
  (forall h', SR bi wanted h' -> (fuel <= length (received h'))%nat -> Q h' (Stuck FFuel)) ->
  (forall h' x r' ph, RI bi wanted max r' h' ph -> rstep (P_reading ds) RRead x ph -> Q h' (Done (x, r'))) ->
  wp (reader_next_data fuel r) Q h.
Proof.
  intros I Hcut Hst HD. destruct (ri_recv _ _ _ _ _ _ I) as (hd & b & H1 & H2 & H3).
  eapply (wp_next_data bi wanted max Q hd fuel r h b ds); try apply I; auto.
  - apply (ri_open _ _ _ _ _ _ I ds). reflexivity.
  - intros h' HSR HL. apply Hst; auto. lia.
  - intros h' d r' b' SD St Ho SRR C' Hr' SC. apply (HD h' _ r' (P_reading (ds ++ [d]))); [|constructor].
    split; auto.
    + exact (rok_same _ _ _ _ _ (ri_ok _ _ _ _ _ _ I) SD).
    + cbn. exists hd, b'. auto.
  - intros h' r' b' SD St Ho SRR C' Hr' SC1 SC2 SC3 SC4. apply (HD h' _ r' (P_stopped (Some ds))); [|constructor].
    split; auto.
    + exact (rok_same _ _ _ _ _ (ri_ok _ _ _ _ _ _ I) SD).
    + cbn. exists hd, b'. auto.
  - intros h' x r' SD St SRR _ _. apply (HD h' _ r' P_failed); [|constructor].
    split; auto.
    + exact (rok_same _ _ _ _ _ (ri_ok _ _ _ _ _ _ I) SD).
    + discriminate.
    + cbn. auto.
Qed.

Lemma wp_rcall bi wanted max fuel r c (Q : post _) h ph :
  RI bi wanted max r h ph ->
  (forall h', SR bi wanted h' -> Q h' Cut) ->
  (forall h', SR bi wanted h' -> (fuel <= length (received h'))%nat -> Q h' (Stuck FFuel)) ->
  (forall h' x r' ph', RI bi wanted max r' h' ph' -> rstep ph c x ph' -> Q h' (Done (x, r'))) ->
  wp (do_rcall fuel r c) Q h.
Proof.
  intros I Hcut Hst HD. pose proof (ri_state _ _ _ _ _ _ I) as St.
  destruct c; cbn [do_rcall].
  - apply wp_bind_i. destruct (match ph with P_reading _ => true | _ => false end) eqn:E.
    + destruct ph; try discriminate. unfold reader_open. rewrite St. cbn. apply (HD h (_, _) r (P_reading ds)); [assumption|constructor].
    + assert (NR : forall ds, ph <> P_reading ds) by (intros ds ->; discriminate).
      eapply wp_open_RI; eauto; cbn.
      * intros h' r' I'. apply (HD h' (_, _) r' (P_reading [])); [assumption|constructor; assumption].
      * intros h' x r' Hx I'. apply (HD h' (_, _) r' _ I'). constructor; assumption.
  - unfold reader_read. apply wp_bind_i. unfold reader_maybe_open. destruct ph; rewrite St; cbn [bind wp res_eqb negb].
    + apply wp_bind_i. eapply wp_open_RI; eauto; try discriminate; unfold bind_post; cbn.
      * intros h' r' I'. rewrite (ri_state _ _ _ _ _ _ I'). eapply wp_next_RI; eauto.
        intros h2 x r2 ph2 I2 S2. apply (HD h2 x r2 ph2); [assumption|]. apply s_read_implicit. assumption.
      * intros h' x r' Hx I'. rewrite Writer2_proofs.ne_eqb by assumption. cbn.
        rewrite Writer2_proofs.ne_eqb by assumption. cbn.
        apply (HD h' (_, _) r' _ I'). constructor. assumption.
    + unfold bind_post; cbn [res_eqb negb]; rewrite St; eapply wp_next_RI; eauto.
    + unfold bind_post; cbn [res_eqb negb]; rewrite St; cbn. apply (HD h (_, _) r _ I). constructor.
    + unfold bind_post; cbn [res_eqb negb]; rewrite St; cbn. apply (HD h (_, _) r _ I). constructor.
    + unfold bind_post; cbn [res_eqb negb]; rewrite St; cbn. apply (HD h (_, _) r _ I). constructor.
  - assert (CL : (r_state r = rs_opened \/ r_state r = rs_closing) ->
       (forall x, rstep ph RClose (x, None) P_closed) ->
       wp (bind (reader_close r) (fun z => match z with (x, r) => Ret (x, None, r) end)) Q h).
    { intros Sc RS. apply wp_bind_i. apply (wp_close_r bi wanted max); try apply I; auto.
      intros h' x r' SD St' Ho SRR SC. cbn. apply (HD h' (_, _) r' P_closed); [|apply RS].
      split; auto.
      - exact (rok_same _ _ _ _ _ (ri_ok _ _ _ _ _ _ I) SD).
      - discriminate.
      - cbn. auto. }
    destruct ph.
    + unfold reader_close. rewrite St. cbn. apply (HD h (_, _) r _ I). constructor.
    + apply CL; auto. constructor.
    + apply CL; auto. constructor.
    + unfold reader_close. rewrite St. cbn. apply (HD h (_, _) r _ I). constructor.
    + unfold reader_close. rewrite St. cbn. apply (HD h (_, _) r _ I). constructor.
  - unfold reader_get_control. apply wp_bind_i, wp_bind_i.
    assert (FIN : forall h' r' ph', RI bi wanted max r' h' ph' ->
      (forall x, (x = r_success \/ x = r_failure) -> rstep ph (RGetControl t) (x, None) ph') ->
      bind_post (fun z : res * reader => let (x, r0) := z in
         if negb (res_eqb x r_success) then Ret (x, None, r0)
         else if t =? FSTRM_CONTROL_START then Ret (r_success, Some (r_start r0), r0)
         else if t =? FSTRM_CONTROL_STOP then Ret (r_success, Some (r_stop_c r0), r0)
         else if t =? FSTRM_CONTROL_READY then Ret (r_success, Some (r_ready r0), r0)
         else if t =? FSTRM_CONTROL_ACCEPT then Ret (r_success, Some (r_accept r0), r0)
         else Ret (r_failure, Some None, r0))
       (bind_post (fun z : res * option (option control) * reader => match z with (x, _, r0) => Ret (x, @None bytes, r0) end) Q)
       h' (Done (r_success, r'))).
    { intros h' r' ph' I' RS. unfold bind_post. cbn [res_eqb negb].
      repeat match goal with |- context [if ?b then _ else _] => destruct b end; cbn; apply (HD h' (_, _) r' ph' I'); apply RS; auto. }
    unfold reader_maybe_open. destruct (match ph with P_fresh => true | _ => false end) eqn:E.
    + destruct ph; try discriminate. rewrite St. apply wp_bind_i. eapply wp_open_RI; eauto; try discriminate.
      * intros h' r' I'. unfold bind_post at 1. cbn [res_eqb negb]. apply (FIN h' r' _ I'). intros x Hx. apply s_ctl_implicit. assumption.
      * intros h' x r' Hx I'. unfold bind_post at 1. rewrite Writer2_proofs.ne_eqb by assumption. cbn.
        rewrite Writer2_proofs.ne_eqb by assumption. cbn. apply (HD h' (_, _) r' _ I'). apply s_ctl_implicit_fail; assumption.
    + assert (NF : ph <> P_fresh) by (intros ->; discriminate).
      assert (WP : wp (Ret (r_success, r)) (bind_post (fun z : res * reader => let (x, r0) := z in
         if negb (res_eqb x r_success) then Ret (x, None, r0)
         else if t =? FSTRM_CONTROL_START then Ret (r_success, Some (r_start r0), r0)
         else if t =? FSTRM_CONTROL_STOP then Ret (r_success, Some (r_stop_c r0), r0)
         else if t =? FSTRM_CONTROL_READY then Ret (r_success, Some (r_ready r0), r0)
         else if t =? FSTRM_CONTROL_ACCEPT then Ret (r_success, Some (r_accept r0), r0)
         else Ret (r_failure, Some None, r0))
       (bind_post (fun z : res * option (option control) * reader => match z with (x, _, r0) => Ret (x, @None bytes, r0) end) Q)) h).
      { apply (FIN h r ph I). intros x Hx. constructor; assumption. }
      destruct ph; rewrite St; try exact WP. congruence.
Qed.

Lemma wp_rcalls bi wanted max fuel cs : forall r (Q : post _) h ph,
  RI bi wanted max r h ph ->
  (forall h', SR bi wanted h' -> Q h' Cut) ->
  (forall h', SR bi wanted h' -> (fuel <= length (received h'))%nat -> Q h' (Stuck FFuel)) ->
  (forall h' xs r' ph', RI bi wanted max r' h' ph' -> rsteps ph cs xs ph' -> Q h' (Done (xs, r'))) ->
  wp (do_rcalls fuel r cs) Q h.
Proof.
  induction cs as [|c cs IH]; intros r Q h ph I Hcut Hst HD.
  { cbn. apply (HD h [] r ph I). constructor. }
  cbn [do_rcalls]. apply wp_bind_i. eapply wp_rcall; eauto.
  intros h1 [x d] r1 ph1 I1 S1. unfold bind_post. apply wp_bind_i. eapply IH; eauto.
  intros h2 xs r2 ph2 I2 S2. cbn. eapply HD; [eassumption|]. econstructor; eassumption.
Qed.

Lemma RI_init o rw r : fresh_rdwr rw -> reader_init o rw = Some r ->
  RI (rw_has_write rw) (ro_cts o) (ro_max o) r [] P_fresh.
Proof.
  intros [F1 F2 F3 F4]. unfold reader_init. destruct (rw_has_read rw) eqn:E; [|discriminate]. cbn.
  intros [= <-]. split; cbn; auto; try discriminate.
  - split; cbn; auto. unfold FSTRM_CONTROL_FRAME_LENGTH_MAX. lia.
  - split; [unfold RWI; rewrite F1; reflexivity|]. split; [constructor|]. congruence.
Qed.

Lemma wp_destroy_r bi wanted max r (Q : post _) h ph :
  RI bi wanted max r h ph ->
  (forall h', SR bi wanted h' -> Q h' Cut) ->
  (forall h' x, SR bi wanted h' -> transport_state h' = Some TDestroyed ->
     ((exists ds, ph = P_reading ds \/ exists o, ph = P_stopped o) \/ rw_opened (r_rdwr r) = false -> ~ left_open h') ->
     Q h' (Done x)) ->
  wp (reader_destroy r) Q h.
Proof.
  intros I Hcut HD. unfold reader_destroy.
  assert (DEST : forall h1 r1 x (P : Prop), rok bi wanted max r1 -> SRo bi wanted (r_rdwr r1) h1 ->
     (P -> rw_opened (r_rdwr r1) = false) ->
     ((forall h', (P -> ~ left_open h') -> transport_state h' = Some TDestroyed -> SR bi wanted h' -> Q h' (Done x))) ->
     wp (bind (rdwr_destroy (r_rdwr r1)) (fun _ => Ret x)) Q h1).
  { intros h1 r1 x P R1 S1 HP HQ. unfold rdwr_destroy. rewrite (ro_destroy _ _ _ _ R1). cbn.
    split; [apply Hcut; eapply SRo_SR; eassumption|]. intros a Ha. destruct a; try contradiction. cbn.
    destruct S1 as (S1 & S2 & S3).
    assert (T : transport_state (h1 ++ [(QDestroy (rw_h (r_rdwr r1)), ARes r0)]) = Some TDestroyed).
    { rewrite transport_state_snoc, S1. destruct (rw_opened (r_rdwr r1)); reflexivity. }
    apply HQ; auto.
    - intros HPP (tr' & hh & a & E & TO). apply app_inj_tail in E. destruct E as [<- _].
      rewrite S1, (HP HPP) in TO. discriminate.
    - split; [unfold legal; rewrite T; discriminate|]. rewrite sessions_snoc. exact S2. }
  assert (CL : (r_state r = rs_opened \/ r_state r = rs_closing) ->
    wp (bind (reader_close r) (fun z => match z with (x, r) => bind (rdwr_destroy (r_rdwr r)) (fun _ => Ret x) end)) Q h).
  { intro Sc. apply wp_bind_i. apply (wp_close_r bi wanted max); try apply I; auto.
    intros h' x r' SD St Ho SRR SC. unfold bind_post.
    apply (DEST h' r' x True); auto; try (exact (rok_same _ _ _ _ _ (ri_ok _ _ _ _ _ _ I) SD)). }
  assert (NC : r_state r <> rs_opened -> r_state r <> rs_closing ->
    wp (bind (rdwr_destroy (r_rdwr r)) (fun _ => Ret r_failure)) Q h).
  { intros N1 N2. apply (DEST h r r_failure (rw_opened (r_rdwr r) = false)); try apply I; auto.
    intros h' HL HT HSR. apply HD; auto. intros [(ds & [->|(o & ->)])|H]; auto;
      pose proof (ri_state _ _ _ _ _ _ I) as E; cbn in E; contradiction. }
  destruct (r_state r) eqn:E; try (apply CL; auto; fail); apply NC; discriminate.
Qed.

End Sess.

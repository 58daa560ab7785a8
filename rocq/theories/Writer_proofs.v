From Verif Require Import Bytes Spec Bytes_proofs Io Io_proofs SpecTrace SpecStream
  Control Control_proofs Rdwr Rdwr_proofs Writer Api SpecApi.
Ltac Zify.zify_post_hook ::= Z.div_mod_to_equations.
Local Open Scope N_scope.

Lemma prefix_nil {A} (l : list A) : prefix [] l.
Proof. exists l. reflexivity. Qed.
Lemma prefix_refl {A} (l : list A) : prefix l l.
Proof. exists []. rewrite app_nil_r. reflexivity. Qed.
Lemma prefix_app {A} (a b c : list A) : prefix b c -> prefix (a ++ b) (a ++ c).
Proof. intros [d ->]. exists d. rewrite app_assoc. reflexivity. Qed.
Lemma prefix_app_r {A} (a b : list A) : prefix a (a ++ b).
Proof. exists b. reflexivity. Qed.
Lemma prefix_trans {A} (a b c : list A) : prefix a b -> prefix b c -> prefix a c.
Proof. intros [d ->] [e ->]. exists (d ++ e). rewrite app_assoc. reflexivity. Qed.

Lemma datas_app a b : datas (a ++ b) = datas a ++ datas b.
Proof. unfold datas. rewrite map_app, concat_app. reflexivity. Qed.

Lemma frame_iovecs_datas iov : concat (frame_iovecs iov) = datas iov.
Proof.
  induction iov as [|p iov IH]; [reflexivity|]. cbn [frame_iovecs concat].
  rewrite IH, htonl_be32. unfold datas. cbn [map concat]. unfold data_frame. rewrite <- app_assoc. reflexivity.
Qed.

Lemma reset_or_init_eq oc : reset_or_init oc = mk_control 0 [].
Proof. destruct oc; reflexivity. Qed.

Lemma add_all_eq cts : forall c, add_all c cts = mk_control (c_type c) (c_cts c ++ cts).
Proof.
  induction cts as [|ct cts IH]; intros c; cbn.
  - rewrite app_nil_r. destruct c; reflexivity.
  - rewrite IH. cbn. rewrite <- app_assoc. reflexivity.
Qed.

Lemma accept_match_in acc cts : forall m m' ct, accept_match_loop acc cts m = (m', Some ct) -> In ct cts.
Proof.
  induction cts as [|c cts IH]; intros m m' ct; cbn; [discriminate|].
  destruct (res_eqb _ _).
  - intros [= _ <-]. auto.
  - intro H. right. eapply IH, H.
Qed.

Section Sess.
Variable okb : res -> bool.
Hypothesis okb_success : okb r_success = true.
Local Notation sessions := (sessions okb).
Local Notation quiet := (quiet okb).
Local Notation wrote := (wrote okb).

(** Same writer except for the transport's opened flag and the control frames. *)
Record same_w (w w' : writer) : Prop := {
  sw_cts : w_cts w' = w_cts w;
  sw_iov : w_iov_max w' = w_iov_max w;
  sw_rw : same_ops (w_rdwr w) (w_rdwr w')
}.

Lemma same_w_refl w : same_w w w.
Proof. split; auto. apply same_ops_refl. Qed.
Lemma same_w_trans a b c : same_w a b -> same_w b c -> same_w a c.
Proof.
  intros [A1 A2 A3] [B1 B2 B3]. split; try congruence. eapply same_ops_trans; eassumption.
Qed.

(** Static facts. *)
Record wok (bi : bool) (cts : list bytes) (w : writer) : Prop := {
  ok_destroy : rw_has_destroy (w_rdwr w) = true;
  ok_open : rw_has_open (w_rdwr w) = true;
  ok_close : rw_has_close (w_rdwr w) = true;
  ok_write : rw_has_write (w_rdwr w) = true;
  ok_read : rw_has_read (w_rdwr w) = bi;
  ok_cts : w_cts w = cts;
  ok_iov : (0 < w_iov_max w)%nat
}.

Lemma wok_same bi cts w w' : wok bi cts w -> same_w w w' -> wok bi cts w'.
Proof.
  intros [] [H1 H2 H3]. destruct (same_ops_fields _ _ H3) as (E1 & E2 & E3 & E4 & E5 & E6).
  split; congruence.
Qed.

Definition start_ctl ct := mk_control T_START (optl ct).

Lemma wp_send_start bi cts w ct (Q : post _) h ss cur :
  wok bi cts w -> RWI (w_rdwr w) h -> sessions h = ss ++ [cur] ->
  (forall h', legal h' -> (sessions h' = ss ++ [cur] \/ sessions h' = ss ++ [cur ++ start_frame ct]) -> Q h' Cut) ->
  (forall h' w', same_w w w' -> w_state w' = w_state w -> rw_opened (w_rdwr w') = true -> RWI (w_rdwr w') h' ->
     sessions h' = ss ++ [cur ++ start_frame ct] -> received h' = received h ->
     w_start w' = Some (start_ctl ct) -> w_ready w' = w_ready w -> w_accept w' = w_accept w ->
     Q h' (Done (r_success, w'))) ->
  (forall h' x w', x <> r_success -> same_w w w' -> w_state w' = w_state w -> RWI (w_rdwr w') h' ->
     (sessions h' = ss ++ [cur] \/ sessions h' = ss ++ [cur ++ start_frame ct]) ->
     Q h' (Done (x, w'))) ->
  wp (writer_send_start w ct) Q h.
Proof.
  intros W HI Hs Hcut HS HF. unfold writer_send_start. rewrite reset_or_init_eq.
  cbn [control_set_type type_known].
  assert (K : type_known FSTRM_CONTROL_START = true) by reflexivity.
  unfold control_set_type. rewrite K. cbv zeta.
  set (c' := match ct with Some b => _ | None => _ end).
  assert (Ec : c' = start_ctl ct) by (unfold c', start_ctl; destruct ct; reflexivity).
  clearbody c'. subst c'.
  set (w1 := set_wstart w (Some (start_ctl ct))).
  apply wp_bind_i.
  assert (V : visible T_START (optl ct) = optl ct) by (destruct ct; reflexivity).
  assert (SW1 : same_w w w1) by (split; try reflexivity; apply same_ops_refl).
  apply (wp_write_control_frame okb okb_success); cbn [start_ctl c_type c_cts].
  - apply W.
  - apply W.
  - exact HI.
  - intros h' _ [HL Hs']. rewrite V in Hs'. cbn. rewrite Hs, add_last_snoc in Hs'. apply Hcut; auto.
  - intros h' Ho HI' _ Hs' Hr'. rewrite V, Hs, add_last_snoc in Hs'. cbn.
    apply HS; cbn; auto.
  - intros h' r rw' Hr Hso HI' [HL Hs'] _ _. rewrite V in Hs'. rewrite Hs, add_last_snoc in Hs'. cbn.
    destruct (res_eqb r r_success) eqn:E; [apply res_eqb_true in E; contradiction|]. cbn.
    apply HF; cbn; auto. split; cbn; auto.
Qed.

(** What one open may have put into the new session. *)
Definition head_part (bi : bool) (cts : list bytes) (s : bytes) : Prop :=
  s = [] \/ (bi = true /\ s = ready_frame cts) \/
  exists ct, start_choice bi cts ct /\ s = session_head bi cts ct.

Lemma head_part_session bi cts s : head_part bi cts s -> writer_session bi cts s [].
Proof.
  intros [->|[[-> ->]|(ct & H & ->)]].
  - constructor.
  - constructor. reflexivity.
  - pose proof (sess_started bi cts ct [] false H) as S. cbn [datas map concat app] in S.
    rewrite app_nil_r in S. exact S.
Qed.

Record opened_ok (bi : bool) (cts : list bytes) (w' : writer) (h' : trace) (ct : option bytes) : Prop := {
  oo_start : w_start w' = Some (start_ctl ct);
  oo_choice : start_choice bi cts ct;
  oo_bi : bi = true -> w_ready w' = Some (mk_control T_READY cts) /\
          exists acts, w_accept w' = Some (mk_control T_ACCEPT acts) /\ ctl_ok T_ACCEPT acts /\
            received h' = ctl_frame T_ACCEPT acts /\
            (forall c, ct = Some c -> acts = [] \/ In c acts);
  oo_fits : bi = true -> fits true T_READY cts
}.

Lemma accept_match_acc acc cts : c_type acc = T_ACCEPT -> ctl_ok (c_type acc) (c_cts acc) ->
  forall m m' ct, accept_match_loop acc cts m = (m', Some ct) -> c_cts acc = [] \/ In ct (c_cts acc).
Proof.
  intros T K. induction cts as [|c cts IH]; intros m m' ct; cbn; [discriminate|].
  destruct (res_eqb (control_match acc (Some c)) r_success) eqn:E.
  - intros [= _ <-]. apply res_eqb_true in E. apply control_match_spec in E.
    rewrite (visible_of_ok _ _ K) in E. destruct E as (_ & _ & [E|(s & [= <-] & E)]); auto.
  - apply IH.
Qed.

Lemma wp_open_bi cts w (Q : post _) h ss :
  wok true cts w -> RWI (w_rdwr w) h -> sessions h = ss ++ [[]] -> received h = [] ->
  (forall h' s, legal h' -> head_part true cts s -> sessions h' = ss ++ [s] -> Q h' Cut) ->
  (forall h' w' ct, same_w w w' -> w_state w' = w_state w -> rw_opened (w_rdwr w') = true -> RWI (w_rdwr w') h' ->
     start_choice true cts ct -> sessions h' = ss ++ [session_head true cts ct] ->
     opened_ok true cts w' h' ct ->
     Q h' (Done (r_success, w'))) ->
  (forall h' x w' s, x <> r_success -> same_w w w' -> w_state w' = w_state w -> RWI (w_rdwr w') h' ->
     head_part true cts s -> sessions h' = ss ++ [s] -> Q h' (Done (x, w'))) ->
  wp (writer_open_bidirectional w) Q h.
Proof.
  intros W HI Hs Hrcv Hcut HS HF. unfold writer_open_bidirectional. rewrite reset_or_init_eq.
  unfold control_set_type.
  change (type_known FSTRM_CONTROL_READY) with true. cbv iota zeta. cbn [c_cts].
  rewrite add_all_eq. cbn [c_type c_cts app]. rewrite (ok_cts _ _ _ W).
  set (w1 := set_wready w (Some (mk_control FSTRM_CONTROL_READY cts))).
  apply wp_bind_i.
  assert (V : visible T_READY cts = cts) by reflexivity.
  apply (wp_write_control_frame okb okb_success); cbn [c_type c_cts].
  - apply W.
  - apply W.
  - exact HI.
  - intros h' _ [HL Hs']. cbn. rewrite Hs, add_last_snoc in Hs'.
    destruct Hs' as [Hs'|Hs']; eapply Hcut; eauto; unfold head_part; auto.
  - intros h1 Ho HI1 Enc Hs1 Hr1. rewrite Hs, add_last_snoc in Hs1. cbn [app] in Hs1.
    apply encodable_fits in Enc. change (visible FSTRM_CONTROL_READY cts) with cts in Enc.
    change (visible FSTRM_CONTROL_READY cts) with cts in Hs1. cbn.
    apply wp_bind_i.
    apply (wp_read_control okb).
    + apply W.
    + apply W.
    + exact HI1.
    + intros h' [Hq HL]. cbn. eapply Hcut; eauto; [right; left; split; reflexivity|].
      rewrite Hq. exact Hs1.
    + intros h2 acts _ HI2 [Hq2 HL2] K Hr2. cbn.
      set (acc := mk_control FSTRM_CONTROL_ACCEPT acts) in *.
      destruct (accept_match_loop acc (w_cts w) true) as [m ct] eqn:EM.
      destruct m; cbn [negb].
      2:{ cbn. eapply HF; [discriminate| | |exact HI2| |].
          - split; cbn; auto. apply same_ops_refl.
          - reflexivity.
          - right. left. split; reflexivity.
          - rewrite Hq2. exact Hs1. }
      assert (CH : start_choice true cts ct).
      { cbn. destruct ct as [ct|]; [right|left; reflexivity]. exists ct. split; [reflexivity|].
        rewrite <- (ok_cts _ _ _ W). eapply accept_match_in, EM. }
      set (w2 := set_waccept _ _).
      assert (SW2 : same_w w w2) by (split; cbn; auto; apply same_ops_refl).
      eapply (wp_send_start true cts w2 ct _ h2 ss (ready_frame cts)).
      * eapply wok_same; eassumption.
      * exact HI2.
      * rewrite Hq2. exact Hs1.
      * intros h' HL' [Hs'|Hs']; eapply Hcut; eauto.
        -- right. left. split; reflexivity.
        -- right. right. exists ct. split; [assumption|reflexivity].
      * intros h3 w3 SW3 St3 Ho3 HI3 Hs3 Hr3 HST HRD HAC. apply HS with (ct := ct); auto.
        -- eapply same_w_trans; eassumption.
        -- split; auto. intros _. rewrite HRD, HAC. cbn. split; [reflexivity|].
           exists acts. repeat split; auto; try apply K.
           ++ rewrite Hr3, Hr2, Hr1, Hrcv. reflexivity.
           ++ intros c ->. eapply (accept_match_acc acc); eauto.
      * intros h3 x w3 Hx SW3 St3 HI3 Hs3. destruct Hs3 as [Hs3|Hs3]; eapply HF; eauto.
        -- eapply same_w_trans; eassumption.
        -- right. left. split; reflexivity.
        -- eapply same_w_trans; eassumption.
        -- right. right. exists ct. split; [assumption|reflexivity].
    + intros h2 r c' rw' Hr Hso HI2 [Hq2 HL2]. cbn.
      destruct (res_eqb r r_success) eqn:E; [apply res_eqb_true in E; contradiction|]. cbn.
      eapply HF; eauto.
      * split; cbn; auto.
      * right. left. split; reflexivity.
      * rewrite Hq2. exact Hs1.
  - intros h1 r rw' Hr Hso HI1 [HL1 Hs1] _ _. rewrite Hs, add_last_snoc in Hs1. cbn [app] in Hs1. cbn.
    destruct (res_eqb r r_success) eqn:E; [apply res_eqb_true in E; contradiction|]. cbn.
    assert (SW : same_w w (set_wrdwr w1 rw')) by (split; cbn; auto).
    destruct Hs1 as [Hs1|Hs1]; eapply HF; eauto; unfold head_part; auto.
Qed.

Lemma wp_open bi cts w (Q : post _) h :
  wok bi cts w -> RWI (w_rdwr w) h ->
  (forall h', legal h' -> sessions h' = sessions h -> Q h' Cut) ->
  (forall h' s, legal h' -> head_part bi cts s -> sessions h' = sessions h ++ [s] -> Q h' Cut) ->
  (w_state w = ws_opened -> Q h (Done (r_success, w))) ->
  (forall h' w' ct, w_state w <> ws_opened -> same_w w w' -> w_state w' = ws_opened -> rw_opened (w_rdwr w') = true -> RWI (w_rdwr w') h' ->
     start_choice bi cts ct -> sessions h' = sessions h ++ [session_head bi cts ct] ->
     opened_ok bi cts w' h' ct ->
     Q h' (Done (r_success, w'))) ->
  (forall h' x w', x <> r_success -> w_state w <> ws_opened -> same_w w w' -> w_state w' = w_state w -> RWI (w_rdwr w') h' ->
     (sessions h' = sessions h \/ exists s, head_part bi cts s /\ sessions h' = sessions h ++ [s]) ->
     Q h' (Done (x, w'))) ->
  wp (writer_open w) Q h.
Proof.
  intros W HI Hcut1 Hcut2 HO HS HF. unfold writer_open.
  assert (G : w_state w <> ws_opened ->
    wp (bind (rdwr_open (w_rdwr w)) (fun z => match z with (x, rw) =>
      let w := set_wrdwr w rw in
      if negb (res_eqb x r_success) then Ret (x, w)
      else bind (if rw_has_read (w_rdwr w) then writer_open_bidirectional w
                     else writer_open_unidirectional w) (fun z => match z with (x, w) =>
        if negb (res_eqb x r_success) then Ret (x, w)
        else Ret (r_success, set_wstate w ws_opened) end) end)) Q h).
  2:{ destruct (w_state w) eqn:ES; try (apply G; congruence). cbn. apply HO. reflexivity. }
  intro NO. apply wp_bind_i. apply (wp_rdwr_open okb).
  - apply W.
  - exact HI.
  - cbn. apply Hcut1; auto. eapply RWI_legal; eassumption.
  - intros h1 _ HI1 Hs1 Hr1. cbn. rewrite (ok_read _ _ _ W).
    set (w1 := set_wrdwr w _).
    assert (SW1 : same_w w w1) by (split; cbn; auto; apply same_ops_set).
    assert (W1 : wok bi cts w1) by (eapply wok_same; eassumption).
    destruct bi.
    + apply wp_bind_i. apply (wp_open_bi cts w1 _ h1 (sessions h)); [exact W1|exact HI1|exact Hs1|exact Hr1| | |].
      * intros h' s HL HP Hs'. cbn. eapply Hcut2; eauto.
      * intros h2 w2 ct SW2 St2 Ho2 HI2 CH Hs2 OO. cbn.
        eapply HS; eauto.
        -- eapply same_w_trans; [exact SW1|]. destruct SW2. split; auto.
        -- destruct OO. split; auto.
      * intros h2 x w2 s Hx SW2 St2 HI2 HP Hs2. cbn.
        destruct (res_eqb x r_success) eqn:E; [apply res_eqb_true in E; contradiction|]. cbn.
        eapply HF; eauto. eapply same_w_trans; eassumption.
    + apply wp_bind_i. unfold writer_open_unidirectional.
      change (w_cts w1) with (w_cts w). rewrite (ok_cts _ _ _ W).
      apply (wp_send_start false cts w1 (hd_error cts) _ h1 (sessions h) []); [exact W1|exact HI1|exact Hs1| | |].
      * intros h' HL [Hs'|Hs']; cbn; eapply Hcut2; eauto.
        -- left. reflexivity.
        -- right. right. exists (hd_error cts). split; reflexivity.
      * intros h2 w2 SW2 St2 Ho2 HI2 Hs2 Hr2 HST HRD HAC. cbn. eapply (HS _ _ (hd_error cts)); auto.
        -- eapply same_w_trans; [exact SW1|]. destruct SW2. split; auto.
        -- reflexivity.
        -- split; auto; [reflexivity|discriminate|discriminate].
      * intros h2 x w2 Hx SW2 St2 HI2 Hs2. cbn.
        destruct (res_eqb x r_success) eqn:E; [apply res_eqb_true in E; contradiction|]. cbn.
        eapply HF; eauto; [eapply same_w_trans; eassumption|].
        right. destruct Hs2 as [Hs2|Hs2].
        -- exists []. split; [left; reflexivity|exact Hs2].
        -- eexists. split; [|exact Hs2]. right. right. exists (hd_error cts). split; reflexivity.
  - intros h1 r _ Hr HI1 Hs1 _. cbn.
    destruct (res_eqb r r_success) eqn:E; [apply res_eqb_true in E; contradiction|]. cbn.
    apply HF; cbn; auto. split; cbn; auto. apply same_ops_refl.
Qed.

(** ** Invariant over histories *)
Definition SV (bi : bool) (cts : list bytes) (h : trace) (D : list bytes) : Prop :=
  legal h /\ exists dss, Forall2 (writer_session bi cts) (sessions h) dss /\ concat dss = D.

Definition live (bi : bool) (cts : list bytes) (s : bytes) (ds : list bytes) : Prop :=
  exists ct, start_choice bi cts ct /\ s = session_head bi cts ct ++ datas ds.

Lemma live_session bi cts s ds : live bi cts s ds -> writer_session bi cts s ds.
Proof.
  intros (ct & CH & ->). pose proof (sess_started bi cts ct ds false CH) as S.
  cbn iota in S. rewrite app_nil_r in S. exact S.
Qed.

Definition liveS (bi : bool) (cts : list bytes) (h : trace) (D : list bytes) : Prop :=
  exists ss s dss ds, sessions h = ss ++ [s] /\ Forall2 (writer_session bi cts) ss dss /\
     live bi cts s ds /\ concat dss ++ ds = D.

Record WI (bi : bool) (cts : list bytes) (w : writer) (h : trace) (D : list bytes) : Prop := {
  wi_ok : wok bi cts w;
  wi_rw : RWI (w_rdwr w) h;
  wi_sv : SV bi cts h D;
  wi_live : w_state w = ws_opened -> rw_opened (w_rdwr w) = true -> liveS bi cts h D
}.

Lemma liveS_SV bi cts h D : legal h -> liveS bi cts h D -> SV bi cts h D.
Proof.
  intros L (ss & s & dss & ds & E & F & LV & <-). split; [assumption|].
  exists (dss ++ [ds]). rewrite E. split.
  - apply Forall2_app; [assumption|]. constructor; [|constructor]. apply live_session; assumption.
  - rewrite concat_app. cbn. rewrite app_nil_r. reflexivity.
Qed.

Lemma SV_head bi cts h h' D s : SV bi cts h D -> legal h' -> head_part bi cts s ->
  sessions h' = sessions h ++ [s] -> SV bi cts h' D.
Proof.
  intros (_ & dss & F & <-) L HP E. split; [assumption|]. exists (dss ++ [[]]). rewrite E. split.
  - apply Forall2_app; [assumption|]. constructor; [|constructor]. apply head_part_session; assumption.
  - rewrite concat_app. cbn. rewrite app_nil_r. reflexivity.
Qed.

Lemma SV_same bi cts h h' D : SV bi cts h D -> legal h' -> sessions h' = sessions h -> SV bi cts h' D.
Proof. intros (_ & dss & F & E) L Hs. split; [assumption|]. exists dss. rewrite Hs. auto. Qed.

Lemma liveS_opened bi cts h h' D ct : SV bi cts h D -> start_choice bi cts ct ->
  sessions h' = sessions h ++ [session_head bi cts ct] -> liveS bi cts h' D.
Proof.
  intros (_ & dss & F & <-) CH E. exists (sessions h), (session_head bi cts ct), dss, [].
  repeat split; auto.
  - exists ct. split; [assumption|]. cbn. rewrite app_nil_r. reflexivity.
  - rewrite app_nil_r. reflexivity.
Qed.

Lemma liveS_add bi cts h h' D ps : liveS bi cts h D ->
  sessions h' = add_last (sessions h) (datas ps) -> liveS bi cts h' (D ++ ps).
Proof.
  intros (ss & s & dss & ds & E & F & (ct & CH & ->) & <-) Hs.
  rewrite E, add_last_snoc in Hs. eexists ss, _, dss, (ds ++ ps). split; [exact Hs|]. split; [assumption|].
  split; [|rewrite app_assoc; reflexivity].
  exists ct. split; [assumption|]. rewrite datas_app, <- app_assoc. reflexivity.
Qed.

Lemma SV_stop bi cts h h' D : liveS bi cts h D -> legal h' ->
  sessions h' = add_last (sessions h) stop_frame -> SV bi cts h' D.
Proof.
  intros (ss & s & dss & ds & E & F & (ct & CH & ->) & <-) L Hs.
  rewrite E, add_last_snoc in Hs. split; [assumption|]. exists (dss ++ [ds]). rewrite Hs. split.
  - apply Forall2_app; [assumption|]. constructor; [|constructor].
    rewrite <- app_assoc. apply (sess_started bi cts ct ds true CH).
  - rewrite concat_app. cbn. rewrite app_nil_r. reflexivity.
Qed.

Lemma wp_open_WI bi cts w (Q : post _) h D :
  WI bi cts w h D ->
  (forall h', SV bi cts h' D -> Q h' Cut) ->
  (forall h' w', WI bi cts w' h' D -> w_state w' = ws_opened -> Q h' (Done (r_success, w'))) ->
  (forall h' x w', x <> r_success -> WI bi cts w' h' D -> Q h' (Done (x, w'))) ->
  wp (writer_open w) Q h.
Proof.
  intros [W RW V LV] Hcut HS HF. eapply wp_open; eauto.
  - intros h' L Hs. apply Hcut. eapply SV_same; eauto.
  - intros h' s L HP Hs. apply Hcut. eapply SV_head; eauto.
  - intro E. apply HS; auto. split; auto.
  - intros h' w' ct NO SW St Ho HI' CH Hs _. apply HS; auto.
    assert (LL : liveS bi cts h' D) by (eapply liveS_opened; eauto).
    split; auto.
    + eapply wok_same; eassumption.
    + apply liveS_SV; [eapply RWI_legal; eassumption|assumption].
  - intros h' x w' Hx NO SW St HI' Hs. apply HF; auto. split; auto.
    + eapply wok_same; eassumption.
    + destruct Hs as [Hs|(s & HP & Hs)].
      * eapply SV_same; eauto. eapply RWI_legal; eassumption.
      * eapply SV_head; eauto. eapply RWI_legal; eassumption.
    + intros E _. congruence.
Qed.

Lemma wp_maybe_open_WI bi cts w (Q : post _) h D :
  WI bi cts w h D ->
  (forall h', SV bi cts h' D -> Q h' Cut) ->
  (forall h' w', WI bi cts w' h' D -> w_state w' = ws_opened \/ w' = w -> Q h' (Done (r_success, w'))) ->
  (forall h' x w', x <> r_success -> WI bi cts w' h' D -> Q h' (Done (x, w'))) ->
  wp (writer_maybe_open w) Q h.
Proof.
  intros I Hcut HS HF. unfold writer_maybe_open. destruct (w_state w); try (cbn; apply HS; auto; fail).
  apply wp_bind_i. eapply wp_open_WI; eauto; cbn.
  - intros. apply HS; auto.
  - intros h' x w' Hx I'. destruct (res_eqb x r_success) eqn:E; [apply res_eqb_true in E; contradiction|].
    cbn. apply HF; auto.
Qed.

Lemma wp_write_iov bi cts w ps (Q : post _) h D :
  WI bi cts w h D -> w_state w = ws_opened -> (2 * length ps <= 256)%nat ->
  (forall h', SV bi cts h' D \/ SV bi cts h' (D ++ ps) -> Q h' Cut) ->
  (forall h' w', WI bi cts w' h' (D ++ ps) -> w_state w' = ws_opened -> Q h' (Done (r_success, w'))) ->
  (forall h' x w', x <> r_success -> WI bi cts w' h' D \/ WI bi cts w' h' (D ++ ps) -> Q h' (Done (x, w'))) ->
  wp (write_iov w ps) Q h.
Proof.
  intros [W RW V LV] ES Hlen Hcut HS HF. unfold write_iov.
  destruct (FSTRM__WRITER_IOVEC_SIZE <? 2 * length ps)%nat eqn:E; [unfold FSTRM__WRITER_IOVEC_SIZE in E; lia|].
  apply wp_bind_i. apply (wp_rdwr_write okb okb_success); auto; try apply W.
  - intros h' EO [L Hs]. rewrite frame_iovecs_datas in Hs. cbn. apply Hcut.
    destruct Hs as [Hs|Hs]; [left; eapply SV_same; eauto|].
    right. eapply liveS_SV; [assumption|]. eapply liveS_add; eauto.
  - intros h' EO HI' Hs _. rewrite frame_iovecs_datas in Hs. cbn. apply HS; [|exact ES].
    assert (LL : liveS bi cts h' (D ++ ps)) by (eapply liveS_add; eauto).
    split; auto.
    + eapply wok_same; [eassumption|]. split; cbn; auto. apply same_ops_refl.
    + apply liveS_SV; [eapply RWI_legal; eassumption|assumption].
  - intros h' r Hr HI' [L Hs] _ Hno. rewrite frame_iovecs_datas in Hs. cbn. apply HF; auto.
    assert (W' : wok bi cts (set_wrdwr w (set_opened (w_rdwr w) false))).
    { eapply wok_same; [eassumption|]. split; cbn; auto. apply same_ops_set. }
    destruct (rw_opened (w_rdwr w)) eqn:EO.
    + destruct Hs as [Hs|Hs]; [left|right]; (split; [assumption|assumption| |discriminate]).
      * eapply SV_same; eauto.
      * apply liveS_SV; [assumption|]. eapply liveS_add; eauto.
    + rewrite (Hno eq_refl) in *. left. split; auto; discriminate.
Qed.

Definition call_cut bi cts (ps D : list bytes) h' := exists σ, prefix σ ps /\ SV bi cts h' (D ++ σ).
(** No leak: an open transport belongs to an opened writer. *)
Definition NL (w : writer) : Prop := rw_opened (w_rdwr w) = true -> w_state w = ws_opened.
Definition call_done bi cts (ps D : list bytes) w x w' h' :=
  exists σ, prefix σ ps /\ (x = r_success -> σ = ps) /\ WI bi cts w' h' (D ++ σ) /\
    (NL w -> x = r_success -> NL w').

Lemma call_cut_nil bi cts ps D h' : SV bi cts h' D -> call_cut bi cts ps D h'.
Proof. intro H. exists []. split; [apply prefix_nil|]. rewrite app_nil_r. assumption. Qed.
Lemma call_cut_all bi cts ps D h' : SV bi cts h' (D ++ ps) -> call_cut bi cts ps D h'.
Proof. intro H. exists ps. split; [apply prefix_refl|assumption]. Qed.
Lemma call_done_nil bi cts ps D w x w' h' : x <> r_success -> WI bi cts w' h' D -> call_done bi cts ps D w x w' h'.
Proof.
  intros Hx H. exists []. split; [apply prefix_nil|]. split; [contradiction|]. rewrite app_nil_r.
  split; [assumption|contradiction].
Qed.
Lemma call_done_all bi cts ps D w x w' h' : WI bi cts w' h' (D ++ ps) ->
  (NL w -> x = r_success -> NL w') -> call_done bi cts ps D w x w' h'.
Proof. intros H N. exists ps. split; [apply prefix_refl|]. split; auto. Qed.
Lemma NL_opened w : w_state w = ws_opened -> NL w.
Proof. intros H _. exact H. Qed.

Lemma wp_stupid_loop bi cts chunk (Q : post _) : (0 < chunk)%nat -> (2 * chunk <= 256)%nat ->
  forall fuel ps w h D, (length ps <= fuel)%nat ->
  WI bi cts w h D -> w_state w = ws_opened ->
  (forall h', call_cut bi cts ps D h' -> Q h' Cut) ->
  (forall h' x w', call_done bi cts ps D w x w' h' -> Q h' (Done (x, w'))) ->
  wp (write_iov_stupid_loop fuel chunk w ps) Q h.
Proof.
  intros C0 C1. induction fuel as [|fuel IH]; intros ps w h D Hf I ES Hcut HD.
  { destruct ps; [|cbn in Hf; lia]. cbn. apply HD. apply call_done_all; [rewrite app_nil_r; assumption|auto]. }
  destruct ps as [|p ps0] eqn:Eps.
  { cbn. apply HD. apply call_done_all; [rewrite app_nil_r; assumption|auto]. }
  rewrite <- Eps in *. assert (Hne : ps <> []) by congruence.
  assert (EqL : write_iov_stupid_loop (S fuel) chunk w ps =
     bind (write_iov w (firstn chunk ps)) (fun z => match z with (x, w) =>
          if negb (res_eqb x r_success) then Ret (x, w)
          else write_iov_stupid_loop fuel chunk w (skipn chunk ps) end)) by (subst ps; reflexivity).
  rewrite EqL. clear EqL Eps p ps0.
  assert (PF : prefix (firstn chunk ps) ps).
  { exists (skipn chunk ps). symmetry. apply firstn_skipn. }
  apply wp_bind_i. eapply wp_write_iov; eauto.
  - rewrite firstn_length. lia.
  - intros h' [H|H]; cbn; apply Hcut; [apply call_cut_nil; assumption|].
    exists (firstn chunk ps). auto.
  - intros h1 w1 I1 ES1. cbn. eapply IH; [ |exact I1|assumption| |].
    + rewrite skipn_length. destruct ps; [congruence|cbn [length] in *; lia].
    + intros h' (σ & P & V). apply Hcut. exists (firstn chunk ps ++ σ). split.
      * rewrite <- (firstn_skipn chunk ps) at 2. apply prefix_app. assumption.
      * rewrite app_assoc. assumption.
    + intros h' x w' (σ & P & Hx & V & N). apply HD. exists (firstn chunk ps ++ σ). split; [|split; [|split]].
      * rewrite <- (firstn_skipn chunk ps) at 2. apply prefix_app. assumption.
      * intro H. rewrite (Hx H). apply firstn_skipn.
      * rewrite app_assoc. assumption.
      * intros _ H. apply N; [|assumption]. apply NL_opened; assumption.
  - intros h1 x w1 Hx H. cbn.
    destruct (res_eqb x r_success) eqn:E; [apply res_eqb_true in E; contradiction|]. cbn. apply HD.
    destruct H as [H|H]; [apply call_done_nil; assumption|].
    exists (firstn chunk ps). split; [assumption|]. split; [contradiction|]. split; [assumption|contradiction].
Qed.

Lemma wp_writev bi cts w ps (Q : post _) h D :
  WI bi cts w h D -> lenN ps < 2 ^ 30 ->
  (forall h', call_cut bi cts ps D h' -> Q h' Cut) ->
  (forall h' x w', call_done bi cts ps D w x w' h' -> Q h' (Done (x, w'))) ->
  wp (writer_writev w ps) Q h.
Proof.
  intros I Hlen Hcut HD. unfold writer_writev.
  destruct ps as [|p ps0] eqn:Eps.
  { cbn. apply HD. apply call_done_all; [rewrite app_nil_r; assumption|auto]. }
  rewrite <- Eps in *. clear Eps p ps0.
  apply wp_bind_i. eapply wp_maybe_open_WI; eauto.
  - intros h' V. cbn. apply Hcut, call_cut_nil, V.
  - intros h1 w1 I1 St1. unfold bind_post. cbn [res_eqb negb].
    destruct (w_state w1) eqn:ES; try (cbn; apply HD, call_done_nil; [discriminate|assumption]).
    destruct (2 ^ 31 <=? 2 * lenN ps) eqn:EO; [lia|].
    destruct (2 * length ps <=? FSTRM__WRITER_IOVEC_SIZE)%nat eqn:EL.
    + eapply wp_write_iov; eauto.
      * unfold FSTRM__WRITER_IOVEC_SIZE in EL. lia.
      * intros h' [H|H]; apply Hcut; [apply call_cut_nil|apply call_cut_all]; assumption.
      * intros h' w' I' St'. apply HD, call_done_all; [exact I'|]. intros _ _. apply NL_opened, St'.
      * intros h' x w' Hx [H|H]; apply HD; [apply call_done_nil|apply call_done_all]; auto; contradiction.
    + unfold write_iov_stupid, FSTRM__WRITER_IOVEC_SIZE.
      pose proof (ok_iov _ _ _ (wi_ok _ _ _ _ _ I1)) as P.
      change (256 / 2)%nat with 128%nat.
      destruct (Nat.min 128 (w_iov_max w1) =? 0)%nat eqn:E0; [lia|].
      eapply wp_stupid_loop; eauto; try lia.
      intros h' x w' (σ & PR & Hx & V & N). apply HD. exists σ. repeat split; auto; try apply V.
      intros _ H. apply N; [|assumption]. apply NL_opened. assumption.
  - intros h1 x w1 Hx I1. unfold bind_post.
    destruct (res_eqb x r_success) eqn:E; [apply res_eqb_true in E; contradiction|]. cbn.
    apply HD, call_done_nil; assumption.
Qed.

Lemma write_stop_eq rw : write_control rw FSTRM_CONTROL_STOP None = rdwr_write rw [stop_frame].
Proof. rewrite (write_control_eq rw FSTRM_CONTROL_STOP None eq_refl). reflexivity. Qed.

Lemma wp_close_rw (B : Type) rw (f : res -> rdwr -> B) (Q : post _) h :
  rw_has_close rw = true -> RWI rw h ->
  (legal h -> Q h Cut) ->
  (forall h' r, sessions h' = sessions h -> received h' = received h -> RWI (set_opened rw false) h' ->
     (rw_opened rw = false -> h' = h) -> Q h' (Done (f r (set_opened rw false)))) ->
  wp (bind (rdwr_close rw) (fun z => match z with (x, rw) => Ret (f x rw) end)) Q h.
Proof.
  intros HC HI Hcut HD. apply wp_bind_i. apply (wp_rdwr_close okb); auto.
  - eapply quiet_refl; eassumption.
  - intros [_ L]. cbn. auto.
  - intros. cbn. auto.
Qed.

Lemma wp_close_WI bi cts w (Q : post _) h D :
  WI bi cts w h D ->
  (forall h', SV bi cts h' D -> Q h' Cut) ->
  (forall h' x w', WI bi cts w' h' D -> (NL w -> NL w') -> (w_state w = ws_opened -> rw_opened (w_rdwr w') = false /\ w_state w' = ws_closed) ->
     (x = r_success -> exists ss s dss ds ct, sessions h' = ss ++ [s] /\ Forall2 (writer_session bi cts) ss dss /\
        start_choice bi cts ct /\ s = session_head bi cts ct ++ datas ds ++ stop_frame) ->
     Q h' (Done (x, w'))) ->
  wp (writer_close w) Q h.
Proof.
  intros [W RW V LV] Hcut HD. unfold writer_close.
  destruct (w_state w) eqn:ES; try (cbn; apply HD; [split; auto; congruence|auto|congruence|discriminate]).
  cbv zeta. rewrite write_stop_eq. cbn [set_wstate w_rdwr]. apply wp_bind_i.
  specialize (LV eq_refl).
  assert (C1 : concat [stop_frame] = stop_frame) by apply app_nil_r.
  assert (WOK : forall w', same_w w w' -> wok bi cts w') by (intros; eapply wok_same; eassumption).
  apply (wp_rdwr_write okb okb_success); auto; try apply W; rewrite ?C1.
  - intros h' EO [L Hs]. cbn. apply Hcut. destruct Hs as [Hs|Hs]; [eapply SV_same; eauto|].
    eapply SV_stop; eauto.
  - intros h1 EO HI1 Hs1 _. unfold bind_post. cbn [res_eqb negb].
    specialize (LV EO).
    assert (V1 : SV bi cts h1 D) by (eapply SV_stop; eauto; eapply RWI_legal; eassumption).
    assert (SH : exists ss s dss ds ct, sessions h1 = ss ++ [s] /\ Forall2 (writer_session bi cts) ss dss /\
        start_choice bi cts ct /\ s = session_head bi cts ct ++ datas ds ++ stop_frame).
    { destruct LV as (ss & s & dss & ds & E & F & (ct & CH & ->) & ED).
      rewrite E, add_last_snoc in Hs1. eexists _, _, dss, ds, ct. split; [exact Hs1|]. split; [assumption|].
      split; [assumption|]. rewrite <- app_assoc. reflexivity. }
    destruct (rw_has_read (w_rdwr w)) eqn:ER.
    + apply wp_bind_i. apply (wp_read_control okb); auto; try apply W.
      * intros h' [Hq L]. cbn. apply Hcut. eapply SV_same; eauto.
      * intros h2 fin _ HI2 [Hq2 L2] _ _. unfold bind_post. cbn [res_eqb negb].
        apply wp_close_rw; [apply W|assumption| |].
        -- intros L. apply Hcut. eapply SV_same; eauto.
        -- intros h3 r Hs3 _ HI3 _. apply HD; [|intros _ X; discriminate X|split; reflexivity|].
           ++ split; [|exact HI3| |discriminate].
              ** apply WOK. split; cbn; auto. apply same_ops_set.
              ** eapply SV_same; [exact V1|eapply RWI_legal; eassumption|congruence].
           ++ intros _. rewrite Hs3, Hq2. exact SH.
      * intros h2 r c' rw' Hr Hso HI2 [Hq2 L2]. unfold bind_post.
        destruct (res_eqb r r_success) eqn:E; [apply res_eqb_true in E; contradiction|]. cbn [negb].
        destruct (same_ops_fields _ _ Hso) as (_ & _ & _ & EC & _).
        apply wp_close_rw; [rewrite EC; apply W|assumption| |].
        -- intros L. apply Hcut. eapply SV_same; eauto.
        -- intros h3 r3 Hs3 _ HI3 _. apply HD; [|intros _ X; discriminate X|split; reflexivity|intro; contradiction].
           split; [|exact HI3| |discriminate].
           ++ apply WOK. split; cbn; auto. eapply same_ops_trans; [exact Hso|apply same_ops_set].
           ++ eapply SV_same; [exact V1|eapply RWI_legal; eassumption|congruence].
    + apply wp_close_rw; [apply W|assumption| |].
      * intros L. apply Hcut. eapply SV_same; eauto.
      * intros h3 r Hs3 _ HI3 _. apply HD; [|intros _ X; discriminate X|split; reflexivity|].
        -- split; [|exact HI3| |discriminate].
           ++ apply WOK. split; cbn; auto. apply same_ops_set.
           ++ eapply SV_same; [exact V1|eapply RWI_legal; eassumption|congruence].
        -- intros _. rewrite Hs3. exact SH.
  - intros h1 r Hr HI1 [L1 Hs1] _ Hno. unfold bind_post.
    destruct (res_eqb r r_success) eqn:E; [apply res_eqb_true in E; contradiction|]. cbn [negb].
    assert (V1 : SV bi cts h1 D).
    { destruct (rw_opened (w_rdwr w)) eqn:EO.
      - destruct Hs1 as [Hs1|Hs1]; [eapply SV_same; eauto|eapply SV_stop; eauto].
      - rewrite (Hno eq_refl). exact V. }
    apply wp_close_rw; [apply W|assumption| |].
    + intros _. apply Hcut. assumption.
    + intros h3 r3 Hs3 _ HI3 Hn3. apply HD; [|intros _ X; discriminate X|split; reflexivity|intro; contradiction].
      split; [|exact HI3| |discriminate].
      * apply WOK. split; cbn; auto. eapply same_ops_trans; [apply same_ops_set|apply same_ops_set].
      * eapply SV_same; [exact V1|eapply RWI_legal; eassumption|congruence].
Qed.

Lemma wp_wcall bi cts w c (Q : post _) h D :
  WI bi cts w h D -> wcall_ok c ->
  (forall h', call_cut bi cts (wpayloads c) D h' -> Q h' Cut) ->
  (forall h' x w', call_done bi cts (wpayloads c) D w x w' h' -> Q h' (Done (x, w'))) ->
  wp (do_wcall w c) Q h.
Proof.
  intros I Hc Hcut HD. destruct c as [|p|ps| |t]; cbn [do_wcall wpayloads] in *.
  - eapply wp_open_WI; eauto; intros.
    + apply Hcut, call_cut_nil. assumption.
    + apply HD, call_done_all; [rewrite app_nil_r; assumption|]. intros _ _. apply NL_opened; assumption.
    + apply HD, call_done_nil; assumption.
  - eapply wp_writev; eauto. 
  - eapply wp_writev; eauto.
  - eapply wp_close_WI; eauto; intros.
    + apply Hcut, call_cut_nil. assumption.
    + apply HD, call_done_all; [rewrite app_nil_r; assumption|auto].
  - unfold writer_get_control. apply wp_bind_i, wp_bind_i. eapply wp_maybe_open_WI; eauto.
    + intros. cbn. apply Hcut, call_cut_nil. assumption.
    + intros h' w' I' St'. unfold bind_post. cbn [res_eqb negb].
      assert (NN : NL w -> NL w') by (destruct St' as [St'| ->]; [intros _; apply NL_opened, St'|auto]).
      repeat match goal with |- context [if ?b then _ else _] => destruct b end;
        cbn; apply HD, call_done_all; rewrite ?app_nil_r; auto.
    + intros h' x w' Hx I'. unfold bind_post.
      destruct (res_eqb x r_success) eqn:E; [apply res_eqb_true in E; contradiction|]. cbn.
      apply HD, call_done_nil; assumption.
Qed.

Lemma wp_wcalls bi cts cs : forall w (Q : post _) h D,
  WI bi cts w h D -> Forall wcall_ok cs ->
  (forall h' rs σs, explained cs rs σs -> SV bi cts h' (D ++ concat σs) -> Q h' Cut) ->
  (forall h' rs w' σs, explained cs rs σs -> length rs = length cs -> WI bi cts w' h' (D ++ concat σs) ->
     (NL w -> Forall (eq r_success) rs -> NL w') -> Q h' (Done (rs, w'))) ->
  wp (do_wcalls w cs) Q h.
Proof.
  induction cs as [|c cs IH]; intros w Q h D I Hok Hcut HD.
  { cbn. apply (HD h [] w []); [constructor|reflexivity| |auto]. cbn. rewrite app_nil_r. assumption. }
  inversion_clear Hok. cbn [do_wcalls]. apply wp_bind_i. eapply wp_wcall; eauto.
  - intros h' (σ & P & V). cbn. apply (Hcut h' [] [σ]); [constructor; assumption|]. cbn. rewrite app_nil_r. assumption.
  - intros h1 x w1 (σ & P & Hx & I1 & N1). unfold bind_post. apply wp_bind_i. eapply IH; eauto.
    + intros h' rs σs EX V. cbn. apply (Hcut h' (x :: rs) (σ :: σs)); [constructor; assumption|].
      cbn. rewrite app_assoc. assumption.
    + intros h' rs w' σs EX L I' N'. cbn. apply (HD h' (x :: rs) w' (σ :: σs)); [constructor; assumption|cbn; congruence| |].
      * cbn. rewrite app_assoc. assumption.
      * intros NW F. inversion_clear F. subst x. auto.
Qed.

Lemma WI_init bi cts iovm rw w :
  rw_opened rw = false -> rw_has_destroy rw = true -> rw_has_open rw = true -> rw_has_close rw = true -> rw_has_read rw = bi ->
  (0 < iovm)%nat -> writer_init iovm cts rw = Some w -> WI bi cts w [] [].
Proof.
  intros E1 E0 E2 E3 E4 E5 H. unfold writer_init in H. destruct (rw_has_write rw) eqn:E6; [|discriminate].
  injection H as <-. split; cbn.
  - split; auto.
  - unfold RWI. cbn. rewrite E1. reflexivity.
  - split; [discriminate|]. exists []. split; [constructor|reflexivity].
  - discriminate.
Qed.

Lemma wp_destroy bi cts w (Q : post _) h D :
  WI bi cts w h D ->
  (forall h', SV bi cts h' D -> Q h' Cut) ->
  (forall h' x, SV bi cts h' D -> transport_state h' = Some TDestroyed ->
     (NL w -> ~ left_open h') -> Q h' (Done x)) ->
  wp (writer_destroy w) Q h.
Proof.
  intros I Hcut HD. unfold writer_destroy.
  assert (Fin : forall x w' h1, WI bi cts w' h1 D ->
     (NL w -> rw_opened (w_rdwr w') = false) ->
     wp (bind (rdwr_destroy (w_rdwr w')) (fun _ => Ret x)) Q h1).
  { intros x w' h1 [W RW V LV] NN. apply wp_bind_i. unfold rdwr_destroy. rewrite (ok_destroy _ _ _ W).
    cbn. split; [apply Hcut; assumption|]. intros a Ha. destruct a; try contradiction. cbn.
    assert (T : transport_state (h1 ++ [(QDestroy (rw_h (w_rdwr w')), ARes r)]) = Some TDestroyed).
    { rewrite transport_state_snoc, RW. destruct (rw_opened _); reflexivity. }
    apply HD; auto.
    - eapply SV_same; [exact V| |]; [unfold legal; rewrite T; discriminate|].
      rewrite sessions_snoc. reflexivity.
    - intros N (tr' & hh & aa & Eq & X). apply app_inj_tail in Eq. destruct Eq as [<- _].
      unfold RWI in RW. rewrite X in RW. rewrite (NN N) in RW. discriminate. }
  assert (NN : w_state w <> ws_opened -> NL w -> rw_opened (w_rdwr w) = false).
  { unfold NL. destruct (rw_opened (w_rdwr w)); auto. intros H1 H2. contradiction (H1 (H2 eq_refl)). }
  apply wp_bind_i. destruct (w_state w) eqn:ES.
  2:{ eapply wp_close_WI; eauto.
      intros h1 x w1 I1 N1 C1 _. unfold bind_post. apply Fin; auto.
      intros _. apply C1. assumption. }
  all: cbn [wp bind_post]; apply Fin; [assumption|]; apply NN; discriminate.
Qed.

Lemma wp_writer_life bi cts w cs (Q : post _) h D :
  WI bi cts w h D -> Forall wcall_ok cs ->
  (forall h' rs σs, explained cs rs σs -> SV bi cts h' (D ++ concat σs) -> Q h' Cut) ->
  (forall h' rs x σs, explained cs rs σs -> length rs = length cs -> SV bi cts h' (D ++ concat σs) ->
     transport_state h' = Some TDestroyed ->
     (NL w -> Forall (eq r_success) rs -> ~ left_open h') -> Q h' (Done (rs, x))) ->
  wp (writer_life w cs) Q h.
Proof.
  intros I Hok Hcut HD. unfold writer_life. apply wp_bind_i. eapply wp_wcalls; eauto.
  intros h1 rs w1 σs EX L I1 N1. unfold bind_post. apply wp_bind_i. eapply wp_destroy; eauto.
  - intros h' V. cbn. eapply Hcut; eauto.
  - intros h' x V T N. cbn. eapply HD; eauto.
Qed.
End Sess.

Lemma writer_life_spec okb (okb_s : okb r_success = true) iovm cts rw w cs tr o :
  fresh_rdwr rw -> (0 < iovm)%nat -> writer_init iovm cts rw = Some w -> Forall wcall_ok cs ->
  runs (writer_life w cs) tr o ->
  transport_state tr <> None /\
  exists rs σs dss,
    explained cs rs σs /\
    Forall2 (writer_session (rw_has_read rw) cts) (sessions okb tr) dss /\
    concat dss = concat σs /\
    match o with
    | Done (rs', x) => rs' = rs /\ length rs = length cs /\ transport_state tr = Some TDestroyed /\
        (Forall (eq r_success) rs -> ~ left_open tr)
    | Stuck _ => False
    | Cut => True
    end.
Proof.
  intros FR Hi Hw Hok R.
  assert (I : WI okb (rw_has_read rw) cts w [] []) by (destruct FR; eapply WI_init; eauto).
  assert (NLw : NL w).
  { unfold writer_init in Hw. destruct (rw_has_write rw); [|discriminate]. injection Hw as <-.
    unfold NL. cbn. destruct FR. congruence. }
  revert tr o R. apply wp_runs. eapply wp_writer_life; eauto.
  - intros h' rs σs EX (L & dss & F & E). split; [exact L|]. exists rs, σs, dss. auto.
  - intros h' rs x σs EX Len (L & dss & F & E) T N. split; [exact L|]. exists rs, σs, dss.
    repeat split; auto.
Qed.

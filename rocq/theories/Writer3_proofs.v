From Verif Require Import Bytes Spec Bytes_proofs Io Io_proofs SpecTrace SpecStream
  Control Control_proofs Rdwr Rdwr_proofs Writer Api SpecApi Writer_proofs Writer2_proofs.
Ltac Zify.zify_post_hook ::= Z.div_mod_to_equations.
Local Open Scope N_scope.

(** Control frames a writer hands out. *)
Notation okS := (fun r => res_eqb r r_success).

Record frames_ok (bi : bool) (cts : list bytes) (w : writer) (h : trace) (ct : option bytes) : Prop := {
  fo_start : w_start w = Some (start_ctl ct);
  fo_choice : start_choice bi cts ct;
  fo_sess : exists ss s, delivered h = ss ++ [session_head bi cts ct ++ s];
  fo_bi : bi = true -> w_ready w = Some (mk_control T_READY cts) /\
          exists acts, w_accept w = Some (mk_control T_ACCEPT acts) /\
            prefix (ctl_frame T_ACCEPT acts) (received h)
}.

Record GI (bi : bool) (cts : list bytes) (w : writer) (h : trace) : Prop := {
  gi_ok : wok bi cts w;
  gi_rw : RWI (w_rdwr w) h;
  gi_fresh : w_state w = ws_opening -> w_start w = None /\ w_ready w = None /\ w_accept w = None;
  gi_uni : bi = false -> w_ready w = None /\ w_accept w = None;
  gi_frames : w_state w <> ws_opening -> exists ct, frames_ok bi cts w h ct;
  gi_finish : w_finish w = None \/ w_finish w = Some (mk_control T_FINISH [])
}.

Lemma open_keeps w h :
  wp (writer_open w) (fun _ o => match o with
    | Done (_, w') => w_finish w' = w_finish w /\
        (rw_has_read (w_rdwr w) = false -> w_ready w' = w_ready w /\ w_accept w' = w_accept w)
    | _ => True end) h.
Proof.
  unfold writer_open.
  assert (SS : forall w0 ct h, wp (writer_send_start w0 ct) (fun _ o => match o with
     | Done (_, w') => w_finish w' = w_finish w0 /\ w_ready w' = w_ready w0 /\ w_accept w' = w_accept w0
     | _ => True end) h).
  { clear. intros. unfold writer_send_start. destruct (control_set_type _ _) as [[] c]; cbn; auto.
    apply wp_any_bind; auto. intros [x rw] h'. destruct (negb _); cbn; auto. }
  assert (G : wp (bind (rdwr_open (w_rdwr w)) (fun z => match z with (x, rw) =>
      let w := set_wrdwr w rw in
      if negb (res_eqb x r_success) then Ret (x, w)
      else bind (if rw_has_read (w_rdwr w) then writer_open_bidirectional w
                     else writer_open_unidirectional w) (fun z => match z with (x, w) =>
        if negb (res_eqb x r_success) then Ret (x, w)
        else Ret (r_success, set_wstate w ws_opened) end) end))
      (fun _ o => match o with
    | Done (_, w') => w_finish w' = w_finish w /\
        (rw_has_read (w_rdwr w) = false -> w_ready w' = w_ready w /\ w_accept w' = w_accept w)
    | _ => True end) h).
  2:{ destruct (w_state w); try exact G. cbn. auto. }
  apply wp_bind_i.
  assert (RO : wp (rdwr_open (w_rdwr w)) (fun _ o => match o with Done (_, rw') => rw_has_read rw' = rw_has_read (w_rdwr w) | _ => True end) h).
  { unfold rdwr_open. destruct (negb _); [reflexivity|]. cbn. split; auto. intros [] ?; cbn; auto. destruct r; reflexivity. }
  eapply wp_mono; [|exact RO]. intros h' [[x rw1]| |] E; unfold bind_post; auto. cbv zeta.
  destruct (negb _); [cbn; auto|].
  apply wp_bind_i. cbn [set_wrdwr w_rdwr]. rewrite E. destruct (rw_has_read (w_rdwr w)) eqn:ER.
  - unfold writer_open_bidirectional. destruct (control_set_type _ _) as [[] c]; try (cbn; auto; fail).
    2-5: cbn; split; [reflexivity|discriminate].
    eapply wp_mono with (Q := fun _ o => match o with Done (_, w1) => w_finish w1 = w_finish w | _ => True end).
    { intros h2 [[x1 w1]| |]; cbn; auto. intros Ef. destruct (negb _); cbn; split; congruence. }
    apply wp_any_bind; auto. intros [x1 rw2] h1. destruct (negb _); [cbn; auto|].
    apply wp_any_bind; auto. intros [[x2 oc] rw3] h2. destruct (negb _); [cbn; auto|].
    destruct oc; [|cbn; auto]. destruct (accept_match_loop _ _ _). destruct (negb _); [cbn; auto|].
    eapply wp_mono; [|apply SS]. intros h3 [[? ?]| |]; cbn; tauto.
  - unfold writer_open_unidirectional. eapply wp_mono; [|apply SS].
    intros h2 [[x1 w1]| |]; cbn; auto. intros (E1 & E2 & E3). destruct (negb _); cbn; auto.
Qed.

Lemma wp_open_GI bi cts w (Q : post _) h :
  GI bi cts w h ->
  (forall h', Q h' Cut) ->
  (forall h' w', GI bi cts w' h' -> w_state w' = ws_opened -> Q h' (Done (r_success, w'))) ->
  (forall h' x w', x <> r_success -> Q h' (Done (x, w'))) ->
  wp (writer_open w) Q h.
Proof.
  intros [W RW FR UN FO FI] Hcut HS HF.
  eapply wp_mono; [|eapply wp_and; [apply (open_keeps w h)|]].
  2:{ eapply (wp_open okS eq_refl bi cts w (fun h' o => match o with
        | Done (r_success, w') => w' = w /\ h' = h /\ w_state w = ws_opened \/
            (w_state w <> ws_opened /\ w_state w' = ws_opened /\ same_w w w' /\ RWI (w_rdwr w') h' /\ exists ct, frames_ok bi cts w' h' ct)
        | Stuck _ => False
        | _ => True end)); eauto.
      - intros h' w' ct NO SW St Ho HI CH Hs OO. right. repeat split; auto; try apply SW.
        exists ct. destruct OO as [O1 O2 O3 _]. split; auto.
        + exists (delivered h), []. rewrite app_nil_r. exact Hs.
        + intro B. destruct (O3 B) as (E1 & acts & E2 & E3 & E4 & E5). split; [assumption|].
          exists acts. split; [assumption|]. rewrite E4. apply prefix_refl.
      - intros h' x w' Hx. destruct x; auto. congruence. }
  intros h' [[x w']| |] [K1 K2]; auto; [|contradiction].
  destruct x; try (apply HF; discriminate).
  destruct K2 as [(-> & -> & ST)|(NO & ST & SW & HI & ct & FR')].
  - apply HS; auto. split; auto.
  - destruct K1 as [K1 K3]. apply HS; auto. split; auto.
    + eapply wok_same; eassumption.
    + congruence.
    + intro B. rewrite (ok_read _ _ _ W), B in K3. destruct (K3 eq_refl) as [-> ->]. auto.
    + eauto.
    + rewrite K1. assumption.
Qed.

Lemma GI_step bi cts w w' h h' : GI bi cts w h -> same_w w w' -> w_state w' = w_state w ->
  w_start w' = w_start w -> w_ready w' = w_ready w -> w_accept w' = w_accept w -> w_finish w' = w_finish w ->
  RWI (w_rdwr w') h' -> received h' = received h ->
  (w_state w <> ws_opening -> delivered h <> [] -> exists b, delivered h' = add_last (delivered h) b) ->
  GI bi cts w' h'.
Proof.
  intros [W RW FR UN FO FI] SW E1 E2 E3 E4 E5 HI Hr Hd. split; auto.
  - eapply wok_same; eassumption.
  - rewrite E1, E2, E3, E4. assumption.
  - rewrite E3, E4. assumption.
  - rewrite E1. intro NO. destruct (FO NO) as [ct [F1 F2 (ss & s & F3) F4]]. exists ct. split; auto.
    + congruence.
    + destruct Hd as [b Hd]; [assumption|rewrite F3; destruct ss; discriminate|].
      rewrite F3, add_last_snoc in Hd. exists ss, (s ++ b). rewrite Hd, <- app_assoc. reflexivity.
    + rewrite E3, E4, Hr. assumption.
  - rewrite E5. assumption.
Qed.

Lemma wp_maybe_open_GI bi cts w (Q : post _) h :
  GI bi cts w h ->
  (forall h', Q h' Cut) ->
  (forall h' w', GI bi cts w' h' -> Q h' (Done (r_success, w'))) ->
  (forall h' x w', x <> r_success -> Q h' (Done (x, w'))) ->
  wp (writer_maybe_open w) Q h.
Proof.
  intros I Hcut HS HF. unfold writer_maybe_open. destruct (w_state w); try (cbn; apply HS; auto; fail).
  apply wp_bind_i. eapply wp_open_GI; eauto; cbn; auto.
  intros h' x w' Hx. rewrite ne_eqb by assumption. cbn. auto.
Qed.

Lemma wp_write_iov_GI bi cts w ps (Q : post _) h :
  GI bi cts w h -> (2 * length ps <= 256)%nat ->
  (forall h', Q h' Cut) ->
  (forall h' w', GI bi cts w' h' -> Q h' (Done (r_success, w'))) ->
  (forall h' x w', x <> r_success -> Q h' (Done (x, w'))) ->
  wp (write_iov w ps) Q h.
Proof.
  intros I L Hcut HS HF. unfold write_iov.
  destruct (FSTRM__WRITER_IOVEC_SIZE <? 2 * length ps)%nat eqn:E; [unfold FSTRM__WRITER_IOVEC_SIZE in E; lia|].
  apply wp_bind_i. pose proof (gi_ok _ _ _ _ I) as W. pose proof (gi_rw _ _ _ _ I) as RW.
  apply (wp_rdwr_write okS eq_refl); auto; try apply W; cbn; auto.
  intros h' EO HI' Hs Hr. apply HS. eapply GI_step; eauto.
  split; auto. apply same_ops_refl.
Qed.

Lemma wp_stupid_GI bi cts chunk (Q : post _) : (0 < chunk)%nat -> (2 * chunk <= 256)%nat ->
  forall fuel ps w h, (length ps <= fuel)%nat -> GI bi cts w h ->
  (forall h', Q h' Cut) ->
  (forall h' w', GI bi cts w' h' -> Q h' (Done (r_success, w'))) ->
  (forall h' x w', x <> r_success -> Q h' (Done (x, w'))) ->
  wp (write_iov_stupid_loop fuel chunk w ps) Q h.
Proof.
  intros C0 C1. induction fuel as [|fuel IH]; intros ps w h Hf I Hcut HS HF.
  { destruct ps; [|cbn in Hf; lia]. cbn. auto. }
  destruct ps as [|p ps0] eqn:Eps; [cbn; auto|]. rewrite <- Eps in *.
  assert (EqL : write_iov_stupid_loop (S fuel) chunk w ps =
     bind (write_iov w (firstn chunk ps)) (fun z => match z with (x, w) =>
          if negb (res_eqb x r_success) then Ret (x, w)
          else write_iov_stupid_loop fuel chunk w (skipn chunk ps) end)) by (subst ps; reflexivity).
  rewrite EqL. clear EqL. apply wp_bind_i. eapply wp_write_iov_GI; eauto.
  - rewrite firstn_length. lia.
  - intros h' w' I'. cbn. eapply IH; eauto. rewrite skipn_length. subst ps. cbn [length] in *. lia.
  - intros h' x w' Hx. cbn. rewrite ne_eqb by assumption. cbn. auto.
Qed.

Lemma wp_wcall_GI bi cts w c (Q : post _) h :
  GI bi cts w h -> wcall_ok c ->
  (forall h', Q h' Cut) ->
  (forall h' w', GI bi cts w' h' -> Q h' (Done (r_success, w'))) ->
  (forall h' x w', x <> r_success -> Q h' (Done (x, w'))) ->
  wp (do_wcall w c) Q h.
Proof.
  intros I OK Hcut HS HF.
  assert (WR : forall ps, lenN ps < 2 ^ 30 -> wp (writer_writev w ps) Q h).
  { intros ps Hl. unfold writer_writev. destruct ps as [|p ps0] eqn:Eps; [cbn; auto|]. rewrite <- Eps in *. clear Eps p ps0.
    apply wp_bind_i. eapply wp_maybe_open_GI; eauto.
    - intros h1 w1 I1. unfold bind_post. cbn [res_eqb negb].
      destruct (w_state w1) eqn:ES; try (cbn; apply HF; discriminate).
      destruct (2 ^ 31 <=? 2 * lenN ps) eqn:EO; [lia|].
      destruct (2 * length ps <=? FSTRM__WRITER_IOVEC_SIZE)%nat eqn:EL.
      + eapply wp_write_iov_GI; eauto. unfold FSTRM__WRITER_IOVEC_SIZE in EL. lia.
      + unfold write_iov_stupid, FSTRM__WRITER_IOVEC_SIZE.
        pose proof (ok_iov _ _ _ (gi_ok _ _ _ _ I1)) as P.
        change (256 / 2)%nat with 128%nat.
        destruct (Nat.min 128 (w_iov_max w1) =? 0)%nat eqn:E0; [lia|].
        eapply wp_stupid_GI; eauto; lia.
    - intros h1 x w1 Hx. cbn. rewrite ne_eqb by assumption. cbn. auto. }
  destruct c as [|p|ps| |t]; cbn [do_wcall].
  - eapply wp_open_GI; eauto.
  - apply WR. exact OK.
  - apply WR. exact OK.
  - unfold writer_close. pose proof (gi_ok _ _ _ _ I) as W. pose proof (gi_rw _ _ _ _ I) as RW.
    destruct (w_state w) eqn:ES; try (cbn; apply HF; discriminate).
    cbv zeta. rewrite write_stop_eq. cbn [set_wstate w_rdwr w_finish]. apply wp_bind_i.
    assert (FO : exists ct, frames_ok bi cts w h ct) by (apply (gi_frames _ _ _ _ I); congruence).
    destruct FO as [ct [F1 F2 (ss & s & F3) F4]].
    apply (wp_rdwr_write okS eq_refl); auto; try apply W; try (intros; apply Hcut).
    + intros h1 EO HI1 Hs1 Hr1. unfold bind_post. cbn [res_eqb negb].
      change (sessions _ h) with (delivered h) in Hs1. rewrite F3, add_last_snoc in Hs1.
      assert (FIN : forall w' h', w_finish w' = None \/ w_finish w' = Some (mk_control T_FINISH []) ->
         RWI (w_rdwr w') h' -> delivered h' = delivered h1 ->
         (exists e, received h' = received h1 ++ e) -> same_w w w' -> w_state w' = ws_closed -> w_start w' = w_start w ->
         w_ready w' = w_ready w -> w_accept w' = w_accept w -> GI bi cts w' h').
      { intros w' h' E1 HI' Ed [e Er] SW St E3 E4 E5. split; auto.
        - eapply wok_same; eassumption.
        - congruence.
        - rewrite E4, E5. apply I.
        - intros _. exists ct. split; auto; try congruence.
          + unfold delivered in *. exists ss. eexists. rewrite Ed, Hs1, <- app_assoc. reflexivity.
          + rewrite E4, E5, Er, Hr1. intro B. destruct (F4 B) as (G1 & acts & G2 & G3). split; [assumption|].
            exists acts. split; [assumption|]. eapply prefix_trans; [exact G3|apply prefix_app_r]. }
      destruct (rw_has_read (w_rdwr w)) eqn:ER.
      * apply wp_bind_i. apply (wp_read_control okS); auto; try apply W.
        -- intros; apply Hcut.
        -- intros h2 fin _ HI2 [Hq2 L2] K Hr2. unfold bind_post. cbn [res_eqb negb].
           apply (wp_close_rw okS); [apply W|assumption|auto|].
           intros h3 r Hs3 Hr3 HI3 _. destruct (res_eqb r r_success) eqn:E.
           ++ apply res_eqb_true in E. subst r. apply HS. apply FIN; cbn; auto.
              ** right. rewrite (ok_stop _ _ K) by auto. reflexivity.
              ** unfold delivered. congruence.
              ** exists (ctl_frame FSTRM_CONTROL_FINISH fin). congruence.
              ** split; cbn; auto. apply same_ops_set.
           ++ apply HF. apply res_eqb_false; assumption.
        -- intros h2 r c' rw' Hr Hso HI2 [Hq2 L2]. unfold bind_post. rewrite ne_eqb by assumption. cbn [negb].
           destruct (same_ops_fields _ _ Hso) as (_ & _ & _ & EC & _).
           apply (wp_close_rw okS); [rewrite EC; apply W|assumption|auto|].
           intros. apply HF. assumption.
      * apply (wp_close_rw okS); [apply W|assumption|auto|].
        intros h3 r Hs3 Hr3 HI3 _. destruct (res_eqb r r_success) eqn:E.
        -- apply res_eqb_true in E. subst r. apply HS. apply FIN; cbn; auto.
           ++ apply I.
           ++ exists []. rewrite app_nil_r. assumption.
           ++ split; cbn; auto. apply same_ops_set.
        -- apply HF. apply res_eqb_false; assumption.
    + intros h1 r Hr HI1 [L1 Hs1] _ Hno. unfold bind_post. rewrite ne_eqb by assumption. cbn [negb].
      apply (wp_close_rw okS); [apply W|assumption|auto|]. intros. apply HF. assumption.
  - unfold writer_get_control. apply wp_bind_i, wp_bind_i. eapply wp_maybe_open_GI; eauto.
    + intros h' w' I'. unfold bind_post. cbn [res_eqb negb].
      repeat match goal with |- context [if ?b then _ else _] => destruct b end; cbn; try (apply HS; assumption); apply HF; discriminate.
    + intros h' x w' Hx. unfold bind_post. rewrite ne_eqb by assumption. cbn. auto.
Qed.

Lemma wp_wcalls_GI bi cts cs : forall w (P : trace -> list res -> writer -> Prop) h,
  GI bi cts w h -> Forall wcall_ok cs ->
  (forall h' rs w', Forall (eq r_success) rs -> GI bi cts w' h' -> P h' rs w') ->
  (forall h' rs w', ~ Forall (eq r_success) rs -> P h' rs w') ->
  wp (do_wcalls w cs) (fun h o => match o with Done (rs, w') => P h rs w' | _ => True end) h.
Proof.
  induction cs as [|c cs IH]; intros w P h I Hok HS HF.
  { cbn. apply HS; auto. }
  inversion_clear Hok. cbn [do_wcalls]. apply wp_bind_i. eapply wp_wcall_GI; eauto.
  - intros; exact Logic.I.
  - intros h1 w1 I1. unfold bind_post. apply wp_bind_i.
    eapply wp_mono; [|eapply (IH w1 (fun h rs w' => P h (r_success :: rs) w')); eauto].
    + intros h' [[rs w']| |]; cbn; auto.
    + intros h' rs w' NF. apply HF. intro F. inversion F. contradiction.
  - intros h1 x w1 Hx. unfold bind_post. apply wp_bind_i. eapply wp_mono; [|apply wp_true].
    intros h' [[rs w']| |] _; cbn; auto. apply HF. intro F. inversion F. congruence.
Qed.

Lemma GI_handed bi cts w h t c : GI bi cts w h ->
  (t = T_ACCEPT /\ w_accept w = Some c) \/ (t = T_FINISH /\ w_finish w = Some c) \/
  (t = T_READY /\ w_ready w = Some c) \/ (t = T_START /\ w_start w = Some c) ->
  handed_out bi cts h t c.
Proof.
  intros I H.
  assert (OP : t <> T_FINISH -> w_state w <> ws_opening).
  { intros NF E. destruct (gi_fresh _ _ _ _ I E) as (E1 & E2 & E3). destruct H as [[_ H]|[[? _]|[[_ H]|[_ H]]]]; congruence. }
  destruct H as [[-> H]|[[-> H]|[[-> H]|[-> H]]]].
  - destruct (gi_frames _ _ _ _ I) as [ct [F1 F2 F3 F4]]; [apply OP; discriminate|].
    destruct bi; [|destruct (gi_uni _ _ _ _ I eq_refl); congruence].
    destruct (F4 eq_refl) as (G1 & acts & G2 & G3). rewrite H in G2. injection G2 as ->.
    repeat split; try discriminate. auto.
  - destruct (gi_finish _ _ _ _ I) as [E|E]; rewrite H in E; [discriminate|]. injection E as ->.
    repeat split; try discriminate.
  - destruct (gi_frames _ _ _ _ I) as [ct [F1 F2 F3 F4]]; [apply OP; discriminate|].
    destruct bi; [|destruct (gi_uni _ _ _ _ I eq_refl); congruence].
    destruct (F4 eq_refl) as (G1 & _). rewrite H in G1. injection G1 as ->.
    repeat split; try discriminate.
  - destruct (gi_frames _ _ _ _ I) as [ct [F1 F2 (ss & s & F3) F4]]; [apply OP; discriminate|].
    rewrite H in F1. injection F1 as ->.
    repeat split; try discriminate. intros _. exists ct, ss, s. auto.
Qed.

Lemma writer_get_control_truth iovm cts rw w cs t tr xs c :
  fresh_rdwr rw -> (0 < iovm)%nat -> writer_init iovm cts rw = Some w -> Forall wcall_ok cs ->
  runs (calls_then_get w cs t) tr (Done (xs, r_success, Some (Some c))) ->
  Forall (eq r_success) xs -> handed_out (rw_has_read rw) cts tr t c.
Proof.
  intros FR Hi Hw Hok R Hxs. set (bi := rw_has_read rw).
  assert (I : GI bi cts w []).
  { unfold writer_init in Hw. destruct (rw_has_write rw) eqn:E6; [|discriminate]. injection Hw as <-.
    destruct FR. split; cbn; auto.
    - split; auto.
    - unfold RWI. cbn. rewrite fr_closed. reflexivity.
    - congruence. }
  assert (W : wp (calls_then_get w cs t) (fun h o => match o with
     | Done (xs, r_success, Some (Some c)) => Forall (eq r_success) xs -> handed_out bi cts h t c
     | _ => True end) []).
  { unfold calls_then_get. apply wp_bind_i.
    eapply wp_mono; [|eapply (wp_wcalls_GI bi cts cs w (fun h rs w1 => Forall (eq r_success) rs -> GI bi cts w1 h)); eauto; contradiction].
    intros h1 [[rs w1]| |]; cbn; auto. intro G.
    apply wp_bind_i. unfold writer_get_control.
    assert (DF : {Forall (eq r_success) rs} + {~ Forall (eq r_success) rs}).
    { clear. induction rs as [|r rs IH]; [left; constructor|].
      destruct r; [destruct IH as [IH|IH]; [left; auto|right; intro F; inversion F; contradiction]|..];
        right; intro F; inversion F; discriminate. }
    destruct DF as [AS|NAS].
    2:{ eapply wp_mono; [|apply wp_true]. intros h2 [[[x oc] w2]| |] _; cbn; auto.
        destruct x; auto. destruct oc as [[c1|]|]; auto. contradiction. }
    specialize (G AS). apply wp_bind_i. eapply wp_maybe_open_GI; eauto; cbn; auto.
    - intros h2 w2 I2.
      assert (Fin : forall t0 oc, t = t0 -> (oc = None \/ exists c, oc = Some c /\ handed_out bi cts h2 t0 c) ->
        match oc with Some c => Forall (eq r_success) rs -> handed_out bi cts h2 t c | None => True end).
      { intros t0 oc -> [->|(c0 & -> & HO)]; auto. }
      destruct (t =? FSTRM_CONTROL_ACCEPT) eqn:E1.
      { cbn. apply N.eqb_eq in E1. apply (Fin _ _ E1). destruct (w_accept w2) eqn:E; [right|auto].
        eexists. split; [reflexivity|]. eapply GI_handed; eauto. }
      destruct (t =? FSTRM_CONTROL_FINISH) eqn:E2.
      { cbn. apply N.eqb_eq in E2. apply (Fin _ _ E2). destruct (w_finish w2) eqn:E; [right|auto].
        eexists. split; [reflexivity|]. eapply GI_handed; eauto. }
      destruct (t =? FSTRM_CONTROL_READY) eqn:E3.
      { cbn. apply N.eqb_eq in E3. apply (Fin _ _ E3). destruct (w_ready w2) eqn:E; [right|auto].
        eexists. split; [reflexivity|]. eapply GI_handed; eauto. }
      destruct (t =? FSTRM_CONTROL_START) eqn:E4.
      { cbn. apply N.eqb_eq in E4. apply (Fin _ _ E4). destruct (w_start w2) eqn:E; [right|auto].
        eexists. split; [reflexivity|]. eapply GI_handed; eauto 10. }
      cbn. auto.
    - intros h2 x w2 Hx. rewrite ne_eqb by assumption. cbn. destruct x; auto; congruence. }
  apply (wp_sound _ _ _ _ _ W) in R. cbn in R. auto.
Qed.

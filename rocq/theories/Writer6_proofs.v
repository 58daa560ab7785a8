From Verif Require Import Bytes Spec Bytes_proofs Io Io_proofs SpecTrace SpecStream
  Control Control_proofs Rdwr Rdwr_proofs Writer Api SpecApi SpecReopen Writer_proofs Writer2_proofs Writer3_proofs Reader2_proofs.
Ltac Zify.zify_post_hook ::= Z.div_mod_to_equations.
Local Open Scope N_scope.

(** Control frames a writer hands out, when calls may have failed. *)
Record GJ (bi : bool) (cts : list bytes) (w : writer) (h : trace) (seen good cl : bool) : Prop := {
  gj_ok : wok bi cts w;
  gj_rw : RWI (w_rdwr w) h;
  gj_seen : w_state w <> ws_opening -> seen = true;
  gj_uni : bi = false -> w_ready w = None /\ w_accept w = None;
  gj_frames : good = true -> w_state w <> ws_opening -> exists ct, frames_ok bi cts w h ct;
  gj_finish : cl = true -> w_finish w = None \/ w_finish w = Some (mk_control T_FINISH [])
}.

Lemma GJ_keep bi cts w w' h h' s g c c' : GJ bi cts w h s g c -> same_w w w' ->
  (w_state w' <> ws_opening -> w_state w <> ws_opening) ->
  w_start w' = w_start w -> w_ready w' = w_ready w -> w_accept w' = w_accept w ->
  RWI (w_rdwr w') h' -> ext h h' ->
  (c' = true -> w_finish w' = None \/ w_finish w' = Some (mk_control T_FINISH [])) ->
  GJ bi cts w' h' s g c'.
Proof.
  intros [W RW SE UN FO FI] SW St E1 E2 E3 HI [X1 X2] FI'. split; auto.
  - eapply wok_same; eassumption.
  - rewrite E2, E3. assumption.
  - intros G NO. destruct (FO G (St NO)) as [ct [F1 F2 (ss & sx & F3) F4]]. exists ct. split; auto.
    + congruence.
    + destruct (X2 _ _ F3) as [s' X]. exists ss, (sx ++ s'). rewrite X, <- app_assoc. reflexivity.
    + intro B. rewrite E2, E3. destruct (F4 B) as (G1 & acts & G2 & G3). split; [assumption|].
      exists acts. split; [assumption|]. eapply prefix_trans; eassumption.
Qed.

Lemma wp_open_GJ bi cts w (Q : post _) h s g c :
  GJ bi cts w h s g c ->
  (forall h', Q h' Cut) ->
  (forall h' w', GJ bi cts w' h' true true c -> w_state w' = ws_opened -> Q h' (Done (r_success, w'))) ->
  (forall h' x w', x <> r_success -> GJ bi cts w' h' s (negb s && g) c -> w_state w' = w_state w -> w_state w <> ws_opened ->
     (w_state w = ws_opening -> GJ bi cts w' h' s g c) -> Q h' (Done (x, w'))) ->
  (w_state w = ws_opened -> g = true) ->
  wp (writer_open w) Q h.
Proof.
  intros I Hcut HS HF Hg. pose proof I as [W RW SE UN FO FI].
  eapply wp_mono; [|eapply wp_and; [apply (open_keeps w h)|]].
  2:{ eapply (wp_open okS eq_refl bi cts w (fun h' o => match o with
        | Done (x, w') => x = r_success /\ (w' = w /\ h' = h /\ w_state w = ws_opened \/
            (w_state w <> ws_opened /\ w_state w' = ws_opened /\ same_w w w' /\ RWI (w_rdwr w') h' /\ exists ct, frames_ok bi cts w' h' ct)) \/
            x <> r_success /\ w_state w' = w_state w /\ w_state w <> ws_opened /\ same_w w w' /\ RWI (w_rdwr w') h'
        | Stuck _ => False
        | _ => True end)); eauto.
      - intro E. left. auto.
      - intros h' w' ct NO SW St Ho HI CH Hs OO. left. split; [reflexivity|]. right. repeat split; auto; try apply SW.
        exists ct. destruct OO as [O1 O2 O3 _]. split; auto.
        + exists (delivered h), []. rewrite app_nil_r. exact Hs.
        + intro B. destruct (O3 B) as (E1 & acts & E2 & E3 & E4 & E5). split; [assumption|].
          exists acts. split; [assumption|]. rewrite E4. apply prefix_refl.
      - intros h' x w' Hx NO SW St HI _. right. auto. }
  intros h' [[x w']| |] [K1 K2]; auto; [|contradiction].
  destruct K1 as [K1 K3]. rewrite (ok_read _ _ _ W) in K3.
  destruct K2 as [(-> & [(-> & -> & ST)|(NO & ST & SW & HI & ct & FR')])|(Hx & ST & NO & SW & HI)].
  - apply HS; auto. split; auto.
  - apply HS; auto. split; auto.
    + eapply wok_same; eassumption.
    + intro B. destruct (K3 B) as [-> ->]. auto.
    + eauto.
    + rewrite K1. assumption.
  - assert (GG : forall g', (g' = true -> w_state w <> ws_opening -> False) -> GJ bi cts w' h' s g' c).
    { intros g' Hg'. split; auto.
      + eapply wok_same; eassumption.
      + rewrite ST. assumption.
      + intro B. destruct (K3 B) as [-> ->]. auto.
      + rewrite ST. intros A B. destruct (Hg' A B).
      + rewrite K1. assumption. }
    apply HF; auto.
    + apply GG. intros A B. rewrite (SE B) in A. discriminate.
Qed.

(** An opened writer has its frames in order. *)
Definition in_order (w : writer) (g : bool) : Prop := w_state w = ws_opened -> g = true.

Lemma wp_maybe_open_GJ bi cts w (Q : post _) h s g c :
  GJ bi cts w h s g c -> in_order w g ->
  (forall h', Q h' Cut) ->
  (forall h' w' g', GJ bi cts w' h' true g' c -> (g = true -> g' = true) -> in_order w' g' -> w_state w' <> ws_opening -> Q h' (Done (r_success, w'))) ->
  (forall h' x w', x <> r_success -> GJ bi cts w' h' true g c -> w_state w' = ws_opening -> Q h' (Done (x, w'))) ->
  wp (writer_maybe_open w) Q h.
Proof.
  intros I O Hcut HS HF. unfold writer_maybe_open.
  assert (Mono : forall w' h', GJ bi cts w' h' s g c -> GJ bi cts w' h' true g c) by (intros w' h' []; split; auto).
  destruct (w_state w) eqn:ES.
  - apply wp_bind_i. eapply wp_open_GJ; eauto; cbn; auto.
    + intros h' w' I' St. apply (HS _ _ true); auto; try congruence; intro; auto.
    + intros h' x w' Hx _ St _ I'. rewrite Writer2_proofs.ne_eqb by assumption. cbn. apply HF; auto. congruence.
  - cbn. apply (HS _ _ g); auto; congruence.
  - cbn. apply (HS _ _ g); auto; congruence.
  - cbn. apply (HS _ _ g); auto; congruence.
Qed.

Lemma wp_write_iov_GJ bi cts w ps (Q : post _) h s g c :
  GJ bi cts w h s g c -> (2 * length ps <= 256)%nat ->
  (forall h', Q h' Cut) ->
  (forall h' x w', GJ bi cts w' h' s g c -> w_state w' = w_state w -> w_iov_max w' = w_iov_max w -> Q h' (Done (x, w'))) ->
  wp (write_iov w ps) Q h.
Proof.
  intros I L Hcut HD. unfold write_iov.
  destruct (FSTRM__WRITER_IOVEC_SIZE <? 2 * length ps)%nat eqn:E; [unfold FSTRM__WRITER_IOVEC_SIZE in E; lia|].
  apply wp_bind_i. pose proof (gj_ok _ _ _ _ _ _ _ I) as W. pose proof (gj_rw _ _ _ _ _ _ _ I) as RW.
  apply wp_noopen; [apply noopen_write|].
  apply (wp_rdwr_write okS eq_refl); auto; try apply W; cbn; auto.
  - intros h' EO HI' Hs Hr X. apply HD; auto. eapply GJ_keep; eauto; cbn; auto.
    + split; auto. apply same_ops_refl.
    + apply I.
  - intros h' r Hr HI' _ _ _ X. apply HD; auto. eapply GJ_keep; eauto; cbn; auto.
    + split; auto. apply same_ops_set.
    + apply I.
Qed.

Lemma wp_stupid_GJ bi cts chunk (Q : post _) s g c : (0 < chunk)%nat -> (2 * chunk <= 256)%nat ->
  forall fuel ps w h, (length ps <= fuel)%nat -> GJ bi cts w h s g c ->
  (forall h', Q h' Cut) ->
  (forall h' x w', GJ bi cts w' h' s g c -> w_state w' = w_state w -> Q h' (Done (x, w'))) ->
  wp (write_iov_stupid_loop fuel chunk w ps) Q h.
Proof.
  intros C0 C1. induction fuel as [|fuel IH]; intros ps w h Hf I Hcut HD.
  { destruct ps; [|cbn in Hf; lia]. cbn. auto. }
  destruct ps as [|p ps0] eqn:Eps; [cbn; auto|]. rewrite <- Eps in *.
  assert (EqL : write_iov_stupid_loop (S fuel) chunk w ps =
     bind (write_iov w (firstn chunk ps)) (fun z => match z with (x, w) =>
          if negb (res_eqb x r_success) then Ret (x, w)
          else write_iov_stupid_loop fuel chunk w (skipn chunk ps) end)) by (subst ps; reflexivity).
  rewrite EqL. clear EqL. apply wp_bind_i. eapply wp_write_iov_GJ; eauto.
  - rewrite firstn_length. lia.
  - intros h' x w' I' St Iv. cbn. destruct (res_eqb x r_success); cbn [negb].
    + eapply IH; eauto.
      * rewrite skipn_length. subst ps. cbn [length] in *. lia.
      * intros. apply HD; auto. congruence.
    + cbn. apply HD; auto.
Qed.

Lemma noopen_wclose w : noopen (writer_close w).
Proof.
  unfold writer_close. destruct (w_state w); try apply noopen_ret. cbv zeta. rewrite write_stop_eq.
  nopen; try apply noopen_close; try apply noopen_write.
  unfold read_control. nopen. unfold read_control_frame. nopen; try apply noopen_read; apply noopen_tail.
Qed.

(** What a close leaves behind. *)
Lemma close_keeps w h :
  wp (writer_close w) (fun _ o => match o with
    | Done (_, w') => w_start w' = w_start w /\ w_ready w' = w_ready w /\ w_accept w' = w_accept w
    | _ => True end) h.
Proof.
  unfold writer_close. destruct (w_state w); try (cbn; auto; fail).
  cbv zeta. apply wp_any_bind; auto. intros [x rw] h1. destruct (negb _).
  { apply wp_any_bind; auto. intros [? ?] h2. cbn. auto. }
  destruct (rw_has_read rw).
  - apply wp_any_bind; auto. intros [[x2 oc] rw3] h2. destruct (negb _); apply wp_any_bind; auto; intros [? ?] h3; cbn; auto.
  - apply wp_any_bind; auto. intros [? ?] h2. cbn. auto.
Qed.

Lemma wp_close_GJ bi cts w (Q : post _) h s g c :
  GJ bi cts w h s g c ->
  (forall h', Q h' Cut) ->
  (forall h' x w', GJ bi cts w' h' s g (c && res_eqb x r_success) -> w_state w' <> ws_opened -> Q h' (Done (x, w'))) ->
  wp (writer_close w) Q h.
Proof.
  intros I Hcut HD. pose proof (gj_ok _ _ _ _ _ _ _ I) as W. pose proof (gj_rw _ _ _ _ _ _ _ I) as RW.
  apply wp_noopen; [apply noopen_wclose|].
  eapply wp_mono; [|eapply wp_and; [apply (close_keeps w h)|]].
  2:{ instantiate (1 := fun h' o => match o with
        | Done (x, w') => w_state w' <> ws_opened /\ (w_state w' <> ws_opening -> w_state w <> ws_opening) /\ same_w w w' /\ RWI (w_rdwr w') h' /\
            (c = true -> x = r_success -> w_finish w' = None \/ w_finish w' = Some (mk_control T_FINISH []))
        | Stuck _ => False
        | _ => True end).
      unfold writer_close. destruct (w_state w) eqn:ES.
      1,3,4: cbn; rewrite ES; repeat split; auto; try congruence; apply same_ops_refl.
      cbv zeta. rewrite write_stop_eq. cbn [set_wstate w_rdwr w_finish]. apply wp_bind_i.
      apply (wp_rdwr_write okS eq_refl); auto; try apply W; try (intros; exact Logic.I).
      - intros h1 EO HI1 Hs1 Hr1. unfold bind_post. cbn [res_eqb negb].
        destruct (rw_has_read (w_rdwr w)) eqn:ER.
        + apply wp_bind_i. apply (wp_read_control okS); auto; try apply W.
          * intros; exact Logic.I.
          * intros h2 fin _ HI2 _ K _. unfold bind_post. cbn [res_eqb negb].
            apply (wp_close_rw okS); [apply W|assumption|auto|].
            intros h3 r Hs3 Hr3 HI3 _. cbn. repeat split; auto; try congruence; try discriminate.
            { apply same_ops_set. }
            intros _ _. right. rewrite (ok_stop _ _ K) by auto. reflexivity.
          * intros h2 r c' rw' Hr Hso HI2 _. unfold bind_post. rewrite Writer2_proofs.ne_eqb by assumption. cbn [negb].
            destruct (same_ops_fields _ _ Hso) as (_ & _ & _ & EC & _). apply wp_bind_i.
            apply (wp_rdwr_close okS); [rewrite EC; apply W|left; assumption|..].
            { eapply quiet_refl; eassumption. }
            { intros. exact Logic.I. }
            intros h3 r3 _ _ HI3 _ _. cbn. repeat split; auto; try congruence; try discriminate.
            eapply same_ops_trans; [exact Hso|apply same_ops_set].
        + apply (wp_close_rw okS); [apply W|assumption|auto|].
          intros h3 r Hs3 Hr3 HI3 _. cbn. repeat split; auto; try congruence; try discriminate.
          { apply same_ops_set. }
          intros A _. apply I. assumption.
      - intros h1 r Hr HI1 [L1 Hs1] _ Hno. unfold bind_post. rewrite Writer2_proofs.ne_eqb by assumption. cbn [negb].
        apply wp_bind_i. apply (wp_rdwr_close okS); [apply W|left; assumption|..].
        { eapply quiet_refl; eassumption. }
        { intros. exact Logic.I. }
        intros h3 r3 _ _ HI3 _ _. cbn. repeat split; auto; try congruence; try discriminate.
        eapply same_ops_trans; apply same_ops_set. }
  intros h' [[x w']| |] [K1 K2] X; auto; [|contradiction].
  destruct K1 as (E1 & E2 & E3). destruct K2 as (NO & St & SW & HI & FI).
  apply HD; auto. eapply GJ_keep; eauto. intro E. apply andb_true_iff in E as [A B]. apply res_eqb_true in B. auto.
Qed.

(** What the history so far says about [seen], [good] and [cl]. *)
Definition seen_after (seen : bool) (c : wcall) (x : res) : bool :=
  match c with
  | WOpen => res_eqb x r_success || seen
  | WClose => seen
  | _ => true
  end.
Definition good_after (seen good : bool) (c : wcall) (x : res) : bool :=
  match c with
  | WOpen => if res_eqb x r_success then true else negb seen && good
  | _ => good
  end.
Definition cl_after (cl : bool) (c : wcall) (x : res) : bool :=
  match c with WClose => cl && res_eqb x r_success | _ => cl end.

Lemma GJ_mono bi cts w h s g c s' g' c' : GJ bi cts w h s g c ->
  (s = true -> s' = true) -> (g' = true -> g = true) -> (c' = true -> c = true) -> GJ bi cts w h s' g' c'.
Proof. intros [] A B C. split; auto. Qed.

Lemma wp_wcall_GJ bi cts w k (Q : post _) h s g c :
  GJ bi cts w h s g c -> in_order w g -> wcall_ok k ->
  (forall h', Q h' Cut) ->
  (forall h' x w' g', GJ bi cts w' h' (seen_after s k x) g' (cl_after c k x) -> in_order w' g' ->
     (good_after s g k x = true -> g' = true) -> Q h' (Done (x, w'))) ->
  wp (do_wcall w k) Q h.
Proof.
  intros I O OK Hcut HD.
  assert (WR : forall ps, lenN ps < 2 ^ 30 ->
     (forall h' x w' g', GJ bi cts w' h' true g' c -> in_order w' g' -> (g = true -> g' = true) -> Q h' (Done (x, w'))) ->
     wp (writer_writev w ps) Q h).
  { intros ps Hl HD'. unfold writer_writev. destruct ps as [|p ps0] eqn:Eps.
    { cbn. apply (HD' _ _ _ g); auto. eapply GJ_mono; eauto. }
    rewrite <- Eps in *. clear Eps p ps0.
    apply wp_bind_i. eapply wp_maybe_open_GJ; eauto.
    - intros h1 w1 g1 I1 G1 O1 N1. unfold bind_post. cbn [res_eqb negb].
      destruct (w_state w1) eqn:ES; try (cbn; eapply HD'; eauto; fail).
      destruct (2 ^ 31 <=? 2 * lenN ps) eqn:EO; [lia|].
      assert (KK : forall h' x w', GJ bi cts w' h' true g1 c -> w_state w' = w_state w1 -> Q h' (Done (x, w'))).
      { intros h' x w' I' St. apply (HD' _ _ _ g1); auto. intro E. apply O1. congruence. }
      destruct (2 * length ps <=? FSTRM__WRITER_IOVEC_SIZE)%nat eqn:EL.
      + eapply wp_write_iov_GJ; eauto. unfold FSTRM__WRITER_IOVEC_SIZE in EL. lia.
      + unfold write_iov_stupid, FSTRM__WRITER_IOVEC_SIZE.
        pose proof (ok_iov _ _ _ (gj_ok _ _ _ _ _ _ _ I1)) as P.
        change (256 / 2)%nat with 128%nat.
        destruct (Nat.min 128 (w_iov_max w1) =? 0)%nat eqn:E0; [lia|].
        eapply wp_stupid_GJ; eauto; lia.
    - intros h1 x w1 Hx I1 St. cbn. rewrite Writer2_proofs.ne_eqb by assumption. cbn. apply (HD' _ _ _ g); auto.
      intro E. congruence. }
  destruct k as [|p|ps| |t]; cbn [do_wcall].
  - eapply wp_open_GJ; eauto.
    + intros h' w' I' St. apply (HD _ _ _ true); auto. intro; auto.
    + intros h' x w' Hx I' St NO _. apply (HD _ _ _ (negb s && g)).
      * cbn [seen_after cl_after]. rewrite Writer2_proofs.ne_eqb by assumption. exact I'.
      * intro E. congruence.
      * cbn [good_after]. rewrite Writer2_proofs.ne_eqb by assumption. auto.
  - apply WR; [exact OK|]. intros. eapply HD; eauto.
  - apply WR; [exact OK|]. intros. eapply HD; eauto.
  - eapply wp_close_GJ; eauto. intros h' x w' I' St. apply (HD _ _ _ g); auto. intro E. congruence.
  - unfold writer_get_control. apply wp_bind_i, wp_bind_i. eapply wp_maybe_open_GJ; eauto.
    + intros h' w' g' I' G' O' N'. unfold bind_post. cbn [res_eqb negb].
      repeat match goal with |- context [if ?b then _ else _] => destruct b end; cbn; eapply HD; eauto.
    + intros h' x w' Hx I' St. unfold bind_post. rewrite Writer2_proofs.ne_eqb by assumption. cbn. apply (HD _ _ _ g); auto.
      intro E. congruence.
Qed.

Lemma wp_wcalls_GJ bi cts cs : forall w (P : trace -> list res -> writer -> Prop) h s g gS c,
  GJ bi cts w h s g c -> in_order w g -> (gS = true -> g = true) -> Forall wcall_ok cs ->
  (forall h' rs w' s' g', GJ bi cts w' h' s' g' (c && no_failed_close cs rs) -> in_order w' g' ->
     (no_failed_reopen s gS cs rs = true -> g' = true) -> P h' rs w') ->
  wp (do_wcalls w cs) (fun h o => match o with Done (rs, w') => P h rs w' | _ => True end) h.
Proof.
  induction cs as [|k cs IH]; intros w P h s g gS c I O M Hok HD.
  { cbn. eapply HD; eauto. cbn. rewrite andb_true_r. exact I. }
  inversion_clear Hok. cbn [do_wcalls]. apply wp_bind_i. eapply wp_wcall_GJ; eauto.
  { intros. exact Logic.I. }
  intros h1 x w1 g1 I1 O1 G1. unfold bind_post. apply wp_bind_i.
  eapply wp_mono; [|eapply (IH w1 (fun h rs w' => P h (x :: rs) w') h1 _ g1 (good_after s gS k x)); eauto].
  - intros h' [[rs w']| |]; cbn; auto.
  - intro E. apply G1. destruct k; cbn in *; auto. destruct (res_eqb x r_success); auto.
    apply andb_true_iff in E as [E1 E2]. rewrite E1. auto.
  - intros h' rs w' s' g' I' O' G'. apply (HD _ _ _ s' g'); auto.
    + destruct k; cbn [no_failed_close cl_after] in *; auto. rewrite andb_assoc. exact I'.
    + intro E. apply G'. destruct k; cbn [no_failed_reopen seen_after good_after] in *; auto.
      destruct (res_eqb x r_success); cbn [orb]; auto.
Qed.

Lemma GJ_handed bi cts w h s t c cl : GJ bi cts w h s true cl -> (t = T_FINISH -> cl = true) -> w_state w <> ws_opening ->
  (t = T_ACCEPT /\ w_accept w = Some c) \/ (t = T_FINISH /\ w_finish w = Some c) \/
  (t = T_READY /\ w_ready w = Some c) \/ (t = T_START /\ w_start w = Some c) ->
  handed_out bi cts h t c.
Proof.
  intros I CL NO H. destruct (gj_frames _ _ _ _ _ _ _ I eq_refl NO) as [ct [F1 F2 (ss & sx & F3) F4]].
  destruct H as [[-> H]|[[-> H]|[[-> H]|[-> H]]]].
  - destruct bi; [|destruct (gj_uni _ _ _ _ _ _ _ I eq_refl); congruence].
    destruct (F4 eq_refl) as (G1 & acts & G2 & G3). rewrite H in G2. injection G2 as ->.
    repeat split; try discriminate. auto.
  - destruct (gj_finish _ _ _ _ _ _ _ I (CL eq_refl)) as [E|E]; rewrite H in E; [discriminate|]. injection E as ->.
    repeat split; try discriminate.
  - destruct bi; [|destruct (gj_uni _ _ _ _ _ _ _ I eq_refl); congruence].
    destruct (F4 eq_refl) as (G1 & _). rewrite H in G1. injection G1 as ->.
    repeat split; try discriminate.
  - rewrite H in F1. injection F1 as ->.
    repeat split; try discriminate. intros _. exists ct, ss, sx. auto.
Qed.

Lemma writer_get_control_reopen iovm cts rw w cs t tr xs c :
  fresh_rdwr rw -> (0 < iovm)%nat -> writer_init iovm cts rw = Some w -> Forall wcall_ok cs ->
  runs (calls_then_get w cs t) tr (Done (xs, r_success, Some (Some c))) ->
  no_failed_reopen false true cs xs = true -> (t = T_FINISH -> no_failed_close cs xs = true) ->
  handed_out (rw_has_read rw) cts tr t c.
Proof.
  intros FR Hi Hw Hok R Hxs Hcl. set (bi := rw_has_read rw).
  assert (I : GJ bi cts w [] false true true /\ w_state w = ws_opening).
  { unfold writer_init in Hw. destruct (rw_has_write rw) eqn:E6; [|discriminate]. injection Hw as <-.
    destruct FR. split; [|reflexivity]. split; cbn; auto.
    - split; auto.
    - unfold RWI. cbn. rewrite fr_closed. reflexivity.
    - congruence. }
  destruct I as [I St0].
  assert (W : wp (calls_then_get w cs t) (fun h o => match o with
     | Done (xs, x, Some (Some c)) => x = r_success -> no_failed_reopen false true cs xs = true ->
         (t = T_FINISH -> no_failed_close cs xs = true) -> handed_out bi cts h t c
     | _ => True end) []).
  { unfold calls_then_get. apply wp_bind_i.
    eapply wp_mono; [|eapply (wp_wcalls_GJ bi cts cs w (fun h rs w1 => exists s g, GJ bi cts w1 h s g (no_failed_close cs rs) /\
        in_order w1 g /\ (no_failed_reopen false true cs rs = true -> g = true)) [] false true true true); eauto].
    2:{ intro; reflexivity. }
    intros h1 [[rs w1]| |]; cbn; auto. intros (s1 & g1 & I1 & O1 & G1).
    apply wp_bind_i. unfold writer_get_control.
    apply wp_bind_i. eapply wp_maybe_open_GJ; eauto; cbn; auto.
    2:{ intros h2 x w2 Hx _ _. rewrite Writer2_proofs.ne_eqb by assumption. cbn. exact Logic.I. }
    intros h2 w2 g2 I2 G2 O2 N2.
    assert (Fin : forall t0 oc, t = t0 -> (forall c, oc = Some c -> (t0 = T_ACCEPT /\ w_accept w2 = Some c) \/ (t0 = T_FINISH /\ w_finish w2 = Some c) \/
          (t0 = T_READY /\ w_ready w2 = Some c) \/ (t0 = T_START /\ w_start w2 = Some c)) ->
        match oc with Some c => r_success = r_success -> no_failed_reopen false true cs rs = true ->
         (t = T_FINISH -> no_failed_close cs rs = true) -> handed_out bi cts h2 t c | None => True end).
    { intros t0 [c0|] -> HC; auto. intros _ A B. rewrite (G2 (G1 A)) in I2. eapply GJ_handed; eauto. }
    destruct (t =? FSTRM_CONTROL_ACCEPT) eqn:E1.
    { cbn. apply N.eqb_eq in E1. apply (Fin _ (w_accept w2) E1). auto. }
    destruct (t =? FSTRM_CONTROL_FINISH) eqn:E2.
    { cbn. apply N.eqb_eq in E2. apply (Fin _ (w_finish w2) E2). auto. }
    destruct (t =? FSTRM_CONTROL_READY) eqn:E3.
    { cbn. apply N.eqb_eq in E3. apply (Fin _ (w_ready w2) E3). auto. }
    destruct (t =? FSTRM_CONTROL_START) eqn:E4.
    { cbn. apply N.eqb_eq in E4. apply (Fin _ (w_start w2) E4). auto 10. }
    cbn. exact Logic.I. }
  apply (wp_sound _ _ _ _ _ W) in R. cbn in R. auto.
Qed.

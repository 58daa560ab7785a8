From Verif Require Import Bytes Spec Bytes_proofs Io Io_proofs SpecTrace SpecStream
  Control Control_proofs Rdwr Rdwr_proofs Writer Api SpecApi Writer_proofs Writer2_proofs Writer4_proofs SpecDeliver.
Local Open Scope N_scope.

(** What has been sent in a session that can still be closed successfully:
    exactly the payloads of the successful calls since the last close. *)
Section Pend.
Variable okb : res -> bool.
Hypothesis okb_s : okb r_success = true.

Definition alive (bi : bool) (cts : list bytes) (h : trace) (P : list bytes) : Prop :=
  exists ss ct, sessions okb h = ss ++ [session_head bi cts ct ++ datas P] /\ start_choice bi cts ct /\
    (bi = true -> fits true T_READY cts /\ exists acts, ctl_ok T_ACCEPT acts /\ received h = ctl_frame T_ACCEPT acts).

Record PI (bi : bool) (cts : list bytes) (w : writer) (h : trace) (P : list bytes) : Prop := {
  pi_ok : wok bi cts w;
  pi_rw : RWI (w_rdwr w) h;
  pi_idle : w_state w <> ws_opened -> P = [];
  pi_live : w_state w = ws_opened -> rw_opened (w_rdwr w) = true -> alive bi cts h P
}.

Definition next (P : list bytes) (c : wcall) (x : res) : list bytes :=
  match c with WClose => [] | _ => if res_eqb x r_success then P ++ wpayloads c else P end.

Definition keeps bi cts (P : res -> list bytes) : post (res * writer) :=
  fun h' o => match o with Done (x, w') => PI bi cts w' h' (P x) | _ => True end.

Lemma pi_open bi cts w h P : PI bi cts w h P ->
  wp (writer_open w) (fun h' o => match o with
    | Done (x, w') => PI bi cts w' h' P /\ (x = r_success -> w_state w' = ws_opened) | _ => True end) h.
Proof.
  intros [W RW ID LV]. eapply (wp_open okb); eauto; cbn; auto.
  - intros E. split; [split; auto|auto].
  - intros h' w' ct NO SW St Ho HI CH Hs OO. split; [|auto]. split; auto.
    + eapply wok_same; eassumption.
    + intros _ _. rewrite (ID NO). exists (sessions okb h), ct. split; [rewrite app_nil_r; exact Hs|]. split; [exact CH|].
      intro B. destruct OO as [_ _ O F]. destruct (O B) as (_ & acts & _ & K & E & _). split; [exact (F B)|]. exists acts. auto.
  - intros h' x w' Hx NO SW St HI _. split; [|contradiction]. split; auto.
    + eapply wok_same; eassumption.
    + intros E. congruence.
Qed.

Lemma pi_maybe bi cts w h P : PI bi cts w h P ->
  wp (writer_maybe_open w) (fun h' o => match o with
    | Done (x, w') => PI bi cts w' h' P | _ => True end) h.
Proof.
  intros I0. unfold writer_maybe_open. destruct (w_state w); try exact I0.
  apply wp_bind_i. eapply wp_mono; [|apply pi_open; exact I0].
  intros h' [[x w']| |] X; unfold bind_post; auto. destruct X as [X _].
  destruct (negb _); cbn; exact X.
Qed.

Lemma pi_write_iov bi cts w ps h P : PI bi cts w h P -> w_state w = ws_opened -> (2 * length ps <= 256)%nat ->
  wp (write_iov w ps) (fun h' o => match o with
    | Done (x, w') => PI bi cts w' h' (if res_eqb x r_success then P ++ ps else P) /\ w_state w' = ws_opened /\
        (x <> r_success -> rw_opened (w_rdwr w') = false)
    | _ => True end) h.
Proof.
  intros [W RW ID LV] ES L. unfold write_iov.
  destruct (FSTRM__WRITER_IOVEC_SIZE <? 2 * length ps)%nat eqn:E; [exact I|].
  apply wp_bind_i. apply (wp_rdwr_write okb okb_s); auto; try apply W; [intros; exact I| |].
  - intros h' EO HI' Hs Hr. rewrite frame_iovecs_datas in Hs. cbn. split; [|split; [exact ES|congruence]].
    destruct (LV ES EO) as (ss & ct & E1 & E2 & E3). split; cbn.
    + eapply wok_same; [exact W|]. split; cbn; auto. apply same_ops_refl.
    + exact HI'.
    + contradiction.
    + intros _ _. exists ss, ct. split; [|split; [exact E2|rewrite Hr; exact E3]].
      rewrite Hs, E1, add_last_snoc, datas_app, app_assoc. reflexivity.
  - intros h' r Hr HI' _ _ _. cbn. rewrite ne_eqb by exact Hr. split; [|auto]. split; cbn.
    + eapply wok_same; [exact W|]. split; cbn; auto. apply same_ops_set.
    + exact HI'.
    + contradiction.
    + discriminate.
Qed.

Lemma pi_lost bi cts w h P Q : PI bi cts w h P -> w_state w = ws_opened -> rw_opened (w_rdwr w) = false -> PI bi cts w h Q.
Proof. intros [W RW ID LV] E1 E2. split; auto; [contradiction|congruence]. Qed.

Definition written bi cts (P ps : list bytes) : post (res * writer) :=
  fun h' o => match o with
    | Done (x, w') => PI bi cts w' h' (if res_eqb x r_success then P ++ ps else P) /\ w_state w' = ws_opened /\
        (x <> r_success -> rw_opened (w_rdwr w') = false)
    | _ => True end.

Lemma pi_loop bi cts chunk : (0 < chunk)%nat -> (2 * chunk <= 256)%nat ->
  forall n ps w h P, (length ps <= n)%nat -> PI bi cts w h P -> w_state w = ws_opened ->
  wp (write_iov_stupid_loop n chunk w ps) (written bi cts P ps) h.
Proof.
  intros C0 C1. induction n as [|n IH]; intros ps w h P Hl I0 ES.
  { destruct ps; [|cbn in Hl; lia]. cbn. rewrite app_nil_r. split; [exact I0|split; [exact ES|congruence]]. }
  destruct ps as [|p ps0] eqn:Eps; [cbn; rewrite app_nil_r; split; [exact I0|split; [exact ES|congruence]]|]. rewrite <- Eps in *.
  assert (EqL : write_iov_stupid_loop (S n) chunk w ps =
     bind (write_iov w (firstn chunk ps)) (fun z => match z with (x, w) =>
          if negb (res_eqb x r_success) then Ret (x, w)
          else write_iov_stupid_loop n chunk w (skipn chunk ps) end)) by (subst ps; reflexivity).
  rewrite EqL. clear EqL. apply wp_bind_i. eapply wp_mono; [|apply pi_write_iov; [exact I0|exact ES|rewrite firstn_length; lia]].
  intros h' [[x w']| |] X; unfold bind_post; auto. destruct X as (I1 & S1 & F1).
  assert (L2 : (length (skipn chunk ps) <= n)%nat) by (rewrite skipn_length; lia).
  destruct (res_eqb x r_success) eqn:E; cbn [negb].
  - eapply wp_mono; [|apply (IH _ _ _ _ L2 I1 S1)].
    intros h2 [[y w2]| |] Y; unfold written in *; auto. destruct Y as (Y1 & Y2 & Y3). split; [|auto].
    destruct (res_eqb y r_success) eqn:Ey; [rewrite <- app_assoc, firstn_skipn in Y1; exact Y1|].
    eapply pi_lost; [exact Y1|exact Y2|]. apply Y3, res_eqb_false, Ey.
  - cbn. rewrite E. split; [exact I1|auto].
Qed.

Lemma pi_writev bi cts w ps h P : PI bi cts w h P -> lenN ps < 2 ^ 30 ->
  wp (writer_writev w ps) (fun h' o => match o with
    | Done (x, w') => PI bi cts w' h' (if res_eqb x r_success then P ++ ps else P) | _ => True end) h.
Proof.
  intros I0 Hl. unfold writer_writev. destruct ps as [|p ps0] eqn:Eps; [cbn; rewrite app_nil_r; exact I0|].
  rewrite <- Eps in *. clear Eps p ps0.
  apply wp_bind_i. eapply wp_mono; [|apply pi_maybe; exact I0].
  intros h1 [[x w1]| |] I1; unfold bind_post; auto.
  destruct (res_eqb x r_success) eqn:E; cbn [negb]; [|cbn; rewrite E; exact I1].
  destruct (w_state w1) eqn:ES; try exact I1.
  destruct (2 ^ 31 <=? 2 * lenN ps); [exact I|].
  assert (K : wp (if (2 * length ps <=? FSTRM__WRITER_IOVEC_SIZE)%nat then write_iov w1 ps else write_iov_stupid w1 ps)
    (written bi cts P ps) h1).
  { destruct (2 * length ps <=? FSTRM__WRITER_IOVEC_SIZE)%nat eqn:EL.
    - apply pi_write_iov; auto. unfold FSTRM__WRITER_IOVEC_SIZE in EL. lia.
    - unfold write_iov_stupid, FSTRM__WRITER_IOVEC_SIZE. change (256 / 2)%nat with 128%nat.
      pose proof (ok_iov _ _ _ (pi_ok _ _ _ _ _ I1)) as OK.
      destruct (Nat.min 128 (w_iov_max w1) =? 0)%nat eqn:E0; [lia|].
      apply pi_loop; auto; lia. }
  eapply wp_mono; [|exact K]. intros h2 [[y w2]| |] Y; unfold written in *; auto. apply Y.
Qed.

Lemma pi_close bi cts w h P : PI bi cts w h P ->
  wp (writer_close w) (fun h' o => match o with
    | Done (x, w') => PI bi cts w' h' [] /\
        (x = r_success -> exists ss ct, sessions okb h' = ss ++ [session_head bi cts ct ++ datas P ++ stop_frame] /\
           start_choice bi cts ct /\
           (bi = true -> fits true T_READY cts /\ exists acts fin, ctl_ok T_ACCEPT acts /\ received h' = ctl_frame T_ACCEPT acts ++ ctl_frame T_FINISH fin))
    | _ => True end) h.
Proof.
  intros [W RW ID LV]. unfold writer_close.
  destruct (w_state w) eqn:ES; try (cbn; split; [split; auto; congruence|discriminate]).
  cbv zeta. rewrite write_stop_eq. cbn [set_wstate w_rdwr w_finish]. apply wp_bind_i.
  assert (WOK : forall w', same_w w w' -> wok bi cts w') by (intros; eapply wok_same; eassumption).
  assert (CL : forall w' h', same_w w w' -> w_state w' = ws_closed -> RWI (w_rdwr w') h' -> PI bi cts w' h' []).
  { intros w' h' SW St HI. split; auto. congruence. }
  apply (wp_rdwr_write okb okb_s); auto; try apply W; [intros; exact I| |].
  - intros h1 EO HI1 Hs1 Hr1. unfold bind_post. cbn [res_eqb negb].
    destruct (LV eq_refl EO) as (ss & ct & E1 & E2 & E3).
    rewrite E1, add_last_snoc in Hs1. cbn [concat] in Hs1. rewrite app_nil_r, <- app_assoc in Hs1.
    destruct (rw_has_read (w_rdwr w)) eqn:ER.
    + apply wp_bind_i. apply (wp_read_control okb); auto; try apply W; [intros; exact I| |].
      * intros h2 fin _ HI2 [Hq2 L2] _ Hr2. unfold bind_post. cbn [res_eqb negb].
        apply (wp_close_rw okb); [apply W|assumption|auto|].
        intros h3 r Hs3 Hr3 HI3 _. split.
        -- apply CL; [split; cbn; auto; apply same_ops_set|reflexivity|exact HI3].
        -- intros _. exists ss, ct. split; [rewrite Hs3, Hq2; exact Hs1|]. split; [exact E2|].
           intro B. destruct (E3 B) as [F (acts & K & A)]. split; [exact F|]. exists acts, fin. split; [exact K|]. rewrite Hr3, Hr2, Hr1, A. reflexivity.
      * intros h2 r c' rw' Hr Hso HI2 [Hq2 L2]. unfold bind_post. rewrite ne_eqb by assumption. cbn [negb].
        destruct (same_ops_fields _ _ Hso) as (_ & _ & _ & EC & _).
        apply (wp_close_rw okb); [rewrite EC; apply W|assumption|auto|].
        intros h3 r3 Hs3 Hr3 HI3 _. split; [|contradiction].
        apply CL; [split; cbn; auto; eapply same_ops_trans; [exact Hso|apply same_ops_set]|reflexivity|exact HI3].
    + apply (wp_close_rw okb); [apply W|assumption|auto|].
      intros h3 r Hs3 Hr3 HI3 _. split.
      * apply CL; [split; cbn; auto; apply same_ops_set|reflexivity|exact HI3].
      * intros _. exists ss, ct. split; [rewrite Hs3; exact Hs1|]. split; [exact E2|].
        intro B. rewrite (ok_read _ _ _ W) in ER. congruence.
  - intros h1 r Hr HI1 _ _ _. unfold bind_post. rewrite ne_eqb by assumption. cbn [negb].
    apply (wp_close_rw okb); [apply W|assumption|auto|].
    intros h3 r3 _ _ HI3 _. split; [|contradiction].
    apply CL; [split; cbn; auto; eapply same_ops_trans; apply same_ops_set|reflexivity|exact HI3].
Qed.

Lemma pi_call bi cts w c h P : PI bi cts w h P -> wcall_ok c ->
  wp (do_wcall w c) (keeps bi cts (next P c)) h.
Proof.
  intros I0 OK. destruct c as [|p|ps| |t]; cbn [do_wcall].
  - eapply wp_mono; [|apply pi_open; exact I0]. intros h' [[x w']| |] Y; cbn; auto. cbn.
    rewrite app_nil_r. destruct Y as [Y _]. destruct (res_eqb x r_success); exact Y.
  - apply (pi_writev _ _ _ [p]); auto.
  - apply (pi_writev _ _ _ ps); auto.
  - eapply wp_mono; [|apply pi_close; exact I0]. intros h' [[x w']| |] Y; cbn; auto. apply Y.
  - unfold writer_get_control. apply wp_bind_i, wp_bind_i. eapply wp_mono; [|apply pi_maybe; exact I0].
    intros h' [[x w']| |] Y; unfold bind_post; auto. unfold keeps, next. cbn [wpayloads].
    destruct (res_eqb x r_success) eqn:E; cbn [negb];
      repeat match goal with |- context [if ?b then _ else _] => destruct b end; cbn; rewrite ?app_nil_r, ?E; exact Y.
Qed.

Lemma since_cons acc c cs r rs : since_close acc (c :: cs) (r :: rs) = since_close (next acc c r) cs rs.
Proof. destruct c, r; reflexivity. Qed.

Lemma pi_calls bi cts cs : forall w h P, PI bi cts w h P -> Forall wcall_ok cs ->
  wp (do_wcalls w cs) (fun h' o => match o with
    | Done (rs, w') => length rs = length cs /\ PI bi cts w' h' (since_close P cs rs) | _ => True end) h.
Proof.
  induction cs as [|c cs IH]; intros w h P I0 Hok; [cbn; auto|].
  inversion_clear Hok as [|? ? H1 H2]. cbn [do_wcalls]. apply wp_bind_i.
  eapply wp_mono; [|apply pi_call; [exact I0|exact H1]].
  intros h1 [[x w1]| |] I1; unfold bind_post; auto. cbn in I1.
  apply wp_bind_i. eapply wp_mono; [|eapply IH; eauto].
  intros h2 [[rs w2]| |] Y; unfold bind_post; auto. cbn. destruct Y as [Y1 Y2]. split; [congruence|].
  rewrite <- since_cons in Y2. exact Y2.
Qed.

Lemma pi_init bi cts iovm rw w : fresh_rdwr rw -> rw_has_read rw = bi ->
  (0 < iovm)%nat -> writer_init iovm cts rw = Some w -> PI bi cts w [] [].
Proof.
  intros [F1 F2 F3 F4] E Hi H. unfold writer_init in H. destruct (rw_has_write rw) eqn:E6; [|discriminate].
  injection H as <-. split; cbn; auto.
  - split; auto.
  - unfold RWI. cbn. rewrite F1. reflexivity.
  - discriminate.
Qed.
End Pend.

Lemma wp_calls_close okb (okb_s : okb r_success = true) bi cts cs : forall w h P, PI okb bi cts w h P -> Forall wcall_ok cs ->
  wp (do_wcalls w (cs ++ [WClose])) (fun h' o => match o with
    | Done (rs, w') => exists rs0 x, rs = rs0 ++ [x] /\ length rs0 = length cs /\
        (x = r_success -> exists ss ct, sessions okb h' = ss ++ [session_head bi cts ct ++ datas (since_close P cs rs0) ++ stop_frame] /\
           start_choice bi cts ct /\
           (bi = true -> fits true T_READY cts /\ exists acts fin, ctl_ok T_ACCEPT acts /\ received h' = ctl_frame T_ACCEPT acts ++ ctl_frame T_FINISH fin))
    | _ => True end) h.
Proof.
  induction cs as [|c cs IH]; intros w h P I0 Hok.
  - cbn [app do_wcalls do_wcall]. apply wp_bind_i. eapply wp_mono; [|apply (pi_close okb okb_s); exact I0].
    intros h' [[x w']| |] Y; unfold bind_post; auto. cbn. exists [], x. split; [reflexivity|]. split; [reflexivity|]. apply Y.
  - inversion_clear Hok as [|? ? H1 H2]. cbn [app do_wcalls]. apply wp_bind_i.
    eapply wp_mono; [|apply (pi_call okb okb_s); [exact I0|exact H1]].
    intros h1 [[x w1]| |] I1; unfold bind_post; auto. cbn in I1.
    apply wp_bind_i. eapply wp_mono; [|eapply IH; eauto].
    intros h2 [[rs w2]| |] Y; unfold bind_post; auto. cbn. destruct Y as (rs0 & y & -> & L & Y).
    exists (x :: rs0), y. split; [reflexivity|]. split; [cbn; congruence|].
    rewrite <- since_cons in Y. exact Y.
Qed.

Lemma close_confirms okb (okb_s : okb r_success = true) iovm cts rw w cs tr rs w' :
  fresh_rdwr rw -> (0 < iovm)%nat -> writer_init iovm cts rw = Some w -> Forall wcall_ok cs ->
  runs (do_wcalls w (cs ++ [WClose])) tr (Done (rs ++ [r_success], w')) ->
  length rs = length cs /\ exists ss ct, sessions okb tr = ss ++ [session_head (rw_has_read rw) cts ct ++ datas (since_close [] cs rs) ++ stop_frame] /\
    start_choice (rw_has_read rw) cts ct /\
    (rw_has_read rw = true -> fits true T_READY cts /\ exists acts fin, ctl_ok T_ACCEPT acts /\ received tr = ctl_frame T_ACCEPT acts ++ ctl_frame T_FINISH fin).
Proof.
  intros FR Hi Hw Hok R.
  pose proof (wp_runs _ _ (wp_calls_close okb okb_s (rw_has_read rw) cts cs w [] [] (pi_init okb _ _ _ _ _ FR eq_refl Hi Hw) Hok) _ _ R) as K.
  cbn in K. destruct K as (rs0 & x & E & L & K). apply app_inj_tail in E. destruct E as [-> <-].
  split; [exact L|]. exact (K eq_refl).
Qed.

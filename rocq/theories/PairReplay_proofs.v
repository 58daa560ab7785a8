(** fstrm_replay and a capture server. *)
From Coq Require Import ZArith Lia.
From Verif Require Import Bytes Spec Bytes_proofs Io Io_proofs SpecTrace SpecStream SpecReader
  Control Control_proofs Rdwr Rdwr_proofs Writer Api SpecApi Writer_proofs Writer2_proofs SpecDeliver SpecPair Pair PairBounded Pair_proofs
  File Capture SpecCapture Capture_proofs Capture2_proofs Capture3_proofs Capture4_proofs Capture5_proofs Capture7_proofs Capture8_proofs
  Deliver_proofs Pair2_proofs Pair3_proofs PairBounded_proofs File_proofs Tools SpecTools Tools3_proofs SpecPairReplay.
Import ListNotations.
Local Open Scope N_scope.

Lemma sim_wpq cts sct {A B} (R : A -> B -> Prop) p q Q : sim R p q -> forall h, wpq cts sct q Q h ->
  wpq cts sct p (fun h x => exists y, R x y /\ Q h y) h.
Proof.
  induction 1 as [x y E|f|q k k' E IH]; intros h W; cbn in *; [eauto|exact W|]. destruct W as [W1 W2]. split; [exact W1|]. apply IH, W2.
Qed.

(** ** The writer's side, exactly *)
Section Q.
Variables (cts : list bytes) (sct : bytes).
Notation HEAD := (HEAD cts).
Notation ACC := (ACC sct).
Notation SCRIPT := (SCRIPT sct).
Notation wpq := (wpq cts sct).
Hypothesis agreed : agree cts sct.
Hypothesis sct_ok : lenN sct <= CT_MAX.
Hypothesis ready_ok : fits true T_READY cts.

Record LO (w : writer) (h : trace) (ds : list bytes) : Prop := {
  lo_ok : wok true cts w;
  lo_st : w_state w = ws_opened;
  lo_op : rw_opened (w_rdwr w) = true;
  lo_ds : Forall ordinary ds;
  lo_at : At h (HEAD ++ datas ds) ACC true }.

Lemma x_open w (Q : trace -> _ -> Prop) h : LW cts sct w h U_fresh ->
  (forall h' w', LO w' h' [] -> Q h' (r_success, w')) -> wpq (writer_open w) Q h.
Proof using All.
  intros [OK ST] K. unfold writer_open.
  destruct ST as (E & EO & s & r & HA); rewrite E; destruct OK as [O1 O2 O3 O4 O5 O6 O7]; apply wpq_bind;
    eapply q_rdwr_open; eauto; intros h1 A1; cbn [res_eqb negb set_wrdwr w_rdwr set_opened rw_has_read]; rewrite O5;
    apply wpq_bind; apply q_open_bi; try assumption; [split; assumption|reflexivity|];
    intros h2 w2 W2 OP2 A2; cbn [res_eqb negb]; apply K. split; [destruct W2; split; assumption|reflexivity|exact OP2|constructor|].
  cbn. rewrite app_nil_r. exact A2.
Qed.

Lemma x_write w d ds (Q : trace -> _ -> Prop) h : LO w h ds -> ordinary d ->
  (forall h' w', LO w' h' (ds ++ [d]) -> Q h' (r_success, w')) -> wpq (writer_write w d) Q h.
Proof using All.
  intros [OK E EO F HA] O K. unfold writer_write, writer_writev. apply wpq_bind. unfold writer_maybe_open. rewrite E. cbn [Pair_proofs.wpq].
  cbn [res_eqb negb]. rewrite E. change (2 ^ 31 <=? 2 * lenN [d]) with false. cbv iota.
  change (2 * length [d] <=? FSTRM__WRITER_IOVEC_SIZE)%nat with true. cbv iota. unfold write_iov.
  change (FSTRM__WRITER_IOVEC_SIZE <? 2 * length [d])%nat with false. cbv iota.
  destruct OK as [O1 O2 O3 O4 O5 O6 O7]. apply wpq_bind. eapply q_rdwr_write; eauto; [right; right; exists ds; auto| |].
  { left. right. right. exists (ds ++ [d]). split; [apply Forall_app; auto|]. rewrite datas_app, frame_iovecs_datas, <- app_assoc. reflexivity. }
  intros h1 A1. cbn. apply K. split; [split; assumption|exact E|exact EO|apply Forall_app; auto|].
  rewrite datas_app. rewrite frame_iovecs_datas, <- app_assoc in A1. exact A1.
Qed.

Lemma x_each ds' : Forall ordinary ds' -> forall w ds (Q : trace -> _ -> Prop) h, LO w h ds ->
  (forall n h' w', LO w' h' (ds ++ ds') -> Q h' (n, true, w')) -> wpq (write_each w ds') Q h.
Proof using All.
  induction 1 as [|d ds' O F IH]; intros w ds Q h L K; cbn [write_each].
  - apply K. rewrite app_nil_r. exact L.
  - apply wpq_bind. eapply x_write; [exact L|exact O|]. intros h1 w1 L1. cbn [res_eqb negb]. apply wpq_bind.
    eapply IH; [exact L1|]. intros n h2 w2 L2. cbn. apply K. rewrite <- app_assoc in L2. exact L2.
Qed.

Lemma x_close w ds (Q : trace -> _ -> Prop) h : LO w h ds ->
  (forall h' w', wok true cts w' -> w_state w' = ws_closed -> At h' (HEAD ++ datas ds ++ stop_frame) SCRIPT false -> Q h' (r_success, w')) ->
  wpq (writer_close w) Q h.
Proof using All.
  intros [[O1 O2 O3 O4 O5 O6 O7] E EO F HA] K. unfold writer_close. rewrite E.
  cbv zeta. cbn [set_wstate w_rdwr w_finish]. apply wpq_bind. rewrite write_control_eq by reflexivity. cbv zeta.
  change (encodable true FSTRM_CONTROL_STOP []) with true. cbv iota.
  eapply q_rdwr_write; eauto; [right; right; exists ds; auto| |].
  { right. exists ds. split; [exact F|]. cbn [concat]. rewrite app_nil_r, <- app_assoc. reflexivity. }
  cbn [concat]. rewrite app_nil_r. intros h1 A1. cbn [res_eqb negb]. rewrite O5. apply wpq_bind.
  eapply (q_read_control _ _ _ _ T_FINISH [] []); eauto.
  { exact finish_ctl_ok. }
  { right. exists ds. split; [exact F|]. split; [rewrite <- app_assoc; reflexivity|]. unfold Pair_proofs.SCRIPT. rewrite lenN_app. apply N.le_refl. }
  intros h2 A2. cbn [res_eqb negb]. apply wpq_bind. eapply q_rdwr_close; eauto.
  intros h3 A3. cbn. apply K; [split; assumption|reflexivity|]. rewrite <- app_assoc in A3. exact A3.
Qed.

Lemma q_hasty w ds : LW cts sct w [] U_fresh -> Forall ordinary ds ->
  wpq (hasty_copy w ds) (fun h r => r = true /\ At h (HEAD ++ datas ds ++ stop_frame) SCRIPT false) [].
Proof using All.
  intros L F. unfold hasty_copy. apply wpq_bind. apply x_open; [exact L|]. intros h1 w1 L1. cbn [res_eqb negb]. apply wpq_bind.
  eapply x_each; [exact F|exact L1|]. intros n h2 w2 L2. cbn [negb app]. cbn [app] in L2. apply wpq_bind.
  eapply x_close; [exact L2|]. intros h3 w3 OK E A. apply wpq_bind. unfold writer_destroy. rewrite E. apply wpq_bind. cbn [Pair_proofs.wpq].
  apply wpq_bind. unfold rdwr_destroy. rewrite (ok_destroy _ _ _ OK). cbn. split; [apply A|]. split; [reflexivity|]. apply at_destroy, A.
Qed.
End Q.

(** ** The server's side *)
Lemma sent_attempted tr x y : sent tr = x ++ y -> y <> [] -> attempted tr <> [].
Proof. unfold sent. intros E N Z. rewrite Z in E. cbn in E. symmetry in E. apply app_eq_nil in E as [_ E]. exact (N E). Qed.

Lemma J_stored cts e a T0 (p0 : io T0) Q0 m j ds : agree cts (a_ctype a) -> fits true T_READY cts -> lenN (ready_frame cts) < 512 ->
  lenN (a_ctype a) <= CT_MAX -> 512 <= capture_highwater a -> sends e -> Forall ordinary ds ->
  J cts e a T0 p0 Q0 m j -> At (j_tr j) (HEAD cts ++ datas ds ++ stop_frame) (SCRIPT (a_ctype a)) false ->
  exists i, In i (map fst (j_past j)) /\ SpecCapture.received i (j_hist j) = HEAD cts ++ datas ds ++ stop_frame /\
    stores (acts_of i (x_log (j_srv j))) = map data_frame (fit a ds).
Proof.
  intros AG RO RS SO RM SE F I [A1 A2 A3 _].
  pose proof (J_link _ _ _ _ _ _ _ _ I) as LK. rewrite A3 in LK. destruct (j_id j) as [|] eqn:EI; [discriminate|].
  pose proof (J_here _ _ _ _ _ _ _ _ I) as P. unfold partner in P. rewrite EI in P.
  destruct (j_past j) as [|[i s] past]; cbn [option_map hd_error fst] in P.
  { exfalso. rewrite app_assoc in A1. apply (sent_attempted _ _ _ A1); [discriminate|exact P]. }
  destruct P as (_ & P2 & P3). rewrite A1 in P2. rewrite A2 in P3. exists i. split; [left; reflexivity|].
  pose proof (J_re _ _ _ _ _ _ _ _ I) as RE.
  pose proof (follows (capture_highwater a) cts (a_ctype a) AG RO RS SO RM e a i _ _ _ eq_refl eq_refl SE RE P2 _ _
    (react_whole (capture_highwater a) cts (a_ctype a) AG RO RS SO RM ds F)) as FW.
  rewrite app_comm_cons in FW. apply prefix_snoc in FW as [E|P].
  - split.
    + destruct (prefix_strict _ _ P2) as [X|(v & u & X)]; [exact X|]. exfalso.
      refine (no_early_finish cts e a AG RO RS SO RM SE i _ _ (HEAD cts ++ datas ds) stop_frame (firstn (length (SpecCapture.received i (j_hist j)) - length (HEAD cts ++ datas ds)) stop_frame) RE _ _ _ _ _ _).
      * right. right. eauto.
      * right. exists ds. split; [exact F|]. symmetry. apply app_assoc.
      * eexists. symmetry. apply firstn_skipn.
      * intro Z. apply (f_equal (@length byte)) in Z. rewrite firstn_length in Z. apply (f_equal (@length byte)) in X.
        rewrite !app_length in X. rewrite app_length in Z. cbn [length] in X. change (length stop_frame) with 12%nat in *. lia.
      * set (r := SpecCapture.received i (j_hist j)) in *. set (hd := HEAD cts ++ datas ds) in *.
        assert (Y : hd ++ stop_frame = r ++ v :: u) by (unfold hd; rewrite <- app_assoc; exact X).
        destruct (Nat.le_gt_cases (length r) (length hd)) as [LE|GT].
        { apply prefix_trans with hd; [|apply prefix_l]. eapply prefix_both; [exists (v :: u); exact Y|exists stop_frame; reflexivity|unfold lenN; lia]. }
        assert (PH : prefix hd r) by (eapply prefix_both; [exists stop_frame; reflexivity|exists (v :: u); exact Y|unfold lenN; lia]).
        destruct PH as [t ET]. rewrite ET in Y. rewrite <- app_assoc in Y. apply app_inv_head in Y. rewrite Y, ET, app_length.
        replace (length hd + length t - length hd)%nat with (length t) by lia. rewrite firstn_app, firstn_all, Nat.sub_diag. cbn [firstn].
        rewrite app_nil_r. exists []. rewrite app_nil_r. reflexivity.
      * rewrite E. right. apply in_or_app. right. left. reflexivity.
    + rewrite E. change ((Answer (ACC (a_ctype a)) :: kept_of (capture_highwater a) ds) ++ [Answer finish_frame])
        with ([Answer (ACC (a_ctype a))] ++ kept_of (capture_highwater a) ds ++ [Answer finish_frame]).
      unfold stores. rewrite !map_app, !concat_app. cbn [map concat app]. rewrite app_nil_r.
      unfold kept_of. fold (fit a ds). induction (map data_frame (fit a ds)) as [|x l IH]; [reflexivity|]. cbn. f_equal. exact IH.
  - exfalso. apply answers_prefix in P. pose proof (prefix_trans _ _ _ P3 P) as X. apply prefix_len in X.
    change (Answer (ACC (a_ctype a)) :: kept_of (capture_highwater a) ds) with ([Answer (ACC (a_ctype a))] ++ kept_of (capture_highwater a) ds) in X.
    rewrite answers_app, (answers_kept (capture_highwater a) cts (a_ctype a) AG RO RS SO RM) in X.
    cbn [app concat answers map] in X. rewrite !app_nil_r in X. unfold SCRIPT in X. rewrite lenN_app in X.
    change (lenN finish_frame) with 12 in X. lia.
Qed.

(** ** Together *)
Lemma parse_ordinary inp ds e rest : parse DEFAULT_MAX inp ds e rest -> Forall ordinary ds.
Proof.
  induction 1 as [p inp ds e rest D L P IH| | | | | | | | |]; auto. constructor; [|exact IH]. destruct D as [D1 D2].
  unfold DEFAULT_MAX in L. split; [lia|lia].
Qed.
Lemma offers_ordinary ct files dss : Forall2 (offers ct) files dss -> Forall ordinary (concat dss).
Proof.
  induction 1 as [|d ds files dss O F IH]; [constructor|]. cbn [concat]. apply Forall_app. split; [|exact IH].
  destruct O as [d st ds e (_ & inp & rest & _ & P) _ _| |]; [eapply parse_ordinary, P|constructor|constructor].
Qed.

Section Together.
Variables (fuel iovm : nat) (files : list bytes) (dss : list (list bytes)) (e : env) (a : args) (m cap : N) (H : list ev) (c : ctx).
Hypothesis RM : replay_met fuel iovm files dss e a m H c.
Notation ct := (a_ctype a).
Notation prog := (on_files 1 (map input files) (replay_main fuel iovm ct (length files))).

Definition QR (h : trace) (x : list cfile * bool) : Prop :=
  map f_data (fst x) = files /\ snd x = true /\ At h (HEAD [ct] ++ datas (concat dss) ++ stop_frame) (SCRIPT ct) false.

Lemma rm_agree : agree [ct] ct. Proof. right. reflexivity. Qed.
Lemma rm_ready : lenN (ready_frame [ct]) < 512.
Proof.
  pose proof (rm_type _ _ _ _ _ _ _ _ _ RM) as L. unfold CT_MAX in L. unfold ready_frame, ctl_frame, ctl_payload, ct_field. cbn [map concat].
  rewrite !lenN_app, !lenN_be32, lenN_nil. lia.
Qed.
Lemma rm_fits : fits true T_READY [ct].
Proof. split; [repeat constructor; apply RM|]. pose proof rm_ready as L. change (lenN (ready_frame [ct]) <= 512). lia. Qed.
Lemma replay_ordinary : Forall ordinary (concat dss).
Proof. eapply offers_ordinary, RM. Qed.

Lemma start_replay : wpq [ct] ct prog QR [].
Proof.
  pose proof RM as [OF FU IO TY RO SE RE RB].
  assert (W : exists w, writer_init iovm [ct] (socket_rdwr 0) = Some w) by (eexists; reflexivity). destruct W as (w & EW).
  assert (L : LW [ct] ct w [] U_fresh).
  { unfold writer_init in EW. cbn in EW. injection EW as <-. split; [split; cbn; auto|]. cbn. split; [reflexivity|]. split; [reflexivity|].
    exists [], []. split; auto. discriminate. }
  pose proof (replay_sim ct files dss fuel iovm w OF FU TY EW) as S.
  eapply wpq_mono; [|eapply sim_wpq; [exact S|apply q_hasty; [apply rm_agree|exact TY|apply rm_fits|exact L|apply replay_ordinary]]].
  intros h x (y & [X1 X2] & Y1 & Y2). split; [exact X1|]. split; [congruence|exact Y2].
Qed.

Lemma rK n b : b_run e a m cap (replaying fuel iovm ct files H c) n b -> K [ct] e a _ prog QR m cap b.
Proof.
  pose proof RM as [OF FU IO TY RO SE RE RB]. pose proof rm_agree. pose proof rm_ready. pose proof rm_fits.
  apply K_run; auto. apply K_start; auto. apply (J_start [ct] e a); auto. exact start_replay.
Qed.
Lemma rJ n b : b_run e a m cap (replaying fuel iovm ct files H c) n b -> (forall h iov k, j_prog (b_joint b) <> Vis (QWrite h iov) k) ->
  J [ct] e a _ prog QR m (b_joint b).
Proof.
  pose proof RM as [OF FU IO TY RO SE RE RB]. pose proof rm_agree. pose proof rm_ready. pose proof rm_fits.
  intros R. eapply (K_end [ct] e a); eauto. eapply rK, R.
Qed.

Lemma replay_end n b : b_run e a m cap (replaying fuel iovm ct files H c) n b ->
  match j_prog (b_joint b) with
  | Ret (fs, ok) => ok = true /\ map f_data fs = files /\
      exists i, In i (map fst (j_past (b_joint b))) /\
        SpecCapture.received i (j_hist (b_joint b)) = ready_frame [ct] ++ start_frame (Some ct) ++ datas (concat dss) ++ stop_frame /\
        stores (acts_of i (x_log (j_srv (b_joint b)))) = map data_frame (fit a (concat dss))
  | Fail _ => False
  | Vis _ _ => True
  end.
Proof.
  intro R. pose proof RM as [OF FU IO TY RO SE RE RB]. destruct (j_prog (b_joint b)) as [[fs ok]|f|q k] eqn:E; [| |exact Logic.I].
  - assert (I : J [ct] e a _ prog QR m (b_joint b)) by (eapply rJ; [exact R|rewrite E; discriminate]).
    pose proof (J_wpq _ _ _ _ _ _ _ _ I) as W. rewrite E in W. destruct W as (W1 & W2 & W3). cbn [fst snd] in *.
    split; [exact W2|]. split; [exact W1|].
    destruct (J_stored _ _ _ _ _ _ _ _ (concat dss) rm_agree rm_fits rm_ready TY RO SE replay_ordinary I W3) as (i & X1 & X2 & X3).
    exists i. split; [exact X1|]. split; [|exact X3]. rewrite X2. unfold HEAD. rewrite <- app_assoc. reflexivity.
  - assert (I : J [ct] e a _ prog QR m (b_joint b)) by (eapply rJ; [exact R|rewrite E; discriminate]).
    pose proof (J_wpq _ _ _ _ _ _ _ _ I) as W. rewrite E in W. exact W.
Qed.

Lemma replay_progress n b : output_works e -> 1 <= m -> m + 7 < capture_highwater a -> 1 <= cap ->
  b_run e a m cap (replaying fuel iovm ct files H c) n b ->
  (exists r, j_prog (b_joint b) = Ret r) \/ (exists b', b_writer cap b b') \/
  (exists x b', its_own (b_joint b) x /\ b_server e a m b x b') \/
  (exists i, j_id (b_joint b) = Some i /\ ~ accepted i (j_hist (b_joint b)) /\
     (0 < a_conns a)%Z /\ (a_conns a <= Z.of_nat (length (x_conns (j_srv (b_joint b)))))%Z).
Proof.
  intros OW M1 M2 C1 R. pose proof RM as [OF FU IO TY RO SE RE RB]. pose proof rm_agree. pose proof rm_ready. pose proof rm_fits.
  eapply (K_progress [ct] e a); eauto. eapply rK, R.
Qed.

Lemma replay_bound n b : b_run e a m cap (replaying fuel iovm ct files H c) n b -> (n <= 2 * weight ct prog [])%nat.
Proof.
  intro R. pose proof RM as [OF FU IO TY RO SE RE RB]. pose proof rm_agree. pose proof rm_ready. pose proof rm_fits.
  assert (X : (n + nu a _ b <= nu a _ (replaying fuel iovm ct files H c))%nat).
  { eapply (nu_run [ct] e a); eauto. apply (rK 0). constructor. }
  unfold nu at 2 in X. cbn [replaying U b_in b_joint rest_of] in X. unfold mu, pending in X. cbn [meeting j_prog j_tr j_id] in X. lia.
Qed.
End Together.

Lemma replay_finishes fuel iovm files dss e a m cap H c n b :
  replay_met fuel iovm files dss e a m H c -> output_works e -> 1 <= m -> m + 7 < capture_highwater a -> 1 <= cap -> (a_conns a <= 0)%Z ->
  b_run e a m cap (replaying fuel iovm (a_ctype a) files H c) n b ->
  exists n' b' r, b_run e a m cap b n' b' /\ j_prog (b_joint b') = Ret r.
Proof.
  intros WM OW M1 M2 C1 CL R.
  set (B := (2 * weight (a_ctype a) (on_files 1 (map input files) (replay_main fuel iovm (a_ctype a) (length files))) [])%nat).
  enough (X : forall k n1 b1, b_run e a m cap b n1 b1 -> (B <= n + n1 + k)%nat ->
    exists n' b' r, b_run e a m cap b n' b' /\ j_prog (b_joint b') = Ret r).
  { apply (X B 0%nat b); [constructor|lia]. }
  induction k as [|k IH]; intros n1 b1 R1 L; pose proof (b_trans _ _ _ _ _ _ _ R _ _ R1) as R2;
    destruct (replay_progress _ _ _ _ _ _ _ _ _ _ WM _ _ OW M1 M2 C1 R2) as [(r & E)|[(b' & M)|[(x & b' & O & M)|(i & _ & _ & X & _)]]]; try lia; eauto 6.
  - exfalso. pose proof (replay_bound _ _ _ _ _ _ _ _ _ _ WM _ _ (br_writer _ _ _ _ _ _ _ _ R2 M)). lia.
  - exfalso. pose proof (replay_bound _ _ _ _ _ _ _ _ _ _ WM _ _ (br_own _ _ _ _ _ _ _ _ _ R2 O M)). lia.
  - eapply IH; [eapply br_writer; eassumption|lia].
  - eapply IH; [eapply br_own; eassumption|lia].
Qed.

(** ** The copy *)
Lemma silent_acts e a i H c : reach e a H c -> SpecCapture.received i H = [] -> stores (acts_of i (x_log c)) = [].
Proof.
  intros RE E. destruct (run_reacts_any true e a H c i (or_intror eq_refl) RE) as (q & _ & R & _). rewrite E in R.
  apply ra_incomplete in R as [-> _]; [reflexivity|apply incomplete_nil|apply calm_nil].
Qed.
Lemma only_stores i l : (forall u, u <> i -> stores (acts_of u l) = []) -> stored l = stores (acts_of i l).
Proof.
  intro O. assert (S : forall u, (forall x, In (u, Store x) l -> In x (stores (acts_of u l)))).
  { intros u x IN. unfold stores. apply in_concat. exists [x]. split; [|left; reflexivity]. apply in_map_iff. exists (Store x). split; [reflexivity|].
    unfold acts_of. apply in_concat. exists [Store x]. split; [|left; reflexivity]. apply in_map_iff. exists (u, Store x). cbn.
    rewrite Nat.eqb_refl. auto. }
  assert (O' : forall u x, In (u, Store x) l -> u = i).
  { intros u x IN. destruct (Nat.eq_dec u i) as [|NE]; [assumption|]. specialize (S u x IN). rewrite (O u NE) in S. destruct S. }
  clear O S. induction l as [|[u x] l IH]; [reflexivity|].
  assert (E1 : acts_of i ((u, x) :: l) = (if Nat.eqb u i then [x] else []) ++ acts_of i l) by reflexivity.
  rewrite E1, stores_app, <- IH by (intros; eapply O'; right; eassumption).
  destruct x as [b|b|]; [|destruct (Nat.eqb u i); reflexivity..].
  rewrite (O' u b (or_introl eq_refl)), Nat.eqb_refl. reflexivity.
Qed.

Lemma replay_copied fuel iovm files dss e a m cap H c n b r :
  replay_met fuel iovm files dss e a m H c -> b_run e a m cap (replaying fuel iovm (a_ctype a) files H c) n b ->
  j_prog (b_joint b) = Ret r ->
  exists i, In i (map fst (j_past (b_joint b))) /\
    ((forall u, u <> i -> SpecCapture.received u (j_hist (b_joint b)) = []) ->
     forall c' name out, shutdown e (j_srv (b_joint b)) = Go c' -> x_outs c' = [(name, out)] ->
       out = start_frame (Some (a_ctype a)) ++ datas (fit a (concat dss)) ++ stop_frame).
Proof.
  intros RM R E. pose proof (replay_end _ _ _ _ _ _ _ _ _ _ RM _ _ R) as X. rewrite E in X. destruct r as [fs ok].
  destruct X as (_ & _ & i & X1 & X2 & X3). exists i. split; [exact X1|]. intros SI c' name out SH EO.
  assert (I : J [a_ctype a] e a _ (on_files 1 (map input files) (replay_main fuel iovm (a_ctype a) (length files))) (QR files dss a) m (b_joint b))
    by (eapply rJ; [exact RM|exact R|rewrite E; discriminate]).
  pose proof (J_re _ _ _ _ _ _ _ _ I) as RE. destruct (any_files _ _ _ _ _ RE SH) as (fl & E1 & E2 & _).
  rewrite EO in E1. destruct fl as [|f [|]]; try discriminate. injection E1 as ->. cbn [concat] in E2. rewrite app_nil_r in E2. subst f.
  assert (ES : stored (x_log (j_srv (b_joint b))) = map data_frame (fit a (concat dss))).
  { rewrite <- X3. apply only_stores. intros u NE. eapply silent_acts; [exact RE|exact (SI u NE)]. }
  rewrite ES. reflexivity.
Qed.

Lemma complete_offers a ds : lenN (a_ctype a) <= CT_MAX -> Forall (fun p => 1 <= lenN p /\ lenN p <= DEFAULT_MAX) ds ->
  offers (a_ctype a) (start_frame (Some (a_ctype a)) ++ datas ds ++ stop_frame) ds.
Proof.
  intros TY F. apply of_match with (st := [a_ctype a]) (e := E_stop); [|right; right; exists (a_ctype a); split; [left; reflexivity|reflexivity]|discriminate].
  split.
  - split; [right; left; reflexivity|constructor; [exact TY|constructor]| |intros _; apply Nat.le_refl|intros [X|X]; discriminate].
    unfold CT_MAX in TY. unfold CTL_MAX, ctl_payload, ct_field. cbn [map concat]. rewrite !lenN_app, !lenN_be32, lenN_nil. lia.
  - exists (datas ds ++ stop_frame), []. split; [reflexivity|]. apply parse_stop. eapply Forall_impl; [|exact F].
    intros p [L1 L2]. split; [|exact L2]. unfold DEFAULT_MAX in L2. split; lia.
Qed.

Lemma replay_identical fuel iovm ds d e a m cap H c n b r :
  d = start_frame (Some (a_ctype a)) ++ datas ds ++ stop_frame ->
  Forall (fun p => 1 <= lenN p /\ lenN p <= DEFAULT_MAX /\ lenN (data_frame p) <= capture_highwater a) ds ->
  (length d <= fuel)%nat -> (0 < iovm)%nat -> lenN (a_ctype a) <= CT_MAX -> 512 <= capture_highwater a ->
  sends e -> reach e a H c -> reads_below m H ->
  b_run e a m cap (replaying fuel iovm (a_ctype a) [d] H c) n b -> j_prog (b_joint b) = Ret r ->
  exists i, In i (map fst (j_past (b_joint b))) /\
    ((forall u, u <> i -> SpecCapture.received u (j_hist (b_joint b)) = []) ->
     forall c' name out, shutdown e (j_srv (b_joint b)) = Go c' -> x_outs c' = [(name, out)] -> out = d).
Proof.
  intros ED F FU IO TY RO SE RE RB R E.
  assert (RM : replay_met fuel iovm [d] [ds] e a m H c).
  { split; auto. constructor; [|constructor]. rewrite ED. apply complete_offers; [exact TY|]. eapply Forall_impl; [|exact F]. cbn beta. tauto. }
  destruct (replay_copied _ _ _ _ _ _ _ _ _ _ _ _ _ RM R E) as (i & X1 & X2). exists i. split; [exact X1|].
  intros SI c' name out SH EO. rewrite (X2 SI c' name out SH EO), ED. cbn [concat]. rewrite app_nil_r. f_equal. f_equal. f_equal.
  unfold fit. clear -F. induction F as [|p ds (_ & _ & L) F IH]; [reflexivity|]. cbn [filter]. apply N.leb_le in L. rewrite L, IH. reflexivity.
Qed.

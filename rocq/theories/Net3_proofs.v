(** Writers and readers against a scripted peer. *)
From Verif Require Import Bytes Spec Bytes_proofs Io Io_proofs SpecTrace SpecStream
  Control Control_proofs Rdwr Rdwr_proofs Reader Writer Api SpecApi SpecReader SpecNet
  Writer_proofs Writer2_proofs Reader_source_proofs Reader_proofs Reader3_proofs Reader5_proofs Net Net_proofs Net2_proofs.
Ltac Zify.zify_post_hook ::= Z.div_mod_to_equations.
Local Open Scope N_scope.

(** ** The peer's bytes as a source *)
Section Rep.
Variables (me : bool) (tail : script).
Definition crep (b : bool) (s : bytes) : cv := cv_ok (tg (negb me) s ++ tail) (if b then C_open else C_gone).

Lemma crep_read : forall h n s, 1 <= n -> n <= lenN s -> conv me (crep true s) (QRead h n) =
  (crep true (skipn (N.to_nat n) s), ARead r_success (firstn (N.to_nat n) s)).
Proof.
  intros h n s H1 H2. unfold crep. cbn [conv].
  assert (E : s = firstn (N.to_nat n) s ++ skipn (N.to_nat n) s) by (symmetry; apply firstn_skipn).
  assert (L : length (firstn (N.to_nat n) s) = N.to_nat n) by (rewrite firstn_length; unfold lenN in H2; lia).
  rewrite E at 1. rewrite tg_app, <- app_assoc. rewrite <- L at 1. rewrite take_tg. reflexivity.
Qed.
Lemma crep_read0 : forall h s, conv me (crep true s) (QRead h 0) =
  (crep true s, ARead (if true then r_success else r_failure) []).
Proof. reflexivity. Qed.
Lemma crep_close : forall h s, conv me (crep true s) (QClose h) = (crep false s, ARes r_success).
Proof. reflexivity. Qed.
Lemma crep_iso : forall h s, conv me (crep true s) (QIsoUb h) = (crep true s, AUnit).
Proof. reflexivity. Qed.
Lemma crep_short : False -> forall h n s, lenN s < n -> conv me (crep true s) (QRead h n) =
  (crep true [], ARead r_failure []).
Proof. intros []. Qed.
End Rep.

Lemma crep_nil me tail : crep me tail true [] = cv_ok tail C_open.
Proof. reflexivity. Qed.

Lemma conv_read_control me rw oc t cts s : canread rw -> ctl_ok t cts ->
  exec (conv me) (cv_ok (tg (negb me) (ctl_frame t cts) ++ s) C_open) (read_control rw oc t) =
  (cv_ok s C_open, Done (r_success, Some (mk_control t cts), rw)).
Proof.
  intros C K. pose proof (src_read_control true cv (conv me) (crep me s) (crep_read me s) (crep_close me s) (crep_read0 me s) (crep_iso me s) rw oc t cts [] C K) as H.
  rewrite app_nil_r in H. exact H.
Qed.

Lemma conv_write me rw iov s b : rw_opened rw = true -> rw_has_write rw = true -> concat iov = b ->
  exec (conv me) (cv_ok (tg me b ++ s) C_open) (rdwr_write rw iov) = (cv_ok s C_open, Done (r_success, rw)).
Proof. intros E1 E2 <-. unfold rdwr_write. rewrite E1, E2. cbn [negb ask_res bind exec conv]. rewrite skip_tg. reflexivity. Qed.

Lemma conv_write1 me rw b s : rw_opened rw = true -> rw_has_write rw = true ->
  exec (conv me) (cv_ok (tg me b ++ s) C_open) (rdwr_write rw [b]) = (cv_ok s C_open, Done (r_success, rw)).
Proof. intros E1 E2. apply conv_write; auto. apply app_nil_r. Qed.

Lemma conv_wcf me rw t cts s : rw_opened rw = true -> rw_has_write rw = true -> encodable true t cts = true ->
  exec (conv me) (cv_ok (tg me (ctl_frame t (visible t cts)) ++ s) C_open) (write_control_frame rw (mk_control t cts)) =
  (cv_ok s C_open, Done (r_success, rw)).
Proof. intros E1 E2 E3. rewrite write_control_frame_eq. cbn [c_type c_cts]. rewrite E3. apply conv_write1; assumption. Qed.

Lemma conv_close me rw s : rw_opened rw = true -> rw_has_close rw = true ->
  exec (conv me) (cv_ok s C_open) (rdwr_close rw) = (cv_ok s C_gone, Done (r_success, set_opened rw false)).
Proof. intros E1 E2. unfold rdwr_close. rewrite E1, E2. reflexivity. Qed.

(** ** The writer's open *)
Lemma conv_send_start w ct s : wok true (w_cts w) w -> rw_opened (w_rdwr w) = true ->
  encodable true T_START (optl ct) = true ->
  exec (conv true) (cv_ok (tg true (start_frame ct) ++ s) C_open) (writer_send_start w ct) =
  (cv_ok s C_open, Done (r_success, set_wstart w (Some (start_ctl ct)))).
Proof.
  intros W EO EN. unfold writer_send_start. rewrite reset_or_init_eq. unfold control_set_type.
  change (type_known FSTRM_CONTROL_START) with true. cbv iota zeta.
  set (c' := match ct with Some b => _ | None => _ end).
  assert (Ec : c' = start_ctl ct) by (unfold c', start_ctl; destruct ct; reflexivity).
  clearbody c'. subst c'. rewrite exec_bind. unfold start_ctl. cbn [set_wstart w_rdwr].
  unfold start_frame. replace (optl ct) with (visible T_START (optl ct)) at 1 by (destruct ct; reflexivity).
  rewrite conv_wcf by (assumption || apply W). cbn [res_eqb negb exec]. reflexivity.
Qed.

Lemma conv_wopen W w A m ct s : wok true W w -> w_state w <> ws_opened -> fits true T_READY W -> ctl_ok T_ACCEPT A ->
  accept_match_loop (mk_control T_ACCEPT A) W true = (m, ct) -> encodable true T_START (optl ct) = true ->
  exists w', exec (conv true) (cv_ok (tg true (ready_frame W) ++ tg false (ctl_frame T_ACCEPT A) ++ (if m then tg true (start_frame ct) else []) ++ s) C_new)
       (writer_open w) = (cv_ok s C_open, Done (if m then r_success else r_failure, w')) /\
    rw_opened (w_rdwr w') = true /\ wok true W w' /\ (m = true -> w_state w' = ws_opened /\ w_start w' = Some (start_ctl ct)) /\ (m = false -> w_state w' = w_state w).
Proof.
  intros K ST F KA EM ES. unfold writer_open.
  assert (G : forall P : cv * out (res * writer) -> Prop,
     P (exec (conv true) (cv_ok (tg true (ready_frame W) ++ tg false (ctl_frame T_ACCEPT A) ++ (if m then tg true (start_frame ct) else []) ++ s) C_new)
       (bind (rdwr_open (w_rdwr w)) (fun z => match z with (x, rw) =>
      let w := set_wrdwr w rw in
      if negb (res_eqb x r_success) then Ret (x, w)
      else
        bind (if rw_has_read (w_rdwr w) then writer_open_bidirectional w
                     else writer_open_unidirectional w) (fun z => match z with (x, w) =>
        if negb (res_eqb x r_success) then Ret (x, w)
        else Ret (r_success, set_wstate w ws_opened) end) end))) -> P (exec (conv true) (cv_ok (tg true (ready_frame W) ++ tg false (ctl_frame T_ACCEPT A) ++ (if m then tg true (start_frame ct) else []) ++ s) C_new)
       (writer_open w))).
  { intros P H. unfold writer_open. destruct (w_state w); try exact H. congruence. }
  assert (GOAL : exists w', exec (conv true) (cv_ok (tg true (ready_frame W) ++ tg false (ctl_frame T_ACCEPT A) ++ (if m then tg true (start_frame ct) else []) ++ s) C_new)
       (writer_open w) = (cv_ok s C_open, Done (if m then r_success else r_failure, w')) /\
    rw_opened (w_rdwr w') = true /\ wok true W w' /\ (m = true -> w_state w' = ws_opened /\ w_start w' = Some (start_ctl ct)) /\ (m = false -> w_state w' = w_state w)); [|exact GOAL].
  apply (G (fun z => exists w', z = (cv_ok s C_open, Done (if m then r_success else r_failure, w')) /\
    rw_opened (w_rdwr w') = true /\ wok true W w' /\ (m = true -> w_state w' = ws_opened /\ w_start w' = Some (start_ctl ct)) /\ (m = false -> w_state w' = w_state w))). clear G.
  rewrite exec_bind. unfold rdwr_open. rewrite (ok_open _ _ _ K). cbn [negb ask_res bind exec conv res_eqb].
  cbv zeta. cbn [negb].
  set (w1 := set_wrdwr w (set_opened (w_rdwr w) true)).
  assert (K1 : wok true W w1) by (destruct K; split; assumption).
  rewrite (ok_read _ _ _ K1). rewrite exec_bind. unfold writer_open_bidirectional.
  rewrite reset_or_init_eq. unfold control_set_type. change (type_known FSTRM_CONTROL_READY) with true. cbv iota zeta.
  rewrite add_all_eq. cbn [c_type c_cts app]. rewrite (ok_cts _ _ _ K1). rewrite exec_bind. cbn [set_wready w_rdwr].
  unfold ready_frame. change (ctl_frame T_READY W) with (ctl_frame T_READY (visible T_READY W)).
  change (mk_control FSTRM_CONTROL_READY W) with (mk_control T_READY W).
  rewrite conv_wcf; [|reflexivity|apply K1|apply encodable_fits; exact F].
  cbn [res_eqb negb]. rewrite exec_bind.
  set (w2 := set_wrdwr (set_wready w1 (Some (mk_control T_READY W))) (w_rdwr w1)).
  assert (K2 : wok true W w2) by (destruct K1; split; assumption).
  assert (C2 : canread (w_rdwr w2)) by (repeat split; apply K2).
  change FSTRM_CONTROL_ACCEPT with T_ACCEPT.
  rewrite (conv_read_control true) by assumption.
  cbn [res_eqb negb]. set (w3 := set_waccept _ _).
  assert (K3 : wok true W w3) by (destruct K2; split; assumption).
  rewrite (ok_cts _ _ _ K3), EM. destruct m; cbn [negb].
  - rewrite conv_send_start; [|rewrite (ok_cts _ _ _ K3); exact K3|reflexivity|assumption].
    cbn [res_eqb negb exec]. eexists. split; [reflexivity|]. split; [reflexivity|]. split; [destruct K3; split; assumption|]. split; [split; reflexivity|discriminate].
  - cbn [exec res_eqb negb app]. exists w3. split; [reflexivity|]. split; [reflexivity|]. split; [exact K3|]. split; [discriminate|reflexivity].
Qed.

(** ** The reader's open *)
Lemma conv_ropen_acc r rdy s :
  r_state r <> rs_opened -> fresh_rdwr (r_rdwr r) -> rw_has_read (r_rdwr r) = true -> rw_has_write (r_rdwr r) = true ->
  ctl_ok T_READY rdy -> encodable true T_ACCEPT (accept_list (r_cts r) rdy) = true ->
  exists r2, same_ops (r_rdwr r) (r_rdwr r2) /\ canread (r_rdwr r2) /\ r_cts r2 = r_cts r /\ r_max r2 = r_max r /\ r_alloc r2 = r_alloc r /\ r_stop_c r2 = r_stop_c r /\
  exec (conv false) (cv_ok (tg true (ctl_frame T_READY rdy) ++ tg false (ctl_frame T_ACCEPT (accept_list (r_cts r) rdy)) ++ s) C_new) (reader_open r) =
  exec (conv false) (cv_ok s C_open) (bind (reader_open_unidirectional r2) (fun z => match z with (x, r) =>
        if negb (res_eqb x r_success) then Ret (x, r)
        else Ret (r_success, set_rstate r rs_opened) end)).
Proof.
  intros ST FR HR HW KR EN.
  set (S0 := cv_ok (tg true (ctl_frame T_READY rdy) ++ tg false (ctl_frame T_ACCEPT (accept_list (r_cts r) rdy)) ++ s) C_new).
  assert (G : exec (conv false) S0 (reader_open r) = exec (conv false) S0 (bind (rdwr_open (r_rdwr r)) (fun z => match z with (x, rw) =>
      let r := set_rrdwr r rw in
      if negb (res_eqb x r_success) then Ret (x, r)
      else bind (if rw_has_write (r_rdwr r) then reader_open_bidirectional r
                     else reader_open_unidirectional r) (fun z => match z with (x, r) =>
        if negb (res_eqb x r_success) then Ret (x, r)
        else Ret (r_success, set_rstate r rs_opened) end) end))).
  { unfold reader_open. destruct (r_state r); try reflexivity. congruence. }
  rewrite G. clear G. unfold S0. clear S0.
  rewrite exec_bind. unfold rdwr_open. rewrite (fr_open _ FR). cbn [negb ask_res bind exec conv res_eqb].
  cbv zeta. cbn [negb]. set (r1 := set_rrdwr r (set_opened (r_rdwr r) true)).
  change (rw_has_write (r_rdwr r1)) with (rw_has_write (r_rdwr r)). rewrite HW.
  assert (C1 : canread (r_rdwr r1)) by (repeat split; auto; apply FR).
  unfold reader_open_bidirectional. rewrite !exec_bind. change FSTRM_CONTROL_READY with T_READY.
  rewrite (conv_read_control false) by assumption. cbn [res_eqb negb]. cbv zeta.
  set (r2 := set_rready _ _).
  set (acc0 := match r_accept r2 with Some a => control_reset a | None => control_init end).
  assert (EA : control_set_type acc0 FSTRM_CONTROL_ACCEPT = (r_success, mk_control T_ACCEPT [])).
  { unfold acc0. destruct (r_accept r2); reflexivity. }
  rewrite EA. rewrite accept_loop_eq. cbn [c_type c_cts app]. change (r_cts r2) with (r_cts r).
  fold (accept_list (r_cts r) rdy). set (A := accept_list (r_cts r) rdy) in *.
  rewrite exec_bind. set (r3 := set_raccept r2 _).
  change (ctl_frame T_ACCEPT A) with (ctl_frame T_ACCEPT (visible T_ACCEPT A)).
  rewrite conv_wcf; [|reflexivity|exact HW|exact EN]. cbn [res_eqb negb].
  exists (set_rrdwr r3 (r_rdwr r3)).
  split; [exact (same_ops_set _ _)|]. split; [exact C1|]. do 4 (split; [reflexivity|]).
  rewrite exec_bind. reflexivity.
Qed.

Lemma conv_ropen r rdy st s :
  r_state r <> rs_opened -> fresh_rdwr (r_rdwr r) -> rw_has_read (r_rdwr r) = true -> rw_has_write (r_rdwr r) = true ->
  ctl_ok T_READY rdy -> encodable true T_ACCEPT (accept_list (r_cts r) rdy) = true -> ctl_ok T_START st ->
  exists r', exec (conv false) (cv_ok (tg true (ctl_frame T_READY rdy) ++ tg false (ctl_frame T_ACCEPT (accept_list (r_cts r) rdy)) ++
      tg true (ctl_frame T_START st) ++ s) C_new) (reader_open r) =
    (cv_ok s C_open, Done (open_result (r_cts r) st, r')) /\ opened_ok r st r' /\ (open_result (r_cts r) st = r_success -> r_state r' = rs_opened).
Proof.
  intros ST FR HR HW KR EN KS.
  destruct (conv_ropen_acc r rdy (tg true (ctl_frame T_START st) ++ s) ST FR HR HW KR EN) as (r2 & So & C2 & E1 & E2 & E3 & E4 & ->).
  rewrite exec_bind.
  destruct (src_open_uni true cv (conv false) (crep false s) (crep_read false s) (crep_close false s) (crep_read0 false s) (crep_iso false s) r2 st [] C2 KS) as (r' & H & O).
  rewrite app_nil_r in H. unfold crep at 1 in H. cbn [negb] in H. rewrite H. clear H. rewrite E1.
  destruct O as (O1 & O2 & O3 & O4 & O5 & O6 & O7). unfold open_result.
  destruct (start_match_loop _ _ _); cbn [res_eqb negb exec]; (eexists; split; [reflexivity|]).
  - split; [|reflexivity]. split; [exact O1|]. split; [exact O2|]. split; [eapply same_ops_trans; eassumption|]. cbn. repeat split; congruence.
  - split; [|discriminate]. split; [exact O1|]. split; [exact O2|]. split; [eapply same_ops_trans; eassumption|]. repeat split; congruence.
Qed.

Lemma conv_ropen_waits r rdy :
  r_state r <> rs_opened -> fresh_rdwr (r_rdwr r) -> rw_has_read (r_rdwr r) = true -> rw_has_write (r_rdwr r) = true ->
  ctl_ok T_READY rdy -> encodable true T_ACCEPT (accept_list (r_cts r) rdy) = true ->
  exists o, exec (conv false) (cv_ok (tg true (ctl_frame T_READY rdy) ++ tg false (ctl_frame T_ACCEPT (accept_list (r_cts r) rdy))) C_new) (reader_open r) =
    (cv_wait, o).
Proof.
  intros ST FR HR HW KR EN.
  destruct (conv_ropen_acc r rdy [] ST FR HR HW KR EN) as (r2 & So & C2 & E1 & E2 & E3 & E4 & E).
  rewrite app_nil_r in E. rewrite E. clear E.
  unfold reader_open_unidirectional, read_control, read_control_frame, rdwr_read.
  destruct C2 as (-> & -> & _). unfold ask_read. cbn [negb bind exec conv].
  change (take true (N.to_nat 4) []) with (@None (bytes * script)). cbn iota.
  match goal with |- exists o, exec (conv false) cv_wait ?p = _ =>
    pose proof (conv_stays false p cv_wait (or_introl eq_refl)) as K; destruct (exec (conv false) cv_wait p) as [c o] end.
  cbn in K. subst c. eauto.
Qed.

(** ** Deciding the outcome *)
Lemma res_eqb_true_iff r s : res_eqb r s = true <-> r = s.
Proof. split; [apply res_eqb_true|intros ->; apply res_eqb_refl]. Qed.
Lemma ready_accepts_spec W c : ctl_ok T_READY W -> (ready_accepts (mk_control T_READY W) c = true <-> W = [] \/ In c W).
Proof.
  intro K. unfold ready_accepts. rewrite res_eqb_true_iff.
  destruct (control_match_spec (mk_control T_READY W) (Some c)) as [_ H]. cbn [c_type c_cts] in H.
  rewrite (visible_of_ok _ _ K) in H. rewrite H. split.
  - intros (_ & _ & [->|(s & [= <-] & I)]); auto.
  - intros [->|I]; (split; [discriminate|]; split; [discriminate|]); eauto.
Qed.

Lemma accept_in W R c : ctl_ok T_READY W -> (In c (accept_list R W) <-> In c R /\ (W = [] \/ In c W)).
Proof. intro K. unfold accept_list. rewrite filter_In, ready_accepts_spec by assumption. reflexivity. Qed.

Lemma accept_match_first A w0 W : ctl_ok T_ACCEPT A ->
  (A = [] \/ In w0 A -> accept_match_loop (mk_control T_ACCEPT A) (w0 :: W) true = (true, Some w0)) /\
  (A <> [] /\ ~ In w0 A -> exists ct, accept_match_loop (mk_control T_ACCEPT A) (w0 :: W) true = (false, ct) /\ forall c, ct = Some c -> In c W).
Proof.
  intro K. destruct (control_match_spec (mk_control T_ACCEPT A) (Some w0)) as [H2 H]. cbn [c_type c_cts] in H, H2.
  rewrite (visible_of_ok _ _ K) in H. split.
  - intro I. cbn [accept_match_loop]. assert (E : control_match (mk_control T_ACCEPT A) (Some w0) = r_success).
    { apply H. split; [discriminate|]. split; [discriminate|]. destruct I as [->|I]; eauto. }
    rewrite E. reflexivity.
  - intros [N1 N2]. cbn [accept_match_loop]. destruct (res_eqb (control_match (mk_control T_ACCEPT A) (Some w0)) r_success) eqn:E.
    + apply res_eqb_true in E. apply H in E. destruct E as (_ & _ & [E|(s & [= <-] & E)]); contradiction.
    + assert (L : forall cts, exists ct, accept_match_loop (mk_control T_ACCEPT A) cts false = (false, ct) /\ forall c, ct = Some c -> In c cts).
      { induction cts as [|c cts IH]; cbn [accept_match_loop]; [eexists; split; [reflexivity|discriminate]|].
        destruct (res_eqb (control_match (mk_control T_ACCEPT A) (Some c)) r_success); [eexists; split; [reflexivity|]; intros ? [= <-]; left; reflexivity|].
        destruct IH as (ct & E1 & E2). exists ct. split; [assumption|]. right. auto. }
      apply L.
Qed.

Lemma accept_loop_outcome W R h : ctl_ok T_READY W -> ctl_ok T_ACCEPT (accept_list R W) -> handshake_outcome W R h ->
  exists ct, accept_match_loop (mk_control T_ACCEPT (accept_list R W)) W true =
    (match h with H_writer_refuses => false | _ => true end, ct) /\ (h <> H_writer_refuses -> ct = hd_error W) /\ (forall c, ct = Some c -> In c W).
Proof.
  intros KR KA HO. destruct W as [|w0 W].
  { exists None. destruct h; cbn; try (split; [reflexivity|]; split; [reflexivity|discriminate]).
    destruct HO as [(c & [] & _) _]. }
  destruct (accept_match_first (accept_list R (w0 :: W)) w0 W KA) as [M1 M2].
  pose proof (fun c => accept_in (w0 :: W) R c KR) as AI.
  assert (AN : accept_list R (w0 :: W) = [] \/ exists c, In c (accept_list R (w0 :: W))).
  { destruct (accept_list R (w0 :: W)) as [|c l]; [auto|right; exists c; left; reflexivity]. }
  destruct h; cbn in HO.
  - exists (Some w0). rewrite M1; [split; [reflexivity|]; split; [reflexivity|]; intros ? [= <-]; left; reflexivity|].
    destruct HO as [?|[->|(w1 & [= <-] & I)]]; [discriminate|left; reflexivity|]. right. apply AI. split; [assumption|]. right. left. reflexivity.
  - exists (Some w0). rewrite M1; [split; [reflexivity|]; split; [reflexivity|]; intros ? [= <-]; left; reflexivity|].
    destruct AN as [?|(c & I)]; [auto|]. exfalso. apply AI in I. destruct I as [I [J|J]]; [discriminate|]. apply (proj2 (proj2 HO)). exists c. auto.
  - destruct HO as [(c & I & J) N]. destruct M2 as (ct & -> & L).
    + split.
      * intro E. assert (Q : In c (accept_list R (w0 :: W))) by (apply AI; auto). rewrite E in Q. destruct Q.
      * intro Q. apply AI in Q. apply (N w0); [reflexivity|apply Q].
    + exists ct. split; [reflexivity|]. split; [congruence|]. intros c0 E. right. auto.
Qed.

Lemma fits_ctl_ok t cts : fits true t cts -> known_type t -> t <> T_START -> t <> T_STOP -> t <> T_FINISH -> ctl_ok t cts.
Proof.
  intros [F L] K N1 N2 N3. split; auto; try contradiction.
  - unfold ctl_wire, ctl_frame in L. unfold lenN in *. rewrite !app_length in L. lia.
  - intros [?|?]; contradiction.
Qed.

Lemma encodable_accept_ok A : encodable true T_ACCEPT A = true -> ctl_ok T_ACCEPT A.
Proof.
  intro E. apply encodable_fits in E. apply fits_ctl_ok; try discriminate; [exact E|]. left. reflexivity.
Qed.

Lemma start_one_ok ct : (forall c, ct = Some c -> lenN c <= CT_MAX) -> encodable true T_START (optl ct) = true /\ ctl_ok T_START (optl ct).
Proof.
  intro H. assert (E : encodable true T_START (optl (hd_error (optl ct))) = true).
  { apply start_encodable. destruct ct; cbn; repeat constructor. apply H. reflexivity. }
  replace (optl (hd_error (optl ct))) with (optl ct) in E by (destruct ct; reflexivity).
  split; [exact E|]. apply encodable_fits in E. replace (visible T_START (optl ct)) with (optl ct) in E by (destruct ct; reflexivity).
  destruct E as [F L]. split; auto; try discriminate.
  - right. left. reflexivity.
  - unfold ctl_wire, ctl_frame in L. unfold lenN in *. rewrite !app_length in L. lia.
  - intros _. destruct ct; cbn; lia.
  - intros [?|?]; discriminate.
Qed.

Lemma open_result_outcome W R h : ctl_ok T_START (optl (hd_error W)) -> handshake_outcome W R h -> h <> H_writer_refuses ->
  open_result R (optl (hd_error W)) = match h with H_agree => r_success | _ => r_failure end.
Proof.
  intros K HO N. unfold open_result. pose proof (start_loop_accepted (optl (hd_error W)) R K) as S.
  destruct h; [| |congruence]; cbn in HO.
  - rewrite (proj2 S); [reflexivity|]. unfold start_accepted. destruct W as [|w0 W]; [auto|]. cbn.
    destruct HO as [?|[->|(w1 & [= <-] & I)]]; [discriminate|auto|]. right. right. eauto.
  - destruct (start_match_loop _ _ _); [|reflexivity]. exfalso. destruct HO as (N1 & N2 & N3).
    destruct (proj1 S eq_refl) as [?|[E|(c & I & E)]]; [contradiction|destruct W; [contradiction|discriminate]|].
    destruct W as [|w0 W]; [contradiction|]. injection E as <-. apply N3. exists w0. split; [left; reflexivity|assumption].
Qed.

(** ** Data *)
Lemma conv_write_iov w ps s : wready w -> (2 * length ps <= 256)%nat ->
  exec (conv true) (cv_ok (tg true (datas ps) ++ s) C_open) (write_iov w ps) = (cv_ok s C_open, Done (r_success, w)).
Proof.
  intros (E1 & E2 & E3 & E4) L. unfold write_iov.
  destruct (FSTRM__WRITER_IOVEC_SIZE <? 2 * length ps)%nat eqn:E; [unfold FSTRM__WRITER_IOVEC_SIZE in E; lia|].
  rewrite exec_bind, (conv_write true _ _ _ (datas ps)); auto; [|apply frame_iovecs_datas]. cbn [exec].
  rewrite set_wrdwr_same. reflexivity.
Qed.

Lemma conv_stupid chunk w : wready w -> (0 < chunk)%nat -> (2 * chunk <= 256)%nat ->
  forall fuel ps s, (length ps <= fuel)%nat ->
  exec (conv true) (cv_ok (tg true (datas ps) ++ s) C_open) (write_iov_stupid_loop fuel chunk w ps) = (cv_ok s C_open, Done (r_success, w)).
Proof.
  intros W C0 C1. induction fuel as [|fuel IH]; intros ps s Hf.
  { destruct ps; [|cbn in Hf; lia]. reflexivity. }
  destruct ps as [|p ps0] eqn:Eps; [reflexivity|].
  rewrite <- Eps in *.
  assert (EqL : write_iov_stupid_loop (S fuel) chunk w ps =
     bind (write_iov w (firstn chunk ps)) (fun z => match z with (x, w) =>
          if negb (res_eqb x r_success) then Ret (x, w)
          else write_iov_stupid_loop fuel chunk w (skipn chunk ps) end)) by (subst ps; reflexivity).
  rewrite EqL. clear EqL. rewrite <- (firstn_skipn chunk ps) at 1. rewrite datas_app, tg_app, <- app_assoc.
  rewrite exec_bind, conv_write_iov; [|assumption|rewrite firstn_length; lia].
  cbn [res_eqb negb]. apply IH.
  rewrite skipn_length. subst ps. cbn [length] in *. lia.
Qed.

Lemma conv_writev w ps s : wready w -> lenN ps < 2 ^ 30 ->
  exec (conv true) (cv_ok (tg true (datas ps) ++ s) C_open) (writer_writev w ps) = (cv_ok s C_open, Done (r_success, w)).
Proof.
  intros W Hl. unfold writer_writev. destruct ps as [|p ps0] eqn:Eps; [reflexivity|].
  rewrite <- Eps in *. clear Eps p ps0. unfold writer_maybe_open. destruct W as (E1 & W'). rewrite E1.
  cbn [bind res_eqb negb]. rewrite E1.
  destruct (2 ^ 31 <=? 2 * lenN ps) eqn:EO; [lia|].
  assert (W : wready w) by (split; assumption).
  destruct (2 * length ps <=? FSTRM__WRITER_IOVEC_SIZE)%nat eqn:EL.
  - apply conv_write_iov; auto. unfold FSTRM__WRITER_IOVEC_SIZE in EL. lia.
  - unfold write_iov_stupid, FSTRM__WRITER_IOVEC_SIZE. change (256 / 2)%nat with 128%nat.
    destruct W' as (_ & _ & P).
    destruct (Nat.min 128 (w_iov_max w) =? 0)%nat eqn:E0; [lia|].
    apply conv_stupid; auto; lia.
Qed.

Lemma conv_wcall w c s : wready w -> wcall_ok c -> c <> WClose ->
  exec (conv true) (cv_ok (tg true (datas (wpayloads c)) ++ s) C_open) (do_wcall w c) = (cv_ok s C_open, Done (wresult c, w)).
Proof.
  intros W K N. destruct c; cbn [do_wcall wpayloads wresult]; try congruence.
  - unfold writer_open. rewrite (proj1 W). reflexivity.
  - unfold writer_write. apply conv_writev; assumption.
  - apply conv_writev; assumption.
  - unfold writer_get_control, writer_maybe_open. rewrite (proj1 W). cbn [bind res_eqb negb].
    change (tg true (datas []) ++ s) with s.
    unfold FSTRM_CONTROL_ACCEPT, FSTRM_CONTROL_FINISH, FSTRM_CONTROL_READY, FSTRM_CONTROL_START.
    destruct (t =? 1), (t =? 2), (t =? 4), (t =? 5); reflexivity.
Qed.

Lemma conv_wcalls w cs : wready w -> Forall wcall_ok cs -> Forall (fun c => c <> WClose) cs -> forall s,
  exec (conv true) (cv_ok (tg true (datas (concat (map wpayloads cs))) ++ s) C_open) (do_wcalls w cs) = (cv_ok s C_open, Done (map wresult cs, w)).
Proof.
  intros W K N. induction cs as [|c cs IH]; intro s; [reflexivity|].
  inversion_clear K. inversion_clear N. cbn [do_wcalls map concat]. rewrite datas_app, tg_app, <- app_assoc.
  rewrite exec_bind, conv_wcall by assumption. rewrite exec_bind, IH by assumption. reflexivity.
Qed.

(** A call on a fresh writer opens it. *)
Lemma opening_call {S} (hd : S -> query -> S * ans) s s1 w w1 c : w_state w = ws_opening -> opens_writer c ->
  exec hd s (writer_open w) = (s1, Done (r_success, w1)) -> w_state w1 = ws_opened ->
  exec hd s (do_wcall w c) = exec hd s1 (do_wcall w1 c).
Proof.
  intros E O H E1.
  assert (M : exec hd s (writer_maybe_open w) = (s1, Done (r_success, w1))).
  { unfold writer_maybe_open. rewrite E, exec_bind, H. reflexivity. }
  assert (M1 : writer_maybe_open w1 = Ret (r_success, w1)) by (unfold writer_maybe_open; rewrite E1; reflexivity).
  assert (V : forall ps, ps <> [] -> exec hd s (writer_writev w ps) = exec hd s1 (writer_writev w1 ps)).
  { intros ps NE. unfold writer_writev. destruct ps; [congruence|]. rewrite exec_bind, M, M1. reflexivity. }
  destruct c; cbn [do_wcall].
  - rewrite H. unfold writer_open. rewrite E1. reflexivity.
  - apply V. discriminate.
  - apply V. exact O.
  - destruct O.
  - unfold writer_get_control. rewrite exec_bind, exec_bind, M, M1. cbn [bind res_eqb negb]. rewrite exec_bind. reflexivity.
Qed.

Lemma opening_calls {S} (hd : S -> query -> S * ans) s s1 w w1 cs : w_state w = ws_opening ->
  Forall (fun c => c <> WClose) cs -> Exists opens_writer cs ->
  exec hd s (writer_open w) = (s1, Done (r_success, w1)) -> w_state w1 = ws_opened ->
  exec hd s (do_wcalls w cs) = exec hd s1 (do_wcalls w1 cs).
Proof.
  intros E F X H E1. induction cs as [|c cs IH]; [inversion X|]. inversion_clear F as [|? ? N F'].
  assert (D : opens_writer c \/ (c = WWritev [])).
  { destruct c as [| |ps| |]; cbn; auto. destruct ps; [auto|left; discriminate]. }
  cbn [do_wcalls]. rewrite !exec_bind. destruct D as [D|D].
  - rewrite (opening_call hd s s1 w w1 c) by assumption. reflexivity.
  - subst c. cbn [do_wcall writer_writev exec]. rewrite !exec_bind, IH; [reflexivity|assumption|].
    inversion_clear X as [? ? Q|? ? Q]; [|assumption]. exfalso. apply Q. reflexivity.
Qed.

Lemma conv_wdestroy w s : wready w -> wok true (w_cts w) w ->
  exec (conv true) (cv_ok (tg true stop_frame ++ tg false finish_frame ++ s) C_open) (writer_destroy w) =
  (cv_ok s C_gone, Done r_success).
Proof.
  intros (E1 & E2 & E3 & E4) K. unfold writer_destroy, writer_close. rewrite E1. rewrite !exec_bind, write_stop_eq. cbn [set_wstate w_rdwr].
  rewrite conv_write1 by assumption. cbn [res_eqb negb]. rewrite (ok_read _ _ _ K). rewrite exec_bind.
  change FSTRM_CONTROL_FINISH with T_FINISH. unfold finish_frame. rewrite (conv_read_control true).
  - cbn [res_eqb negb]. rewrite exec_bind, conv_close; [|assumption|apply K]. cbn [exec set_wrdwr set_wfinish w_rdwr].
    rewrite exec_bind. unfold rdwr_destroy. cbn [set_opened rw_has_destroy]. rewrite (ok_destroy _ _ _ K). reflexivity.
  - repeat split; auto; apply K.
  - split; [repeat (left; reflexivity) || (unfold known_type; tauto)|constructor|vm_compute; discriminate|discriminate|reflexivity].
Qed.

Lemma write_finish_eq rw : write_control rw FSTRM_CONTROL_FINISH None = rdwr_write rw [finish_frame].
Proof. rewrite write_control_eq by reflexivity. reflexivity. Qed.

Lemma conv_rdestroy r s : r_state r = rs_closing -> rw_opened (r_rdwr r) = true -> rw_has_write (r_rdwr r) = true ->
  rw_has_close (r_rdwr r) = true -> rw_has_destroy (r_rdwr r) = true ->
  exec (conv false) (cv_ok (tg false finish_frame ++ s) C_open) (reader_destroy r) = (cv_ok s C_gone, Done r_success).
Proof.
  intros E1 E2 E3 E4 E5. unfold reader_destroy, reader_close. rewrite E1. cbn [set_rstate r_rdwr]. rewrite E3.
  rewrite !exec_bind, write_finish_eq, conv_write1 by assumption. cbn [res_eqb negb]. rewrite exec_bind, conv_close by assumption.
  cbn [exec]. rewrite exec_bind. unfold rdwr_destroy. cbn [set_rrdwr r_rdwr set_opened rw_has_destroy]. rewrite E5. reflexivity.
Qed.

(** A read on a fresh reader opens it. *)
Lemma opening_read {S} (hd : S -> query -> S * ans) s s1 r r1 fuel n : r_state r = rs_opening ->
  exec hd s (reader_open r) = (s1, Done (r_success, r1)) -> r_state r1 = rs_opened ->
  exec hd s (do_rcalls fuel r (repeat RRead (Datatypes.S n))) = exec hd s1 (do_rcalls fuel r1 (repeat RRead (Datatypes.S n))).
Proof.
  intros E H E1. cbn [repeat do_rcalls do_rcall]. rewrite !exec_bind. unfold reader_read. rewrite !exec_bind.
  assert (M : exec hd s (reader_maybe_open r) = (s1, Done (r_success, r1))).
  { unfold reader_maybe_open. rewrite E, exec_bind, H. reflexivity. }
  assert (M1 : reader_maybe_open r1 = Ret (r_success, r1)) by (unfold reader_maybe_open; rewrite E1; reflexivity).
  rewrite M, M1. reflexivity.
Qed.

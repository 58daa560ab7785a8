(** fstrm_dump and fstrm_replay: the conclusions. *)
From Verif Require Import Bytes Spec Bytes_proofs Io Io_proofs SpecTrace SpecStream
  Control Control_proofs Rdwr Rdwr_proofs Reader Writer Api SpecApi SpecReader SpecFile File
  Misc Tools SpecTools Writer_proofs Writer2_proofs Reader_source_proofs Reader_proofs Reader3_proofs File_proofs
  Tools_proofs Tools2_proofs Tools3_proofs Tools4_proofs.
Local Open Scope N_scope.

Lemma parse_payloads max inp ds e rest : parse max inp ds e rest -> Forall (fun p => data_ok p /\ lenN p <= max) ds.
Proof. induction 1; try constructor; auto. Qed.

Lemma start_hd st : ctl_ok T_START st -> optl (hd_error st) = st.
Proof. intros [_ _ _ L _]. specialize (L eq_refl). destruct st as [|c [|]]; cbn in *; try reflexivity. lia. Qed.

Lemma whole_file d st ds e : stream_file d st ds e -> stream_file (whole (hd_error st) ds) st ds E_stop.
Proof.
  intros (K & inp & rest & _ & P). split; [exact K|]. exists (datas ds ++ stop_frame), []. split.
  - unfold whole, start_frame. rewrite start_hd by exact K. reflexivity.
  - apply parse_stop. exact (parse_payloads _ _ _ _ _ P).
Qed.

Section Dump.
Variables (fuel iovm : nat) (d : bytes) (st ds : list bytes) (e : ending).
Hypotheses (SF : stream_file d st ds e) (HF : (length d <= fuel)%nat) (HI : (0 < iovm)%nat).
Let P := on_files 0 [input d] (dump_main fuel iovm true).

Lemma dump_writer : exists w, writer_init iovm st (file_writer_rdwr 1) = Some w.
Proof. eexists. reflexivity. Qed.

Lemma st_small : Forall (fun ct => lenN ct <= CT_MAX) st.
Proof. destruct SF as [K _]. exact (ok_len _ _ K). Qed.


Lemma st_whole : whole (hd_error st) ds = ctl_frame T_START st ++ datas ds ++ stop_frame.
Proof. unfold whole, start_frame. rewrite start_hd; [reflexivity|]. apply SF. Qed.

Lemma ds_nonempty : Forall (fun p => lenN p <> 0) ds.
Proof.
  destruct SF as (_ & inp & rest & _ & PP). apply parse_payloads in PP. eapply Forall_impl; [|exact PP]. intros p [[H _] _]. lia.
Qed.

Lemma dump_sim' w : e <> E_oversize -> writer_init iovm st (file_writer_rdwr 1) = Some w -> sim (dump_rel d ds e) P (copy w ds).
Proof.
  intros NO Hw. pose proof (dump_sim d st ds e fuel iovm w SF HF Hw) as S.
  assert (oversize e = false) as OV by (destruct e; congruence || reflexivity). rewrite OV in S.
  exact (sim_r _ _ _ _ (copy_ub_false w ds) S).
Qed.

Lemma dump_file d0 : e <> E_oversize ->
  exists f, exec file_ops (mk_cfile true d0 None) P =
    (mk_cfile true (ctl_frame T_START st ++ datas ds ++ stop_frame) None, Done ([f], (dump_status e, printed ds))) /\ f_data f = d.
Proof.
  intro NO. destruct dump_writer as [w Hw]. pose proof (dump_sim' w NO Hw) as S2.
  pose proof (copy_file iovm st (file_writer_rdwr 1) w ltac:(split; reflexivity) eq_refl HI st_small Hw ds d0 ds_nonempty) as E.
  rewrite <- st_whole.
  destruct (sim_exec _ file_ops _ _ S2 (mk_cfile true d0 None)) as [X1 X2]. rewrite E in X1, X2. cbn [fst snd] in X1, X2.
  destruct (exec file_ops (mk_cfile true d0 None) P) as [s o]. cbn [fst snd] in X1, X2. subst s. destruct o as [[fs y]| |]; try contradiction.
  destruct X2 as [Y1 Y2]. cbn [fst snd] in Y1, Y2. destruct fs as [|f [|]]; try discriminate Y1. injection Y1 as Y1. exists f. split; [|exact Y1].
  subst y. rewrite firstn_all. reflexivity.
Qed.

(** A frame too large to be read. *)
Lemma dump_over d0 : e = E_oversize ->
  snd (exec file_ops (mk_cfile true d0 None) P) = Stuck (FUb ub_uninit).
Proof.
  intro EO. destruct dump_writer as [w Hw]. pose proof (dump_sim d st ds e fuel iovm w SF HF Hw) as S. fold P in S.
  pose proof (copy_file iovm st (file_writer_rdwr 1) w ltac:(split; reflexivity) eq_refl HI st_small Hw ds d0 ds_nonempty) as E.
  destruct (sim_exec _ file_ops _ _ S (mk_cfile true d0 None)) as [_ X2]. rewrite EO in X2. cbn [oversize] in X2.
  assert (K : snd (exec file_ops (mk_cfile true d0 None) (copy_ub true w ds)) = Stuck (FUb ub_uninit)).
  { unfold copy in E. unfold copy_ub. rewrite exec_bind in *.
    destruct (exec file_ops (mk_cfile true d0 None) (writer_open w)) as [s1 [[x w1]| |]]; try discriminate E.
    destruct (negb (res_eqb x r_success)).
    - rewrite exec_bind in E. destruct (exec file_ops s1 (writer_destroy w1)) as [s2 [y| |]]; discriminate E.
    - rewrite exec_bind in *. destruct (exec file_ops s1 (write_each w1 ds)) as [s2 [[[n ok] w2]| |]]; try discriminate E.
      rewrite exec_bind in E. destruct (exec file_ops s2 (writer_close w2)) as [s3 [[y w3]| |]]; try discriminate E.
      rewrite exec_bind in E. destruct (exec file_ops s3 (writer_destroy w3)) as [s4 [z| |]]; try discriminate E.
      cbn in E. injection E as _ _ E. destruct ok; [|discriminate E]. reflexivity. }
  rewrite K in X2. destruct (snd (exec file_ops (mk_cfile true d0 None) P)); try contradiction. rewrite X2. reflexivity.
Qed.

(** Any output, any failure or crash. *)
Lemma dump_any tr o ss : e <> E_oversize -> runs P tr o -> emits tr ss ->
  (ss = [] \/ exists s, ss = [s] /\ prefix s (ctl_frame T_START st ++ datas ds ++ stop_frame)) /\
  match o with
  | Done (fs, (ok, out)) => map f_data fs = [d] /\ (exists n, out = printed (firstn n ds)) /\
      (ok = true -> dump_status e = true /\ out = printed ds /\ delivered tr = [ctl_frame T_START st ++ datas ds ++ stop_frame])
  | Stuck _ => False
  | Cut => True
  end.
Proof.
  intros NO R E. destruct dump_writer as [w Hw]. pose proof (dump_sim' w NO Hw) as S2.
  destruct (sim_runs _ _ _ S2 _ _ R) as (o' & R' & M).
  destruct (copy_prefix iovm st (file_writer_rdwr 1) w ltac:(split; reflexivity) eq_refl HI st_small Hw ds tr o' ss R' E) as [C1 C2].
  rewrite st_whole in C1. split; [exact C1|].
  destruct o as [[fs [ok out]]|f|], o' as [[n b]|f'|]; try contradiction; auto.
  - destruct M as [M1 M2]. cbn [fst snd] in M1, M2. injection M2 as -> ->. split; [exact M1|]. split; [eauto|].
    intro H. apply andb_true_iff in H. destruct H as [-> H].
    destruct (copy_delivers iovm st (file_writer_rdwr 1) w ltac:(split; reflexivity) eq_refl HI st_small Hw ds tr n R') as [-> D].
    rewrite firstn_all, st_whole in *. auto.
  - exact (C2 f' eq_refl).
Qed.
End Dump.

Lemma some_emits tr : exists ss, emits tr ss.
Proof.
  induction tr as [|ev tr [ss IH]] using rev_ind; [eexists; constructor|].
    destruct ev as [q a]. destruct q; try (eexists; apply em_other; [exact IH|congruence]).
    destruct a as [[]| | | | |]; try (eexists; apply em_other; [exact IH|congruence]);
      (eexists; eapply em_fail with (b := []); [exact IH|discriminate|exists (concat iov); reflexivity]).
Qed.

(** Success implies a stream. *)
Lemma dump_success fuel iovm d tr fs out :
  (length d <= fuel)%nat -> (0 < iovm)%nat -> runs (on_files 0 [input d] (dump_main fuel iovm true)) tr (Done (fs, (true, out))) ->
  exists st ds e, stream_file d st ds e /\ (e = E_stop \/ e = E_eof) /\
    out = printed ds /\ delivered tr = [ctl_frame T_START st ++ datas ds ++ stop_frame].
Proof.
  intros HF HI R. destruct (classify d) as [NS|(st & ds & e & SF)].
  { destruct (sim_runs _ _ _ (dump_bad d fuel iovm true NS) _ _ R) as (o' & R' & M). destruct o'; try contradiction. destruct M as [_ M]. discriminate M. }
  exists st, ds, e. split; [exact SF|].
  assert (NO : e <> E_oversize).
  { intros ->. pose proof (dump_sim d st ds E_oversize fuel iovm _ SF HF eq_refl) as S.
    destruct (sim_runs _ _ _ S _ _ R) as (o' & _ & M). destruct o' as [[n b]| |]; try contradiction. destruct M as [_ M]. cbn in M.
    rewrite andb_false_r in M. discriminate M. }
  destruct (some_emits tr) as [ss E].
  destruct (dump_any fuel iovm d st ds e SF HF HI tr _ ss NO R E) as [_ (_ & _ & K)]. destruct (K eq_refl) as (K1 & K2 & K3).
  split; [destruct e; try discriminate K1; auto|]. auto.
Qed.

(** ** Replay to a reader at the other end of a connection *)
From Verif Require Import Net Net_proofs SpecNet Net2_proofs Net3_proofs Net4_proofs.

Lemma conv_wclose w s : wready w -> wok true (w_cts w) w ->
  exists w', exec (conv true) (cv_ok (tg true stop_frame ++ tg false finish_frame ++ s) C_open) (writer_close w) =
  (cv_ok s C_gone, Done (r_success, w')) /\ w_state w' = ws_closed /\ rw_has_destroy (w_rdwr w') = true.
Proof.
  intros (E1 & E2 & E3 & E4) K. unfold writer_close. rewrite E1. rewrite !exec_bind, write_stop_eq. cbn [set_wstate w_rdwr].
  rewrite conv_write1 by assumption. cbn [res_eqb negb]. rewrite (ok_read _ _ _ K). rewrite exec_bind.
  change FSTRM_CONTROL_FINISH with T_FINISH. unfold finish_frame. rewrite (conv_read_control true).
  - cbn [res_eqb negb]. rewrite exec_bind, conv_close; [|assumption|apply K]. cbn [exec set_wrdwr set_wfinish w_rdwr].
    eexists. split; [reflexivity|]. split; [reflexivity|]. exact (ok_destroy _ _ _ K).
  - repeat split; auto; apply K.
  - split; [repeat (left; reflexivity) || (unfold known_type; tauto)|constructor|vm_compute; discriminate|discriminate|reflexivity].
Qed.

Lemma conv_each w ds : wready w -> forall s,
  exec (conv true) (cv_ok (tg true (datas ds) ++ s) C_open) (write_each w ds) = (cv_ok s C_open, Done (length ds, true, w)).
Proof.
  intro W. induction ds as [|d ds IH]; intro s; [reflexivity|].
  cbn [write_each]. change (d :: ds) with ([d] ++ ds) at 1. rewrite datas_app, tg_app, <- app_assoc. rewrite exec_bind.
  change (writer_write w d) with (do_wcall w (WWrite d)). rewrite (conv_wcall w (WWrite d)); [|assumption|reflexivity|discriminate].
  cbn [res_eqb negb wresult wpayloads]. cbn [length Nat.eqb]. rewrite exec_bind, IH. reflexivity.
Qed.

Section Replay.
Variables (iovm : nat) (W : list bytes) (rww : rdwr) (w : writer) (o : reader_options) (rwr : rdwr) (r : reader).
Hypothesis PO : pair_ok iovm W rww w o rwr r.

Lemma hasty_side ds : handshake_outcome W (ro_cts o) H_agree ->
  exec (conv true) (cv_ok (dialogue W o ds) C_new) (hasty_copy w ds) = (cv_ok [] C_gone, Done true).
Proof.
  intro HO.
  destruct (both_open _ _ _ _ _ _ _ PO H_agree (tg true (datas ds) ++ tg true stop_frame ++ tg false finish_frame) HO ltac:(discriminate)) as (w' & r' & EW & O & KW & S1 & S2 & ER & OR & SR).
  assert (WR : wready w') by (split; [exact S1|split; [exact O|split; [apply KW|apply KW]]]).
  unfold dialogue, hasty_copy. rewrite exec_bind, EW. cbn [res_eqb negb]. rewrite exec_bind, conv_each by exact WR. cbn [negb].
  destruct (conv_wclose w' [] WR) as (w2 & E & S3 & S4); [rewrite (ok_cts _ _ _ KW); exact KW|]. rewrite app_nil_r in E.
  rewrite exec_bind, E, exec_bind. unfold writer_destroy. rewrite S3. cbn [bind]. rewrite exec_bind. unfold rdwr_destroy. rewrite S4. reflexivity.
Qed.
End Replay.

Lemma nil_run {A} (p : io A) : exists o, runs p [] o.
Proof. destruct p; eexists; constructor. Qed.

(** A hasty copy does nothing a copy would not do, and stops early at most. *)
Lemma hasty_runs w ds tr o : runs (hasty_copy w ds) tr o ->
  (exists o', runs (copy w ds) tr o' /\ forall f, o = Stuck f -> o' = Stuck f) /\
  (o = Done true -> exists xs x y, runs (writer_life w (copy_calls ds)) tr (Done (xs ++ [y], x)) /\ Forall (eq r_success) xs /\ length xs = S (length ds)).
Proof.
  intro R. unfold hasty_copy in R. unfold copy.
  apply runs_bind_i in R. destruct R as [([x w1] & t1 & t2 & R1 & R2 & ->)|[[R1 ->]|(f & R1 & ->)]].
  2:{ split; [|discriminate]. exists Cut. split; [apply runs_bind_c; exact R1|discriminate]. }
  2:{ split; [|discriminate]. exists (Stuck f). split; [apply runs_bind_s; exact R1|intros f0 E0; injection E0 as ->; reflexivity]. }
  destruct (res_eqb x r_success) eqn:EX; cbn [negb] in R2.
  2:{ apply runs_bind_i in R2. destruct R2 as [(y & t3 & t4 & R3 & R4 & ->)|[[R3 ->]|(f & R3 & ->)]].
      - inversion R4; subst. split; [|discriminate]. eexists. split; [eapply runs_bind_d; [exact R1|]; cbn beta iota; rewrite EX; cbn [negb]; eapply runs_bind_d; [exact R3|constructor]|discriminate].
      - split; [|discriminate]. exists Cut. split; [eapply runs_bind_d; [exact R1|]; cbn beta iota; rewrite EX; cbn [negb]; apply runs_bind_c; exact R3|discriminate].
      - split; [|discriminate]. exists (Stuck f). split; [eapply runs_bind_d; [exact R1|]; cbn beta iota; rewrite EX; cbn [negb]; apply runs_bind_s; exact R3|intros f0 E0; injection E0 as ->; reflexivity]. }
  pose proof EX as EX'. apply res_eqb_true in EX'. subst x.
  apply runs_bind_i in R2. destruct R2 as [([[n ok] w2] & t3 & t4 & R3 & R4 & ->)|[[R3 ->]|(f & R3 & ->)]].
  2:{ split; [|discriminate]. exists Cut. split; [eapply runs_bind_d; [exact R1|]; cbn [negb res_eqb]; apply runs_bind_c; exact R3|discriminate]. }
  2:{ split; [|discriminate]. exists (Stuck f). split; [eapply runs_bind_d; [exact R1|]; cbn [negb res_eqb]; apply runs_bind_s; exact R3|intros f0 E0; injection E0 as ->; reflexivity]. }
  destruct (each_runs ds w1 t3 _ [] R3) as (L & LN & xs & RW & OKs).
  destruct ok; cbn [negb] in R4.
  2:{ inversion R4; subst. split; [|discriminate].
      destruct (nil_run (bind (writer_close w2) (fun z => match z with (x, w) => bind (writer_destroy w) (fun _ => Ret (n, false && res_eqb x r_success)) end))) as [o' N].
      exists o'. split; [|discriminate]. eapply runs_bind_d; [exact R1|]. cbn [negb res_eqb]. eapply runs_bind_d; [exact R3|]. exact N. }
  specialize (LN eq_refl). subst n. rewrite firstn_all in RW.
  assert (LX : length xs = length ds).
  { clear - RW. revert w1 t3 xs w2 RW. induction ds as [|d ds IH]; intros w1 t3 xs w2 RW; cbn [map do_wcalls do_wcall] in RW.
    - inversion RW; reflexivity.
    - apply runs_bind_i in RW. destruct RW as [([x w3] & t4 & t5 & R4 & R5 & ->)|[[_ E]|(f & _ & E)]]; try discriminate E.
      apply runs_bind_i in R5. destruct R5 as [([ys w4] & t6 & t7 & R6 & R7 & ->)|[[_ E]|(f & _ & E)]]; try discriminate E.
      inversion R7; subst. cbn. f_equal. eapply IH. exact R6. }
  apply runs_bind_i in R4. destruct R4 as [([x w3] & t5 & t6 & R5 & R6 & ->)|[[R5 ->]|(f & R5 & ->)]].
  2:{ split; [|discriminate]. exists Cut. split; [eapply runs_bind_d; [exact R1|]; cbn [negb res_eqb]; eapply runs_bind_d; [exact R3|]; apply runs_bind_c; exact R5|discriminate]. }
  2:{ split; [|discriminate]. exists (Stuck f). split; [eapply runs_bind_d; [exact R1|]; cbn [negb res_eqb]; eapply runs_bind_d; [exact R3|]; apply runs_bind_s; exact R5|intros f0 E0; injection E0 as ->; reflexivity]. }
  apply runs_bind_i in R6. destruct R6 as [(y & t7 & t8 & R7 & R8 & ->)|[[R7 ->]|(f & R7 & ->)]].
  2:{ split; [|discriminate]. exists Cut. split; [eapply runs_bind_d; [exact R1|]; cbn [negb res_eqb]; eapply runs_bind_d; [exact R3|]; eapply runs_bind_d; [exact R5|]; apply runs_bind_c; exact R7|discriminate]. }
  2:{ split; [|discriminate]. exists (Stuck f). split; [eapply runs_bind_d; [exact R1|]; cbn [negb res_eqb]; eapply runs_bind_d; [exact R3|]; eapply runs_bind_d; [exact R5|]; apply runs_bind_s; exact R7|intros f0 E0; injection E0 as ->; reflexivity]. }
  inversion R8; subst. split.
  - eexists. split; [eapply runs_bind_d; [exact R1|]; cbn [negb res_eqb]; eapply runs_bind_d; [exact R3|]; eapply runs_bind_d; [exact R5|]; eapply runs_bind_d; [exact R7|constructor]|discriminate].
  - intros _. exists (r_success :: xs), y, x. split; [|split; [constructor; auto|cbn; congruence]].
    assert (RP : runs (do_wcalls w (WOpen :: map WWrite ds)) (t1 ++ t3) (Done (r_success :: xs, w2))).
    { cbn [do_wcalls do_wcall]. eapply runs_bind_d; [exact R1|]. cbn beta iota. rewrite <- (app_nil_r t3). eapply runs_bind_d; [exact RW|]. constructor. }
    assert (RC : runs (do_wcalls w (copy_calls ds)) (t1 ++ t3 ++ t5) (Done ((r_success :: xs) ++ [x], w3))).
    { unfold copy_calls. rewrite app_comm_cons, app_assoc. eapply do_wcalls_snoc; [exact RP|]. rewrite <- (app_nil_r t5). eapply runs_bind_d; [exact R5|]. constructor. }
    unfold writer_life. replace (t1 ++ t3 ++ t5 ++ t7 ++ []) with ((t1 ++ t3 ++ t5) ++ t7 ++ []) by (rewrite <- !app_assoc; reflexivity).
    eapply runs_bind_d; [exact RC|]. cbn beta iota. eapply runs_bind_d; [exact R7|]. constructor.
Qed.

Lemma subseq_nil {A} (l : list A) : subseq [] l.
Proof. induction l; constructor; auto. Qed.
Lemma subseq_app2 {A} (a b c d : list A) : subseq a b -> subseq c d -> subseq (a ++ c) (b ++ d).
Proof. induction 1; intro H'; cbn; [exact H'|apply sub_skip; auto|apply sub_take; auto]. Qed.
Lemma subseq_id {A} (l : list A) : subseq l l.
Proof. induction l; [constructor|apply sub_take; assumption]. Qed.
Lemma prefix_subseq {A} (a b : list A) : prefix a b -> subseq a b.
Proof. intros [c ->]. rewrite <- (app_nil_r a) at 1. apply subseq_app2; [apply subseq_id|apply subseq_nil]. Qed.
Lemma explained_subseq cs rs σs : explained cs rs σs -> subseq (concat σs) (concat (map wpayloads cs)).
Proof.
  induction 1; cbn; [apply subseq_nil|rewrite app_nil_r|].
  - rewrite <- (app_nil_r σ). apply subseq_app2; [apply prefix_subseq; assumption|apply subseq_nil].
  - apply subseq_app2; [apply prefix_subseq; assumption|assumption].
Qed.

Section ReplayAny.
Variables (fuel iovm : nat) (ct : bytes) (files : list bytes) (dss : list (list bytes)).
Hypotheses (OF : Forall2 (offers ct) files dss) (HF : Forall (fun d => (length d <= fuel)%nat) files)
  (HC : lenN ct <= CT_MAX) (HI : (0 < iovm)%nat).
Let P := on_files 1 (map input files) (replay_main fuel iovm ct (length files)).

(** Whatever the connection does: nothing goes out but complete frames of the
    files, in order (the last one possibly cut short). *)
Lemma replay_any tr o ss : runs P tr o -> emits tr ss ->
  (exists full sent, Forall2 prefix ss full /\ Forall2 (writer_session true [ct]) full sent /\ subseq (concat sent) (concat dss)) /\
  match o with
  | Done (fs, ok) => map f_data fs = files /\
      (ok = true -> exists sent, Forall2 (writer_session true [ct]) (delivered tr) sent /\ concat sent = concat dss)
  | Stuck _ => False
  | Cut => True
  end.
Proof.
  intros R E. destruct (writer_init iovm [ct] (socket_rdwr 0)) as [w|] eqn:Hw; [|discriminate].
  pose proof (replay_sim _ _ _ _ _ _ OF HF HC Hw) as S.
  destruct (sim_runs _ _ _ S _ _ R) as (o' & R' & M).
  destruct (hasty_runs _ _ _ _ R') as [(o2 & R2 & ST) OKs].
  destruct (copy_runs _ _ _ _ R2) as [(cs & o1 & [OK PX] & RL & SO) _].
  assert (FRW : fresh_rdwr (socket_rdwr 0)) by (split; reflexivity).
  destruct (writer_crash_prefix iovm [ct] (socket_rdwr 0) w cs tr o1 ss FRW HI Hw OK RL E) as (full & rs & σs & sent & X1 & X2 & X3 & X4).
  split.
  - exists full, sent. split; [exact X2|]. split; [exact X3|]. rewrite X4. apply explained_subseq in X1.
    destruct PX as [l ->]. rewrite <- (app_nil_r (concat σs)). apply subseq_app2; [exact X1|apply subseq_nil].
  - destruct o as [[fs ok]|f|], o' as [b|f'|]; try contradiction; auto.
    + destruct M as [M1 M2]. cbn [fst snd] in M1, M2. subst b. split; [exact M1|]. intros ->.
      destruct (OKs eq_refl) as (xs & x & y & RW & FS & LX).
      destruct (writer_delivered iovm [ct] (socket_rdwr 0) w _ tr _ x FRW HI Hw (copy_calls_ok _) RW) as (σ & snt & _ & EX & WS & EQ).
      exists snt. split; [exact WS|]. rewrite EQ. clear - EX FS LX. unfold copy_calls in EX.
      destruct xs as [|x0 xs]; [discriminate LX|]. cbn [app] in EX. inversion EX; subst. inversion_clear FS; subst.
      match goal with H : prefix _ (wpayloads WOpen) |- _ => let z := fresh in destruct H as [z H]; cbn in H; symmetry in H; apply app_eq_nil in H; destruct H as [-> _] end.
      cbn [concat app]. match goal with H : explained (map _ _ ++ _) _ _ |- _ => rename H into EX2 end. cbn in LX. injection LX as LX. match goal with H : Forall (eq r_success) xs |- _ => rename H into FS end.
      clear EX. remember (concat dss) as l eqn:El. clear El. revert xs σs EX2 FS LX. induction l as [|d l IH]; intros xs σs EX2 FS LX.
      * destruct xs; [|discriminate LX]. cbn in EX2. inversion EX2; subst. match goal with H : explained [] _ _ |- _ => inversion H; subst end.
        match goal with H : prefix _ (wpayloads WClose) |- _ => let z := fresh in destruct H as [z H]; cbn in H; symmetry in H; apply app_eq_nil in H; destruct H as [-> _] end. reflexivity.
      * destruct xs as [|x1 xs]; [discriminate LX|]. cbn in EX2. inversion EX2; subst. inversion_clear FS; subst. cbn in LX. injection LX as LX.
        cbn [concat]. erewrite IH by eassumption. match goal with H : r_success = r_success -> _ |- _ => rewrite (H eq_refl) end. reflexivity.
    + exfalso. subst f'. rewrite (ST f eq_refl) in SO. destruct o1; cbn in SO; try contradiction.
      destruct (writer_legal iovm [ct] (socket_rdwr 0) w cs tr _ FRW HI Hw OK RL) as [_ []].
Qed.
End ReplayAny.

(** Result values related by [sim], at one end of a connection. *)
Lemma replay_peer fuel iovm ct files dss w o rwr r cap fuel2 m (early : bool) :
  Forall2 (offers ct) files dss -> Forall (fun d => (length d <= fuel)%nat) files ->
  pair_ok iovm [ct] (socket_rdwr 0) w o rwr r -> (1 <= cap)%nat -> (ro_cts o = [] \/ In ct (ro_cts o)) ->
  Forall (fun p => lenN p <= ro_max o) (concat dss) -> (length (datas (concat dss) ++ stop_frame) < fuel2)%nat ->
  exists fs, map f_data fs = files /\
    always_ends cap
      (connect (on_files 1 (map input files) (replay_main fuel iovm ct (length files)))
               (reader_life fuel2 r ((if early then [ROpen] else []) ++ repeat RRead (length (concat dss) + 1 + m))))
      (mk_net (PRet (fs, true))
              (PRet ((if early then [(r_success, None)] else []) ++
                     map (fun d => (r_success, Some d)) (concat dss) ++ (r_stop, None) :: repeat (r_failure, None) m, r_success))
              [] [] true true).
Proof.
  intros OF HF PO C AG MX FU.
  assert (HO : handshake_outcome [ct] (ro_cts o) H_agree).
  { destruct AG as [AG|AG]; [right; left; exact AG|right; right; exists ct; split; [reflexivity|exact AG]]. }
  assert (HC : lenN ct <= CT_MAX). { destruct (po_ready _ _ _ _ _ _ _ PO) as [F _]. inversion_clear F. assumption. }
  pose proof (replay_sim _ _ _ _ _ _ OF HF HC (po_w _ _ _ _ _ _ _ PO)) as S.
  pose proof (hasty_side _ _ _ _ _ _ _ PO (concat dss) HO) as EW.
  destruct (sim_exec _ (conv true) _ _ S (cv_ok (dialogue [ct] o (concat dss)) C_new)) as [X1 X2].
  rewrite EW in X1, X2. cbn [fst snd] in X1, X2.
  destruct (exec (conv true) (cv_ok (dialogue [ct] o (concat dss)) C_new) (on_files 1 (map input files) (replay_main fuel iovm ct (length files)))) as [s oo] eqn:EX.
  cbn [fst snd] in X1, X2. subst s. destruct oo as [[fs b]| |]; try contradiction. destruct X2 as [M1 M2]. cbn [fst snd] in M1, M2. subst b.
  exists fs. split; [exact M1|].
  eapply (meet cap (dialogue [ct] o (concat dss)) _ _ C_gone C_gone _ _ C); [exact EX|].
  apply (reader_side _ _ _ _ _ _ _ PO); [exact HO| |exact FU].
  assert (DK : Forall data_ok (concat dss)).
  { clear - OF. induction OF as [|d ds files dss O OF IH]; cbn; [constructor|]. apply Forall_app. split; [|exact IH].
    inversion O; subst; try constructor. destruct H as (_ & inp & rest & _ & PP). apply parse_payloads in PP. eapply Forall_impl; [|exact PP]. intros p [H _]. exact H. }
  clear - DK MX. induction DK; inversion_clear MX; constructor; auto.
Qed.

(** ** Truncation *)
Lemma prefix_split {A} (q a b : list A) : prefix q (a ++ b) -> (prefix q a /\ (length q < length a)%nat) \/ exists q', q = a ++ q' /\ prefix q' b.
Proof.
  revert q. induction a as [|x a IH]; intros q P.
  - right. exists q. auto.
  - destruct q as [|y q]; [left; split; [exists (x :: a); reflexivity|cbn; lia]|]. destruct P as [c E]. cbn in E. injection E as <- E.
    destruct (IH q (ex_intro _ c E)) as [[[c' ->] L]|(q' & -> & Q)]; [left|right].
    + split; [exists c'; reflexivity|cbn; lia].
    + exists q'. auto.
Qed.

Lemma parse_cut max ds : Forall (fun p => data_ok p /\ lenN p <= max) ds -> forall q, prefix q (datas ds ++ stop_frame) ->
  exists k e rest, parse max q (firstn k ds) e rest /\ ((e = E_stop /\ q = datas ds ++ stop_frame) \/ (e = E_eof /\ q <> datas ds ++ stop_frame)).
Proof.
  assert (LT : forall (b : bytes) n, (length b < length (be32 n))%nat -> lenN b < 4).
  { intros b n H. rewrite length_be32 in H. unfold lenN. lia. }
  assert (NE : forall (q x : bytes), (length q < length x)%nat -> q <> x) by (intros q x H ->; lia).
  induction 1 as [|d ds [K M] F IH]; intros q P.
  - exists 0%nat. cbn [firstn]. change (datas [] ++ stop_frame) with (be32 0 ++ be32 4 ++ be32 T_STOP) in P |- *.
    destruct (prefix_split _ _ _ P) as [[P1 L]|(q1 & -> & P1)].
    { exists E_eof, []. split; [apply p_eof_len, (LT _ _ L)|right; split; [reflexivity|]]. apply NE. rewrite app_length. lia. }
    destruct (prefix_split _ _ _ P1) as [[P2 L]|(q2 & -> & P2)].
    { exists E_eof, []. split; [apply p_eof_ctl_len, (LT _ _ L)|right; split; [reflexivity|]]. apply NE. rewrite !app_length. lia. }
    rewrite <- (app_nil_r (be32 T_STOP)) in P2.
    destruct (prefix_split _ _ _ P2) as [[P3 L]|(q3 & -> & P3)].
    { exists E_eof, []. split; [apply p_eof_ctl; [vm_compute; discriminate|exact (LT _ _ L)]|right; split; [reflexivity|]]. apply NE. rewrite !app_length. lia. }
    destruct P3 as [c E]. symmetry in E. apply app_eq_nil in E. destruct E as [-> _]. rewrite app_nil_r.
    exists E_stop, []. split; [|auto]. rewrite <- (app_nil_r (be32 0 ++ be32 4 ++ be32 T_STOP)). exact (p_stop max []).
  - change (datas (d :: ds) ++ stop_frame) with ((be32 (lenN d) ++ d) ++ datas ds ++ stop_frame) in P |- * || idtac.
    assert (E0 : datas (d :: ds) ++ stop_frame = be32 (lenN d) ++ d ++ datas ds ++ stop_frame).
    { unfold datas at 1. cbn [map concat]. unfold data_frame. rewrite <- !app_assoc. reflexivity. }
    rewrite E0 in *. destruct (prefix_split _ _ _ P) as [[P1 L]|(q1 & -> & P1)].
    { exists 0%nat, E_eof, []. split; [apply p_eof_len, (LT _ _ L)|right; split; [reflexivity|]]. apply NE. rewrite app_length. lia. }
    destruct (prefix_split _ _ _ P1) as [[P2 L]|(q2 & -> & P2)].
    { exists 0%nat, E_eof, []. destruct K as [K1 K2]. split; [apply p_eof_data; try assumption; unfold lenN; lia|right; split; [reflexivity|]].
      apply NE. rewrite !app_length. lia. }
    destruct (IH q2 P2) as (k & e & rest & PP & C). exists (S k), e, rest. split.
    + cbn [firstn]. rewrite app_assoc. apply (p_data max d q2); assumption.
    + destruct C as [[-> ->]|[-> N]]; [left; auto|right; split; [reflexivity|]]. intro E. apply app_inv_head in E. apply app_inv_head in E. contradiction.
Qed.

(** Any initial part of a stream file that contains its START is dumped with
    success. *)
Lemma dump_truncated fuel iovm st ds d d0 : ctl_ok T_START st -> Forall (fun p => data_ok p /\ lenN p <= DEFAULT_MAX) ds ->
  prefix d (datas ds ++ stop_frame) -> (length (ctl_frame T_START st ++ d) <= fuel)%nat -> (0 < iovm)%nat ->
  exists f k, (d <> datas ds ++ stop_frame -> stream_file (ctl_frame T_START st ++ d) st (firstn k ds) E_eof) /\
    exec file_ops (mk_cfile true d0 None) (on_files 0 [input (ctl_frame T_START st ++ d)] (dump_main fuel iovm true)) =
    (mk_cfile true (ctl_frame T_START st ++ datas (firstn k ds) ++ stop_frame) None, Done ([f], (true, printed (firstn k ds)))).
Proof.
  intros K F P L HI. destruct (parse_cut DEFAULT_MAX ds F d P) as (k & e & rest & PP & C).
  assert (SF : stream_file (ctl_frame T_START st ++ d) st (firstn k ds) e) by (split; [exact K|exists d, rest; auto]).
  destruct (dump_file fuel iovm _ st (firstn k ds) e SF L HI d0) as (f & E & _); [destruct C as [[-> _]|[-> _]]; discriminate|].
  exists f, k. split.
  - intro N. destruct C as [[_ C]|[-> _]]; [contradiction|exact SF].
  - rewrite E. destruct C as [[-> _]|[-> _]]; reflexivity.
Qed.

(** The outcome of a dump for every file, when the output takes everything. *)
Definition dumped fuel iovm d d0 output :=
  snd (exec file_ops (mk_cfile true d0 None) (on_files 0 [input d] (dump_main fuel iovm output))).

Lemma dumped_bad fuel iovm d d0 output : no_stream d -> exists fs, dumped fuel iovm d d0 output = Done (fs, (false, [])).
Proof.
  intro NS. unfold dumped. destruct (sim_exec _ file_ops _ _ (dump_bad d fuel iovm output NS) (mk_cfile true d0 None)) as [_ X]. cbn [exec snd] in X.
  destruct (snd _) as [[fs y]| |]; try contradiction. destruct X as [_ X]. cbn in X. subst y. eauto.
Qed.

Lemma dumped_stream fuel iovm d d0 output st ds e : stream_file d st ds e -> (length d <= fuel)%nat -> (0 < iovm)%nat ->
  if oversize e then dumped fuel iovm d d0 output = Stuck (FUb ub_uninit)
  else exists fs, dumped fuel iovm d d0 output = Done (fs, (dump_status e, printed ds)).
Proof.
  intros SF L HI. unfold dumped. destruct output.
  - destruct (oversize e) eqn:O.
    + apply (dump_over fuel iovm d st ds e SF L HI d0). destruct e; (discriminate O || reflexivity).
    + destruct (dump_file fuel iovm d st ds e SF L HI d0) as (f & E & _); [intros ->; discriminate O|]. rewrite E. eexists. reflexivity.
  - destruct (sim_exec _ file_ops _ _ (dump_stdout d st ds e fuel iovm SF L) (mk_cfile true d0 None)) as [_ X].
    destruct (oversize e); cbn [exec snd] in X; destruct (snd _) as [[fs y]| |]; try contradiction; [rewrite X; reflexivity|].
    destruct X as [_ X]. cbn in X. subst y. eauto.
Qed.

Lemma dump_success_iff fuel iovm d d0 output : (length d <= fuel)%nat -> (0 < iovm)%nat ->
  (exists fs out, dumped fuel iovm d d0 output = Done (fs, (true, out))) <->
  (exists st ds e, stream_file d st ds e /\ (e = E_stop \/ e = E_eof)).
Proof.
  intros L HI. split.
  - intros (fs & out & E). destruct (classify d) as [NS|(st & ds & e & SF)].
    + destruct (dumped_bad fuel iovm d d0 output NS) as (fs' & E'). rewrite E' in E. discriminate E.
    + exists st, ds, e. split; [exact SF|]. pose proof (dumped_stream fuel iovm d d0 output st ds e SF L HI) as X.
      destruct e; cbn [oversize dump_status] in X; auto; [destruct X as (fs' & X)|]; rewrite X in E; discriminate E.
  - intros (st & ds & e & SF & C). pose proof (dumped_stream fuel iovm d d0 output st ds e SF L HI) as X.
    destruct C as [-> | ->]; cbn [oversize dump_status] in X; destruct X as (fs & X); eauto.
Qed.

Lemma dump_stuck_iff fuel iovm d d0 output : (length d <= fuel)%nat -> (0 < iovm)%nat ->
  (exists f, dumped fuel iovm d d0 output = Stuck f) <-> (exists st ds, stream_file d st ds E_oversize).
Proof.
  intros L HI. split.
  - intros (f & E). destruct (classify d) as [NS|(st & ds & e & SF)].
    + destruct (dumped_bad fuel iovm d d0 output NS) as (fs' & E'). rewrite E' in E. discriminate E.
    + exists st, ds. pose proof (dumped_stream fuel iovm d d0 output st ds e SF L HI) as X.
      destruct e; cbn [oversize] in X; try exact SF; destruct X as (fs' & X); rewrite X in E; discriminate E.
  - intros (st & ds & SF). pose proof (dumped_stream fuel iovm d d0 output st ds E_oversize SF L HI) as X. cbn [oversize] in X. eauto.
Qed.

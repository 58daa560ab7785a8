(** A writer and a reader at the two ends of a connection. *)
From Verif Require Import Bytes Spec Bytes_proofs Io Io_proofs SpecTrace SpecStream
  Control Control_proofs Rdwr Rdwr_proofs Reader Writer Api SpecApi SpecReader SpecNet
  Writer_proofs Writer2_proofs Reader_source_proofs Reader_proofs Reader3_proofs Reader4_proofs Reader5_proofs File_proofs Net Net_proofs Net2_proofs Net3_proofs.
Ltac Zify.zify_post_hook ::= Z.div_mod_to_equations.
Local Open Scope N_scope.

Lemma outcome_exists W R : exists h, handshake_outcome W R h.
Proof.
  destruct W as [|w0 W]; [exists H_agree; left; reflexivity|].
  destruct R as [|r0 R]; [exists H_agree; right; left; reflexivity|].
  destruct (in_dec (list_eq_dec Byte.byte_eq_dec) w0 (r0 :: R)) as [I|N].
  { exists H_agree. right. right. exists w0. auto. }
  assert (D : forall V, common V (r0 :: R) \/ ~ common V (r0 :: R)).
  { induction V as [|v V IH]; [right; intros (c & [] & _)|].
    destruct (in_dec (list_eq_dec Byte.byte_eq_dec) v (r0 :: R)) as [I|I]; [left; exists v; split; [left; reflexivity|exact I]|].
    destruct IH as [(c & J & K)|NC]; [left; exists c; split; [right; exact J|exact K]|].
    right. intros (c & [<-|J] & K); [contradiction|]. apply NC. exists c. auto. }
  destruct (D (w0 :: W)) as [C|C].
  - exists H_writer_refuses. split; [exact C|]. intros w1 [= <-]. exact N.
  - exists H_reader_refuses. repeat split; try discriminate. exact C.
Qed.

Lemma outcome_unique W R h h' : handshake_outcome W R h -> handshake_outcome W R h' -> h = h'.
Proof.
  assert (AG : forall x, handshake_outcome W R H_agree -> handshake_outcome W R x -> x = H_agree).
  { intros x A B. destruct x; [reflexivity| |]; cbn in A, B; exfalso.
    - destruct B as (N1 & N2 & N3). destruct A as [?|[?|(w0 & E & I)]]; try contradiction.
      apply N3. exists w0. split; [destruct W; [discriminate|injection E as ->; left; reflexivity]|assumption].
    - destruct B as [(c & I & J) N]. destruct A as [->|[->|(w0 & E & K)]]; [destruct I|destruct J|]. exact (N w0 E K). }
  intros A B. destruct h, h'; try reflexivity; try (apply AG in B; [congruence|exact A]); try (apply AG in A; [congruence|exact B]);
    exfalso; cbn in A, B; [destruct A as (_ & _ & A), B as [B _]|destruct B as (_ & _ & B), A as [A _]]; contradiction.
Qed.

Section Pair.
Variables (iovm : nat) (W : list bytes) (rww : rdwr) (w : writer) (o : reader_options) (rwr : rdwr) (r : reader).
Hypothesis P : pair_ok iovm W rww w o rwr r.
Let A := accept_list (ro_cts o) W.

Lemma pw : wok true W w /\ w_state w = ws_opening.
Proof.
  destruct P as [HI [F1 F2 F3 F4] HR HW _ _ _ _ _]. unfold writer_init in HW. destruct (rw_has_write rww) eqn:E; [|discriminate].
  injection HW as <-. split; [|reflexivity]. split; cbn; auto.
Qed.
Lemma pr : r_state r = rs_opening /\ fresh_rdwr (r_rdwr r) /\ rw_has_read (r_rdwr r) = true /\ rw_has_write (r_rdwr r) = true /\
  r_cts r = ro_cts o /\ r_max r = ro_max o /\ r_alloc r = 512 /\ r_rdwr r = rwr.
Proof.
  destruct P as [_ _ _ _ F HW HR _ _]. unfold reader_init in HR. destruct (rw_has_read rwr) eqn:E; [|discriminate].
  injection HR as <-. cbn. repeat split; auto; apply F.
Qed.
Lemma kready : ctl_ok T_READY W.
Proof. apply fits_ctl_ok; try discriminate; [apply P|]. unfold known_type. tauto. Qed.
Lemma eaccept : encodable true T_ACCEPT A = true.
Proof. apply accept_fits. apply P. Qed.
Lemma kaccept : ctl_ok T_ACCEPT A.
Proof. apply encodable_accept_ok, eaccept. Qed.
Lemma start_in ct : (forall c, ct = Some c -> In c W) -> encodable true T_START (optl ct) = true /\ ctl_ok T_START (optl ct).
Proof.
  intro H. apply start_one_ok. intros c E. destruct (po_ready _ _ _ _ _ _ _ P) as [F _]. rewrite Forall_forall in F. auto.
Qed.

(** Opening, when the writer sends START. *)
Lemma both_open h s : handshake_outcome W (ro_cts o) h -> h <> H_writer_refuses ->
  let sc := tg true (ready_frame W) ++ tg false (ctl_frame T_ACCEPT A) ++ tg true (start_frame (hd_error W)) ++ s in
  exists w' r', exec (conv true) (cv_ok sc C_new) (writer_open w) = (cv_ok s C_open, Done (r_success, w')) /\
    rw_opened (w_rdwr w') = true /\ wok true W w' /\ w_state w' = ws_opened /\ w_start w' = Some (start_ctl (hd_error W)) /\
    exec (conv false) (cv_ok sc C_new) (reader_open r) = (cv_ok s C_open, Done (match h with H_agree => r_success | _ => r_failure end, r')) /\
    opened_ok r (optl (hd_error W)) r' /\ (h = H_agree -> r_state r' = rs_opened).
Proof.
  intros HO HN sc. destruct pw as [K ST]. destruct pr as (R1 & R2 & R3 & R4 & R5 & R6 & R7 & R8).
  destruct (accept_loop_outcome W (ro_cts o) h kready kaccept HO) as (ct & EM & EC & IN). specialize (EC HN). subst ct.
  destruct (start_in (hd_error W) IN) as [ES KS].
  assert (EH : match h with H_writer_refuses => false | _ => true end = true) by (destruct h; congruence). rewrite EH in EM.
  destruct (conv_wopen W w A true (hd_error W) s K) as (w' & E & O & KW & T & _); [congruence|apply P|exact kaccept|exact EM|exact ES|].
  destruct (T eq_refl) as [T1 T2].
  destruct (conv_ropen r W (optl (hd_error W)) s) as (r' & E2 & O2 & S2); rewrite ?R5; auto; try congruence.
  { exact kready. } { exact eaccept. }
  exists w', r'. split; [exact E|]. split; [exact O|]. split; [exact KW|]. split; [exact T1|]. split; [exact T2|].
  rewrite R5 in E2, S2. rewrite (open_result_outcome W (ro_cts o) h KS HO HN) in E2, S2.
  split; [exact E2|]. split; [exact O2|]. intros ->. auto.
Qed.

(** Opening, when it does not. *)
Lemma writer_stops : handshake_outcome W (ro_cts o) H_writer_refuses ->
  let sc := tg true (ready_frame W) ++ tg false (ctl_frame T_ACCEPT A) in
  (exists w', exec (conv true) (cv_ok sc C_new) (writer_open w) = (cv_ok [] C_open, Done (r_failure, w')) /\ wok true W w' /\ w_state w' = ws_opening) /\
  exists out, exec (conv false) (cv_ok sc C_new) (reader_open r) = (cv_wait, out).
Proof.
  intros HO sc. destruct pw as [K ST]. destruct pr as (R1 & R2 & R3 & R4 & R5 & R6 & R7 & R8).
  destruct (accept_loop_outcome W (ro_cts o) _ kready kaccept HO) as (ct & EM & _ & IN).
  destruct (start_in ct IN) as [ES KS]. split.
  - destruct (conv_wopen W w A false ct [] K) as (w' & E & O & KW & _ & T2); [congruence|apply P|exact kaccept|exact EM|exact ES|].
    exists w'. cbn [app] in E. rewrite app_nil_r in E. split; [exact E|]. split; [exact KW|].
    rewrite <- ST. apply T2. reflexivity.
  - destruct (conv_ropen_waits r W) as (out & E); rewrite ?R5; auto; try congruence.
    { exact kready. } { exact eaccept. }
    exists out. rewrite R5 in E. exact E.
Qed.

Lemma agree_control cap fuel : (1 <= cap)%nat -> handshake_outcome W (ro_cts o) H_agree ->
  always_ends cap (connect (calls_then_get w [WOpen] T_START) (rcalls_then_get fuel r [ROpen] T_START))
    (mk_net (PRet ([r_success], r_success, Some (Some (mk_control T_START (optl (hd_error W))))))
            (PRet ([(r_success, None)], r_success, Some (Some (mk_control T_START (optl (hd_error W)))))) [] [] false false).
Proof.
  intros C HO. destruct (both_open H_agree [] HO ltac:(discriminate)) as (w' & r' & EW & O & KW & S1 & S2 & ER & OR & SR).
  specialize (SR eq_refl). destruct OR as (OR1 & OR2).
  eapply (meet cap _ _ _ C_open C_open _ _ C).
  - unfold calls_then_get. cbn [do_wcalls do_wcall bind]. rewrite exec_bind, exec_bind, EW. cbn [exec]. rewrite exec_bind.
    unfold writer_get_control, writer_maybe_open. rewrite S1. cbn [bind res_eqb negb exec]. rewrite S2. reflexivity.
  - unfold rcalls_then_get. cbn [do_rcalls do_rcall bind]. rewrite !exec_bind, ER. cbn [exec bind]. rewrite exec_bind.
    unfold reader_get_control, reader_maybe_open. rewrite SR. cbn [bind res_eqb negb exec]. rewrite OR1. reflexivity.
Qed.

Lemma reader_refuses cap fuel : (1 <= cap)%nat -> handshake_outcome W (ro_cts o) H_reader_refuses ->
  exists w' r', always_ends cap (connect (do_wcalls w [WOpen]) (do_rcalls fuel r [ROpen]))
    (mk_net (PRet ([r_success], w')) (PRet ([(r_failure, None)], r')) [] [] false false).
Proof.
  intros C HO. destruct (both_open _ [] HO ltac:(discriminate)) as (w' & r' & EW & O & KW & S1 & S2 & ER & OR & SR).
  exists w', r'. eapply (meet cap _ _ _ C_open C_open _ _ C).
  - cbn [do_wcalls do_wcall bind]. rewrite exec_bind, EW. reflexivity.
  - cbn [do_rcalls do_rcall bind]. rewrite exec_bind, exec_bind, ER. reflexivity.
Qed.

Lemma writer_refuses cap fuel : (1 <= cap)%nat -> handshake_outcome W (ro_cts o) H_writer_refuses ->
  exists k, always_ends cap (connect (writer_life w [WOpen]) (do_rcalls fuel r [ROpen]))
    (mk_net (PRet ([r_failure], r_failure)) (PGet k) [] [] false false).
Proof.
  intros C HO. destruct (writer_stops HO) as ((w' & EW & KW & SW) & out & ER).
  assert (FW : exists out, exec (conv false) (cv_ok (tg true (ready_frame W) ++ tg false (ctl_frame T_ACCEPT A)) C_new) (do_rcalls fuel r [ROpen]) = (cv_wait, out)).
  { cbn [do_rcalls do_rcall]. rewrite !exec_bind, ER. destruct out as [[x r2]|f|]; [|eauto|eauto]. cbn [exec bind].
    eexists. reflexivity. }
  destruct FW as (out2 & FW).
  eapply (meet_blocked cap _ _ _ C_open _ out2 C); [discriminate| |exact FW].
  unfold writer_life. cbn [do_wcalls do_wcall bind]. rewrite exec_bind, exec_bind, EW. cbn [exec bind]. rewrite exec_bind.
  unfold writer_destroy. rewrite SW. cbn [bind exec]. rewrite exec_bind. unfold rdwr_destroy. rewrite (ok_destroy _ _ _ KW). reflexivity.
Qed.

(** Data from end to end. *)
Definition dialogue (ds : list bytes) : list (bool * byte) :=
  tg true (ready_frame W) ++ tg false (ctl_frame T_ACCEPT A) ++ tg true (start_frame (hd_error W)) ++
  tg true (datas ds) ++ tg true stop_frame ++ tg false finish_frame.

Lemma reader_side fuel ds m (early : bool) : handshake_outcome W (ro_cts o) H_agree ->
  Forall (fun p => data_ok p /\ lenN p <= ro_max o) ds -> (length (datas ds ++ stop_frame) < fuel)%nat ->
  exec (conv false) (cv_ok (dialogue ds) C_new) (reader_life fuel r ((if early then [ROpen] else []) ++ repeat RRead (length ds + 1 + m))) =
  (cv_ok [] C_gone, Done ((if early then [(r_success, None)] else []) ++ map (fun d => (r_success, Some d)) ds ++ (r_stop, None) :: repeat (r_failure, None) m, r_success)).
Proof.
  intros HO DK FU. unfold dialogue.
  destruct (both_open H_agree (tg true (datas ds) ++ tg true stop_frame ++ tg false finish_frame) HO ltac:(discriminate)) as (w' & r' & EW & O & KW & S1 & S2 & ER & OR & SR).
  specialize (SR eq_refl). destruct OR as (OR1 & OR2 & OR3 & OR4 & OR5 & OR6 & OR7).
  destruct pw as [_ ST]. destruct pr as (R1 & R2 & R3 & R4 & R5 & R6 & R7 & R8).
  unfold reader_life. rewrite exec_bind.
    assert (RD : exists r2, exec (conv false) (cv_ok (tg true (datas ds) ++ tg true stop_frame ++ tg false finish_frame) C_open)
        (do_rcalls fuel r' (repeat RRead (length ds + 1 + m))) =
        (cv_ok (tg false finish_frame) C_open, Done (map (fun d => (r_success, Some d)) ds ++ (r_stop, None) :: repeat (r_failure, None) m, r2)) /\
        ended E_stop r2 /\ same_r r' r2).
    { destruct (reads_spec r_failure true ltac:(discriminate) cv (conv false) (crep false (tg false finish_frame)) (crep_read false _) False (crep_short false _)
         (crep_read0 false _) (crep_close false _) (crep_iso false _) (ro_max o) m ds (datas ds ++ stop_frame) E_stop [] r' fuel) as (r2 & E & En & Sm).
      - apply parse_stop. exact DK.
      - discriminate.
      - split; auto; [congruence|]. rewrite OR6, R7. lia.
      - exact FU.
      - exists r2. split; [|split; assumption]. unfold crep at 1 in E. cbn [negb] in E. rewrite tg_app, <- app_assoc in E. rewrite E.
        destruct En as (_ & _ & (En & _)). rewrite En. reflexivity. }
    destruct RD as (r2 & RD & (En1 & En2 & En3 & En4 & En5) & Sm).
    assert (DE : exec (conv false) (cv_ok (tg false finish_frame) C_open) (reader_destroy r2) = (cv_ok [] C_gone, Done r_success)).
    { rewrite <- (app_nil_r (tg false finish_frame)).
      destruct (same_ops_fields _ _ (same_ops_trans _ _ _ OR3 (sr_rw _ _ Sm))) as (Q1 & Q2 & Q3 & Q4 & Q5 & Q6).
      apply conv_rdestroy; auto; rewrite ?Q1, ?Q2, ?Q3, ?Q4, ?Q5, ?Q6; auto; apply R2. }
    destruct early; cbn [app].
    + cbn [do_rcalls do_rcall]. rewrite !exec_bind, ER. cbn [exec]. rewrite exec_bind, RD. cbn [exec]. rewrite exec_bind, DE. reflexivity.
    + replace (length ds + 1 + m)%nat with (S (length ds + m)) by lia.
      rewrite (opening_read _ _ _ r r' fuel _ R1 ER SR). replace (S (length ds + m))%nat with (length ds + 1 + m)%nat by lia.
      rewrite RD. rewrite exec_bind, DE. reflexivity.
Qed.

Lemma delivery cap fuel cs m (early : bool) : (1 <= cap)%nat -> handshake_outcome W (ro_cts o) H_agree ->
  Forall wcall_ok cs -> Forall (fun c => c <> WClose) cs -> Exists opens_writer cs ->
  let ds := concat (map wpayloads cs) in
  Forall (fun p => data_ok p /\ lenN p <= ro_max o) ds -> (length (datas ds ++ stop_frame) < fuel)%nat ->
  always_ends cap (connect (writer_life w cs) (reader_life fuel r ((if early then [ROpen] else []) ++ repeat RRead (length ds + 1 + m))))
    (mk_net (PRet (map wresult cs, r_success))
            (PRet ((if early then [(r_success, None)] else []) ++ map (fun d => (r_success, Some d)) ds ++ (r_stop, None) :: repeat (r_failure, None) m, r_success))
            [] [] true true).
Proof.
  intros C HO K N X ds DK FU.
  destruct (both_open H_agree (tg true (datas ds) ++ tg true stop_frame ++ tg false finish_frame) HO ltac:(discriminate)) as (w' & r' & EW & O & KW & S1 & S2 & ER & OR & SR).
  specialize (SR eq_refl). destruct OR as (OR1 & OR2 & OR3 & OR4 & OR5 & OR6 & OR7).
  destruct pw as [_ ST]. destruct pr as (R1 & R2 & R3 & R4 & R5 & R6 & R7 & R8).
  assert (WR : wready w') by (split; [exact S1|split; [exact O|split; [apply KW|apply KW]]]).
  eapply (meet cap (dialogue ds) _ _ C_gone C_gone _ _ C).
  - unfold writer_life, dialogue. rewrite exec_bind. rewrite (opening_calls _ _ _ w w' cs ST N X EW S1).
    rewrite (conv_wcalls w' cs WR K N). rewrite exec_bind. rewrite <- (app_nil_r (tg false finish_frame)).
    rewrite conv_wdestroy; [reflexivity|exact WR|rewrite (ok_cts _ _ _ KW); exact KW].
  - exact (reader_side fuel ds m early HO DK FU).
Qed.
(** The two opens alone, for each outcome. *)
Lemma agree_opens cap fuel : (1 <= cap)%nat -> handshake_outcome W (ro_cts o) H_agree ->
  exists w' r', always_ends cap (connect (do_wcalls w [WOpen]) (do_rcalls fuel r [ROpen]))
    (mk_net (PRet ([r_success], w')) (PRet ([(r_success, None)], r')) [] [] false false).
Proof.
  intros C HO. destruct (both_open _ [] HO ltac:(discriminate)) as (w' & r' & EW & O & KW & S1 & S2 & ER & OR & SR).
  exists w', r'. eapply (meet cap _ _ _ C_open C_open _ _ C).
  - cbn [do_wcalls do_wcall bind]. rewrite exec_bind, EW. reflexivity.
  - cbn [do_rcalls do_rcall bind]. rewrite exec_bind, exec_bind, ER. reflexivity.
Qed.

Lemma writer_refuses_open cap fuel : (1 <= cap)%nat -> handshake_outcome W (ro_cts o) H_writer_refuses ->
  exists w' k, always_ends cap (connect (do_wcalls w [WOpen]) (do_rcalls fuel r [ROpen]))
    (mk_net (PRet ([r_failure], w')) (PGet k) [] [] false false).
Proof.
  intros C HO. destruct (writer_stops HO) as ((w' & EW & KW & SW) & out & ER). exists w'.
  assert (FW : exists out, exec (conv false) (cv_ok (tg true (ready_frame W) ++ tg false (ctl_frame T_ACCEPT A)) C_new) (do_rcalls fuel r [ROpen]) = (cv_wait, out)).
  { cbn [do_rcalls do_rcall]. rewrite !exec_bind, ER. destruct out as [[x r2]|f|]; [|eauto|eauto]. cbn [exec bind].
    eexists. reflexivity. }
  destruct FW as (out2 & FW).
  eapply (meet_blocked cap _ _ _ C_open _ out2 C); [discriminate| |exact FW].
  cbn [do_wcalls do_wcall bind]. rewrite exec_bind, EW. reflexivity.
Qed.
End Pair.

(** The final state is indeed reached. *)
Lemma always_reaches {X Y} cap (c cf : net X Y) : always_ends cap c cf -> exists n, steps cap n c cf.
Proof.
  intros [_ (B & H)].
  assert (SN : forall n c1 c2 c3, steps cap n c1 c2 -> step cap c2 c3 -> @steps X Y cap (S n) c1 c3).
  { induction n; intros c1 c2 c3 S1 S2; inversion S1; subst; [econstructor; [exact S2|constructor]|econstructor; [eassumption|eauto]]. }
  assert (G : forall k, (exists n, steps cap n c cf) \/ exists c', steps cap k c c').
  { induction k as [|k [L|(c' & S1)]]; [right; exists c; constructor|left; exact L|].
    destruct (H _ _ S1) as [_ [->|(c2 & S2)]]; [left; eauto|right; eauto]. }
  destruct (G (S B)) as [L|(c' & S1)]; [exact L|]. destruct (H _ _ S1) as [L _]. lia.
Qed.

(** Which opens succeed, by content types alone. *)
Theorem opens_exactly iovm W rww w o rwr r fuel cap : pair_ok iovm W rww w o rwr r -> (1 <= cap)%nat ->
  exists cf, always_ends cap (connect (do_wcalls w [WOpen]) (do_rcalls fuel r [ROpen])) cf /\
    ((exists w', n_a _ _ cf = PRet ([r_success], w')) <->
       ~ common W (ro_cts o) \/ exists w0, hd_error W = Some w0 /\ In w0 (ro_cts o)) /\
    ((exists r', n_b _ _ cf = PRet ([(r_success, None)], r')) <->
       W = [] \/ ro_cts o = [] \/ exists w0, hd_error W = Some w0 /\ In w0 (ro_cts o)) /\
    ((exists r', n_b _ _ cf = PRet ([(r_failure, None)], r')) <->
       W <> [] /\ ro_cts o <> [] /\ ~ common W (ro_cts o)).
Proof.
  intros P C.
  assert (IC : forall w0, hd_error W = Some w0 -> In w0 (ro_cts o) -> common W (ro_cts o)).
  { intros c X Y. exists c. split; [|exact Y]. destruct W; [discriminate X|injection X as ->; left; reflexivity]. }
  assert (NP : forall (A B : res * option bytes) (x y : reader), @PRet (list (res * option bytes) * reader) ([A], x) = PRet ([B], y) -> A = B).
  { intros. congruence. }
  destruct (outcome_exists W (ro_cts o)) as ([| |] & HO).
  - destruct (agree_opens _ _ _ _ _ _ _ P cap fuel C HO) as (w' & r' & E). eexists. split; [exact E|]. cbn [n_a n_b]. cbn in HO.
    split; [split; [intros _|eauto]|split; [split; [intros _; exact HO|eauto]|split]].
    + destruct HO as [->|[->|X]]; [left; intros (c & [] & _)|left; intros (c & _ & [])|right; exact X].
    + intros (r2 & X). apply NP in X. discriminate X.
    + intros (N1 & N2 & N3). exfalso. destruct HO as [X|[X|(c & X & Y)]]; try congruence. exact (N3 (IC c X Y)).
  - destruct (reader_refuses _ _ _ _ _ _ _ P cap fuel C HO) as (w' & r' & E). eexists. split; [exact E|]. cbn [n_a n_b].
    cbn in HO. pose proof HO as (N1 & N2 & N3). split; [split; [intros _; left; exact N3|eauto]|split; [split|split; [intros _; exact HO|eauto]]].
    + intros (r2 & X). apply NP in X. discriminate X.
    + intros [X|[X|(c & X & Y)]]; try congruence. exfalso. exact (N3 (IC c X Y)).
  - destruct (writer_refuses_open _ _ _ _ _ _ _ P cap fuel C HO) as (w' & k & E). eexists. split; [exact E|]. cbn [n_a n_b].
    cbn in HO. destruct HO as (N1 & N2). split; [split|split; [split|split]].
    + intros (r2 & X). congruence.
    + intros [X|(c & X & Y)]; [contradiction|]. exfalso. exact (N2 c X Y).
    + intros (r2 & X). discriminate X.
    + destruct N1 as (c & I1 & I2). intros [E1|[E2|(c' & X & Y)]]; [rewrite E1 in I1; destruct I1|rewrite E2 in I2; destruct I2|exfalso; exact (N2 c' X Y)].
    + intros (r2 & X). discriminate X.
    + intros (_ & _ & X). contradiction.
Qed.

(** Corollaries about readers on byte sources and about histories. *)
From Verif Require Import Bytes Spec Bytes_proofs Io Io_proofs SpecTrace SpecStream
  Control Control_proofs Rdwr Rdwr_proofs Reader Writer Api SpecApi SpecReader
  Writer_proofs Writer2_proofs Reader_source_proofs Reader_proofs Reader2_proofs Reader3_proofs SpecFile File_proofs.
Ltac Zify.zify_post_hook ::= Z.div_mod_to_equations.
Local Open Scope N_scope.

(** ** ACCEPT fits if all the wanted types do *)
Lemma fields_filter f cts : lenN (fields (filter f cts)) <= lenN (fields cts).
Proof.
  induction cts as [|c cts IH]; cbn [filter]; [lia|]. destruct (f c); rewrite ?fields_cons, ?lenN_app; lia.
Qed.
Lemma accept_fits wanted rdy : fits true T_ACCEPT wanted -> encodable true T_ACCEPT (accept_list wanted rdy) = true.
Proof.
  intros [F L]. apply encodable_fits. change (visible T_ACCEPT (accept_list wanted rdy)) with (accept_list wanted rdy). split.
  - unfold accept_list. apply Forall_forall. intros x I. apply filter_In in I. rewrite Forall_forall in F. apply F. apply I.
  - unfold ctl_wire in *. rewrite lenN_ctl_frame, lenN_ctl_payload in *.
    pose proof (fields_filter (ready_accepts (mk_control T_READY rdy)) wanted). unfold accept_list. lia.
Qed.

(** ** Streams from a byte source *)
Lemma source_stream eofr zok o rw r rdy st inp ds e rest m fuel :
  eofr <> r_success -> fresh_rdwr rw -> reader_init o rw = Some r ->
  ctl_ok T_READY rdy -> ctl_ok T_START st -> start_accepted (ro_cts o) st ->
  (rw_has_write rw = true -> fits true T_ACCEPT (ro_cts o)) ->
  parse (ro_max o) inp ds e rest -> (length inp < fuel)%nat ->
  exists r', exec (source eofr zok) (head_of (rw_has_write rw) rdy st ++ inp) (do_rcalls fuel r (ROpen :: repeat RRead (length ds + 1 + m))) =
    (rest, Done ((r_success, None) :: read_results eofr ds e m, r')) /\ ended e r' /\
    r_start r' = Some (mk_control T_START st) /\ same_ops rw (r_rdwr r').
Proof.
  intros NE FR HI KR KS AC FT P L.
  refine (src_stream eofr zok NE bytes (source eofr zok) (fun _ s => s) _ True _ _ _ _ o rw r _ rdy st inp ds e rest m fuel FR HI _ _ KR KS AC _ P (fun _ => I) L);
    try reflexivity.
  - intros h n s Hn Hl. cbn. destruct (n =? 0) eqn:E; [lia|]. destruct (lenN s <? n) eqn:E2; [lia|]. reflexivity.
  - intros _ h n s Hn. cbn. destruct (n =? 0) eqn:E; [lia|]. destruct (lenN s <? n) eqn:E2; [|lia]. reflexivity.
  - intros h. cbn. unfold head_of. rewrite <- app_assoc. reflexivity.
  - intros B. apply accept_fits. auto.
Qed.

Lemma source_meaning eofr zok o rw r rdy st inp m fuel :
  eofr <> r_success -> fresh_rdwr rw -> reader_init o rw = Some r ->
  ctl_ok T_READY rdy -> ctl_ok T_START st -> start_accepted (ro_cts o) st ->
  (rw_has_write rw = true -> fits true T_ACCEPT (ro_cts o)) -> (length inp < fuel)%nat ->
  exists ds e rest r',
    parse (ro_max o) inp ds e rest /\
    (forall ds' e' rest', parse (ro_max o) inp ds' e' rest' -> ds' = ds /\ e' = e /\ rest' = rest) /\
    exec (source eofr zok) (head_of (rw_has_write rw) rdy st ++ inp) (do_rcalls fuel r (ROpen :: repeat RRead (length ds + 1 + m))) =
    (rest, Done ((r_success, None) :: map (fun d => (r_success, Some d)) ds ++
                 (ending_result eofr e, None) :: repeat (r_failure, None) m, r')).
Proof.
  intros NE FR HI KR KS AC FT L.
  destruct (parse_total (ro_max o) (length inp) inp ltac:(lia)) as (ds & e & rest & P).
  destruct (source_stream eofr zok o rw r rdy st inp ds e rest m fuel NE FR HI KR KS AC FT P L) as (r' & E & _).
  exists ds, e, rest, r'. split; [assumption|]. split; [|exact E].
  intros ds' e' rest' P'. exact (parse_det _ _ _ _ _ _ _ _ P' P).
Qed.

Lemma source_cut eofr zok o rw r rdy st inp b ds e rest fuel :
  eofr <> r_success -> fresh_rdwr rw -> reader_init o rw = Some r ->
  ctl_ok T_READY rdy -> ctl_ok T_START st -> start_accepted (ro_cts o) st ->
  (rw_has_write rw = true -> fits true T_ACCEPT (ro_cts o)) ->
  parse (ro_max o) inp ds e rest -> prefix b inp -> (length inp < fuel)%nat ->
  exists ds' e', prefix ds' ds /\ (e' = E_eof \/ ds' = ds /\ e' = e) /\ forall m, exists s' r',
    exec (source eofr zok) (head_of (rw_has_write rw) rdy st ++ b) (do_rcalls fuel r (ROpen :: repeat RRead (length ds' + 1 + m))) =
    (s', Done ((r_success, None) :: map (fun d => (r_success, Some d)) ds' ++
               (ending_result eofr e', None) :: repeat (r_failure, None) m, r')).
Proof.
  intros NE FR HI KR KS AC FT P PB L.
  destruct (parse_cut _ _ _ _ _ P b PB) as (ds' & e' & rest' & P' & PD & D).
  exists ds', e'. split; [assumption|]. split; [assumption|]. intro m.
  destruct (source_stream eofr zok o rw r rdy st b ds' e' rest' m fuel NE FR HI KR KS AC FT P') as (r' & E & _).
  - destruct PB as [c ->]. rewrite app_length in L. lia.
  - exists rest', r'. exact E.
Qed.

Lemma source_accept eofr zok o rw r rdy st inp fuel :
  eofr <> r_success -> fresh_rdwr rw -> reader_init o rw = Some r ->
  ctl_ok T_READY rdy -> ctl_ok T_START st ->
  (rw_has_write rw = true -> fits true T_ACCEPT (ro_cts o)) ->
  exists x s r', exec (source eofr zok) (head_of (rw_has_write rw) rdy st ++ inp) (do_rcalls fuel r [ROpen]) = (s, Done ([(x, None)], r')) /\
    (x = r_success <-> start_accepted (ro_cts o) st).
Proof.
  intros NE FR HI KR KS FT.
  destruct (src_open zok bytes (source eofr zok) (fun _ s => s)) with (r := r) (s0 := head_of (rw_has_write rw) rdy st ++ inp) (rdy := rdy) (st := st) (s := inp)
    as (r' & E & O & OS); try reflexivity; auto.
  - intros h n s Hn Hl. cbn. destruct (n =? 0) eqn:E; [lia|]. destruct (lenN s <? n) eqn:E2; [lia|]. reflexivity.
  - unfold reader_init in HI. destruct (negb _); [discriminate|]. injection HI as <-. discriminate.
  - unfold reader_init in HI. destruct (negb _); [discriminate|]. injection HI as <-. apply FR.
  - unfold reader_init in HI. destruct (rw_has_read rw) eqn:ER; [|discriminate]. injection HI as <-. assumption.
  - unfold reader_init in HI. destruct (negb _); [discriminate|]. injection HI as <-. apply FR.
  - intros h. cbn. unfold head_of. unfold reader_init in HI. destruct (negb _); [discriminate|]. injection HI as <-. rewrite <- app_assoc. reflexivity.
  - unfold reader_init in HI. destruct (negb _); [discriminate|]. injection HI as <-. intros B. apply accept_fits. auto.
  - exists (open_result (r_cts r) st), inp, r'. cbn [do_rcalls do_rcall]. rewrite exec_bind, exec_bind, E. cbn. split; [reflexivity|].
    replace (r_cts r) with (ro_cts o) by (unfold reader_init in HI; destruct (negb _); [discriminate|]; injection HI as <-; reflexivity).
    unfold open_result. rewrite <- (start_loop_accepted st (ro_cts o) KS). destruct (start_match_loop _ _ _); split; congruence.
Qed.

(** ** Histories *)
Lemma rsteps_inv p c cs xs p2 : rsteps p (c :: cs) xs p2 ->
  exists x xs' p1, xs = x :: xs' /\ rstep p c x p1 /\ rsteps p1 cs xs' p2.
Proof. inversion 1; subst. eauto 7. Qed.
Lemma rsteps_inv0 p xs p2 : rsteps p [] xs p2 -> xs = [] /\ p = p2.
Proof. inversion 1; auto. Qed.

Lemma rsteps_app p cs1 cs2 xs p2 : rsteps p (cs1 ++ cs2) xs p2 ->
  exists xs1 xs2 p1, xs = xs1 ++ xs2 /\ rsteps p cs1 xs1 p1 /\ rsteps p1 cs2 xs2 p2.
Proof.
  revert p xs. induction cs1 as [|c cs1 IH]; intros p xs S; cbn [app] in S.
  - exists [], xs, p. repeat split; auto. constructor.
  - apply rsteps_inv in S. destruct S as (x & xs' & p3 & -> & S0 & S). destruct (IH _ _ S) as (xs1 & xs2 & p4 & -> & S1 & S2).
    exists (x :: xs1), xs2, p4. repeat split; auto. econstructor; eassumption.
Qed.
Lemma rsteps_length p cs xs p' : rsteps p cs xs p' -> length xs = length cs.
Proof. induction 1; cbn; congruence. Qed.

Lemma rstep_nf p c x p' : rstep p c x p' -> p <> P_fresh -> p' <> P_fresh.
Proof. induction 1; intro NF; try congruence; try discriminate; try (destruct p; cbn; congruence). Qed.
Lemma rsteps_nf p cs xs p' : rsteps p cs xs p' -> p <> P_fresh -> p' <> P_fresh.
Proof. induction 1; auto. intro. apply IHrsteps. eapply rstep_nf; eassumption. Qed.

Definition over (p : rphase) : Prop := match p with P_stopped _ | P_failed | P_closed => True | _ => False end.
Definition quiet_result (x : res * option bytes) : Prop := fst x <> r_success /\ snd x = None.

Lemma rstep_over p c x p' : rstep p c x p' -> over p -> c <> ROpen ->
  over p' /\ (c = RRead -> quiet_result x).
Proof.
  destruct 1; cbn; intros O NC; try contradiction; try congruence; try (split; [exact I|intros E; try discriminate E; split; cbn; congruence]).
  split; [assumption|discriminate].
Qed.
Lemma rsteps_over p cs xs p' : rsteps p cs xs p' -> over p -> Forall (fun c => c <> ROpen) cs ->
  Forall2 (fun c x => c = RRead -> quiet_result x) cs xs.
Proof.
  induction 1; intros O F; constructor; inversion_clear F; destruct (rstep_over _ _ _ _ H O H1) as [O' Q]; auto.
Qed.
Lemma rstep_read_end p x p' : rstep p RRead (x, None) p' -> p <> P_fresh -> over p'.
Proof. inversion 1; subst; intro; cbn; auto; congruence. Qed.

Lemma rstep_going p c x p' : rstep p c x p' -> got_going c x -> p' <> P_fresh.
Proof.
  induction 1; intros [[E S]|S]; cbn in *; try congruence; try discriminate.
  apply IHrstep. right. assumption.
Qed.
Lemma rsteps_going p cs xs p' : rsteps p cs xs p' -> (exists c x, In (c, x) (combine cs xs) /\ got_going c x) -> p' <> P_fresh.
Proof.
  induction 1; intros (c0 & x0 & I & G); cbn in I; [contradiction|].
  destruct I as [E|I].
  - injection E as -> ->. eapply rsteps_nf; [eassumption|]. eapply rstep_going; eassumption.
  - apply IHrsteps. eauto.
Qed.

(** Once a read has returned no data on a reader that was going, nothing is
    returned until the application opens it again. *)
Lemma reader_end_is_final o rw r fuel pre post tr xs r' xs1 x xs2 :
  fresh_rdwr rw -> reader_init o rw = Some r ->
  runs (do_rcalls fuel r (pre ++ RRead :: post)) tr (Done (xs, r')) ->
  xs = xs1 ++ (x, None) :: xs2 -> length xs1 = length pre ->
  (exists c y, In (c, y) (combine pre xs1) /\ got_going c y) ->
  Forall (fun c => c <> ROpen) post ->
  Forall2 (fun c y => c = RRead -> fst y <> r_success /\ snd y = None) post xs2.
Proof.
  intros FR HI R -> L G F.
  destruct (reader_calls_spec okS eq_refl o rw r fuel _ tr _ FR HI R) as (_ & _ & ph & S & _).
  destruct (rsteps_app _ _ _ _ _ S) as (ys1 & ys2 & p1 & E & S1 & S2).
  pose proof (rsteps_length _ _ _ _ S1) as L1.
  assert (ys1 = xs1 /\ ys2 = (x, None) :: xs2) as [-> ->].
  { apply app_eq_len in E; [|congruence]. destruct E; auto. }
  apply rsteps_inv in S2. destruct S2 as (y & ys & p2 & [= <- <-] & S2 & S3). eapply rsteps_over; [eassumption| |assumption].
  eapply rstep_read_end; [eassumption|]. eapply rsteps_going; eassumption.
Qed.

Lemma reader_head_received o rw r fuel cs tr xs r' x :
  fresh_rdwr rw -> reader_init o rw = Some r ->
  runs (do_rcalls fuel r (cs ++ [ROpen])) tr (Done (xs ++ [(x, None)], r')) -> length xs = length cs -> x = r_success ->
  exists hd, reader_head (rw_has_write rw) (ro_cts o) hd /\ prefix hd (received tr).
Proof.
  intros FR HI R L ->.
  destruct (reader_calls_spec okS eq_refl o rw r fuel _ tr _ FR HI R) as (_ & _ & ph & S & PR).
  destruct (rsteps_app _ _ _ _ _ S) as (ys1 & ys2 & p1 & E & S1 & S2).
  pose proof (rsteps_length _ _ _ _ S1) as L1.
  apply app_eq_len in E; [|congruence]. destruct E as [<- <-].
  apply rsteps_inv in S2. destruct S2 as (y & ys & p2 & [= <- <-] & S2 & S3). apply rsteps_inv0 in S3. destruct S3 as [_ <-].
  inversion S2; subst; try congruence.
  destruct PR as (hd & b & HH & _ & ->). exists hd. split; [exact HH|]. exists b. reflexivity.
Qed.

Lemma reader_data_head o rw r fuel cs tr xs r' d :
  fresh_rdwr rw -> reader_init o rw = Some r ->
  runs (do_rcalls fuel r (cs ++ [RRead])) tr (Done (xs ++ [(r_success, Some d)], r')) -> length xs = length cs ->
  exists hd, reader_head (rw_has_write rw) (ro_cts o) hd /\ prefix hd (received tr).
Proof.
  intros FR HI R L.
  destruct (reader_calls_spec okS eq_refl o rw r fuel _ tr _ FR HI R) as (_ & _ & ph & S & PR).
  destruct (rsteps_app _ _ _ _ _ S) as (ys1 & ys2 & p1 & E & S1 & S2).
  pose proof (rsteps_length _ _ _ _ S1) as L1.
  apply app_eq_len in E; [|congruence]. destruct E as [<- <-].
  apply rsteps_inv in S2. destruct S2 as (y & ys & p2 & [= <- <-] & H2 & S3). apply rsteps_inv0 in S3. destruct S3 as [_ <-].
  assert (exists ds, p2 = P_reading ds) as [ds ->].
  { clear - H2. remember RRead as c. remember (r_success, Some d) as y. revert Heqc Heqy. induction H2; intros; try discriminate; eauto. }
  destruct PR as (hd & b & HH & _ & ->). exists hd. split; [exact HH|]. exists b. reflexivity.
Qed.

(** ** Payloads too long *)
Lemma first_calls {S} (hd : S -> query -> S * ans) fuel cs1 cs2 : forall r s s' xs r',
  exec hd s (do_rcalls fuel r (cs1 ++ cs2)) = (s', Done (xs, r')) ->
  exists s1 xs1 xs2 r1, exec hd s (do_rcalls fuel r cs1) = (s1, Done (xs1, r1)) /\ xs = xs1 ++ xs2 /\ length xs1 = length cs1.
Proof.
  induction cs1 as [|c cs1 IH]; intros r s s' xs r' E; cbn [app do_rcalls] in *.
  - exists s, [], xs, r. auto.
  - rewrite exec_bind in E. destruct (exec hd s (do_rcall fuel r c)) as [s2 [[[x d] r2]| |]] eqn:E2; try discriminate.
    rewrite exec_bind in E. destruct (exec hd s2 (do_rcalls fuel r2 (cs1 ++ cs2))) as [s3 [[ys r3]| |]] eqn:E3; try discriminate.
    destruct (IH _ _ _ _ _ E3) as (s1 & xs1 & xs2 & r1 & E4 & -> & L). cbn [exec] in E. injection E as <- <- <-.
    exists s1, ((x, d) :: xs1), xs2, r1. rewrite exec_bind, E2, exec_bind, E4. cbn. auto.
Qed.

Lemma long_payload eofr zok o rw r p tail fuel : eofr <> r_success ->
  fresh_rdwr rw -> rw_has_write rw = false -> reader_init o rw = Some r -> ro_cts o = [] ->
  1 <= lenN p mod 2 ^ 32 -> lenN p mod 2 ^ 32 <= ro_max o -> (length (data_frame p ++ tail) < fuel)%nat ->
  exists s r', exec (source eofr zok) (start_frame None ++ data_frame p ++ tail) (do_rcalls fuel r [ROpen; RRead]) =
    (s, Done ([(r_success, None); (r_success, Some (firstn (N.to_nat (lenN p mod 2 ^ 32)) p))], r')).
Proof.
  intros NE FR NW HI WC L1 L2 FU. set (n := lenN p mod 2 ^ 32) in *.
  assert (NP : n <= lenN p) by (unfold n; apply N.mod_le; discriminate).
  assert (NL : n < 2 ^ 32) by (unfold n; apply N.mod_lt; discriminate).
  set (q := firstn (N.to_nat n) p).
  assert (LQ : lenN q = n) by (unfold q; rewrite lenN_firstn; lia).
  assert (EQ : data_frame p ++ tail = data_frame q ++ skipn (N.to_nat n) p ++ tail).
  { unfold data_frame. rewrite LQ. unfold n. rewrite be32_mod. fold n. rewrite <- !app_assoc. f_equal.
    rewrite app_assoc. unfold q. rewrite firstn_skipn. reflexivity. }
  destruct (parse_total (ro_max o) (length (skipn (N.to_nat n) p ++ tail)) (skipn (N.to_nat n) p ++ tail) ltac:(lia)) as (ds & e & rest & P).
  assert (P1 : parse (ro_max o) (data_frame p ++ tail) (q :: ds) e rest).
  { rewrite EQ. apply p_data; [split; lia|lia|assumption]. }
  destruct (source_stream eofr zok o rw r [] [] (data_frame p ++ tail) (q :: ds) e rest 0 fuel NE FR HI) as (r' & E & _); auto.
  - exact ready_nil_ok.
  - apply (start_ok None). exact I.
  - left. assumption.
  - congruence.
  - unfold head_of in E. rewrite NW in E. cbn [app] in E. change (ctl_frame T_START []) with (start_frame None) in E.
    change (ROpen :: repeat RRead (length (q :: ds) + 1 + 0)) with ([ROpen; RRead] ++ repeat RRead (length ds + 1 + 0)) in E.
    apply first_calls in E. destruct E as (s1 & xs1 & xs2 & r1 & E & EX & L).
    exists s1, r1. rewrite E. do 3 f_equal.
    destruct xs1 as [|a [|b [|c xs1]]]; cbn in L; try discriminate.
    unfold read_results in EX. cbn [map app] in EX. injection EX as EX1 EX2 _. subst. reflexivity.
Qed.

(** Payloads of the right size come back. *)
Lemma good_payloads eofr zok iovm cts rww w ps o rw r m fuel :
  (0 < iovm)%nat -> fresh_rdwr rww -> rw_has_read rww = false -> Forall (fun ct => lenN ct <= CT_MAX) cts ->
  writer_init iovm cts rww = Some w ->
  eofr <> r_success -> fresh_rdwr rw -> rw_has_write rw = false -> reader_init o rw = Some r ->
  ro_cts o = [] \/ cts = [] \/ (exists c, hd_error cts = Some c /\ In c (ro_cts o)) ->
  lenN ps < 2 ^ 30 -> Forall (fun p => data_ok p /\ lenN p <= ro_max o) ps ->
  exists s, exec sink [] (writer_life w [WOpen; WWritev ps]) = ([s], Done ([r_success; r_success], r_success)) /\
    ((length s <= fuel)%nat ->
     exists r', exec (source eofr zok) s (do_rcalls fuel r (ROpen :: repeat RRead (length ps + 1 + m))) =
     ([], Done ((r_success, None) :: map (fun d => (r_success, Some d)) ps ++ (r_stop, None) :: repeat (r_failure, None) m, r'))).
Proof.
  intros Hi FW NR F HW NE FR NW HI AC LP PK.
  pose proof (uni_life iovm cts rww w [WOpen; WWritev ps] FW NR Hi F) as U.
  exists (start_frame (hd_error cts) ++ datas ps ++ stop_frame). split.
  - specialize (U ltac:(constructor; [reflexivity|repeat constructor; assumption]) HW).
    assert (E : u_steps cts U_fresh [] [WOpen; WWritev ps] = ([r_success; r_success], U_open, [start_frame (hd_error cts) ++ datas ps])).
    { cbn [u_steps u_step u_open app]. destruct ps as [|p ps]; [cbn; rewrite app_nil_r; reflexivity|]. cbn [u_step wpayloads u_implicit].
      change [start_frame (hd_error cts)] with ([] ++ [start_frame (hd_error cts)]). rewrite add_last_snoc. reflexivity. }
    rewrite E in U. rewrite U. change [start_frame (hd_error cts) ++ datas ps] with ([] ++ [start_frame (hd_error cts) ++ datas ps]).
    rewrite add_last_snoc, <- app_assoc. reflexivity.
  - intro L.
    destruct (source_stream eofr zok o rw r [] (optl (hd_error cts)) (datas ps ++ stop_frame) ps E_stop [] m fuel NE FR HI) as (r' & E & _).
    + exact ready_nil_ok.
    + apply start_ok. destruct cts; cbn; auto. inversion_clear F. assumption.
    + apply start_accepted_hd. assumption.
    + congruence.
    + apply parse_stop. assumption.
    + rewrite app_length in L. unfold start_frame in L; unfold ctl_frame in L at 1. rewrite app_length, length_be32 in L. lia.
    + unfold head_of in E. rewrite NW in E. exists r'. exact E.
Qed.

(** Streams: determinism, truncation; opening a reader on a byte source;
    allocation bounds. *)
From Verif Require Import Bytes Spec Bytes_proofs Io Io_proofs SpecTrace SpecStream
  Control Control_proofs Rdwr Rdwr_proofs Reader Api SpecApi SpecReader
  Writer_proofs Writer2_proofs Reader_source_proofs Reader_proofs.
Ltac Zify.zify_post_hook ::= Z.div_mod_to_equations.
Local Open Scope N_scope.

(** ** Facts about [parse] *)
Lemma parse_datas max inp ds' e rest ds :
  Forall (fun p => data_ok p /\ lenN p <= max) ds -> parse max inp ds' e rest ->
  parse max (datas ds ++ inp) (ds ++ ds') e rest.
Proof.
  intros F P. induction ds as [|p ds IH]; [exact P|]. inversion_clear F as [|? ? [K L] F'].
  unfold datas. cbn [map concat]. rewrite <- app_assoc. cbn [app]. apply p_data; auto.
Qed.

(** [prefix] of a concatenation. *)
Lemma prefix_app_inv {A} (b a c : list A) : prefix b (a ++ c) ->
  (exists k, b = firstn k a /\ (length b < length a)%nat) \/ exists b', b = a ++ b' /\ prefix b' c.
Proof.
  intros [d E].
  destruct (Nat.lt_ge_cases (length b) (length a)) as [L|L].
  - left. exists (length b). split; [|assumption].
    assert (firstn (length b) (a ++ c) = firstn (length b) a) by (rewrite firstn_app; replace (length b - length a)%nat with 0%nat by lia; cbn; apply app_nil_r).
    rewrite <- H, E, firstn_app, Nat.sub_diag, firstn_all. cbn. symmetry. apply app_nil_r.
  - right. exists (skipn (length a) b).
    assert (H : b = firstn (length a) b ++ skipn (length a) b) by (symmetry; apply firstn_skipn).
    assert (H1 : firstn (length a) b = a).
    { assert (Q : firstn (length a) (a ++ c) = firstn (length a) (b ++ d)) by (f_equal; assumption).
      rewrite firstn_app_exact in Q by reflexivity. rewrite firstn_app in Q.
      replace (length a - length b)%nat with 0%nat in Q by lia. cbn in Q. rewrite app_nil_r in Q. auto. }
    rewrite H1 in H. split; [assumption|]. exists d.
    rewrite H, <- app_assoc in E. apply app_inv_head in E. assumption.
Qed.

Lemma prefix_short {A} (b a : list A) : (exists k, b = firstn k a) -> prefix b a.
Proof. intros [k ->]. exists (skipn k a). symmetry. apply firstn_skipn. Qed.

Lemma lenN_lt {A} (a b : list A) : (length a < length b)%nat -> lenN a < lenN b.
Proof. unfold lenN. lia. Qed.

Lemma short4 (b : bytes) : (length b < 4)%nat -> lenN b < 4.
Proof. unfold lenN. lia. Qed.

(** Cutting a data frame. *)
Lemma cut_data max p b : data_ok p -> lenN p <= max -> prefix b (data_frame p) -> (length b < length (data_frame p))%nat ->
  parse max b [] E_eof [].
Proof.
  intros [K1 K2] M P L. unfold data_frame in *. destruct (prefix_app_inv b _ _ P) as [(k & -> & Lk)|(b' & -> & [d Ed])].
  - apply p_eof_len. rewrite length_be32 in Lk. apply short4. exact Lk.
  - apply p_eof_data; auto. rewrite !app_length in L. apply lenN_lt. lia.
Qed.

Lemma cut_ctl max t cts b : ctl_ok t cts -> prefix b (ctl_frame t cts) -> (length b < length (ctl_frame t cts))%nat ->
  parse max b [] E_eof [].
Proof.
  intros K P L. unfold ctl_frame in *. destruct (prefix_app_inv b _ _ P) as [(k & -> & Lk)|(b' & -> & P')].
  - apply p_eof_len. rewrite length_be32 in Lk. apply short4. exact Lk.
  - destruct (prefix_app_inv b' _ _ P') as [(k & -> & Lk)|(b2 & -> & _)].
    + apply p_eof_ctl_len. rewrite length_be32 in Lk. apply short4. exact Lk.
    + apply p_eof_ctl; [apply K|]. rewrite !app_length in L. apply lenN_lt. lia.
Qed.

Lemma length_lt_prefix {A} (b a c : list A) : prefix b (a ++ c) -> (length b < length a)%nat -> prefix b a.
Proof. intros P L. destruct (prefix_app_inv _ _ _ P) as [(k & E & _)|(b' & -> & _)]; [apply prefix_short; eauto|]. rewrite app_length in L. lia. Qed.

(** Truncation: a cut stream gives a prefix of the frames and either the same
    ending or end of input. *)
Lemma parse_cut max inp ds e rest : parse max inp ds e rest -> forall b, prefix b inp ->
  exists ds' e' rest', parse max b ds' e' rest' /\ prefix ds' ds /\ (e' = E_eof \/ (ds' = ds /\ e' = e)).
Proof.
  assert (EOF : forall b ds, parse max b [] E_eof [] -> exists ds' e' rest', parse max b ds' e' rest' /\ prefix ds' ds /\ (e' = E_eof \/ (ds' = ds /\ e' = e))).
  { intros b ds0 P. exists [], E_eof, []. split; [assumption|]. split; [exists ds0; reflexivity|auto]. }
  induction 1 as [p inp ds e rest K Hm P IH|t cts inp ds e rest K Ht P IH|rest|inp L|n b0 H1 H2 H3 L|b0 L|n b0 Hn L|n rest Hm H1 H2|n rest Hn H2|p rest Hn B];
    intros b PB.
  - destruct (prefix_app_inv _ _ _ PB) as [(k & -> & Lk)|(b' & -> & PB')].
    + apply EOF. eapply cut_data; eauto. apply prefix_short; eauto.
    + destruct (IH EOF b' PB') as (ds' & e' & rest' & P' & PD & HE). exists (p :: ds'), e', rest'.
      split; [apply p_data; auto|]. split; [destruct PD as [d ->]; exists d; reflexivity|].
      destruct HE as [->|[-> ->]]; auto.
  - destruct (prefix_app_inv _ _ _ PB) as [(k & -> & Lk)|(b' & -> & PB')].
    + apply EOF. eapply cut_ctl; eauto. apply prefix_short; eauto.
    + destruct (IH EOF b' PB') as (ds' & e' & rest' & P' & PD & HE). exists ds', e', rest'.
      split; [apply p_skip; auto|]. auto.
  - assert (K : ctl_ok T_STOP []).
    { split; auto; try (unfold known_type; tauto); try discriminate; try (vm_compute; discriminate). }
    destruct (prefix_app_inv _ _ _ PB) as [(k & -> & Lk)|(b' & -> & PB')].
    + apply EOF. eapply cut_ctl; eauto. apply prefix_short; eauto.
    + exists [], E_stop, b'. split; [apply p_stop|]. split; [exists []; reflexivity|auto].
  - apply EOF. apply p_eof_len. destruct PB as [d ->]. rewrite lenN_app in L. lia.
  - apply EOF. destruct (prefix_app_inv _ _ _ PB) as [(k & -> & Lk)|(b' & -> & [d ->])].
    + apply p_eof_len. rewrite length_be32 in Lk. apply short4. exact Lk.
    + apply p_eof_data; auto. rewrite lenN_app in L. lia.
  - apply EOF. destruct (prefix_app_inv _ _ _ PB) as [(k & -> & Lk)|(b' & -> & [d ->])].
    + apply p_eof_len. rewrite length_be32 in Lk. apply short4. exact Lk.
    + apply p_eof_ctl_len; auto. rewrite lenN_app in L. lia.
  - apply EOF. destruct (prefix_app_inv _ _ _ PB) as [(k & -> & Lk)|(b' & -> & PB')].
    + apply p_eof_len. rewrite length_be32 in Lk. apply short4. exact Lk.
    + destruct (prefix_app_inv _ _ _ PB') as [(k & -> & Lk)|(b2 & -> & [d ->])].
      * apply p_eof_ctl_len. rewrite length_be32 in Lk. apply short4. exact Lk.
      * apply p_eof_ctl; auto. rewrite lenN_app in L. lia.
  - destruct (prefix_app_inv _ _ _ PB) as [(k & -> & Lk)|(b' & -> & PB')].
    + apply EOF. apply p_eof_len. rewrite length_be32 in Lk. apply short4. exact Lk.
    + exists [], E_oversize, b'. split; [apply p_over; auto|]. split; [exists []; reflexivity|auto].
  - destruct (prefix_app_inv _ _ _ PB) as [(k & -> & Lk)|(b' & -> & PB')].
    + apply EOF. apply p_eof_len. rewrite length_be32 in Lk. apply short4. exact Lk.
    + destruct (prefix_app_inv _ _ _ PB') as [(k & -> & Lk)|(b2 & -> & PB2)].
      * apply EOF. apply p_eof_ctl_len. rewrite length_be32 in Lk. apply short4. exact Lk.
      * exists [], E_badctl, b2. split; [apply p_ctl_long; auto|]. split; [exists []; reflexivity|auto].
  - destruct (prefix_app_inv _ _ _ PB) as [(k & -> & Lk)|(b' & -> & PB')].
    + apply EOF. apply p_eof_len. rewrite length_be32 in Lk. apply short4. exact Lk.
    + destruct (prefix_app_inv _ _ _ PB') as [(k & -> & Lk)|(b2 & -> & PB2)].
      * apply EOF. apply p_eof_ctl_len. rewrite length_be32 in Lk. apply short4. exact Lk.
      * destruct (prefix_app_inv _ _ _ PB2) as [(k & -> & Lk)|(b3 & -> & PB3)].
        -- apply EOF. apply p_eof_ctl; [assumption|]. apply lenN_lt. assumption.
        -- exists [], E_badctl, b3. split; [apply p_ctl_bad; auto|]. split; [exists []; reflexivity|auto].
Qed.

(** ** The concrete source *)
Definition ex_read_rw : rdwr := mk_rdwr 0 true true true true false true.

Lemma source_reads eofr zok : eofr <> r_success -> forall max m ds inp e rest r fuel,
  parse max inp ds e rest -> reading max r -> (length inp < fuel)%nat ->
  exists r', exec (source eofr zok) inp (do_rcalls fuel r (repeat RRead (length ds + 1 + m))) =
    (rest, Done (read_results eofr ds e m, r')) /\ ended e r' /\ same_r r r'.
Proof.
  intros NE max m ds inp e rest r fuel P R F.
  refine (reads_spec eofr zok NE _ (source eofr zok) (fun _ s => s) _ True _ _ _ _ max m ds inp e rest r fuel P (fun _ => I) R F); try reflexivity.
  - intros h n s Hn Hl. cbn. destruct (n =? 0) eqn:E; [lia|]. destruct (lenN s <? n) eqn:E2; [lia|]. reflexivity.
  - intros _ h n s Hn. cbn. destruct (n =? 0) eqn:E; [lia|]. destruct (lenN s <? n) eqn:E2; [|lia]. reflexivity.
Qed.

Lemma parse_det max inp ds e rest ds' e' rest' : parse max inp ds e rest -> parse max inp ds' e' rest' ->
  ds = ds' /\ e = e' /\ rest = rest'.
Proof.
  intros P P'.
  set (r := mk_reader rs_opened [] max ex_read_rw None None None None None 1).
  assert (R : reading max r) by (split; cbn; auto; [repeat split|lia]).
  assert (NE : r_again <> r_success) by discriminate.
  pose proof (source_reads r_again true NE max (length ds') ds inp e rest r (S (length inp)) P R ltac:(lia)) as (r1 & E1 & N1 & _).
  pose proof (source_reads r_again true NE max (length ds) ds' inp e' rest' r (S (length inp)) P' R ltac:(lia)) as (r2 & E2 & N2 & _).
  replace (length ds' + 1 + length ds)%nat with (length ds + 1 + length ds')%nat in E2 by lia.
  rewrite E1 in E2. injection E2 as -> E2 _. unfold read_results in E2.
  assert (ED : forall (a b : list bytes) x y (n m : nat), map (fun d => (r_success, Some d)) a ++ (x, None) :: repeat (r_failure, @None bytes) n =
     map (fun d => (r_success, Some d)) b ++ (y, None) :: repeat (r_failure, None) m -> a = b /\ x = y).
  { clear. induction a as [|d a IH]; intros [|d' b] x y n m E; cbn in E; try discriminate.
    - injection E as -> _. auto.
    - injection E as -> E. apply IH in E. destruct E as [-> ->]. auto. }
  apply ED in E2. destruct E2 as [-> E2]. split; [reflexivity|]. split; [|reflexivity].
  destruct e, e'; cbn in E2; try reflexivity; try discriminate.
Qed.

(** ** Opening *)
Section Open.
Variables (eofr : res) (zok : bool).
Hypothesis eof_ne : eofr <> r_success.
Variables (T : Type) (src : T -> query -> T * ans) (rep : bool -> bytes -> T).
Hypothesis H_read : forall h n s, 1 <= n -> n <= lenN s -> src (rep true s) (QRead h n) =
  (rep true (skipn (N.to_nat n) s), ARead r_success (firstn (N.to_nat n) s)).
(** Only needed for inputs that end early. *)
Variable eofok : Prop.
Hypothesis H_short : eofok -> forall h n s, lenN s < n -> src (rep true s) (QRead h n) =
  (rep true [], ARead eofr []).
Hypothesis H_close : forall h s, src (rep true s) (QClose h) = (rep false s, ARes r_success).

Hypothesis H_read0 : forall h s, src (rep true s) (QRead h 0) =
  (rep true s, ARead (if zok then r_success else r_failure) []).
Hypothesis H_iso : forall h s, src (rep true s) (QIsoUb h) = (rep true s, AUnit).

Lemma src_read_control rw oc t cts s : canread rw -> ctl_ok t cts ->
  exec src (rep true (ctl_frame t cts ++ s)) (read_control rw oc t) =
  (rep true s, Done (r_success, Some (mk_control t cts), rw)).
Proof.
  intros C K. unfold read_control, read_control_frame, ctl_frame. rewrite !exec_bind, <- !app_assoc.
  rewrite (src_read_n zok T src rep H_read H_read0 H_close H_iso rw 4) by (assumption || reflexivity || lia).
  cbn [res_eqb negb]. rewrite <- (app_nil_r (be32 0)) at 1. rewrite ntohl_be32_small by reflexivity.
  change (0 =? 0) with true. cbn [negb].
  rewrite app_assoc. fold (ctail t cts). rewrite (src_tail_ok zok T src rep H_read H_read0 H_close H_iso) by assumption.
  cbn [res_eqb negb]. rewrite N.eqb_refl. reflexivity.
Qed.

Definition opened_ok (r : reader) (st : list bytes) (r' : reader) : Prop :=
  r_start r' = Some (mk_control T_START st) /\ canread (r_rdwr r') /\ same_ops (r_rdwr r) (r_rdwr r') /\ r_cts r' = r_cts r /\
  r_max r' = r_max r /\ r_alloc r' = r_alloc r /\ r_stop_c r' = r_stop_c r.

Definition open_result (wanted st : list bytes) : res :=
  if start_match_loop (mk_control T_START st) wanted true then r_success else r_failure.

Lemma src_open_uni r st s : canread (r_rdwr r) -> ctl_ok T_START st ->
  exists r', exec src (rep true (ctl_frame T_START st ++ s)) (reader_open_unidirectional r) =
    (rep true s, Done (open_result (r_cts r) st, r')) /\ opened_ok r st r'.
Proof.
  intros C K. unfold reader_open_unidirectional. rewrite exec_bind.
  change FSTRM_CONTROL_START with T_START. rewrite src_read_control by assumption. cbn [res_eqb negb]. cbv zeta.
  cbn [set_rstart set_rrdwr r_cts]. unfold open_result.
  destruct (start_match_loop (mk_control T_START st) (r_cts r) true); cbn [negb exec];
    (eexists; split; [reflexivity|]); repeat split; cbn; try apply C; apply same_ops_refl.
Qed.

Definition accept_list (wanted rdy : list bytes) : list bytes :=
  filter (ready_accepts (mk_control T_READY rdy)) wanted.

Lemma src_open r s0 rdy st s :
  r_state r <> rs_opened -> rw_has_open (r_rdwr r) = true -> rw_has_read (r_rdwr r) = true -> rw_has_close (r_rdwr r) = true ->
  (forall h, src s0 (QOpen h) = (rep true ((if rw_has_write (r_rdwr r) then ctl_frame T_READY rdy else []) ++ ctl_frame T_START st ++ s), ARes r_success)) ->
  (rw_has_write (r_rdwr r) = true -> forall h iov s, src (rep true s) (QWrite h iov) = (rep true s, ARes r_success)) ->
  ctl_ok T_READY rdy -> ctl_ok T_START st ->
  (rw_has_write (r_rdwr r) = true -> encodable true T_ACCEPT (accept_list (r_cts r) rdy) = true) ->
  exists r', exec src s0 (reader_open r) = (rep true s, Done (open_result (r_cts r) st, r')) /\
    opened_ok r st r' /\ (open_result (r_cts r) st = r_success -> r_state r' = rs_opened).
Proof.
  intros St HO HR HC Ho Hw KR KS EN. unfold reader_open.
  assert (G : exists r', exec src s0 (bind (rdwr_open (r_rdwr r)) (fun z => match z with (x, rw) =>
      let r := set_rrdwr r rw in
      if negb (res_eqb x r_success) then Ret (x, r)
      else bind (if rw_has_write (r_rdwr r) then reader_open_bidirectional r
                     else reader_open_unidirectional r) (fun z => match z with (x, r) =>
        if negb (res_eqb x r_success) then Ret (x, r)
        else Ret (r_success, set_rstate r rs_opened) end) end)) = (rep true s, Done (open_result (r_cts r) st, r')) /\
    opened_ok r st r' /\ (open_result (r_cts r) st = r_success -> r_state r' = rs_opened)).
  2:{ destruct (r_state r); auto. congruence. }
  rewrite exec_bind. unfold rdwr_open. rewrite HO. cbn [negb ask_res bind exec]. rewrite Ho. cbn [bind res_eqb exec negb].
  cbv zeta. rewrite exec_bind. set (r1 := set_rrdwr r (set_opened (r_rdwr r) true)).
  change (rw_has_write (r_rdwr r1)) with (rw_has_write (r_rdwr r)).
  assert (C1 : canread (r_rdwr r1)) by (repeat split; auto).
  assert (FIN : forall st0 p, st0 = st0 -> (exists r', exec src st0 p = (rep true s, Done (open_result (r_cts r1) st, r')) /\ opened_ok r1 st r') ->
     exists r', match exec src st0 p with
       | (s', Done a) => exec src s' (let (x, r0) := a in if negb (res_eqb x r_success) then Ret (x, r0) else Ret (r_success, set_rstate r0 rs_opened))
       | (s', Stuck f) => (s', Stuck f) | (s', Cut) => (s', Cut) end = (rep true s, Done (open_result (r_cts r) st, r')) /\
      opened_ok r st r' /\ (open_result (r_cts r) st = r_success -> r_state r' = rs_opened)).
  { intros st0 p _ (r' & -> & O). change (r_cts r1) with (r_cts r). unfold open_result.
    destruct (start_match_loop _ _ _); cbn [res_eqb negb exec]; (eexists; split; [reflexivity|]).
    - split; [|reflexivity]. destruct O as (O1 & O2 & O3 & O4 & O5 & O6 & O7). repeat split; cbn; auto; try apply O2;
      try (eapply same_ops_trans; [apply same_ops_set|exact O3]).
    - split; [|discriminate]. destruct O as (O1 & O2 & O3 & O4 & O5 & O6 & O7). repeat split; cbn; auto; try apply O2;
      try (eapply same_ops_trans; [apply same_ops_set|exact O3]). }
  apply FIN; [reflexivity|]. destruct (rw_has_write (r_rdwr r)) eqn:HW; [|cbn [app]; apply src_open_uni; assumption].
  unfold reader_open_bidirectional. rewrite exec_bind. change FSTRM_CONTROL_READY with T_READY.
  rewrite src_read_control by assumption. cbn [res_eqb negb]. cbv zeta.
  set (r2 := set_rready _ _).
  set (acc0 := match r_accept r2 with Some a => control_reset a | None => control_init end).
  assert (EA : control_set_type acc0 FSTRM_CONTROL_ACCEPT = (r_success, mk_control T_ACCEPT [])).
  { unfold acc0. destruct (r_accept r2); reflexivity. }
  rewrite EA. rewrite accept_loop_eq. cbn [c_type c_cts app]. change (r_cts r2) with (r_cts r).
  fold (accept_list (r_cts r) rdy).
  rewrite exec_bind, write_control_frame_eq. cbn [c_type c_cts]. rewrite EN by reflexivity.
  set (r3 := set_raccept _ _).
  unfold rdwr_write. change (rw_opened (r_rdwr r3)) with true. change (rw_has_write (r_rdwr r3)) with (rw_has_write (r_rdwr r)). rewrite HW.
  cbn [negb ask_res bind exec]. rewrite Hw by reflexivity. cbn [bind res_eqb negb exec].
  destruct (src_open_uni (set_rrdwr r3 (r_rdwr r3)) st s) as (r' & E & O); [assumption..|].
  exists r'. split; [exact E|]. destruct O as (O1 & O2 & O3 & O4 & O5 & O6 & O7). repeat split; auto; apply O2.
Qed.

(** Open and read to the end. *)
Lemma src_stream o rw r s0 rdy st inp ds e rest m fuel :
  fresh_rdwr rw -> reader_init o rw = Some r ->
  (forall h, src s0 (QOpen h) = (rep true ((if rw_has_write rw then ctl_frame T_READY rdy else []) ++ ctl_frame T_START st ++ inp), ARes r_success)) ->
  (rw_has_write rw = true -> forall h iov s, src (rep true s) (QWrite h iov) = (rep true s, ARes r_success)) ->
  ctl_ok T_READY rdy -> ctl_ok T_START st -> start_accepted (ro_cts o) st ->
  (rw_has_write rw = true -> encodable true T_ACCEPT (accept_list (ro_cts o) rdy) = true) ->
  parse (ro_max o) inp ds e rest -> (e = E_eof -> eofok) -> (length inp < fuel)%nat ->
  exists r', exec src s0 (do_rcalls fuel r (ROpen :: repeat RRead (length ds + 1 + m))) =
    (rep (rw_opened (r_rdwr r')) rest, Done ((r_success, None) :: read_results eofr ds e m, r')) /\ ended e r' /\
    r_start r' = Some (mk_control T_START st) /\ same_ops rw (r_rdwr r').
Proof.
  intros [F1 F2 F3 F4] HI Ho Hw KR KS AC EN P EK L. unfold reader_init in HI.
  destruct (rw_has_read rw) eqn:ER; [|discriminate]. injection HI as HI.
  assert (E1 : r_rdwr r = rw) by (subst r; reflexivity). assert (E2 : r_cts r = ro_cts o) by (subst r; reflexivity).
  cbn [do_rcalls do_rcall]. rewrite exec_bind, exec_bind.
  destruct (src_open r s0 rdy st inp) as (r1 & E & O & OS); rewrite ?E1, ?E2; auto.
  { subst r. discriminate. }
  rewrite E, E2 in *. assert (OR : open_result (ro_cts o) st = r_success).
  { unfold open_result. rewrite (proj2 (start_loop_accepted st (ro_cts o) KS)) by assumption. reflexivity. }
  rewrite OR in *. cbn [exec]. rewrite exec_bind.
  destruct O as (O1 & O2 & O3 & O4 & O5 & O6 & O7).
  destruct (reads_spec eofr zok eof_ne T src rep H_read eofok H_short H_read0 H_close H_iso (ro_max o) m ds inp e rest r1 fuel P EK) as (r' & E' & En & Sm).
  - split; auto.
    + rewrite O5. subst r. reflexivity.
    + rewrite O6. subst r. cbn. unfold FSTRM_CONTROL_FRAME_LENGTH_MAX. lia.
  - assumption.
  - rewrite E'. exists r'. split; [reflexivity|]. split; [assumption|]. split.
    + rewrite (sr_start _ _ Sm). assumption.
    + rewrite <- E1. eapply same_ops_trans; [exact O3|apply Sm].
Qed.

(** Rejected. *)
Lemma src_reject o rw r s0 rdy st inp fuel :
  fresh_rdwr rw -> reader_init o rw = Some r ->
  (forall h, src s0 (QOpen h) = (rep true ((if rw_has_write rw then ctl_frame T_READY rdy else []) ++ ctl_frame T_START st ++ inp), ARes r_success)) ->
  (rw_has_write rw = true -> forall h iov s, src (rep true s) (QWrite h iov) = (rep true s, ARes r_success)) ->
  ctl_ok T_READY rdy -> ctl_ok T_START st -> ~ start_accepted (ro_cts o) st ->
  (rw_has_write rw = true -> encodable true T_ACCEPT (accept_list (ro_cts o) rdy) = true) ->
  exists r', exec src s0 (do_rcalls fuel r [ROpen]) = (rep true inp, Done ([(r_failure, None)], r')).
Proof.
  intros [F1 F2 F3 F4] HI Ho Hw KR KS AC EN. unfold reader_init in HI.
  destruct (rw_has_read rw) eqn:ER; [|discriminate]. injection HI as HI.
  assert (E1 : r_rdwr r = rw) by (subst r; reflexivity). assert (E2 : r_cts r = ro_cts o) by (subst r; reflexivity).
  cbn [do_rcalls do_rcall]. rewrite exec_bind, exec_bind.
  destruct (src_open r s0 rdy st inp) as (r1 & E & O & OS); rewrite ?E1, ?E2; auto.
  { subst r. discriminate. }
  rewrite E, E2 in *. assert (OR : open_result (ro_cts o) st = r_failure).
  { unfold open_result. destruct (start_match_loop _ _ _) eqn:EM; [|reflexivity].
    apply start_loop_accepted in EM; [contradiction|assumption]. }
  rewrite OR in *. cbn. eauto.
Qed.
End Open.

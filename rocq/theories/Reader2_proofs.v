(** Consequences for reader histories; control frames handed out; leaks. *)
From Verif Require Import Bytes Spec Bytes_proofs Io Io_proofs SpecTrace SpecStream
  Control Control_proofs Rdwr Rdwr_proofs Reader Api SpecApi SpecReader
  Writer_proofs Writer2_proofs Reader_source_proofs Reader_proofs.
Local Open Scope N_scope.

Notation okS := (fun r => res_eqb r r_success).

Lemma reader_calls_spec okb (okb_s : okb r_success = true) o rw r fuel cs tr out :
  fresh_rdwr rw -> reader_init o rw = Some r ->
  runs (do_rcalls fuel r cs) tr out ->
  transport_state tr <> None /\
  Forall (reader_session (rw_has_write rw) (ro_cts o)) (sessions okb tr) /\
  match out with
  | Done (xs, _) => exists ph, rsteps P_fresh cs xs ph /\
      phase_received (rw_has_write rw) (ro_cts o) (ro_max o) ph (received tr)
  | Stuck f => f = FFuel /\ (fuel <= total_read tr)%nat
  | Cut => True
  end.
Proof.
  intros F H R. revert tr out R. apply wp_runs.
  apply (wp_rcalls okb okb_s (rw_has_write rw) (ro_cts o) (ro_max o) fuel cs r _ [] P_fresh).
  - apply RI_init; assumption.
  - intros h' [L S]. auto.
  - intros h' [L S] Hf. pose proof (received_le h'). repeat split; auto. lia.
  - intros h' xs r' ph I S. pose proof (SRo_SR _ _ _ _ _ (ri_sess _ _ _ _ _ _ _ I)) as [L S'].
    repeat split; auto. exists ph. split; [assumption|apply I].
Qed.

Lemma wp_reader_life okb (okb_s : okb r_success = true) bi wanted max fuel r cs (Q : post _) h ph :
  RI okb bi wanted max r h ph ->
  (forall h', SR okb bi wanted h' -> Q h' Cut) ->
  (forall h', SR okb bi wanted h' -> (fuel <= length (received h'))%nat -> Q h' (Stuck FFuel)) ->
  (forall h' xs x ph', SR okb bi wanted h' -> transport_state h' = Some TDestroyed -> rsteps ph cs xs ph' -> Q h' (Done (xs, x))) ->
  wp (reader_life fuel r cs) Q h.
Proof.
  intros I Hcut Hst HD. unfold reader_life. apply wp_bind_i. eapply (wp_rcalls okb okb_s); eauto.
  intros h1 xs r1 ph1 I1 S1. unfold bind_post. apply wp_bind_i. eapply (wp_destroy_r okb okb_s); eauto.
  intros h2 x SR2 T2 _. cbn. eapply HD; eauto.
Qed.

Lemma reader_life_spec okb (okb_s : okb r_success = true) o rw r fuel cs tr out :
  fresh_rdwr rw -> reader_init o rw = Some r ->
  runs (reader_life fuel r cs) tr out ->
  transport_state tr <> None /\
  Forall (reader_session (rw_has_write rw) (ro_cts o)) (sessions okb tr) /\
  match out with
  | Done (xs, _) => transport_state tr = Some TDestroyed /\ exists ph, rsteps P_fresh cs xs ph
  | Stuck f => f = FFuel /\ (fuel <= total_read tr)%nat
  | Cut => True
  end.
Proof.
  intros F H R. revert tr out R. apply wp_runs.
  apply (wp_reader_life okb okb_s (rw_has_write rw) (ro_cts o) (ro_max o) fuel r cs _ [] P_fresh).
  - apply RI_init; assumption.
  - intros h' [L S]. auto.
  - intros h' [L S] Hf. pose proof (received_le h'). repeat split; auto. lia.
  - intros h' xs x ph [L S] T S'. repeat split; auto. eauto.
Qed.

(** ** Programs that do not open *)
Definition ext (h h' : trace) : Prop :=
  prefix (received h) (received h') /\
  (forall ss s, delivered h = ss ++ [s] -> exists s', delivered h' = ss ++ [s ++ s']).

Lemma ext_refl h : ext h h.
Proof. split; [apply prefix_refl|]. intros ss s E. exists []. rewrite app_nil_r. assumption. Qed.
Lemma ext_trans a b c : ext a b -> ext b c -> ext a c.
Proof.
  intros [A1 A2] [B1 B2]. split; [eapply prefix_trans; eassumption|].
  intros ss s E. destruct (A2 _ _ E) as [s1 E1]. destruct (B2 _ _ E1) as [s2 E2].
  exists (s1 ++ s2). rewrite app_assoc. assumption.
Qed.

Lemma ext_snoc h q a : (forall n, q <> QOpen n) -> ext h (h ++ [(q, a)]).
Proof.
  intro NO. unfold ext, delivered. rewrite received_snoc, sessions_snoc.
  assert (K : forall ss s, sessions okS h = ss ++ [s] -> exists s', sess_step okS (sessions okS h) (q, a) = ss ++ [s ++ s']).
  { intros ss s E. rewrite E. destruct q; cbn; try (exists []; rewrite app_nil_r; reflexivity).
    - destruct (NO h0 eq_refl).
    - destruct a; try (exists []; rewrite app_nil_r; reflexivity).
      destruct (res_eqb r r_success); [|exists []; rewrite app_nil_r; reflexivity].
      rewrite add_last_snoc. eauto. }
  split; [|exact K].
  destruct q; cbn; try apply prefix_refl.
  - destruct (NO h0 eq_refl).
  - destruct a; try apply prefix_refl. destruct r; try apply prefix_refl. apply prefix_app_r.
Qed.

Definition noopen {A} (p : io A) : Prop := forall h, wp p (fun h' _ => ext h h') h.

Lemma noopen_ret {A} (a : A) : noopen (Ret a).
Proof. intro h. apply ext_refl. Qed.
Lemma noopen_fail {A} f : noopen (@Fail A f).
Proof. intro h. apply ext_refl. Qed.
Lemma noopen_vis {A} q (k : ans -> io A) : (forall n, q <> QOpen n) -> (forall a, noopen (k a)) -> noopen (Vis q k).
Proof.
  intros NO K h. split; [apply ext_refl|]. intros a _. eapply wp_mono; [|apply K].
  cbn. intros h' _ E. eapply ext_trans; [apply (ext_snoc h q a NO)|exact E].
Qed.
Lemma noopen_bind {A B} (p : io A) (k : A -> io B) : noopen p -> (forall a, noopen (k a)) -> noopen (bind p k).
Proof.
  intros P K h. apply wp_bind_i. eapply wp_mono; [|apply P]. intros h1 [a|f|] E; cbn; auto.
  eapply wp_mono; [|apply K]. cbn. intros h2 _ E2. eapply ext_trans; eassumption.
Qed.

Ltac nopen :=
  repeat match goal with
  | |- noopen (Ret _) => apply noopen_ret
  | |- noopen (Fail _) => apply noopen_fail
  | |- noopen (bind _ _) => apply noopen_bind; [|intros ?]
  | |- noopen (Vis _ _) => apply noopen_vis; [intros ?; discriminate|intros ?]
  | |- noopen (if ?b then _ else _) => destruct b
  | |- noopen (match ?x with _ => _ end) => destruct x
  | |- noopen (ask_res _) => unfold ask_res
  | |- noopen (ask_read _ _) => unfold ask_read
  | |- noopen (ask_unit _) => unfold ask_unit
  | |- noopen (lift ?x) => destruct x; cbn [lift]
  end.

Lemma noopen_close rw : noopen (rdwr_close rw).
Proof. unfold rdwr_close. nopen. Qed.
Lemma noopen_read rw n : noopen (rdwr_read rw n).
Proof. unfold rdwr_read. nopen; apply noopen_close. Qed.
Lemma noopen_tail rw c : noopen (read_control_frame_tail rw c).
Proof. unfold read_control_frame_tail. cbv zeta. nopen; apply noopen_read. Qed.
Lemma noopen_next fuel : forall r, noopen (reader_next_data fuel r).
Proof.
  induction fuel as [|fuel IH]; intro r; cbn [reader_next_data]; nopen; auto.
  - unfold reader_read_be32. nopen. apply noopen_read.
  - apply noopen_read.
  - unfold read_control_frame. apply noopen_tail.
Qed.
Lemma noopen_write rw iov : noopen (rdwr_write rw iov).
Proof. unfold rdwr_write. nopen; apply noopen_close. Qed.
Lemma noopen_rclose r : noopen (reader_close r).
Proof.
  unfold reader_close. destruct (r_state r); nopen; try apply noopen_close;
    rewrite write_finish_eq; apply noopen_write.
Qed.

(** ** Control frames and leaks *)
Record CI (nl : bool) (bi : bool) (wanted : list bytes) (r : reader) (h : trace) (seen : bool) : Prop := {
  ci_leak : nl = true -> rw_opened (r_rdwr r) = true -> r_state r = rs_opened \/ r_state r = rs_closing;
  ci_seen : seen = true <-> r_state r <> rs_opening;
  ci_fresh : r_state r = rs_opening -> r_start r = None /\ r_ready r = None /\ r_accept r = None;
  ci_uni : bi = false -> r_ready r = None /\ r_accept r = None;
  ci_stop : r_stop_c r = None \/ r_stop_c r = Some (mk_control T_STOP []);
  ci_frames : seen = true -> exists rdy st, r_start r = Some (mk_control T_START st) /\
     prefix ((if bi then ctl_frame T_READY rdy else []) ++ ctl_frame T_START st) (received h) /\
     (bi = true -> r_ready r = Some (mk_control T_READY rdy) /\
        exists acts ss s, r_accept r = Some (mk_control T_ACCEPT acts) /\
          delivered h = ss ++ [ctl_frame T_ACCEPT acts ++ s])
}.

(** Frames survive steps that do not open. *)
Lemma CI_keep nl bi wanted r r' h h' : CI nl bi wanted r h true -> ext h h' ->
  r_start r' = r_start r -> r_ready r' = r_ready r -> r_accept r' = r_accept r ->
  (r_stop_c r' = r_stop_c r \/ r_stop_c r' = Some (mk_control T_STOP [])) ->
  r_state r' <> rs_opening ->
  (nl = true -> rw_opened (r_rdwr r') = true -> r_state r' = rs_opened \/ r_state r' = rs_closing) ->
  CI nl bi wanted r' h' true.
Proof.
  intros [C1 C2 C3 C4 C5 C6] [X1 X2] E1 E2 E3 E4 NS NL. split; auto.
  - split; auto.
  - intro E. contradiction.
  - rewrite E2, E3. assumption.
  - destruct E4 as [-> | ->]; auto.
  - intros _. destruct (C6 eq_refl) as (rdy & st & F1 & F2 & F3). exists rdy, st. rewrite E1, E2, E3.
    split; [assumption|]. split; [eapply prefix_trans; eassumption|]. intro B. destruct (F3 B) as (G1 & acts & ss & s & G2 & G3).
    split; [assumption|]. destruct (X2 _ _ G3) as [s' E]. exists acts, ss, (s ++ s'). split; [assumption|].
    rewrite E, <- app_assoc. reflexivity.
Qed.

Lemma wp_open_CI nl bi wanted max r (Q : post _) h ph seen :
  RI okS bi wanted max r h ph -> CI nl bi wanted r h seen -> (forall ds, ph <> P_reading ds) ->
  (forall h', Q h' Cut) ->
  (forall h' r', RI okS bi wanted max r' h' (P_reading []) -> CI nl bi wanted r' h' true -> Q h' (Done (r_success, r'))) ->
  (forall h' x r', x <> r_success -> Q h' (Done (x, r'))) ->
  wp (reader_open r) Q h.
Proof.
  intros I C NR Hcut HS HF. apply (wp_open okS eq_refl bi wanted max); try apply I; auto.
  - rewrite (ri_state _ _ _ _ _ _ _ I). destruct ph; try discriminate. destruct (NR ds eq_refl).
  - intros h' r' rdy st SD St Ho SRR KR KS Acc Er Es Eb Eu Eo. apply HS.
    + split; auto.
      * exact (rok_same _ _ _ _ _ (ri_ok _ _ _ _ _ _ _ I) SD).
      * cbn. exists (received h'), []. split; [|split; [constructor|rewrite app_nil_r; reflexivity]].
        exists rdy, st. auto.
    + split; auto.
      * rewrite St. split; [discriminate|auto].
      * rewrite St. discriminate.
      * intro B. destruct (Eu B) as [-> ->]. apply (ci_uni _ _ _ _ _ _ C B).
      * rewrite Eo. apply C.
      * intros _. exists rdy, st. split; [assumption|]. split; [rewrite Er; apply prefix_refl|].
        intro B. destruct (Eb B) as (G1 & G2 & ss & G3). split; [assumption|].
        eexists _, ss, []. split; [eassumption|]. rewrite app_nil_r. exact G3.
Qed.

(** A program's postcondition may use that it does not open. *)
Lemma wp_noopen {A} (p : io A) (Q : post A) h : noopen p -> wp p (fun h' o => ext h h' -> Q h' o) h -> wp p Q h.
Proof.
  intros N W. eapply wp_mono; [|apply (wp_and _ _ _ _ (N h) W)]. cbn. intros h' o [E F]. auto.
Qed.

Lemma wp_next_CI nl bi wanted max r (Q : post _) h ds fuel :
  RI okS bi wanted max r h (P_reading ds) -> CI nl bi wanted r h true ->
  (forall h', Q h' Cut) -> (forall h' f, Q h' (Stuck f)) ->
  (forall h' x d r' ph, RI okS bi wanted max r' h' ph ->
     (d <> None \/ (nl = true -> x = r_stop) -> CI nl bi wanted r' h' true) -> Q h' (Done (x, d, r'))) ->
  wp (reader_next_data fuel r) Q h.
Proof.
  intros I C Hcut Hst HD. apply wp_noopen; [apply noopen_next|].
  destruct (ri_recv _ _ _ _ _ _ _ I) as (hd & b & H1 & H2 & H3).
  eapply (wp_next_data okS bi wanted max _ hd fuel r h b ds); try apply I; auto.
  - apply (ri_open _ _ _ _ _ _ _ I ds). reflexivity.
  - intros h' d r' b' SD St Ho SRR C' Hr' (SC1 & SC2 & SC3 & SC4) X. apply (HD h' _ _ r' (P_reading (ds ++ [d]))).
    + split; auto.
      * exact (rok_same _ _ _ _ _ (ri_ok _ _ _ _ _ _ _ I) SD).
      * cbn. exists hd, b'. auto.
    + intros _. eapply CI_keep; eauto; rewrite St; discriminate.
  - intros h' r' b' SD St Ho SRR C' Hr' SC1 SC2 SC3 SC4 X. apply (HD h' _ _ r' (P_stopped (Some ds))).
    + split; auto.
      * exact (rok_same _ _ _ _ _ (ri_ok _ _ _ _ _ _ _ I) SD).
      * cbn. exists hd, b'. auto.
    + intros _. eapply CI_keep; eauto; rewrite St; discriminate.
  - intros h' x r' SD St SRR Hx (SC1 & SC2 & SC3 & SC4) X. apply (HD h' _ _ r' P_failed).
    + split; auto.
      * exact (rok_same _ _ _ _ _ (ri_ok _ _ _ _ _ _ _ I) SD).
      * discriminate.
      * cbn. auto.
    + intros [D|G]; [congruence|]. eapply CI_keep; eauto; rewrite ?St; try discriminate.
      intros E Ho. rewrite (Hx (G E)) in Ho. discriminate.
Qed.

Lemma CI_seen_cases nl bi wanted r h seen ph max : RI okS bi wanted max r h ph -> CI nl bi wanted r h seen ->
  (seen = false /\ ph = P_fresh) \/ (seen = true /\ ph <> P_fresh).
Proof.
  intros I C. pose proof (ri_state _ _ _ _ _ _ _ I) as St. pose proof (ci_seen _ _ _ _ _ _ C) as S.
  destruct seen; [right|left]; (split; [reflexivity|]).
  - intros ->. apply (proj1 S eq_refl). assumption.
  - destruct ph; auto; exfalso; assert (false = true) by (apply S; rewrite St; discriminate); discriminate.
Qed.

Lemma wp_rcall_CI nl bi wanted max fuel r c (Q : post _) h ph seen :
  RI okS bi wanted max r h ph -> CI nl bi wanted r h seen ->
  (forall h', Q h' Cut) -> (forall h' f, Q h' (Stuck f)) ->
  (forall h' x d r' ph', RI okS bi wanted max r' h' ph' -> CI nl bi wanted r' h' (seen || opens c) -> Q h' (Done (x, d, r'))) ->
  (forall h' x d r', ~ good_result nl seen c x d -> Q h' (Done (x, d, r'))) ->
  wp (do_rcall fuel r c) Q h.
Proof.
  intros I C Hcut Hst HD HB. pose proof (ri_state _ _ _ _ _ _ _ I) as St.
  destruct (CI_seen_cases _ _ _ _ _ _ _ _ I C) as [[-> ->]|[-> NF]].
  - destruct c; cbn [do_rcall opens orb] in *.
    + apply wp_bind_i. eapply wp_open_CI; [exact I|exact C|discriminate|intros; cbn; apply Hcut| |].
      * intros h' r' I' C'. eapply HD; eassumption.
      * intros. apply HB. cbn. assumption.
    + unfold reader_read. apply wp_bind_i. unfold reader_maybe_open. rewrite St. apply wp_bind_i.
      eapply wp_open_CI; [exact I|exact C|discriminate|intros; cbn; apply Hcut| |]; unfold bind_post.
      * intros h' r' I' C'. cbn. rewrite (ri_state _ _ _ _ _ _ _ I'). eapply wp_next_CI; eauto.
        intros h2 x d r2 ph2 I2 G2. destruct d as [d|].
        -- eapply HD; [eassumption|]. apply G2. left. discriminate.
        -- apply HB. cbn. intros [H|[H _]]; congruence.
      * intros h' x r' Hx. rewrite ne_eqb by assumption. cbn. rewrite ne_eqb by assumption. cbn.
        apply HB. cbn. intros [H|[H _]]; congruence.
    + unfold reader_close. rewrite St. cbn. eapply HD; eassumption.
    + unfold reader_get_control. apply wp_bind_i, wp_bind_i. unfold reader_maybe_open. rewrite St. apply wp_bind_i.
      eapply wp_open_CI; [exact I|exact C|discriminate|intros; cbn; apply Hcut| |]; unfold bind_post.
      * intros h' r' I' C'. cbn.
        repeat match goal with |- context [if ?b then _ else _] => destruct b end; cbn; eapply HD; eassumption.
      * intros h' x r' Hx. rewrite ne_eqb by assumption. cbn. rewrite ne_eqb by assumption. cbn.
        apply HB. cbn. intros [H|H]; congruence.
  - assert (NO : r_state r <> rs_opening) by (rewrite St; destruct ph; congruence).
    destruct c; cbn [do_rcall opens orb] in *.
    + apply wp_bind_i. destruct (match ph with P_reading _ => true | _ => false end) eqn:E.
      * destruct ph; try discriminate. unfold reader_open. rewrite St. cbn. apply HB. cbn. discriminate.
      * assert (NR : forall ds, ph <> P_reading ds) by (intros ds ->; discriminate).
        eapply wp_open_CI; [exact I|exact C|exact NR|intros; cbn; apply Hcut| |].
        -- intros h' r' I' C'. eapply HD; eassumption.
        -- intros. apply HB. cbn. assumption.
    + unfold reader_read. apply wp_bind_i. unfold reader_maybe_open.
      assert (E : match r_state r with rs_opening => bind (reader_open r) (fun z => match z with (x, r0) => if negb (res_eqb x r_success) then Ret (x, r0) else Ret (r_success, r0) end) | _ => Ret (r_success, r) end = Ret (r_success, r)).
      { destruct (r_state r); congruence. }
      rewrite E. unfold bind_post. cbn [wp res_eqb negb]. rewrite St.
      destruct ph; cbn; try (eapply HD; eassumption).
      eapply wp_next_CI; eauto. intros h2 x d r2 ph2 I2 G2. destruct d as [d|].
      * eapply HD; [eassumption|]. apply G2. left. discriminate.
      * destruct nl; [|eapply HD; [eassumption|]; apply G2; right; discriminate].
        destruct (res_eqb x r_stop) eqn:Ex.
        -- apply res_eqb_true in Ex. eapply HD; [eassumption|]. apply G2. auto.
        -- apply res_eqb_false in Ex. apply HB. cbn. intros [H|[_ H]]; [congruence|]. auto.
    + assert (CL : (r_state r = rs_opened \/ r_state r = rs_closing) ->
         wp (bind (reader_close r) (fun z => match z with (x, r) => Ret (x, None, r) end)) Q h).
      { intros Sc. apply wp_bind_i. apply wp_noopen; [apply noopen_rclose|].
        apply (wp_close_r okS eq_refl bi wanted max); try apply I; auto.
        { intros h' HX _. cbn. apply Hcut. }
        intros h' x r' SD St' Ho SRR (SC1 & SC2 & SC3 & SC4) X. cbn. apply (HD h' _ _ r' P_closed).
        - split; auto.
          + exact (rok_same _ _ _ _ _ (ri_ok _ _ _ _ _ _ _ I) SD).
          + discriminate.
          + cbn. auto.
        - eapply CI_keep; eauto; rewrite ?St', ?Ho; discriminate. }
      destruct ph; try (apply CL; auto; fail); try congruence;
        unfold reader_close; rewrite St; cbn; eapply HD; eassumption.
    + unfold reader_get_control. apply wp_bind_i, wp_bind_i. unfold reader_maybe_open.
      assert (E : match r_state r with rs_opening => bind (reader_open r) (fun z => match z with (x, r0) => if negb (res_eqb x r_success) then Ret (x, r0) else Ret (r_success, r0) end) | _ => Ret (r_success, r) end = Ret (r_success, r)).
      { destruct (r_state r); congruence. }
      rewrite E. unfold bind_post. cbn [wp res_eqb negb].
      repeat match goal with |- context [if ?b then _ else _] => destruct b end; cbn; eapply HD; eassumption.
Qed.

Lemma wp_rcalls_CI nl bi wanted max fuel cs : forall r (Q : post _) h ph seen,
  RI okS bi wanted max r h ph -> CI nl bi wanted r h seen ->
  (forall h', Q h' Cut) -> (forall h' f, Q h' (Stuck f)) ->
  (forall h' xs r' ph' seen', RI okS bi wanted max r' h' ph' -> CI nl bi wanted r' h' seen' -> Q h' (Done (xs, r'))) ->
  (forall h' xs r', ~ good_history nl seen cs xs -> Q h' (Done (xs, r'))) ->
  wp (do_rcalls fuel r cs) Q h.
Proof.
  induction cs as [|c cs IH]; intros r Q h ph seen I C Hcut Hst HD HB.
  { cbn. eapply HD; eassumption. }
  cbn [do_rcalls]. apply wp_bind_i. eapply wp_rcall_CI; eauto.
  - intros h1 x d r1 ph1 I1 C1. unfold bind_post. apply wp_bind_i. eapply IH; eauto; cbn.
    + intros. eapply HD; eassumption.
    + intros h' xs r' NG. apply HB. intros [_ G]. contradiction.
  - intros h1 x d r1 NG. unfold bind_post. apply wp_bind_i. eapply wp_mono; [|apply wp_true].
    intros h' [[xs r']|f|] _; cbn; auto. apply HB. intros [G _]. contradiction.
Qed.

Lemma CI_init nl o rw r : fresh_rdwr rw -> reader_init o rw = Some r ->
  CI nl (rw_has_write rw) (ro_cts o) r [] false.
Proof.
  intros [F1 F2 F3 F4]. unfold reader_init. destruct (rw_has_read rw) eqn:E; [|discriminate]. cbn.
  intros [= <-]. split; cbn; auto; try discriminate; try congruence. split; congruence.
Qed.

Lemma reader_no_leak o rw r fuel cs tr xs x :
  fresh_rdwr rw -> reader_init o rw = Some r ->
  runs (reader_life fuel r cs) tr (Done (xs, x)) -> good_history true false cs xs -> ~ left_open tr.
Proof.
  intros F H R G.
  assert (W : wp (reader_life fuel r cs) (fun h out => match out with Done (xs, _) => good_history true false cs xs -> ~ left_open h | _ => True end) []).
  { unfold reader_life. apply wp_bind_i.
    eapply (wp_rcalls_CI true); [apply RI_init; eassumption|apply CI_init; eassumption|cbn;auto|cbn;auto| |].
    - intros h1 xs1 r1 ph1 seen1 I1 C1. unfold bind_post. apply wp_bind_i.
      apply (wp_destroy_r okS eq_refl _ _ _ _ _ _ _ I1); cbn; auto.
      intros h' x' HSR T NL _. apply NL.
      pose proof (ri_state _ _ _ _ _ _ _ I1) as St. pose proof (ci_leak _ _ _ _ _ _ C1 eq_refl) as L.
      destruct (rw_opened (r_rdwr r1)); [left|auto]. destruct (L eq_refl) as [E|E]; rewrite E in St; destruct ph1; try discriminate;
        [exists ds; auto|exists []; eauto].
    - intros h' xs' r' NG. unfold bind_post. apply wp_bind_i. eapply wp_mono; [|apply wp_true].
      intros h2 [x2|f|] _; cbn; auto. }
  exact (wp_runs _ _ W _ _ R G).
Qed.

Lemma CI_handed nl bi wanted r h seen t c : CI nl bi wanted r h seen ->
  (t = T_START /\ r_start r = Some c) \/ (t = T_STOP /\ r_stop_c r = Some c) \/
  (t = T_READY /\ r_ready r = Some c) \/ (t = T_ACCEPT /\ r_accept r = Some c) ->
  handed_out_r bi h t c.
Proof.
  intros C H.
  assert (SN : t <> T_STOP -> seen = true).
  { intros NS. destruct seen; auto. exfalso.
    assert (St : r_state r = rs_opening).
    { pose proof (ci_seen _ _ _ _ _ _ C) as S. destruct (r_state r); auto; assert (false = true) by (apply S; discriminate); discriminate. }
    destruct (ci_fresh _ _ _ _ _ _ C St) as (E1 & E2 & E3).
    destruct H as [[_ H]|[[H _]|[[_ H]|[_ H]]]]; congruence. }
  destruct H as [[-> H]|[[-> H]|[[-> H]|[-> H]]]].
  - destruct (ci_frames _ _ _ _ _ _ C) as (rdy & st & F1 & F2 & F3); [apply SN; discriminate|].
    rewrite H in F1. injection F1 as ->. repeat split; try discriminate. intros _. exists rdy. assumption.
  - destruct (ci_stop _ _ _ _ _ _ C) as [E|E]; rewrite H in E; [discriminate|]. injection E as ->.
    repeat split; try discriminate.
  - destruct bi; [|destruct (ci_uni _ _ _ _ _ _ C eq_refl); congruence].
    destruct (ci_frames _ _ _ _ _ _ C) as (rdy & st & F1 & F2 & F3); [apply SN; discriminate|].
    destruct (F3 eq_refl) as (G1 & _). rewrite H in G1. injection G1 as ->.
    repeat split; try discriminate. intros _. eapply prefix_trans; [|exact F2]. apply prefix_app_r.
  - destruct bi; [|destruct (ci_uni _ _ _ _ _ _ C eq_refl); congruence].
    destruct (ci_frames _ _ _ _ _ _ C) as (rdy & st & F1 & F2 & F3); [apply SN; discriminate|].
    destruct (F3 eq_refl) as (_ & acts & ss & s & G2 & G3). rewrite H in G2. injection G2 as ->.
    repeat split; try discriminate. intros _. eauto.
Qed.

Lemma good_history_dec nl cs : forall seen xs, good_history nl seen cs xs \/ ~ good_history nl seen cs xs.
Proof.
  induction cs as [|c cs IH]; intros seen [|[x d] xs]; cbn; auto.
  assert (D : good_result nl seen c x d \/ ~ good_result nl seen c x d).
  { destruct c; cbn; auto; destruct x, d, seen, nl; try (right; intuition congruence); try (left; intuition congruence). }
  destruct D; [|right; tauto]. destruct (IH (seen || opens c) xs); [left|right]; tauto.
Qed.

Lemma reader_get_control_truth o rw r fuel cs t tr xs c :
  fresh_rdwr rw -> reader_init o rw = Some r ->
  runs (rcalls_then_get fuel r cs t) tr (Done (xs, r_success, Some (Some c))) ->
  good_history false false cs xs -> handed_out_r (rw_has_write rw) tr t c.
Proof.
  intros F H R G. set (bi := rw_has_write rw).
  assert (W : wp (rcalls_then_get fuel r cs t) (fun h out => match out with
     | Done (xs, r_success, Some (Some c)) => good_history false false cs xs -> handed_out_r bi h t c
     | _ => True end) []).
  { unfold rcalls_then_get. apply wp_bind_i.
    eapply (wp_rcalls_CI false); [apply RI_init; eassumption|apply CI_init; eassumption|cbn;auto|cbn;auto| |].
    - intros h1 xs1 r1 ph1 seen1 I1 C1. unfold bind_post. apply wp_bind_i.
      assert (FIN : forall h2 r2 seen2, CI false bi (ro_cts o) r2 h2 seen2 ->
        wp (if t =? FSTRM_CONTROL_START then Ret (r_success, Some (r_start r2), r2)
            else if t =? FSTRM_CONTROL_STOP then Ret (r_success, Some (r_stop_c r2), r2)
            else if t =? FSTRM_CONTROL_READY then Ret (r_success, Some (r_ready r2), r2)
            else if t =? FSTRM_CONTROL_ACCEPT then Ret (r_success, Some (r_accept r2), r2)
            else Ret (r_failure, Some None, r2))
           (bind_post (fun z => match z with (x, oc, _) => Ret (xs1, x, oc) end) (fun h out => match out with
     | Done (xs, r_success, Some (Some c)) => good_history false false cs xs -> handed_out_r bi h t c
     | _ => True end)) h2).
      { intros h2 r2 seen2 C2. pose proof (fun c => CI_handed _ _ _ _ _ _ t c C2) as HH.
        destruct (t =? FSTRM_CONTROL_START) eqn:E1; [apply N.eqb_eq in E1; cbn; destruct (r_start r2); auto|].
        destruct (t =? FSTRM_CONTROL_STOP) eqn:E2; [apply N.eqb_eq in E2; cbn; destruct (r_stop_c r2); auto 6|].
        destruct (t =? FSTRM_CONTROL_READY) eqn:E3; [apply N.eqb_eq in E3; cbn; destruct (r_ready r2); auto 7|].
        destruct (t =? FSTRM_CONTROL_ACCEPT) eqn:E4; [apply N.eqb_eq in E4; cbn; destruct (r_accept r2); auto 7|].
        cbn. auto. }
      unfold reader_get_control. apply wp_bind_i. unfold reader_maybe_open.
      pose proof (ri_state _ _ _ _ _ _ _ I1) as St.
      destruct (CI_seen_cases _ _ _ _ _ _ _ _ I1 C1) as [[-> ->]|[-> NF]].
      + rewrite St. apply wp_bind_i. eapply wp_open_CI; [exact I1|exact C1|discriminate|cbn; auto| |]; unfold bind_post.
        * intros h2 r2 I2 C2. exact (FIN h2 r2 true C2).
        * intros h2 x r2 Hx. rewrite ne_eqb by assumption. cbn. rewrite ne_eqb by assumption. cbn.
          destruct x; auto; congruence.
      + assert (E : match r_state r1 with rs_opening => bind (reader_open r1) (fun z => match z with (x, r0) => if negb (res_eqb x r_success) then Ret (x, r0) else Ret (r_success, r0) end) | _ => Ret (r_success, r1) end = Ret (r_success, r1)).
        { rewrite St. destruct ph1; congruence. }
        rewrite E. cbn [wp]. unfold bind_post at 1. cbn [res_eqb negb]. exact (FIN h1 r1 true C1).
    - intros h' xs' r' NG. unfold bind_post. apply wp_bind_i. eapply wp_mono; [|apply wp_true].
      intros h2 [[[x2 oc] r2]|f|] _; cbn; auto. destruct x2; auto. destruct oc as [[?|]|]; auto. intro. contradiction. }
  exact (wp_runs _ _ W _ _ R G).
Qed.

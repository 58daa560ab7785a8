(** Proofs about the model of fstrm_capture: consequences for any stream. *)
From Coq Require Import ZArith Lia.
From Verif Require Import Bytes Spec SpecTrace SpecStream Control Bytes_proofs Control_proofs Capture SpecCapture
  Capture_proofs Capture2_proofs Capture3_proofs Capture4_proofs Capture5_proofs Capture6_proofs Capture7_proofs.
Import ListNotations.
Local Open Scope N_scope.

Lemma frag_bytes n r : n = 2 ^ 32 - 4 + N.of_nat r -> (0 < r < 4)%nat -> firstn r (be32 n) = repeat xff r.
Proof. intros -> H. assert (r = 1 \/ r = 2 \/ r = 3)%nat as [-> | [-> | ->]] by lia; reflexivity. Qed.

Lemma pieces_cons p ps : pieces (p :: ps) = piece_bytes p ++ pieces ps.
Proof. reflexivity. Qed.
Lemma frag_split n r more : n = 2 ^ 32 - 4 + N.of_nat r -> (0 < r < 4)%nat ->
  be32 n ++ more = piece_bytes (P_frag r) ++ skipn r (be32 n) ++ more.
Proof. intros E H. cbn [piece_bytes]. rewrite <- (frag_bytes n r E H), app_assoc, firstn_skipn. reflexivity. Qed.

Lemma ra_answers lost hw ct ph bs a q : reacts_any lost hw ct ph bs a q -> prefix (answers a) (replies ct ph).
Proof.
  induction 1 as [ph bs I C | ph f bs a q K C L R IH | ph p bs a q K C L R IH
    | ph p x ph' bs a q K L L2 A R IH | ph p bs K L N | ph p b ph' bs Lo K L L2 A | ph bs B | ph n r more a q En Hr R IH | ph more];
    try (exists (replies ct ph); reflexivity).
  - assumption.
  - exact IH.
  - destruct IH as [r IH]. exists r. rewrite answers_app. destruct A; cbn [replies app] in *; rewrite IH; reflexivity.
  - exact IH.
Qed.

Lemma ra_stores lost hw ct ph bs a q : reacts_any lost hw ct ph bs a q -> q <> Endless ->
  exists ps rest, Forall piece_ok ps /\ bs = pieces ps ++ rest /\
    stores a = map piece_bytes (filter (kept_piece hw) ps) /\ (q <> Shut -> incomplete rest).
Proof.
  induction 1 as [ph bs I C | ph f bs a q K C L R IH | ph p bs a q K C L R IH
    | ph p x ph' bs a q K L L2 A R IH | ph p bs K L N | ph p b ph' bs Lo K L L2 A | ph bs B | ph n r more a q En Hr R IH | ph more]; intro Hq.
  - exists [], bs. auto.
  - destruct (IH Hq) as (fs & rest & F1 & -> & F3 & F4). exists (P_frame f :: fs), rest.
    split; [constructor; assumption|]. rewrite pieces_cons, app_assoc. split; [reflexivity|]. split; [|assumption].
    cbn [filter kept_piece]. replace (kept hw f) with false; [assumption|].
    destruct f as [p|p]; cbn [kept wire1] in *; [lia|reflexivity].
  - destruct (IH Hq) as (fs & rest & F1 & -> & F3 & F4). exists (P_frame (F_data p) :: fs), rest.
    split; [constructor; assumption|]. rewrite pieces_cons, app_assoc. split; [reflexivity|]. split; [|assumption].
    cbn [filter kept_piece kept]. replace (lenN (data_frame p) <=? hw) with true by lia. cbn [map piece_bytes wire1].
    rewrite <- F3. reflexivity.
  - destruct (IH Hq) as (fs & rest & F1 & -> & F3 & F4). exists (P_frame (F_ctl p) :: fs), rest.
    split; [constructor; assumption|]. rewrite pieces_cons, app_assoc. split; [reflexivity|]. split; [|assumption].
    cbn [filter kept_piece kept]. rewrite stores_app, (advance_stores _ _ _ _ _ A). exact F3.
  - exists [P_frame (F_ctl p)], bs. split; [constructor; [assumption|constructor]|].
    split; [unfold pieces; cbn [map concat piece_bytes]; now rewrite app_nil_r|]. split; [reflexivity|congruence].
  - exists [P_frame (F_ctl p)], bs. split; [constructor; [assumption|constructor]|].
    split; [unfold pieces; cbn [map concat piece_bytes]; now rewrite app_nil_r|]. split; [reflexivity|congruence].
  - exists [], bs. split; [constructor|]. split; [reflexivity|]. split; [reflexivity|congruence].
  - destruct (IH Hq) as (fs & rest & F1 & E & F3 & F4). exists (P_frag r :: fs), rest.
    split; [constructor; assumption|]. split.
    { rewrite (frag_split n r more En Hr), E, pieces_cons, app_assoc. reflexivity. }
    split; [|assumption]. cbn [filter kept_piece map piece_bytes]. rewrite <- F3, <- (frag_bytes n r En Hr). reflexivity.
  - contradiction.
Qed.

Lemma ra_finish lost hw ct ph bs a q : reacts_any lost hw ct ph bs a q -> forall p, q = Open_at p ->
  (p = Ph_stop <-> ph = Ph_stop \/ In (Answer finish_frame) a).
Proof.
  induction 1 as [ph bs I C | ph f bs a q K C L R IH | ph p bs a q K C L R IH
    | ph p x ph' bs a q K L L2 A R IH | ph p bs K L N | ph p b ph' bs Lo K L L2 A | ph bs B | ph n r more a q En Hr R IH | ph more];
    intros p0 E; try discriminate.
  - injection E as <-. cbn [In]. tauto.
  - exact (IH _ E).
  - rewrite (IH _ E). cbn [In]. split; [intros [?|?]; auto|intros [?|[?|?]]; auto; discriminate].
  - rewrite (IH _ E). rewrite in_app_iff. destruct A; cbn [In].
    + split; [intros [?|?]; [discriminate|auto]|intros [?|[[?|[]]|?]]; auto; try discriminate].
    + split; [intros [?|?]; [discriminate|auto]|intros [?|[[]|?]]; auto; discriminate].
    + tauto.
  - rewrite (IH _ E). cbn [In]. split; [intros [?|?]; auto|intros [?|[?|?]]; auto; discriminate].
Qed.

(** ** The handshake *)
Lemma ra_stopped lost hw ct ph bs a q : reacts_any lost hw ct ph bs a q -> ph = Ph_stop -> q <> Open_at Ph_data.
Proof.
  induction 1 as [ph bs I C | ph f bs a q K C L R IH | ph p bs a q K C L R IH
    | ph p x ph' bs a q K L L2 A R IH | ph p bs K L N | ph p b ph' bs Lo K L L2 A | ph bs B | ph n r more a q En Hr R IH | ph more];
    intros ->; try congruence; auto.
  apply advance_inv in A. contradiction.
Qed.

Lemma ra_stay lost hw ct ph bs a q : reacts_any lost hw ct ph bs a q -> ph = Ph_data -> q = Open_at Ph_data ->
  exists ps rest, Forall (idle_piece hw) ps /\ bs = pieces ps ++ rest /\ incomplete rest.
Proof.
  induction 1 as [ph bs I C | ph f bs a q K C L R IH | ph p bs a q K C L R IH
    | ph p x ph' bs a q K L L2 A R IH | ph p bs K L N | ph p b ph' bs Lo K L L2 A | ph bs B | ph n r more a q En Hr R IH | ph more];
    intros Ep Eq; subst; try discriminate.
  - exists [], bs. auto.
  - destruct (IH eq_refl eq_refl) as (fs & rest & F & -> & Ir). exists (P_frame f :: fs), rest.
    split; [|split; [rewrite pieces_cons; now rewrite app_assoc|assumption]]. constructor; [|assumption].
    split; [assumption|]. destruct f; [exact I|assumption].
  - destruct (IH eq_refl eq_refl) as (fs & rest & F & -> & Ir). exists (P_frame (F_data p) :: fs), rest.
    split; [|split; [rewrite pieces_cons; now rewrite app_assoc|assumption]]. constructor; [|assumption].
    split; [assumption|exact I].
  - exfalso. apply advance_inv in A. destruct A as (_ & _ & ->). exact (ra_stopped _ _ _ _ _ _ _ R eq_refl eq_refl).
  - destruct (IH eq_refl eq_refl) as (fs & rest & F & E & Ir). exists (P_frag r :: fs), rest.
    split; [constructor; assumption|]. split; [|assumption].
    rewrite (frag_split _ r more eq_refl Hr), E, pieces_cons, app_assoc. reflexivity.
Qed.

Lemma ra_started lost hw ct ph bs a q : reacts_any lost hw ct ph bs a q -> ph = Ph_start -> q = Open_at Ph_data ->
  exists ps cts bs', Forall (idle_piece hw) ps /\ ctl_ok T_START cts /\ (cts = [] \/ In ct cts) /\
    bs = pieces ps ++ ctl_frame T_START cts ++ bs' /\
    exists ps' rest, Forall (idle_piece hw) ps' /\ bs' = pieces ps' ++ rest /\ incomplete rest.
Proof.
  induction 1 as [ph bs I C | ph f bs a q K C L R IH | ph p bs a q K C L R IH
    | ph p x ph' bs a q K L L2 A R IH | ph p bs K L N | ph p b ph' bs Lo K L L2 A | ph bs B | ph n r more a q En Hr R IH | ph more];
    intros Ep Eq; subst; try discriminate.
  - destruct (IH eq_refl eq_refl) as (fs & cts & bs' & F & F2 & F3 & -> & F4). exists (P_frame f :: fs), cts, bs'.
    split; [|split; [assumption|split; [assumption|split; [rewrite pieces_cons; now rewrite <- app_assoc|assumption]]]].
    constructor; [|assumption]. split; [assumption|]. destruct f; [exact I|assumption].
  - destruct (IH eq_refl eq_refl) as (fs & cts & bs' & F & F2 & F3 & -> & F4). exists (P_frame (F_data p) :: fs), cts, bs'.
    split; [|split; [assumption|split; [assumption|split; [rewrite pieces_cons; now rewrite <- app_assoc|assumption]]]].
    constructor; [|assumption]. split; [assumption|exact I].
  - apply advance_inv in A. destruct A as (cts & A1 & A2 & -> & -> & ->).
    exists [], cts, bs. split; [constructor|]. split; [assumption|]. split; [assumption|]. split; [reflexivity|].
    eapply ra_stay; [exact R|reflexivity|reflexivity].
  - destruct (IH eq_refl eq_refl) as (fs & cts & bs' & F & F2 & F3 & E & F4). exists (P_frag r :: fs), cts, bs'.
    split; [constructor; assumption|]. split; [assumption|]. split; [assumption|]. split; [|assumption].
    rewrite (frag_split _ r more eq_refl Hr), E, pieces_cons, <- app_assoc. reflexivity.
Qed.

Lemma ra_negotiated lost hw ct ph bs a q : reacts_any lost hw ct ph bs a q -> ph = Ph_ready -> q = Open_at Ph_data ->
  exists ps1 cts1 ps2 cts2 ps3 rest,
    bs = pieces ps1 ++ ctl_frame T_READY cts1 ++ pieces ps2 ++ ctl_frame T_START cts2 ++ pieces ps3 ++ rest /\
    ctl_ok T_READY cts1 /\ (cts1 = [] \/ In ct cts1) /\
    ctl_ok T_START cts2 /\ (cts2 = [] \/ In ct cts2) /\
    Forall (idle_piece hw) (ps1 ++ ps2 ++ ps3) /\ incomplete rest.
Proof.
  induction 1 as [ph bs I C | ph f bs a q K C L R IH | ph p bs a q K C L R IH
    | ph p x ph' bs a q K L L2 A R IH | ph p bs K L N | ph p b ph' bs Lo K L L2 A | ph bs B | ph n r more a q En Hr R IH | ph more];
    intros Ep Eq; subst; try discriminate.
  - destruct (IH eq_refl eq_refl) as (fs1 & c1 & fs2 & c2 & fs3 & rest & -> & F). exists (P_frame f :: fs1), c1, fs2, c2, fs3, rest.
    split; [rewrite pieces_cons; now rewrite <- app_assoc|]. destruct F as (F1 & F2 & F3 & F4 & F5 & F6).
    repeat (split; [assumption|]). split; [|assumption]. cbn [app]. constructor; [|assumption].
    split; [assumption|]. destruct f; [exact I|assumption].
  - destruct (IH eq_refl eq_refl) as (fs1 & c1 & fs2 & c2 & fs3 & rest & -> & F). exists (P_frame (F_data p) :: fs1), c1, fs2, c2, fs3, rest.
    split; [rewrite pieces_cons; now rewrite <- app_assoc|]. destruct F as (F1 & F2 & F3 & F4 & F5 & F6).
    repeat (split; [assumption|]). split; [|assumption]. cbn [app]. constructor; [|assumption]. split; [assumption|exact I].
  - apply advance_inv in A. destruct A as (cts & A1 & A2 & -> & -> & ->).
    destruct (ra_started _ _ _ _ _ _ _ R eq_refl eq_refl) as (fs & cts2 & bs' & F1 & F2 & F3 & -> & fs' & rest & F4 & -> & F5).
    exists [], cts, fs, cts2, fs', rest. split; [reflexivity|]. repeat (split; [assumption|]).
    split; [|assumption]. cbn [app]. now apply Forall_app.
  - destruct (IH eq_refl eq_refl) as (fs1 & c1 & fs2 & c2 & fs3 & rest & E & F). exists (P_frag r :: fs1), c1, fs2, c2, fs3, rest.
    split; [rewrite (frag_split _ r more eq_refl Hr), E, pieces_cons, <- app_assoc; reflexivity|].
    destruct F as (F1 & F2 & F3 & F4 & F5 & F6).
    repeat (split; [assumption|]). split; [|assumption]. cbn [app]. constructor; assumption.
Qed.

(** ** Whole runs *)
Lemma any_answers e a H c id : reach e a H c ->
  prefix (answers (acts_of id (x_log c))) [ctl_frame T_ACCEPT [a_ctype a]; finish_frame].
Proof.
  intro R. destruct (run_reacts_any true e a H c id (or_intror eq_refl) R) as (q & _ & Q & _). exact (ra_answers _ _ _ _ _ _ _ Q).
Qed.

Lemma any_verbatim e a H c id : reach e a H c ->
  exists ps rest, Forall piece_ok ps /\ received id H = pieces ps ++ rest /\
    stores (acts_of id (x_log c)) = map piece_bytes (filter (kept_piece (capture_highwater a)) ps) /\
    (find_conn id (x_conns c) <> None -> incomplete rest).
Proof.
  intro R. destruct (run_reacts_any true e a H c id (or_intror eq_refl) R) as (q & Hq & Q & A).
  destruct (ra_stores _ _ _ _ _ _ _ Q Hq) as (ps & rest & B1 & B2 & B3 & B4). exists ps, rest.
  repeat (split; [assumption|]). intro F. apply B4. destruct (find_conn id (x_conns c)) as [k|]; [|contradiction].
  rewrite (A k eq_refl). discriminate.
Qed.

Lemma any_negotiated e a H c id k : reach e a H c ->
  find_conn id (x_conns c) = Some k -> phase_of (k_state k) = Ph_data ->
  exists ps1 cts1 ps2 cts2 ps3 rest,
    received id H = pieces ps1 ++ ctl_frame T_READY cts1 ++ pieces ps2 ++ ctl_frame T_START cts2 ++ pieces ps3 ++ rest /\
    ctl_ok T_READY cts1 /\ (cts1 = [] \/ In (a_ctype a) cts1) /\
    ctl_ok T_START cts2 /\ (cts2 = [] \/ In (a_ctype a) cts2) /\
    Forall (idle_piece (capture_highwater a)) (ps1 ++ ps2 ++ ps3) /\ incomplete rest.
Proof.
  intros R F P. destruct (run_reacts_any true e a H c id (or_intror eq_refl) R) as (q & _ & Q & A).
  apply (ra_negotiated _ _ _ _ _ _ _ Q eq_refl). rewrite (A _ F), P. reflexivity.
Qed.

Lemma any_written_closes e a H c id c' : reach e a H c ->
  legal a H c (E_written id) -> step e a (E_written id) c = Go c' ->
  (find_conn id (x_conns c') = None <-> In (Answer finish_frame) (acts_of id (x_log c))).
Proof.
  intros R L S. destruct (run_reacts_any true e a H c id (or_intror eq_refl) R) as (q & _ & Q1 & Q2). cbn [legal step] in *.
  destruct (find_conn id (x_conns c)) as [k|] eqn:F; [|contradiction].
  pose proof (ra_finish _ _ _ _ _ _ _ Q1 _ (Q2 k eq_refl)) as E. injection S as <-.
  assert (N : NoDup (map fst (x_conns c))) by exact (cn_nodup _ _ _ (proj1 (reach_inv _ _ _ _ R))).
  unfold cb_write. destruct (k_state k); cbn [phase_of] in E.
  1,2,3: rewrite F; split; [discriminate|]; intro X; apply or_intror with (A := Ph_ready = Ph_stop) in X; apply E in X; discriminate.
  cbn [cb_close_conn x_conns set_conns]. rewrite (find_remove_self id _ N). destruct E as [E _].
  split; [|reflexivity]. intros _. destruct (E eq_refl) as [|X]; [discriminate|exact X].
Qed.

(** What reaches the files. *)
Lemma any_stored e a H c : reach e a H c -> Forall (storable (capture_highwater a)) (stored (x_log c)).
Proof.
  intro R. apply Forall_forall. intros b I. apply in_stored in I as (id & I). apply stored_in_acts, in_stores in I.
  destruct (any_verbatim e a H c id R) as (ps & rest & F1 & _ & F3 & _). rewrite F3 in I.
  apply in_map_iff in I as (f & <- & I). apply filter_In in I as [I K].
  rewrite Forall_forall in F1. specialize (F1 _ I). destruct f as [[p|p]|r]; cbn [kept_piece kept] in K; [|discriminate|].
  - left. exists p. split; [exact F1|]. split; [lia|reflexivity].
  - right. exists r. split; [exact F1|reflexivity].
Qed.

Lemma any_files e a H c c' : reach e a H c -> shutdown e c = Go c' ->
  exists files, map snd (x_outs c') = map (fun bs => start_frame (Some (a_ctype a)) ++ concat bs ++ stop_frame) files /\
    concat files = stored (x_log c) /\ Forall (storable (capture_highwater a)) (concat files) /\
    map fst (x_outs c') = map fst (x_outs c).
Proof.
  intros R Hs. destruct (reach_inv _ _ _ _ R) as [_ F]. unfold shutdown in Hs.
  destruct (close_write_file e c) as [[[|] c1]| | |] eqn:C; cbn [rbind] in Hs; try discriminate. injection Hs as <-.
  destruct (close_write_file_inv _ _ _ _ _ F C) as (_ & C1 & _ & C2).
  destruct (C2 eq_refl) as (_ & (fss & C3 & C4) & C5). exists fss. split.
  - rewrite C3. apply map_ext. intro x. unfold body. now rewrite <- app_assoc.
  - rewrite C1 in C4. split; [exact C4|]. split; [|exact C5]. pose proof (any_stored _ _ _ _ R) as Y. rewrite <- C4 in Y. exact Y.
Qed.

Lemma ra_drop hw ct f fs : Forall (fun g => frame_ok g /\ calm (wire1 g)) fs -> frame_ok f -> calm (wire1 f) -> hw < lenN (wire1 f) ->
  forall ph rest a q, reacts_any false hw ct ph (wire fs ++ wire1 f ++ rest) a q -> reacts_any false hw ct ph (wire fs ++ rest) a q.
Proof.
  intros F K C L. induction F as [|g fs [Kg Cg] F IH]; intros ph rest a q R.
  - apply ra_frame in R; [|assumption|assumption]. destruct R as [(_ & R)|[(L' & _)|[(L' & _)|[(L' & _)|([=] & _)]]]]; [exact R| | |]; lia.
  - rewrite wire_cons, <- app_assoc in *. apply ra_frame in R; [|assumption|assumption].
    destruct R as [(L' & R)|[(L' & p & a' & -> & -> & R)|[(L' & L5 & p & x & ph' & a' & -> & A & -> & R)|[(L' & p & -> & N & -> & ->)|([=] & _)]]]].
    + apply ra_skip; auto.
    + cbn [wire1] in *. apply ra_data; auto.
    + eapply ra_ctl; eauto.
    + apply ra_refuse; auto.
Qed.

Lemma any_skip e a H c id e' H' c' id' fs f rest :
  sends e -> sends e' -> reach e a H c -> reach e' a H' c' ->
  Forall frame_ok (f :: fs) -> Forall (fun g => forall n, ~ huge n (wire1 g)) (f :: fs) -> capture_highwater a < lenN (wire1 f) ->
  received id H = wire fs ++ wire1 f ++ rest -> received id' H' = wire fs ++ rest ->
  acts_of id (x_log c) = acts_of id' (x_log c').
Proof.
  intros S S' R R' F G L E E'. inversion F as [|? ? K F']; inversion G as [|? ? C G']; subst.
  destruct (run_reacts_any false e a H c id (or_introl S) R) as (q & _ & Q & _).
  destruct (run_reacts_any false e' a H' c' id' (or_introl S') R') as (q' & _ & Q' & _).
  rewrite E in Q. rewrite E' in Q'.
  assert (FG : Forall (fun g => frame_ok g /\ calm (wire1 g)) fs).
  { apply Forall_forall. intros g I. rewrite Forall_forall in F', G'. split; [now apply F'|exact (G' g I)]. }
  apply (ra_drop _ _ f fs FG K C L) in Q. exact (eq_sym (proj1 (ra_fun _ _ _ _ _ _ _ _ Q Q'))).
Qed.

(** On streams without such announcements, the two descriptions agree. *)
Definition as_fate (q : option phase) : fate := match q with Some p => Open_at p | None => Shut end.
Lemma tame_calm bs : tame bs -> calm bs.
Proof. intro T. apply calm_intro. now apply tame_head. Qed.
Lemma reacts_any_tame hw ct ph bs a q : reacts hw ct ph bs a q -> tame bs -> reacts_any false hw ct ph bs a (as_fate q).
Proof.
  induction 1 as [ph bs I | ph f bs a q K L R IH | ph p bs a q K L R IH
    | ph p x ph' bs a q K L L2 A R IH | ph p bs K L N | ph bs B]; intro T.
  - apply ra_wait; [exact I|now apply tame_calm].
  - apply ra_skip; [exact K|exact (calm_left _ _ (tame_calm _ T))|exact L|]. apply IH. eapply tame_frame; eassumption.
  - apply ra_data; [exact K|exact (calm_left _ _ (tame_calm _ T))|exact L|]. apply IH. eapply (tame_frame (F_data p)); eassumption.
  - eapply ra_ctl; [exact K|exact L|exact L2|exact A|]. apply IH. eapply tame_frame; eassumption.
  - now apply ra_refuse.
  - now apply ra_badlen.
Qed.

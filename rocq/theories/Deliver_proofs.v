(** From the results of a writer's calls to what the capture server stored. *)
From Coq Require Import ZArith Lia.
From Verif Require Import Bytes Spec SpecTrace SpecStream Control Bytes_proofs Control_proofs Io Io_proofs Rdwr Rdwr_proofs
  Writer Api SpecApi Writer_proofs Writer5_proofs SpecDeliver Reader File System2_proofs Capture SpecCapture
  Capture_proofs Capture2_proofs Capture3_proofs Capture4_proofs Capture5_proofs Capture6_proofs Capture7_proofs Capture8_proofs.
Import ListNotations.
Local Open Scope N_scope.

(** ** The server on a prefix of a known stream *)
Definition stop_ctl : frame := F_ctl (ctl_payload T_STOP []).
Definition plain (f : frame) : Prop := frame_ok f /\ calm (wire1 f).

Lemma prefix_frame f bs fs : frame_ok f -> Forall plain fs -> prefix (wire1 f ++ bs) (wire fs) ->
  exists fs', fs = f :: fs' /\ Forall plain fs' /\ prefix bs (wire fs').
Proof.
  intros K F [r E]. destruct F as [|g fs [Kg _] F].
  { exfalso. pose proof (wire1_4 f) as L. apply (f_equal lenN) in E. change (wire []) with (@nil byte) in E.
    rewrite !lenN_app, lenN_nil in E. lia. }
  rewrite wire_cons, <- app_assoc in E. apply wire1_inj in E as [-> E]; [|assumption|assumption].
  exists fs. split; [reflexivity|]. split; [assumption|]. exists r. exact E.
Qed.

Lemma answers_in_finish ct ph p x ph' : advance ct ph p x ph' -> In finish_frame (answers x) ->
  F_ctl p = stop_ctl.
Proof.
  intros [cts _ _|cts _ _|] A.
  - cbn in A. destruct A as [A|[]]. exfalso. unfold finish_frame, ctl_frame in A.
    apply (f_equal (skipn 8)) in A. cbn [be32 app skipn] in A. revert A.
    unfold ctl_payload. cbn. discriminate.
  - destruct A.
  - reflexivity.
Qed.

Lemma ra_prefix lost hw ct ph bs a q : reacts_any lost hw ct ph bs a q ->
  forall fs, Forall plain fs -> prefix bs (wire fs) ->
  exists fs1 fs2, fs = fs1 ++ fs2 /\ stores a = map wire1 (filter (kept hw) fs1) /\
    (In finish_frame (answers a) -> In stop_ctl fs1).
Proof.
  induction 1 as [ph bs I C | ph f bs a q K C L R IH | ph p bs a q K C L R IH
    | ph p x ph' bs a q K L L2 A R IH | ph p bs K L N | ph p b ph' bs Lo K L L2 A | ph bs B | ph n r more a q En Hr R IH | ph more];
    intros fs F P; try (exists [], fs; split; [reflexivity|]; split; [reflexivity|intros []]).
  - destruct (prefix_frame f bs fs K F P) as (fs' & -> & F' & P').
    destruct (IH fs' F' P') as (fs1 & fs2 & -> & E & X). exists (f :: fs1), fs2. split; [reflexivity|].
    split; [|intro Y; right; auto]. cbn [filter]. replace (kept hw f) with false; [exact E|].
    destruct f as [p|p]; cbn [kept wire1] in *; [lia|reflexivity].
  - destruct (prefix_frame (F_data p) bs fs K F P) as (fs' & -> & F' & P').
    destruct (IH fs' F' P') as (fs1 & fs2 & -> & E & X). exists (F_data p :: fs1), fs2. split; [reflexivity|].
    split; [|intro Y; right; auto]. cbn [filter kept]. replace (lenN (data_frame p) <=? hw) with true by lia.
    cbn [map wire1]. rewrite <- E. reflexivity.
  - destruct (prefix_frame (F_ctl p) bs fs K F P) as (fs' & -> & F' & P').
    destruct (IH fs' F' P') as (fs1 & fs2 & -> & E & X). exists (F_ctl p :: fs1), fs2. split; [reflexivity|].
    split; [cbn [filter kept]; rewrite stores_app, (advance_stores _ _ _ _ _ A); exact E|].
    rewrite answers_app. intro Y. apply in_app_or in Y as [Y|Y]; [left; eapply answers_in_finish; eassumption|right; auto].
  - exfalso. destruct F as [|g fs [Kg Cg] F].
    { destruct P as [r' P]. apply (f_equal lenN) in P. change (wire []) with (@nil byte) in P. rewrite !lenN_app, lenN_be32, lenN_nil in P. lia. }
    destruct P as [r' P]. rewrite wire_cons in P.
    apply (calm_app _ (wire fs)) in Cg; [|apply wire1_4]. rewrite P in Cg. rewrite <- app_assoc in Cg.
    apply (Cg n). apply be32_huge. lia.
Qed.

Lemma fit_kept a ds : map wire1 (filter (kept (capture_highwater a)) (map F_data ds)) = map data_frame (fit a ds).
Proof.
  unfold fit. induction ds as [|d ds IH]; [reflexivity|]. cbn [map filter kept].
  destruct (lenN (data_frame d) <=? capture_highwater a); cbn [map wire1]; rewrite IH; reflexivity.
Qed.

Lemma wire_datas ds : wire (map F_data ds) = datas ds.
Proof. unfold wire, datas. rewrite map_map. reflexivity. Qed.

Lemma wire_app a b : wire (a ++ b) = wire a ++ wire b.
Proof. unfold wire. rewrite map_app, concat_app. reflexivity. Qed.

Lemma plain_data d : ordinary d -> plain (F_data d).
Proof.
  intros [L1 L2]. split; [cbn; unfold data_ok; lia|]. apply calm_intro. intros _. cbn [wire1]. unfold data_frame.
  rewrite ntohl_be32_small by lia. exact L2.
Qed.
Lemma plain_ctl t cts : lenN (ctl_payload t cts) <= CTL_MAX -> plain (F_ctl (ctl_payload t cts)).
Proof.
  intro L. split; [cbn; pose proof (payload_ge4 t cts); lia|]. apply calm_ctl.
Qed.

(** A client that was sent FINISH on a session of its own had all its data
    that fit stored. *)
Lemma finished_stored e a H c id cts ct ds :
  reach e a H c -> lenN (ctl_payload T_READY cts) <= CTL_MAX -> lenN (ctl_payload T_START (optl ct)) <= CTL_MAX ->
  Forall ordinary ds ->
  prefix (SpecCapture.received id H) (ready_frame cts ++ start_frame ct ++ datas ds ++ stop_frame) ->
  In finish_frame (answers (acts_of id (x_log c))) ->
  stores (acts_of id (x_log c)) = map data_frame (fit a ds).
Proof.
  intros R L1 L2 F P A.
  destruct (run_reacts_any true e a H c id (or_intror eq_refl) R) as (q & Q0 & Q & _).
  set (fs := F_ctl (ctl_payload T_READY cts) :: F_ctl (ctl_payload T_START (optl ct)) :: map F_data ds ++ [stop_ctl]).
  assert (W : wire fs = ready_frame cts ++ start_frame ct ++ datas ds ++ stop_frame).
  { unfold fs. rewrite !wire_cons, wire_app, wire_datas. unfold wire at 1. cbn [map concat wire1 stop_ctl].
    rewrite app_nil_r. reflexivity. }
  assert (PF : Forall plain fs).
  { unfold fs. constructor; [apply plain_ctl, L1|]. constructor; [apply plain_ctl, L2|]. apply Forall_app. split.
    - apply Forall_map. eapply Forall_impl; [|exact F]. apply plain_data.
    - constructor; [|constructor]. apply plain_ctl. vm_compute. discriminate. }
  rewrite <- W in P. destruct (ra_prefix _ _ _ _ _ _ _ Q fs PF P) as (fs1 & fs2 & E & S & X). specialize (X A).
  assert (E2 : fs2 = []).
  { destruct fs2 as [|g fs2] using rev_ind; [reflexivity|]. exfalso. clear IHfs2.
    unfold fs in E. change (F_ctl (ctl_payload T_READY cts) :: F_ctl (ctl_payload T_START (optl ct)) :: map F_data ds ++ [stop_ctl])
      with ((F_ctl (ctl_payload T_READY cts) :: F_ctl (ctl_payload T_START (optl ct)) :: map F_data ds) ++ [stop_ctl]) in E.
    rewrite app_assoc in E. apply app_inj_tail in E as [E _].
    assert (J : In stop_ctl (fs1 ++ fs2)) by (apply in_or_app; auto). rewrite <- E in J.
    cbn [In] in J. destruct J as [J|[J|J]].
    - apply (f_equal (fun f => match f with F_ctl p => firstn 4 p | F_data p => [] end)) in J. discriminate J.
    - apply (f_equal (fun f => match f with F_ctl p => firstn 4 p | F_data p => [] end)) in J. discriminate J.
    - apply in_map_iff in J as (d & J & _). discriminate J. }
  subst fs2. rewrite app_nil_r in E. subst fs1. rewrite S. unfold fs. cbn [filter kept].
  rewrite filter_app. cbn [filter kept stop_ctl]. rewrite app_nil_r. apply fit_kept.
Qed.

(** Both answers were received, so both were sent. *)
Lemma both_answers e a H c id acts fin :
  reach e a H c -> ctl_ok T_ACCEPT acts ->
  prefix (ctl_frame T_ACCEPT acts ++ ctl_frame T_FINISH fin) (concat (answers (acts_of id (x_log c)))) ->
  In finish_frame (answers (acts_of id (x_log c))).
Proof.
  intros R K P. destruct (any_answers e a H c id R) as [r E].
  destruct (answers (acts_of id (x_log c))) as [|x [|y [|z l]]] eqn:EA.
  - exfalso. destruct P as [s P]. cbn in P. discriminate P.
  - exfalso. cbn [app] in E. injection E as E _. destruct P as [s P]. cbn [concat] in P. rewrite <- E in P.
    destruct (reach_inv _ _ _ _ R) as [_ (Hct & _)].
    change (ctl_frame T_ACCEPT [a_ctype a]) with (wire1 (F_ctl (ctl_payload T_ACCEPT [a_ctype a]))) in P.
    change (ctl_frame T_ACCEPT acts) with (wire1 (F_ctl (ctl_payload T_ACCEPT acts))) in P.
    rewrite <- app_assoc in P. apply wire1_inj in P as [_ P]; [discriminate P| |].
    + apply plain_ctl. unfold ctl_payload, ct_field, CTL_MAX. cbn [map concat]. rewrite !lenN_app, !lenN_be32, lenN_nil. lia.
    + apply plain_ctl, K.
  - injection E as _ E _. right. left. symmetry. exact E.
  - discriminate E.
Qed.

Lemma fits_start cts ct : fits true T_READY cts -> start_choice true cts ct -> lenN (ctl_payload T_START (optl ct)) <= CTL_MAX.
Proof.
  intros [F _] [-> | (x & -> & I)]; [vm_compute; discriminate|]. rewrite Forall_forall in F. specialize (F x I).
  unfold ctl_payload, ct_field, CTL_MAX, CT_MAX in *. cbn [optl map concat]. rewrite !lenN_app, !lenN_be32, lenN_nil. lia.
Qed.

Lemma fits_payload t cts : fits true t cts -> lenN (ctl_payload t cts) <= CTL_MAX.
Proof. intros [_ L]. cbn [ctl_wire] in L. unfold ctl_frame in L. rewrite !lenN_app in L. lia. Qed.

Lemma closed_stored e a H c id cs rs :
  reach e a H c -> confirmed H c id cs rs -> Forall ordinary (since_close [] cs rs) ->
  stores (acts_of id (x_log c)) = map data_frame (fit a (since_close [] cs rs)).
Proof.
  intros RE [iovm cts rw w cs0 rs0 tr w' FR HR Hi Hw Hok RU [(before & sent & ES & PO) PI']] MD.
  destruct (close_confirms (fun _ => true) eq_refl _ _ _ _ _ _ _ _ FR Hi Hw Hok RU) as (_ & ss & ct & E & SC & B).
  rewrite HR in *. destruct (B eq_refl) as (FT & acts & fin & K & ER).
  change (sessions _ tr) with (attempted tr) in E. rewrite ES in E. apply app_inj_tail in E as [_ E]. subst sent.
  rewrite ER in PI'. pose proof (both_answers _ _ _ _ _ _ _ RE K PI') as A.
  unfold session_head in PO. rewrite <- app_assoc in PO.
  eapply finished_stored; eauto.
  - apply fits_payload, FT.
  - eapply fits_start; eassumption.
Qed.

(** ** Into the files *)
Lemma subseq_refl {A} (l : list A) : subseq l l.
Proof. induction l; constructor; assumption. Qed.
Lemma subseq_nil {A} (l : list A) : subseq [] l.
Proof. induction l; constructor; assumption. Qed.

Lemma stores_stored id l : subseq (stores (acts_of id l)) (stored l).
Proof.
  induction l as [|[i x] l IH]; [constructor|].
  assert (E1 : acts_of id ((i, x) :: l) = (if Nat.eqb i id then [x] else []) ++ acts_of id l) by reflexivity.
  assert (E2 : stored ((i, x) :: l) = stores [x] ++ stored l) by (destruct x; reflexivity).
  rewrite E1, E2, stores_app. destruct (Nat.eqb i id).
  - destruct x; try exact IH. apply sub_take, IH.
  - destruct x; try exact IH. apply sub_skip, IH.
Qed.

Lemma subseq_unmap {A B} (f : A -> B) (inj : forall x y, f x = f y -> x = y) a : forall b, subseq (map f a) (map f b) -> subseq a b.
Proof.
  intros b S. remember (map f a) as x eqn:Ex. remember (map f b) as y eqn:Ey. revert a b Ex Ey.
  induction S as [|z x y S IH|z x y S IH]; intros a b Ex Ey.
  - destruct a; [|discriminate]. destruct b; [constructor|discriminate].
  - destruct b as [|b0 b]; [discriminate|]. injection Ey as -> ->. apply sub_skip. now apply IH.
  - destruct b as [|b0 b]; [discriminate|]. destruct a as [|a0 a]; [discriminate|]. injection Ey as -> ->. injection Ex as E ->.
    apply inj in E. subst. apply sub_take. now apply IH.
Qed.

Lemma data_frame_inj x y : data_frame x = data_frame y -> x = y.
Proof. unfold data_frame. intro E. apply (f_equal (skipn 4)) in E. exact E. Qed.

Lemma closed_in_files e a H c id cs rs c' :
  reach e a H c -> confirmed H c id cs rs -> Forall ordinary (since_close [] cs rs) ->
  shutdown e c = Go c' ->
  exists files, map snd (x_outs c') = map (fun bs => start_frame (Some (a_ctype a)) ++ concat bs ++ stop_frame) files /\
    subseq (map data_frame (fit a (since_close [] cs rs))) (concat files).
Proof.
  intros RE CN MD SH. pose proof (closed_stored _ _ _ _ _ _ _ RE CN MD) as S.
  destruct (any_files _ _ _ _ _ RE SH) as (files & E1 & E2 & _). exists files. split; [exact E1|].
  rewrite E2, <- S. apply stores_stored.
Qed.

(** ** Reading the files *)
Definition whole (hw : N) (b : bytes) : Prop := exists p, data_ok p /\ lenN (data_frame p) <= hw /\ b = data_frame p.

Lemma tame_be32 n more : tame (be32 n ++ more) -> n < 2 ^ 32 -> n < 2 ^ 32 - 4.
Proof.
  intros T L. specialize (T [] (be32 n ++ more) (Forall_nil _) eq_refl). rewrite lenN_app, lenN_be32 in T.
  specialize (T ltac:(lia)). rewrite firstn_app_exact in T by reflexivity. rewrite <- ntohl_be_value in T by reflexivity.
  rewrite <- (app_nil_r (be32 _)), ntohl_be32_small in T by lia. exact T.
Qed.

Lemma ra_whole lost hw ct ph bs a q : reacts_any lost hw ct ph bs a q -> tame bs -> Forall (whole hw) (stores a).
Proof.
  induction 1 as [ph bs I C | ph f bs a q K C L R IH | ph p bs a q K C L R IH
    | ph p x ph' bs a q K L L2 A R IH | ph p bs K L N | ph p b ph' bs Lo K L L2 A | ph bs B | ph n r more a q En Hr R IH | ph more];
    intro T; try constructor.
  - apply IH. eapply tame_frame; eassumption.
  - exists p. auto.
  - apply IH. eapply (tame_frame (F_data p)); eassumption.
  - rewrite stores_app, (advance_stores _ _ _ _ _ A). apply IH. eapply (tame_frame (F_ctl p)); eassumption.
  - exfalso. apply tame_be32 in T; lia.
  - exfalso. apply tame_be32 in T; lia.
Qed.

Lemma in_stored b l : In b (stored l) -> exists id, In b (stores (acts_of id l)).
Proof.
  induction l as [|[i x] l IH]; [intros []|].
  assert (E2 : stored ((i, x) :: l) = stores [x] ++ stored l) by (destruct x; reflexivity).
  assert (E1 : forall id, acts_of id ((i, x) :: l) = (if Nat.eqb i id then [x] else []) ++ acts_of id l) by reflexivity.
  rewrite E2. intro I. apply in_app_or in I as [I|I].
  - exists i. rewrite E1, Nat.eqb_refl, stores_app. apply in_or_app. auto.
  - destruct (IH I) as [id J]. exists id. rewrite E1, stores_app. apply in_or_app. auto.
Qed.

Lemma whole_files hw (files : list (list bytes)) : Forall (whole hw) (concat files) ->
  exists dss, files = map (map data_frame) dss /\ Forall (fun p => data_ok p /\ lenN (data_frame p) <= hw) (concat dss).
Proof.
  induction files as [|f files IH]; intro F; [exists []; split; [reflexivity|constructor]|].
  cbn [concat] in F. apply Forall_app in F as [F1 F2]. destruct (IH F2) as (dss & -> & D).
  assert (X : exists ds, f = map data_frame ds /\ Forall (fun p => data_ok p /\ lenN (data_frame p) <= hw) ds).
  { clear - F1. induction F1 as [|b f (p & K & L & ->) F IH]; [exists []; split; [reflexivity|constructor]|].
    destruct IH as (ds & -> & D). exists (p :: ds). split; [reflexivity|]. constructor; auto. }
  destruct X as (ds & -> & D1). exists (ds :: dss). split; [reflexivity|]. cbn [concat]. apply Forall_app. auto.
Qed.

Lemma forall_concat {A} (P : A -> Prop) l : Forall P (concat l) -> Forall (Forall P) l.
Proof.
  induction l as [|x l IH]; intro F; [constructor|]. cbn [concat] in F. apply Forall_app in F as [F1 F2]. constructor; auto.
Qed.

Lemma stored_read_back e a H c c' o hr r :
  reach e a H c -> (forall id, tame (SpecCapture.received id H)) -> shutdown e c = Go c' ->
  reader_init o (file_reader_rdwr hr) = Some r -> ro_cts o = [] \/ In (a_ctype a) (ro_cts o) ->
  capture_highwater a <= ro_max o + 4 ->
  exists files, Forall2 (fun out ds => reads_as r (snd out) ds) (x_outs c') files /\
    forall id ds, stores (acts_of id (x_log c)) = map data_frame ds -> subseq ds (concat files).
Proof.
  intros RE T SH RI AC HW. destruct (any_files _ _ _ _ _ RE SH) as (files & E1 & E2 & _).
  assert (F : Forall (whole (capture_highwater a)) (concat files)).
  { rewrite E2. apply Forall_forall. intros b I. apply in_stored in I as [id I].
    destruct (run_reacts_any true e a H c id (or_intror eq_refl) RE) as (q & _ & Q & _).
    pose proof (ra_whole _ _ _ _ _ _ _ Q (T id)) as W. rewrite Forall_forall in W. auto. }
  destruct (whole_files _ _ F) as (dss & -> & D). exists dss. split.
  - destruct (reach_inv _ _ _ _ RE) as [_ (Hct & _)]. apply forall_concat in D. clear - E1 RI AC HW D Hct.
    revert dss E1 D. induction (x_outs c') as [|[n x] outs IH]; intros [|ds dss] E1 D; try discriminate E1; constructor.
    + cbn [map snd] in E1 |- *. injection E1 as -> E1. inversion_clear D as [|? ? D1 D2]. intros fuel m Hf.
      apply (file_read_back [a_ctype a] hr o r fuel m ds).
      * constructor; [exact Hct|constructor].
      * exact RI.
      * destruct AC as [AC|AC]; [left; exact AC|right; right; exists (a_ctype a); split; [reflexivity|exact AC]].
      * eapply Forall_impl; [|exact D1]. intros p [K L]. split; [exact K|]. unfold data_frame in L. rewrite lenN_app, lenN_be32 in L. lia.
      * exact Hf.
    + cbn [map] in E1. injection E1 as _ E1. inversion_clear D as [|? ? D1 D2]. apply IH; assumption.
  - intros id ds ES. apply (subseq_unmap data_frame data_frame_inj).
    assert (EE : map data_frame (concat dss) = stored (x_log c)) by (rewrite concat_map; exact E2).
    rewrite EE, <- ES. apply stores_stored.
Qed.

Lemma captured_read_back e a H c c' o hr r :
  reach e a H c -> (forall id, tame (SpecCapture.received id H)) -> shutdown e c = Go c' ->
  reader_init o (file_reader_rdwr hr) = Some r -> ro_cts o = [] \/ In (a_ctype a) (ro_cts o) ->
  capture_highwater a <= ro_max o + 4 ->
  exists files, Forall2 (fun out ds => reads_as r (snd out) ds) (x_outs c') files /\
    forall id cs rs, confirmed H c id cs rs -> Forall ordinary (since_close [] cs rs) ->
      subseq (fit a (since_close [] cs rs)) (concat files).
Proof.
  intros RE T SH RI AC HW. destruct (stored_read_back _ _ _ _ _ _ _ _ RE T SH RI AC HW) as (files & F & G). exists files. split; [exact F|].
  intros id cs rs CF OR. apply (G id). exact (closed_stored _ _ _ _ _ _ _ RE CF OR).
Qed.

(** A writer whose transport never fails, on a bi-directional transport: when it
    is gone, its last session was either never started or was closed after
    something had been read beyond the answer ACCEPT. *)
From Verif Require Import Bytes Spec Bytes_proofs Io Io_proofs SpecTrace SpecStream Control Control_proofs Rdwr Rdwr_proofs Writer Api SpecApi
  Writer_proofs Writer2_proofs Writer4_proofs SpecDeliver Writer5_proofs Iothr SpecIothr SpecClient Iothr_proofs Iothr2_proofs Iothr3_proofs Iothr4_proofs
  Tools4_proofs Iothr7_proofs.
Local Open Scope N_scope.

Definition anyev (e : event) : Prop := True.
Lemma ev_any {A} (p : io A) : evp anyev p.
Proof.
  intro h. apply wp_complete. intros tr o _. exists tr. split; [reflexivity|]. apply Forall_forall. intros; exact I.
Qed.
Lemma wp_ext {A} (p : io A) (Q : post A) h : wp p Q h -> wp p (fun h' o => (exists tr, h' = h ++ tr) /\ Q h' o) h.
Proof. intro W. eapply wp_mono; [|apply (evp_wp _ _ _ _ (ev_any p) W)]. intros h' o [(tr & E & _) q]. eauto. Qed.
Lemma ok_before h tr : Forall ev_ok (h ++ tr) -> Forall ev_ok h.
Proof. intro F. apply Forall_app in F. apply F. Qed.

Section Okl.
Variable okb : res -> bool.
Hypothesis okb_s : okb r_success = true.
Variable cts : list bytes.
Local Notation sessions := (SpecTrace.sessions okb).

(** Where a session is left. *)
Definition unstarted (s : bytes) : Prop := s = [] \/ s = ready_frame cts.
Definition rest (h : trace) : Prop :=
  sessions h = [] \/ (exists ss s, unstarted s /\ sessions h = ss ++ [s]) \/
  (exists acts more, fits true T_READY cts /\ ctl_ok T_ACCEPT acts /\ received h = ctl_frame T_ACCEPT acts ++ more /\ 4 <= lenN more).

Record OVI (w : writer) (h : trace) : Prop := {
  ov_pi : exists P, Writer5_proofs.PI okb true cts w h P;
  ov_up : Forall ev_ok h -> w_state w = ws_opened -> rw_opened (w_rdwr w) = true;
  ov_rest : Forall ev_ok h -> w_state w <> ws_opened -> rest h }.
Definition ovp {A} : post (A * writer) := fun h' o => match o with Done (_, w') => OVI w' h' | _ => True end.

(** A failed open without a failed transport call leaves the session without a
    START frame. *)
Lemma nf_control rw c h : rw_opened rw = true -> rw_has_write rw = true ->
  wp (write_control_frame rw c) (fun h' o => match o with
    | Done (x, rw') => (x = r_success /\ rw' = rw /\ sessions h' = add_last (sessions h) (ctl_frame (c_type c) (visible (c_type c) (c_cts c)))) \/
        (x <> r_success /\ (h' = h \/ ~ Forall ev_ok h')) | _ => True end) h.
Proof.
  intros O W. rewrite write_control_frame_eq. destruct (encodable _ _ _).
  - eapply wp_mono; [|apply (nf_write okb okb_s); assumption]. intros h' [[x rw']| |] X; auto.
    destruct X as [(-> & -> & X)|(N & X)]; [left|right; auto]. cbn [concat] in X. rewrite app_nil_r in X. auto.
  - cbn. right. split; [discriminate|auto].
Qed.
Definition bad_open (ss : list bytes) : post (res * writer) := fun h' o => match o with
  | Done (x, _) => x = r_success \/ ~ Forall ev_ok h' \/ exists s, unstarted s /\ sessions h' = ss ++ [s] | _ => True end.
Lemma bi_fail w h ss : w_cts w = cts -> sessions h = ss ++ [[]] -> rw_opened (w_rdwr w) = true -> rw_has_write (w_rdwr w) = true ->
  rw_has_read (w_rdwr w) = true -> rw_has_close (w_rdwr w) = true -> RWI (w_rdwr w) h -> 
  wp (writer_open_bidirectional w) (bad_open ss) h.
Proof.
  intros EC Hs O HW HR HC HI. unfold writer_open_bidirectional. rewrite reset_or_init_eq. unfold control_set_type.
  change (type_known FSTRM_CONTROL_READY) with true. cbv iota zeta. cbn [c_cts]. rewrite add_all_eq. cbn [c_type c_cts app]. rewrite EC.
  apply wp_bind_i. 
  assert (K : wp (write_control_frame (w_rdwr w) (mk_control FSTRM_CONTROL_READY cts)) (fun h' o => match o with Done (_, rw') => RWI rw' h' | _ => True end) h).
  { apply (wp_write_control_frame okb okb_s); auto. }
  pose proof (wp_and _ _ _ _ (nf_control (w_rdwr w) (mk_control FSTRM_CONTROL_READY cts) h O HW) K) as K1. clear K.
  eapply wp_mono; [|exact K1]. clear K1. intros h1 [[x rw1]| |] [X HI1]; unfold bind_post; auto.
  destruct X as [(-> & -> & Hs1)|(NX & X)].
  2:{ rewrite (ne_eqb _ NX). cbn. right. destruct X as [->|X]; [right; exists []; split; [left; reflexivity|exact Hs]|left; exact X]. }
  cbn [c_type c_cts] in Hs1. rewrite Hs, add_last_snoc in Hs1. change (ctl_frame FSTRM_CONTROL_READY (visible FSTRM_CONTROL_READY cts)) with (ready_frame cts) in Hs1.
  cbn [app] in Hs1. cbn [res_eqb negb set_wready w_rdwr set_wrdwr w_accept]. apply wp_bind_i.
  apply (wp_read_control okb); auto.
  - intros; exact I.
  - intros h2 acts _ HI2 [Hq2 _] _ _. unfold bind_post. cbn [res_eqb negb w_cts set_waccept set_wrdwr]. rewrite Hs1 in Hq2.
    destruct (accept_match_loop _ _ _) as [m ct]. destruct m; cbn [negb].
    2:{ cbn. right. right. exists (ready_frame cts). split; [right; reflexivity|exact Hq2]. }
    unfold writer_send_start. destruct (control_set_type _ _) as [[] c]; try (cbn; right; right; exists (ready_frame cts); split; [right; reflexivity|exact Hq2]).
    cbv zeta. apply wp_bind_i. eapply wp_mono; [|apply nf_control; assumption]. intros h3 [[y rw3]| |] Y; unfold bind_post; auto.
    destruct Y as [(-> & _)|(NY & Y)]; [cbn; auto|]. rewrite (ne_eqb _ NY). cbn. right.
    destruct Y as [->|Y]; [right; exists (ready_frame cts); split; [right; reflexivity|exact Hq2]|left; exact Y].
  - intros h2 r c' rw' Hr _ _ [Hq2 _]. unfold bind_post. rewrite (ne_eqb _ Hr). cbn. right. right. exists (ready_frame cts).
    split; [right; reflexivity|]. rewrite Hq2. exact Hs1.
Qed.
Lemma open_fail w h : wok true cts w -> RWI (w_rdwr w) h ->
  wp (writer_open w) (fun h' o => match o with
  | Done (x, _) => x = r_success \/ ~ Forall ev_ok h' \/ h' = h \/ exists s, unstarted s /\ sessions h' = sessions h ++ [s] | _ => True end) h.
Proof.
  intros W HI. unfold writer_open. destruct (w_state w); try (cbn; auto; fail).
  all: apply wp_bind_i; apply (wp_rdwr_open okb); [apply W|exact HI|exact I| |].
  all: try (intros h1 _ HI1 Hs1 Hr1; unfold bind_post; cbn [res_eqb negb set_wrdwr w_rdwr set_opened rw_has_read]; rewrite (ok_read _ _ _ W);
    apply wp_bind_i; eapply wp_mono; [|apply (bi_fail _ h1 (sessions h)); cbn; auto; apply W];
    intros h2 [[x w2]| |] X; unfold bind_post; auto; cbn in X; destruct (res_eqb x r_success) eqn:E; cbn; [auto|];
    destruct X as [->|[X|X]]; [discriminate E|auto|auto]).
  all: intros h1 r E Hr HI1 Hs1 _; unfold bind_post; rewrite (ne_eqb _ Hr); cbn; right; left; rewrite E; intro F; apply ok_snoc in F; cbn in F; contradiction.
Qed.

Lemma ov_open w h : OVI w h -> wp (writer_open w) ovp h.
Proof.
  intros I0. pose proof I0 as [[P J] UP RS].
  assert (K2 : wp (writer_open w) (fun h' o => match o with
     | Done (x, w') => (h' = h /\ w' = w) \/ (w_state w <> ws_opened /\ ((w_state w' = ws_opened /\ rw_opened (w_rdwr w') = true) \/
        (w_state w' = w_state w /\ x <> r_success)))
     | _ => True end) h).
  { destruct J as [W RW ID LV]. eapply (wp_open okb); eauto; cbn; auto 6. }
  pose proof (wp_and _ _ _ _ (wp_and _ _ _ _ K2 (pi_open okb okb_s true cts w h P J)) (open_fail w h (pi_ok _ _ _ _ _ _ J) (pi_rw _ _ _ _ _ _ J))) as K3.
  eapply wp_mono; [|exact K3]. intros h' [[x w']| |] Y; cbn; auto. destruct Y as [[Y [Y1 _]] OF].
  destruct Y as [[-> ->]|[NO Y]]; [exact I0|]. split; [eauto| |].
  - intros F E. destruct Y as [[_ Y2]|[Y2 _]]; [exact Y2|congruence].
  - intros F E. destruct Y as [[Y2 _]|[Y2 NX]]; [congruence|].
    destruct OF as [OF|[OF|[->|(s & U & OF)]]]; [contradiction|contradiction|apply RS; assumption|]. right. left. eauto.
Qed.

Lemma ov_maybe w h : OVI w h -> wp (writer_maybe_open w) ovp h.
Proof.
  intros I0. unfold writer_maybe_open. destruct (w_state w); try exact I0.
  apply wp_bind_i. eapply wp_mono; [|apply ov_open; exact I0].
  intros h' [[x w']| |] X; unfold bind_post; auto. destruct (negb _); cbn; exact X.
Qed.

Definition stays : post (res * writer) := fun _ o => match o with Done (_, w') => w_state w' = ws_opened | _ => True end.
Lemma stays_iov w h qs : w_state w = ws_opened -> wp (write_iov w qs) stays h.
Proof.
  intros E0. unfold write_iov. destruct (_ <? _)%nat; [exact I|]. apply wp_bind_i.
  eapply wp_mono; [|apply (ev_any (rdwr_write _ _))]. intros h' [[x rw]| |] _; cbn; auto.
Qed.
Lemma stays_loop c n : forall w h ps, w_state w = ws_opened -> wp (write_iov_stupid_loop n c w ps) stays h.
Proof.
  induction n as [|n IH]; intros w h ps ES; cbn [write_iov_stupid_loop]; destruct ps as [|p qs]; cbn [wp]; auto; try exact I.
  apply wp_bind_i. eapply wp_mono; [|apply stays_iov; exact ES]. intros h' [[x w']| |] X; unfold bind_post; auto.
  destruct (negb _); [exact X|]. apply IH. exact X.
Qed.
Lemma stays_writev w h ps : w_state w = ws_opened -> wp (writer_writev w ps) stays h.
Proof.
  intro ES. unfold writer_writev. destruct ps as [|p ps0] eqn:Eps; [exact ES|]. rewrite <- Eps in *. clear Eps p ps0.
  unfold writer_maybe_open. rewrite ES. cbn [bind res_eqb negb]. rewrite ES. destruct (_ <=? _); [exact I|].
  destruct (_ <=? _)%nat; [apply stays_iov; exact ES|]. unfold write_iov_stupid. cbv zeta. destruct (_ =? 0)%nat; [exact I|].
  apply stays_loop. exact ES.
Qed.

Lemma ov_writev_up w ps h : OVI w h -> lenN ps < 2 ^ 30 -> w_state w = ws_opened -> wp (writer_writev w ps) ovp h.
Proof.
  intros [[P J] UP RS] Hl ES.
  assert (K : wp (writer_writev w ps) (fun h' o => match o with Done (_, w') => Forall ev_ok h' -> rw_opened (w_rdwr w') = true | _ => True end) h).
  { destruct (rw_opened (w_rdwr w)) eqn:EO.
    - eapply wp_mono; [|apply (nf_writev okb okb_s w ps h ES EO)].
      + intros h' [[x w']| |] X; auto. intros F. destruct X as [(_ & -> & _)|(_ & X)]; [exact EO|contradiction].
      + apply (pi_ok _ _ _ _ _ _ J).
    - eapply wp_mono; [|apply (ev_any (writer_writev w ps))]. intros h' [[x w']| |] (tr & -> & _); auto. intros F.
      apply ok_before in F. specialize (UP F ES). congruence. }
  pose proof (wp_and _ _ _ _ (wp_and _ _ _ _ K (stays_writev w h ps ES)) (pi_writev okb okb_s true cts w ps h P J Hl)) as K2.
  eapply wp_mono; [|exact K2]. intros h' [[x w']| |] [[A B] C]; cbn; auto. cbn in B. split; eauto. congruence.
Qed.
Lemma ov_writev w ps h : OVI w h -> lenN ps < 2 ^ 30 -> wp (writer_writev w ps) ovp h.
Proof.
  intros I0 Hl. destruct ps as [|p ps0] eqn:Eps; [exact I0|]. 
  unfold writer_writev. rewrite <- Eps in *. apply wp_bind_i. eapply wp_mono; [|apply ov_maybe; exact I0].
  intros h' [[x w']| |] X; unfold bind_post; auto. cbn in X. destruct (res_eqb x r_success) eqn:E; cbn [negb]; [|exact X].
  destruct (w_state w') eqn:ES; try exact X. pose proof (ov_writev_up w' ps h' X Hl ES) as K. unfold writer_writev in K. rewrite Eps in K at 1.
  unfold writer_maybe_open in K. rewrite ES in K. cbn [bind res_eqb negb] in K. rewrite ES in K. exact K.
Qed.

(** Reading a control frame takes at least the first word off the transport. *)
Lemma received_grows tr : forall h, Forall (tev (fun _ => True)) tr -> exists more, received (h ++ tr) = received h ++ more.
Proof.
  induction tr as [|e tr IH]; intros h F; [exists []; rewrite !app_nil_r; reflexivity|]. inversion_clear F as [|? ? E F'].
  change (h ++ e :: tr) with (h ++ [e] ++ tr). rewrite app_assoc. destruct (IH (h ++ [e]) F') as [more ->].
  rewrite received_snoc. destruct e as [[] []]; cbn in E |- *; try contradiction; eauto.
  destruct r; eauto. eexists. rewrite <- app_assoc. reflexivity.
Qed.
Lemma first_read rw oc wanted h : rw_opened rw = true -> rw_has_read rw = true ->
  wp (read_control rw oc wanted) (fun h' o => match o with
    | Done _ => exists hh r bs tr, h' = (h ++ [(QRead hh 4, ARead r bs)]) ++ tr /\ (r = r_success -> lenN bs = 4) | _ => True end) h.
Proof.
  intros O R. unfold read_control. cbv zeta. unfold read_control_frame. cbv iota.
  unfold rdwr_read at 1. rewrite O, R. cbn [negb ask_read bind wp]. split; [exact I|]. intros a Ha. destruct a; try contradiction.
  match goal with |- wp ?p _ _ => set (p0 := p) end. eapply wp_mono; [|apply (ev_any p0)].
  intros h' [] (tr & -> & _); auto. eexists _, _, _, _. split; [reflexivity|]. exact Ha.
Qed.
Lemma rc_word rw oc wanted h : rw_opened rw = true -> rw_has_read rw = true ->
  wp (read_control rw oc wanted) (fun h' o => match o with
    | Done _ => Forall ev_ok h' -> exists more, received h' = received h ++ more /\ 4 <= lenN more | _ => True end) h.
Proof.
  intros O R. pose proof (wp_and _ _ _ _ (first_read rw oc wanted h O R) (ev_rc (fun _ => True) rw oc wanted h)) as K.
  eapply wp_mono; [|exact K]. intros h' [x| |] [A (tr0 & E0 & F)]; auto. intro OK. destruct A as (hh & r & bs & tr & -> & L).
  rewrite <- app_assoc in E0. apply app_inv_head in E0. subst tr0. inversion_clear F as [|? ? _ F'].
  destruct (received_grows tr (h ++ [(QRead hh 4, ARead r bs)]) F') as [more E]. rewrite received_snoc in E.
  apply ok_before, ok_snoc in OK. cbn in OK. subst r. cbn [in_step] in E. exists (bs ++ more). rewrite (app_assoc (received h)). split; [exact E|].
  rewrite lenN_app, (L eq_refl). lia.
Qed.

(** A step that leaves sessions and reception alone. *)
Definition still (e : event) : Prop := match fst e with QClose _ | QDestroy _ => True | _ => False end.
Lemma still_rest tr : Forall still tr -> forall h, rest h -> rest (h ++ tr).
Proof.
  induction 1 as [|e tr E F IH]; intros h R; [rewrite app_nil_r; exact R|].
  change (h ++ e :: tr) with (h ++ [e] ++ tr). rewrite app_assoc. apply IH. unfold rest in *. rewrite received_snoc, sessions_snoc.
  destruct e as [[] a]; cbn in E |- *; try contradiction; exact R.
Qed.
Lemma still_close rw : evp still (rdwr_close rw).
Proof.
  unfold rdwr_close. apply evp_if; [apply evp_ret|]. apply evp_if; [|apply evp_ret]. apply evp_bind; [|intro; apply evp_ret].
  apply evp_ask. intros; exact I.
Qed.

Lemma shut_close w h : wp (writer_close w) (fun h' o => match o with
  | Done (_, w') => (h' = h /\ w' = w /\ w_state w <> ws_opened) \/ (w_state w = ws_opened /\ w_state w' = ws_closed) | _ => True end) h.
Proof.
  unfold writer_close. destruct (w_state w) eqn:ES; try (cbn; left; repeat split; congruence). cbv zeta.
  match goal with |- wp _ ?q _ => set (Q := q) end.
  assert (CL : forall (f : res -> rdwr -> res * writer) rw h2, (forall x rw, w_state (snd (f x rw)) = ws_closed) ->
      wp (bind (rdwr_close rw) (fun z => match z with (x, rw) => Ret (f x rw) end)) Q h2).
  { intros f rw h2 Hf. apply wp_bind_i. eapply wp_mono; [|apply (ev_any (rdwr_close rw))].
    intros h' [[x rw']| |] _; unfold bind_post, Q; auto. cbn. specialize (Hf x rw'). destruct (f x rw'). auto. }
  apply wp_bind_i. eapply wp_mono; [|apply (ev_any (write_control _ _ _))]. intros h1 [[x rw]| |] _; unfold bind_post; [|exact I|exact I].
  destruct (negb _); [apply (CL (fun _ rw => (x, _))); reflexivity|]. destruct (rw_has_read rw); [|apply (CL (fun x rw => (x, _))); reflexivity].
  apply wp_bind_i. eapply wp_mono; [|apply (ev_any (read_control _ _ _))]. intros h2 [[[y fin] rw2]| |] _; unfold bind_post; [|exact I|exact I].
  destruct (negb _); [apply (CL (fun _ rw => (y, _))); reflexivity|]. apply (CL (fun x rw => (x, _))); reflexivity.
Qed.

Lemma rest_close w h P : Writer5_proofs.PI okb true cts w h P -> w_state w = ws_opened -> rw_opened (w_rdwr w) = true ->
  wp (writer_close w) (fun h' o => match o with Done _ => Forall ev_ok h' -> rest h' | _ => True end) h.
Proof.
  intros [W RW ID LV] ES EO. destruct (LV ES EO) as (ss & ct & E1 & E2 & E3). destruct (E3 eq_refl) as (FT & acts & K & A).
  unfold writer_close. rewrite ES. cbv zeta. rewrite write_stop_eq. cbn [set_wstate w_rdwr w_finish].
  match goal with |- wp _ ?q _ => set (Q := q) end.
  assert (CL : forall (f : res -> rdwr -> res * writer) rw h2, (Forall ev_ok h2 -> rest h2) ->
      wp (bind (rdwr_close rw) (fun z => match z with (x, rw) => Ret (f x rw) end)) Q h2).
  { intros f rw h2 Hr. apply wp_bind_i. eapply wp_mono; [|apply (still_close rw)].
    intros h' [[x rw']| |] (tr & -> & F); unfold bind_post, Q; auto. cbn. intro OK. apply still_rest; [exact F|]. apply Hr. apply ok_before in OK. exact OK. }
  apply wp_bind_i. pose proof (wp_and _ _ _ _ (nf_write okb okb_s (w_rdwr w) [stop_frame] h EO (ok_write _ _ _ W)) (ev_write (fun _ => True) (w_rdwr w) [stop_frame] I h)) as K1.
  eapply wp_mono; [|exact K1]. clear K1. intros h1 [[x rw]| |] [K1 (tr & E & F)]; unfold bind_post; [|exact I|exact I].
  destruct K1 as [(-> & -> & K1)|[NS NF]].
  2:{ rewrite (ne_eqb _ NS). cbn [negb]. apply (CL (fun _ rw => (x, _))). intro; contradiction. }
  cbn [res_eqb negb]. rewrite (ok_read _ _ _ W). destruct (received_grows tr h F) as [m0 G]. rewrite <- E, A in G.
  apply wp_bind_i. eapply wp_mono; [|apply (rc_word _ _ _ h1 EO (ok_read _ _ _ W))].
  intros h2 [[[y fin] rw2]| |] X; unfold bind_post; [|exact I|exact I].
  assert (R2 : Forall ev_ok h2 -> rest h2).
  { intro OK. destruct (X OK) as (m & E4 & L). right. right. exists acts, (m0 ++ m). split; [exact FT|]. split; [exact K|]. rewrite E4, G, <- app_assoc.
    split; [reflexivity|]. rewrite lenN_app. lia. }
  destruct (negb _); [apply (CL (fun _ rw => (y, _))); exact R2|]. apply (CL (fun x rw => (x, _))). exact R2.
Qed.

Lemma ov_close w h : OVI w h -> wp (writer_close w) ovp h.
Proof.
  intros I0. pose proof I0 as [[P J] UP RS].
  assert (K : wp (writer_close w) (fun h' o => match o with Done _ => w_state w = ws_opened -> Forall ev_ok h' -> rest h' | _ => True end) h).
  { assert (D : w_state w = ws_opened \/ w_state w <> ws_opened) by (destruct (w_state w); auto; right; discriminate). destruct D as [ES|ES].
    - destruct (rw_opened (w_rdwr w)) eqn:EO.
      + eapply wp_mono; [|eapply rest_close; eauto]. intros h' [] X; auto.
      + eapply wp_mono; [|apply (ev_any (writer_close w))]. intros h' [] (tr & -> & _); auto. intros _ F. apply ok_before in F.
        specialize (UP F ES). congruence.
    - eapply wp_mono; [|apply (ev_any (writer_close w))]. intros h' [] _; auto. contradiction. }
  pose proof (wp_and _ _ _ _ (wp_and _ _ _ _ K (shut_close w h)) (pi_close okb okb_s true cts w h P J)) as K2.
  eapply wp_mono; [|exact K2]. intros h' [[x w']| |] [[A B] C]; cbn; auto. destruct C as [C _]. destruct B as [(-> & -> & _)|[B1 B2]]; [exact I0|].
  split; eauto; congruence.
Qed.

Lemma ov_call w c h : OVI w h -> wcall_ok c -> wp (do_wcall w c) ovp h.
Proof.
  intros I0 OK. destruct c as [|p|ps| |t]; cbn [do_wcall].
  - apply ov_open; assumption.
  - apply (ov_writev w [p]); auto.
  - apply ov_writev; auto.
  - apply ov_close; assumption.
  - unfold writer_get_control. apply wp_bind_i, wp_bind_i. eapply wp_mono; [|apply ov_maybe; exact I0].
    intros h' [[x w']| |] Y; unfold bind_post; auto.
    destruct (negb _); repeat match goal with |- context [if ?b then _ else _] => destruct b end; cbn; exact Y.
Qed.
Lemma ov_calls cs : forall w h, OVI w h -> Forall wcall_ok cs -> wp (do_wcalls w cs) ovp h.
Proof.
  induction cs as [|c cs IH]; intros w h I0 Hok; [exact I0|]. inversion_clear Hok as [|? ? H1 H2]. cbn [do_wcalls]. apply wp_bind_i.
  eapply wp_mono; [|apply ov_call; [exact I0|exact H1]]. intros h1 [[x w1]| |] I1; unfold bind_post; auto.
  apply wp_bind_i. eapply wp_mono; [|apply IH; [exact I1|exact H2]]. intros h2 [[rs w2]| |] Y; unfold bind_post; auto.
Qed.
Lemma ov_life w cs h : OVI w h -> Forall wcall_ok cs ->
  wp (writer_life w cs) (fun h' o => match o with Done _ => Forall ev_ok h' -> rest h' | _ => True end) h.
Proof.
  intros I0 Hok. unfold writer_life. apply wp_bind_i. eapply wp_mono; [|apply ov_calls; eassumption].
  intros h1 [[rs w1]| |] I1; unfold bind_post; auto. cbn in I1. apply wp_bind_i. unfold writer_destroy. apply wp_bind_i.
  assert (SD : forall rw, evp still (rdwr_destroy rw)).
  { intro rw. unfold rdwr_destroy. apply evp_if; [|apply evp_ret]. apply evp_ask. intros; exact I. }
  assert (K : wp (match w_state w1 with ws_opened => writer_close w1 | _ => Ret (r_failure, w1) end)
     (fun h' o => match o with Done _ => Forall ev_ok h' -> rest h' | _ => True end) h1).
  { assert (C : wp (writer_close w1) (fun h' o => match o with Done _ => Forall ev_ok h' -> rest h' | _ => True end) h1).
    { pose proof (wp_and _ _ _ _ (ov_close w1 h1 I1) (shut_close w1 h1)) as K. eapply wp_mono; [|exact K].
      intros h' [[x w']| |] [A B]; auto. cbn in A. intro F. destruct A as [_ _ A]. apply A; [exact F|]. destruct B as [(-> & -> & B)|[_ B]]; congruence. }
    destruct (w_state w1) eqn:E; try exact C; cbn; intro F; apply I1; auto; congruence. }
  eapply wp_mono; [|exact K]. intros h2 [[x w2]| |] X; unfold bind_post; auto.
  apply wp_bind_i. eapply wp_mono; [|apply SD]. intros h3 [y| |] (tr & -> & F); unfold bind_post; auto. cbn. intro OK.
  apply still_rest; [exact F|]. apply X. apply ok_before in OK. exact OK.
Qed.
End Okl.

Lemma life_rests okb (okb_s : okb r_success = true) iovm cts rw w cs tr rs x :
  fresh_rdwr rw -> rw_has_read rw = true -> (0 < iovm)%nat -> writer_init iovm cts rw = Some w -> Forall wcall_ok cs ->
  runs (writer_life w cs) tr (Done (rs, x)) -> Forall ev_ok tr -> rest okb cts tr.
Proof.
  intros FR HR Hi Hw Hok R OK. pose proof (pi_init okb true cts iovm rw w FR HR Hi Hw) as J.
  assert (ES : w_state w <> ws_opened).
  { unfold writer_init in Hw. destruct (rw_has_write rw); [|discriminate]. injection Hw as <-. discriminate. }
  assert (V : OVI okb cts w []).
  { split; [eauto|contradiction|]. intros _ _. left. reflexivity. }
  exact (wp_runs _ _ (ov_life okb okb_s cts w cs [] V Hok) _ _ R OK).
Qed.

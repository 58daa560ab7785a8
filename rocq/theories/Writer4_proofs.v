From Verif Require Import Bytes Spec Bytes_proofs Io Io_proofs SpecTrace SpecStream
  Control Control_proofs Rdwr Rdwr_proofs Writer Api SpecApi Writer_proofs Capture_proofs.
Local Open Scope N_scope.

(** A writer object leaves its transport open only when the opening handshake
    of the last session was given up. *)
Definition okd : res -> bool := fun r => res_eqb r r_success.
Lemma okd_success : okd r_success = true.
Proof. reflexivity. Qed.

Definition head_only (bi : bool) (cts : list bytes) (h : trace) : Prop :=
  exists ss b, sessions okd h = ss ++ [b] /\ stalled_handshake bi cts b.

Definition leak (bi : bool) (cts : list bytes) (w : writer) (h : trace) : Prop :=
  rw_opened (w_rdwr w) = true -> w_state w = ws_opened \/ head_only bi cts h.

Lemma head_only_eq bi cts h h' : sessions okd h' = sessions okd h -> head_only bi cts h -> head_only bi cts h'.
Proof. intros E (ss & b & S & H). exists ss, b. split; [congruence|exact H]. Qed.

Lemma lk_wcf rw c (Q : post _) h :
  rw_has_close rw = true -> rw_has_write rw = true -> RWI rw h ->
  let fr := ctl_frame (c_type c) (visible (c_type c) (c_cts c)) in
  (forall h', Q h' Cut) ->
  (forall h', RWI rw h' -> sessions okd h' = add_last (sessions okd h) fr -> Q h' (Done (r_success, rw))) ->
  (forall h' x rw', x <> r_success -> (rw_opened rw' = true -> sessions okd h' = sessions okd h /\
       ~ fits true (c_type c) (visible (c_type c) (c_cts c))) -> Q h' (Done (x, rw'))) ->
  wp (write_control_frame rw c) Q h.
Proof.
  intros HC HW HI fr Hcut HS HF. rewrite write_control_frame_eq.
  destruct (encodable true (c_type c) (c_cts c)) eqn:E.
  - apply (wp_rdwr_write okd okd_success); auto; unfold fr in *; cbn [concat]; rewrite app_nil_r; auto.
    intros. apply HF; auto. discriminate.
  - cbn. apply HF; [discriminate|]. intros _. split; [reflexivity|]. rewrite <- encodable_fits. congruence.
Qed.

Definition lkp (bi : bool) (cts : list bytes) : post (res * writer) :=
  fun h' o => match o with
              | Done (x, w') => x = r_success \/ (rw_opened (w_rdwr w') = true -> head_only bi cts h')
              | _ => True
              end.

Lemma lk_send_start bi cts w ct h ss cur :
  wok bi cts w -> RWI (w_rdwr w) h -> sessions okd h = ss ++ [cur] ->
  (~ fits true T_START (optl ct) -> stalled_handshake bi cts cur) ->
  wp (writer_send_start w ct) (lkp bi cts) h.
Proof.
  intros W HI Hs HX. unfold writer_send_start. rewrite reset_or_init_eq.
  unfold control_set_type. change (type_known FSTRM_CONTROL_START) with true. cbv zeta iota. cbn [c_cts].
  set (c' := match ct with Some b => _ | None => _ end).
  assert (Ec : c' = start_ctl ct) by (unfold c', start_ctl; destruct ct; reflexivity).
  clearbody c'. subst c'. apply wp_bind_i.
  assert (V : visible T_START (optl ct) = optl ct) by (destruct ct; reflexivity).
  apply lk_wcf; cbn [start_ctl c_type c_cts].
  - apply W.
  - apply W.
  - exact HI.
  - intros h'. exact I.
  - intros h' _ _. cbn. left. reflexivity.
  - intros h' x rw' Hx HO. rewrite V in HO. unfold bind_post. cbn [set_wrdwr w_rdwr].
    destruct (res_eqb x r_success) eqn:E; [apply res_eqb_true in E; contradiction|]. cbn.
    right. intro O. destruct (HO O) as [S F]. exists ss, cur. split; [rewrite S; exact Hs|auto].
Qed.

Lemma lk_open bi cts w h :
  wok bi cts w -> RWI (w_rdwr w) h -> leak bi cts w h ->
  wp (writer_open w) (fun h' o => match o with Done (_, w') => leak bi cts w' h' | _ => True end) h.
Proof.
  intros W HI LK. unfold writer_open.
  destruct (w_state w) eqn:ES; try exact LK.
  all: apply wp_bind_i; apply (wp_rdwr_open okd); [apply W|exact HI|exact I| |].
  all: try (intros h1 r _ Hr HI1 Hs1 _; unfold bind_post;
    destruct (res_eqb r r_success) eqn:E; [apply res_eqb_true in E; contradiction|]; cbn;
    intro O; destruct (LK O) as [X|X]; [congruence|right; eapply head_only_eq; eassumption]).
  all: intros h1 _ HI1 Hs1 _; unfold bind_post; cbn [res_eqb negb]; cbv zeta; cbn [set_wrdwr w_rdwr set_opened rw_has_read];
    rewrite (ok_read _ _ _ W).
  all: set (w1 := set_wrdwr w _).
  all: assert (W1 : wok bi cts w1) by (eapply wok_same; [exact W|]; split; cbn; auto; apply same_ops_set).
  all: assert (G : wp (if bi then writer_open_bidirectional w1 else writer_open_unidirectional w1) (lkp bi cts) h1);
    [|apply wp_bind_i; eapply wp_mono; [|exact G]; intros h2 o P; unfold bind_post; destruct o as [[x w2]| |]; try exact I;
      cbn in P; destruct P as [->|P]; [cbn; intros _; left; reflexivity|];
      destruct (res_eqb x r_success) eqn:E; cbn; intro O; [left; reflexivity|right; exact (P O)]].
  all: destruct bi.
  2,4,6: unfold writer_open_unidirectional; change (w_cts w1) with (w_cts w); rewrite (ok_cts _ _ _ W);
    eapply lk_send_start; [exact W1|exact HI1|exact Hs1|]; intro F; left; split; [reflexivity|exact F].
  all: unfold writer_open_bidirectional; rewrite reset_or_init_eq; unfold control_set_type;
    change (type_known FSTRM_CONTROL_READY) with true; cbv iota zeta; cbn [c_cts];
    rewrite add_all_eq; cbn [c_type c_cts app]; rewrite (ok_cts _ _ _ W1); apply wp_bind_i.
  all: apply lk_wcf; cbn [c_type c_cts]; [apply W|apply W|exact HI1|intros; exact I| |].
  2,4,6: intros h2 x rw' Hx HO; unfold bind_post;
    destruct (res_eqb x r_success) eqn:E; [apply res_eqb_true in E; contradiction|]; cbn; right; intro O;
    destruct (HO O) as [S F]; exists (sessions okd h), []; split; [rewrite S; exact Hs1|]; left; split; [reflexivity|exact F].
  all: intros h2 HI2 Hs2; rewrite Hs1, add_last_snoc in Hs2; cbn [app] in Hs2;
    change (visible FSTRM_CONTROL_READY cts) with cts in Hs2; unfold bind_post; cbn [res_eqb negb]; cbv zeta;
    apply wp_bind_i; apply (wp_read_control okd); [apply W|apply W|exact HI2|intros; exact I| |].
  2,4,6: intros h3 r c' rw' Hr Hso HI3 [Hq3 _]; unfold bind_post;
    destruct (res_eqb r r_success) eqn:E; [apply res_eqb_true in E; contradiction|]; cbn; right; intros _;
    exists (sessions okd h), (ready_frame cts); split; [rewrite Hq3; exact Hs2|right; split; reflexivity].
  all: intros h3 acts _ HI3 [Hq3 _] _ _; unfold bind_post; cbn [res_eqb negb]; cbv zeta;
    match goal with |- context [accept_match_loop ?a ?b ?c] => destruct (accept_match_loop a b c) as [m ct] end;
    destruct m; cbn [negb].
  2,4,6: cbn; right; intros _; exists (sessions okd h), (ready_frame cts); split; [rewrite Hq3; exact Hs2|right; split; reflexivity].
  all: eapply (lk_send_start true cts _ ct h3 (sessions okd h) (ready_frame cts));
    [eapply wok_same; [exact W1|]; split; cbn; auto; apply same_ops_refl
    |exact HI3|rewrite Hq3; exact Hs2|intros _; right; split; reflexivity].
Qed.

Lemma st_write_iov w iov h : wp (write_iov w iov) (fun _ o => match o with Done (_, w') => w_state w' = w_state w | _ => True end) h.
Proof.
  unfold write_iov. destruct (_ <? _)%nat; [exact I|]. apply wp_bind_i. apply (wp_mono _ (fun _ _ => True)); [|apply wp_complete; intros; exact I].
  intros h' [[x rw]| |] _; cbn; auto.
Qed.

Lemma st_loop n chunk : forall w iov h, wp (write_iov_stupid_loop n chunk w iov)
  (fun _ o => match o with Done (_, w') => w_state w' = w_state w | _ => True end) h.
Proof.
  induction n as [|n IH]; intros w iov h; (destruct iov as [|b iov]; [reflexivity|]); cbn -[write_iov firstn skipn]; [exact I|].
  apply wp_bind_i. eapply wp_mono; [|apply st_write_iov].
  intros h' [[x w']| |] P; unfold bind_post; auto.
  destruct (res_eqb x r_success); cbn -[write_iov_stupid_loop skipn]; [|exact P].
  eapply wp_mono; [|apply IH]. intros h2 [[y w2]| |] P2; auto. congruence.
Qed.

Lemma lk_maybe bi cts w h :
  wok bi cts w -> RWI (w_rdwr w) h -> leak bi cts w h ->
  wp (writer_maybe_open w) (fun h' o => match o with Done (_, w') => leak bi cts w' h' | _ => True end) h.
Proof.
  intros W HI LK. unfold writer_maybe_open. destruct (w_state w) eqn:ES; try exact LK.
  apply wp_bind_i. eapply wp_mono; [|apply lk_open; eassumption].
  intros h' [[x w']| |] P; unfold bind_post; auto. destruct (res_eqb x r_success); exact P.
Qed.

Lemma lk_writev bi cts w iov h :
  wok bi cts w -> RWI (w_rdwr w) h -> leak bi cts w h ->
  wp (writer_writev w iov) (fun h' o => match o with Done (_, w') => leak bi cts w' h' | _ => True end) h.
Proof.
  intros W HI LK. unfold writer_writev. destruct iov as [|b iov]; [exact LK|]. set (l := b :: iov). clearbody l.
  apply wp_bind_i. eapply wp_mono; [|apply lk_maybe; eassumption].
  intros h' [[x w']| |] P; unfold bind_post; auto.
  destruct (res_eqb x r_success); cbn [negb]; [|exact P].
  destruct (w_state w') eqn:E; try exact P.
  destruct (_ <=? _)%N; [exact I|]. destruct (_ <=? _)%nat.
  - eapply wp_mono; [|apply st_write_iov]. intros h2 [[y w2]| |] P2; auto. intros _. left. congruence.
  - unfold write_iov_stupid. destruct (_ =? _)%nat; [exact I|].
    eapply wp_mono; [|apply st_loop]. intros h2 [[y w2]| |] P2; auto. intros _. left. congruence.
Qed.

Lemma lk_call bi cts w c h D :
  WI okd bi cts w h D -> leak bi cts w h ->
  wp (do_wcall w c) (fun h' o => match o with Done (_, w') => leak bi cts w' h' | _ => True end) h.
Proof.
  intros I0 LK. pose proof (wi_ok _ _ _ _ _ _ I0) as W. pose proof (wi_rw _ _ _ _ _ _ I0) as HI.
  destruct c as [|p|ps| |t]; cbn [do_wcall].
  - apply lk_open; assumption.
  - apply lk_writev; assumption.
  - apply lk_writev; assumption.
  - destruct (w_state w) eqn:ES; try (unfold writer_close; rewrite ES; exact LK).
    eapply wp_close_WI; [exact okd_success|exact I0|intros; exact I|].
    intros h' x w' _ _ C _ O. destruct (C ES) as [C1 _]. congruence.
  - unfold writer_get_control. apply wp_bind_i, wp_bind_i. eapply wp_mono; [|apply lk_maybe; eassumption].
    intros h' [[x w']| |] P; unfold bind_post; auto.
    destruct (res_eqb x r_success); cbn [negb];
      repeat match goal with |- context [if ?b then _ else _] => destruct b end; exact P.
Qed.

Lemma lk_calls bi cts cs : forall w h D,
  WI okd bi cts w h D -> leak bi cts w h -> Forall wcall_ok cs ->
  wp (do_wcalls w cs) (fun h' o => match o with
    | Done (_, w') => leak bi cts w' h' /\ exists D', WI okd bi cts w' h' D' | _ => True end) h.
Proof.
  induction cs as [|c cs IH]; intros w h D I0 LK Hok; [cbn; eauto|].
  inversion_clear Hok as [|? ? H1 H2]. cbn [do_wcalls]. apply wp_bind_i.
  assert (K : wp (do_wcall w c) (fun h' o => match o with Done (_, w') => exists D', WI okd bi cts w' h' D' | _ => True end) h).
  { eapply wp_wcall; [exact okd_success|exact I0|exact H1|intros; exact I|]. intros h' x w' (σ & _ & _ & I1 & _). eauto. }
  eapply wp_mono; [|exact (wp_and _ _ _ _ (lk_call _ _ _ c _ _ I0 LK) K)].
  intros h1 [[x w1]| |] [L1 X]; unfold bind_post; auto. destruct X as [D1 I1].
  apply wp_bind_i. eapply wp_mono; [|eapply IH; eauto].
  intros h2 [[rs w2]| |] P; unfold bind_post; cbn; auto.
Qed.

Lemma lk_life bi cts w cs h D :
  WI okd bi cts w h D -> leak bi cts w h -> Forall wcall_ok cs ->
  wp (writer_life w cs) (fun h' o => match o with
    | Done _ => left_open h' -> head_only bi cts h' | _ => True end) h.
Proof.
  intros I0 LK Hok. unfold writer_life. apply wp_bind_i.
  eapply wp_mono; [|eapply lk_calls; eassumption].
  intros h1 [[rs w1]| |] P; unfold bind_post; auto. destruct P as [L1 [D1 I1]].
  apply wp_bind_i. unfold writer_destroy.
  assert (Fin : forall (x : res) w' h2, RWI (w_rdwr w') h2 ->
     (rw_opened (w_rdwr w') = true -> head_only bi cts h2) ->
     wp (bind (rdwr_destroy (w_rdwr w')) (fun _ => Ret x))
        (bind_post (fun x => Ret (rs, x)) (fun h' o => match o with Done _ => left_open h' -> head_only bi cts h' | _ => True end)) h2).
  { intros x w' h2 RW HO. apply wp_bind_i. unfold rdwr_destroy. destruct (rw_has_destroy (w_rdwr w')).
    - cbn. split; [exact I|]. intros a Ha. destruct a; try contradiction. cbn.
      intros (tr' & hh & aa & Eq & X). apply app_inj_tail in Eq. destruct Eq as [<- _].
      eapply head_only_eq; [|apply HO]; [rewrite sessions_snoc; reflexivity|].
      unfold RWI in RW. rewrite X in RW. destruct (rw_opened (w_rdwr w')); [reflexivity|discriminate].
    - cbn. intros (tr' & hh & aa & Eq & X). subst h2. unfold RWI in RW. rewrite transport_state_snoc, X in RW. cbn in RW.
      destruct aa, (rw_opened (w_rdwr w')); discriminate. }
  apply wp_bind_i. pose proof (wi_rw _ _ _ _ _ _ I1) as RW.
  destruct (w_state w1) eqn:ES.
  2:{ eapply wp_close_WI; [exact okd_success|exact I1|intros; exact I|].
      intros h2 x w2 I2 _ C _. unfold bind_post. destruct (C ES) as [C1 _]. apply Fin; [apply I2|congruence]. }
  all: cbn [wp bind_post]; apply Fin; [exact RW|]; intro O; destruct (L1 O) as [X|X]; [congruence|exact X].
Qed.

Lemma writer_left_open iovm cts rw w cs tr rs x :
  fresh_rdwr rw -> (0 < iovm)%nat -> writer_init iovm cts rw = Some w -> Forall wcall_ok cs ->
  runs (writer_life w cs) tr (Done (rs, x)) -> left_open tr ->
  exists ss b, delivered tr = ss ++ [b] /\ stalled_handshake (rw_has_read rw) cts b.
Proof.
  intros FR Hi Hw Hok R.
  assert (I0 : WI okd (rw_has_read rw) cts w [] []) by (destruct FR; eapply WI_init; eauto).
  assert (L0 : leak (rw_has_read rw) cts w []).
  { unfold writer_init in Hw. destruct (rw_has_write rw); [|discriminate]. injection Hw as <-.
    unfold leak. cbn. destruct FR. congruence. }
  exact (wp_runs _ _ (lk_life _ _ _ _ _ _ I0 L0 Hok) _ _ R).
Qed.

(** A one-way transport is never left open when the first content type is
    within its limit. *)
Lemma writer_file_closed iovm cts rw w cs tr rs x :
  fresh_rdwr rw -> rw_has_read rw = false -> (0 < iovm)%nat -> writer_init iovm cts rw = Some w -> Forall wcall_ok cs ->
  Forall (fun ct => lenN ct <= CT_MAX) cts ->
  runs (writer_life w cs) tr (Done (rs, x)) -> ~ left_open tr.
Proof.
  intros FR HR Hi Hw Hok F R LO. destruct (writer_left_open _ _ _ _ _ _ _ _ FR Hi Hw Hok R LO) as (ss & b & _ & S).
  rewrite HR in S. destruct S as [[_ N]|[X _]]; [|discriminate]. apply N. clear -F.
  destruct cts as [|ct cts]; cbn [hd_error optl].
  - split; [constructor|]. vm_compute. discriminate.
  - inversion_clear F as [|? ? H _]. split; [repeat constructor; exact H|].
    cbn [ctl_wire]. rewrite lenN_ctl_frame, lenN_ctl_payload1. unfold CT_MAX, CTL_MAX in *. lia.
Qed.

(** Attempts to open a transport that is still open. *)
From Verif Require Import Bytes Spec Bytes_proofs Io Io_proofs SpecTrace SpecStream Control Rdwr Rdwr_proofs Writer Api SpecApi
  Writer_proofs Writer2_proofs Writer3_proofs Writer4_proofs Iothr SpecIothr SpecClient Iothr_proofs Iothr2_proofs Iothr7_proofs ThreadUse_proofs Iothr8_proofs SpecThreadOpen Capture_proofs.
Local Open Scope nat_scope.

Section G.
Variables (bi : bool) (cts : list bytes).
Definition GI (h : trace) : Prop := forall a hd r b, h = a ++ (QOpen hd, r) :: b -> transport_state a = Some TOpen -> head_only bi cts a.
Definition is_open (q : query) : bool := match q with QOpen _ => true | _ => false end.

Lemma GI_snoc h q a : GI h -> (is_open q = true -> transport_state h = Some TOpen -> head_only bi cts h) -> GI (h ++ [(q, a)]).
Proof.
  intros G H x hd r b E T. destruct b as [|e b].
  - change ((QOpen hd, r) :: []) with ([(QOpen hd, r)]) in E. apply app_inj_tail in E as [<- E]. injection E as -> _. exact (H eq_refl T).
  - destruct (@exists_last _ (e :: b)) as (b' & l & Eb); [discriminate|]. rewrite Eb in E.
    change (x ++ (QOpen hd, r) :: b' ++ [l]) with (x ++ ((QOpen hd, r) :: b') ++ [l]) in E. rewrite app_assoc in E.
    apply app_inj_tail in E as [-> _]. exact (G x hd r b' eq_refl T).
Qed.

Definition quiet {A} (p : io A) : Prop := forall h, GI h -> wp p (fun h' _ => GI h') h.
Lemma wp_quiet {A B} (p : io A) (k : A -> io B) h : wp p (fun h' _ => GI h') h -> (forall a, quiet (k a)) -> wp (bind p k) (fun h' _ => GI h') h.
Proof.
  intros H1 H2. apply wp_bind_i. eapply wp_mono; [|exact H1].
  intros h' o. unfold bind_post. destruct o as [a| |]; auto. intro. apply H2; assumption.
Qed.
Lemma quiet_bind {A B} (p : io A) (k : A -> io B) : quiet p -> (forall a, quiet (k a)) -> quiet (bind p k).
Proof. intros H1 H2 h Hh. apply wp_quiet; [apply H1, Hh|exact H2]. Qed.
Lemma quiet_vis {A} q (k : ans -> io A) : is_open q = false -> (forall a, ans_ok q a -> quiet (k a)) -> quiet (Vis q k).
Proof. intros H1 H2 h Hh. cbn. split; auto. intros a Ha. apply H2; auto. apply GI_snoc; [exact Hh|congruence]. Qed.
Lemma quiet_ret {A} (a : A) : quiet (Ret a).
Proof. intros h Hh. exact Hh. Qed.
Lemma quiet_fail {A} e : quiet (A := A) (Fail e).
Proof. intros h Hh. exact Hh. Qed.
Lemma quiet_ask q : is_open q = false -> quiet (ask_res q).
Proof. intro H. apply quiet_vis; auto. intros [] ?; try apply quiet_fail; apply quiet_ret. Qed.
Ltac qt := repeat first
  [ progress cbv zeta | apply quiet_ret | apply quiet_fail | match goal with |- quiet (bind _ _) => apply quiet_bind; [|intros] end
  | match goal with |- quiet (ask_res _) => apply quiet_ask; reflexivity end
  | match goal with |- quiet (match ?b with _ => _ end) => destruct b end ].
Lemma quiet_close rw : quiet (rdwr_close rw).
Proof. unfold rdwr_close. qt. Qed.
Lemma quiet_read rw n : quiet (rdwr_read rw n).
Proof.
  unfold rdwr_read. qt; try apply quiet_close.
  apply quiet_vis; [reflexivity|]. intros [] ?; try apply quiet_fail; apply quiet_ret.
Qed.
Lemma quiet_write rw iov : quiet (rdwr_write rw iov).
Proof. unfold rdwr_write. qt; apply quiet_close. Qed.
Lemma quiet_wcf rw c : quiet (write_control_frame rw c).
Proof. rewrite write_control_frame_eq. qt. apply quiet_write. Qed.
Lemma quiet_rc rw oc t : quiet (read_control rw oc t).
Proof.
  unfold read_control, read_control_frame, read_control_frame_tail. cbv zeta iota. qt; try apply quiet_read.
  - apply quiet_vis; [reflexivity|]. intros [] ?; try apply quiet_fail; apply quiet_ret.
  - unfold lift. qt.
Qed.
Lemma quiet_send_start w ct : quiet (writer_send_start w ct).
Proof. unfold writer_send_start. cbv zeta. qt; apply quiet_wcf. Qed.
Lemma quiet_write_iov w iov : quiet (write_iov w iov).
Proof. unfold write_iov. destruct (_ <? _)%nat; [apply quiet_fail|]. qt. apply quiet_write. Qed.
Lemma quiet_loop fuel chunk : forall w iov, quiet (write_iov_stupid_loop fuel chunk w iov).
Proof. induction fuel as [|fuel IH]; intros w [|p iov]; cbn [write_iov_stupid_loop]; qt; try apply quiet_write_iov; apply IH. Qed.
Lemma quiet_wclose w : quiet (writer_close w).
Proof. unfold writer_close. qt; try apply quiet_wcf; try apply quiet_close; apply quiet_rc. Qed.
Lemma quiet_destroy w : quiet (writer_destroy w).
Proof. unfold writer_destroy, rdwr_destroy. qt; apply quiet_wclose. Qed.

(** The one place a transport is opened. *)
Lemma g_open w h : RWI (w_rdwr w) h -> leak bi cts w h -> GI h -> wp (writer_open w) (fun h' _ => GI h') h.
Proof.
  intros HI LK G. unfold writer_open. destruct (w_state w) eqn:ES; try exact G.
  all: apply wp_quiet;
    [unfold rdwr_open; destruct (negb (rw_has_open (w_rdwr w))); [exact G|];
     apply wp_quiet; [cbn; split; [exact G|]; intros a Ha; assert (G' : GI (h ++ [(QOpen (rw_h (w_rdwr w)), a)]));
       [apply GI_snoc; [exact G|]; intros _ T; unfold RWI in HI; rewrite T in HI;
        destruct (rw_opened (w_rdwr w)) eqn:O; [|discriminate HI]; destruct (LK O) as [X|X]; [congruence|exact X]
       |destruct a; exact G']
     |intro r; qt]
    |intros [x rw]; unfold writer_open_bidirectional, writer_open_unidirectional; qt;
     try apply quiet_send_start; try apply quiet_wcf; try apply quiet_rc].
Qed.
Lemma g_maybe w h : RWI (w_rdwr w) h -> leak bi cts w h -> GI h -> wp (writer_maybe_open w) (fun h' _ => GI h') h.
Proof.
  intros HI LK G. unfold writer_maybe_open. destruct (w_state w) eqn:ES; try exact G.
  apply wp_quiet; [apply g_open; assumption|]. intros [x w']. qt.
Qed.
Lemma g_call w c h : RWI (w_rdwr w) h -> leak bi cts w h -> GI h -> wp (do_wcall w c) (fun h' _ => GI h') h.
Proof.
  intros HI LK G.
  assert (V : forall iov, wp (writer_writev w iov) (fun h' _ => GI h') h).
  { intro iov. unfold writer_writev. destruct iov as [|b iov]; [exact G|]. apply wp_quiet; [apply g_maybe; assumption|]. intros [x w'].
    unfold write_iov_stupid. qt; try apply quiet_write_iov; apply quiet_loop. }
  destruct c as [|p|ps| |t]; cbn [do_wcall].
  - apply g_open; assumption.
  - apply V.
  - apply V.
  - apply quiet_wclose, G.
  - unfold writer_get_control. apply wp_quiet; [|intros [[x c] w']; qt]. apply wp_quiet; [apply g_maybe; assumption|]. intros [x w']. qt.
Qed.
Lemma g_calls cs : forall w h D, WI okd bi cts w h D -> leak bi cts w h -> GI h -> Forall wcall_ok cs ->
  wp (do_wcalls w cs) (fun h' _ => GI h') h.
Proof.
  induction cs as [|c cs IH]; intros w h D I0 LK G Hok; [exact G|].
  inversion_clear Hok as [|? ? H1 H2]. cbn [do_wcalls]. apply wp_bind_i.
  assert (K : wp (do_wcall w c) (fun h' o => match o with Done (_, w') => exists D', WI okd bi cts w' h' D' | _ => True end) h).
  { eapply wp_wcall; [exact okd_success|exact I0|exact H1|intros; exact I|]. intros h' x w' (σ & _ & _ & I1 & _). eauto. }
  pose proof (g_call w c h (wi_rw _ _ _ _ _ _ I0) LK G) as GC.
  eapply wp_mono; [|exact (wp_and _ _ _ _ GC (wp_and _ _ _ _ (lk_call _ _ _ c _ _ I0 LK) K))].
  intros h1 [[x w1]| |] (G1 & L1 & X); unfold bind_post; auto. destruct X as [D1 I1].
  apply wp_quiet; [exact (IH w1 h1 D1 I1 L1 G1 H2)|]. intros [xs w2]. qt.
Qed.
Lemma g_life w cs h D : WI okd bi cts w h D -> leak bi cts w h -> GI h -> Forall wcall_ok cs -> wp (writer_life w cs) (fun h' _ => GI h') h.
Proof.
  intros I0 LK G Hok. unfold writer_life. apply wp_quiet; [eapply g_calls; eassumption|]. intros [rs w']. qt. apply quiet_destroy.
Qed.
End G.

Lemma writer_reopens_open iovm cts rw w cs tr o :
  fresh_rdwr rw -> (0 < iovm)%nat -> writer_init iovm cts rw = Some w -> Forall wcall_ok cs -> runs (writer_life w cs) tr o ->
  forall a hd r b, tr = a ++ (QOpen hd, r) :: b -> transport_state a = Some TOpen ->
  exists ss x, delivered a = ss ++ [x] /\ stalled_handshake (rw_has_read rw) cts x.
Proof.
  intros FR Hi Hw Hok R.
  assert (I0 : WI okd (rw_has_read rw) cts w [] []) by (destruct FR; eapply WI_init; eauto).
  assert (L0 : leak (rw_has_read rw) cts w []).
  { unfold writer_init in Hw. destruct (rw_has_write rw); [|discriminate]. injection Hw as <-.
    unfold leak. cbn. destruct FR. congruence. }
  assert (G0 : GI (rw_has_read rw) cts []) by (intros a hd r b E; destruct a; discriminate E).
  exact (wp_runs _ _ (g_life _ _ _ _ _ _ I0 L0 G0 Hok) _ _ R).
Qed.

(** Elsewhere an open would be illegal. *)
Lemma opens_where {A} (p : io A) tr o a hd r b : runs p tr o -> transport_state tr <> None -> tr = a ++ (QOpen hd, r) :: b ->
  transport_state a <> Some TClosed -> transport_state a = Some TOpen.
Proof.
  intros R L -> N. apply runs_ans in R. apply Forall_app in R as [_ R]. inversion_clear R as [|? ? R1 _]. cbn in R1.
  unfold transport_state in *.
  assert (TA : forall u s v, tsteps s (u ++ v) = match tsteps s u with Some s' => tsteps s' v | None => None end).
  { induction u as [|e u IH]; intros s v; [reflexivity|]. cbn [app tsteps]. destruct (tstep s e); [apply IH|reflexivity]. }
  rewrite TA in L. destruct (tsteps TClosed a) as [s|]; [|contradiction]. destruct r; try contradiction.
  cbn [tsteps tstep] in L. destruct s; try reflexivity; contradiction.
Qed.
Lemma writer_reopens iovm cts rw w cs tr o :
  fresh_rdwr rw -> (0 < iovm)%nat -> writer_init iovm cts rw = Some w -> Forall wcall_ok cs -> runs (writer_life w cs) tr o ->
  forall a hd r b, tr = a ++ (QOpen hd, r) :: b -> transport_state a <> Some TClosed ->
  transport_state a = Some TOpen /\ exists ss x, delivered a = ss ++ [x] /\ stalled_handshake (rw_has_read rw) cts x.
Proof.
  intros FR Hi Hw Hok R a hd r b E N. destruct (writer_legal iovm cts rw w cs _ _ FR Hi Hw Hok R) as [L _].
  pose proof (opens_where _ _ _ _ _ _ _ R L E N) as T. split; [exact T|]. exact (writer_reopens_open iovm cts rw w cs tr o FR Hi Hw Hok R a hd r b E T).
Qed.

Lemma part_split tr : forall a e b, tr = a ++ e :: b -> of_writer e = true -> writer_part tr = writer_part a ++ e :: writer_part b.
Proof. intros a e b -> W. unfold writer_part. rewrite filter_app. cbn [filter]. rewrite W. reflexivity. Qed.
Lemma part_delivered tr : delivered (writer_part tr) = delivered tr.
Proof.
  unfold delivered, sessions. generalize (@nil bytes). induction tr as [|[q a] r IH]; intro s; [reflexivity|]. unfold writer_part in *. cbn [filter].
  destruct q; cbn [of_writer fst fold_left]; rewrite IH; try reflexivity; destruct a; reflexivity.
Qed.

Lemma thread_reopens iov_max cts rw t fuel dfuel tr o : created iov_max cts rw t -> runs (iothr_life fuel dfuel t) tr o ->
  forall a hd r b, tr = a ++ (QOpen hd, r) :: b -> transport_state a <> Some TClosed ->
  transport_state a = Some TOpen /\ exists ss x, delivered a = ss ++ [x] /\ stalled_handshake (rw_has_read rw) cts x.
Proof.
  intros C R a hd r b E T. destruct (thread_is_client _ _ _ _ _ _ _ _ C R) as (iovm & w & cs & o' & Hi & Hw & F & RW & _).
  destruct C as (FR & _). apply (part_split tr a (QOpen hd, r) b) in E; [|reflexivity].
  rewrite <- part_state in T. rewrite <- part_state, <- part_delivered. exact (writer_reopens iovm cts rw w cs _ _ FR Hi Hw F RW _ _ _ _ E T).
Qed.
Lemma one_way_no_stall cts x : Forall (fun ct => (lenN ct <= CT_MAX)%N) cts -> ~ stalled_handshake false cts x.
Proof.
  intros F [[_ N]|[X _]]; [|discriminate]. apply N. clear -F.
  destruct cts as [|ct cts]; cbn [hd_error optl].
  - split; [constructor|]. vm_compute. discriminate.
  - inversion_clear F as [|? ? H _]. split; [repeat constructor; exact H|].
    cbn [ctl_wire]. rewrite lenN_ctl_frame, lenN_ctl_payload1. unfold CT_MAX, CTL_MAX in *. lia.
Qed.
Lemma thread_opens_anew iov_max cts rw t fuel dfuel tr o : created iov_max cts rw t -> rw_has_read rw = false ->
  Forall (fun ct => (lenN ct <= CT_MAX)%N) cts -> runs (iothr_life fuel dfuel t) tr o -> opens_anew tr.
Proof.
  intros C B F R a hd r b E.
  assert (X : transport_state a = Some TClosed \/ transport_state a <> Some TClosed) by (destruct (transport_state a) as [[]|]; auto; right; discriminate).
  destruct X as [X|X]; [exact X|]. destruct (thread_reopens _ _ _ _ _ _ _ _ C R a hd r b E X) as (_ & ss & x & _ & S).
  rewrite B in S. destruct (one_way_no_stall cts x F S).
Qed.

(** The descriptor of a thread whose transport is a socket. *)
From Verif Require Import Bytes Spec Bytes_proofs Io Io_proofs SpecTrace SpecStream Control Rdwr Rdwr_proofs Writer Api SpecApi
  Writer_proofs Writer2_proofs Writer3_proofs Writer4_proofs Iothr SpecIothr SpecClient Iothr_proofs Iothr2_proofs Iothr7_proofs ThreadUse_proofs
  SpecThreadOpen ThreadOpen_proofs Socket SpecSocket Socket_proofs SpecThreadFd.
Local Open Scope nat_scope.

Definition SR (s : tstate) (w : sockw) : Prop :=
  match s with TClosed => s_connected w = false | TOpen | TBroken => s_connected w = true | TDestroyed => True end.
Definition has_fd (w : sockw) : Prop := s_connected w = true -> exists n, s_fd w = Some n.

Lemma open_fds w k r w1 e1 : op_open w k = (r, w1, e1) -> has_fd w ->
  has_fd w1 /\ fds_after (fds_of w) e1 = Some (fds_of w1) /\ s_connected w1 = res_eqb r r_success /\ (s_connected w = true -> r = r_success /\ w1 = w /\ e1 = []).
Proof.
  unfold op_open, has_fd. destruct w as [[] fd]; cbn [s_connected]; intros E I.
  - injection E as <- <- <-. repeat split; auto.
  - destruct k; injection E as <- <- <-; unfold fds_of; cbn; rewrite ?Nat.eqb_refl; repeat split; eauto; discriminate.
Qed.
Lemma close_fds w ok r w1 e1 : op_close w ok = (r, w1, e1) -> has_fd w ->
  has_fd w1 /\ fds_after (fds_of w) e1 = Some (fds_of w1) /\ s_connected w1 = false.
Proof.
  unfold op_close, has_fd. destruct w as [[] fd]; cbn [s_connected s_fd]; intros E I.
  - destruct (I eq_refl) as [n ->]. injection E as <- <- <-. unfold fds_of. cbn. rewrite Nat.eqb_refl. repeat split; discriminate.
  - injection E as <- <- <-. repeat split; discriminate.
Qed.
Lemma plays_fds w tr w' ev : socket_plays w tr w' ev -> forall s s', SR s w -> has_fd w -> tsteps s tr = Some s' ->
  SR s' w' /\ has_fd w' /\ fds_after (fds_of w) ev = Some (fds_of w').
Proof.
  induction 1 as [w|w k h r w1 e1 tr w2 e2 E P IH|w ok h r w1 e1 tr w2 e2 E P IH|w q a tr w2 e2 N P IH]; intros s s' S I T.
  - injection T as <-. auto.
  - destruct (open_fds _ _ _ _ _ E I) as (I1 & F1 & C1 & O1). rewrite fds_after_app, F1.
    cbn [tsteps tstep] in T. destruct s; try discriminate; (eapply IH; [|exact I1|exact T]); cbn [SR] in *.
    + destruct (res_eqb r r_success); exact C1.
    + destruct (O1 S) as (_ & -> & _). exact S.
  - destruct (close_fds _ _ _ _ _ E I) as (I1 & F1 & C1). rewrite fds_after_app, F1.
    cbn [tsteps tstep] in T. destruct s; try discriminate; (eapply IH; [|exact I1|exact T]); exact C1.
  - cbn [tsteps] in T. destruct (tstep s (q, a)) as [s1|] eqn:ET; [|discriminate]. apply (IH s1 s'); auto.
    destruct q; try contradiction; cbn [tstep] in ET; destruct a, s; try discriminate; injection ET as <-; cbn [SR] in *; auto;
      match goal with |- context [res_eqb ?x ?y] => destruct (res_eqb x y) end; exact S.
Qed.
Lemma plays_app w a : forall b w' ev, socket_plays w (a ++ b) w' ev -> exists w1 e1 e2, socket_plays w a w1 e1 /\ socket_plays w1 b w' e2 /\ ev = e1 ++ e2.
Proof.
  revert w. induction a as [|e a IH]; intros w b w' ev P; [exists w, [], ev; repeat split; [constructor|exact P]|].
  cbn [app] in P. inversion P; subst;
    match goal with H : socket_plays _ (a ++ b) _ _ |- _ => destruct (IH _ _ _ _ H) as (x & y & z & P1 & P2 & ->) end;
    do 3 eexists; (split; [econstructor; eassumption|]); (split; [exact P2|]); rewrite ?app_assoc; reflexivity.
Qed.
Lemma plays_part w tr w' ev : socket_plays w tr w' ev -> socket_plays w (writer_part tr) w' ev.
Proof.
  induction 1 as [w|w k h r w1 e1 tr w2 e2 E P IH|w ok h r w1 e1 tr w2 e2 E P IH|w q a tr w2 e2 N P IH]; unfold writer_part in *; cbn [filter of_writer fst].
  - constructor.
  - econstructor; eassumption.
  - eapply sp_close; eassumption.
  - destruct q; try contradiction; cbn; try exact IH; apply sp_other; try exact I; exact IH.
Qed.

Lemma calls_wi bi cts cs : forall w h D, WI okd bi cts w h D -> Forall wcall_ok cs ->
  wp (do_wcalls w cs) (fun h' o => match o with Done (_, w') => exists D', WI okd bi cts w' h' D' | _ => True end) h.
Proof.
  induction cs as [|c cs IH]; intros w h D I0 Hok; [cbn; eauto|]. inversion_clear Hok as [|? ? H1 H2]. cbn [do_wcalls]. apply wp_bind_i.
  eapply wp_wcall; [exact okd_success|exact I0|exact H1|intros; exact I|]. intros h' x w' (σ & _ & _ & I1 & _). cbn [bind_post].
  apply wp_bind_i. eapply wp_mono; [|exact (IH _ _ _ I1 H2)]. intros h2 [[xs w2]| |]; unfold bind_post; auto.
Qed.
Lemma destroy_ends bi cts w h D : WI okd bi cts w h D ->
  wp (writer_destroy w) (fun h' o => match o with Done _ => exists a hd x, h' = a ++ [(QDestroy hd, x)] | _ => True end) h.
Proof.
  intro I0. unfold writer_destroy.
  assert (Fin : forall (x : res) w' h1 D', WI okd bi cts w' h1 D' ->
    wp (bind (rdwr_destroy (w_rdwr w')) (fun _ => Ret x)) (fun h' o => match o with Done _ => exists a hd x, h' = a ++ [(QDestroy hd, x)] | _ => True end) h1).
  { intros x w' h1 D' [W _ _ _]. apply wp_bind_i. unfold rdwr_destroy. rewrite (ok_destroy _ _ _ W).
    cbn. split; [exact I|]. intros a Ha. destruct a; try contradiction. cbn. eauto. }
  apply wp_bind_i. destruct (w_state w).
  2:{ change (writer_close w) with (do_wcall w WClose).
      eapply wp_wcall; [exact okd_success|exact I0|vm_compute; reflexivity|intros; exact I|]. intros h' x w' (σ & _ & _ & I1 & _). cbn [bind_post]. eapply Fin, I1. }
  all: cbn [wp bind_post]; eapply Fin, I0.
Qed.
Lemma life_ends iovm cts rw w cs tr rs x : fresh_rdwr rw -> 0 < iovm -> writer_init iovm cts rw = Some w -> Forall wcall_ok cs ->
  runs (writer_life w cs) tr (Done (rs, x)) -> exists a hd y, tr = a ++ [(QDestroy hd, y)].
Proof.
  intros FR Hi Hw Hok R.
  assert (I0 : WI okd (rw_has_read rw) cts w [] []) by (destruct FR; eapply WI_init; eauto).
  assert (K : wp (writer_life w cs) (fun h' o => match o with Done _ => exists a hd x, h' = a ++ [(QDestroy hd, x)] | _ => True end) []).
  { unfold writer_life. apply wp_bind_i. eapply wp_mono; [|exact (calls_wi _ _ _ _ _ _ I0 Hok)].
    intros h1 [[xs w1]| |]; unfold bind_post; auto. intros [D1 I1]. apply wp_bind_i.
    eapply wp_mono; [|exact (destroy_ends _ _ _ _ _ I1)]. intros h2 [y| |]; unfold bind_post; auto. }
  exact (wp_runs _ _ K _ _ R).
Qed.

Lemma init_ok : SR TClosed sock_init /\ has_fd sock_init.
Proof. split; [reflexivity|]. intro E. discriminate E. Qed.
Lemma thread_fds iov_max cts rw t fuel dfuel tr o w ev : created iov_max cts rw t -> runs (iothr_life fuel dfuel t) tr o ->
  socket_plays sock_init tr w ev -> exists l, fds_after [] ev = Some l /\ length l <= 1 /\
    (transport_state tr = Some TOpen -> length l = 1) /\ (transport_state tr = Some TClosed -> l = []).
Proof.
  intros C R P. destruct (thread_legal _ _ _ _ _ _ _ _ C R) as [L _]. unfold transport_state in *.
  destruct (tsteps TClosed tr) as [s|] eqn:T; [|contradiction]. destruct init_ok as [S0 I0].
  destruct (plays_fds _ _ _ _ P _ _ S0 I0 T) as (S & I & F). exists (fds_of w). split; [exact F|].
  unfold fds_of, has_fd in *. destruct (s_connected w) eqn:E.
  - destruct (I eq_refl) as [n ->]. cbn. repeat split; auto. intro X. injection X as ->. cbn in S. congruence.
  - cbn. repeat split; auto. intro X. injection X as ->. cbn in S. congruence.
Qed.
Lemma writer_fd_left iovm cts rw w0 cs tr rs x w ev : fresh_rdwr rw -> 0 < iovm -> writer_init iovm cts rw = Some w0 -> Forall wcall_ok cs ->
  runs (writer_life w0 cs) tr (Done (rs, x)) -> socket_plays sock_init tr w ev -> fds_after [] ev <> Some [] -> left_open tr.
Proof.
  intros FR Hi Hw F RW P N.
  destruct (life_ends _ _ _ _ _ _ _ _ FR Hi Hw F RW) as (a & hd & y & E). exists a, hd, y. split; [exact E|].
  destruct (writer_legal iovm cts rw w0 cs _ _ FR Hi Hw F RW) as [L _]. rewrite E in *.
  destruct (plays_app _ _ _ _ _ P) as (w1 & e1 & e2 & P1 & P2 & ->).
  assert (e2 = []) as -> by (inversion P2; subst; match goal with H : socket_plays _ [] _ _ |- _ => inversion H end; reflexivity).
  rewrite app_nil_r in N. unfold transport_state in *.
  assert (TA : forall u s v, tsteps s (u ++ v) = match tsteps s u with Some s' => tsteps s' v | None => None end).
  { induction u as [|e u IH]; intros s v; [reflexivity|]. cbn [app tsteps]. destruct (tstep s e); [apply IH|reflexivity]. }
  rewrite TA in L. destruct (tsteps TClosed a) as [s|] eqn:T; [|contradiction]. destruct init_ok as [S0 I0].
  destruct (plays_fds _ _ _ _ P1 _ _ S0 I0 T) as (S & I & G). cbn in L.
  destruct s; try contradiction; [|reflexivity]. cbn in S. exfalso. apply N. unfold fds_of in G at 2. rewrite S in G. exact G.
Qed.
Lemma client_fd_left iovm cts rw w0 cs tr rs x w ev : fresh_rdwr rw -> 0 < iovm -> writer_init iovm cts rw = Some w0 -> Forall wcall_ok cs ->
  runs (writer_life w0 cs) tr (Done (rs, x)) -> socket_plays sock_init tr w ev -> fds_after [] ev <> Some [] ->
  exists ss b, delivered tr = ss ++ [b] /\ stalled_handshake (rw_has_read rw) cts b.
Proof.
  intros FR Hi Hw F RW P N. eapply writer_left_open; try eassumption. eapply writer_fd_left; eassumption.
Qed.
Lemma thread_fd_left iov_max cts rw t fuel dfuel tr w ev : created iov_max cts rw t -> runs (iothr_life fuel dfuel t) tr (Done tt) ->
  socket_plays sock_init tr w ev -> fds_after [] ev <> Some [] ->
  exists ss b, delivered tr = ss ++ [b] /\ stalled_handshake (rw_has_read rw) cts b.
Proof.
  intros C R P N. apply (thread_left_open iov_max cts rw t fuel dfuel tr C R).
  destruct (thread_is_client _ _ _ _ _ _ _ _ C R) as (iovm & w0 & cs & o' & Hi & Hw & F & RW & D).
  destruct C as (FR & _). destruct (D eq_refl) as (rs & x & ->).
  exact (writer_fd_left _ _ _ _ _ _ _ _ _ _ FR Hi Hw F RW (plays_part _ _ _ _ P) N).
Qed.
Lemma open_again a hd r w ev : socket_plays sock_init (a ++ [(QOpen hd, ARes r)]) w ev -> transport_state a = Some TOpen ->
  r = r_success /\ socket_plays sock_init a w ev.
Proof.
  intros P T. destruct (plays_app _ _ _ _ _ P) as (w1 & e1 & e2 & P1 & P2 & ->). destruct init_ok as [S0 I0].
  destruct (plays_fds _ _ _ _ P1 _ _ S0 I0 T) as (S & I & _). cbn in S.
  inversion P2; subst; [|contradiction]. match goal with H : socket_plays _ [] _ _ |- _ => inversion H; subst end.
  match goal with H : op_open _ _ = _ |- _ => destruct (open_fds _ _ _ _ _ H I) as (_ & _ & _ & O) end.
  destruct (O S) as (-> & -> & ->). rewrite app_nil_r. auto.
Qed.

(** For examples: the answers of the kernel, in order. *)
Fixpoint play (w : sockw) (ks : list (kopen + bool)) (tr : trace) : option (sockw * list fdev) :=
  match tr with
  | [] => Some (w, [])
  | (QOpen _, ARes r) :: tr =>
      match ks with
      | inl k :: ks => let '(r1, w1, e1) := op_open w k in
          if res_eqb r1 r then match play w1 ks tr with Some (w2, e2) => Some (w2, e1 ++ e2) | None => None end else None
      | _ => None
      end
  | (QClose _, ARes r) :: tr =>
      match ks with
      | inr k :: ks => let '(r1, w1, e1) := op_close w k in
          if res_eqb r1 r then match play w1 ks tr with Some (w2, e2) => Some (w2, e1 ++ e2) | None => None end else None
      | _ => None
      end
  | (QOpen _, _) :: _ | (QClose _, _) :: _ => None
  | _ :: tr => play w ks tr
  end.
Lemma play_sound tr : forall w ks w2 e, play w ks tr = Some (w2, e) -> socket_plays w tr w2 e.
Proof.
  induction tr as [|[q a] tr IH]; intros w ks w2 e H.
  - injection H as <- <-. constructor.
  - destruct q; try (apply sp_other; [exact I|]; exact (IH _ _ _ _ H)); cbn [play] in H; destruct a as [r| | | | | ]; try discriminate;
      destruct ks as [|[k|k] ks]; try discriminate.
    + destruct (op_open w k) as [[r1 w1] e1] eqn:E. destruct (res_eqb r1 r) eqn:X; [|discriminate].
      destruct (play w1 ks tr) as [[w3 e3]|] eqn:P; [|discriminate]. injection H as <- <-.
      assert (r1 = r) as -> by (destruct r1, r; congruence || discriminate X). econstructor; eauto.
    + destruct (op_close w k) as [[r1 w1] e1] eqn:E. destruct (res_eqb r1 r) eqn:X; [|discriminate].
      destruct (play w1 ks tr) as [[w3 e3]|] eqn:P; [|discriminate]. injection H as <- <-.
      assert (r1 = r) as -> by (destruct r1, r; congruence || discriminate X). eapply sp_close; eauto.
Qed.

(** Which calls the writer makes on behalf of the I/O thread. *)
From Verif Require Import Bytes Spec Bytes_proofs Io Io_proofs SpecTrace SpecStream Control Control_proofs Rdwr Rdwr_proofs Writer Api SpecApi
  Writer_proofs Writer2_proofs SpecIothr.
Local Open Scope nat_scope.

(** ** Programs all of whose events satisfy a predicate *)
Definition evp (P : event -> Prop) {A} (p : io A) : Prop :=
  forall h, wp p (fun h' _ => exists tr, h' = h ++ tr /\ Forall P tr) h.

Lemma evp_ret P {A} (a : A) : evp P (Ret a).
Proof. intro h. cbn. exists []. rewrite app_nil_r. auto. Qed.
Lemma evp_fail P {A} e : evp P (A := A) (Fail e).
Proof. intro h. cbn. exists []. rewrite app_nil_r. auto. Qed.
Lemma evp_vis (P : event -> Prop) {A} q (k : ans -> io A) : (forall a, ans_ok q a -> P (q, a)) -> (forall a, ans_ok q a -> evp P (k a)) -> evp P (Vis q k).
Proof.
  intros H K h. cbn. split; [exists []; rewrite app_nil_r; auto|]. intros a Ha.
  eapply wp_mono; [|apply K, Ha]. intros h' o (tr & -> & F). exists ((q, a) :: tr). rewrite <- app_assoc. split; [reflexivity|]. constructor; auto.
Qed.
Lemma evp_bind P {A B} (p : io A) (k : A -> io B) : evp P p -> (forall a, evp P (k a)) -> evp P (bind p k).
Proof.
  intros H K h. apply wp_bind_i. eapply wp_mono; [|apply H]. intros h' o (tr & -> & F). destruct o as [a|f|]; cbn; [|exists tr; auto|exists tr; auto].
  eapply wp_mono; [|apply K]. intros h' o' (tr' & -> & F'). exists (tr ++ tr'). rewrite app_assoc. split; [reflexivity|]. apply Forall_app. auto.
Qed.
Lemma evp_if P {A} (b : bool) (p q : io A) : evp P p -> evp P q -> evp P (if b then p else q).
Proof. destruct b; auto. Qed.
Lemma evp_mono (P Q : event -> Prop) {A} (p : io A) : (forall e, P e -> Q e) -> evp P p -> evp Q p.
Proof. intros H E h. eapply wp_mono; [|apply E]. intros h' o (tr & -> & F). exists tr. split; [reflexivity|]. eapply Forall_impl; eauto. Qed.
Lemma evp_ask (P : event -> Prop) q : (forall a, ans_ok q a -> P (q, a)) -> evp P (ask_res q).
Proof. intro H. apply evp_vis; [exact H|]. intros a _. destruct a; try apply evp_fail; apply evp_ret. Qed.
Lemma evp_lift P {A} (x : outc A) : evp P (lift x).
Proof. destruct x; [apply evp_ret|apply evp_fail]. Qed.

(** Transport events other than open and destroy; writes must satisfy [W]. *)
Definition tev (W : list bytes -> Prop) (e : event) : Prop :=
  match fst e with
  | QClose _ | QRead _ _ | QIsoUb _ => True
  | QWrite _ iov => W iov
  | _ => False
  end.

Section Ev.
Variable W : list bytes -> Prop.
Hypothesis WS : W [stop_frame].

Ltac ev := repeat first
  [ apply evp_ret | apply evp_fail | apply evp_lift | apply evp_if
  | apply evp_ask; intros ? _; exact I
  | apply evp_bind; [|intros [? ?]] | apply evp_bind; [|intros ?] ].

Lemma ev_close rw : evp (tev W) (rdwr_close rw).
Proof. unfold rdwr_close. ev. Qed.
Lemma ev_read rw n : evp (tev W) (rdwr_read rw n).
Proof.
  unfold rdwr_read. apply evp_if; [ev|]. apply evp_if; [ev|]. apply evp_bind.
  - apply evp_vis; [intros; exact I|]. intros a _. destruct a; ev.
  - intros [r bs]. apply evp_if; [|ev]. apply evp_bind; [apply ev_close|]. intros [? ?]. ev.
Qed.
Lemma ev_write rw iov : W iov -> evp (tev W) (rdwr_write rw iov).
Proof.
  intro H. unfold rdwr_write. apply evp_if; [ev|]. apply evp_if; [ev|]. apply evp_bind.
  - apply evp_ask. intros a _. exact H.
  - intro r. apply evp_if; [|ev]. apply evp_bind; [apply ev_close|]. intros [? ?]. ev.
Qed.
Lemma ev_rc rw oc t : evp (tev W) (read_control rw oc t).
Proof.
  unfold read_control, read_control_frame. apply evp_bind.
  - apply evp_bind; [apply ev_read|]. intros [[r b] rw']. apply evp_if; [ev|]. apply evp_if; [ev|].
    unfold read_control_frame_tail. apply evp_bind; [apply ev_read|]. intros [[r' b'] rw'']. apply evp_if; [ev|]. cbv zeta. apply evp_if; [ev|].
    apply evp_bind. { apply evp_if; [|ev]. apply evp_vis; [intros; exact I|]. intros a _. destruct a; ev. }
    intros _. apply evp_bind; [apply ev_read|]. intros [[r3 b3] rw3]. apply evp_if; [ev|]. apply evp_bind; [apply evp_lift|]. intros [r4 c4]. apply evp_if; [ev|].
    destruct (control_get_type c4) as [[] ?]; ev.
  - intros [[[r t'] c'] rw']. apply evp_if; [ev|]. destruct t'; ev.
Qed.
Lemma ev_wclose w : evp (tev W) (writer_close w).
Proof.
  unfold writer_close. destruct (w_state w); try apply evp_ret. cbv zeta. apply evp_bind.
  { rewrite write_stop_eq. apply ev_write, WS. }
  intros [x rw]. apply evp_if; [apply evp_bind; [apply ev_close|intros [? ?]; ev]|].
  apply evp_if; [|apply evp_bind; [apply ev_close|intros [? ?]; ev]].
  apply evp_bind; [apply ev_rc|]. intros [[x' fin] rw']. apply evp_if; (apply evp_bind; [apply ev_close|intros [? ?]; ev]).
Qed.

Hypothesis WC : forall iov, control_write iov -> W iov.
Lemma ev_wcf rw c : evp (tev W) (write_control_frame rw c).
Proof. rewrite write_control_frame_eq. apply evp_if; [|ev]. apply ev_write. apply WC. eexists _, _. reflexivity. Qed.
Lemma ev_send_start w ct : evp (tev W) (writer_send_start w ct).
Proof.
  unfold writer_send_start. destruct (control_set_type _ _) as [[] c]; try apply evp_ret. cbv zeta.
  apply evp_bind; [apply ev_wcf|]. intros [x rw]. ev.
Qed.

(** Opening: nothing, or the transport's open followed by reads and control
    frames. *)
Definition open_events (tr : trace) : Prop := tr = [] \/ exists h a tr', tr = (QOpen h, a) :: tr' /\ Forall (tev W) tr'.
Lemma ev_open w h : wp (writer_open w) (fun h' _ => exists tr, h' = h ++ tr /\ open_events tr) h.
Proof.
  unfold writer_open.
  assert (N : forall o : out (res * writer), exists tr, h = h ++ tr /\ open_events tr) by (intro; exists []; rewrite app_nil_r; split; [reflexivity|left; reflexivity]).
  assert (G : wp (bind (rdwr_open (w_rdwr w)) (fun z => match z with (x, rw) =>
      let w := set_wrdwr w rw in
      if negb (res_eqb x r_success) then Ret (x, w)
      else bind (if rw_has_read (w_rdwr w) then writer_open_bidirectional w
                     else writer_open_unidirectional w) (fun z => match z with (x, w) =>
        if negb (res_eqb x r_success) then Ret (x, w)
        else Ret (r_success, set_wstate w ws_opened) end) end)) (fun h' _ => exists tr, h' = h ++ tr /\ open_events tr) h).
  2:{ destruct (w_state w); try exact G. cbn. apply (N Cut). }
  unfold rdwr_open. destruct (rw_has_open (w_rdwr w)); cbn [negb]; [|cbn; apply (N Cut)].
  cbn [ask_res bind]. cbn [wp]. split; [apply (N Cut)|]. intros a Ha.
  assert (E : forall p : io (res * writer), evp (tev W) p -> wp p (fun h' _ => exists tr, h' = h ++ tr /\ open_events tr) (h ++ [(QOpen (rw_h (w_rdwr w)), a)])).
  { intros p E. eapply wp_mono; [|apply E]. intros h' o (tr & -> & F). eexists (_ :: tr). rewrite <- app_assoc. split; [reflexivity|]. right. eauto. }
  apply E. destruct a; try apply evp_fail. cbn [bind]. destruct (res_eqb r r_success) eqn:ER; cbn [bind]; rewrite ER; cbn [negb]; [|apply evp_ret]. cbv zeta.
  apply evp_bind; [|intros [x w']; ev]. apply evp_if; [|apply ev_send_start].
  unfold writer_open_bidirectional. destruct (control_set_type _ _) as [[] c]; try apply evp_ret. cbv zeta.
  apply evp_bind; [apply ev_wcf|]. intros [x rw]. apply evp_if; [ev|]. apply evp_bind; [apply ev_rc|]. intros [[x' acc] rw']. apply evp_if; [ev|].
  destruct acc as [acc|]; [|ev]. destruct (accept_match_loop _ _ _) as [m ct]. apply evp_if; [ev|]. apply ev_send_start.
Qed.

(** Writing on an opened writer: consecutive parts of the batch. *)
Variable ps : list bytes.
Hypothesis WP : forall a b c, ps = a ++ b ++ c -> b <> [] -> W (frame_iovecs b).
Lemma ev_write_iov w a b c : ps = a ++ b ++ c -> b <> [] -> evp (tev W) (write_iov w b).
Proof. intros E N. unfold write_iov. apply evp_if; [ev|]. apply evp_bind; [apply ev_write; eauto|]. intros [? ?]. ev. Qed.
Lemma ev_loop chunk : 0 < chunk -> forall fuel w a b, ps = a ++ b -> evp (tev W) (write_iov_stupid_loop fuel chunk w b).
Proof.
  clear WC WS. intro CP. induction fuel as [|fuel IH]; intros w a b E; cbn [write_iov_stupid_loop]; destruct b as [|x b]; try (ev; fail).
  apply evp_bind.
  - eapply ev_write_iov with (a := a) (c := skipn chunk (x :: b)); [rewrite firstn_skipn; exact E|]. destruct chunk; [lia|discriminate].
  - intros [r w']. apply evp_if; [ev|]. apply IH with (a := a ++ firstn chunk (x :: b)). rewrite <- app_assoc, firstn_skipn. exact E.
Qed.
Lemma ev_writev w : w_state w = ws_opened -> evp (tev W) (writer_writev w ps).
Proof.
  clear WC WS. intro S. unfold writer_writev.
  assert (G : ps <> [] -> evp (tev W) (bind (writer_maybe_open w) (fun z => match z with (x, w) =>
      if negb (res_eqb x r_success) then Ret (x, w)
      else match w_state w with
           | ws_opened =>
               if (2 ^ 31 <=? 2 * lenN ps)%N then Fail (FUb ub_overflow)
               else if (2 * length ps <=? FSTRM__WRITER_IOVEC_SIZE) then write_iov w ps else write_iov_stupid w ps
           | _ => Ret (r_failure, w)
           end end))).
  2:{ destruct ps as [|x r]; [ev|]. apply G. discriminate. }
  intro NE. unfold writer_maybe_open. rewrite S. cbn [bind]. cbn [res_eqb negb]. rewrite S. apply evp_if; [ev|]. apply evp_if.
  - apply ev_write_iov with (a := []) (c := []); [rewrite app_nil_r; reflexivity|exact NE].
  - unfold write_iov_stupid. cbv zeta. destruct (Nat.eqb_spec (Nat.min (FSTRM__WRITER_IOVEC_SIZE / 2) (w_iov_max w)) 0); [ev|].
    apply ev_loop with (a := []); [lia|reflexivity].
Qed.
End Ev.

Lemma ev_wdestroy (W : list bytes -> Prop) w : W [stop_frame] ->
  evp (fun e => tev W e \/ exists h, fst e = QDestroy h) (writer_destroy w).
Proof.
  intro WS. unfold writer_destroy. apply evp_bind.
  - destruct (w_state w); try apply evp_ret. eapply evp_mono; [|apply ev_wclose, WS]. auto.
  - intros [x w']. apply evp_bind; [|intro; apply evp_ret]. unfold rdwr_destroy. apply evp_if; [|apply evp_ret].
    apply evp_ask. intros a _. right. eexists. reflexivity.
Qed.

(** ** Calls that fail only if a transport call failed *)
Section Ok.
Variable okb : res -> bool.
Hypothesis okb_success : okb r_success = true.
Local Notation sessions := (SpecTrace.sessions okb).

Lemma ok_snoc h q a : Forall ev_ok (h ++ [(q, a)]) -> ev_ok (q, a).
Proof. intro F. apply Forall_app in F. destruct F as [_ F]. inversion F. assumption. Qed.

Lemma nf_write rw iov h : rw_opened rw = true -> rw_has_write rw = true ->
  wp (rdwr_write rw iov) (fun h' o => match o with
    | Done (x, rw') => (x = r_success /\ rw' = rw /\ sessions h' = add_last (sessions h) (concat iov)) \/
                       (x <> r_success /\ ~ Forall ev_ok h')
    | _ => True end) h.
Proof.
  intros O H. unfold rdwr_write. rewrite O, H. cbn [negb ask_res bind]. cbn [wp]. split; [exact I|]. intros a Ha. destruct a; try contradiction.
  cbn [bind]. destruct (res_eqb r r_success) eqn:E; cbn [negb].
  - apply res_eqb_true in E. subst r. cbn. left. split; [reflexivity|]. split; [reflexivity|]. rewrite sessions_snoc. cbn. rewrite okb_success. reflexivity.
  - apply res_eqb_false in E. apply wp_bind_i.
    assert (G : forall (p : io (res * rdwr)) h', ~ Forall ev_ok h' -> evp (fun _ => True) p -> wp p (fun h'' o => match o with Done _ => ~ Forall ev_ok h'' | _ => True end) h').
    { intros p h' N Ev. eapply wp_mono; [|apply Ev]. intros h'' o (tr & -> & _). destruct o; try exact I. intro F. apply N. apply Forall_app in F. apply F. }
    eapply wp_mono; [|apply G]. 
    + intros h' o K. destruct o as [[x rw']| |]; cbn; auto.
    + intro F. apply ok_snoc in F. cbn in F. congruence.
    + eapply evp_mono; [|apply (ev_close (fun _ => True))]; auto.
Qed.

(** A write on an opened writer. *)
Definition wrote_ok (w : writer) (ps : list bytes) (h : trace) : post (res * writer) := fun h' o => match o with
  | Done (x, w') => (x = r_success /\ w' = w /\ sessions h' = add_last (sessions h) (datas ps)) \/ (x <> r_success /\ ~ Forall ev_ok h')
  | _ => True end.
Lemma nf_write_iov w ps h : rw_opened (w_rdwr w) = true -> rw_has_write (w_rdwr w) = true ->
  wp (write_iov w ps) (wrote_ok w ps h) h.
Proof.
  intros O H. unfold write_iov. destruct (_ <? _); [exact I|]. apply wp_bind_i. eapply wp_mono; [|apply nf_write; assumption].
  intros h' o K. destruct o as [[x rw]| |]; [|exact I|exact I]. cbn. destruct K as [(-> & -> & E)|K]; [left|right; exact K].
  rewrite set_wrdwr_same, E, frame_iovecs_datas. auto.
Qed.
Lemma nf_loop chunk w : rw_opened (w_rdwr w) = true -> rw_has_write (w_rdwr w) = true -> forall fuel ps h,
  wp (write_iov_stupid_loop fuel chunk w ps) (wrote_ok w ps h) h.
Proof.
  intros O H. induction fuel as [|fuel IH]; intros ps h; cbn [write_iov_stupid_loop]; (destruct ps as [|x b]; [left; rewrite add_last_nil; auto|]); [exact I|].
  set (ps := x :: b). apply wp_bind_i. eapply wp_mono; [|apply nf_write_iov; assumption].
  intros h' o K. destruct o as [[x0 w']| |]; [|exact I|exact I]. cbn [bind_post]. destruct K as [(-> & -> & E)|[N K]].
  - cbn [res_eqb negb]. eapply wp_mono; [|apply IH]. intros h'' o K. destruct o as [[x1 w']| |]; [|exact I|exact I].
    destruct K as [(-> & -> & E2)|K]; [left|right; exact K]. rewrite E2, E, add_last_add_last, <- datas_app, firstn_skipn. auto.
  - rewrite (ne_eqb _ N). cbn. right. auto.
Qed.
Lemma nf_writev w ps h : w_state w = ws_opened -> rw_opened (w_rdwr w) = true -> rw_has_write (w_rdwr w) = true ->
  wp (writer_writev w ps) (wrote_ok w ps h) h.
Proof.
  intros S O H. unfold writer_writev. destruct ps as [|p0 ps0] eqn:EPS; [left; rewrite add_last_nil; auto|]. rewrite <- EPS in *. clear EPS p0 ps0.
  unfold writer_maybe_open. rewrite S. cbn [bind res_eqb negb]. rewrite S. destruct (_ <=? _)%N; [exact I|]. destruct (_ <=? _); [apply nf_write_iov; assumption|].
  unfold write_iov_stupid. cbv zeta. destruct (_ =? 0); [exact I|]. apply nf_loop; assumption.
Qed.

Lemma sess_quiet (W : list bytes -> Prop) tr : (forall iov, W iov -> False) -> Forall (tev W) tr -> forall h, sessions (h ++ tr) = sessions h.
Proof.
  intros HW. induction 1 as [|[q a] tr H F IH]; intro h; [rewrite app_nil_r; reflexivity|].
  change (h ++ (q, a) :: tr) with (h ++ [(q, a)] ++ tr). rewrite app_assoc.
  rewrite IH, sessions_snoc.
  destruct q; cbn in H; try contradiction; try reflexivity. exfalso. eauto.
Qed.

(** Closing puts the stop frame after everything else, or a call failed. *)
Lemma nf_close w h : w_state w = ws_opened -> rw_opened (w_rdwr w) = true -> rw_has_write (w_rdwr w) = true ->
  wp (writer_close w) (fun h' o => match o with Done _ => sessions h' = add_last (sessions h) stop_frame \/ ~ Forall ev_ok h' | _ => True end) h.
Proof.
  intros S O H. unfold writer_close. rewrite S. cbv zeta. rewrite write_stop_eq. apply wp_bind_i. eapply wp_mono; [|apply nf_write; assumption].
  intros h1 o K. destruct o as [[x rw]| |]; [|exact I|exact I]. cbn [bind_post].
  set (R := fun (h' : trace) (o : out (res * writer)) => _).
  assert (Q : forall p : io (res * writer), evp (tev (fun _ => False)) p -> (sessions h1 = add_last (sessions h) stop_frame \/ ~ Forall ev_ok h1) -> wp p R h1).
  { intros p Ev D. eapply wp_mono; [|apply Ev]. intros h' o (tr & -> & F). subst R. destruct o; [|exact I|exact I]. destruct D as [D|D].
    - left. rewrite (sess_quiet (fun _ => False)); auto.
    - right. intro G. apply D. apply Forall_app in G. apply G. }
  assert (C : forall rw', evp (tev (fun _ => False)) (rdwr_close rw')) by (intro; apply ev_close).
  destruct K as [(-> & -> & E)|[N K]].
  - cbn [res_eqb negb concat] in *. rewrite app_nil_r in E.
    apply Q; [|left; exact E]. apply evp_if; [|apply evp_bind; [apply C|intros [? ?]; apply evp_ret]].
    apply evp_bind; [apply ev_rc|]. intros [[x' fin] rw']. apply evp_if; (apply evp_bind; [apply C|intros [? ?]; apply evp_ret]).
  - rewrite (ne_eqb _ N). cbn [negb]. apply Q; [|right; exact K]. apply evp_bind; [apply C|intros [? ?]; apply evp_ret].
Qed.
End Ok.

(** A failed open has no successful write of a START frame. *)
Definition no_start (e : event) : Prop := forall hh ct, e <> (QWrite hh [start_frame ct], ARes r_success).

Lemma ctl_frame_type t cts t' cts' : (t < 2 ^ 32)%N -> (t' < 2 ^ 32)%N -> ctl_frame t cts = ctl_frame t' cts' -> t = t'.
Proof.
  intros L L' E. assert (E2 := f_equal (fun b => ntohl_bytes (skipn 8 b)) E). cbv beta in E2.
  assert (G : forall t cts, skipn 8 (ctl_frame t cts) = be32 t ++ concat (map ct_field cts)) by reflexivity.
  rewrite !G, !ntohl_be32_small in E2; assumption.
Qed.

Definition evx {A} (p : io A) (f : A -> res) : Prop := forall h,
  wp p (fun h' o => exists tr, h' = h ++ tr /\ match o with Done z => f z <> r_success -> Forall no_start tr | _ => True end) h.
Lemma evx_bind {A B} (p : io A) (k : A -> io B) f : evp no_start p -> (forall a, evx (k a) f) -> evx (bind p k) f.
Proof.
  intros E K h. apply wp_bind_i. eapply wp_mono; [|apply E]. intros h' o (tr & -> & F). destruct o as [a| |]; [|exists tr; auto|exists tr; auto].
  cbn [bind_post]. eapply wp_mono; [|apply K]. intros h' o (tr' & -> & F'). exists (tr ++ tr'). rewrite app_assoc. split; [reflexivity|].
  destruct o; auto. intro N. apply Forall_app. auto.
Qed.
Lemma evx_evp {A} (p : io A) f : evp no_start p -> evx p f.
Proof. intros E h. eapply wp_mono; [|apply E]. intros h' o (tr & -> & F). exists tr. split; [reflexivity|]. destruct o; auto. Qed.
Lemma evx_then {A} (p : io (res * A)) (g : A -> A) : evx p fst ->
  evx (bind p (fun z => match z with (x, w) => if negb (res_eqb x r_success) then Ret (x, w) else Ret (r_success, g w) end)) fst.
Proof.
  intros E h. apply wp_bind_i. eapply wp_mono; [|apply E]. intros h' o (tr & -> & F). destruct o as [[x w]| |]; [|exists tr; auto|exists tr; auto].
  cbn [bind_post]. destruct (res_eqb x r_success) eqn:EX; cbn; exists tr; (split; [reflexivity|]); auto.

Qed.
Lemma tev_no_start (W : list bytes -> Prop) : (forall ct, ~ W [start_frame ct]) -> forall e, tev W e -> no_start e.
Proof. intros H e T hh ct ->. cbn in T. exact (H ct T). Qed.
Lemma evx_rdwr_write rw iov : evx (rdwr_write rw iov) fst.
Proof.
  unfold rdwr_write. destruct (rw_opened rw); cbn [negb]; [|apply evx_evp, evp_ret]. destruct (rw_has_write rw); cbn [negb]; [|apply evx_evp, evp_ret].
  intro h. cbn [ask_res bind wp]. split; [exists []; rewrite app_nil_r; auto|]. intros a Ha. destruct a; try contradiction. cbn [bind].
  destruct (res_eqb r r_success) eqn:E; cbn [negb].
  - apply res_eqb_true in E. subst r. cbn. eexists. split; [reflexivity|]. intro N. contradiction N. reflexivity.
  - apply res_eqb_false in E. eapply wp_mono; [|apply (evx_evp (bind (rdwr_close rw) (fun z => match z with (_, rw') => Ret (r, rw') end)) fst)].
    + intros h' o (tr & -> & F). eexists (_ :: tr). rewrite <- app_assoc. split; [reflexivity|]. destruct o; auto. intro N. constructor; auto.
      intros hh ct [= _ _ X]. contradiction.
    + apply evp_bind; [|intros [? ?]; apply evp_ret]. eapply evp_mono; [|apply (ev_close (fun _ => False))]. apply tev_no_start. auto.
Qed.
Lemma evx_send_start w ct : evx (writer_send_start w ct) fst.
Proof.
  unfold writer_send_start. destruct (control_set_type _ _) as [[] c]; try (apply evx_evp, evp_ret). cbv zeta.
  intro h. apply wp_bind_i. rewrite write_control_frame_eq.
  match goal with |- wp (if ?b then ?p else ?q) _ _ => assert (G : evx (if b then p else q) fst) by (destruct b; [apply evx_rdwr_write|apply evx_evp, evp_ret]) end.
  eapply wp_mono; [|apply G]. intros h' o (tr & -> & F). destruct o as [[x rw]| |]; [|exists tr; auto|exists tr; auto].
  cbn [bind_post]. destruct (res_eqb x r_success) eqn:EX; cbn; exists tr; (split; [reflexivity|]); auto.
Qed.
Lemma open_fail_no_start w : evx (writer_open w) fst.
Proof.
  unfold writer_open.
  match goal with |- evx (match _ with ws_opening => ?p | _ => _ end) _ => assert (G : evx p fst); [|destruct (w_state w); try exact G; apply evx_evp, evp_ret] end.
  assert (TN : forall e, tev (fun iov => exists cts, iov = [ready_frame cts]) e -> no_start e).
  { apply tev_no_start. intros ct (cts & E). assert (E2 : ctl_frame T_START (optl ct) = ctl_frame T_READY cts) by exact (f_equal (hd []) E).
    apply ctl_frame_type in E2; [discriminate|reflexivity|reflexivity]. }
  apply evx_bind.
  { unfold rdwr_open. destruct (rw_has_open (w_rdwr w)); cbn [negb]; [|apply evp_ret]. apply evp_bind; [|intro r; apply evp_if; apply evp_ret].
    apply evp_ask. intros a _ hh ct. discriminate. }
  intros [x rw]. cbv zeta. destruct (res_eqb x r_success); cbn [negb]; [|apply evx_evp, evp_ret]. apply evx_then.
  destruct (rw_has_read _); [|apply evx_send_start].
  unfold writer_open_bidirectional. rewrite reset_or_init_eq. unfold control_set_type. change (type_known FSTRM_CONTROL_READY) with true. cbv iota zeta.
  rewrite add_all_eq. cbn [c_type c_cts app].
  apply evx_bind.
  { eapply evp_mono; [exact TN|]. rewrite write_control_frame_eq. apply evp_if; [|apply evp_ret]. apply ev_write. eexists. reflexivity. }
  intros [x1 rw1]. destruct (res_eqb x1 r_success); cbn [negb]; [|apply evx_evp, evp_ret]. apply evx_bind.
  { eapply evp_mono; [exact TN|]. apply ev_rc. }
  intros [[x2 acc] rw2]. destruct (res_eqb x2 r_success); cbn [negb]; [|apply evx_evp, evp_ret].
  destruct acc as [acc|]; [|apply evx_evp; first [apply evp_ret|apply evp_fail]]. destruct (accept_match_loop _ _ _) as [m ct].
  destruct m; cbn [negb]; [|apply evx_evp, evp_ret]. apply evx_send_start.
Qed.

(** ** Projections of traces *)
Lemma removed_app a b : removed (a ++ b) = removed a ++ removed b. Proof. apply flat_map_app. Qed.
Lemma freed_app a b : freed (a ++ b) = freed a ++ freed b. Proof. apply flat_map_app. Qed.

Lemma tev_removed W tr : Forall (tev W) tr -> removed tr = [] /\ freed tr = [].
Proof. induction 1 as [|[q a] tr H F [IH1 IH2]]; [auto|]. unfold removed, freed in *. cbn. rewrite IH1, IH2. destruct q; cbn in H; try contradiction; auto. Qed.
Lemma clock_app a b : clock_state (a ++ b) = fold_left clock_step b (clock_state a).
Proof. apply fold_left_app. Qed.
Lemma tev_clock W tr : Forall (tev W) tr -> forall s, fold_left clock_step tr s = s.
Proof. induction 1 as [|[q a] tr H F IH]; intro s; [reflexivity|]. cbn. destruct q; cbn in H; try contradiction; apply IH. Qed.
Lemma timed_app a b : timed_out (a ++ b) = fold_left wait_step b (timed_out a).
Proof. apply fold_left_app. Qed.
Lemma tev_timed W tr : Forall (tev W) tr -> forall s, fold_left wait_step tr s = s.
Proof. induction 1 as [|[q a] tr H F IH]; intro s; [reflexivity|]. cbn. destruct q; cbn in H; try contradiction; apply IH. Qed.
Lemma running_app a b : still_running (a ++ b) = still_running a + still_running b.
Proof. unfold still_running. rewrite filter_app, app_length. reflexivity. Qed.
Lemma tev_running W tr : Forall (tev W) tr -> still_running tr = 0.
Proof. induction 1 as [|[q a] tr H F IH]; [reflexivity|]. unfold still_running in *. cbn. destruct q; cbn in H; try contradiction; exact IH. Qed.

Lemma frames_eq es : frame_iovecs (map e_data es) = frames_of es.
Proof. induction es as [|e es IH]; [reflexivity|]. cbn. rewrite IH, htonl_be32. reflexivity. Qed.

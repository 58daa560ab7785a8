From Verif Require Import Bytes Spec Bytes_proofs Io Io_proofs SpecTrace SpecStream
  Control Control_proofs Rdwr Rdwr_proofs Writer Api SpecApi Writer_proofs.
Ltac Zify.zify_post_hook ::= Z.div_mod_to_equations.
Local Open Scope N_scope.

(** ** What may really be on the medium *)
Definition em_inv (s : tstate) (ss del att : list bytes) : Prop :=
  Forall2 prefix ss att /\ Forall2 prefix del ss /\
  (s = TOpen -> exists a b c cur, ss = a ++ [cur] /\ del = b ++ [cur] /\ att = c ++ [cur] /\
     Forall2 prefix a c /\ Forall2 prefix b a).

Lemma Forall2_snoc {A B} (R : A -> B -> Prop) a b x y : Forall2 R a b -> R x y -> Forall2 R (a ++ [x]) (b ++ [y]).
Proof. intros. apply Forall2_app; auto. Qed.

Lemma emits_inv tr ss : emits tr ss -> transport_state tr <> None ->
  exists s, transport_state tr = Some s /\ em_inv s ss (delivered tr) (attempted tr).
Proof.
  unfold delivered, attempted. induction 1 as [|tr ss h iov r b E IH Hr P|tr ss e E IH Hsafe]; intro L.
  - exists TClosed. split; [reflexivity|]. split; [constructor|]. split; [constructor|discriminate].
  - rewrite transport_state_snoc in *.
    destruct IH as (s & T & F1 & F2 & O). { destruct (transport_state tr); congruence. }
    rewrite T in *. cbn in L |- *. destruct s; try congruence.
    destruct (O eq_refl) as (x & y & z & cur & -> & D & AT & G1 & G2).
    assert (ER : res_eqb r r_success = false) by (destruct r; try reflexivity; contradiction).
    rewrite ER. exists TBroken. split; [reflexivity|].
    rewrite !sessions_snoc. cbn. rewrite ER. rewrite D, AT, !add_last_snoc.
    split; [|split; [|discriminate]]; apply Forall2_snoc; auto.
    + apply prefix_app. assumption.
    + apply prefix_app_r.
  - rewrite transport_state_snoc in *.
    destruct IH as (s & T & F1 & F2 & O). { destruct (transport_state tr); congruence. }
    rewrite T in *. cbn in L |- *. destruct (tstep s e) as [s'|] eqn:ES; [|congruence].
    exists s'. split; [reflexivity|]. rewrite !sessions_snoc.
    set (del := sessions (fun r => res_eqb r r_success) tr) in *. set (att := sessions (fun _ => true) tr) in *.
    assert (Same : s' <> TOpen \/ s = TOpen -> em_inv s' ss del att).
    { intros HH. split; [assumption|]. split; [assumption|]. intro. destruct HH; [contradiction|auto]. }
    destruct e as [q a]. destruct q; cbn in ES |- *.
    all: try (injection ES as <-; apply Same; destruct s; intuition congruence).
    + destruct a; try (injection ES as <-; apply Same; destruct s; intuition congruence).
      destruct r; cbn in ES.
      1:{ split; [|split].
          - apply Forall2_snoc; auto. apply prefix_refl.
          - apply Forall2_snoc; auto. apply prefix_refl.
          - intros _. exists ss, del, att, []. auto. }
      all: apply Same; destruct s; try congruence; injection ES as <-; intuition congruence.
    + apply Same. left. destruct s; congruence.
    + destruct a; try (injection ES as <-; apply Same; destruct s; intuition congruence).
      apply Same. destruct s; try congruence. auto.
    + destruct a; try (injection ES as <-; apply Same; destruct s; intuition congruence).
      specialize (Hsafe _ _ _ eq_refl). subst r. cbn in *.
      destruct s; try congruence. injection ES as <-.
      destruct (O eq_refl) as (x & y & z & cur & -> & D & AT & G1 & G2).
      rewrite D, AT, !add_last_snoc. split; [|split].
      * apply Forall2_snoc; auto. apply prefix_refl.
      * apply Forall2_snoc; auto. apply prefix_refl.
      * intros _. do 4 eexists. eauto 10.
    + apply Same. left. destruct s; congruence.
Qed.

Lemma emits_between tr ss : emits tr ss -> transport_state tr <> None ->
  Forall2 prefix ss (attempted tr) /\ Forall2 prefix (delivered tr) ss.
Proof. intros E L. destruct (emits_inv _ _ E L) as (s & _ & F1 & F2 & _). auto. Qed.

Lemma writer_crash_prefix iovm cts rw w cs tr o ss :
  fresh_rdwr rw -> (0 < iovm)%nat -> writer_init iovm cts rw = Some w -> Forall wcall_ok cs ->
  runs (writer_life w cs) tr o -> emits tr ss ->
  exists full rs σs dss,
    explained cs rs σs /\ Forall2 prefix ss full /\
    Forall2 (writer_session (rw_has_read rw) cts) full dss /\ concat dss = concat σs.
Proof.
  intros FR Hi Hw Hok R E.
  destruct (writer_life_spec (fun _ => true) eq_refl iovm cts rw w cs tr o) as (L & rs & σs & dss & H1 & H2 & H3 & _); auto.
  exists (attempted tr), rs, σs, dss. destruct (emits_between _ _ E L). auto.
Qed.

Lemma writer_delivered iovm cts rw w cs tr rs x :
  fresh_rdwr rw -> (0 < iovm)%nat -> writer_init iovm cts rw = Some w -> Forall wcall_ok cs ->
  runs (writer_life w cs) tr (Done (rs, x)) ->
  exists σs dss,
    length rs = length cs /\ explained cs rs σs /\
    Forall2 (writer_session (rw_has_read rw) cts) (delivered tr) dss /\ concat dss = concat σs.
Proof.
  intros FR Hi Hw Hok R.
  destruct (writer_life_spec (fun r => res_eqb r r_success) eq_refl iovm cts rw w cs tr (Done (rs, x)))
    as (L & rs' & σs & dss & H1 & H2 & H3 & -> & H4 & _); auto.
  exists σs, dss. auto.
Qed.

Lemma writer_legal iovm cts rw w cs tr o :
  fresh_rdwr rw -> (0 < iovm)%nat -> writer_init iovm cts rw = Some w -> Forall wcall_ok cs ->
  runs (writer_life w cs) tr o ->
  transport_state tr <> None /\
  match o with
  | Done _ => transport_state tr = Some TDestroyed
  | Stuck _ => False
  | Cut => True
  end.
Proof.
  intros FR Hi Hw Hok R.
  destruct (writer_life_spec (fun r => res_eqb r r_success) eq_refl iovm cts rw w cs tr o)
    as (L & rs' & σs & dss & H1 & H2 & H3 & H4); auto. split; [assumption|].
  destruct o as [[]| |]; auto. apply H4.
Qed.

Lemma writer_no_leak iovm cts rw w cs tr rs x :
  fresh_rdwr rw -> (0 < iovm)%nat -> writer_init iovm cts rw = Some w -> Forall wcall_ok cs ->
  runs (writer_life w cs) tr (Done (rs, x)) -> Forall (eq r_success) rs -> ~ left_open tr.
Proof.
  intros FR Hi Hw Hok R.
  destruct (writer_life_spec (fun r => res_eqb r r_success) eq_refl iovm cts rw w cs tr (Done (rs, x)))
    as (L & rs' & σs & dss & H1 & H2 & H3 & -> & H4); auto. apply H4.
Qed.

(** ** A successful call saw only successful transport calls *)
Definition okp {A} (p : io A) (f : A -> res) : Prop :=
  forall h, Forall ev_ok h ->
  wp p (fun h' o => match o with Done a => f a = r_success -> Forall ev_ok h' | _ => True end) h.
Definition nok {A} (p : io A) (f : A -> res) : Prop :=
  forall h, wp p (fun h' o => match o with Done a => f a <> r_success | _ => True end) h.

Lemma okp_bind {A B} (p : io A) f (k : A -> io B) g :
  okp p f -> (forall a, f a = r_success -> okp (k a) g) -> (forall a, f a <> r_success -> nok (k a) g) ->
  okp (bind p k) g.
Proof.
  intros H1 H2 H3 h Hh. apply wp_bind_i. eapply wp_mono; [|apply H1; exact Hh].
  intros h' o. unfold bind_post. destruct o as [a| |]; auto. intro Ha.
  assert (D : {f a = r_success} + {f a <> r_success}) by (destruct (f a); (left; reflexivity) || (right; discriminate)).
  destruct D as [E|E].
  - apply H2; auto.
  - eapply wp_mono; [|apply H3; exact E]. cbn. intros h2 [b| |]; auto. intros; contradiction.
Qed.
Lemma okp_ret {A} (a : A) f : okp (Ret a) f.
Proof. intros h Hh. cbn. auto. Qed.
Lemma okp_fail {A} e (f : A -> res) : okp (Fail e) f.
Proof. intros h Hh. exact I. Qed.
Lemma nok_ret {A} (a : A) f : f a <> r_success -> nok (Ret a) f.
Proof. intros H h. exact H. Qed.
Lemma nok_bind {A B} (p : io A) (k : A -> io B) g : (forall a, nok (k a) g) -> nok (bind p k) g.
Proof.
  intros H h. apply wp_bind_i. revert h. induction p as [a|e|q c IH]; intro h; cbn.
  - apply H.
  - exact I.
  - split; [exact I|]. intros a _. apply IH.
Qed.
Lemma ne_eqb r : r <> r_success -> res_eqb r r_success = false.
Proof. destruct r; auto. congruence. Qed.
Lemma okp_ask q : okp (ask_res q) (fun r => r).
Proof.
  intros h Hh. cbn. split; [exact I|]. intros a Ha. destruct a; cbn; auto.
  intros ->. apply Forall_app. split; auto. constructor; [|constructor]. destruct q; reflexivity.
Qed.
Lemma okp_ask_read n c : okp (ask_read n c) (fun r => fst r).
Proof.
  intros h Hh. cbn. split; [exact I|]. intros a Ha. destruct a; cbn; auto.
  intros ->. apply Forall_app. split; auto. constructor; [|constructor]. reflexivity.
Qed.

Definition r1 {B} (z : res * B) : res := fst z.
Definition r2 {B C} (z : res * B * C) : res := fst (fst z).
Definition r3 {B C D} (z : res * B * C * D) : res := fst (fst (fst z)).

Ltac okb := repeat first
  [ progress (cbn [r1 r2 r3 fst snd negb res_eqb] in *)
  | match goal with H : r_success <> r_success |- _ => contradiction (H eq_refl) | H : _ = r_success |- _ => discriminate H end
  | apply okp_ret | apply okp_fail | (apply nok_ret; cbn; discriminate) | (apply nok_ret; assumption)
  | match goal with
    | |- forall _ : _ * _ * _ * _, _ => intros [[[? ?] ?] ?] ?
    | |- forall _ : _ * _ * _, _ => intros [[? ?] ?] ?
    | |- forall _ : _ * _, _ => intros [? ?] ?
    | |- forall _ : res, _ => intros ? ?
    end
  | match goal with H : ?x <> r_success |- context [res_eqb ?x r_success] => rewrite (ne_eqb _ H); cbn [negb] end
  | match goal with H : ?x = r_success |- context [res_eqb ?x r_success] => rewrite H; cbn [res_eqb negb] end ].

Lemma okp_rdwr_open rw : okp (rdwr_open rw) r1.
Proof.
  unfold rdwr_open. destruct (negb _); [apply okp_ret|].
  eapply okp_bind; [apply okp_ask| |]; okb.
Qed.
Lemma okp_rdwr_close rw : okp (rdwr_close rw) r1.
Proof.
  unfold rdwr_close. destruct (negb _); [apply okp_ret|]. destruct (rw_opened rw); [|apply okp_ret].
  eapply okp_bind; [apply okp_ask| |]; okb.
Qed.
Lemma okp_rdwr_read rw n : okp (rdwr_read rw n) r2.
Proof.
  unfold rdwr_read. destruct (negb _); [apply okp_ret|]. destruct (negb _); [apply okp_ret|].
  eapply okp_bind; [apply okp_ask_read| |]; okb.
  apply nok_bind. intros [? ?]. okb.
Qed.
Lemma okp_rdwr_write rw iov : okp (rdwr_write rw iov) r1.
Proof.
  unfold rdwr_write. destruct (negb _); [apply okp_ret|]. destruct (negb _); [apply okp_ret|].
  eapply okp_bind; [apply okp_ask| |]; okb.
  apply nok_bind. intros [? ?]. okb.
Qed.
Lemma okp_wcf rw c : okp (write_control_frame rw c) r1.
Proof. rewrite write_control_frame_eq. destruct (encodable _ _ _); [apply okp_rdwr_write|apply okp_ret]. Qed.
Lemma okp_read_tail rw c : okp (read_control_frame_tail rw c) r3.
Proof.
  unfold read_control_frame_tail. eapply okp_bind; [apply okp_rdwr_read| |]; okb.
  destruct (_ <? _); okb.
  eapply (okp_bind _ (fun _ => r_success)).
  { destruct (_ =? 0); [|apply okp_ret]. intros h Hh. cbn. split; [exact I|]. intros a Ha. destruct a; cbn; auto.
    intros _. apply Forall_app. split; [exact Hh|]. repeat constructor. }
  - intros _ _. eapply okp_bind; [apply okp_rdwr_read| |]; okb.
    eapply (okp_bind _ (fun _ => r_success)).
    { destruct (control_decode _ _ _ _); [apply okp_ret|apply okp_fail]. }
    + okb. destruct (negb _); okb. destruct (control_get_type _) as [[] ?]; okb.
    + okb.
  - intros ? X. contradiction (X eq_refl).
Qed.
Lemma okp_read_control rw oc t : okp (read_control rw oc t) r2.
Proof.
  unfold read_control. cbv zeta.
  eapply okp_bind with (f := r3).
  - unfold read_control_frame; cbv iota. eapply okp_bind; [apply okp_rdwr_read| |]; okb.
    destruct (negb _); okb. apply okp_read_tail.
  - okb. destruct o; okb. destruct (negb _); okb.
  - okb.
Qed.
Lemma okp_send_start w ct : okp (writer_send_start w ct) r1.
Proof.
  unfold writer_send_start. destruct (control_set_type _ _) as [x c]. destruct x; okb.
  eapply okp_bind; [apply okp_wcf| |]; okb.
Qed.
Lemma okp_open w : okp (writer_open w) r1.
Proof.
  unfold writer_open.
  assert (B : forall w, okp (if rw_has_read (w_rdwr w) then writer_open_bidirectional w else writer_open_unidirectional w) r1).
  { clear. intro w. destruct (rw_has_read _); [|apply okp_send_start].
    unfold writer_open_bidirectional. destruct (control_set_type _ _) as [x c]. destruct x; okb.
    eapply okp_bind; [apply okp_wcf| |]; okb.
    eapply okp_bind; [apply okp_read_control| |]; okb.
    destruct o; okb. destruct (accept_match_loop _ _ _). destruct (negb _); okb. apply okp_send_start. }
  destruct (w_state w); try apply okp_ret.
  all: eapply okp_bind; [apply okp_rdwr_open| |]; okb; (eapply okp_bind; [apply B| |]; okb).
Qed.
Lemma okp_maybe_open w : okp (writer_maybe_open w) r1.
Proof.
  unfold writer_maybe_open. destruct (w_state w); try apply okp_ret.
  eapply okp_bind; [apply okp_open| |]; okb.
Qed.
Lemma okp_write_iov w iov : okp (write_iov w iov) r1.
Proof.
  unfold write_iov. destruct (_ <? _)%nat; [apply okp_fail|]. eapply okp_bind; [apply okp_rdwr_write| |]; okb.
Qed.
Lemma okp_stupid_loop fuel : forall chunk w iov, okp (write_iov_stupid_loop fuel chunk w iov) r1.
Proof.
  induction fuel as [|fuel IH]; intros chunk w iov; destruct iov as [|p iov]; cbn [write_iov_stupid_loop]; try apply okp_ret; try apply okp_fail.
  eapply okp_bind; [apply okp_write_iov| |]; okb. apply IH.
Qed.
Lemma okp_writev w iov : okp (writer_writev w iov) r1.
Proof.
  unfold writer_writev. destruct iov; [apply okp_ret|].
  eapply okp_bind; [apply okp_maybe_open| |]; okb.
  destruct (w_state _); okb. destruct (_ <=? _); [apply okp_fail|]. destruct (_ <=? _)%nat; [apply okp_write_iov|].
  unfold write_iov_stupid. destruct (_ =? _)%nat; [apply okp_fail|apply okp_stupid_loop].
Qed.
Lemma okp_write_control rw t ct : okp (write_control rw t ct) r1.
Proof. unfold write_control. destruct (control_set_type _ _) as [[] ?]; okb. apply okp_wcf. Qed.
Lemma okp_close w : okp (writer_close w) r1.
Proof.
  unfold writer_close. destruct (w_state w); try apply okp_ret.
  eapply okp_bind; [apply okp_write_control| |]; okb.
  - destruct (rw_has_read _).
    + eapply okp_bind; [apply okp_read_control| |]; okb.
      * eapply okp_bind; [apply okp_rdwr_close| |]; okb.
      * apply nok_bind. intros [? ?]. okb.
    + eapply okp_bind; [apply okp_rdwr_close| |]; okb.
  - apply nok_bind. intros [? ?]. okb.
Qed.
Lemma okp_wcall w c : okp (do_wcall w c) r1.
Proof.
  destruct c; cbn [do_wcall]; try apply okp_open; try apply okp_writev; try apply okp_close.
  eapply (okp_bind _ r2); [|okb|okb].
  unfold writer_get_control. eapply okp_bind; [apply okp_maybe_open| |]; okb.
  repeat match goal with |- context [if ?b then _ else _] => destruct b end; apply okp_ret.
Qed.
Lemma success_all_ok w c tr w' : runs (do_wcall w c) tr (Done (r_success, w')) -> Forall ev_ok tr.
Proof.
  intro R. pose proof (okp_wcall w c [] (Forall_nil _)) as W.
  apply (wp_sound _ _ _ _ _ W) in R. apply R. reflexivity.
Qed.

(** ** Nothing after close *)
Lemma bind_ret_l {A B} (a : A) (f : A -> io B) : bind (Ret a) f = f a.
Proof. reflexivity. Qed.

Lemma closed_call w c : w_state w = ws_closed -> c <> WOpen -> wcall_ok c ->
  exists x, do_wcall w c = Ret (x, w) /\ (wpayloads c <> [] -> x = r_failure) /\ (c = WClose -> x = r_failure).
Proof.
  intros E NO _. destruct c as [|p|ps| |t]; cbn [do_wcall wpayloads].
  - congruence.
  - eexists. unfold writer_write, writer_writev, writer_maybe_open. rewrite E. cbn. rewrite E. cbn. eauto.
  - unfold writer_writev, writer_maybe_open. destruct ps; cbn.
    + eexists. split; [reflexivity|]. split; congruence.
    + rewrite E. cbn. rewrite E. cbn. eauto.
  - unfold writer_close. rewrite E. eauto.
  - unfold writer_get_control, writer_maybe_open. rewrite E. cbn.
    repeat match goal with |- context [if ?b then _ else _] => destruct b end; cbn; (eexists; split; [reflexivity|split; congruence]).
Qed.

Lemma closed_calls cs : forall w, w_state w = ws_closed -> Forall (fun c => c <> WOpen) cs -> Forall wcall_ok cs ->
  exists xs, do_wcalls w cs = Ret (xs, w) /\
    Forall2 (fun c x => wpayloads c <> [] -> x = r_failure) cs xs.
Proof.
  induction cs as [|c cs IH]; intros w E NO OK; cbn [do_wcalls]; [eauto|].
  inversion_clear NO. inversion_clear OK.
  destruct (closed_call w c) as (x & -> & Hx & _); auto. cbn [bind].
  destruct (IH w) as (xs & -> & Hxs); auto. cbn. eauto.
Qed.

Lemma close_state w tr x w' : runs (writer_close w) tr (Done (x, w')) -> tr <> [] -> w_state w' = ws_closed.
Proof.
  unfold writer_close. destruct (w_state w).
  1,3,4: intros R; inversion R; subst; congruence.
  intros R _. revert tr x w' R.
  assert (G : forall tr o, runs (writer_close (set_wstate w ws_opened)) tr o ->
     match o with Done (_, w') => w_state w' = ws_closed | _ => True end).
  { apply wp_runs. unfold writer_close. cbn [set_wstate w_state w_rdwr w_finish].
    assert (P : forall (A : Type) (p : io A) B (k : A -> io B) (Q : out B -> Prop) h,
       (Q Cut) -> (forall e, Q (Stuck e)) -> (forall a h, wp (k a) (fun _ o => Q o) h) -> wp (bind p k) (fun _ o => Q o) h).
    { clear. intros A p B k Q h HC HS HK. apply wp_bind_i. revert h. induction p as [a|e|q c IH]; intro h; cbn; auto. }
    apply P; auto. intros [x1 rw1] h1. destruct (negb _).
    - apply P; auto. intros [x2 rw2] h2. reflexivity.
    - destruct (rw_has_read _).
      + apply P; auto. intros [[x2 f2] rw2] h2. destruct (negb _); apply P; auto; intros [x3 rw3] h3; reflexivity.
      + apply P; auto. intros [x3 rw3] h3; reflexivity. }
  intros tr x w' R. apply (G tr (Done (x, w'))). exact R.
Qed.

Lemma quiet_after_close w tr x w' cs tr2 o :
  runs (do_wcall w WClose) tr (Done (x, w')) -> tr <> [] ->
  Forall (fun c => c <> WOpen) cs -> Forall wcall_ok cs ->
  runs (do_wcalls w' cs) tr2 o ->
  tr2 = [] /\ exists xs, o = Done (xs, w') /\
    Forall2 (fun c x => wpayloads c <> [] -> x = r_failure) cs xs.
Proof.
  intros R1 NE NO OK R2. cbn in R1. pose proof (close_state _ _ _ _ R1 NE) as E.
  destruct (closed_calls cs w' E NO OK) as (xs & Eq & F). rewrite Eq in R2.
  inversion R2; subst. eauto.
Qed.

(** ** The accepting transport *)
Lemma add_last_add_last ss a b : add_last (add_last ss a) b = add_last ss (a ++ b).
Proof.
  destruct (@exists_last _ ss) as [|(s0 & x & ->)] || destruct ss as [|x ss] using rev_ind.
  - reflexivity.
  - rewrite !add_last_snoc, app_assoc. reflexivity.
Qed.
Lemma add_last_nil ss : add_last ss [] = ss.
Proof.
  destruct ss as [|x ss _] using rev_ind; [reflexivity|]. rewrite add_last_snoc, app_nil_r. reflexivity.
Qed.

Definition wready (w : writer) : Prop :=
  w_state w = ws_opened /\ rw_opened (w_rdwr w) = true /\ rw_has_write (w_rdwr w) = true /\ (0 < w_iov_max w)%nat.

Lemma set_wrdwr_same w : set_wrdwr w (w_rdwr w) = w.
Proof. destruct w; reflexivity. Qed.

(** Writer state and expected state. *)
Definition US (cts : list bytes) (w : writer) (st : ustate) : Prop :=
  wok false cts w /\
  match st with
  | U_fresh => w_state w = ws_opening /\ rw_opened (w_rdwr w) = false
  | U_open => w_state w = ws_opened /\ rw_opened (w_rdwr w) = true
  | U_closed => w_state w = ws_closed /\ rw_opened (w_rdwr w) = false
  end.

Lemma start_encodable cts : Forall (fun ct => lenN ct <= CT_MAX) cts ->
  encodable true T_START (optl (hd_error cts)) = true.
Proof.
  intro F. apply encodable_fits. unfold fits, ctl_wire. rewrite lenN_ctl_frame, lenN_ctl_payload.
  destruct cts as [|c cts]; cbn [hd_error optl].
  - change (visible T_START []) with (@nil bytes). split; [constructor|]. vm_compute. discriminate.
  - change (visible T_START [c]) with [c]. inversion_clear F. split; [repeat constructor; assumption|].
    unfold fields. cbn [map concat]. rewrite app_nil_r, lenN_ct_field. unfold CT_MAX, CTL_MAX in *. lia.
Qed.

(** Any transport that accepts writes: [rep b ss] is its state when open ([b])
    having been written [ss], one string per open; [gd] holds of [ss] after the first open, [iovok] says which writes it
    accepts, [pok] which payloads are then acceptable. *)
Section Accepting.
Variables (T : Type) (hd : T -> query -> T * ans) (rep : bool -> list bytes -> T).
Variables (gd : list bytes -> Prop) (iovok : list bytes -> Prop) (pok : bytes -> Prop).
Hypothesis snoc_ne : forall ss x, gd (ss ++ [x]).
Hypothesis add_last_ne : forall ss b, gd ss -> gd (add_last ss b).
Hypothesis H_open : forall h ss, hd (rep false ss) (QOpen h) = (rep true (ss ++ [[]]), ARes r_success).
Hypothesis H_write : forall h ss iov, gd ss -> iovok iov ->
  hd (rep true ss) (QWrite h iov) = (rep true (add_last ss (concat iov)), ARes r_success).
Hypothesis H_close : forall h ss, hd (rep true ss) (QClose h) = (rep false ss, ARes r_success).
Hypothesis H_destroy : forall h b ss, hd (rep b ss) (QDestroy h) = (rep b ss, ARes r_success).
Hypothesis iov_ctl : forall t cts, iovok [ctl_frame t cts].
Hypothesis iov_data : forall ps, Forall pok ps -> iovok (frame_iovecs ps).

Definition isopen (st : ustate) : bool := match st with U_open => true | _ => false end.
Definition sne (st : ustate) (ss : list bytes) : Prop := st = U_open -> gd ss.
Lemma acc_rdwr_write rw iov ss : rw_opened rw = true -> rw_has_write rw = true -> gd ss -> iovok iov ->
  exec hd (rep true ss) (rdwr_write rw iov) = (rep true (add_last ss (concat iov)), Done (r_success, rw)).
Proof. intros E1 E2 NE OK. unfold rdwr_write. rewrite E1, E2. cbn. rewrite H_write by assumption. reflexivity. Qed.

Lemma acc_write_iov w ps ss : wready w -> (2 * length ps <= 256)%nat -> gd ss -> Forall pok ps ->
  exec hd (rep true ss) (write_iov w ps) = (rep true (add_last ss (datas ps)), Done (r_success, w)).
Proof.
  intros (E1 & E2 & E3 & E4) L NE OK. unfold write_iov.
  destruct (FSTRM__WRITER_IOVEC_SIZE <? 2 * length ps)%nat eqn:E; [unfold FSTRM__WRITER_IOVEC_SIZE in E; lia|].
  rewrite exec_bind, acc_rdwr_write; auto. cbn [exec].
  rewrite frame_iovecs_datas, set_wrdwr_same. reflexivity.
Qed.

Lemma acc_stupid chunk w : wready w -> (0 < chunk)%nat -> (2 * chunk <= 256)%nat ->
  forall fuel ps ss, (length ps <= fuel)%nat -> gd ss -> Forall pok ps ->
  exec hd (rep true ss) (write_iov_stupid_loop fuel chunk w ps) = (rep true (add_last ss (datas ps)), Done (r_success, w)).
Proof.
  intros W C0 C1. induction fuel as [|fuel IH]; intros ps ss Hf NE OK.
  { destruct ps; [|cbn in Hf; lia]. cbn. rewrite add_last_nil. reflexivity. }
  destruct ps as [|p ps0] eqn:Eps. { cbn. rewrite add_last_nil. reflexivity. }
  rewrite <- Eps in *.
  assert (EqL : write_iov_stupid_loop (S fuel) chunk w ps =
     bind (write_iov w (firstn chunk ps)) (fun z => match z with (x, w) =>
          if negb (res_eqb x r_success) then Ret (x, w)
          else write_iov_stupid_loop fuel chunk w (skipn chunk ps) end)) by (subst ps; reflexivity).
  assert (OK2 : Forall pok (firstn chunk ps) /\ Forall pok (skipn chunk ps)).
  { apply Forall_app. rewrite firstn_skipn. assumption. }
  rewrite EqL. clear EqL. rewrite exec_bind, acc_write_iov; [|assumption|rewrite firstn_length; lia|assumption|apply OK2].
  cbn [res_eqb negb]. rewrite IH.
  - rewrite add_last_add_last, <- datas_app, firstn_skipn. reflexivity.
  - rewrite skipn_length. subst ps. cbn [length] in *. lia.
  - apply add_last_ne. assumption.
  - apply OK2.
Qed.

Lemma acc_writev w ps ss : wready w -> lenN ps < 2 ^ 30 -> gd ss -> Forall pok ps ->
  exec hd (rep true ss) (writer_writev w ps) = (rep true (add_last ss (datas ps)), Done (r_success, w)).
Proof.
  intros W Hl NE OK. unfold writer_writev. destruct ps as [|p ps0] eqn:Eps. { cbn. rewrite add_last_nil. reflexivity. }
  rewrite <- Eps in *. clear Eps p ps0. unfold writer_maybe_open. destruct W as (E1 & W'). rewrite E1.
  cbn [bind res_eqb negb]. rewrite E1.
  destruct (2 ^ 31 <=? 2 * lenN ps) eqn:EO; [lia|].
  assert (W : wready w) by (split; assumption).
  destruct (2 * length ps <=? FSTRM__WRITER_IOVEC_SIZE)%nat eqn:EL.
  - apply acc_write_iov; auto. unfold FSTRM__WRITER_IOVEC_SIZE in EL. lia.
  - unfold write_iov_stupid, FSTRM__WRITER_IOVEC_SIZE. change (256 / 2)%nat with 128%nat.
    destruct W' as (_ & _ & P).
    destruct (Nat.min 128 (w_iov_max w) =? 0)%nat eqn:E0; [lia|].
    apply acc_stupid; auto; lia.
Qed.

Lemma acc_send_start cts w ss : wok false cts w -> rw_opened (w_rdwr w) = true -> gd ss ->
  Forall (fun ct => lenN ct <= CT_MAX) cts ->
  exec hd (rep true ss) (writer_send_start w (hd_error cts)) =
  (rep true (add_last ss (start_frame (hd_error cts))), Done (r_success, set_wstart w (Some (start_ctl (hd_error cts))))).
Proof.
  intros W EO NE F. unfold writer_send_start. rewrite reset_or_init_eq. unfold control_set_type.
  change (type_known FSTRM_CONTROL_START) with true. cbv iota zeta.
  set (c' := match hd_error cts with Some b => _ | None => _ end).
  assert (Ec : c' = start_ctl (hd_error cts)) by (unfold c', start_ctl; destruct (hd_error cts); reflexivity).
  clearbody c'. subst c'. rewrite exec_bind, write_control_frame_eq. cbn [start_ctl c_type c_cts].
  rewrite start_encodable by assumption. cbn [set_wstart w_rdwr].
  rewrite acc_rdwr_write; [|assumption|apply W|assumption|apply iov_ctl]. cbn [res_eqb negb exec concat].
  rewrite app_nil_r. replace (visible T_START (optl (hd_error cts))) with (optl (hd_error cts)) by (destruct cts; reflexivity).
  reflexivity.
Qed.

Lemma acc_open cts w st ss : US cts w st -> Forall (fun ct => lenN ct <= CT_MAX) cts -> sne st ss ->
  exists w', exec hd (rep (isopen st) ss) (writer_open w) = (rep true (snd (u_open cts st ss)), Done (r_success, w')) /\
    US cts w' (fst (u_open cts st ss)) /\ fst (u_open cts st ss) = U_open /\ gd (snd (u_open cts st ss)).
Proof.
  intros [W S] F NE. unfold writer_open.
  assert (G : rw_opened (w_rdwr w) = false -> exists w',
    exec hd (rep false ss) (bind (rdwr_open (w_rdwr w)) (fun z => match z with (x, rw) =>
      let w := set_wrdwr w rw in
      if negb (res_eqb x r_success) then Ret (x, w)
      else bind (if rw_has_read (w_rdwr w) then writer_open_bidirectional w
                     else writer_open_unidirectional w) (fun z => match z with (x, w) =>
        if negb (res_eqb x r_success) then Ret (x, w)
        else Ret (r_success, set_wstate w ws_opened) end) end)) = (rep true (ss ++ [start_frame (hd_error cts)]), Done (r_success, w')) /\
     US cts w' U_open).
  { intros EO. rewrite exec_bind. unfold rdwr_open. rewrite (ok_open _ _ _ W). cbn [negb bind ask_res exec].
    rewrite H_open. cbn [bind res_eqb exec].
    cbv zeta. cbn [negb set_wrdwr w_rdwr]. change (rw_has_read (set_opened (w_rdwr w) true)) with (rw_has_read (w_rdwr w)).
    rewrite (ok_read _ _ _ W). rewrite exec_bind. unfold writer_open_unidirectional.
    change (w_cts (set_wrdwr w (set_opened (w_rdwr w) true))) with (w_cts w). rewrite (ok_cts _ _ _ W).
    rewrite (acc_send_start cts); [| |reflexivity|apply snoc_ne|assumption].
    - cbn [res_eqb negb exec]. rewrite add_last_snoc. eexists. split; [reflexivity|]. split; [|split; reflexivity].
      eapply wok_same; [exact W|]. split; cbn; auto. apply same_ops_set.
    - eapply wok_same; [exact W|]. split; cbn; auto. apply same_ops_set. }
  destruct st; destruct S as [S1 S2]; rewrite S1; cbn [u_open fst snd isopen].
  - destruct (G S2) as (w' & E & U). exists w'. repeat (split; auto).
  - exists w. split; [reflexivity|]. split; [split; auto|]. split; [reflexivity|]. apply NE. reflexivity.
  - destruct (G S2) as (w' & E & U). exists w'. repeat (split; auto).
Qed.

Lemma acc_maybe_open cts w st ss : US cts w st -> Forall (fun ct => lenN ct <= CT_MAX) cts -> sne st ss ->
  exists w', let st' := fst (u_implicit cts st ss) in let ss' := snd (u_implicit cts st ss) in
    exec hd (rep (isopen st) ss) (writer_maybe_open w) = (rep (isopen st') ss', Done (r_success, w')) /\
    US cts w' st' /\ st' <> U_fresh /\ sne st' ss'.
Proof.
  intros U F NE. unfold writer_maybe_open. destruct st; cbn [u_implicit]; cbv zeta.
  - pose proof U as [W [S1 S2]]. rewrite S1. rewrite exec_bind.
    destruct (acc_open cts w U_fresh ss U F NE) as (w' & -> & U' & E & N'). cbn [res_eqb negb exec].
    exists w'. rewrite E in *. split; [reflexivity|]. split; [assumption|]. split; [discriminate|]. intros _. assumption.
  - pose proof U as [W [S1 S2]]. rewrite S1. exists w. cbn. split; [reflexivity|]. split; [assumption|]. split; [discriminate|assumption].
  - pose proof U as [W [S1 S2]]. rewrite S1. exists w. cbn. split; [reflexivity|]. split; [assumption|]. split; [discriminate|assumption].
Qed.

Lemma acc_call cts w st ss c : US cts w st -> Forall (fun ct => lenN ct <= CT_MAX) cts -> wcall_ok c -> sne st ss ->
  Forall pok (wpayloads c) ->
  exists w', let '(x, st', ss') := u_step cts st ss c in
    exec hd (rep (isopen st) ss) (do_wcall w c) = (rep (isopen st') ss', Done (x, w')) /\ US cts w' st' /\ sne st' ss'.
Proof.
  intros U F OK NE PK.
  assert (WR : forall ps, lenN ps < 2 ^ 30 -> ps <> [] -> Forall pok ps -> exists w', let '(x, st', ss') :=
     (let (st, ss) := u_implicit cts st ss in
          match st with
          | U_closed => (r_failure, st, ss)
          | _ => (r_success, st, add_last ss (datas ps))
          end) in exec hd (rep (isopen st) ss) (writer_writev w ps) = (rep (isopen st') ss', Done (x, w')) /\ US cts w' st' /\ sne st' ss').
  { intros ps Hl NP PK'. destruct (acc_maybe_open cts w st ss U F NE) as (w' & E & U' & NF & NE').
    destruct (u_implicit cts st ss) as [st' ss']. cbn [fst snd] in *. exists w'.
    assert (Eq : exec hd (rep (isopen st) ss) (writer_writev w ps) = exec hd (rep (isopen st') ss') (match w_state w' with
           | ws_opened =>
               if 2 ^ 31 <=? 2 * lenN ps then Fail (FUb ub_overflow)
               else if (2 * length ps <=? FSTRM__WRITER_IOVEC_SIZE)%nat
               then write_iov w' ps
               else write_iov_stupid w' ps
           | _ => Ret (r_failure, w')
           end)).
    { unfold writer_writev. destruct ps; [congruence|]. rewrite exec_bind, E. reflexivity. }
    destruct st'; [congruence| |].
    - pose proof U' as [W [S1 S2]]. specialize (NE' eq_refl).
      split; [|split; [assumption|intros _; apply add_last_ne; assumption]].
      cbn [isopen] in *.
      rewrite Eq. rewrite <- (acc_writev w' ps ss'); [|split; [|split; [|split]]; auto; apply W|assumption..].
      unfold writer_writev at 1. destruct ps; [congruence|]. unfold writer_maybe_open. rewrite S1.
      cbn [bind res_eqb negb]. rewrite S1. reflexivity.
    - split; [|split; assumption]. pose proof U' as [W [S1 S2]]. rewrite Eq, S1. reflexivity. }
  destruct c as [|p|ps| |t]; cbn [u_step do_wcall wpayloads] in *.
  - destruct (acc_open cts w st ss U F NE) as (w' & E & U' & O' & N'). exists w'.
    destruct (u_open cts st ss) as [st' ss']. cbn [fst snd] in *. subst st'. repeat (split; auto). intros _; assumption.
  - apply WR; [exact OK|discriminate|assumption].
  - destruct ps as [|p ps]; [exists w; cbn; auto|]. apply WR; [exact OK|discriminate|assumption].
  - destruct st; pose proof U as [W [S1 S2]]; unfold writer_close; rewrite S1.
    + exists w. cbn. auto.
    + cbv zeta. rewrite write_stop_eq, exec_bind. cbn [set_wstate w_rdwr isopen].
      rewrite acc_rdwr_write; [|assumption|apply W|apply NE; reflexivity|apply iov_ctl].
      cbn [res_eqb negb concat]. rewrite (ok_read _ _ _ W), app_nil_r.
      rewrite exec_bind. unfold rdwr_close. rewrite (ok_close _ _ _ W), S2. cbn. rewrite H_close. cbn.
      eexists. split; [reflexivity|]. split; [|discriminate]. split; [|split; reflexivity].
      eapply wok_same; [exact W|]. split; cbn; auto. apply same_ops_set.
    + exists w. cbn. auto.
  - destruct (acc_maybe_open cts w st ss U F NE) as (w' & E & U' & _ & NE'). exists w'.
    destruct (u_implicit cts st ss) as [st' ss']. cbn [fst snd] in *.
    split; [|split; assumption]. unfold writer_get_control. rewrite !exec_bind, E. cbn [res_eqb negb].
    unfold FSTRM_CONTROL_ACCEPT, FSTRM_CONTROL_FINISH, FSTRM_CONTROL_READY, FSTRM_CONTROL_START.
    destruct (t =? 1), (t =? 5), (t =? 4), (t =? 2); reflexivity.
Qed.

Lemma acc_calls cts cs : Forall (fun ct => lenN ct <= CT_MAX) cts -> Forall wcall_ok cs ->
  Forall (fun c => Forall pok (wpayloads c)) cs ->
  forall w st ss, US cts w st -> sne st ss ->
  exists w', let '(xs, st', ss') := u_steps cts st ss cs in
    exec hd (rep (isopen st) ss) (do_wcalls w cs) = (rep (isopen st') ss', Done (xs, w')) /\ US cts w' st' /\ sne st' ss'.
Proof.
  intros F OK PK. induction cs as [|c cs IH]; intros w st ss U NE; cbn [do_wcalls u_steps].
  { exists w. auto. }
  inversion_clear OK. inversion_clear PK. destruct (acc_call cts w st ss c U F) as (w1 & E); [assumption..|].
  destruct (u_step cts st ss c) as [[x st1] ss1]. destruct E as (E & U1 & NE1).
  destruct (IH ltac:(assumption) ltac:(assumption) w1 st1 ss1 U1 NE1) as (w2 & E2).
  destruct (u_steps cts st1 ss1 cs) as [[xs st2] ss2]. destruct E2 as (E2 & U2 & NE2). exists w2.
  split; [|split; assumption]. rewrite exec_bind, E, exec_bind, E2. reflexivity.
Qed.

Lemma acc_life iovm cts rw w cs :
  fresh_rdwr rw -> rw_has_read rw = false -> (0 < iovm)%nat ->
  Forall (fun ct => lenN ct <= CT_MAX) cts -> Forall wcall_ok cs ->
  Forall (fun c => Forall pok (wpayloads c)) cs ->
  writer_init iovm cts rw = Some w ->
  let '(xs, st, ss) := u_steps cts U_fresh [] cs in
  exec hd (rep false []) (writer_life w cs) =
  match st with
  | U_open => (rep false (add_last ss stop_frame), Done (xs, r_success))
  | _ => (rep false ss, Done (xs, r_failure))
  end.
Proof.
  intros FR HR Hi F OK PK Hw.
  assert (U : US cts w U_fresh).
  { unfold writer_init in Hw. destruct (rw_has_write rw) eqn:E; [|discriminate]. injection Hw as <-.
    destruct FR. repeat split; auto. }
  destruct (acc_calls cts cs F OK PK w U_fresh [] U) as (w' & E); [discriminate|].
  destruct (u_steps cts U_fresh [] cs) as [[xs st] ss]. destruct E as (E & U' & NE). cbn [isopen] in E.
  unfold writer_life. rewrite exec_bind, E, exec_bind. unfold writer_destroy.
  destruct st; pose proof U' as [W [S1 S2]]; rewrite S1, exec_bind.
  - cbn [exec]. rewrite exec_bind. unfold rdwr_destroy. rewrite (ok_destroy _ _ _ W). cbn. rewrite H_destroy. reflexivity.
  - destruct (acc_call cts w' U_open ss WClose U' F) as (w2 & E2 & U2 & _); [reflexivity|assumption|constructor|].
    change (do_wcall w' WClose) with (writer_close w') in E2.
    rewrite E2, exec_bind. destruct U2 as [W2 _]. unfold rdwr_destroy. rewrite (ok_destroy _ _ _ W2). cbn. rewrite H_destroy. reflexivity.
  - cbn [exec]. rewrite exec_bind. unfold rdwr_destroy. rewrite (ok_destroy _ _ _ W). cbn. rewrite H_destroy. reflexivity.
Qed.
End Accepting.


Lemma sink_writev w ps ss : wready w -> lenN ps < 2 ^ 30 ->
  exec sink ss (writer_writev w ps) = (add_last ss (datas ps), Done (r_success, w)).
Proof.
  intros W L. apply (acc_writev (list bytes) sink (fun _ ss => ss) (fun _ => True) (fun _ => True) (fun _ => True)); auto.
  apply Forall_forall. auto.
Qed.
Lemma uni_life iovm cts rw w cs :
  fresh_rdwr rw -> rw_has_read rw = false -> (0 < iovm)%nat ->
  Forall (fun ct => lenN ct <= CT_MAX) cts -> Forall wcall_ok cs ->
  writer_init iovm cts rw = Some w ->
  let '(xs, st, ss) := u_steps cts U_fresh [] cs in
  exec sink [] (writer_life w cs) =
  match st with
  | U_open => (add_last ss stop_frame, Done (xs, r_success))
  | _ => (ss, Done (xs, r_failure))
  end.
Proof.
  intros. apply (acc_life (list bytes) sink (fun _ ss => ss) (fun _ => True) (fun _ => True) (fun _ => True)) with (iovm := iovm) (rw := rw); auto.
  apply Forall_forall. intros. apply Forall_forall. auto.
Qed.

(** Splitting a batch does not matter. *)
Lemma u_steps_app cts a b : forall st ss, u_steps cts st ss (a ++ b) =
  let '(xs, st1, ss1) := u_steps cts st ss a in
  let '(ys, st2, ss2) := u_steps cts st1 ss1 b in (xs ++ ys, st2, ss2).
Proof.
  induction a as [|c a IH]; intros st ss; cbn [u_steps app].
  - destruct (u_steps cts st ss b) as [[? ?] ?]. reflexivity.
  - destruct (u_step cts st ss c) as [[x st1] ss1]. rewrite IH.
    destruct (u_steps cts st1 ss1 a) as [[xs st2] ss2]. destruct (u_steps cts st2 ss2 b) as [[ys st3] ss3]. reflexivity.
Qed.

Lemma u_batch cts ps : forall st ss,
  let '(_, st1, ss1) := u_step cts st ss (WWritev ps) in
  let '(_, st2, ss2) := u_steps cts st ss (map WWrite ps) in st1 = st2 /\ ss1 = ss2.
Proof.
  induction ps as [|p ps IH]; intros st ss.
  - cbn. auto.
  - cbn [map u_steps].
    destruct (u_step cts st ss (WWrite p)) as [[x st1] ss1] eqn:E.
    specialize (IH st1 ss1).
    destruct (u_steps cts st1 ss1 (map WWrite ps)) as [[xs st2] ss2] eqn:E2.
    cbn [u_step wpayloads] in *.
    destruct (u_implicit cts st ss) as [st0 ss0] eqn:EI.
    assert (NF : st0 <> U_fresh) by (destruct st; cbn in EI; congruence).
    destruct st0; [congruence| |]; injection E as <- <- <-.
    + destruct ps as [|q ps].
      * cbn in *. injection E2 as <- <- <-. auto.
      * cbn [u_implicit] in IH. destruct IH as [<- <-]. split; [reflexivity|].
        rewrite add_last_add_last, <- datas_app. reflexivity.
    + destruct ps as [|q ps].
      * cbn in *. injection E2 as <- <- <-. auto.
      * cbn [u_implicit] in IH. destruct IH as [<- <-]. auto.
Qed.

Lemma batching iovm cts rw w pre ps post :
  fresh_rdwr rw -> rw_has_read rw = false -> (0 < iovm)%nat ->
  Forall (fun ct => lenN ct <= CT_MAX) cts ->
  Forall wcall_ok (pre ++ [WWritev ps] ++ post) ->
  writer_init iovm cts rw = Some w ->
  fst (exec sink [] (writer_life w (pre ++ [WWritev ps] ++ post))) =
  fst (exec sink [] (writer_life w (pre ++ map WWrite ps ++ post))).
Proof.
  intros FR HR Hi F OK Hw.
  assert (OK2 : Forall wcall_ok (pre ++ map WWrite ps ++ post)).
  { rewrite !Forall_app in *. destruct OK as (A & _ & B). repeat split; auto.
    clear. induction ps; constructor; auto. unfold wcall_ok. cbn. lia. }
  pose proof (uni_life iovm cts rw w _ FR HR Hi F OK Hw) as L1.
  pose proof (uni_life iovm cts rw w _ FR HR Hi F OK2 Hw) as L2.
  rewrite !u_steps_app in *.
  destruct (u_steps cts U_fresh [] pre) as [[xs st] ss].
  pose proof (u_batch cts ps st ss) as B.
  change ([WWritev ps] ++ post) with (WWritev ps :: post) in L1 at 1. cbn [u_steps] in L1.
  rewrite u_steps_app in L2.
  destruct (u_step cts st ss (WWritev ps)) as [[x st1] ss1].
  destruct (u_steps cts st ss (map WWrite ps)) as [[ys st2] ss2]. destruct B as [<- <-].
  destruct (u_steps cts st1 ss1 post) as [[zs st3] ss3].
  cbv beta iota zeta in L1, L2. rewrite L1, L2. destruct st3; reflexivity.
Qed.

(** Never more buffers than the scratch arrays hold. *)
Definition small_write (e : event) : Prop :=
  match e with
  | (QWrite _ iov, _) => (length iov <= 256)%nat
  | _ => True
  end.
Definition smallp {A} (p : io A) : Prop := forall h, Forall small_write h -> wp p (fun h' _ => Forall small_write h') h.
Lemma smallp_bind {A B} (p : io A) (k : A -> io B) : smallp p -> (forall a, smallp (k a)) -> smallp (bind p k).
Proof.
  intros H1 H2 h Hh. apply wp_bind_i. eapply wp_mono; [|apply H1; exact Hh].
  intros h' o. unfold bind_post. destruct o as [a| |]; auto. intro. apply H2; assumption.
Qed.
Lemma smallp_vis {A} q (k : ans -> io A) : (forall a, small_write (q, a)) -> (forall a, ans_ok q a -> smallp (k a)) -> smallp (Vis q k).
Proof. intros H1 H2 h Hh. cbn. split; auto. intros a Ha. apply H2; auto. apply Forall_app. auto. Qed.
Lemma smallp_ret {A} (a : A) : smallp (Ret a).
Proof. intros h Hh. exact Hh. Qed.
Lemma smallp_fail {A} e : smallp (A := A) (Fail e).
Proof. intros h Hh. exact Hh. Qed.
Lemma smallp_ask q : (forall a, small_write (q, a)) -> smallp (ask_res q).
Proof. intro H. apply smallp_vis; auto. intros [] ?; try apply smallp_fail; apply smallp_ret. Qed.
Ltac sml := repeat first
  [ progress cbv zeta | apply smallp_ret | apply smallp_fail | match goal with |- smallp (bind _ _) => apply smallp_bind; [|intros] end | match goal with |- smallp (ask_res _) => apply smallp_ask; intro; exact I end
  | match goal with |- smallp (match ?b with _ => _ end) => destruct b end ].
Lemma smallp_close rw : smallp (rdwr_close rw).
Proof. unfold rdwr_close. sml. Qed.
Lemma smallp_read rw n : smallp (rdwr_read rw n).
Proof.
  unfold rdwr_read. sml; try apply smallp_close.
  apply smallp_vis; [intro; exact I|]. intros [] ?; try apply smallp_fail; apply smallp_ret.
Qed.
Lemma smallp_write rw iov : (length iov <= 256)%nat -> smallp (rdwr_write rw iov).
Proof. intro H. unfold rdwr_write. sml; try apply smallp_close. apply smallp_ask. intro. exact H. Qed.
Lemma smallp_wcf rw c : smallp (write_control_frame rw c).
Proof. rewrite write_control_frame_eq. sml. apply smallp_write. cbn. lia. Qed.
Lemma smallp_rc rw oc t : smallp (read_control rw oc t).
Proof.
  unfold read_control, read_control_frame, read_control_frame_tail. cbv zeta iota. sml; try apply smallp_read.
  - apply smallp_vis; [intro; exact I|]. intros [] ?; try apply smallp_fail; apply smallp_ret.
  - unfold lift. sml.
Qed.
Lemma smallp_send_start w ct : smallp (writer_send_start w ct).
Proof. unfold writer_send_start. cbv zeta. sml; apply smallp_wcf. Qed.
Lemma smallp_open w : smallp (writer_open w).
Proof.
  unfold writer_open, writer_open_bidirectional, writer_open_unidirectional, rdwr_open.
  sml; try apply smallp_send_start; try apply smallp_wcf; try apply smallp_rc.
Qed.
Lemma smallp_maybe_open w : smallp (writer_maybe_open w).
Proof. unfold writer_maybe_open. sml; apply smallp_open. Qed.
Lemma frame_iovecs_length iov : length (frame_iovecs iov) = (2 * length iov)%nat.
Proof. induction iov; cbn; lia. Qed.
Lemma smallp_write_iov w iov : smallp (write_iov w iov).
Proof.
  unfold write_iov. destruct (_ <? _)%nat eqn:E; [apply smallp_fail|]. sml. apply smallp_write.
  rewrite frame_iovecs_length. unfold FSTRM__WRITER_IOVEC_SIZE in E. lia.
Qed.
Lemma smallp_loop fuel chunk : forall w iov, smallp (write_iov_stupid_loop fuel chunk w iov).
Proof.
  induction fuel as [|fuel IH]; intros w [|p iov]; cbn [write_iov_stupid_loop]; sml; try apply smallp_write_iov; apply IH.
Qed.
Lemma smallp_writev w iov : smallp (writer_writev w iov).
Proof.
  unfold writer_writev, write_iov_stupid. sml; try apply smallp_maybe_open; try apply smallp_write_iov; apply smallp_loop.
Qed.
Lemma write_calls_bounded w iov tr o h' iov' a :
  runs (writer_writev w iov) tr o -> In (QWrite h' iov', a) tr -> (length iov' <= 256)%nat.
Proof.
  intros R I. pose proof (smallp_writev w iov [] (Forall_nil _)) as W. apply (wp_sound _ _ _ _ _ W) in R.
  cbn in R. rewrite Forall_forall in R. apply (R _ I).
Qed.

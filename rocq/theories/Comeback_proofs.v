(** A thread without a connection tries again. *)
From Coq Require Import ZArith.
From Verif Require Import Bytes Spec Bytes_proofs Io Io_proofs SpecTrace SpecStream Control Rdwr Rdwr_proofs Writer Api SpecApi
  Writer_proofs Queue Iothr SpecIothr Iothr_proofs Iothr2_proofs Iothr3_proofs Iothr4_proofs SpecComeback.
Local Open Scope nat_scope.

(** Calls that neither open, wait, read the clock nor ask whether to go on. *)
Definition calm (e : event) : Prop := match fst e with QOpen _ | QClock | QShutting | QWait _ => False | _ => True end.
Definition fine (e : event) : Prop := ev_ok e /\ forall n, fst e <> QClose n.
Definition wrote (e : event) : Prop := exists hh iov, e = (QWrite hh iov, ARes r_success).

Lemma wrote_fine e : wrote e -> fine e.
Proof. intros (hh & iov & ->). split; [reflexivity|]. intros n; discriminate. Qed.
Lemma tev_calm W e : tev W e -> calm e.
Proof. destruct e as [[] a]; cbn; auto. Qed.
Lemma calm_times h tr : Forall calm tr -> open_times (h ++ tr) = open_times h.
Proof.
  intro F. apply clock_times. induction F as [|[q a] tr H F IH]; intro s; [reflexivity|]. cbn. destruct q; cbn in H; try contradiction; apply IH.
Qed.
Lemma connected_more h tr : connected h -> Forall fine tr -> connected (h ++ tr).
Proof.
  intros (l1 & hh & ct & l2 & -> & F) G. exists l1, hh, ct, (l2 ++ tr). split; [rewrite <- app_assoc; reflexivity|]. apply Forall_app. auto.
Qed.

(** ** Writing *)
Definition wrote_post (w : writer) (h : trace) : post (res * writer) := fun h' o => exists tr, h' = h ++ tr /\
  match o with Done (x, w') => x = r_success -> w' = w /\ Forall wrote tr | _ => True end.
Lemma w_iov w ps h : wp (write_iov w ps) (wrote_post w h) h.
Proof.
  unfold write_iov. destruct (_ <? _); [exists []; rewrite app_nil_r; auto|]. unfold rdwr_write.
  destruct (rw_opened (w_rdwr w)) eqn:EO; cbn [negb]; [|cbn; exists []; rewrite app_nil_r; split; [reflexivity|discriminate]].
  destruct (rw_has_write (w_rdwr w)); cbn [negb]; [|cbn; exists []; rewrite app_nil_r; split; [reflexivity|discriminate]].
  unfold ask_res. cbn [bind wp]. split; [exists []; rewrite app_nil_r; auto|]. intros a Ha. destruct a; cbn in Ha; try contradiction.
  cbn [bind]. destruct r; cbn [res_eqb negb bind wp].
  { exists [(QWrite (rw_h (w_rdwr w)) (frame_iovecs ps), ARes r_success)]. split; [reflexivity|]. intros _. split; [destruct w; reflexivity|].
    constructor; [|constructor]. eexists _, _. reflexivity. }
  all: unfold rdwr_close; destruct (rw_has_close _); cbn [negb bind wp]; [|eexists; split; [reflexivity|discriminate]];
    rewrite EO; unfold ask_res; cbn [bind wp]; split; [eexists; split; [reflexivity|exact I]|];
    intros a2 Ha2; destruct a2; cbn in Ha2; try contradiction; cbn [bind wp]; rewrite <- app_assoc; eexists; (split; [reflexivity|discriminate]).
Qed.
Lemma w_loop chunk w h fuel : forall ps h0 tr0, h0 = h ++ tr0 -> Forall wrote tr0 -> wp (write_iov_stupid_loop fuel chunk w ps) (wrote_post w h) h0.
Proof.
  induction fuel as [|fuel IH]; intros ps h0 tr0 E F; cbn [write_iov_stupid_loop]; destruct ps as [|p ps]; subst h0.
  1,3: cbn; exists tr0; auto.
  { cbn. exists tr0. auto. }
  apply wp_bind_i. eapply wp_mono; [|apply w_iov]. intros h' o (tr & -> & K). destruct o as [[x w']| |]; unfold bind_post.
  2,3: exists (tr0 ++ tr); rewrite app_assoc; auto.
  destruct (res_eqb x r_success) eqn:EX; cbn [negb].
  - apply res_eqb_true in EX. destruct (K EX) as [-> F']. apply (IH _ _ (tr0 ++ tr)); [rewrite app_assoc; reflexivity|]. apply Forall_app. auto.
  - cbn. exists (tr0 ++ tr). split; [rewrite app_assoc; reflexivity|]. intros ->. discriminate.
Qed.
Lemma w_writev w ps h : w_state w = ws_opened -> wp (writer_writev w ps) (wrote_post w h) h.
Proof.
  intro S. unfold writer_writev.
  assert (N : forall o : out (res * writer), match o with Done _ => False | _ => True end -> wrote_post w h h o).
  { intros o K. exists []. rewrite app_nil_r. split; [reflexivity|]. destruct o as [[? ?]| |]; [contradiction|exact I|exact I]. }
  destruct ps as [|p0 ps0] eqn:EPS; [cbn; exists []; rewrite app_nil_r; auto|]. rewrite <- EPS in *.
  unfold writer_maybe_open. rewrite S. cbn [bind res_eqb negb]. rewrite S. destruct (_ <=? _)%N; [apply N; exact I|].
  destruct (_ <=? _); [apply w_iov|]. unfold write_iov_stupid. cbv zeta. destruct (_ =? 0); [apply N; exact I|].
  eapply w_loop; [symmetry; apply app_nil_r|constructor].
Qed.
Lemma c_writev w ps : w_state w = ws_opened -> evp calm (writer_writev w ps).
Proof. intro S. eapply evp_mono; [apply (tev_calm (fun _ => True))|]. apply (ev_writev (fun _ => True) ps); auto. Qed.

(** ** Everything but opening *)
Definition PRE (t : iothr) : Prop := t_opened t = true -> w_state (t_writer t) = ws_opened.
Definition quiet_post (t : iothr) (h : trace) (h' : trace) (t' : iothr) : Prop :=
  exists tr, h' = h ++ tr /\ Forall calm tr /\ PRE t' /\ t_last_open t' = t_last_open t /\ t_opt t' = t_opt t /\
    (t_opened t' = true -> t_opened t = true /\ Forall fine tr).
Definition calm_post (h h' : trace) : Prop := exists tr, h' = h ++ tr /\ Forall calm tr.
Definition qp (t : iothr) (h : trace) : post iothr := fun h' o => match o with Done t' => quiet_post t h h' t' | _ => calm_post h h' end.

Lemma q_refl t h : PRE t -> quiet_post t h h t.
Proof. intro P. exists []. rewrite app_nil_r. repeat split; auto. Qed.
Lemma q_trans t h h1 t1 h2 t2 : quiet_post t h h1 t1 -> quiet_post t1 h1 h2 t2 -> quiet_post t h h2 t2.
Proof.
  intros (a & -> & A1 & A2 & A3 & A4 & A5) (b & -> & B1 & B2 & B3 & B4 & B5). exists (a ++ b).
  split; [rewrite app_assoc; reflexivity|]. split; [apply Forall_app; auto|]. split; [assumption|]. split; [congruence|]. split; [congruence|].
  intro O. destruct (B5 O) as [O1 F1]. destruct (A5 O1) as [O2 F2]. split; [assumption|]. apply Forall_app. auto.
Qed.
Lemma c_trans t h h1 t1 h2 : quiet_post t h h1 t1 -> calm_post h1 h2 -> calm_post h h2.
Proof. intros (a & -> & A1 & _) (b & -> & B). exists (a ++ b). split; [rewrite app_assoc; reflexivity|apply Forall_app; auto]. Qed.
Lemma q_bind {B} (p : io iothr) (k : iothr -> io B) (Q : post B) t h :
  wp p (qp t h) h -> (forall t' h', quiet_post t h h' t' -> wp (k t') Q h') ->
  (forall h', calm_post h h' -> Q h' Cut /\ forall f, Q h' (Stuck f)) -> wp (bind p k) Q h.
Proof.
  intros W K C. apply wp_bind_i. eapply wp_mono; [|exact W]. intros h' o q. destruct o as [t'|f|]; unfold bind_post; cbn [qp] in q; [apply K; assumption| |]; apply C; assumption.
Qed.

Lemma isfree_calm tr : Forall isfree tr -> Forall calm tr /\ Forall fine tr.
Proof.
  intro F. split; (eapply Forall_impl; [|exact F]); intros e [x ->]; [exact I|]. split; [exact I|]. intros n; discriminate.
Qed.
Lemma q_free es t t' h : PRE t' -> t_last_open t' = t_last_open t -> t_opt t' = t_opt t -> t_opened t' = t_opened t ->
  wp (bind (free_all es) (fun _ => Ret t')) (qp t h) h.
Proof.
  intros P E1 E2 E3. apply wp_bind_i. eapply wp_mono; [|apply wp_free_all]. intros h' o (tr & _ & _ & -> & F & _). destruct (isfree_calm _ F) as [C G].
  destruct o; unfold bind_post; cbn; [|exists tr; auto|exists tr; auto]. exists tr. repeat split; auto. congruence.
Qed.
Lemma q_close t h : wp (iothr_close t) (fun h' o => qp t h h' o /\ match o with Done t' => t_opened t' = false | _ => True end) h.
Proof.
  unfold iothr_close. destruct (t_opened t) eqn:EO; [|cbn; split; [apply q_refl; intro; congruence|assumption]].
  apply wp_bind_i. eapply wp_mono; [|apply (ev_wclose (fun _ => True) I (t_writer t))]. intros h' o (tr & -> & F).
  assert (C : Forall calm tr) by (eapply Forall_impl; [apply (tev_calm (fun _ => True))|exact F]).
  destruct o as [[x w]| |]; unfold bind_post; cbn; (split; [|auto]); [|exists tr; auto|exists tr; auto]. exists tr. repeat split; auto; discriminate.
Qed.
Lemma q_flush t h : PRE t -> wp (flush_output t) (qp t h) h.
Proof.
  intro P. unfold flush_output. eapply (q_bind _ _ _ t h).
  - destruct (t_opened t && _)%bool eqn:EC; [|cbn; apply q_refl, P]. apply andb_true_iff in EC. destruct EC as [EO _].
    apply wp_bind_i. eapply wp_mono; [|apply wp_and; [apply (c_writev _ (map e_data (t_outq t)) (P EO))|apply (w_writev _ _ h (P EO))]].
    intros h' o ((tr & -> & C) & (tr' & E & K)). apply app_inv_head in E. subst tr'.
    destruct o as [[x w]| |]; unfold bind_post; cbv zeta; [|exists tr; auto|exists tr; auto].
    destruct (res_eqb x r_success) eqn:EX; cbn [negb].
    + apply res_eqb_true in EX. destruct (K EX) as [-> F]. cbn. exists tr. cbn [t_set_writer t_opened t_last_open t_opt t_writer].
      repeat split; auto. eapply Forall_impl; [exact wrote_fine|exact F].
    + eapply wp_mono; [|apply q_close]. intros h2 o [K2 CL]. destruct o as [t2| |].
      * destruct K2 as (tr2 & -> & C2 & P2 & L2 & O2 & _). exists (tr ++ tr2). split; [rewrite app_assoc; reflexivity|]. split; [apply Forall_app; auto|].
        split; [exact P2|]. split; [exact L2|]. split; [exact O2|]. congruence.
      * destruct K2 as (tr2 & -> & C2). exists (tr ++ tr2). split; [rewrite app_assoc; reflexivity|apply Forall_app; auto].
      * destruct K2 as (tr2 & -> & C2). exists (tr ++ tr2). split; [rewrite app_assoc; reflexivity|apply Forall_app; auto].
  - intros t' h' Q'. eapply wp_mono; [|apply (q_free (t_outq t') t' (t_set_outq t' [] 0) h')]; try reflexivity.
    + intros h2 o K. destruct o; cbn in *; [eapply q_trans; eassumption|eapply c_trans; eassumption|eapply c_trans; eassumption].
    + destruct Q' as (tr & _ & _ & P' & _). exact P'.
  - intros h' C. split; [exact C|intro; exact C].
Qed.
Lemma q_entry t e h : PRE t -> wp (process_queue_entry t e) (qp t h) h.
Proof.
  intro P. unfold process_queue_entry. destruct (t_opened t) eqn:EO.
  2:{ apply wp_bind_i. unfold free_bytes. destruct (e_free e); cbn; [|apply q_refl, P]. split; [exists []; rewrite app_nil_r; auto|].
      intros a Ha. destruct a; try contradiction. cbn. exists [(QFree e, AUnit)]. split; [reflexivity|]. split; [constructor; [exact I|constructor]|].
      do 3 (split; [auto|]). intros O. split; [congruence|]. constructor; [|constructor]. split; [exact I|]. intros n; discriminate. }
  cbv zeta. eapply (q_bind _ _ _ t h).
  - unfold maybe_flush_output. destruct (_ <? _)%N; [cbn; exists []; rewrite app_nil_r; auto|]. destruct (t_outq t); [cbn; apply q_refl, P|].
    destruct (_ || _); [apply q_flush, P|cbn; apply q_refl, P].
  - intros t' h' Q'. destruct (_ <=? _)%N; cbn; [eapply c_trans; [exact Q'|]; exists []; rewrite app_nil_r; auto|].
    eapply q_trans; [exact Q'|]. exists []. rewrite app_nil_r. destruct Q' as (tr & _ & _ & P' & _). repeat split; auto.
  - intros h' C. split; [exact C|intro; exact C].
Qed.
Lemma q_queues n : forall i t tot h, PRE t ->
  wp (process_queues_from n i t tot) (fun h' o => match o with Done (_, t') => quiet_post t h h' t' | _ => calm_post h h' end) h.
Proof.
  induction n as [|n IH]; intros i t tot h P; cbn [process_queues_from]; [cbn; apply q_refl, P|].
  unfold ask_entry. cbn [bind wp]. split; [exists []; rewrite app_nil_r; auto|]. intros a Ha. destruct a; cbn in Ha; try contradiction. cbn [bind].
  match goal with |- context [(QRemove i, AEntry ?o)] => rename o into oe end.
  assert (Q1 : quiet_post t h (h ++ [(QRemove i, AEntry oe)]) t).
  { eexists. split; [reflexivity|]. split; [constructor; [exact I|constructor]|].
    do 3 (split; [auto|]). intros O. split; [assumption|]. constructor; [|constructor]. split; [exact I|]. intros k; discriminate. }
  destruct oe as [x|].
  - eapply (q_bind _ _ _ t); [apply q_entry, P| |].
    + intros t' h' Q'. pose proof (q_trans _ _ _ _ _ _ Q1 Q') as Q2. eapply wp_mono; [|apply IH; destruct Q' as (tr & _ & _ & P' & _); exact P'].
      intros h2 o K. destruct o as [[m t2]| |]; [eapply q_trans; eassumption|eapply c_trans; eassumption|eapply c_trans; eassumption].
    + intros h' C. pose proof (c_trans _ _ _ _ _ Q1 C). auto.
  - eapply wp_mono; [|apply IH, P]. intros h2 o K. destruct o as [[m t2]| |]; [eapply q_trans; eassumption|eapply c_trans; eassumption|eapply c_trans; eassumption].
Qed.
Lemma q_drain f : forall t h, PRE t -> wp (drain f t) (qp t h) h.
Proof.
  induction f as [|f IH]; intros t h P; cbn [drain]; [cbn; exists []; rewrite app_nil_r; auto|].
  apply wp_bind_i. unfold process_queues. eapply wp_mono; [|apply q_queues, P]. intros h' o K. destruct o as [[n t']| |]; unfold bind_post; [|exact K|exact K].
  destruct (n =? 0)%N; [exact K|]. eapply wp_mono; [|apply IH; destruct K as (tr & _ & _ & P' & _); exact P'].
  intros h2 o K2. destruct o as [t2| |]; cbn in *; [eapply q_trans; eassumption|eapply c_trans; eassumption|eapply c_trans; eassumption].
Qed.

(** ** Opening *)
Lemma wp_then {A B} (p : io A) (k : A -> io B) (Q : post B) : (forall h, Q h Cut) -> (forall h f, Q h (Stuck f)) ->
  (forall a h, wp (k a) Q h) -> forall h, wp (bind p k) Q h.
Proof.
  intros HC HS HK. induction p as [a|e|q c IH]; intro h; cbn; auto.
Qed.
Definition started (h : trace) : Prop := exists l hh ct, h = l ++ [(QWrite hh [start_frame ct], ARes r_success)].
Definition starts {A} (p : io (res * A)) : Prop := forall h, wp p (fun h' o => match o with Done (x, _) => x = r_success -> started h' | _ => True end) h.
Lemma starts_ret {A} x (a : A) : x <> r_success -> starts (Ret (x, a)).
Proof. intros N h E. contradiction. Qed.
Lemma starts_bind {A B} (p : io A) (k : A -> io (res * B)) : (forall a, starts (k a)) -> starts (bind p k).
Proof. intros K h. apply wp_then; auto. Qed.
Lemma starts_send w ct : starts (writer_send_start w ct).
Proof.
  unfold writer_send_start. rewrite reset_or_init_eq. unfold control_set_type. change (type_known FSTRM_CONTROL_START) with true. cbv iota zeta.
  set (c' := match ct with Some b => _ | None => _ end).
  assert (Ec : c' = start_ctl ct) by (unfold c', start_ctl; destruct ct; reflexivity). clearbody c'. subst c'.
  assert (V : visible T_START (optl ct) = optl ct) by (destruct ct; reflexivity).
  intro h. rewrite write_control_frame_eq. cbn [start_ctl c_type c_cts]. rewrite V.
  match goal with |- wp (bind (if ?b then _ else _) _) _ _ => destruct b end; [|cbn; discriminate].
  unfold rdwr_write. destruct (negb _); [cbn; discriminate|]. destruct (negb _); [cbn; discriminate|].
  unfold ask_res. cbn [bind wp]. split; [exact I|]. intros a Ha. destruct a; cbn in Ha; try contradiction. cbn [bind].
  destruct r; cbn [res_eqb negb bind]; [cbn; intros _; eexists _, _, _; reflexivity| | | |].
  all: unfold rdwr_close; destruct (negb _); [cbn; discriminate|]; destruct (rw_opened _); [|cbn; discriminate]; unfold ask_res; cbn [bind wp];
    split; [exact I|]; intros a2 Ha2; destruct a2; cbn in Ha2; try contradiction; cbn; discriminate.
Qed.
Lemma starts_open w : w_state w <> ws_opened -> starts (writer_open w).
Proof.
  intro N. unfold writer_open.
  match goal with |- starts (match _ with ws_opening => ?p | _ => _ end) => assert (G : starts p); [|destruct (w_state w); try exact G; contradiction N; reflexivity] end.
  apply starts_bind. intros [x rw]. cbv zeta. destruct (res_eqb x r_success) eqn:EX; cbn [negb]; [|apply starts_ret, res_eqb_false, EX].
  assert (K : forall p : io (res * writer), starts p -> starts (bind p (fun z => match z with (x, w) => if negb (res_eqb x r_success) then Ret (x, w) else Ret (r_success, set_wstate w ws_opened) end))).
  { intros p P h. apply wp_bind_i. eapply wp_mono; [|apply P]. intros h' o q. destruct o as [[y w']| |]; unfold bind_post; [|exact I|exact I].
    destruct (res_eqb y r_success) eqn:EY; cbn [negb]; [apply res_eqb_true in EY; subst y; exact q|]. cbn. intros ->. discriminate. }
  apply K. destruct (rw_has_read _); [|apply starts_send]. unfold writer_open_bidirectional.
  destruct (control_set_type _ _) as [[] c]; try (apply starts_ret; discriminate). cbv zeta.
  apply starts_bind. intros [x1 rw1]. destruct (res_eqb x1 r_success) eqn:E1; cbn [negb]; [|apply starts_ret, res_eqb_false, E1].
  apply starts_bind. intros [[x2 acc] rw2]. destruct (res_eqb x2 r_success) eqn:E2; cbn [negb]; [|apply starts_ret, res_eqb_false, E2].
  destruct acc as [acc|]; [|intro; exact I]. destruct (accept_match_loop _ _ _) as [m ct].
  destruct m; cbn [negb]; [apply starts_send|apply starts_ret; discriminate].
Qed.
Lemma ev_all {A} (p : io A) : evp (fun _ => True) p.
Proof.
  induction p as [a|e|q k IH]; [apply evp_ret|apply evp_fail|]. apply evp_vis; auto.
Qed.
Lemma open_asks w h : w_state w <> ws_opened -> rw_has_open (w_rdwr w) = true ->
  wp (writer_open w) (fun h' o => match o with Done _ => h' <> h | _ => True end) h.
Proof.
  intros N HO. unfold writer_open.
  match goal with |- wp (match _ with ws_opening => ?p | _ => _ end) ?Q _ => assert (G : wp p Q h); [|destruct (w_state w); try exact G; contradiction N; reflexivity] end.
  unfold rdwr_open. rewrite HO. cbn [negb]. unfold ask_res. cbn [bind wp]. split; [exact I|]. intros a Ha.
  eapply wp_mono; [|apply ev_all]. intros h' o (tr & E & _). destruct o; auto. intros ->.
  rewrite <- app_assoc in E. rewrite <- (app_nil_r h) in E at 1. apply app_inv_head in E. discriminate.
Qed.

(** ** The rounds *)
Section Rounds.
Variable d : Z.
Definition came_back (l1 l2 : trace) : Prop :=
  exists now r, l2 = (QClock, AClock now) :: r /\ ((last_try l1 + d <= now)%Z -> exists hh a r', r = (QOpen hh, a) :: r').
Definition settled (h : trace) : Prop := forall l1 l2, h = l1 ++ l2 -> round_begins l1 -> ~ connected l1 -> came_back l1 l2.

Lemma came_comes l1 l2 : came_back l1 l2 -> comes_back d l1 l2.
Proof. intros (now & r & -> & K). cbn. intro L. destruct (K L) as (hh & a & r' & ->). exact I. Qed.
Lemma came_more l1 l2 tr : came_back l1 l2 -> came_back l1 (l2 ++ tr).
Proof.
  intros (now & r & -> & K). exists now, (r ++ tr). split; [reflexivity|]. intro L. destruct (K L) as (hh & a & r' & ->). eexists _, _, _. reflexivity.
Qed.
Lemma settled_tries h : settled h -> tries_again d h.
Proof. intros S l1 l2 E B N. apply came_comes, S; assumption. Qed.

Definition goes_on (e : event) : Prop := e = (QShutting, ABool false).
Lemma begins_in h tr : Forall (fun e => ~ goes_on e) tr -> tr <> [] -> ~ round_begins (h ++ tr).
Proof.
  intros F N [E|(l & E)]; [apply app_eq_nil in E; destruct E; contradiction|].
  destruct tr as [|e tr _] using rev_ind; [contradiction|]. rewrite app_assoc in E. apply app_inj_tail in E. destruct E as [_ ->].
  apply Forall_app in F. destruct F as [_ F]. inversion F as [|? ? X]. apply X. reflexivity.
Qed.
Lemma settled_more h tr : settled h -> Forall (fun e => ~ goes_on e) tr -> settled (h ++ tr).
Proof.
  intros S F l1 l2 E B N. apply app_eq_app in E. destruct E as (l & [[E1 E2]|[E1 E2]]).
  - subst l2. apply came_more. apply S; auto.
  - destruct l as [|x l]; [rewrite app_nil_r in E1; cbn in E2; subst l1 l2; rewrite <- (app_nil_l tr); apply came_more, S; auto; rewrite app_nil_r; reflexivity|].
    exfalso. subst l1 tr. apply Forall_app in F. destruct F as [F _]. eapply begins_in; [exact F|discriminate|exact B].
Qed.
Lemma tries_begin h : settled h -> tries_again d (h ++ [(QShutting, ABool false)]).
Proof.
  intros S l1 l2 E B N. destruct l2 as [|x l2 _] using rev_ind; [exact I|]. rewrite app_assoc in E. apply app_inj_tail in E. destruct E as [-> <-].
  apply came_comes, came_more, S; auto.
Qed.
(** [h1] is where the round begins; [h0] before it all was settled. *)
Definition begun (h1 : trace) : Prop := h1 = [] \/ exists h0, h1 = h0 ++ [(QShutting, ABool false)] /\ settled h0.
Lemma begun_tries h1 : begun h1 -> tries_again d h1.
Proof.
  intros [->|(h0 & -> & S)]; [|apply tries_begin, S]. intros l1 l2 E _ _. symmetry in E. apply app_eq_nil in E. destruct E as [_ ->]. exact I.
Qed.
(** The last beginning of a round is that of [h1]. *)
Lemma begun_last h1 tr l1 l2 : begun h1 -> Forall (fun e => ~ goes_on e) tr -> h1 ++ tr = l1 ++ l2 -> round_begins l1 -> ~ connected l1 ->
  came_back l1 l2 \/ l1 = h1 /\ l2 = tr.
Proof.
  intros G F E B N. apply app_eq_app in E. destruct E as (l & [[E1 E2]|[E1 E2]]).
  - destruct l as [|x l _] using rev_ind; [rewrite app_nil_r in E1; subst; auto|]. left. destruct G as [->|(h0 & -> & S)].
    { symmetry in E1. apply app_eq_nil in E1. destruct E1 as [_ E1]. apply app_eq_nil in E1. destruct E1; discriminate. }
    rewrite app_assoc in E1. apply app_inj_tail in E1. destruct E1 as [-> <-]. subst l2. rewrite <- app_assoc. apply came_more, S; auto.
  - destruct l as [|x l]; [rewrite app_nil_r in E1; cbn in E2; auto|].
    exfalso. subst l1 tr. apply Forall_app in F. destruct F as [F _]. eapply begins_in; [exact F|discriminate|exact B].
Qed.
Lemma begun_settled h1 tr : begun h1 -> Forall (fun e => ~ goes_on e) tr -> (connected h1 \/ came_back h1 tr) -> settled (h1 ++ tr).
Proof.
  intros G F K l1 l2 E B N. destruct (begun_last _ _ _ _ G F E B N) as [C|[-> ->]]; [exact C|]. destruct K; [contradiction|assumption].
Qed.
Lemma begun_comes h1 tr : begun h1 -> Forall (fun e => ~ goes_on e) tr -> comes_back d h1 tr -> tries_again d (h1 ++ tr).
Proof.
  intros G F K l1 l2 E B N. destruct (begun_last _ _ _ _ G F E B N) as [C|[-> ->]]; [apply came_comes, C|exact K].
Qed.
End Rounds.
Lemma calm_on tr : Forall calm tr -> Forall (fun e => ~ goes_on e) tr.
Proof. apply Forall_impl. intros e C E. rewrite E in C. exact C. Qed.

Section Thread.
Variables (bi : bool) (cts : list bytes) (opt : iothr_options).
Hypothesis size_pos : (1 <= io_output_queue_size opt)%N.
Hypothesis size_small : (io_output_queue_size opt < 2 ^ 30)%N.
Hypothesis hint_small : (io_buffer_hint opt <= 2 ^ 32)%N.
Let okb : res -> bool := fun _ => true.
Local Notation TI := (Iothr3_proofs.TI okb bi cts opt).
Let d := Z.of_N (io_reopen_interval opt).

Record INV (t : iothr) (h : trace) : Prop := {
  in_ti : exists W oq, TI t h W oq [];
  in_last : t_last_open t = last_try h;
  in_conn : t_opened t = true -> connected h }.

Lemma TI_PRE t h W oq : TI t h W oq [] -> PRE t.
Proof. intros T O. apply (wp_open_st _ _ _ _ _ _ (ti_w _ _ _ _ _ _ _ _ _ T) O). Qed.

Lemma last_same h tr : open_times (h ++ tr) = open_times h -> last_try (h ++ tr) = last_try h.
Proof. intro E. unfold last_try. rewrite E. reflexivity. Qed.
Lemma INV_quiet t h t' h' : INV t h -> quiet_post t h h' t' -> (exists W oq, TI t' h' W oq []) -> INV t' h'.
Proof.
  intros [_ L C] (tr & -> & K & _ & L' & _ & O) T. split; [exact T| |].
  - rewrite last_same by (apply calm_times, K). congruence.
  - intro X. destruct (O X) as [X' F]. apply connected_more; auto.
Qed.
Lemma settled_quiet t h t' h' : settled d h -> quiet_post t h h' t' -> settled d h'.
Proof. intros S (tr & -> & K & _). apply settled_more; [exact S|apply calm_on, K]. Qed.
Lemma settled_calm h h' : settled d h -> calm_post h h' -> tries_again d h'.
Proof. intros S (tr & -> & K). apply settled_tries, settled_more; [exact S|apply calm_on, K]. Qed.

Lemma r_opens t h1 : INV t h1 -> begun d h1 ->
  wp (maybe_open t) (fun h' o => match o with
    | Done t' => t_last_open t' = last_try h' /\ (t_opened t' = true -> connected h') /\ settled d h'
    | _ => tries_again d h' end) h1.
Proof.
  intros [(W & oq & T) L C] G. unfold maybe_open. destruct (t_opened t) eqn:EO.
  { cbn. split; [assumption|]. split; [auto|]. rewrite <- (app_nil_r h1). apply begun_settled; [exact G|constructor|left; auto]. }
  unfold ask_clock. cbn [bind wp]. split; [apply begun_tries, G|]. intros a Ha. destruct a as [ | |now| | | ]; try contradiction. cbn [bind].
  assert (N0 : ~ goes_on (QClock, AClock now)) by discriminate.
  assert (F0 : Forall (fun e => ~ goes_on e) [(QClock, AClock now)]) by (constructor; [exact N0|constructor]).
  rewrite (ti_opt _ _ _ _ _ _ _ _ _ T). fold d. destruct (_ <? _)%Z eqn:EZ.
  { cbn. split; [rewrite last_same; [assumption|apply times_one; discriminate]|]. split; [congruence|].
    apply begun_settled; [exact G|exact F0|]. right. exists now, []. split; [reflexivity|]. intro X. lia. }
  unfold iothr_open. apply wp_bind_i. cbn [t_set_last t_writer].
  set (h2 := h1 ++ [(QClock, AClock now)]).
  destruct (ti_w _ _ _ _ _ _ _ _ _ T) as [TWI _ TWC]. specialize (TWC EO).
  assert (HO : rw_has_open (w_rdwr (t_writer t)) = true) by apply (ok_open _ _ _ (wi_ok _ _ _ _ _ _ TWI)).
  pose proof (wp_and _ _ _ _ (ev_open (fun _ => True) (fun _ _ => I) (t_writer t) h2) (wp_and _ _ _ _ (starts_open _ TWC h2) (open_asks _ h2 TWC HO))) as K.
  eapply wp_mono; [|exact K]. clear K. intros h' o ((tr & -> & OE) & ST & AS).
  assert (F : Forall (fun e => ~ goes_on e) ((QClock, AClock now) :: tr)).
  { constructor; [exact N0|]. destruct OE as [->|(hh & a & tr' & -> & F)]; [constructor|]. constructor; [discriminate|].
    eapply Forall_impl; [|exact F]. intros [q b] X Y. unfold goes_on in Y. injection Y as -> ->. exact X. }
  assert (EH : h2 ++ tr = h1 ++ (QClock, AClock now) :: tr) by (unfold h2; rewrite <- app_assoc; reflexivity).
  assert (TR : tries_again d (h2 ++ tr)).
  { rewrite EH. apply begun_comes; [exact G|exact F|]. cbn. intros _. destruct OE as [->|(hh & a & tr' & -> & _)]; exact I. }
  destruct o as [[x w']| |]; unfold bind_post; [|exact TR|exact TR]. destruct OE as [->|(hh & a & tr' & -> & F')].
  { rewrite app_nil_r in AS. contradiction AS. reflexivity. }
  cbn [wp]. cbn [t_set_opened t_set_writer t_set_last t_last_open t_opened]. split; [|split].
  - unfold last_try. assert (OT : open_times (h2 ++ (QOpen hh, a) :: tr') = Some now :: open_times h1).
    { change ((QOpen hh, a) :: tr') with ([(QOpen hh, a)] ++ tr'). rewrite (app_assoc _ [_]). unfold open_times at 1. rewrite clock_app, (tev_clock _ _ F'), clock_app.
      unfold h2. rewrite clock_app. reflexivity. }
    rewrite OT. reflexivity.
  - intro X. apply res_eqb_true in X. destruct (ST X) as (l & hh' & ct & E). exists l, hh', ct, []. split; [exact E|constructor].
  - rewrite EH. apply begun_settled; [exact G|exact F|]. right. exists now, ((QOpen hh, a) :: tr'). split; [reflexivity|]. intros _. eauto.
Qed.
Lemma r_open t h1 : INV t h1 -> begun d h1 ->
  wp (maybe_open t) (fun h' o => match o with Done t' => INV t' h' /\ settled d h' | _ => tries_again d h' end) h1.
Proof.
  intros V G. destruct (in_ti _ _ V) as (W & oq & T).
  eapply wp_mono; [|apply wp_and; [apply (r_opens t h1 V G)|apply (wp_mopen okb eq_refl bi cts opt size_pos size_small hint_small _ _ _ _ T)]].
  intros h' o [K1 K2]. destruct o as [t'| |]; [|exact K1|exact K1]. destruct K1 as (A & B & S). destruct K2 as [T' _]. split; [|exact S]. split; eauto.
Qed.
Lemma r_flush t h : INV t h -> settled d h ->
  wp (flush_output t) (fun h' o => match o with Done t' => INV t' h' /\ settled d h' | _ => tries_again d h' end) h.
Proof.
  intros V S. destruct (in_ti _ _ V) as (W & oq & T).
  eapply wp_mono; [|apply wp_and; [apply (q_flush t h (TI_PRE _ _ _ _ T))|apply (wp_flush okb eq_refl bi cts opt size_pos size_small hint_small _ _ _ _ _ T)]].
  intros h' o [K1 K2]. destruct o as [t'| |]; [|eapply settled_calm; eassumption|eapply settled_calm; eassumption].
  destruct K2 as (W' & T' & _). split; [|eapply settled_quiet; eassumption]. eapply INV_quiet; eauto.
Qed.
Lemma r_queues n i t tot h : INV t h -> settled d h ->
  wp (process_queues_from n i t tot) (fun h' o => match o with Done (_, t') => INV t' h' /\ settled d h' | _ => tries_again d h' end) h.
Proof.
  intros V S. destruct (in_ti _ _ V) as (W & oq & T).
  eapply wp_mono; [|apply wp_and; [apply (q_queues n i t tot h (TI_PRE _ _ _ _ T))|apply (wp_queues okb eq_refl bi cts opt size_pos size_small hint_small n i _ _ _ _ tot T)]].
  intros h' o [K1 K2]. destruct o as [[m t']| |]; [|eapply settled_calm; eassumption|eapply settled_calm; eassumption].
  destruct K2 as ((W' & oq' & T') & _). split; [|eapply settled_quiet; eassumption]. eapply INV_quiet; eauto.
Qed.
Lemma INV_event t h e : INV t h -> ntr e -> removed_at e = [] -> freed_at e = [] ->
  good (io_output_queue_size opt) (io_buffer_hint opt) h e -> fine e -> (forall hh, fst e <> QOpen hh) -> INV t (h ++ [e]).
Proof.
  intros [(W & oq & T) L C] A B D E F N. split.
  - exists W, oq. apply TI_event; assumption.
  - rewrite last_same; [assumption|apply times_one, N].
  - intro O. apply connected_more; auto.
Qed.

Lemma thr_timed h tr b : Forall thev tr -> timed_out h = b -> timed_out (h ++ tr) = b.
Proof. intros F E. rewrite timed_app, (thev_timed _ F). exact E. Qed.
Lemma not_on_more h tr : settled d h -> Forall (fun e => ~ goes_on e) tr -> tries_again d (h ++ tr).
Proof. intros S F. apply settled_tries, settled_more; assumption. Qed.

Lemma r_loop dfuel fuel : forall t h, INV t h -> settled d h -> (timed_out h = true -> t_outq t = []) ->
  wp (thr_loop fuel dfuel t) (fun h' o => match o with Done t' => settled d h' | _ => tries_again d h' end) h.
Proof.
  induction fuel as [|fuel IH]; intros t h V S TM; cbn [thr_loop]; [cbn; apply settled_tries, S|].
  unfold ask_bool at 1. cbn [bind wp]. split; [apply settled_tries, S|]. intros a Ha. destruct a as [ | | | |sd| ]; try contradiction. cbn [bind].
  assert (V1 : INV t (h ++ [(QShutting, ABool sd)])).
  { apply INV_event; [exact V|exact I|reflexivity|reflexivity| |split; [exact I|intros n; discriminate]|intros hh; discriminate].
    cbn. intro E. destruct (in_ti _ _ V) as (W & oq & T). pose proof (TI_held _ _ _ _ _ _ _ _ _ T) as X. rewrite (TM E) in X. exact X. }
  assert (TO1 : timed_out (h ++ [(QShutting, ABool sd)]) = false) by (rewrite timed_app; reflexivity).
  destruct sd.
  - assert (S1 : settled d (h ++ [(QShutting, ABool true)])) by (apply settled_more; [exact S|constructor; [discriminate|constructor]]).
    destruct (in_ti _ _ V1) as (W & oq & T). pose proof (TI_PRE _ _ _ _ T) as P.
    eapply (q_bind _ _ _ t); [apply q_drain, P| |].
    + intros t2 h2 Q2. pose proof (settled_quiet _ _ _ _ S1 Q2) as S2. destruct Q2 as (tr2 & _ & _ & P2 & _).
      eapply (q_bind _ _ _ t2); [apply q_flush, P2| |].
      * intros t3 h3 Q3. pose proof (settled_quiet _ _ _ _ S2 Q3) as S3. eapply wp_mono; [|apply q_close]. intros h4 o [K _].
        destruct o as [t4| |]; cbn in K; [eapply settled_quiet; eassumption|eapply settled_calm; eassumption|eapply settled_calm; eassumption].
      * intros h3 C3. pose proof (settled_calm _ _ S2 C3). auto.
    + intros h2 C2. pose proof (settled_calm _ _ S1 C2). auto.
  - assert (G1 : begun d (h ++ [(QShutting, ABool false)])) by (right; eauto).
    apply wp_bind_i. eapply wp_mono; [|eapply evp_wp; [apply th_maybe_open|apply (r_open _ _ V1 G1)]].
    intros h2 o ((tr2 & -> & F2) & K). destruct o as [t2| |]; unfold bind_post; [|exact K|exact K]. destruct K as [V2 S2].
    assert (F2' : Forall thev tr2) by (eapply Forall_impl; [|exact F2]; apply evq_thev).
    pose proof (thr_timed _ _ _ F2' TO1) as TO2.
    apply wp_bind_i. unfold process_queues. eapply wp_mono; [|eapply evp_wp; [apply th_queues|apply (r_queues _ _ _ _ _ V2 S2)]].
    intros h3 o ((tr3 & -> & F3) & K). destruct o as [[n t3]| |]; unfold bind_post; [|exact K|exact K]. destruct K as [V3 S3].
    pose proof (thr_timed _ _ _ F3 TO2) as TO3. set (h3 := ((h ++ [(QShutting, ABool false)]) ++ tr2) ++ tr3) in *.
    destruct (n =? 0)%N; cbn [negb]; [|apply IH; [exact V3|exact S3|congruence]].
    unfold ask_clock. cbn [bind wp]. split; [apply settled_tries, S3|]. intros a Ha2. destruct a as [ | |now| | | ]; try contradiction. cbn [bind].
    assert (V4 : INV t3 (h3 ++ [(QClock, AClock now)])).
    { apply INV_event; [exact V3|exact I|reflexivity|reflexivity|exact I|split; [exact I|intros k; discriminate]|intros hh; discriminate]. }
    assert (S4 : settled d (h3 ++ [(QClock, AClock now)])) by (apply settled_more; [exact S3|constructor; [discriminate|constructor]]).
    unfold ask_bool. cbn [bind wp]. split; [apply settled_tries, S4|]. intros a Ha3. destruct a as [ | | | |b| ]; try contradiction. cbn [bind].
    set (fl := io_flush_timeout (t_opt t3)) in *.
    assert (V5 : INV t3 ((h3 ++ [(QClock, AClock now)]) ++ [(QWait fl, ABool b)])).
    { apply INV_event; [exact V4|exact I|reflexivity|reflexivity| |split; [exact I|intros k; discriminate]|intros hh; discriminate].
      destruct (in_ti _ _ V4) as (W & oq & T). apply (TI_poll _ _ _ _ _ _ _ _ T). }
    assert (S5 : settled d ((h3 ++ [(QClock, AClock now)]) ++ [(QWait fl, ABool b)])) by (apply settled_more; [exact S4|constructor; [discriminate|constructor]]).
    destruct b.
    + destruct (in_ti _ _ V5) as (W & oq & T).
      apply wp_bind_i. eapply wp_mono; [|apply wp_and; [apply (r_flush _ _ V5 S5)|apply (wp_flush okb eq_refl bi cts opt size_pos size_small hint_small _ _ _ _ _ T)]].
      intros h6 o [K1 K2]. destruct o as [t6| |]; unfold bind_post; [|exact K1|exact K1]. destruct K1 as [V6 S6]. destruct K2 as (W6 & _ & E6). apply IH; auto.
    + apply IH; [exact V5|exact S5|]. rewrite !timed_app. cbn. rewrite TO3. discriminate.
Qed.
Lemma r_thr dfuel fuel t : INV t [] ->
  wp (iothr_thr fuel dfuel t) (fun h' o => match o with Done t' => settled d h' | _ => tries_again d h' end) [].
Proof.
  intro V. unfold iothr_thr. apply wp_bind_i. eapply wp_mono; [|eapply evp_wp; [apply th_maybe_open|apply (r_open _ _ V); left; reflexivity]].
  intros h2 o ((tr2 & E2 & F2) & K). destruct o as [t2| |]; unfold bind_post; [|exact K|exact K]. destruct K as [V2 S2].
  apply r_loop; [exact V2|exact S2|]. subst h2. assert (F2' : Forall thev tr2) by (eapply Forall_impl; [|exact F2]; apply evq_thev).
  rewrite (thr_timed [] tr2 false F2' eq_refl). discriminate.
Qed.
Lemma on_free_queues dfuel n : forall i, evp (fun e => ~ goes_on e) (free_queues n i dfuel).
Proof.
  induction n as [|n IH]; intro i; cbn [free_queues]; [apply evp_ret|]. apply evp_bind; [|intro; apply IH].
  generalize dfuel. intro m. induction m as [|f IHf]; cbn [free_queue]; [apply evp_fail|]. apply evp_bind.
  - apply evp_vis; [intros; discriminate|]. intros a _. destruct a; try apply evp_fail. apply evp_ret.
  - intros [e|]; [|apply evp_ret]. apply evp_bind; [|intro; exact IHf]. unfold free_bytes. apply evp_if; [|apply evp_ret].
    apply evp_vis; [intros; discriminate|]. intros a _. destruct a; try apply evp_fail. apply evp_ret.
Qed.
Lemma on_destroy w : evp (fun e => ~ goes_on e) (writer_destroy w).
Proof.
  unfold writer_destroy. apply evp_bind.
  - destruct (w_state w); try apply evp_ret. eapply evp_mono; [|apply (ev_wclose (fun _ => True) I w)]. intros [q a] T E. unfold goes_on in E. injection E as -> ->. exact T.
  - intros [x w']. apply evp_bind; [|intro; apply evp_ret]. unfold rdwr_destroy. apply evp_if; [|apply evp_ret]. apply evp_ask. intros a _. discriminate.
Qed.
Lemma r_life dfuel fuel t : INV t [] -> wp (iothr_life fuel dfuel t) (fun h' _ => tries_again d h') [].
Proof.
  intro V. unfold iothr_life. apply wp_bind_i. eapply wp_mono; [|apply r_thr, V]. intros h1 o K. destruct o as [t1| |]; unfold bind_post; [|exact K|exact K].
  assert (E : evp (fun e => ~ goes_on e) (bind (writer_destroy (t_writer t1)) (fun _ => free_queues (N.to_nat (io_num_input_queues (t_opt t1))) 0 dfuel))).
  { apply evp_bind; [apply on_destroy|intro; apply on_free_queues]. }
  eapply wp_mono; [|apply E]. intros h' o (tr & -> & F). apply not_on_more; assumption.
Qed.
End Thread.

Lemma thread_tries : forall iov_max cts rw t cap fuel dfuel H s o, created iov_max cts rw t -> system cap fuel dfuel t H s o ->
  tries_again (Z.of_N (io_reopen_interval (t_opt t))) (thread_of H).
Proof.
  intros iov_max cts rw t cap fuel dfuel H s o Hc (_ & R & _).
  destruct (created_ok (fun _ => true) iov_max cts rw t eq_refl Hc) as (T & S1 & S2 & S3 & _).
  assert (Z0 : t_last_open t = 0%Z /\ t_opened t = false).
  { destruct Hc as (_ & _ & iovm & w & oopt & _ & _ & _ & HI). unfold iothr_init in HI. cbv zeta in HI. cbn [negb] in HI.
    destruct (_ && _)%bool; [discriminate|]. injection HI as <-. split; reflexivity. }
  destruct Z0 as [Z1 Z2].
  refine (wp_runs _ _ (r_life _ _ (t_opt t) _ _ _ _ _ t _) _ _ R); try eassumption.
  constructor; [exists [], []; exact T|exact Z1|]. intro X. congruence.
Qed.

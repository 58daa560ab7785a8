(** Control frames of a reader after failed calls. *)
From Verif Require Import Bytes Spec Bytes_proofs Io Io_proofs SpecTrace SpecStream
  Control Control_proofs Rdwr Rdwr_proofs Reader Api SpecApi SpecReader SpecReopen
  Writer_proofs Writer2_proofs Reader_source_proofs Reader_proofs Reader2_proofs.
Local Open Scope N_scope.

(** ** Traces only grow *)
Lemma wp_grow {A} (p : io A) : forall (Q : post A) h,
  wp p (fun h' o => (exists t, h' = h ++ t) -> Q h' o) h -> wp p Q h.
Proof.
  induction p as [a|f|q k IH]; intros Q h W.
  - apply W. exists []. rewrite app_nil_r. reflexivity.
  - apply W. exists []. rewrite app_nil_r. reflexivity.
  - destruct W as [W1 W2]. split; [apply W1; exists []; rewrite app_nil_r; reflexivity|].
    intros a Ha. apply IH. eapply wp_mono; [|apply (W2 a Ha)]. cbn. intros h' o H (t & ->). apply H.
    exists ((q, a) :: t). rewrite <- app_assoc. reflexivity.
Qed.

(** ** What an open leaves alone *)
Definition kept (r r' : reader) : Prop :=
  r_stop_c r' = r_stop_c r /\ (rw_has_write (r_rdwr r) = false -> r_ready r' = r_ready r /\ r_accept r' = r_accept r).

Definition leaves {A} (p : io A) (P : A -> Prop) : Prop :=
  forall h, wp p (fun _ o => match o with Done a => P a | _ => True end) h.
Lemma leaves_ret {A} (a : A) (P : A -> Prop) : P a -> leaves (Ret a) P.
Proof. intros H h. exact H. Qed.
Lemma leaves_fail {A} f (P : A -> Prop) : leaves (Fail f) P.
Proof. intro h. exact Logic.I. Qed.
Lemma leaves_any {A} (p : io A) : leaves p (fun _ => True).
Proof. intro h. eapply wp_mono; [|apply wp_true]. intros h' [a|f|] _; exact Logic.I. Qed.
Lemma leaves_bind {A B} (p : io A) (k : A -> io B) P Q : leaves p P -> (forall a, P a -> leaves (k a) Q) -> leaves (bind p k) Q.
Proof.
  intros HP HK h. apply wp_bind_i. eapply wp_mono; [|apply HP]. intros h' [a|f|] H; cbn; auto. apply HK. exact H.
Qed.

Lemma leaves_uni r : leaves (reader_open_unidirectional r) (fun z => r_stop_c (snd z) = r_stop_c r /\ r_ready (snd z) = r_ready r /\ r_accept (snd z) = r_accept r).
Proof.
  unfold reader_open_unidirectional. eapply leaves_bind; [apply leaves_any|]. intros [[x c] rw] _. cbv zeta.
  destruct (negb (res_eqb x r_success)); [apply leaves_ret; auto|]. destruct c as [c|]; [|apply leaves_fail].
  destruct (negb _); apply leaves_ret; auto.
Qed.
Lemma leaves_bi r : leaves (reader_open_bidirectional r) (fun z => r_stop_c (snd z) = r_stop_c r).
Proof.
  unfold reader_open_bidirectional. eapply leaves_bind; [apply leaves_any|]. intros [[x c] rw] _. cbv zeta.
  destruct (negb (res_eqb x r_success)); [apply leaves_ret; reflexivity|]. destruct c as [c|]; [|apply leaves_fail].
  destruct (control_set_type _ _) as [[] a1]; try (apply leaves_ret; reflexivity).
  eapply leaves_bind; [apply leaves_any|]. intros [y rw2] _. destruct (negb (res_eqb y r_success)); [apply leaves_ret; reflexivity|].
  intro h. eapply wp_mono; [|apply leaves_uni]. intros h' [z|f|] H; auto. destruct H as (H & _). rewrite H. reflexivity.
Qed.
Lemma leaves_rdwr_open rw : leaves (rdwr_open rw) (fun z => rw_has_write (snd z) = rw_has_write rw).
Proof.
  unfold rdwr_open. repeat match goal with
  | |- leaves (bind _ _) _ => eapply leaves_bind; [apply leaves_any|]; intros ? _
  | |- leaves (Ret _) _ => apply leaves_ret; reflexivity
  | |- leaves (Fail _) _ => apply leaves_fail
  | |- leaves (if ?b then _ else _) _ => destruct b
  | |- leaves (match ?x with _ => _ end) _ => destruct x
  end.
Qed.
Lemma leaves_open r : leaves (reader_open r) (fun z => kept r (snd z)).
Proof.
  assert (K : kept r r) by (split; auto).
  unfold reader_open. destruct (r_state r); try (apply leaves_ret; exact K);
    (eapply leaves_bind; [apply leaves_rdwr_open|]; intros [x rw] E; cbn [snd] in E; cbv zeta;
     destruct (negb (res_eqb x r_success)); [apply leaves_ret; split; auto|];
     apply leaves_bind with (P := fun z => kept r (snd z));
     [cbn [set_rrdwr r_rdwr]; rewrite E; destruct (rw_has_write (r_rdwr r)) eqn:W; intro h;
        [eapply wp_mono; [|apply leaves_bi]; intros h' [z|f|] H; auto; split; [exact H|congruence]
        |eapply wp_mono; [|apply leaves_uni]; intros h' [z|f|] H; auto; split; [apply H|intros _; apply H]]
     |intros [y r2] H2; cbn [snd] in H2; destruct (negb (res_eqb y r_success)); apply leaves_ret; exact H2]).
Qed.

(** ** The invariant *)
Record CJ (bi : bool) (wanted : list bytes) (max : N) (r : reader) (h : trace) (s g : bool) : Prop := {
  cj_seen : r_state r <> rs_opening -> s = true;
  cj_uni : bi = false -> r_ready r = None /\ r_accept r = None;
  cj_stop : r_stop_c r = None \/ (r_stop_c r = Some (mk_control T_STOP []) /\ whole_stream_received bi wanted max h);
  cj_frames : r_state r <> rs_opening -> g = true -> exists rdy st, r_start r = Some (mk_control T_START st) /\
     prefix ((if bi then ctl_frame T_READY rdy else []) ++ ctl_frame T_START st) (received h) /\
     (bi = true -> r_ready r = Some (mk_control T_READY rdy) /\
        exists acts ss s, r_accept r = Some (mk_control T_ACCEPT acts) /\
          delivered h = ss ++ [ctl_frame T_ACCEPT acts ++ s])
}.

Lemma whole_grow bi wanted max h t : whole_stream_received bi wanted max h -> whole_stream_received bi wanted max (h ++ t).
Proof.
  intros (h1 & h2 & hd & b & ds & -> & H). exists h1, (h2 ++ t), hd, b, ds. rewrite app_assoc. auto.
Qed.

Lemma CJ_mono bi wanted max r h s g s' g' : CJ bi wanted max r h s g ->
  (r_state r <> rs_opening -> (s = true -> s' = true) /\ (g' = true -> g = true)) -> CJ bi wanted max r h s' g'.
Proof.
  intros [C1 C2 C3 C4] M. split; auto.
  - intro H. apply M; auto.
  - intros H G. apply C4; auto. apply M; auto.
Qed.

Lemma CJ_keep bi wanted max r r' h h' s g : CJ bi wanted max r h s g -> r_state r <> rs_opening -> ext h h' -> (exists t, h' = h ++ t) ->
  r_start r' = r_start r -> r_ready r' = r_ready r -> r_accept r' = r_accept r ->
  (r_stop_c r' = r_stop_c r \/ (r_stop_c r' = Some (mk_control T_STOP []) /\ whole_stream_received bi wanted max h')) ->
  CJ bi wanted max r' h' s g.
Proof.
  intros [C1 C2 C3 C4] NO [X1 X2] (t & ->) E1 E2 E3 E4. split; auto.
  - rewrite E2, E3. assumption.
  - destruct E4 as [-> |E4]; auto. destruct C3 as [C3|[C3 W]]; auto. right. split; [assumption|]. apply whole_grow. assumption.
  - intros _ G. destruct (C4 NO G) as (rdy & st & F1 & F2 & F3). exists rdy, st. rewrite E1, E2, E3.
    split; [assumption|]. split; [eapply prefix_trans; eassumption|]. intro B. destruct (F3 B) as (G1 & acts & ss & s' & G2 & G3).
    split; [assumption|]. destruct (X2 _ _ G3) as [s2 E]. exists acts, ss, (s' ++ s2). split; [assumption|].
    rewrite E, <- app_assoc. reflexivity.
Qed.

Lemma wp_open_CJ bi wanted max r (Q : post _) h ph s g :
  RI okS bi wanted max r h ph -> CJ bi wanted max r h s g -> (forall ds, ph <> P_reading ds) ->
  (forall h', Q h' Cut) ->
  (forall h' r', RI okS bi wanted max r' h' (P_reading []) -> CJ bi wanted max r' h' true true -> Q h' (Done (r_success, r'))) ->
  (forall h' x r', x <> r_success -> RI okS bi wanted max r' h' (after_failed_open ph) -> r_state r' = r_state r ->
     CJ bi wanted max r' h' s (negb s && g) -> Q h' (Done (x, r'))) ->
  wp (reader_open r) Q h.
Proof.
  intros I C NR Hcut HS HF. apply wp_grow.
  set (Q' := fun h' (o : out (res * reader)) => match o with
      | Done (x, r') => (exists t, h' = h ++ t) -> kept r r' -> Q h' (Done (x, r'))
      | o => Q h' o end).
  enough (W : wp (reader_open r) Q' h).
  { eapply wp_mono; [|exact (wp_and _ _ _ _ (leaves_open r h) W)]. intros h' [[x r']|f|] [A B]; cbn in *; auto. }
  apply (wp_open okS eq_refl bi wanted max r Q' h); try apply I; auto; unfold Q'.
  - rewrite (ri_state _ _ _ _ _ _ _ I). destruct ph; try discriminate. destruct (NR ds eq_refl).
  - intros; apply Hcut.
  - intros h' r' rdy st SD St Ho SRR KR KS Acc Er Es Eb Eu Eo EX _. destruct EX as (t & ->). apply HS.
    + split; auto.
      * exact (rok_same _ _ _ _ _ (ri_ok _ _ _ _ _ _ _ I) SD).
      * cbn. exists (received (h ++ t)), []. split; [|split; [constructor|rewrite app_nil_r; reflexivity]].
        exists rdy, st. auto.
    + split; auto.
      * intro B. destruct (Eu B) as [-> ->]. apply (cj_uni _ _ _ _ _ _ _ C B).
      * rewrite Eo. destruct (cj_stop _ _ _ _ _ _ _ C) as [E|[E W]]; auto. right. split; [assumption|]. apply whole_grow. assumption.
      * intros _ _. exists rdy, st. split; [assumption|]. split; [rewrite Er; apply prefix_refl|].
        intro B. destruct (Eb B) as (G1 & G2 & ss & G3). split; [assumption|].
        eexists _, ss, []. split; [eassumption|]. rewrite app_nil_r. exact G3.
  - intros h' x r' Hx SD St SRR EX [K1 K2]. destruct EX as (t & ->). apply HF; auto.
    + split; auto.
      * exact (rok_same _ _ _ _ _ (ri_ok _ _ _ _ _ _ _ I) SD).
      * rewrite St, (ri_state _ _ _ _ _ _ _ I). destruct ph; reflexivity.
      * intros ds E. destruct ph; cbn in E; try discriminate. destruct (NR ds0 eq_refl).
      * destruct ph; cbn; auto. destruct (NR ds eq_refl).
    + split.
      * rewrite St. apply C.
      * intro B. assert (W : rw_has_write (r_rdwr r) = false) by (rewrite (ro_write _ _ _ _ (ri_ok _ _ _ _ _ _ _ I)); exact B).
        destruct (K2 W) as [-> ->]. apply (cj_uni _ _ _ _ _ _ _ C B).
      * rewrite K1. destruct (cj_stop _ _ _ _ _ _ _ C) as [E|[E W]]; auto. right. split; [assumption|]. apply whole_grow. assumption.
      * rewrite St. intros NO G. rewrite (cj_seen _ _ _ _ _ _ _ C NO) in G. discriminate.
Qed.

Lemma wp_next_CJ bi wanted max r (Q : post _) h ds fuel s g :
  RI okS bi wanted max r h (P_reading ds) -> CJ bi wanted max r h s g ->
  (forall h', Q h' Cut) -> (forall h' f, Q h' (Stuck f)) ->
  (forall h' x d r' ph, RI okS bi wanted max r' h' ph -> CJ bi wanted max r' h' s g -> Q h' (Done (x, d, r'))) ->
  wp (reader_next_data fuel r) Q h.
Proof.
  intros I C Hcut Hst HD. apply wp_grow. apply wp_noopen; [apply noopen_next|].
  destruct (ri_recv _ _ _ _ _ _ _ I) as (hd & b & H1 & H2 & H3).
  assert (NO : r_state r <> rs_opening) by (rewrite (ri_state _ _ _ _ _ _ _ I); discriminate).
  eapply (wp_next_data okS bi wanted max _ hd fuel r h b ds); try apply I; auto.
  - apply (ri_open _ _ _ _ _ _ _ I ds). reflexivity.
  - intros h' d r' b' SD St Ho SRR C' Hr' (SC1 & SC2 & SC3 & SC4) X X'. apply (HD h' _ _ r' (P_reading (ds ++ [d]))).
    + split; auto.
      * exact (rok_same _ _ _ _ _ (ri_ok _ _ _ _ _ _ _ I) SD).
      * cbn. exists hd, b'. auto.
    + eapply CJ_keep; eauto.
  - intros h' r' b' SD St Ho SRR C' Hr' SC1 SC2 SC3 SC4 X X'. apply (HD h' _ _ r' (P_stopped (Some ds))).
    + split; auto.
      * exact (rok_same _ _ _ _ _ (ri_ok _ _ _ _ _ _ _ I) SD).
      * cbn. exists hd, b'. auto.
    + eapply CJ_keep; eauto. right. split; [assumption|]. exists h', [], hd, b', ds. rewrite app_nil_r. auto.
  - intros h' x r' SD St SRR Hx (SC1 & SC2 & SC3 & SC4) X X'. apply (HD h' _ _ r' P_failed).
    + split; auto.
      * exact (rok_same _ _ _ _ _ (ri_ok _ _ _ _ _ _ _ I) SD).
      * discriminate.
      * cbn. auto.
    + eapply CJ_keep; eauto.
Qed.

Definition seen_after (seen : bool) (c : rcall) (x : res) : bool :=
  match c with ROpen => if res_eqb x r_success then true else seen | RClose => seen | _ => true end.
Definition good_after (seen good : bool) (c : rcall) (x : res) : bool :=
  match c with ROpen => if res_eqb x r_success then true else negb seen && good | _ => good end.

Lemma maybe_open_opened r : r_state r <> rs_opening -> reader_maybe_open r = Ret (r_success, r).
Proof. unfold reader_maybe_open. destruct (r_state r); congruence. Qed.

(** An open made by another call. *)
Lemma wp_maybe_CJ bi wanted max r (Q : post _) h ph s g :
  RI okS bi wanted max r h ph -> CJ bi wanted max r h s g ->
  (forall h', Q h' Cut) ->
  (forall h' r' ph', RI okS bi wanted max r' h' ph' -> CJ bi wanted max r' h' true g -> r_state r' <> rs_opening -> Q h' (Done (r_success, r'))) ->
  (forall h' x r' ph', x <> r_success -> RI okS bi wanted max r' h' ph' -> CJ bi wanted max r' h' true g -> Q h' (Done (x, r'))) ->
  wp (reader_maybe_open r) Q h.
Proof.
  intros I C Hcut HS HF. pose proof (ri_state _ _ _ _ _ _ _ I) as St.
  assert (D : r_state r = rs_opening \/ r_state r <> rs_opening) by (destruct (r_state r); (left; reflexivity) || (right; discriminate)).
  destruct D as [E|NO].
  - unfold reader_maybe_open. rewrite E. apply wp_bind_i. eapply wp_open_CJ; [exact I|exact C| |intros; apply Hcut| |].
    + intros ds ->. congruence.
    + intros h' r' I' C'. cbn. eapply HS; [exact I'| |].
      * eapply CJ_mono; [exact C'|]. auto.
      * rewrite (ri_state _ _ _ _ _ _ _ I'). discriminate.
    + intros h' x r' Hx I' St' C'. unfold bind_post. rewrite Writer2_proofs.ne_eqb by assumption. cbn.
      eapply HF; [assumption|exact I'|]. eapply CJ_mono; [exact C'|]. congruence.
  - rewrite maybe_open_opened by assumption. cbn. eapply HS; [exact I| |assumption].
    eapply CJ_mono; [exact C|]. auto.
Qed.

Lemma wp_rcall_CJ bi wanted max fuel r c (Q : post _) h ph s g :
  RI okS bi wanted max r h ph -> CJ bi wanted max r h s g ->
  (forall h', Q h' Cut) -> (forall h' f, Q h' (Stuck f)) ->
  (forall h' x d r' ph', RI okS bi wanted max r' h' ph' -> CJ bi wanted max r' h' (seen_after s c x) (good_after s g c x) -> Q h' (Done (x, d, r'))) ->
  wp (do_rcall fuel r c) Q h.
Proof.
  intros I C Hcut Hst HD. pose proof (ri_state _ _ _ _ _ _ _ I) as St. destruct c; cbn [do_rcall seen_after good_after] in *.
  - apply wp_bind_i. destruct (match ph with P_reading _ => true | _ => false end) eqn:E.
    + destruct ph; try discriminate. unfold reader_open. rewrite St. cbn. eapply HD; [exact I|]. cbn.
      assert (NO : r_state r <> rs_opening) by (rewrite St; discriminate). rewrite (cj_seen _ _ _ _ _ _ _ C NO). cbn.
      eapply CJ_mono; [exact C|]. intros _. split; [auto|discriminate].
    + eapply wp_open_CJ; [exact I|exact C|intros ds ->; discriminate|intros; cbn; apply Hcut| |].
      * intros h' r' I' C'. cbn. eapply HD; [exact I'|]. exact C'.
      * intros h' x r' Hx I' St' C'. cbn. eapply HD; [exact I'|]. rewrite Writer2_proofs.ne_eqb by assumption. exact C'.
  - unfold reader_read. apply wp_bind_i. eapply wp_maybe_CJ; [exact I|exact C|intros; cbn; apply Hcut| |].
    + intros h' r' ph' I' C' NO. unfold bind_post. cbn [wp res_eqb negb]. rewrite (ri_state _ _ _ _ _ _ _ I').
      destruct ph'; cbn [wp]; try (eapply HD; eassumption). eapply wp_next_CJ; eauto.
    + intros h' x r' ph' Hx I' C'. unfold bind_post. rewrite Writer2_proofs.ne_eqb by assumption. cbn. eapply HD; eassumption.
  - assert (CL : (r_state r = rs_opened \/ r_state r = rs_closing) ->
       wp (bind (reader_close r) (fun z => match z with (x, r) => Ret (x, None, r) end)) Q h).
    { intros Sc. apply wp_bind_i. apply wp_grow. apply wp_noopen; [apply noopen_rclose|].
      apply (wp_close_r okS eq_refl bi wanted max); try apply I; auto.
      { intros h' HX _. cbn. auto. }
      intros h' x r' SD St' Ho SRR (SC1 & SC2 & SC3 & SC4) X X'. cbn. apply (HD h' _ _ r' P_closed).
      - split; auto.
        + exact (rok_same _ _ _ _ _ (ri_ok _ _ _ _ _ _ _ I) SD).
        + discriminate.
        + cbn. auto.
      - eapply CJ_keep; eauto. destruct Sc as [-> | ->]; discriminate. }
    destruct ph; try (apply CL; auto; fail); unfold reader_close; rewrite St; cbn; eapply HD; eassumption.
  - unfold reader_get_control. apply wp_bind_i, wp_bind_i. eapply wp_maybe_CJ; [exact I|exact C|intros; cbn; apply Hcut| |].
    + intros h' r' ph' I' C' NO. unfold bind_post. cbn [wp res_eqb negb].
      repeat match goal with |- context [if ?b then _ else _] => destruct b end; cbn; eapply HD; eassumption.
    + intros h' x r' ph' Hx I' C'. unfold bind_post. rewrite Writer2_proofs.ne_eqb by assumption. cbn. eapply HD; eassumption.
Qed.

Lemma wp_rcalls_CJ bi wanted max fuel cs : forall r (Q : post _) h ph s g,
  RI okS bi wanted max r h ph -> CJ bi wanted max r h s g ->
  (forall h', Q h' Cut) -> (forall h' f, Q h' (Stuck f)) ->
  (forall h' xs r' ph' s', RI okS bi wanted max r' h' ph' -> CJ bi wanted max r' h' s' (no_failed_reopen_r s g cs xs) -> Q h' (Done (xs, r'))) ->
  wp (do_rcalls fuel r cs) Q h.
Proof.
  induction cs as [|c cs IH]; intros r Q h ph s g I C Hcut Hst HD.
  { cbn. eapply HD; eassumption. }
  cbn [do_rcalls]. apply wp_bind_i. eapply wp_rcall_CJ; eauto.
  intros h1 x d r1 ph1 I1 C1. unfold bind_post. apply wp_bind_i. eapply IH; eauto; cbn; auto.
  intros h2 xs r2 ph2 s2 I2 C2. eapply HD; [exact I2|].
  destruct c; cbn in *; try exact C2. destruct (res_eqb x r_success); exact C2.
Qed.

Lemma CJ_init o rw r : fresh_rdwr rw -> reader_init o rw = Some r ->
  CJ (rw_has_write rw) (ro_cts o) (ro_max o) r [] false true.
Proof.
  intros [F1 F2 F3 F4]. unfold reader_init. destruct (rw_has_read rw) eqn:E; [|discriminate]. cbn.
  intros [= <-]. split; cbn; auto; congruence.
Qed.

(** A frame handed out. *)
Lemma CJ_handed bi wanted max r h s g t c : CJ bi wanted max r h s g -> r_state r <> rs_opening ->
  (t = T_START /\ r_start r = Some c) \/ (t = T_STOP /\ r_stop_c r = Some c) \/
  (t = T_READY /\ r_ready r = Some c) \/ (t = T_ACCEPT /\ r_accept r = Some c) ->
  (t = T_STOP -> c = mk_control T_STOP [] /\ whole_stream_received bi wanted max h) /\
  (g = true -> handed_out_r bi h t c).
Proof.
  intros C NO H. split.
  { intros ->. destruct H as [[? _]|[[_ H]|[[? _]|[? _]]]]; try discriminate.
    destruct (cj_stop _ _ _ _ _ _ _ C) as [E|[E W]]; rewrite H in E; [discriminate|]. injection E as ->. auto. }
  intros ->. destruct (cj_frames _ _ _ _ _ _ _ C NO eq_refl) as (rdy & st & F1 & F2 & F3).
  destruct H as [[-> H]|[[-> H]|[[-> H]|[-> H]]]].
  - rewrite H in F1. injection F1 as ->. repeat split; try discriminate. intros _. exists rdy. assumption.
  - destruct (cj_stop _ _ _ _ _ _ _ C) as [E|[E W]]; rewrite H in E; [discriminate|]. injection E as ->.
    repeat split; try discriminate.
  - destruct bi; [|destruct (cj_uni _ _ _ _ _ _ _ C eq_refl); congruence].
    destruct (F3 eq_refl) as (G1 & _). rewrite H in G1. injection G1 as ->.
    repeat split; try discriminate. intros _. eapply prefix_trans; [|exact F2]. apply prefix_app_r.
  - destruct bi; [|destruct (cj_uni _ _ _ _ _ _ _ C eq_refl); congruence].
    destruct (F3 eq_refl) as (_ & acts & ss & s' & G2 & G3). rewrite H in G2. injection G2 as ->.
    repeat split; try discriminate. intros _. eauto.
Qed.

Lemma reader_get_control_both o rw r fuel cs t tr xs c :
  fresh_rdwr rw -> reader_init o rw = Some r ->
  runs (rcalls_then_get fuel r cs t) tr (Done (xs, r_success, Some (Some c))) ->
  (t = T_STOP -> c = mk_control T_STOP [] /\ whole_stream_received (rw_has_write rw) (ro_cts o) (ro_max o) tr) /\
  (no_failed_reopen_r false true cs xs = true -> handed_out_r (rw_has_write rw) tr t c).
Proof.
  intros F H R. set (bi := rw_has_write rw).
  assert (W : wp (rcalls_then_get fuel r cs t) (fun h out => match out with
     | Done (xs, r_success, Some (Some c)) =>
        (t = T_STOP -> c = mk_control T_STOP [] /\ whole_stream_received bi (ro_cts o) (ro_max o) h) /\
        (no_failed_reopen_r false true cs xs = true -> handed_out_r bi h t c)
     | _ => True end) []).
  { unfold rcalls_then_get. apply wp_bind_i.
    eapply wp_rcalls_CJ; [apply RI_init; eassumption|apply CJ_init; eassumption|cbn;auto|cbn;auto|].
    intros h1 xs1 r1 ph1 s1 I1 C1. unfold bind_post. apply wp_bind_i. unfold reader_get_control. apply wp_bind_i.
    eapply wp_maybe_CJ; [exact I1|exact C1|cbn; auto| |].
    - intros h2 r2 ph2 I2 C2 NO. unfold bind_post at 1. cbn [res_eqb negb].
      pose proof (fun c => CJ_handed _ _ _ _ _ _ _ t c C2 NO) as HH.
      destruct (t =? FSTRM_CONTROL_START) eqn:E1; [apply N.eqb_eq in E1; cbn; destruct (r_start r2); auto|].
      destruct (t =? FSTRM_CONTROL_STOP) eqn:E2; [apply N.eqb_eq in E2; cbn; destruct (r_stop_c r2); auto 6|].
      destruct (t =? FSTRM_CONTROL_READY) eqn:E3; [apply N.eqb_eq in E3; cbn; destruct (r_ready r2); auto 7|].
      destruct (t =? FSTRM_CONTROL_ACCEPT) eqn:E4; [apply N.eqb_eq in E4; cbn; destruct (r_accept r2); auto 7|].
      cbn. auto.
    - intros h2 x r2 ph2 Hx I2 C2. unfold bind_post at 1. rewrite Writer2_proofs.ne_eqb by assumption. cbn.
      destruct x; auto; congruence. }
  exact (wp_runs _ _ W _ _ R).
Qed.

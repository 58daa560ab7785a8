(** The I/O thread is a client of the writer: its transport calls are those of
    some sequence of calls on the writer. *)
From Verif Require Import Bytes Spec Bytes_proofs Io Io_proofs SpecTrace SpecStream Control Control_proofs Rdwr Rdwr_proofs Writer Api SpecApi
  Writer_proofs Writer2_proofs Iothr SpecIothr SpecClient Iothr_proofs Iothr2_proofs Iothr3_proofs Iothr4_proofs Tools4_proofs.
Local Open Scope nat_scope.

Definition onw (e : event) : Prop := of_writer e = true.
Lemma tev_onw W e : tev W e -> onw e.
Proof. destruct e as [[] a]; cbn; unfold onw; cbn; tauto. Qed.
Lemma onw_part tr : Forall onw tr -> writer_part tr = tr.
Proof. induction 1 as [|e tr E F IH]; [reflexivity|]. unfold writer_part in *. cbn [filter]. rewrite E, IH. reflexivity. Qed.
Lemma part_app a b : writer_part (a ++ b) = writer_part a ++ writer_part b.
Proof. apply filter_app. Qed.
Lemma ntr_part e h : ntr e -> (forall n, fst e <> QIsoUb n) -> writer_part (h ++ [e]) = writer_part h.
Proof. intros N I. rewrite part_app. destruct e as [[] a]; cbn in N |- *; try contradiction; rewrite ?app_nil_r; try reflexivity. exfalso. eapply I. reflexivity. Qed.

Ltac evt := repeat first
  [ apply evp_ret | apply evp_fail | apply evp_if
  | apply evp_bind; [|intros [? ?]] | apply evp_bind; [|intros ?] ].
Lemma ow_close w : evp onw (writer_close w).
Proof. eapply evp_mono; [apply (tev_onw (fun _ => True))|]. apply ev_wclose. exact I. Qed.
Lemma ow_open w : evp onw (writer_open w).
Proof.
  intro h. eapply wp_mono; [|apply (ev_open (fun _ => True))]; [|auto]. intros h' o (tr & -> & [->|(hh & a & tr' & -> & F)]).
  - exists []. auto.
  - eexists. split; [reflexivity|]. constructor; [reflexivity|]. eapply Forall_impl; [|exact F]. intros. eapply tev_onw; eauto.
Qed.
Lemma ow_writev w ps : evp onw (writer_writev w ps).
Proof.
  unfold writer_writev. destruct ps as [|p0 ps0] eqn:EPS; [evt|]. rewrite <- EPS. clear.
  assert (WI : forall w iov, evp onw (write_iov w iov)).
  { intros. unfold write_iov. apply evp_if; [evt|]. apply evp_bind; [|intros [? ?]; evt]. eapply evp_mono; [apply (tev_onw (fun _ => True))|]. apply ev_write. exact I. }
  apply evp_bind.
  - unfold writer_maybe_open. destruct (w_state w); evt. apply ow_open.
  - intros [x w']. apply evp_if; [evt|]. destruct (w_state w'); try apply evp_ret. apply evp_if; [evt|]. apply evp_if; [apply WI|].
    unfold write_iov_stupid. cbv zeta. apply evp_if; [evt|].
    assert (G : forall c f w iov, evp onw (write_iov_stupid_loop f c w iov)); [|apply G].
    intros c. induction f as [|f IH]; intros w0 iov; cbn [write_iov_stupid_loop]; destruct iov; try (evt; fail).
    apply evp_bind; [apply WI|]. intros [? ?]. apply evp_if; [evt|]. apply IH.
Qed.
Lemma ow_destroy w : evp onw (writer_destroy w).
Proof.
  eapply evp_mono; [|apply (ev_wdestroy (fun _ => True)); exact I]. intros e [T|[h E]]; [eapply tev_onw; exact T|].
  destruct e as [q a]. cbn in E. subst q. reflexivity.
Qed.

Section Client.
Variable w0 : writer.
Variable opt : iothr_options.
Hypothesis size_small : (io_output_queue_size opt < 2 ^ 30)%N.

Definition CS (h : trace) (w : writer) : Prop :=
  exists cs rs, Forall wcall_ok cs /\ runs (do_wcalls w0 cs) (writer_part h) (Done (rs, w)).
Definition CM (h : trace) : Prop :=
  exists cs o, Forall wcall_ok cs /\ runs (do_wcalls w0 cs) (writer_part h) o.
Lemma CS_CM h w : CS h w -> CM h.
Proof. intros (cs & rs & F & R). exists cs, (Done (rs, w)). auto. Qed.

Definition called {A} (f : A -> writer) : post A := fun h' o =>
  match o with Done a => CS h' (f a) | _ => CM h' end.

Lemma cs_call c w h : CS h w -> wcall_ok c -> evp onw (do_wcall w c) -> wp (do_wcall w c) (called snd) h.
Proof.
  intros (cs & rs & F & R) OK E. apply wp_complete. intros tr o RT.
  assert (ET : writer_part (h ++ tr) = writer_part h ++ tr).
  { pose proof (wp_sound _ _ _ _ _ (E []) RT) as (tr' & EQ & FT). cbn in EQ. subst tr'. rewrite part_app, (onw_part _ FT). reflexivity. }
  assert (F' : Forall wcall_ok (cs ++ [c])) by (apply Forall_app; auto).
  destruct o as [[x w']|f|]; cbn [called snd]; unfold CS, CM; rewrite ET; exists (cs ++ [c]).
  - exists (rs ++ [x]). split; [exact F'|]. eapply do_wcalls_snoc; [exact R|]. rewrite <- (app_nil_r tr). eapply runs_bind_d; [exact RT|]. constructor.
  - exists (Stuck f). split; [exact F'|]. eapply do_wcalls_snoc; [exact R|]. apply runs_bind_s. exact RT.
  - exists Cut. split; [exact F'|]. eapply do_wcalls_snoc; [exact R|]. apply runs_bind_c. exact RT.
Qed.
Lemma cs_open w h : CS h w -> wp (writer_open w) (called snd) h.
Proof. intro C. apply (cs_call WOpen); auto; [reflexivity|apply ow_open]. Qed.
Lemma cs_close w h : CS h w -> wp (writer_close w) (called snd) h.
Proof. intro C. apply (cs_call WClose); auto; [reflexivity|apply ow_close]. Qed.
Lemma cs_writev w ps h : CS h w -> (lenN ps < 2 ^ 30)%N -> wp (writer_writev w ps) (called snd) h.
Proof. intros C L. apply (cs_call (WWritev ps)); auto. apply ow_writev. Qed.

(** ** The thread *)
Record VI (t : iothr) (h : trace) : Prop := {
  vi_w : CS h (t_writer t);
  vi_opt : t_opt t = opt;
  vi_len : (lenN (t_outq t) <= io_output_queue_size opt)%N }.
Definition vp {A} (f : A -> iothr) : post A := fun h' o =>
  match o with Done a => VI (f a) h' | _ => CM h' end.
Definition id_t (t : iothr) := t.

Lemma VI_CM t h : VI t h -> CM h.
Proof. intros []. eapply CS_CM; eassumption. Qed.
Lemma CS_ntr h w e : ntr e -> (forall n, fst e <> QIsoUb n) -> CS h w -> CS (h ++ [e]) w.
Proof. unfold CS. intros N I. rewrite ntr_part by assumption. auto. Qed.
Lemma VI_ntr t h e : ntr e -> (forall n, fst e <> QIsoUb n) -> VI t h -> VI t (h ++ [e]).
Proof. intros N I []. split; auto. apply CS_ntr; assumption. Qed.

Lemma vp_bind {A B} (f : A -> iothr) (g : B -> iothr) (p : io A) (k : A -> io B) h :
  wp p (vp f) h -> (forall a h', VI (f a) h' -> wp (k a) (vp g) h') -> wp (bind p k) (vp g) h.
Proof.
  intros P K. apply wp_bind_i. eapply wp_mono; [|exact P]. intros h' [a| |] X; cbn in X |- *; auto.
Qed.
Lemma vp_ret {A} (f : A -> iothr) a h : VI (f a) h -> wp (Ret a) (vp f) h.
Proof. intro V. exact V. Qed.
Lemma vp_fail {A} (f : A -> iothr) e h : CM h -> wp (Fail e) (vp f) h.
Proof. intro V. exact V. Qed.
(** A step that is not the writer's, [t] being the thread's state around it. *)
Definition only (t : iothr) {A} : post A := fun h' o => match o with Done _ => VI t h' | _ => CM h' end.
Lemma only_bind t {A B} (g : B -> iothr) (p : io A) (k : A -> io B) h :
  wp p (only t) h -> (forall a h', VI t h' -> wp (k a) (vp g) h') -> wp (bind p k) (vp g) h.
Proof. intros P K. apply wp_bind_i. eapply wp_mono; [|exact P]. intros h' [a| |] X; cbn in X |- *; auto. Qed.
Lemma only_ask t {A} q (k : ans -> io A) h : VI t h -> (forall a, ntr (q, a)) -> (forall n, q <> QIsoUb n) ->
  (forall a h', VI t h' -> wp (k a) (only t) h') -> wp (Vis q k) (only t) h.
Proof. intros V N I K. cbn. split; [eapply VI_CM, V|]. intros a _. apply K. apply VI_ntr; auto. Qed.
Lemma only_free_bytes t e h : VI t h -> wp (free_bytes e) (only t) h.
Proof.
  intro V. unfold free_bytes. destruct (e_free e); [|exact V].
  apply only_ask; [exact V|intro; exact I|discriminate|]. intros [] h' V'; try exact V'; eapply VI_CM; exact V'.
Qed.
Lemma only_free_all t es : forall h, VI t h -> wp (free_all es) (only t) h.
Proof.
  induction es as [|e es IH]; intros h V; cbn [free_all]; [exact V|]. apply wp_bind_i.
  eapply wp_mono; [|apply only_free_bytes; exact V]. intros h' [a| |] X; cbn in X |- *; auto.
Qed.

Lemma v_close t h : VI t h -> wp (iothr_close t) (vp id_t) h.
Proof.
  intros [VW VO VL]. unfold iothr_close. destruct (t_opened t); [|split; assumption].
  apply wp_bind_i. eapply wp_mono; [|apply cs_close; exact VW]. intros h' [[x w']| |] X; cbn in X |- *; auto. split; assumption.
Qed.
Lemma v_flush t h : VI t h -> wp (flush_output t) (vp id_t) h.
Proof.
  intros V. unfold flush_output. apply vp_bind with (f := id_t).
  - destruct (_ && _); [|exact V]. apply wp_bind_i. pose proof V as [VW VO VL].
    eapply wp_mono; [|apply cs_writev; [exact VW|]].
    + intros h' [[x w']| |] X; cbn in X |- *; auto. assert (V' : VI (t_set_writer t w') h') by (split; assumption).
      destruct (negb _); [apply v_close; exact V'|exact V'].
    + unfold lenN in *. rewrite map_length. lia.
  - intros t1 h1 V1. unfold id_t in V1. apply only_bind with (t := t1); [apply only_free_all; exact V1|].
    intros _ h2 [VW VO VL]. split; auto. cbn. lia.
Qed.
Lemma v_maybe_flush t n h : VI t h -> wp (maybe_flush_output t n) (vp id_t) h.
Proof.
  intro V. unfold maybe_flush_output. destruct (_ <? _)%N; [eapply VI_CM; exact V|]. destruct (t_outq t); [exact V|].
  destruct (_ || _); [apply v_flush|]; exact V.
Qed.
Lemma v_entry t e h : VI t h -> wp (process_queue_entry t e) (vp id_t) h.
Proof.
  intro V. unfold process_queue_entry. destruct (t_opened t).
  - cbv zeta. apply vp_bind with (f := id_t); [apply v_maybe_flush; exact V|]. intros t1 h1 V1. unfold id_t in V1.
    destruct (_ <=? _)%N eqn:E; [eapply VI_CM; exact V1|]. destruct V1 as [VW VO VL]. split; auto. cbn.
    apply N.leb_gt in E. rewrite VO in E. unfold lenN in *. rewrite app_length. cbn [length]. lia.
  - apply only_bind with (t := t); [apply only_free_bytes; exact V|]. intros _ h1 V1. exact V1.
Qed.
Lemma v_queues n : forall i t tot h, VI t h -> wp (process_queues_from n i t tot) (vp snd) h.
Proof.
  induction n as [|n IH]; intros i t tot h V; cbn [process_queues_from]; [exact V|].
  apply only_bind with (t := t).
  - apply only_ask; [exact V|intro; exact I|discriminate|]. intros [] h' V'; try exact V'; eapply VI_CM; exact V'.
  - intros [e|] h1 V1; [|apply IH; exact V1]. apply vp_bind with (f := id_t); [apply v_entry; exact V1|]. intros t2 h2 V2. apply IH. exact V2.
Qed.
Lemma v_drain fuel : forall t h, VI t h -> wp (drain fuel t) (vp id_t) h.
Proof.
  induction fuel as [|fuel IH]; intros t h V; cbn [drain]; [eapply VI_CM; exact V|].
  apply vp_bind with (f := snd); [apply v_queues; exact V|]. intros [n t1] h1 V1. destruct (n =? 0)%N; [exact V1|]. apply IH. exact V1.
Qed.
Lemma v_maybe_open t h : VI t h -> wp (maybe_open t) (vp id_t) h.
Proof.
  intro V. unfold maybe_open. destruct (t_opened t); [exact V|]. apply only_bind with (t := t).
  - apply only_ask; [exact V|intro; exact I|discriminate|]. intros [] h' V'; try exact V'; eapply VI_CM; exact V'.
  - intros now h1 V1. destruct (_ <? _)%Z; [exact V1|]. unfold iothr_open. apply wp_bind_i. destruct V1 as [VW VO VL].
    eapply wp_mono; [|apply cs_open; exact VW]. intros h' [[x w']| |] X; cbn in X |- *; auto. split; assumption.
Qed.
Lemma v_loop dfuel fuel : forall t h, VI t h -> wp (thr_loop fuel dfuel t) (vp id_t) h.
Proof.
  induction fuel as [|fuel IH]; intros t h V; cbn [thr_loop]; [eapply VI_CM; exact V|].
  apply only_bind with (t := t).
  { apply only_ask; [exact V|intro; exact I|discriminate|]. intros [] h' V'; try exact V'; eapply VI_CM; exact V'. }
  intros [] h1 V1.
  - apply vp_bind with (f := id_t); [apply v_drain; exact V1|]. intros t2 h2 V2.
    apply vp_bind with (f := id_t); [apply v_flush; exact V2|]. intros t3 h3 V3. apply v_close. exact V3.
  - apply vp_bind with (f := id_t); [apply v_maybe_open; exact V1|]. intros t2 h2 V2.
    apply vp_bind with (f := snd); [apply v_queues; exact V2|]. intros [n t3] h3 V3. cbn [snd] in V3.
    destruct (negb _); [apply IH; exact V3|]. apply only_bind with (t := t3).
    { apply only_ask; [exact V3|intro; exact I|discriminate|]. intros [] h' V'; try exact V'; eapply VI_CM; exact V'. }
    intros _ h4 V4. apply only_bind with (t := t3).
    { apply only_ask; [exact V4|intro; exact I|discriminate|]. intros [] h' V'; try exact V'; eapply VI_CM; exact V'. }
    intros [] h5 V5; [|apply IH; exact V5]. apply vp_bind with (f := id_t); [apply v_flush; exact V5|]. intros t6 h6 V6. apply IH. exact V6.
Qed.
Lemma v_thr fuel dfuel t h : VI t h -> wp (iothr_thr fuel dfuel t) (vp id_t) h.
Proof.
  intro V. unfold iothr_thr. apply vp_bind with (f := id_t); [apply v_maybe_open; exact V|]. intros t1 h1 V1. apply v_loop. exact V1.
Qed.

(** ** After the thread *)
Definition CL (h : trace) (o : out (list res * res)) : Prop :=
  exists cs, Forall wcall_ok cs /\ runs (writer_life w0 cs) (writer_part h) o.

Lemma CM_CL h : CM h -> exists o, CL h o.
Proof.
  intros (cs & o & F & R). destruct o as [[rs w]|f|].
  - destruct (writer_destroy w) as [a|f|q k] eqn:E.
    + exists (Done (rs, a)), cs. split; [exact F|]. unfold writer_life. rewrite <- (app_nil_r (writer_part h)).
      eapply runs_bind_d; [exact R|]. cbn beta iota. rewrite E. constructor.
    + exists (Stuck f), cs. split; [exact F|]. unfold writer_life. rewrite <- (app_nil_r (writer_part h)).
      eapply runs_bind_d; [exact R|]. cbn beta iota. rewrite E. constructor.
    + exists Cut, cs. split; [exact F|]. unfold writer_life. rewrite <- (app_nil_r (writer_part h)).
      eapply runs_bind_d; [exact R|]. cbn beta iota. rewrite E. constructor.
  - exists (Stuck f), cs. split; [exact F|]. unfold writer_life. apply runs_bind_s. exact R.
  - exists Cut, cs. split; [exact F|]. unfold writer_life. apply runs_bind_c. exact R.
Qed.

Definition ended (h : trace) : Prop := exists rs x, CL h (Done (rs, x)).
Lemma cl_destroy w h : CS h w -> wp (writer_destroy w) (fun h' o => match o with Done _ => ended h' | _ => exists o, CL h' o end) h.
Proof.
  intros (cs & rs & F & R). apply wp_complete. intros tr o RT.
  assert (ET : writer_part (h ++ tr) = writer_part h ++ tr).
  { pose proof (wp_sound _ _ _ _ _ (ow_destroy w []) RT) as (tr' & EQ & FT). cbn in EQ. subst tr'. rewrite part_app, (onw_part _ FT). reflexivity. }
  destruct o as [x|f|]; unfold ended, CL; rewrite ET.
  - exists rs, x, cs. split; [exact F|]. unfold writer_life. eapply runs_bind_d; [exact R|]. cbn beta iota.
    rewrite <- (app_nil_r tr). eapply runs_bind_d; [exact RT|]. constructor.
  - exists (Stuck f), cs. split; [exact F|]. unfold writer_life. eapply runs_bind_d; [exact R|]. cbn beta iota. apply runs_bind_s. exact RT.
  - exists Cut, cs. split; [exact F|]. unfold writer_life. eapply runs_bind_d; [exact R|]. cbn beta iota. apply runs_bind_c. exact RT.
Qed.

Lemma ended_ntr h e : ntr e -> (forall n, fst e <> QIsoUb n) -> ended h -> ended (h ++ [e]).
Proof. unfold ended, CL. intros N I. rewrite ntr_part by assumption. auto. Qed.
Definition endp {A} : post A := fun h' _ => ended h'.
Lemma endp_bind {A B} (p : io A) (k : A -> io B) h : wp p endp h -> (forall a h', ended h' -> wp (k a) endp h') -> wp (bind p k) endp h.
Proof. intros P K. apply wp_bind_i. eapply wp_mono; [|exact P]. intros h' [a| |] X; unfold endp, bind_post in *; auto. Qed.
Lemma endp_ask {A} q (k : ans -> io A) h : ended h -> (forall a, ntr (q, a)) -> (forall n, q <> QIsoUb n) ->
  (forall a h', ended h' -> wp (k a) endp h') -> wp (Vis q k) endp h.
Proof. intros V N I K. cbn. split; [exact V|]. intros a _. apply K. apply ended_ntr; auto. Qed.
Lemma e_free_queue i fuel : forall h, ended h -> wp (free_queue fuel i) endp h.
Proof.
  induction fuel as [|fuel IH]; intros h E; cbn [free_queue]; [exact E|]. apply endp_bind.
  - apply endp_ask; [exact E|intro; exact I|discriminate|]. intros [] h' E'; exact E'.
  - intros [e|] h1 E1; [|exact E1]. apply endp_bind; [|intros _ h2 E2; apply IH; exact E2].
    unfold free_bytes. destruct (e_free e); [|exact E1]. apply endp_ask; [exact E1|intro; exact I|discriminate|]. intros [] h' E'; exact E'.
Qed.
Lemma e_free_queues dfuel n : forall i h, ended h -> wp (free_queues n i dfuel) endp h.
Proof.
  induction n as [|n IH]; intros i h E; cbn [free_queues]; [exact E|]. apply endp_bind; [apply e_free_queue; exact E|].
  intros _ h1 E1. apply IH. exact E1.
Qed.

Lemma v_life fuel dfuel t h : VI t h ->
  wp (iothr_life fuel dfuel t) (fun h' o => match o with Done _ => ended h' | _ => exists o, CL h' o end) h.
Proof.
  intro V. unfold iothr_life. apply wp_bind_i. eapply wp_mono; [|apply v_thr; exact V].
  intros h1 [t1| |] X; cbn [vp bind_post] in *; try (apply CM_CL; exact X). apply wp_bind_i. destruct X as [VW _ _].
  eapply wp_mono; [|apply cl_destroy; exact VW]. intros h2 [x| |] Y; cbn [bind_post]; auto.
  eapply wp_mono; [|apply e_free_queues; exact Y]. intros h3 [u| |] Z; unfold endp in Z; auto;
    destruct Z as (rs & y & Z); eauto.
Qed.
End Client.

Lemma thread_is_client iov_max cts rw t fuel dfuel tr o :
  created iov_max cts rw t -> runs (iothr_life fuel dfuel t) tr o ->
  exists iovm w cs o', (0 < iovm) /\ writer_init iovm cts rw = Some w /\ Forall wcall_ok cs /\
    runs (writer_life w cs) (writer_part tr) o' /\ (o = Done tt -> exists rs x, o' = Done (rs, x)).
Proof.
  intros C R. destruct C as (FR & IOV & iovm & w & oopt & Hi & Hw & Ho & Ht).
  assert (G : t_writer t = w /\ t_outq t = [] /\ (io_output_queue_size (t_opt t) < 2 ^ 30)%N).
  { pose proof (created_ok (fun r => res_eqb r r_success) iov_max cts rw t eq_refl (conj FR (conj IOV (ex_intro _ iovm (ex_intro _ w (ex_intro _ oopt (conj Hi (conj Hw (conj Ho Ht))))))))) as (_ & _ & SZ & _).
    unfold iothr_init in Ht. cbv zeta in Ht. cbn [negb] in Ht. destruct (_ && _)%bool; [discriminate|].
    assert (E : forall a b : iothr, Ok a = Ok b -> a = b) by congruence. apply E in Ht. rewrite <- Ht at 1 2. split; [reflexivity|]. split; [reflexivity|exact SZ]. }
  destruct G as (EW & EQ & SZ).
  assert (V : VI w (t_opt t) t []).
  { split; [|reflexivity|rewrite EQ; apply N.le_0_l]. rewrite EW. exists [], []. split; [constructor|]. constructor. }
  pose proof (wp_runs _ _ (v_life w (t_opt t) SZ fuel dfuel t [] V) _ _ R) as K. cbn beta in K.
  exists iovm, w. destruct o as [[]|f|].
  - destruct K as (rs & x & cs & F & RR). exists cs, (Done (rs, x)). repeat (split; [assumption|]). eauto.
  - destruct K as (o' & cs & F & RR). exists cs, o'. repeat (split; [assumption|]). discriminate.
  - destruct K as (o' & cs & F & RR). exists cs, o'. repeat (split; [assumption|]). discriminate.
Qed.

(** An I/O thread and a capture server together: the results. *)
From Coq Require Import ZArith Lia.
From Verif Require Import Bytes Spec Bytes_proofs Io Io_proofs SpecTrace SpecStream
  Control Control_proofs Rdwr Rdwr_proofs Writer Api SpecApi Writer_proofs Writer2_proofs SpecDeliver SpecPair Pair PairBounded Pair_proofs
  Capture SpecCapture Capture_proofs Capture2_proofs Capture3_proofs Capture4_proofs Capture5_proofs Capture7_proofs Capture8_proofs Deliver_proofs
  Pair2_proofs Pair3_proofs PairBounded_proofs
  Iothr SpecIothr SpecClient Iothr_proofs Iothr2_proofs Iothr3_proofs Iothr4_proofs Iothr7_proofs PairReplay_proofs
  PairThread SpecPairThread PairThread_proofs PairThread2_proofs.
Import ListNotations.
Local Open Scope N_scope.

Section Together.
Variables (iov_max : N) (cts : list bytes) (rw : rdwr) (t : iothr) (e : env) (a : args) (m cap : N) (qcap : nat) (up : Z) (H : list ev) (c : ctx)
  (fuel dfuel : nat).
Hypothesis TM : thread_met iov_max cts rw t e a m up H c.
Notation runs_to := (t_run e a m cap qcap (queues t) up (t_meet fuel dfuel t H c)).
Notation Q := (ended_ok cts (a_ctype a) (t_opt t)).
Notation V := (TV cts e a m cap qcap (queues t) up (iothr_life fuel dfuel t) Q).

Lemma th_fits : fits true T_READY cts.
Proof. split; [apply TM|]. pose proof (th_ready _ _ _ _ _ _ _ _ _ _ TM) as L. change (lenN (ready_frame cts) <= 512). lia. Qed.

Lemma start_life : wpe cts (a_ctype a) up (iothr_life fuel dfuel t) Q [].
Proof.
  pose proof (th_created _ _ _ _ _ _ _ _ _ _ TM) as CR.
  destruct (created_ok (fun _ => true) _ _ _ _ eq_refl CR) as (_ & S1 & S2 & _ & _ & _).
  destruct CR as ([F1 F2 F3 F4] & IM & iovm & w & oopt & Hi & Hw & OO & HI).
  assert (HT : t = mk_iothr (t_opt t) w false 0 [] 0).
  { unfold iothr_init in HI. cbv zeta in HI. cbn [negb] in HI. destruct (_ && _)%bool; [discriminate|]. injection HI as <-. reflexivity. }
  apply e_life; try (rewrite HT; reflexivity); try apply TM; auto; [apply th_fits|].
  rewrite HT. cbn [t_writer]. unfold writer_init in Hw. destruct (rw_has_write rw) eqn:E6; [|discriminate]. injection Hw as <-.
  split; [split; auto; apply TM|]. split; [reflexivity|]. split; [exact F1|]. exists [], []. split; auto. discriminate.
Qed.

Lemma run_V x : runs_to x -> V x.
Proof.
  pose proof TM as [T1 T2 T3 T4 T5 T6 T7 T8 T9 T10 T11]. pose proof th_fits.
  intro R. eapply V_run; try eassumption. apply V_start; auto. exact start_life.
Qed.

Lemma thread_system x : runs_to x ->
  (forall f, tj_prog x = Fail f -> f = FFuel) /\ Forall ev_ok (thread_of (tj_hist x)) /\
  (tj_prog x <> Fail FFuel -> system qcap fuel dfuel t (tj_hist x) (tj_sys x) (thread_out x)).
Proof.
  intro R. apply run_V in R. split; [|split; [apply R|]].
  - intros f E. pose proof (V_wpe _ _ _ _ _ _ _ _ _ _ _ R) as W. rewrite E in W. exact W.
  - intro NF. split; [apply R|]. split; [|split; [|apply R]].
    + rewrite <- (app_nil_r (thread_of _)). apply (V_runs _ _ _ _ _ _ _ _ _ _ _ R). unfold thread_out. destruct (tj_prog x); constructor.
    + unfold thread_out. destruct (tj_prog x); try discriminate. intros [= ->]. apply NF. reflexivity.
Qed.

Lemma thread_stores x hA hB sA : runs_to x -> tj_prog x = Ret tt ->
  tj_hist x = hA ++ S_shutdown :: hB -> ~ In S_shutdown hA -> sys_run qcap sys_init hA = Some sA -> (forall i, s_pending sA i = []) ->
  exists W i, in_queue_order (SpecIothr.accepted hA) W (SpecIothr.accepted (tj_hist x)) /\
    let j := b_joint (tj_net x) in
    In i (map fst (j_past j)) /\
    SpecCapture.received i (j_hist j) = ready_frame cts ++ start_frame (hd_error cts) ++ datas (payloads W) ++ stop_frame /\
    stores (acts_of i (x_log (j_srv j))) = map data_frame (fit a (payloads W)).
Proof.
  pose proof TM as [T1 T2 T3 T4 T5 T6 T7 T8 T9 T10 T11]. pose proof th_fits as TF.
  intros R E EH NS RA PA. apply run_V in R. pose proof (V_wpe _ _ _ _ _ _ _ _ _ _ _ R) as W. rewrite E in W. cbn [wpe] in W.
  destruct W as (l1 & l2 & tail & [X1 X2 (X3 & X4)]). set (W := removed (l1 ++ (QShutting, ABool true) :: l2)) in *.
  destruct (V_K _ _ _ _ _ _ _ _ _ _ _ R) as (p0 & VK).
  assert (I : J cts e a ans p0 (QT a (tj_prog x) (calls_of (tj_net x))) m (b_joint (skel (tj_net x)))).
  { apply (K_end cts e a) with (cap := cap); auto. unfold skel, prog. fold (tj_prog x). rewrite E. discriminate. }
  assert (A : At (j_tr (b_joint (skel (tj_net x)))) (HEAD cts ++ datas (payloads W) ++ stop_frame) (SCRIPT (a_ctype a)) false).
  { change (j_tr (b_joint (skel (tj_net x)))) with (calls_of (tj_net x)). rewrite (V_tr _ _ _ _ _ _ _ _ _ _ _ R). exact X4. }
  destruct (J_stored _ _ _ _ _ _ _ _ (payloads W) T4 TF T6 T7 T8 T9 X3 I A) as (i & Y1 & Y2 & Y3).
  exists W, i. split.
  - pose proof (V_sys _ _ _ _ _ _ _ _ _ _ _ R) as RS. pose proof (V_acc _ _ _ _ _ _ _ _ _ _ _ R) as F.
    destruct (sys_content qcap _ _ _ [] RS) as (rest & _ & _ & Q0); [intro; reflexivity|].
    intro k. split.
    + destruct (Nat.lt_ge_cases k (queues t)) as [Hk|Hk].
      * destruct (taken_by_drain qcap _ _ l1 l2 tail (queues t) k hA hB sA RS X1 X2 Hk EH NS RA (PA k)) as (u & X). exists u. exact X.
      * exists (of_queue k W). replace (of_queue k (SpecIothr.accepted hA)) with (@nil entry); [reflexivity|]. symmetry. rewrite EH, accepted_app in F. apply Forall_app in F as [F _].
        clear - F Hk. induction F as [|[u x] l Hu F IH]; [reflexivity|]. rewrite of_queue_cons. cbn in Hu. destruct (Nat.eqb_spec u k); [lia|assumption].
    + exists (of_queue k (removed tail) ++ of_queue k rest). rewrite Q0, X1.
      change (l1 ++ (QShutting, ABool true) :: l2 ++ tail) with (l1 ++ ((QShutting, ABool true) :: l2) ++ tail).
      rewrite app_assoc, removed_app, of_queue_app. fold W. cbn [of_queue app]. rewrite app_assoc. reflexivity.
  - cbv zeta. split; [exact Y1|]. split; [|exact Y3]. change (j_hist (b_joint (tj_net x))) with (j_hist (b_joint (skel (tj_net x)))).
    rewrite Y2. unfold HEAD. rewrite <- app_assoc. reflexivity.
Qed.

Lemma thread_in_files x hA hB sA c' : runs_to x -> tj_prog x = Ret tt ->
  tj_hist x = hA ++ S_shutdown :: hB -> ~ In S_shutdown hA -> sys_run qcap sys_init hA = Some sA -> (forall i, s_pending sA i = []) ->
  shutdown e (j_srv (b_joint (tj_net x))) = Go c' ->
  exists W files, in_queue_order (SpecIothr.accepted hA) W (SpecIothr.accepted (tj_hist x)) /\
    map snd (x_outs c') = map (fun bs => start_frame (Some (a_ctype a)) ++ concat bs ++ stop_frame) files /\
    subseq (map data_frame (fit a (payloads W))) (concat files).
Proof.
  intros R E EH NS RA PA SH. destruct (thread_stores x hA hB sA R E EH NS RA PA) as (W & i & O & _ & _ & S).
  pose proof TM as [T1 T2 T3 T4 T5 T6 T7 T8 T9 T10 T11]. pose proof th_fits as TF.
  assert (RE : reach e a (j_hist (b_joint (tj_net x))) (j_srv (b_joint (tj_net x)))).
  { apply run_V in R. destruct (V_K _ _ _ _ _ _ _ _ _ _ _ R) as (p0 & VK). exact (busy_reach cts e a T4 TF T6 T7 T8 T9 _ _ _ m cap _ VK). }
  destruct (any_files _ _ _ _ _ RE SH) as (files & E1 & E2 & _). exists W, files. split; [exact O|]. split; [exact E1|].
  rewrite E2, <- S. apply stores_stored.
Qed.

Lemma thread_progress x : output_works e -> 1 <= m -> m + 7 < capture_highwater a -> 1 <= cap -> runs_to x ->
  tj_prog x = Ret tt \/ tj_prog x = Fail FFuel \/ (exists x', t_thread qcap cap up x x') \/
  (exists v x', its_own (b_joint (tj_net x)) v /\ t_server e a m v x x') \/
  (exists i, j_id (b_joint (tj_net x)) = Some i /\ ~ SpecCapture.accepted i (j_hist (b_joint (tj_net x))) /\
     (0 < a_conns a)%Z /\ (a_conns a <= Z.of_nat (length (x_conns (j_srv (b_joint (tj_net x))))))%Z).
Proof.
  pose proof TM as [T1 T2 T3 T4 T5 T6 T7 T8 T9 T10 T11]. pose proof th_fits as TF.
  intros OW M1 M2 C1 R. apply run_V in R. eapply V_progress; eassumption.
Qed.

Lemma left_run x x' : t_left e a m cap qcap up x x' -> runs_to x -> runs_to x'.
Proof. intros L R. induction L; [exact R|eapply tr_thread; eauto|eapply tr_server; eauto]. Qed.
Lemma left_hist x x' : t_left e a m cap qcap up x x' -> exists l, tj_hist x' = tj_hist x ++ map S_thr l.
Proof.
  intro L. induction L as [|y y' L (l & E) M|y v y' L (l & E) O M]; [exists []; cbn; rewrite app_nil_r; reflexivity| |].
  - destruct M as [b b' h s evs M ET|b h s q k an s' EP EO OK CK SS]; cbn [tj_hist] in *; subst h.
    + exists (l ++ evs). rewrite map_app, app_assoc. reflexivity.
    + exists (l ++ [(q, an)]). rewrite map_app, app_assoc. reflexivity.
  - destruct M as [b b' h s u M]. cbn [tj_hist] in *. subst h. exists l. reflexivity.
Qed.

Lemma thread_finishes x hA hB : output_works e -> 1 <= m -> m + 7 < capture_highwater a -> 1 <= cap -> (a_conns a <= 0)%Z -> runs_to x ->
  tj_hist x = hA ++ S_shutdown :: hB -> (length (thread_of hA) < fuel)%nat -> (length (SpecIothr.accepted (tj_hist x)) < dfuel)%nat ->
  exists x', t_left e a m cap qcap up x x' /\ tj_prog x' = Ret tt.
Proof.
  pose proof TM as [T1 T2 T3 T4 T5 T6 T7 T8 T9 T10 T11]. pose proof th_fits as TF.
  intros OW M1 M2 C1 NL R EH LF LD.
  destruct (V_finishes cts e a T4 TF T6 T7 T8 T9 m cap qcap (queues t) up (iothr_life fuel dfuel t) Q OW M1 M2 C1 NL _ x (run_V x R) eq_refl) as (x' & L & [E|E]); [eauto|].
  exfalso. pose proof (run_V _ (left_run _ _ L R)) as V'. destruct (left_hist _ _ L) as (l & EL).
  pose proof (V_sys _ _ _ _ _ _ _ _ _ _ _ V') as RS. rewrite EL, EH, <- app_assoc in RS. cbn [app] in RS.
  refine (life_terminates _ _ _ _ qcap fuel dfuel _ _ _ (Stuck FFuel) T1 RS _ LF _ FFuel eq_refl).
  - replace (hA ++ S_shutdown :: hB ++ map S_thr l) with (tj_hist x') by (rewrite EL, EH, <- app_assoc; reflexivity).
    rewrite <- (app_nil_r (thread_of _)). apply (V_runs _ _ _ _ _ _ _ _ _ _ _ V'). rewrite E. constructor.
  - replace (hA ++ S_shutdown :: hB ++ map S_thr l) with (tj_hist x ++ map S_thr l) by (rewrite EH, <- app_assoc; reflexivity).
    rewrite accepted_thr. exact LD.
Qed.

(** ** The end is reached whatever happens *)
Definition asked (x : tjoint) : Prop :=
  runs_to x /\ (exists hA hB, tj_hist x = hA ++ S_shutdown :: hB /\ (length (thread_of hA) < fuel)%nat) /\
  (length (SpecIothr.accepted (tj_hist x)) < dfuel)%nat.
Lemma asked_fuel x : asked x -> tj_prog x <> Fail FFuel.
Proof.
  pose proof TM as [T1 T2 T3 T4 T5 T6 T7 T8 T9 T10 T11].
  intros (R & (hA & hB & EH & LF) & LD) E. pose proof (run_V _ R) as V'.
  pose proof (V_sys _ _ _ _ _ _ _ _ _ _ _ V') as RS. rewrite EH in RS.
  refine (life_terminates _ _ _ _ qcap fuel dfuel _ _ _ (Stuck FFuel) T1 RS _ LF _ FFuel eq_refl).
  - rewrite <- EH. rewrite <- (app_nil_r (thread_of _)). apply (V_runs _ _ _ _ _ _ _ _ _ _ _ V'). rewrite E. constructor.
  - rewrite <- EH. exact LD.
Qed.
Lemma asked_more x x' evs : asked x -> runs_to x' -> tj_hist x' = tj_hist x ++ evs ->
  SpecIothr.accepted (tj_hist x') = SpecIothr.accepted (tj_hist x) -> asked x'.
Proof.
  intros (R & (hA & hB & EH & LF) & LD) R' E EA. split; [exact R'|]. split; [|rewrite EA; exact LD].
  exists hA, (hB ++ evs). split; [|exact LF]. rewrite E, EH, <- app_assoc. reflexivity.
Qed.
Lemma asked_thread x x' : asked x -> t_thread qcap cap up x x' -> asked x'.
Proof.
  intros A M. assert (R : runs_to x') by (eapply tr_thread; [apply A|exact M]).
  destruct M as [b b' h s evs W ET|b h s q k an s' EP EO OK CK SS].
  - eapply asked_more; [exact A|exact R|reflexivity|]. cbn [tj_hist]. apply accepted_thr.
  - eapply asked_more; [exact A|exact R|reflexivity|]. cbn [tj_hist]. apply (accepted_thr h [(q, an)]).
Qed.
Lemma asked_server x v x' : asked x -> t_server e a m v x x' -> asked x'.
Proof.
  intros A M. assert (R : runs_to x') by (eapply tr_server; [apply A|exact M]).
  destruct M as [b b' h s v W]. eapply (asked_more _ _ []); [exact A|exact R|cbn; rewrite app_nil_r; reflexivity|reflexivity].
Qed.
Lemma asked_users x x' : asked x -> t_users qcap (queues t) x x' -> SpecIothr.accepted (tj_hist x') = SpecIothr.accepted (tj_hist x) -> asked x'.
Proof.
  intros A M EA. assert (R : runs_to x') by (eapply tr_users; [apply A|exact M]).
  destruct M as [b h s u s' UE SS]. eapply asked_more; [exact A|exact R|reflexivity|exact EA].
Qed.

Lemma thread_ends x hA hB : output_works e -> 1 <= m -> m + 7 < capture_highwater a -> 1 <= cap -> (a_conns a <= 0)%Z -> runs_to x ->
  tj_hist x = hA ++ S_shutdown :: hB -> (length (thread_of hA) < fuel)%nat -> (length (SpecIothr.accepted (tj_hist x)) < dfuel)%nat ->
  t_ends e a m cap qcap (queues t) up x.
Proof.
  pose proof TM as [T1 T2 T3 T4 T5 T6 T7 T8 T9 T10 T11]. pose proof th_fits as TF.
  intros OW M1 M2 C1 NL R EH LF LD. assert (A : asked x) by (split; [exact R|]; split; [eauto|exact LD]). clear R EH LF LD.
  remember (tj_prog x) as p eqn:E. symmetry in E. revert x A E. induction p as [r|f|q k IH]; intros x A E.
  - apply en_now. destruct r. exact E.
  - exfalso. assert (f = FFuel) by (eapply thread_system; [apply A|exact E]). subst f. exact (asked_fuel x A E).
  - remember (Datatypes.S (left_of a x)) as N eqn:EN. assert (L : (left_of a x < N)%nat) by lia. clear EN. revert x A E L.
    induction N as [|N IN]; intros x A E L; [lia|]. apply en_later. intros y TE.
    assert (B : asked y /\ tj_prog y = Vis q k /\ (left_of a y <= left_of a x)%nat).
    { clear IN. induction TE as [|y v y' TE (B1 & B2 & B3) NO M|y y' TE (B1 & B2 & B3) M EA]; [auto| |].
      - destruct (server_shrinks cts e a T4 TF T6 T7 T8 T9 m cap qcap (queues t) up (iothr_life fuel dfuel t) Q OW M1 M2 C1 y v y' (run_V _ (proj1 B1)) M) as (X1 & X2 & _).
        split; [eapply asked_server; eassumption|]. split; [congruence|lia].
      - split; [eapply asked_users; eassumption|]. destruct M as [b h s u s' UE SS]. split; [exact B2|exact B3]. }
    destruct B as (B1 & B2 & B3). split.
    + destruct (thread_progress y OW M1 M2 C1 (proj1 B1)) as [X|[X|[(y' & X)|[(v & y' & X1 & X2)|(i & _ & _ & X & _)]]]]; try congruence; try lia.
      * exists y'. left. exact X.
      * exists y'. right. eauto.
    + intros y' [M|(v & O & M)].
      * destruct (thread_shrinks cts e a T4 TF T6 T7 T8 T9 m cap qcap (queues t) up (iothr_life fuel dfuel t) Q OW M1 M2 C1 y y' q k (run_V _ (proj1 B1)) M B2) as [(an & X)|(X1 & X2)].
        -- apply (IH an); [eapply asked_thread; eassumption|exact X].
        -- apply IN; [eapply asked_thread; eassumption|exact X1|lia].
      * destruct (server_shrinks cts e a T4 TF T6 T7 T8 T9 m cap qcap (queues t) up (iothr_life fuel dfuel t) Q OW M1 M2 C1 y v y' (run_V _ (proj1 B1)) M) as (X1 & _ & X2).
        specialize (X2 O). apply IN; [eapply asked_server; eassumption|congruence|lia].
Qed.
End Together.

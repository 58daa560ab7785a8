(** An I/O thread and a capture server together: what has been stored at any time. *)
From Coq Require Import ZArith Lia Permutation.
From Verif Require Import Bytes Spec Bytes_proofs Io Io_proofs SpecTrace SpecStream
  Control Control_proofs Rdwr Rdwr_proofs Writer Api SpecApi Writer_proofs Writer2_proofs SpecDeliver SpecPair Pair PairBounded Pair_proofs
  Capture SpecCapture Capture_proofs Capture2_proofs Capture3_proofs Capture4_proofs Capture5_proofs Capture7_proofs Capture8_proofs Deliver_proofs
  Deliver3_proofs Stdio2_proofs Pair2_proofs Pair3_proofs PairBounded_proofs
  Iothr SpecIothr SpecClient Iothr_proofs Iothr2_proofs Iothr3_proofs Iothr4_proofs Iothr7_proofs PairReplay_proofs
  PairThread SpecPairThread PairThread_proofs PairThread2_proofs PairThread3_proofs.
Import ListNotations.
Local Open Scope N_scope.

(** ** Streams are read in one way *)
Lemma app_len_inj {A} (a b c d : list A) : length a = length c -> a ++ b = c ++ d -> a = c /\ b = d.
Proof.
  revert c. induction a as [|x a IH]; destruct c as [|y c]; intros L E; try discriminate L; [auto|].
  injection E as -> E. injection L as L. destruct (IH c L E) as [-> ->]. auto.
Qed.
Lemma data_first p q A B : lenN p < 2 ^ 32 -> lenN q < 2 ^ 32 -> data_frame p ++ A = data_frame q ++ B -> p = q /\ A = B.
Proof.
  intros LP LQ E. unfold data_frame in E. rewrite <- !app_assoc in E.
  apply app_len_inj in E as [E1 E2]; [|reflexivity]. apply be32_inj in E1; [|assumption..].
  apply app_len_inj in E2; [exact E2|]. unfold lenN in E1. lia.
Qed.
Lemma ctl_first t1 c1 t2 c2 A B : lenN (ctl_payload t1 c1) < 2 ^ 32 -> lenN (ctl_payload t2 c2) < 2 ^ 32 ->
  ctl_frame t1 c1 ++ A = ctl_frame t2 c2 ++ B -> A = B.
Proof.
  intros L1 L2 E. unfold ctl_frame in E. rewrite <- !app_assoc in E. apply app_inv_head in E.
  apply app_len_inj in E as [E1 E2]; [|reflexivity]. apply be32_inj in E1; [|assumption..].
  apply app_len_inj in E2 as [_ E2]; [exact E2|]. unfold lenN in E1. lia.
Qed.
Lemma datas_first ds0 : forall ds (stop : bool) c, Forall ordinary ds0 -> Forall ordinary ds ->
  datas ds ++ (if stop then stop_frame else []) = datas ds0 ++ c -> prefix ds0 ds.
Proof.
  induction ds0 as [|p ds0 IH]; intros ds stop c F0 F E; [exists ds; reflexivity|].
  inversion F0 as [|? ? [P1 P2] F0']; subst. change (datas (p :: ds0)) with (data_frame p ++ datas ds0) in E. rewrite <- app_assoc in E.
  destruct ds as [|q ds].
  - exfalso. change (datas []) with (@nil byte) in E. cbn [app] in E. destruct stop.
    + unfold stop_frame, ctl_frame, data_frame in E. rewrite <- !app_assoc in E. apply app_len_inj in E as [E _]; [|reflexivity].
      apply be32_inj in E; lia.
    + apply (f_equal (@length byte)) in E. unfold data_frame in E. rewrite !app_length in E. change (length (be32 (lenN p))) with 4%nat in E. cbn in E. lia.
  - inversion F as [|? ? [Q1 Q2] F']; subst. change (datas (q :: ds)) with (data_frame q ++ datas ds) in E. rewrite <- app_assoc in E.
    apply data_first in E as [-> E]; [|lia..]. destruct (IH ds stop c F0' F' E) as [u ->]. exists u. reflexivity.
Qed.
Lemma start_lt ct : (forall c, ct = Some c -> lenN c <= CT_MAX) -> lenN (ctl_payload T_START (optl ct)) < 2 ^ 32.
Proof.
  intro L. unfold ctl_payload, ct_field. destruct ct as [c|]; cbn [optl map concat]; [|vm_compute; reflexivity].
  specialize (L c eq_refl). unfold CT_MAX in L. rewrite !lenN_app, !lenN_be32, lenN_nil. lia.
Qed.
Lemma session_reads cts s f ds : Forall (fun x => lenN x <= CT_MAX) cts -> talk cts s -> prefix s f -> writer_session true cts f ds -> Forall ordinary ds ->
  exists ds0, Forall ordinary ds0 /\ prefix s (HEAD cts ++ datas ds0 ++ stop_frame) /\ prefix ds0 ds.
Proof.
  intros FC T P WS F.
  assert (D : s = [] \/ s = ready_frame cts \/ exists ds0 st, Forall ordinary ds0 /\ s = HEAD cts ++ datas ds0 ++ st /\ prefix st stop_frame).
  { destruct T as [[->|[->|(ds0 & F0 & ->)]]|(ds0 & F0 & ->)]; auto; right; right; exists ds0.
    - exists []. rewrite app_nil_r. split; [exact F0|]. split; [reflexivity|]. exists stop_frame. reflexivity.
    - exists stop_frame. split; [exact F0|]. split; [reflexivity|]. exists []. rewrite app_nil_r. reflexivity. }
  destruct D as [->|[->|(ds0 & st & F0 & -> & [st' ES])]].
  - exists []. split; [constructor|]. split; [eexists; reflexivity|]. exists ds. reflexivity.
  - exists []. split; [constructor|]. split; [|exists ds; reflexivity]. unfold HEAD. rewrite <- app_assoc. eexists. reflexivity.
  - exists ds0. split; [exact F0|]. split; [rewrite ES, !app_assoc; exists st'; reflexivity|]. destruct P as [c E].
    assert (LH : (length (ready_frame cts) < length (HEAD cts))%nat).
    { unfold HEAD, start_frame, ctl_frame. rewrite !app_length. change (length (be32 0)) with 4%nat. lia. }
    inversion WS as [E1 E2|_ E1 E2|ct ds' stop C E1 E2]; rewrite <- E1 in E.
    + exfalso. apply (f_equal (@length byte)) in E. rewrite !app_length in E. cbn in E. lia.
    + exfalso. apply (f_equal (@length byte)) in E. rewrite !app_length in E. lia.
    + unfold session_head, HEAD in E. rewrite <- !app_assoc in E. apply app_inv_head in E. unfold start_frame in E. apply ctl_first in E.
      * rewrite E2 in E. exact (datas_first ds0 ds stop _ F0 F E).
      * apply start_lt. intros x ->. destruct C as [C|(y & C & IN)]; [discriminate|]. injection C as ->. rewrite Forall_forall in FC. apply FC, IN.
      * apply start_lt. intros x X. rewrite Forall_forall in FC. apply FC. destruct cts as [|y l]; [discriminate|]. injection X as ->. left. reflexivity.
Qed.

Lemma stores_prefix x y : prefix x y -> prefix (stores x) (stores y).
Proof. intros [u ->]. rewrite stores_app. eexists. reflexivity. Qed.
Lemma subseq_tail {A} (u v : list A) : subseq v (u ++ v).
Proof. induction u; [apply subseq_refl|constructor; assumption]. Qed.

Section Anytime.
Variables (iov_max : N) (cts : list bytes) (rw : rdwr) (t : iothr) (e : env) (a : args) (m cap : N) (qcap : nat) (up : Z) (H : list ev) (c : ctx)
  (fuel dfuel : nat).
Hypothesis TM : thread_met iov_max cts rw t e a m up H c.
Notation runs_to := (t_run e a m cap qcap (queues t) up (t_meet fuel dfuel t H c)).

Lemma run_ordinary x : runs_to x -> Forall (fun y => ordinary (e_data (snd y))) (SpecIothr.accepted (tj_hist x)).
Proof.
  intro R. induction R as [|x x' R IH M|x x' R IH M|x v x' R IH M]; [constructor| | |].
  - destruct M as [b b' h s evs W ET|b h s q k an s' EP EO OK CK SS]; cbn [tj_hist] in *.
    + rewrite accepted_thr. exact IH.
    + rewrite (accepted_thr h [(q, an)] : SpecIothr.accepted (h ++ [S_thr (q, an)]) = _). exact IH.
  - destruct M as [b h s u s' UE SS]; cbn [tj_hist] in *. rewrite accepted_app. apply Forall_app. split; [exact IH|].
    destruct u as [i y|i| |ev0]; cbn; try constructor; [apply UE|constructor].
  - destruct M as [b b' h s v W]. exact IH.
Qed.

Lemma thread_anytime x i : runs_to x -> (Datatypes.S (length (thread_of (tj_hist x))) < fuel)%nat -> (length (SpecIothr.accepted (tj_hist x)) < dfuel)%nat -> its_conn x = Some i ->
  exists W, (forall k, subseq (of_queue k W) (of_queue k (SpecIothr.accepted (tj_hist x)))) /\
    (exists rest, Permutation (SpecIothr.accepted (tj_hist x)) (W ++ rest)) /\
    prefix (stores (acts_of i (x_log (j_srv (b_joint (tj_net x)))))) (map data_frame (fit a (payloads W))).
Proof.
  pose proof TM as [T1 T2 T3 T4 T5 T6 T7 T8 T9 T10 T11]. assert (TF : fits true T_READY cts) by (eapply th_fits; exact TM).
  intros R LF LD EI. pose proof (run_ordinary x R) as OR. pose proof (run_V _ _ _ _ _ _ _ _ _ _ _ _ _ _ TM x R) as V.
  destruct (V_K _ _ _ _ _ _ _ _ _ _ _ V) as (p0 & VK). set (b := skel (tj_net x)) in *.
  pose proof (K_J _ _ _ _ _ _ _ _ _ VK) as I.
  (* the thread's calls, a write in progress included *)
  assert (X : exists evs s o, system qcap fuel dfuel t (tj_hist x ++ map S_thr evs) s o /\ attempted (j_tr (U ans b)) = attempted (thread_of (tj_hist x ++ map S_thr evs))).
  { unfold U. destruct (b_in b) as [|v bs] eqn:EB.
    - exists [], (tj_sys x), (thread_out x). cbn [map]. rewrite app_nil_r. split.
      + destruct (thread_system _ _ _ _ _ _ _ _ _ _ _ _ _ _ TM x R) as (_ & _ & S). apply S. intro E.
        refine (life_terminates _ _ _ _ qcap fuel dfuel (tj_hist x) [] (mk_sys (s_pending (tj_sys x)) (s_visible (tj_sys x)) true) (Stuck FFuel) T1 _ _ _ _ FFuel eq_refl); [| |lia|].
        * rewrite sys_app, (V_sys _ _ _ _ _ _ _ _ _ _ _ V). reflexivity.
        * rewrite thread_app, app_nil_r. rewrite <- (app_nil_r (thread_of _)). apply (V_runs _ _ _ _ _ _ _ _ _ _ _ V). rewrite E. constructor.
        * rewrite accepted_app, app_nil_r. exact LD.
      + unfold b, skel, resumed. cbn [b_joint j_tr]. change (attempted (calls_of (tj_net x)) = attempted (thread_of (tj_hist x))).
        rewrite (V_tr _ _ _ _ _ _ _ _ _ _ _ V). apply part_sess.
    - destruct (K_in _ _ _ _ _ _ _ _ _ VK) as (h & iov & k & i' & Y); [rewrite EB; discriminate|].
      pose proof (y_prog _ _ _ _ _ _ _ _ Y) as EP. unfold ahead. rewrite EP.
      assert (EX : exists k0, tj_prog x = Vis (QWrite h iov) k0).
      { unfold b, skel, resumed, prog in EP. cbn [b_joint j_prog] in EP. fold (tj_prog x) in EP. unfold sk in EP.
        destruct (tj_prog x) as [r|f|q k0]; try discriminate EP. destruct (of_writer (q, AUnit)); [|discriminate EP]. injection EP as -> _. eauto. }
      destruct EX as (k0 & EX).
      exists [(QWrite h iov, ARes r_success)], (tj_sys x), (match k0 (ARes r_success) with Ret u => Done u | Fail f => Stuck f | Vis _ _ => Cut end).
      cbn [map]. split.
      + assert (RU : runs (tj_prog x) [(QWrite h iov, ARes r_success)] (match k0 (ARes r_success) with Ret u => Done u | Fail f => Stuck f | Vis _ _ => Cut end)).
        { rewrite EX. constructor; [exact Logic.I|]. destruct (k0 (ARes r_success)); constructor. }
        apply (V_runs _ _ _ _ _ _ _ _ _ _ _ V) in RU. split; [|split; [rewrite thread_snoc; exact RU|split]].
        * rewrite sys_app, (V_sys _ _ _ _ _ _ _ _ _ _ _ V). reflexivity.
        * intro E. rewrite E in RU. set (h1 := tj_hist x ++ [S_thr (QWrite h iov, ARes r_success)]) in *.
          refine (life_terminates _ _ _ _ qcap fuel dfuel h1 [] (mk_sys (s_pending (tj_sys x)) (s_visible (tj_sys x)) true) (Stuck FFuel) T1 _ _ _ _ FFuel eq_refl).
          -- rewrite sys_app. unfold h1. rewrite sys_app, (V_sys _ _ _ _ _ _ _ _ _ _ _ V). reflexivity.
          -- rewrite thread_app, app_nil_r. unfold h1. rewrite thread_snoc. exact RU.
          -- unfold h1. rewrite thread_snoc, app_length. cbn. lia.
          -- rewrite accepted_app, app_nil_r. unfold h1. rewrite (accepted_thr _ [(QWrite h iov, ARes r_success)] : SpecIothr.accepted (tj_hist x ++ [S_thr _]) = _). exact LD.
        * rewrite (accepted_thr _ [(QWrite h iov, ARes r_success)] : SpecIothr.accepted (tj_hist x ++ [S_thr _]) = _). exact (V_acc _ _ _ _ _ _ _ _ _ _ _ V).
      + unfold answered. cbn [j_tr]. rewrite thread_snoc. unfold attempted. rewrite !sessions_snoc. f_equal.
        unfold b, skel, resumed. cbn [b_joint j_tr]. change (sessions (fun _ => true) (calls_of (tj_net x)) = sessions (fun _ => true) (thread_of (tj_hist x))).
        rewrite (V_tr _ _ _ _ _ _ _ _ _ _ _ V). apply part_sess. }
  destruct X as (evs & s & o & SY & EA).
  destruct (life_order _ _ _ _ _ _ _ _ _ _ T1 SY _ (emits_attempted _)) as (W & full & dss & FP & FS & EC & SQ & rest & PM).
  rewrite accepted_thr in SQ, PM. rewrite <- EA in FP.
  pose proof (J_here _ _ _ _ _ _ _ _ I) as P. pose proof (J_talk _ _ _ _ _ _ _ _ I) as TK.
  assert (US : j_id (U ans b) = j_id (b_joint b) /\ j_hist (U ans b) = j_hist (b_joint b) /\ j_srv (U ans b) = j_srv (b_joint b) /\ j_past (U ans b) = j_past (b_joint b)).
  { unfold U. destruct (b_in b); [auto|]. unfold ahead. destruct (j_prog (b_joint b)) as [| |[]]; auto. }
  destruct US as (U1 & U2 & U3 & U4).
  assert (EP : partner ans (U ans b) = Some i) by (unfold partner; rewrite U1, U4; unfold its_conn in EI; change (j_id (b_joint b)) with (j_id (b_joint (tj_net x))); change (j_past (b_joint b)) with (j_past (b_joint (tj_net x))); destruct (j_id _); [exact EI|]; destruct (j_past _); exact EI). rewrite EP in P. destruct P as (NA & P2 & _).
  (* the last session *)
  assert (L : exists f ds before, prefix (sent (j_tr (U ans b))) f /\ writer_session true cts f ds /\ concat dss = before ++ ds).
  { unfold sent. rewrite T2 in FS. destruct (rev (attempted (j_tr (U ans b)))) as [|s0 r] eqn:ER.
    - exfalso. apply NA. rewrite <- (rev_involutive (attempted _)), ER. reflexivity.
    - assert (ES : attempted (j_tr (U ans b)) = rev r ++ [s0]) by (rewrite <- (rev_involutive (attempted _)), ER; reflexivity).
      rewrite ES in FP |- *. apply Forall2_app_inv_l in FP as (f1 & f2 & _ & FP2 & ->). inversion FP2 as [|? f ? f3 PF FN]; subst. inversion FN; subst.
      apply Forall2_app_inv_l in FS as (d1 & d2 & _ & FS2 & ->). inversion FS2 as [|? ds ? d3 WS DN]; subst. inversion DN; subst.
      exists f, ds, (concat d1). rewrite last_last. split; [exact PF|]. split; [exact WS|]. rewrite concat_app. cbn [concat]. rewrite app_nil_r. reflexivity. }
  destruct L as (f & ds & bef & PF & WS & ED).
  (* the part of W written in it *)
  assert (Y : exists W1 W2, W = W1 ++ W2 /\ payloads W2 = ds).
  { exists (firstn (length bef) W), (skipn (length bef) W). split; [symmetry; apply firstn_skipn|].
    unfold payloads. rewrite <- skipn_map, <- EC, ED, skipn_app, skipn_all, Nat.sub_diag. reflexivity. }
  destruct Y as (W1 & W2 & EW & EP2). exists W2.
  assert (FO : Forall ordinary ds).
  { rewrite <- EP2. unfold payloads. rewrite Forall_map. assert (X : Forall (fun y => ordinary (e_data (snd y))) (W ++ rest)) by (eapply Permutation_Forall; eassumption).
    rewrite EW in X. rewrite !Forall_app in X. apply X. }
  split; [|split].
  - intro k. eapply subseq_trans; [|apply SQ]. rewrite EW, of_queue_app. apply subseq_tail.
  - exists (W1 ++ rest). rewrite PM, EW, app_assoc. apply Permutation_app_tail, Permutation_app_comm.
  - destruct (session_reads cts _ f ds T5 TK PF WS FO) as (ds0 & F0 & PS & [more ED0]).
    rewrite U2 in P2. pose proof (J_re _ _ _ _ _ _ _ _ I) as RE. rewrite U2, U3 in RE.
    pose proof (follows (capture_highwater a) cts (a_ctype a) T4 TF T6 T7 T8 e a i _ _ _ eq_refl eq_refl T9 RE (prefix_trans _ _ _ P2 PS) _ _
      (react_whole (capture_highwater a) cts (a_ctype a) T4 TF T6 T7 T8 ds0 F0)) as FW.
    apply stores_prefix in FW. change (x_log (j_srv (b_joint (tj_net x)))) with (x_log (j_srv (b_joint b))).
    eapply prefix_trans; [exact FW|]. rewrite EP2, ED0.
    assert (EK : stores (Answer (ACC (a_ctype a)) :: kept_of (capture_highwater a) ds0 ++ [Answer finish_frame]) = map data_frame (fit a ds0)).
    { change (stores (Answer (ACC (a_ctype a)) :: kept_of (capture_highwater a) ds0 ++ [Answer finish_frame])) with (stores (kept_of (capture_highwater a) ds0 ++ [Answer finish_frame])).
      rewrite stores_app. change (stores [Answer finish_frame]) with (@nil bytes). rewrite app_nil_r. unfold kept_of. fold (fit a ds0).
      induction (map data_frame (fit a ds0)) as [|y l IH]; [reflexivity|]. cbn [map]. change (stores (Store y :: map Store l)) with (y :: stores (map Store l)). rewrite IH. reflexivity. }
    rewrite EK. unfold fit. rewrite filter_app, map_app. eexists. reflexivity.
Qed.
End Anytime.

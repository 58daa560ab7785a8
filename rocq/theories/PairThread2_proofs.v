(** An I/O thread and a capture server together. *)
From Coq Require Import ZArith Lia.
From Verif Require Import Bytes Spec Bytes_proofs Io Io_proofs SpecTrace SpecStream
  Control Control_proofs Rdwr Rdwr_proofs Writer Api SpecApi Writer_proofs Writer2_proofs SpecDeliver SpecPair Pair PairBounded Pair_proofs
  Capture SpecCapture Capture_proofs Capture2_proofs Capture3_proofs Capture4_proofs Pair2_proofs Pair3_proofs PairBounded_proofs
  Iothr SpecIothr SpecClient Iothr_proofs Iothr2_proofs Iothr3_proofs Iothr4_proofs Iothr7_proofs PairReplay_proofs Tools4_proofs PairThread PairThread_proofs.
Import ListNotations.
Local Open Scope N_scope.

(** ** One call at a time *)
Definition sk (p : io unit) : io ans :=
  match p with
  | Vis q k => if of_writer (q, AUnit) then Vis q Ret else Ret AUnit
  | _ => Ret AUnit
  end.
Definition prog {A} (b : bjoint (A := A)) : io A := j_prog (b_joint b).
Definition calls_of {A} (b : bjoint (A := A)) : trace := j_tr (b_joint b).
Definition skel (b : bjoint (A := unit)) : bjoint (A := ans) := resumed b (sk (prog b)).

(** [b'] is [b] after a move that does not, or does, answer the call. *)
Definition moved (b b' : bjoint (A := unit)) (x : io ans) : Prop :=
  (x = sk (prog b) /\ prog b' = prog b /\ calls_of b' = calls_of b) \/
  (exists q k an, prog b = Vis q k /\ of_writer (q, an) = true /\ ans_ok q an /\ prog b' = k an /\ x = Ret an /\ calls_of b' = calls_of b ++ [(q, an)]).

Lemma sk_vis (p : io unit) q k : p = Vis q k -> of_writer (q, AUnit) = true -> sk p = Vis q Ret.
Proof. intros -> O. cbn [sk]. rewrite O. reflexivity. Qed.

Lemma fwd_moves (j j' : joint (A := unit)) : writer_moves j j' ->
  exists q k an i past, j_prog j = Vis q k /\ of_writer (q, AUnit) = true /\ j' = answered j q k an i past /\ ans_ok q an /\
    forall B (k2 : ans -> io B), writer_moves (mk_joint (Vis q k2) (j_tr j) (j_id j) (j_past j) (j_hist j) (j_srv j))
      (mk_joint (k2 an) (j_tr j ++ [(q, an)]) i past (j_hist j) (j_srv j)).
Proof.
  intros [j0 h k i E NA NP|j0 h iov k i E EI|j0 h iov k i r E EI D|j0 h n k i bs E EI L P|j0 h n k i r bs E EI D NS L|j0 h k i E EI|j0 h k E EI];
    do 5 eexists; (split; [exact E|]); (split; [reflexivity|]); (split; [reflexivity|]); (split; [first [exact Logic.I|intro; assumption|intro X; destruct (NS X)]|]); intros B k2.
  - apply (wm_open (mk_joint (Vis (QOpen h) k2) _ _ _ _ _) h k2 i eq_refl NA NP).
  - apply (wm_write (mk_joint (Vis (QWrite h iov) k2) _ (j_id j0) _ _ _) h iov k2 i eq_refl EI).
  - apply (wm_write_fails (mk_joint (Vis (QWrite h iov) k2) _ (j_id j0) _ _ _) h iov k2 i r eq_refl EI D).
  - apply (wm_read (mk_joint (Vis (QRead h n) k2) _ (j_id j0) _ _ _) h n k2 i bs eq_refl EI L P).
  - apply (wm_read_fails (mk_joint (Vis (QRead h n) k2) _ (j_id j0) _ _ _) h n k2 i r bs eq_refl EI D NS L).
  - apply (wm_close (mk_joint (Vis (QClose h) k2) _ (j_id j0) _ _ _) h k2 i eq_refl EI).
  - apply (wm_destroy (mk_joint (Vis (QDestroy h) k2) _ (j_id j0) _ _ _) h k2 eq_refl EI).
Qed.

Lemma fwd cap b b' : b_writer cap b b' -> exists x, b_writer cap (skel b) (resumed b' x) /\ moved b b' x.
Proof.
  intros [j j' NW M|j bs h iov k i chunk E EI NE P L|j h iov k i E EI|j bs h iov k i r E EI D NS NE].
  - destruct (fwd_moves _ _ M) as (q & k & an & i & past & E & O & -> & OK & W). exists (Ret an). split.
    + unfold skel, resumed, prog. cbn [b_joint b_in answered j_tr j_id j_past j_hist j_srv]. rewrite (sk_vis _ _ _ E O).
      apply bw_other; [|apply W]. cbn [j_prog]. intros h iov k' X. injection X as X _. subst q. exact (NW _ _ _ E).
    + right. exists q, k, an. unfold prog, calls_of. cbn [b_joint answered j_prog j_tr]. auto 10.
  - exists (sk (j_prog j)). split; [|left; auto]. unfold skel, resumed, prog. cbn [b_joint b_in]. rewrite (sk_vis _ _ _ E eq_refl).
    eapply (bw_put cap (mk_joint _ _ (j_id j) _ _ _)); [reflexivity|exact EI|exact NE|exact P|exact L].
  - exists (Ret (ARes r_success)). split.
    + unfold skel, resumed, prog. cbn [b_joint b_in answered j_tr j_id j_past j_hist j_srv]. rewrite (sk_vis _ _ _ E eq_refl).
      apply (bw_done cap (mk_joint (Vis (QWrite h iov) Ret) _ (j_id j) _ _ _) h iov Ret i eq_refl EI).
    + right. exists (QWrite h iov), k, (ARes r_success). repeat split. exact E.
  - exists (Ret (ARes r)). split.
    + unfold skel, resumed, prog. cbn [b_joint b_in answered j_tr j_id j_past j_hist j_srv]. rewrite (sk_vis _ _ _ E eq_refl).
      apply (bw_fails cap (mk_joint (Vis (QWrite h iov) Ret) _ (j_id j) _ _ _) bs h iov Ret i r eq_refl EI D NS NE).
    + right. exists (QWrite h iov), k, (ARes r). repeat split. exact E.
Qed.

(** And back: a move of the skeleton is one of the thread. *)
Lemma bwd_moves (j : joint (A := unit)) q k j' : j_prog j = Vis q k ->
  writer_moves (mk_joint (Vis q Ret) (j_tr j) (j_id j) (j_past j) (j_hist j) (j_srv j)) j' ->
  exists an i past, writer_moves j (answered j q k an i past) /\ j' = mk_joint (Ret an) (j_tr j ++ [(q, an)]) i past (j_hist j) (j_srv j).
Proof.
  intros EP M. remember (mk_joint (Vis q Ret) (j_tr j) (j_id j) (j_past j) (j_hist j) (j_srv j)) as j1 eqn:E1.
  destruct M as [j0 h k0 i E NA NP|j0 h iov k0 i E EI|j0 h iov k0 i r E EI D|j0 h n k0 i bs E EI L P|j0 h n k0 i r bs E EI D NS L|j0 h k0 i E EI|j0 h k0 E EI];
    subst j0; cbn [j_prog j_id j_hist j_past j_tr j_srv] in *; injection E as -> <-; do 3 eexists; (split; [|reflexivity]).
  - apply wm_open; assumption.
  - apply wm_write; assumption.
  - apply wm_write_fails; assumption.
  - eapply wm_read; eassumption.
  - eapply wm_read_fails; eassumption.
  - apply wm_close; assumption.
  - apply wm_destroy; assumption.
Qed.
Lemma bwd cap (b : bjoint (A := unit)) q k (c' : bjoint (A := ans)) : prog b = Vis q k -> b_writer cap (resumed b (Vis q Ret)) c' ->
  exists (b' : bjoint (A := unit)) evs, b_writer cap b b' /\ calls_of b' = calls_of b ++ evs /\
    ((exists an, prog b' = k an) \/ prog b' = Vis q k /\ c' = resumed b' (Vis q Ret)).
Proof.
  destruct b as [j bs]. unfold prog, calls_of, resumed. cbn [b_joint b_in]. intros EP M.
  remember (mk_bjoint (mk_joint (Vis q Ret) (j_tr j) (j_id j) (j_past j) (j_hist j) (j_srv j)) bs) as b1 eqn:E1.
  destruct M as [j0 j0' NW M|j0 bs0 h iov k0 i chunk E EI NE P L|j0 h iov k0 i E EI|j0 bs0 h iov k0 i r E EI D NS NE].
  - injection E1 as -> <-. destruct (bwd_moves _ _ _ _ EP M) as (an & i & past & W & ->).
    eexists (mk_bjoint _ []), [(q, an)]. split; [apply bw_other; [|exact W]|split; [reflexivity|left; exists an; reflexivity]].
    intros h iov k' X. rewrite EP in X. injection X as X _. eapply (NW h iov). cbn. rewrite X. reflexivity.
  - injection E1 as -> <-. cbn [j_prog j_id j_tr j_hist] in *. injection E as -> <-. eexists (mk_bjoint j (bs0 ++ chunk)), [].
    split; [eapply bw_put; eassumption|]. split; [cbn; rewrite app_nil_r; reflexivity|]. right. split; [exact EP|reflexivity].
  - injection E1 as -> <-. cbn [j_prog j_id j_tr j_hist] in *. injection E as -> <-. eexists (mk_bjoint _ []), [(QWrite h iov, ARes r_success)].
    split; [eapply bw_done; eassumption|]. split; [reflexivity|]. left. eexists. reflexivity.
  - injection E1 as -> <-. cbn [j_prog j_id j_tr j_hist] in *. injection E as -> <-. eexists (mk_bjoint _ []), [(QWrite h iov, ARes r)].
    split; [eapply bw_fails; eassumption|]. split; [reflexivity|]. left. eexists. reflexivity.
Qed.

(** The server does not look at the program. *)
Lemma server_resumed {A B} e a m (b : bjoint (A := A)) x b' (p : io B) : b_server e a m b x b' -> b_server e a m (resumed b p) x (resumed b' p).
Proof. intros [c' j L N S]. exact (bs_step e a m (resumed b p) x c' L N S). Qed.
Lemma server_back {A B} e a m (b : bjoint (A := A)) x (p : io B) c' : b_server e a m (resumed b p) x c' ->
  exists b', b_server e a m b x b' /\ c' = resumed b' p /\ prog b' = prog b /\ calls_of b' = calls_of b.
Proof.
  intros [c0 j L N S]. eexists. split; [exact (bs_step e a m b x c0 L N S)|]. repeat split.
Qed.
Lemma server_same {A} e a m (b : bjoint (A := A)) x b' : b_server e a m b x b' -> prog b' = prog b /\ calls_of b' = calls_of b.
Proof. intros [c' j L N S]. split; reflexivity. Qed.

Section T.
Variables (cts : list bytes) (e : env) (a : args).
Notation sct := (a_ctype a).
Notation hw := (capture_highwater a).
Hypothesis agreed : agree cts sct.
Hypothesis ready_ok : fits true T_READY cts.
Hypothesis ready_small : lenN (ready_frame cts) < 512.
Hypothesis sct_ok : lenN sct <= CT_MAX.
Hypothesis room : 512 <= hw.
Hypothesis SE : sends e.
Variables (m cap : N) (qcap nq : nat) (up : Z) (life : io unit) (Q : trace -> unit -> Prop).
Notation K := (fun T0 p0 Q0 b => K cts e a T0 p0 Q0 m cap b).
Notation wpe := (wpe cts sct up).

(** A program that has ended may be followed by another. *)
Lemma K_next T0 p0 Q0 (b : bjoint (A := T0)) r : K T0 p0 Q0 b -> prog b = Ret r ->
  forall T1 (p : io T1) Q1, wpq cts sct p Q1 (calls_of b) -> exists p1, K T1 p1 Q1 (resumed b p).
Proof using All.
  intros KB E T1 p Q1 W.
  assert (EI : b_in b = []).
  { destruct (b_in b) eqn:X; [reflexivity|]. destruct (K_in _ _ _ _ _ _ _ _ _ KB) as (h & iov & k & i & Y); [rewrite X; discriminate|].
    pose proof (y_prog _ _ _ _ _ _ _ _ Y) as Z. unfold prog in E. rewrite E in Z. discriminate. }
  assert (I : J cts e a T0 p0 Q0 m (b_joint b)).
  { pose proof (K_J _ _ _ _ _ _ _ _ _ KB) as X. unfold U in X. rewrite EI in X. exact X. }
  exists (bind p0 (fun _ => p)). unfold prog, calls_of in *. destruct b as [j bs]. cbn [b_in b_joint] in *. subst bs. split.
  - unfold U, resumed. cbn [b_in b_joint]. destruct I as [I1 I2 I3 I4 I5 I6 I7 I8 I9 I10]. split; cbn [j_prog j_tr j_id j_past j_hist j_srv]; auto.
    intros rest o R. eapply runs_bind_d; [|exact R]. specialize (I4 [] (Done r)). rewrite E, app_nil_r in I4. apply I4. constructor.
  - cbn. intro X. destruct (X eq_refl).
  - exact (K_cap _ _ _ _ _ _ _ _ _ KB).
Qed.

(** The expected answer. *)
Definition QT (p : io unit) (h : trace) : trace -> ans -> Prop :=
  fun _ an => match sk p with Vis q _ => an = ans_of sct h q | _ => True end.

Record TV (x : tjoint) : Prop := {
  V_K : exists p0, K ans p0 (QT (tj_prog x) (calls_of (tj_net x))) (skel (tj_net x));
  V_tr : calls_of (tj_net x) = writer_part (thread_of (tj_hist x));
  V_wpe : wpe (tj_prog x) Q (thread_of (tj_hist x));
  V_runs : forall rest o, runs (tj_prog x) rest o -> runs life (thread_of (tj_hist x) ++ rest) o;
  V_sys : sys_run qcap sys_init (tj_hist x) = Some (tj_sys x);
  V_ord : forall i, Forall (fun y => ordinary (e_data y)) (s_pending (tj_sys x) i ++ s_visible (tj_sys x) i);
  V_acc : Forall (fun y => (fst y < nq)%nat) (SpecIothr.accepted (tj_hist x));
  V_ok : Forall ev_ok (thread_of (tj_hist x)) }.

Lemma wpq_sk p tr : wpe p Q tr -> wpq cts sct (sk p) (QT p (writer_part tr)) (writer_part tr).
Proof using All.
  intro W. unfold QT. destruct p as [r|f|q k]; cbn [sk]; try exact Logic.I. cbn [PairThread_proofs.wpe] in W.
  destruct (of_writer _); [|exact Logic.I]. cbn [wpq]. split; [apply W|reflexivity].
Qed.
Lemma thread_snoc H e0 : thread_of (H ++ [S_thr e0]) = thread_of H ++ [e0].
Proof. unfold thread_of. rewrite flat_map_app. reflexivity. Qed.
Lemma accepted_thr H l : SpecIothr.accepted (H ++ map S_thr l) = SpecIothr.accepted H.
Proof. unfold SpecIothr.accepted. rewrite flat_map_app. induction l; [apply app_nil_r|exact IHl]. Qed.

Lemma V_start H c : reach e a H c -> reads_below m H -> wpe life Q [] ->
  TV (mk_tjoint (mk_bjoint (meeting life H c) []) [] sys_init).
Proof using All.
  intros R RB W. split; cbn [tj_net tj_hist tj_sys]; auto; try reflexivity.
  - exists (sk life). change (skel (mk_bjoint (meeting life H c) [])) with (mk_bjoint (meeting (sk life) H c) []).
    apply K_start; auto. apply (J_start cts e a); auto. exact (wpq_sk life [] W).
  - intro i. constructor.
  - constructor.
  - constructor.
Qed.

(** [tj_net] moved on from a call that has been answered. *)
Lemma V_after p0 Q0 (b : bjoint (A := unit)) r tr : K ans p0 Q0 (resumed b (Ret r)) -> calls_of b = writer_part tr -> wpe (prog b) Q tr ->
  exists p1, K ans p1 (QT (prog b) (calls_of b)) (skel b).
Proof using All.
  intros KB ET W. destruct (K_next _ _ _ _ r KB eq_refl _ (sk (prog b)) (QT (prog b) (calls_of b))) as (p1 & X).
  - change (calls_of (resumed b (Ret r))) with (calls_of b). rewrite ET. apply wpq_sk, W.
  - exists p1. exact X.
Qed.

Lemma V_thread x x' : TV x -> t_thread qcap cap up x x' -> TV x'.
Proof using All.
  intros V TM; destruct TM as [b b' H s evs M ET|b H s q k an s' EP EO OK CK SS]; destruct V as [(p0 & VK) VT VW VR VS VO VA VG]; cbn [tj_net tj_hist tj_sys tj_prog] in *.
  - destruct (fwd _ _ _ M) as (y & MS & [(EY & E1 & E2)|(q & k & an & E1 & E2 & E3 & E4 & E5 & E6)]).
    + assert (evs = []) as ->.
      { unfold calls_of in E2. rewrite ET in E2. rewrite <- (app_nil_r (j_tr (b_joint b))) in E2 at 2. apply app_inv_head in E2. exact E2. }
      cbn [map]. unfold tj_prog in *. cbn [tj_net] in *. fold (prog b) in *.
      split; unfold tj_prog; cbn [tj_net tj_hist tj_sys]; fold (prog b'); rewrite ?app_nil_r, ?E1, ?E2; auto.
      exists p0. unfold skel. rewrite E1, <- EY. apply (K_writer cts e a) with (b := skel b); auto.
    + assert (EV : evs = [(q, an)]) by (unfold calls_of in E6; rewrite ET in E6; apply app_inv_head in E6; exact E6). subst evs y. cbn [map].
      unfold tj_prog in *. cbn [tj_net] in *. fold (prog b) in *.
      assert (KR : K ans p0 (QT (prog b) (calls_of b)) (resumed b' (Ret an))) by (eapply (K_writer cts e a); eassumption).
      assert (O0 : of_writer (q, AUnit) = true) by (destruct q; exact E2 || reflexivity).
      assert (EA : an = ans_of sct (writer_part (thread_of H)) q).
      { assert (I : J cts e a ans p0 (QT (prog b) (calls_of b)) m (b_joint (resumed b' (Ret an)))).
        { apply (K_end cts e a) with (cap := cap) (b := resumed b' (Ret an)); auto. discriminate. }
        pose proof (J_wpq _ _ _ _ _ _ _ _ I) as W. unfold QT in W. cbn in W. rewrite (sk_vis _ _ _ E1 O0) in W. rewrite <- VT. exact W. }
      rewrite E1 in VW. cbn [PairThread_proofs.wpe] in VW. rewrite O0 in VW. destruct VW as [_ VW]. rewrite <- EA in VW. rewrite <- E4 in VW.
      assert (ETR : calls_of b' = writer_part (thread_of (H ++ [S_thr (q, an)]))) by (rewrite E6, VT, thread_snoc, part_one, E2; reflexivity).
      rewrite <- thread_snoc in VW.
      split; unfold tj_prog; cbn [tj_net tj_hist tj_sys]; fold (prog b'); auto.
      * exact (V_after p0 _ b' an _ KR ETR VW).
      * intros rest o R. rewrite thread_snoc, <- app_assoc. apply VR. rewrite E1. cbn [app]. constructor; [exact E3|]. rewrite <- E4. exact R.
      * rewrite sys_app, VS. cbn [sys_run]. replace (sys_step qcap s (S_thr (q, an))) with (Some s); [reflexivity|].
        destruct q; try discriminate E2; reflexivity.
      * pose proof (accepted_thr H [(q, an)]) as X. cbn [map] in X. rewrite X. exact VA.
      * rewrite thread_snoc. apply Forall_app. split; [exact VG|]. constructor; [|constructor]. rewrite EA. destruct q; cbn; exact Logic.I || reflexivity.
  - unfold tj_prog in *. cbn [tj_net] in *. rewrite EP in *.
    assert (O0 : of_writer (q, AUnit) = false) by (destruct q; exact EO || reflexivity).
    assert (PR : proper up q an).
    { split; [exact OK|]. split; [exact CK|]. destruct q as [h|h|h n|h iov|h|h| |i| |w|y]; try exact Logic.I. destruct an as [| | |[y|]| |]; try exact Logic.I.
      cbn [sys_step] in SS. destruct (s_visible s i) as [|z r] eqn:EV; [discriminate|]. destruct (_ && _) eqn:EQ; [|discriminate].
      apply andb_true_iff in EQ as [EQ _]. apply andb_true_iff in EQ as [_ EQ]. apply bytes_eqb_eq in EQ. rewrite EQ.
      specialize (VO i). apply Forall_app in VO as [_ VO]. rewrite EV in VO. inversion VO; subst. assumption. }
    cbn [PairThread_proofs.wpe] in VW. rewrite O0 in VW. specialize (VW an PR).
    assert (ETR : calls_of (resumed b (k an)) = writer_part (thread_of (H ++ [S_thr (q, an)]))).
    { rewrite thread_snoc, part_one, EO, app_nil_r. exact VT. }
    rewrite <- thread_snoc in VW.
    split; unfold tj_prog; cbn [tj_net tj_hist tj_sys]; auto.
    + unfold skel, prog in VK. rewrite EP in VK. cbn [sk] in VK. rewrite O0 in VK. eapply (V_after _ _ (resumed b (k an)) AUnit); [|exact ETR|exact VW]. exact VK.
    + intros rest o R. rewrite thread_snoc, <- app_assoc. apply VR. cbn [app]. constructor; assumption.
    + rewrite sys_app, VS. cbn [sys_run]. rewrite SS. reflexivity.
    + intro i0. specialize (VO i0). destruct q as [h|h|h n|h iov|h|h| |i| |w|y]; try (injection SS as <-; exact VO).
      * destruct an as [| | |[y|]| |]; try (injection SS as <-; exact VO); cbn [sys_step] in SS.
        -- destruct (s_visible s i) as [|z r] eqn:EV; [discriminate|]. destruct (_ && _) eqn:EQ; [|discriminate]. injection SS as <-. cbn [s_pending s_visible].
           unfold upd. destruct (Nat.eqb_spec i i0) as [<-|_]; [|exact VO]. rewrite EV in VO. apply Forall_app in VO as [V1 V2]. apply Forall_app. split; [exact V1|]. inversion V2; assumption.
        -- destruct (s_visible s i); [injection SS as <-; exact VO|discriminate].
      * destruct an; try (injection SS as <-; exact VO). cbn [sys_step] in SS. destruct (Bool.eqb _ _); [injection SS as <-; exact VO|discriminate].
    + pose proof (accepted_thr H [(q, an)]) as X. cbn [map] in X. rewrite X. exact VA.
    + rewrite thread_snoc. apply Forall_app. split; [exact VG|]. constructor; [|constructor]. destruct q, an; cbn in OK, EO |- *; try exact Logic.I; try discriminate EO; destruct OK.
Qed.

Lemma V_users x x' : TV x -> t_users qcap nq x x' -> TV x'.
Proof using All.
  intros V TM. destruct TM as [b H s u s' UE SS]. destruct V as [VK VT VW VR VS VO VA VG]. cbn [tj_net tj_hist tj_sys] in *. unfold tj_prog in *. cbn [tj_net] in *.
  assert (ET : thread_of (H ++ [u]) = thread_of H) by (unfold thread_of; rewrite flat_map_app; destruct u; try destruct UE; cbn; apply app_nil_r).
  split; unfold tj_prog; cbn [tj_net tj_hist tj_sys]; rewrite ?ET; auto.
  - rewrite sys_app, VS. cbn [sys_run]. rewrite SS. reflexivity.
  - intro i0. specialize (VO i0). destruct u as [i y|i| |ev0]; cbn [sys_step] in SS.
    + destruct (Nat.ltb _ _); [|discriminate]. injection SS as <-. cbn [s_pending s_visible]. unfold upd. destruct (Nat.eqb_spec i i0) as [<-|_]; [|exact VO].
      apply Forall_app in VO as [V1 V2]. apply Forall_app. split; [|exact V2]. apply Forall_app. split; [exact V1|]. constructor; [apply UE|constructor].
    + destruct (s_pending s i) as [|y r] eqn:EV; [discriminate|]. injection SS as <-. cbn [s_pending s_visible]. unfold upd. destruct (Nat.eqb_spec i i0) as [<-|_]; [|exact VO].
      rewrite EV in VO. apply Forall_app in VO as [V1 V2]. inversion V1; subst. apply Forall_app. split; [assumption|]. apply Forall_app. split; [exact V2|]. constructor; [assumption|constructor].
    + injection SS as <-. exact VO.
    + destruct UE.
  - unfold SpecIothr.accepted in *. rewrite flat_map_app. apply Forall_app. split; [exact VA|]. destruct u as [i y|i| |ev0]; cbn [flat_map app]; try (constructor; fail).
    constructor; [apply UE|constructor].
Qed.

Lemma V_server x v x' : TV x -> t_server e a m v x x' -> TV x'.
Proof using All.
  intros V TM. destruct TM as [b b' H s v0 M]. destruct V as [(p0 & VK) VT VW VR VS VO VA VG]. cbn [tj_net tj_hist tj_sys] in *. unfold tj_prog in *. cbn [tj_net] in *.
  destruct (server_same _ _ _ _ _ _ M) as [E1 E2]. fold (prog b) in *. split; unfold tj_prog; cbn [tj_net tj_hist tj_sys]; fold (prog b'); rewrite ?E1, ?E2; auto.
  exists p0. unfold skel. rewrite E1. eapply (K_server cts e a); eauto. apply server_resumed, M.
Qed.

Lemma V_run x0 x : TV x0 -> t_run e a m cap qcap nq up x0 x -> TV x.
Proof using All. intros V R. induction R; auto; [eapply V_thread|eapply V_users|eapply V_server]; eassumption. Qed.
Lemma V_left x0 x : TV x0 -> t_left e a m cap qcap up x0 x -> TV x.
Proof using All. intros V R. induction R; auto; [eapply V_thread|eapply V_server]; eassumption. Qed.

(** ** Progress *)
Definition full (x : tjoint) : Prop :=
  exists i, j_id (b_joint (tj_net x)) = Some i /\ ~ SpecCapture.accepted i (j_hist (b_joint (tj_net x))) /\
     (0 < a_conns a)%Z /\ (a_conns a <= Z.of_nat (length (x_conns (j_srv (b_joint (tj_net x))))))%Z.

(** A call that is not the writer's can always be answered. *)
Lemma own_answer x q k : tj_prog x = Vis q k -> of_writer (q, AUnit) = false -> exists an, t_thread qcap cap up x (mk_tjoint (resumed (tj_net x) (k an)) (tj_hist x ++ [S_thr (q, an)])
  (match q, an with QRemove i, AEntry (Some _) => mk_sys (s_pending (tj_sys x)) (upd (s_visible (tj_sys x)) i (tl (s_visible (tj_sys x) i))) (s_flag (tj_sys x)) | _, _ => tj_sys x end)).
Proof using All.
  destruct x as [b H s]. unfold tj_prog. cbn [tj_net tj_hist tj_sys]. intros E O. destruct q as [h|h|h n|h iov|h|h| |i| |w|y]; try discriminate O.
  - exists (AClock up). apply tt_own with (q := QClock); auto; [exact Logic.I|cbn; lia].
  - destruct (s_visible s i) as [|y r] eqn:EV.
    + exists (AEntry None). eapply tt_own with (q := QRemove i); auto; [exact Logic.I..|]. cbn [sys_step]. rewrite EV. reflexivity.
    + exists (AEntry (Some y)). eapply tt_own with (q := QRemove i); auto; [exact Logic.I..|]. cbn [sys_step tl]. rewrite EV, Nat.eqb_refl, Bool.eqb_reflx.
      replace (bytes_eqb (e_data y) (e_data y)) with true by (symmetry; apply bytes_eqb_eq; reflexivity). reflexivity.
  - exists (ABool (s_flag s)). apply tt_own with (q := QShutting); auto; [exact Logic.I..|]. cbn [sys_step]. rewrite Bool.eqb_reflx. reflexivity.
  - exists (ABool true). apply tt_own with (q := QWait w); auto; exact Logic.I.
  - exists AUnit. apply tt_own with (q := QFree y); auto; exact Logic.I.
Qed.

Hypothesis OW : output_works e.
Hypothesis M1 : 1 <= m.
Hypothesis M2 : m + 7 < hw.
Hypothesis C1 : 1 <= cap.
Definition left_of (x : tjoint) : nat := nu a ans (skel (tj_net x)).

Lemma step_on x q k : TV x -> tj_prog x = Vis q k -> of_writer (q, AUnit) = true ->
  (exists x', t_thread qcap cap up x x' /\ ((exists an, tj_prog x' = k an) \/ tj_prog x' = Vis q k /\ (left_of x' < left_of x)%nat)) \/
  (exists v x', its_own (b_joint (tj_net x)) v /\ t_server e a m v x x' /\ tj_prog x' = Vis q k /\ (left_of x' < left_of x)%nat) \/ full x.
Proof using All.
  intros V E O. destruct (V_K _ V) as (p0 & VK).
  destruct x as [b H s]. unfold tj_prog, left_of in *. cbn [tj_net tj_hist tj_sys] in *. fold (prog b) in *.
  assert (ESK : skel b = resumed b (Vis q Ret)) by (unfold skel; rewrite (sk_vis _ _ _ E O); reflexivity).
  destruct (K_progress cts e a agreed ready_ok ready_small sct_ok room SE _ _ _ m cap (skel b) OW M1 M2 C1 VK) as [(r & X)|[(c' & M)|[(v & c' & OWN & M)|F]]].
  - exfalso. rewrite ESK in X. discriminate X.
  - left. assert (NU : (S (nu a ans c') <= nu a ans (skel b))%nat) by (eapply (nu_writer cts e a); try exact M; eauto).
    rewrite ESK in M. destruct (bwd _ _ _ _ _ E M) as (b' & evs & W & ET & D). exists (mk_tjoint b' (H ++ map S_thr evs) s).
    split; [apply tt_call; assumption|]. cbn [tj_net]. fold (prog b'). destruct D as [D|[D1 D2]]; [left; exact D|right]. split; [exact D1|].
    unfold skel at 1. rewrite (sk_vis _ _ _ D1 O), <- D2. exact NU.
  - right. left. destruct (nu_server cts e a agreed ready_ok ready_small sct_ok room SE _ _ _ m cap _ _ _ VK M) as [_ NU]. specialize (NU OWN).
    destruct (server_back _ _ _ _ _ _ _ M) as (b' & W & EC & E1 & E2). exists v, (mk_tjoint b' H s). split; [exact OWN|]. split; [constructor; exact W|].
    cbn [tj_net]. fold (prog b'). rewrite E1. split; [exact E|]. unfold skel at 1. rewrite E1, <- EC. exact NU.
  - right. right. exact F.
Qed.

Lemma V_progress x : TV x ->
  tj_prog x = Ret tt \/ tj_prog x = Fail FFuel \/ (exists x', t_thread qcap cap up x x') \/
  (exists v x', its_own (b_joint (tj_net x)) v /\ t_server e a m v x x') \/ full x.
Proof using All.
  intro V. destruct (tj_prog x) as [[]|f|q k] eqn:E; [left; reflexivity| |].
  - right. left. pose proof (V_wpe _ V) as W. rewrite E in W. cbn in W. subst f. reflexivity.
  - right. right. destruct (of_writer (q, AUnit)) eqn:O.
    + destruct (step_on x q k V E O) as [(x' & X & _)|[(v & x' & X1 & X2 & _)|X]]; eauto 6.
    + destruct (own_answer x q k E O) as (an & X). eauto.
Qed.

(** Every move of the thread answers its call or brings the answer nearer, every
    move of the server for it too, and nothing else takes it further away. *)
Lemma thread_shrinks x x' q k : TV x -> t_thread qcap cap up x x' -> tj_prog x = Vis q k ->
  (exists an, tj_prog x' = k an) \/ tj_prog x' = Vis q k /\ (left_of x' < left_of x)%nat.
Proof using All.
  intros V M E. destruct M as [b b' H s evs W ET|b H s q0 k0 an s' EP EO OK CK SS]; unfold tj_prog, left_of in *; cbn [tj_net] in *.
  - fold (prog b) in E. fold (prog b'). destruct (V_K _ V) as (p0 & VK). cbn [tj_net] in VK. destruct (fwd _ _ _ W) as (y & M & [(EY & E1 & E2)|(q0 & k0 & an & E1 & E2 & E3 & E4 & E5 & E6)]).
    + right. rewrite E1. split; [exact E|]. assert (NU : (S (nu a ans (resumed b' y)) <= nu a ans (skel b))%nat) by (eapply (nu_writer cts e a); try exact M; eauto).
      rewrite EY in NU. unfold skel at 1. rewrite E1. exact NU.
    + left. rewrite E in E1. injection E1 as <- <-. eauto.
  - left. rewrite EP in E. injection E as <- <-. exists an. reflexivity.
Qed.
Lemma server_shrinks x v x' : TV x -> t_server e a m v x x' ->
  tj_prog x' = tj_prog x /\ (left_of x' <= left_of x)%nat /\ (its_own (b_joint (tj_net x)) v -> (left_of x' < left_of x)%nat).
Proof using All.
  intros V M. destruct (V_K _ V) as (p0 & VK). destruct M as [b b' H s v W]. unfold tj_prog, left_of. cbn [tj_net] in *.
  destruct (server_same _ _ _ _ _ _ W) as [E1 _]. split; [exact E1|]. pose proof (server_resumed _ _ _ _ _ _ (sk (prog b)) W) as W'.
  destruct (nu_server cts e a agreed ready_ok ready_small sct_ok room SE _ _ _ m cap _ _ _ VK W') as [N1 N2].
  unfold skel at 1 3. rewrite E1. split; [exact N1|]. intro O. apply N2, O.
Qed.

Lemma left_trans x y z : t_left e a m cap qcap up x y -> t_left e a m cap qcap up y z -> t_left e a m cap qcap up x z.
Proof using All. intros X Y. induction Y; [exact X|eapply tl_thread; eassumption|eapply tl_server; eassumption]. Qed.

Hypothesis NL : (a_conns a <= 0)%Z.
Lemma call_ends q k : of_writer (q, AUnit) = true -> forall N x, (left_of x < N)%nat -> TV x -> tj_prog x = Vis q k ->
  exists x' an, t_left e a m cap qcap up x x' /\ tj_prog x' = k an.
Proof using All.
  intro O. induction N as [|N IH]; intros x L V E; [lia|].
  destruct (step_on x q k V E O) as [(x' & X & [(an & Y)|(Y & Z)])|[(v & x' & X1 & X2 & Y & Z)|(i & _ & _ & X & _)]]; [| | |lia].
  - exists x', an. split; [eapply tl_thread; [constructor|exact X]|exact Y].
  - destruct (IH x') as (x2 & an & R & E2); [lia|eapply V_thread; eassumption|exact Y|]. exists x2, an. split; [|exact E2].
    eapply left_trans; [eapply tl_thread; [constructor|exact X]|exact R].
  - destruct (IH x') as (x2 & an & R & E2); [lia|eapply V_server; eassumption|exact Y|]. exists x2, an. split; [|exact E2].
    eapply left_trans; [eapply tl_server; [constructor|exact X1|exact X2]|exact R].
Qed.
Lemma V_finishes : forall p x, TV x -> tj_prog x = p ->
  exists x', t_left e a m cap qcap up x x' /\ (tj_prog x' = Ret tt \/ tj_prog x' = Fail FFuel).
Proof using All.
  induction p as [r|f|q k IH]; intros x V E.
  - exists x. split; [constructor|]. left. destruct r. exact E.
  - exists x. split; [constructor|]. right. pose proof (V_wpe _ V) as W. rewrite E in W. cbn in W. subst f. exact E.
  - assert (X : exists x' an, t_left e a m cap qcap up x x' /\ tj_prog x' = k an).
    { destruct (of_writer (q, AUnit)) eqn:O.
      - eapply call_ends; [exact O|apply Nat.lt_succ_diag_r|exact V|exact E].
      - destruct (own_answer x q k E O) as (an & X). eexists _, an. split; [eapply tl_thread; [constructor|exact X]|reflexivity]. }
    destruct X as (x1 & an & R & E1). destruct (IH an x1) as (x2 & R2 & E2); [eapply V_left; eassumption|exact E1|].
    exists x2. split; [eapply left_trans; eassumption|exact E2].
Qed.
End T.

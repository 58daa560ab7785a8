(** A writer and a capture server over a network of bounded capacity. *)
From Coq Require Import ZArith Lia.
From Verif Require Import Bytes Spec SpecTrace SpecStream Control Bytes_proofs Control_proofs Io Rdwr Writer Api SpecApi Writer_proofs Writer2_proofs SpecDeliver SpecPair
  Capture SpecCapture Pair PairBounded Capture_proofs Capture2_proofs Capture3_proofs Capture4_proofs Capture5_proofs Capture7_proofs Capture8_proofs
  Deliver_proofs Writer5_proofs Pair_proofs Pair2_proofs Pair3_proofs.
Import ListNotations.
Local Open Scope N_scope.

Lemma prefix_strict {T} (x y : list T) : prefix x y -> x = y \/ exists v u, y = x ++ v :: u.
Proof. intros [[|v u] ->]; [left; symmetry; apply app_nil_r|right; eauto]. Qed.
Lemma prefix_app2 {T} (s x y : list T) : prefix x y -> prefix (s ++ x) (s ++ y).
Proof. intros [u ->]. exists u. apply app_assoc. Qed.
Lemma prefix_l {T} (x y : list T) : prefix x (x ++ y).
Proof. exists y. reflexivity. Qed.

Lemma accepted_or i H : accepted i H \/ ~ accepted i H.
Proof.
  unfold accepted. induction H as [|x H IH]; [right; intros []|]. destruct IH as [IH|IH]; [left; now right|].
  destruct x as [u|u b|u|u| |]; try (right; intros [X|X]; [discriminate|exact (IH X)]).
  destruct (Nat.eq_dec u i) as [->|NE]; [left; now left|right; intros [[= X]|X]; auto].
Qed.

(** Part of a STOP frame is no frame. *)
Lemma stop_part t v u : stop_frame = t ++ v :: u -> incomplete t /\ calm t.
Proof.
  intro E. assert (OK : frame_ok (F_ctl (ctl_payload T_STOP []))) by (vm_compute; split; discriminate).
  assert (E' : stop_frame = wire1 (F_ctl (ctl_payload T_STOP [])) ++ []) by reflexivity.
  split.
  - split.
    + intros f more F X. subst t. rewrite E', <- app_assoc in E. apply wire1_inj in E as [_ E]; [|assumption|assumption].
      destruct more; discriminate.
    + intro B. apply (bad_header_app _ (v :: u)) in B. rewrite <- E, E' in B. exact (frame_not_bad _ _ OK B).
  - apply (calm_left t (v :: u)). rewrite <- E. apply calm_ctl.
Qed.

Section J.
Set Default Proof Using "All".
Variables (cts : list bytes) (e : env) (a : args).
Notation sct := (a_ctype a).
Notation hw := (capture_highwater a).
Hypothesis agreed : agree cts sct.
Hypothesis ready_ok : fits true T_READY cts.
Hypothesis ready_small : lenN (ready_frame cts) < 512.
Hypothesis sct_ok : lenN sct <= CT_MAX.
Hypothesis room : 512 <= hw.
Hypothesis SE : sends e.
Notation facts := (facts cts a).
Notation server_facts := (server_facts cts e a agreed ready_ok ready_small sct_ok room SE).

(** The server confirms the end only when it has read the STOP frame to its last byte. *)
Lemma no_early_finish i H c s iov bs : reach e a H c -> going cts s -> talk cts (s ++ iov) ->
  prefix bs iov -> bs <> iov -> prefix (SpecCapture.received i H) (s ++ bs) -> ~ In (Answer finish_frame) (acts_of i (x_log c)).
Proof.
  intros RE GO TK PB NE PR IN. destruct (prefix_strict _ _ PB) as [X|(v & u & EI)]; [exact (NE X)|].
  assert (PI : prefix (SpecCapture.received i H) (s ++ iov)) by (eapply prefix_trans; [exact PR|apply prefix_app2, PB]).
  destruct TK as [G|(ds & F & EW)].
  { exact (f_going _ _ _ _ _ _ (server_facts i H c (s ++ iov) RE PI (or_introl G)) G IN). }
  assert (EA : HEAD cts ++ datas ds ++ stop_frame = (s ++ bs) ++ v :: u) by (rewrite <- EW, EI, <- app_assoc; reflexivity).
  rewrite app_assoc in EA.
  assert (NF : ~ In (Answer finish_frame) (Answer (ACC sct) :: kept_of hw ds)).
  { intros [E|E]; [exact (acc_not_finish hw cts sct agreed ready_ok ready_small sct_ok room E)|exact (no_finish_kept hw cts sct agreed ready_ok ready_small sct_ok room _ E)]. }
  destruct (N.le_gt_cases (lenN (s ++ bs)) (lenN (HEAD cts ++ datas ds))) as [LE|GT].
  - assert (P1 : prefix (s ++ bs) (HEAD cts ++ datas ds)).
    { eapply prefix_both; [exists (v :: u); exact EA|exists stop_frame; reflexivity|exact LE]. }
    apply NF. eapply prefix_in; [|exact IN].
    eapply (follows hw cts sct agreed ready_ok ready_small sct_ok room e a i H c _ eq_refl eq_refl SE RE (prefix_trans _ _ _ PR P1)).
    apply (react_open hw cts sct agreed ready_ok ready_small sct_ok room ds F).
  - assert (P1 : prefix (HEAD cts ++ datas ds) (s ++ bs)).
    { eapply prefix_both; [exists stop_frame; reflexivity|exists (v :: u); exact EA|lia]. }
    destruct P1 as [t Et]. rewrite Et, <- (app_assoc _ t) in EA. apply app_inv_head in EA. destruct (stop_part _ _ _ EA) as [T1 T2].
    apply NF. eapply prefix_in; [|exact IN]. rewrite <- (app_nil_r (kept_of hw ds)).
    eapply (follows hw cts sct agreed ready_ok ready_small sct_ok room e a i H c _ eq_refl eq_refl SE RE PR). rewrite Et.
    unfold HEAD. rewrite <- !app_assoc. apply (react_ready hw cts sct agreed ready_ok ready_small sct_ok room), (react_start hw cts sct agreed ready_ok ready_small sct_ok room), (react_datas hw cts sct agreed ready_ok ready_small sct_ok room _ F).
    apply ra_wait; [exact T1|exact T2].
Qed.

Variables (T0 : Type) (p0 : io T0) (Q0 : trace -> T0 -> Prop) (m cap : N).
Notation joint := (joint (A := T0)).
Notation bjoint := (bjoint (A := T0)).
Notation J := (J cts e a T0 p0 Q0 m).
Notation mu := (mu a T0).

(** While a write is in progress the state corresponds to one in which it has
    been done. *)
Definition ahead (j : joint) : joint :=
  match j_prog j with
  | Vis (QWrite h iov) k => answered j (QWrite h iov) k (ARes r_success) (j_id j) (j_past j)
  | _ => j
  end.
Definition U (b : bjoint) : joint := match b_in b with [] => b_joint b | _ => ahead (b_joint b) end.

Lemma ahead_same j : j_id (ahead j) = j_id j /\ j_hist (ahead j) = j_hist j /\ j_srv (ahead j) = j_srv j /\ j_past (ahead j) = j_past j.
Proof. unfold ahead. destruct (j_prog j) as [| |[]]; auto. Qed.
Lemma U_same b : j_id (U b) = j_id (b_joint b) /\ j_hist (U b) = j_hist (b_joint b) /\ j_srv (U b) = j_srv (b_joint b) /\ j_past (U b) = j_past (b_joint b).
Proof. unfold U. destruct (b_in b); [auto|apply ahead_same]. Qed.

Record busy (j : joint) (bs : bytes) (h : nat) (iov : list bytes) (k : ans -> io T0) (i : nat) : Prop := {
  y_prog : j_prog j = Vis (QWrite h iov) k;
  y_id : j_id j = Some i;
  y_part : prefix bs (concat iov);
  y_going : going cts (sent (j_tr j));
  y_talk : talk cts (sent (j_tr j) ++ concat iov);
  y_read : prefix (SpecCapture.received i (j_hist j)) (sent (j_tr j) ++ bs);
  y_sent : sent (j_tr j ++ [(QWrite h iov, ARes r_success)]) = sent (j_tr j) ++ concat iov }.

Record K (b : bjoint) : Prop := {
  K_J : J (U b);
  K_in : b_in b <> [] -> exists h iov k i, busy (b_joint b) (b_in b) h iov k i;
  K_cap : forall i, j_id (b_joint b) = Some i -> lenN (passed b) <= lenN (SpecCapture.received i (j_hist (b_joint b))) + cap }.

Lemma busy_start j h iov k i : J j -> j_prog j = Vis (QWrite h iov) k -> j_id j = Some i -> busy j [] h iov k i.
Proof.
  intros I E EI. pose proof (J_wpq _ _ _ _ _ _ _ _ I) as W. rewrite E in W. destruct W as [(GL & GG & GT) _].
  pose proof (J_here _ _ _ _ _ _ _ _ I) as P. unfold partner in P. rewrite EI in P. destruct P as (P1 & P2 & P3).
  split; auto.
  - exists (concat iov). reflexivity.
  - rewrite app_nil_r. exact P2.
  - assert (A : At (j_tr j) (sent (j_tr j)) (SpecTrace.received (j_tr j)) true) by (eapply (J_at cts e a); eassumption).
    exact (at_s _ _ _ _ (at_write _ _ _ h iov A)).
Qed.
Lemma busy_of b h iov k i : K b -> j_prog (b_joint b) = Vis (QWrite h iov) k -> j_id (b_joint b) = Some i ->
  busy (b_joint b) (b_in b) h iov k i.
Proof.
  intros KB E EI. destruct b as [j [|v bs]]; cbn [b_joint b_in] in *.
  - apply busy_start; auto. exact (K_J _ KB).
  - destruct (K_in _ KB) as (h' & iov' & k' & i' & Y); [discriminate|]. cbn [b_joint b_in] in Y.
    pose proof (y_prog _ _ _ _ _ _ Y) as E'. pose proof (y_id _ _ _ _ _ _ Y) as EI'. rewrite E in E'. rewrite EI in EI'.
    injection E' as -> -> ->. injection EI' as ->. exact Y.
Qed.
Lemma busy_reach b : K b -> reach e a (j_hist (b_joint b)) (j_srv (b_joint b)).
Proof. intro KB. destruct (U_same b) as (_ & <- & <- & _). apply (K_J _ KB). Qed.

(** A connection on which a write is in progress has not been closed. *)
Lemma busy_up b h iov k i : K b -> busy (b_joint b) (b_in b) h iov k i -> b_in b <> concat iov -> ~ dropped (b_joint b) i.
Proof.
  intros KB [E EI P G T R _] NE D.
  refine (no_early_finish i _ _ _ _ _ (busy_reach b KB) G T P NE R _).
  destruct (U_same b) as (U1 & U2 & U3 & _). rewrite <- U3.
  eapply (J_dropped cts e a); try eassumption; [apply KB|rewrite U1; exact EI|]. unfold dropped. rewrite U2, U3. exact D.
Qed.

Lemma K_start H c : J (meeting p0 H c) -> K (mk_bjoint (meeting p0 H c) []).
Proof. intro I. split; [exact I|intro X; destruct (X eq_refl)|discriminate]. Qed.

Lemma K_writer b b' : K b -> b_writer cap b b' -> K b'.
Proof.
  intros KB M. destruct M as [j j' NW M|j bs h iov k i chunk E EI NE P L|j h iov k i E EI|j bs h iov k i r E EI D NR NE].
  - assert (I' : J j') by (eapply (J_writer cts e a); try eassumption; exact (K_J _ KB)).
    split; [exact I'|intro X; destruct (X eq_refl)|]. cbn [b_joint]. unfold passed. cbn [b_joint b_in]. rewrite app_nil_r.
    pose proof (K_cap _ KB) as C. unfold passed in C. cbn [b_joint b_in] in C. rewrite app_nil_r in C.
    pose proof (K_J _ KB) as IJ. cbn [U b_in b_joint] in IJ.
    destruct M as [j h k i E NA NP|j h iov k i E EI|j h iov k i r E EI D|j h n k i bs E EI L P|j h n k i r bs E EI D NS L|j h k i E EI|j h k E EI];
      cbn [answered j_id j_tr j_hist]; intros i0 E0; try (destruct (NW _ _ _ E)); try discriminate.
    + pose proof (J_wpq _ _ _ _ _ _ _ _ IJ) as W. rewrite E in W. destruct W as [GQ _].
      assert (A : At (j_tr j) (sent (j_tr j)) (SpecTrace.received (j_tr j)) false) by (split; auto; discriminate).
      rewrite (at_s _ _ _ _ (at_open _ _ _ h A)). unfold lenN. cbn [length]. lia.
    + assert (A : At (j_tr j) (sent (j_tr j)) (SpecTrace.received (j_tr j)) true) by (eapply (J_at cts e a); eassumption).
      rewrite (at_s _ _ _ _ (at_read _ _ _ h n bs A)). apply C. congruence.
    + exfalso. pose proof (J_wpq _ _ _ _ _ _ _ _ IJ) as W. rewrite E in W. destruct W as [(GL & GR) _].
      assert (FI : In (Answer finish_frame) (acts_of i (x_log (j_srv j)))) by (eapply (J_dropped cts e a); eassumption).
      assert (F : facts i (j_hist j) (j_srv j) (sent (j_tr j))) by (eapply (J_facts cts e a); eassumption).
      rewrite (f_done _ _ _ _ _ _ F FI) in L. destruct GR as [[GS GR]|(ds & FD & GS & GR)].
      * apply (f_going _ _ _ _ _ _ F); [|exact FI]. right. left. exact GS.
      * lia.
  - pose proof (busy_of _ h iov k i KB E EI) as Y. cbn [b_joint b_in] in Y.
    assert (NN : bs ++ chunk <> []) by (destruct bs; [exact NE|discriminate]).
    split.
    + assert (X : J (ahead j)).
      { destruct bs as [|v bs]; [|exact (K_J _ KB)]. eapply (J_writer cts e a); try eassumption; [exact (K_J _ KB)|].
        cbn [U b_in b_joint]. unfold ahead. rewrite E, EI. eapply wm_write; eassumption. }
      unfold U. cbn [b_in b_joint]. destruct (bs ++ chunk); [contradiction|exact X].
    + intros _. exists h, iov, k, i. cbn [b_joint b_in]. destruct Y as [Y1 Y2 Y3 Y4 Y5 Y6 Y7]. split; auto.
      eapply prefix_trans; [exact Y6|]. rewrite app_assoc. apply prefix_l.
    + cbn [b_joint b_in]. unfold passed. cbn [b_joint b_in]. intros i0 E0. rewrite EI in E0. injection E0 as <-. exact L.
  - pose proof (busy_of _ h iov k i KB E EI) as Y. cbn [b_joint b_in] in Y.
    split.
    + cbn [U b_in b_joint]. pose proof (K_J _ KB) as X. unfold U in X. cbn [b_in b_joint] in X. destruct (concat iov) as [|v bs] eqn:EC.
      * eapply (J_writer cts e a); try eassumption. eapply wm_write; eassumption.
      * unfold ahead in X. rewrite E, EI in X. exact X.
    + intro X. destruct (X eq_refl).
    + cbn [b_joint]. unfold passed. cbn [b_joint b_in answered j_id j_tr j_hist]. rewrite app_nil_r, (y_sent _ _ _ _ _ _ Y).
      intros i0 [= <-]. pose proof (K_cap _ KB) as C. exact (C i EI).
  - exfalso. refine (busy_up _ h iov k i KB (busy_of _ h iov k i KB E EI) NE D).
Qed.

Lemma U_server b x b' : K b -> b_server e a m b x b' -> server_moves e a m (U b) x (U b').
Proof.
  intros KB [c' j L NW S]. destruct (U_same b) as (U1 & U2 & U3 & U4).
  assert (X : forall c'', U (mk_bjoint (mk_joint (j_prog j) (j_tr j) (j_id j) (j_past j) (j_hist j ++ [x]) c'') (b_in b)) =
    mk_joint (j_prog (U b)) (j_tr (U b)) (j_id (U b)) (j_past (U b)) (j_hist (U b) ++ [x]) c'').
  { intro c''. rewrite U1, U2, U4. unfold U. cbn [b_in b_joint]. destruct (b_in b); [reflexivity|]. unfold ahead. cbn [j_prog].
    subst j. destruct (j_prog (b_joint b)) as [| |[]] eqn:EP; rewrite ?EP; reflexivity. }
  rewrite X. subst j. rewrite <- U2, <- U3 in L. rewrite <- U3 in S. constructor; [exact L| |exact S].
  destruct x as [u|u chunk|u|u| |]; cbn [network b_network] in *; rewrite ?U1, ?U2, ?U4; auto.
  destruct NW as (N1 & N2 & N3). split; [exact N1|]. split; [|exact N3]. intro EI. specialize (N2 EI).
  eapply prefix_trans; [exact N2|]. unfold passed, U. destruct (b_in b) as [|v bs] eqn:EB.
  - rewrite app_nil_r. exists []. rewrite app_nil_r. reflexivity.
  - destruct (K_in _ KB) as (h & iov & k & i & Y); [rewrite EB; discriminate|]. unfold ahead. rewrite (y_prog _ _ _ _ _ _ Y).
    cbn [answered j_tr]. rewrite (y_sent _ _ _ _ _ _ Y), <- EB. apply prefix_app2, Y.
Qed.

Lemma K_server b x b' : K b -> b_server e a m b x b' -> K b'.
Proof.
  intros KB M. pose proof (U_server b x b' KB M) as MU.
  assert (I' : J (U b')) by (eapply (J_server cts e a); [..|exact MU]; try eassumption; apply KB).
  destruct M as [c' j L NW S]. split; [exact I'| |]; subst j; cbn [b_joint b_in j_id j_hist].
  - intro NE. destruct (K_in _ KB NE) as (h & iov & k & i & [Y1 Y2 Y3 Y4 Y5 Y6 Y7]). exists h, iov, k, i. split; auto.
    cbn [j_tr j_hist]. rewrite Capture4_proofs.received_snoc. destruct x as [u|u chunk|u|u| |]; rewrite ?app_nil_r; auto.
    destruct (Nat.eqb_spec u i) as [->|_]; [|rewrite app_nil_r; exact Y6]. apply (proj1 (proj2 NW)). exact Y2.
  - intros i EI. pose proof (K_cap _ KB i EI) as C. unfold passed in *. cbn [b_joint b_in j_tr].
    rewrite Capture4_proofs.received_snoc, !lenN_app in *. lia.
Qed.

Lemma K_run b0 n b : K b0 -> b_run e a m cap b0 n b -> K b.
Proof. intros I R. induction R; auto; [eapply K_writer|eapply K_server|eapply K_server]; eassumption. Qed.

(** ** Progress *)
Lemma server_can u i v : output_works e -> 1 <= m -> m + 7 < hw -> J u -> j_id u = Some i -> ~ dropped u i ->
  prefix (SpecCapture.received i (j_hist u) ++ [v]) (sent (j_tr u)) ->
  (exists x c', (x = E_accept i \/ x = E_data i [v]) /\ legal a (j_hist u) (j_srv u) x /\ step e a x (j_srv u) = Go c') \/
  (~ accepted i (j_hist u) /\ (0 < a_conns a)%Z /\ (a_conns a <= Z.of_nat (length (x_conns (j_srv u))))%Z).
Proof.
  intros OW M1 M2 I EI ND PB.
  assert (F : facts i (j_hist u) (j_srv u) (sent (j_tr u))) by (eapply (J_facts cts e a); eassumption).
  destruct (accepted_or i (j_hist u)) as [AC|NA].
  - left. destruct (find_conn i (x_conns (j_srv u))) as [c|] eqn:FC; [|destruct (ND (conj AC FC))].
    assert (LEG : legal a (j_hist u) (j_srv u) (E_data i [v])).
    { split; [discriminate|]. exists c. split; [exact FC|]. rewrite lenN_app. change (lenN [v]) with 1.
      assert (T : tame (SpecCapture.received i (j_hist u))).
      { destruct PB as [w PB]. apply tame_prefix with (b := [v] ++ w). rewrite app_assoc, <- PB. apply F. }
      pose proof (run_not_full e a i m SE M2 _ _ (J_re _ _ _ _ _ _ _ u I) (J_rb _ _ _ _ _ _ _ u I) T c FC). lia. }
    destruct (step_or_endless false e a _ _ _ (or_introl SE) OW (J_re _ _ _ _ _ _ _ u I) LEG) as [(c' & ST)|(_ & id & chunk & acts & E1 & E2)].
    + exists (E_data i [v]), c'. auto.
    + exfalso. injection E1 as <- <-. rewrite Capture4_proofs.received_snoc, Nat.eqb_refl in E2.
      exact (f_calm _ _ _ _ _ _ F _ _ PB E2).
  - destruct (x_listen (j_srv u)) eqn:EL.
    + left. exists (E_accept i). eexists. split; [auto|]. split; [split; eassumption|reflexivity].
    + right. split; [exact NA|]. destruct (reach_inv _ _ _ _ (J_re _ _ _ _ _ _ _ u I)) as [C _].
      pose proof (cn_listen _ _ _ C) as L1. rewrite EL, (cn_rem _ _ _ C) in L1.
      destruct (0 <? a_conns a)%Z eqn:EC; [|discriminate]. apply Z.ltb_lt in EC. split; [exact EC|].
      symmetry in L1. apply Z.ltb_ge in L1. unfold remaining0 in L1. apply Z.ltb_lt in EC. rewrite EC in L1. lia.
Qed.

Lemma K_progress b : output_works e -> 1 <= m -> m + 7 < hw -> 1 <= cap -> K b ->
  (exists r, j_prog (b_joint b) = Ret r) \/ (exists b', b_writer cap b b') \/
  (exists x b', its_own (b_joint b) x /\ b_server e a m b x b') \/
  (exists i, j_id (b_joint b) = Some i /\ ~ accepted i (j_hist (b_joint b)) /\
     (0 < a_conns a)%Z /\ (a_conns a <= Z.of_nat (length (x_conns (j_srv (b_joint b)))))%Z).
Proof.
  intros OW M1 M2 C1 KB.
  assert (W : (exists h iov k, j_prog (b_joint b) = Vis (QWrite h iov) k) \/ forall h iov k, j_prog (b_joint b) <> Vis (QWrite h iov) k).
  { destruct (j_prog (b_joint b)) as [r|f|[h|h|h n|h iov|h|h| |q0| |q0|q0] k]; try (right; discriminate). left. eauto. }
  destruct W as [(h & iov & k & E)|NW].
  - assert (ID : exists i, j_id (b_joint b) = Some i).
    { destruct (b_in b) as [|v bs] eqn:EB.
      - pose proof (K_J _ KB) as IJ. unfold U in IJ. rewrite EB in IJ. pose proof (J_wpq _ _ _ _ _ _ _ _ IJ) as W. rewrite E in W.
        destruct W as [(GL & _) _]. pose proof (J_link _ _ _ _ _ _ _ _ IJ) as LK. rewrite GL in LK.
        destruct (j_id (b_joint b)); [eauto|discriminate].
      - destruct (K_in _ KB) as (h' & iov' & k' & i & Y); [rewrite EB; discriminate|]. exists i. apply Y. }
    destruct ID as (i & EI). pose proof (busy_of b h iov k i KB E EI) as Y. right.
    destruct b as [j bs]. cbn [b_joint b_in] in *.
    destruct (prefix_strict _ _ (y_part _ _ _ _ _ _ Y)) as [->|(v & u & EV)]; [left; eexists; eapply bw_done; eassumption|].
    destruct (N.le_gt_cases (lenN (sent (j_tr j) ++ bs ++ [v])) (lenN (SpecCapture.received i (j_hist j)) + cap)) as [LE|GT].
    { left. eexists. eapply bw_put with (chunk := [v]); try eassumption; [discriminate|]. exists u. rewrite EV, <- app_assoc. reflexivity. }
    right. assert (NE : bs <> concat iov) by (intros ->; rewrite <- (app_nil_r (concat iov)) in EV at 1; apply app_inv_head in EV; discriminate).
    pose proof (busy_up _ h iov k i KB Y NE) as ND. cbn [b_joint] in ND.
    destruct (prefix_strict _ _ (y_read _ _ _ _ _ _ Y)) as [X|(y & rest & X)].
    { exfalso. rewrite X in GT. rewrite !lenN_app in GT. change (lenN [v]) with 1 in GT. lia. }
    assert (PB : prefix (SpecCapture.received i (j_hist j) ++ [y]) (sent (j_tr j) ++ bs)) by (exists rest; rewrite X, <- app_assoc; reflexivity).
    destruct (U_same (mk_bjoint j bs)) as (U1 & U2 & U3 & U4). cbn [b_joint] in U1, U2, U3, U4.
    assert (PU : prefix (sent (j_tr j) ++ bs) (sent (j_tr (U (mk_bjoint j bs))))).
    { unfold U. cbn [b_in b_joint]. destruct bs as [|z bs].
      - rewrite app_nil_r. exists []. rewrite app_nil_r. reflexivity.
      - unfold ahead. rewrite E. cbn [answered j_tr]. rewrite (y_sent _ _ _ _ _ _ Y). apply prefix_app2, Y. }
    destruct (server_can (U (mk_bjoint j bs)) i y) as [(x & c' & EX & LG & ST)|X1]; auto.
    + apply KB.
    + rewrite U1. exact EI.
    + unfold dropped. rewrite U2, U3. exact ND.
    + rewrite U2. eapply prefix_trans; eassumption.
    + left. rewrite U2, U3 in LG. rewrite U3 in ST. exists x. eexists. split; [|constructor; [exact LG| |exact ST]].
      * destruct EX as [-> | ->]; exact EI.
      * destruct EX as [-> | ->]; cbn [b_network b_joint]; auto. split; [exact M1|]. split; [intros _; exact PB|].
        intros s IN. exfalso. eapply (J_new cts e a); [apply KB|rewrite U1; exact EI|rewrite U4; exact IN].
    + right. exists i. rewrite U2, U3 in X1. auto.
  - assert (EB : b_in b = []).
    { destruct (b_in b) as [|v bs] eqn:EB; [reflexivity|]. destruct (K_in _ KB) as (h & iov & k & i & Y); [rewrite EB; discriminate|].
      destruct (NW _ _ _ (y_prog _ _ _ _ _ _ Y)). }
    destruct b as [j bs]. cbn [b_joint b_in] in *. subst bs. pose proof (K_J _ KB) as IJ. cbn [U b_in b_joint] in IJ.
    destruct (J_progress cts e a agreed ready_ok ready_small sct_ok room SE T0 p0 Q0 m j OW M1 M2 IJ) as [X|[(j' & M)|[(x & j' & O & [c' LG NK ST])|X]]]; auto.
    + right. left. exists (mk_bjoint j' []). apply bw_other; assumption.
    + right. right. left. exists x. eexists. split; [exact O|]. constructor; [exact LG| |exact ST].
      destruct x as [i|i chunk|i|i| |]; auto. cbn [b_network]. unfold passed. cbn [b_joint b_in]. rewrite app_nil_r. exact NK.
Qed.

(** ** Bound *)
Definition rest_of (b : bjoint) : nat :=
  match b_in b with
  | [] => 0
  | _ => match j_prog (b_joint b) with Vis (QWrite _ iov) _ => S (length (concat iov) - length (b_in b)) | _ => 0 end
  end.
Definition nu (b : bjoint) : nat := (mu (U b) + weight sct (j_prog (U b)) (j_tr (U b)) + rest_of b)%nat.

Lemma weight_other j j' : J j -> writer_moves j j' -> (S (weight sct (j_prog j') (j_tr j')) <= weight sct (j_prog j) (j_tr j))%nat /\
  (forall h iov k, j_prog j = Vis (QWrite h iov) k -> (S (length (concat iov)) + weight sct (j_prog j') (j_tr j') <= weight sct (j_prog j) (j_tr j))%nat).
Proof.
  intros I M. pose proof (J_wpq _ _ _ _ _ _ _ _ I) as W.
  destruct M as [j h k i E NA NP|j h iov k i E EI|j h iov k i r E EI D|j h n k i bs E EI L P|j h n k i r bs E EI D NS L|j h k i E EI|j h k E EI];
    rewrite E in W; destruct W as [GQ W]; rewrite E; cbn [weight costs ans_of answered j_prog j_tr].
  - split; [lia|discriminate].
  - split; [lia|]. intros ? ? ? [= <- <- <-]. lia.
  - exfalso. destruct GQ as (GL & GG & GT).
    assert (FI : In (Answer finish_frame) (acts_of i (x_log (j_srv j)))) by (eapply (J_dropped cts e a); eassumption).
    assert (F : facts i (j_hist j) (j_srv j) (sent (j_tr j))) by (eapply (J_facts cts e a); eassumption).
    exact (f_going _ _ _ _ _ _ F GG FI).
  - assert (F : facts i (j_hist j) (j_srv j) (sent (j_tr j))) by (eapply (J_facts cts e a); eassumption).
    assert (EB : firstn (N.to_nat n) (skipn (length (SpecTrace.received (j_tr j))) (SCRIPT sct)) = bs).
    { destruct (prefix_trans _ _ _ P (f_script _ _ _ _ _ _ F)) as [u ->]. rewrite <- app_assoc, skipn_app, skipn_all, Nat.sub_diag.
      cbn [app skipn]. subst n. unfold lenN. rewrite Nnat.Nat2N.id, firstn_app, firstn_all, Nat.sub_diag. cbn. apply app_nil_r. }
    rewrite EB. split; [lia|discriminate].
  - exfalso. destruct GQ as (GL & GR).
    assert (FI : In (Answer finish_frame) (acts_of i (x_log (j_srv j)))) by (eapply (J_dropped cts e a); eassumption).
    assert (F : facts i (j_hist j) (j_srv j) (sent (j_tr j))) by (eapply (J_facts cts e a); eassumption).
    rewrite (f_done _ _ _ _ _ _ F FI) in L. destruct GR as [[GS GR]|(ds & FD & GS & GR)].
    + apply (f_going _ _ _ _ _ _ F); [|exact FI]. right. left. exact GS.
    + lia.
  - split; [lia|discriminate].
  - split; [lia|discriminate].
Qed.

Lemma nu_writer b b' : K b -> b_writer cap b b' -> (S (nu b') <= nu b)%nat.
Proof.
  intros KB M. destruct M as [j j' NW M|j bs h iov k i chunk E EI NE P L|j h iov k i E EI|j bs h iov k i r E EI D NR NE].
  - pose proof (K_J _ KB) as IJ. cbn [U b_in b_joint] in IJ. unfold nu, rest_of. cbn [U b_in b_joint].
    assert (X : (S (mu j') <= mu j)%nat) by (eapply (mu_writer cts e a); eassumption).
    pose proof (proj1 (weight_other j j' IJ M)). lia.
  - pose proof (prefix_len _ _ P) as PL. unfold lenN in PL. assert (LC : (1 <= length chunk)%nat) by (destruct chunk; [contradiction|cbn; lia]).
    rewrite app_length in PL. unfold nu, rest_of, U. cbn [b_in b_joint]. destruct bs as [|v bs].
    + cbn [app]. destruct chunk as [|v chunk]; [contradiction|]. rewrite E.
      pose proof (K_J _ KB) as IJ. cbn [U b_in b_joint] in IJ.
      assert (M : writer_moves j (ahead j)) by (unfold ahead; rewrite E, EI; eapply wm_write; eassumption).
      assert (X : (S (mu (ahead j)) <= mu j)%nat) by (eapply (mu_writer cts e a); eassumption).
      pose proof (proj2 (weight_other j _ IJ M) _ _ _ E). rewrite E in *. cbn [length] in *. lia.
    + cbn [app]. rewrite E. cbn [length] in *. rewrite app_length. lia.
  - unfold nu, rest_of, U. cbn [b_in b_joint]. pose proof (K_J _ KB) as IJ. unfold U in IJ. cbn [U b_in b_joint] in IJ.
    set (j' := answered j _ _ _ _ _). destruct (concat iov) as [|v bs] eqn:EC.
    + assert (M : writer_moves j j') by (eapply wm_write; eassumption).
      assert (X : (S (mu j') <= mu j)%nat) by (eapply (mu_writer cts e a); eassumption).
      pose proof (proj1 (weight_other j _ IJ M)). lia.
    + assert (EJ : ahead j = j') by (unfold ahead; rewrite E, EI; reflexivity). rewrite EJ, E. lia.
  - exfalso. refine (busy_up _ h iov k i KB (busy_of _ h iov k i KB E EI) NE D).
Qed.

Lemma nu_server b x b' : K b -> b_server e a m b x b' ->
  (nu b' <= nu b)%nat /\ (its_own (b_joint b) x -> (S (nu b') <= nu b)%nat).
Proof.
  intros KB M. pose proof (U_server b x b' KB M) as MU.
  assert (X : ((if match x with E_accept i | E_data i _ => match j_id (U b) with Some u => Nat.eqb i u | None => false end | _ => false end
    then S (mu (U b')) else mu (U b')) <= mu (U b))%nat) by (eapply (mu_server cts e a); [..|exact MU]; try eassumption; apply KB).
  assert (Y : j_prog (U b') = j_prog (U b) /\ j_tr (U b') = j_tr (U b)) by (destruct MU; auto). destruct Y as [Y1 Y2].
  assert (Z : rest_of b' = rest_of b) by (destruct M; reflexivity).
  unfold nu. rewrite Y1, Y2, Z. destruct (U_same b) as (U1 & _). rewrite U1 in X. split.
  - match type of X with ((if ?b then _ else _) <= _)%nat => destruct b end; lia.
  - intro O. destruct x as [u|u v|u|u| |]; cbn in O; try contradiction; rewrite O, Nat.eqb_refl in X; lia.
Qed.

Lemma nu_run b0 n b : K b0 -> b_run e a m cap b0 n b -> (n + nu b <= nu b0)%nat.
Proof.
  intros I R. induction R as [|n b b' R IH M|n b x b' R IH O M|n b x b' R IH O M]; [lia| | |]; pose proof (K_run b0 n b I R) as IJ.
  - pose proof (nu_writer b b' IJ M). lia.
  - pose proof (proj2 (nu_server b x b' IJ M) O). lia.
  - pose proof (proj1 (nu_server b x b' IJ M)). lia.
Qed.

(** When the program has ended no write is in progress. *)
Lemma K_end b : K b -> (forall h iov k, j_prog (b_joint b) <> Vis (QWrite h iov) k) -> J (b_joint b).
Proof.
  intros KB NW. pose proof (K_J _ KB) as X. unfold U in X. destruct (b_in b) as [|v bs] eqn:EB; [exact X|].
  destruct (K_in _ KB) as (h & iov & k & i & Y); [rewrite EB; discriminate|]. destruct (NW _ _ _ (y_prog _ _ _ _ _ _ Y)).
Qed.
End J.

(** ** Together *)
Section Together.
Variables (iovm : nat) (cts : list bytes) (rw : rdwr) (w : writer) (cs : list wcall) (e : env) (a : args) (m cap : N) (H : list ev) (c : ctx).
Hypothesis WM : well_met iovm cts rw w cs e a m H c.

Lemma brun_K n b : b_run e a m cap (b_meet w cs H c) n b -> K cts e a _ (do_wcalls w cs) (Q1 cts cs a) m cap b.
Proof.
  apply K_run; try apply WM; [exact (wm_fits _ _ _ _ _ _ _ _ _ _ WM)|]. apply K_start; try apply WM; [exact (wm_fits _ _ _ _ _ _ _ _ _ _ WM)|].
  exact (start_J _ _ _ _ _ _ _ _ _ _ WM).
Qed.

Lemma bpair_results n b : b_run e a m cap (b_meet w cs H c) n b ->
  match j_prog (b_joint b) with Ret r => fst r = stage_results U_fresh cs | Fail _ => False | Vis _ _ => True end.
Proof.
  intro R. destruct (j_prog (b_joint b)) as [r|f|q k] eqn:E; [| |exact Logic.I].
  - assert (X : J cts e a _ (do_wcalls w cs) (Q1 cts cs a) m (b_joint b)) by (eapply (K_end cts e a); try apply WM; [exact (wm_fits _ _ _ _ _ _ _ _ _ _ WM)|exact (brun_K n b R)|rewrite E; discriminate]).
    apply J_wpq in X. rewrite E in X. apply X.
  - assert (X : J cts e a _ (do_wcalls w cs) (Q1 cts cs a) m (b_joint b)) by (eapply (K_end cts e a); try apply WM; [exact (wm_fits _ _ _ _ _ _ _ _ _ _ WM)|exact (brun_K n b R)|rewrite E; discriminate]).
    apply J_wpq in X. rewrite E in X. exact X.
Qed.

Lemma bpair_cap n b i : b_run e a m cap (b_meet w cs H c) n b -> j_id (b_joint b) = Some i ->
  lenN (passed b) <= lenN (SpecCapture.received i (j_hist (b_joint b))) + cap.
Proof. intro R. apply (K_cap _ _ _ _ _ _ _ _ _ (brun_K n b R)). Qed.

Lemma bpair_progress n b : output_works e -> 1 <= m -> m + 7 < capture_highwater a -> 1 <= cap ->
  b_run e a m cap (b_meet w cs H c) n b ->
  (exists r, j_prog (b_joint b) = Ret r) \/ (exists b', b_writer cap b b') \/
  (exists x b', its_own (b_joint b) x /\ b_server e a m b x b') \/
  (exists i, j_id (b_joint b) = Some i /\ ~ accepted i (j_hist (b_joint b)) /\
     (0 < a_conns a)%Z /\ (a_conns a <= Z.of_nat (length (x_conns (j_srv (b_joint b)))))%Z).
Proof.
  intros OW M1 M2 C1 R. eapply (K_progress cts e a); try apply WM; try assumption; [exact (wm_fits _ _ _ _ _ _ _ _ _ _ WM)|exact (brun_K n b R)].
Qed.

Lemma bpair_bound n b : b_run e a m cap (b_meet w cs H c) n b -> (n <= 2 * weight (a_ctype a) (do_wcalls w cs) [])%nat.
Proof.
  intro R. assert (X : (n + nu a _ b <= nu a _ (b_meet w cs H c))%nat).
  { eapply (nu_run cts e a); try apply WM; [exact (wm_fits _ _ _ _ _ _ _ _ _ _ WM)| |exact R].
    apply (brun_K 0). constructor. }
  unfold nu at 2 in X. cbn [b_meet meet U b_in b_joint rest_of] in X. unfold mu, pending in X. cbn [meet meeting j_prog j_tr j_id] in X. lia.
Qed.
End Together.

Lemma b_trans {T} e a m cap (b0 : bjoint (A := T)) n b : b_run e a m cap b0 n b -> forall n' b', b_run e a m cap b n' b' -> b_run e a m cap b0 (n + n') b'.
Proof.
  intros R n' b' R'. induction R' as [|k u v R' IH M|k u x v R' IH O M|k u x v R' IH O M].
  - rewrite Nat.add_0_r. exact R.
  - rewrite Nat.add_succ_r. eapply br_writer; eassumption.
  - rewrite Nat.add_succ_r. eapply br_own; eassumption.
  - eapply br_other; eassumption.
Qed.

Lemma bpair_finishes iovm cts rw w cs e a m cap H c n b :
  well_met iovm cts rw w cs e a m H c -> output_works e -> 1 <= m -> m + 7 < capture_highwater a -> 1 <= cap -> (a_conns a <= 0)%Z ->
  b_run e a m cap (b_meet w cs H c) n b ->
  exists n' b' r, b_run e a m cap b n' b' /\ j_prog (b_joint b') = Ret r.
Proof.
  intros WM OW M1 M2 C1 CL R.
  set (B := (2 * weight (a_ctype a) (do_wcalls w cs) [])%nat).
  enough (X : forall k n1 b1, b_run e a m cap b n1 b1 -> (B <= n + n1 + k)%nat ->
    exists n' b' r, b_run e a m cap b n' b' /\ j_prog (b_joint b') = Ret r).
  { apply (X B 0%nat b); [constructor|lia]. }
  induction k as [|k IH]; intros n1 b1 R1 L; pose proof (b_trans _ _ _ _ _ _ _ R _ _ R1) as R2;
    destruct (bpair_progress _ _ _ _ _ _ _ _ _ _ _ WM _ _ OW M1 M2 C1 R2) as [(r & E)|[(b' & M)|[(x & b' & O & M)|(i & _ & _ & X & _)]]]; try lia; eauto 6.
  - exfalso. pose proof (bpair_bound _ _ _ _ _ _ _ _ _ _ _ WM _ _ (br_writer _ _ _ _ _ _ _ _ R2 M)). lia.
  - exfalso. pose proof (bpair_bound _ _ _ _ _ _ _ _ _ _ _ WM _ _ (br_own _ _ _ _ _ _ _ _ _ R2 O M)). lia.
  - eapply IH; [eapply br_writer; eassumption|lia].
  - eapply IH; [eapply br_own; eassumption|lia].
Qed.

Lemma bpair_delivered iovm cts rw w cs e a m cap H c n b rs w' :
  well_met iovm cts rw w (cs ++ [WClose]) e a m H c ->
  b_run e a m cap (b_meet w (cs ++ [WClose]) H c) n b -> j_prog (b_joint b) = Ret (rs ++ [r_success], w') ->
  exists i, confirmed (j_hist (b_joint b)) (j_srv (b_joint b)) i cs rs /\
    stores (acts_of i (x_log (j_srv (b_joint b)))) = map data_frame (fit a (since_close [] cs rs)).
Proof.
  intros WM R E. pose proof (brun_K _ _ _ _ _ _ _ _ _ _ _ WM n b R) as KB.
  assert (I : J cts e a _ (do_wcalls w (cs ++ [WClose])) (Q1 cts (cs ++ [WClose]) a) m (b_joint b)) by (eapply (K_end cts e a); try apply WM; [exact (wm_fits _ _ _ _ _ _ _ _ _ _ WM)|exact KB|rewrite E; discriminate]).
  assert (X : exists i, confirmed (j_hist (b_joint b)) (j_srv (b_joint b)) i cs rs).
  { eapply (J_confirmed cts e a); try apply WM; [exact I| |exact E].
    pose proof (wm_calls _ _ _ _ _ _ _ _ _ _ WM) as F. apply Forall_app in F. apply F. }
  destruct X as (i & C). exists i. split; [exact C|]. eapply closed_stored; [|exact C|].
  - apply (J_re _ _ _ _ _ _ _ _ I).
  - apply since_ordinary; [|constructor]. pose proof (wm_payloads _ _ _ _ _ _ _ _ _ _ WM) as F. apply Forall_app in F. apply F.
Qed.

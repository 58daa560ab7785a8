(** A writer and a capture server together. *)
From Coq Require Import ZArith Lia.
From Verif Require Import Bytes Spec SpecTrace SpecStream Control Bytes_proofs Control_proofs Io Rdwr Writer Api SpecApi Writer_proofs Writer2_proofs SpecDeliver SpecPair
  Capture SpecCapture Pair Capture_proofs Capture2_proofs Capture3_proofs Capture4_proofs Capture5_proofs Capture7_proofs Capture8_proofs
  Deliver_proofs Writer5_proofs Pair_proofs Pair2_proofs.
Import ListNotations.
Local Open Scope N_scope.

Lemma prefix_snoc {T} (x y : list T) z : prefix x (y ++ [z]) -> x = y ++ [z] \/ prefix x y.
Proof.
  intros [u E]. destruct u as [|v u] using rev_ind; [left; rewrite app_nil_r in E; auto|right].
  rewrite app_assoc in E. apply app_inj_tail in E as [-> _]. exists u. reflexivity.
Qed.
Lemma prefix_len {T} (x y : list T) : prefix x y -> lenN x <= lenN y.
Proof. intros [u ->]. rewrite lenN_app. lia. Qed.
Lemma prefix_both {T} (x y z : list T) : prefix x z -> prefix y z -> lenN x <= lenN y -> prefix x y.
Proof.
  revert y z. induction x as [|v x IH]; intros y z P Q L; [exists y; reflexivity|].
  destruct y as [|w y]; [unfold lenN in L; cbn [length] in L; lia|].
  destruct P as [p P], Q as [q Q]. subst z. cbn [app] in Q. injection Q as -> Q.
  destruct (IH y (x ++ p)) as [u ->]; [eexists; reflexivity|exists q; exact Q|unfold lenN in *; cbn [length] in L; lia|].
  exists u. reflexivity.
Qed.

Definition costs (q : query) : nat :=
  match q with QOpen _ => 2 | QWrite _ iov => S (length (concat iov)) | _ => 1 end.
Fixpoint weight (sct : bytes) {A} (p : io A) (h : trace) : nat :=
  match p with
  | Vis q k => (costs q + weight sct (k (ans_of sct h q)) (h ++ [(q, ans_of sct h q)]))%nat
  | _ => 0%nat
  end.
Definition unaccepted (i : nat) (H : list ev) : nat :=
  if existsb (fun x => match x with E_accept u => Nat.eqb u i | _ => false end) H then 0 else 1.
Definition pending {A} (j : joint (A := A)) : nat :=
  match j_id j with
  | None => 0
  | Some i => unaccepted i (j_hist j) + (length (sent (j_tr j)) - length (SpecCapture.received i (j_hist j)))
  end.

Lemma unaccepted_1 i H : (unaccepted i H <= 1)%nat.
Proof. unfold unaccepted. destruct (existsb _ _); lia. Qed.
Lemma unaccepted_snoc i H x : unaccepted i (H ++ [x]) = match x with E_accept u => if Nat.eqb u i then 0%nat else unaccepted i H | _ => unaccepted i H end.
Proof.
  unfold unaccepted. rewrite existsb_app. cbn [existsb]. rewrite orb_false_r. destruct x as [u|u b|u|u| |]; rewrite ?orb_false_r; try reflexivity.
  destruct (Nat.eqb u i); [rewrite orb_true_r|rewrite orb_false_r]; reflexivity.
Qed.
Lemma unaccepted_not i H : ~ accepted i H -> unaccepted i H = 1%nat.
Proof.
  intro N. unfold unaccepted. destruct (existsb _ H) eqn:E; [|reflexivity]. apply existsb_exists in E as ([u|u b|u|u| |] & IN & E); try discriminate.
  apply Nat.eqb_eq in E as ->. destruct (N IN).
Qed.

Section J.
Set Default Proof Using "All".
Variables (cts : list bytes) (e : env) (a : args).
Notation sct := (a_ctype a).
Notation hw := (capture_highwater a).
Hypothesis agreed : agree cts sct.
Hypothesis ready_ok : fits true T_READY cts.
Hypothesis ready_small : lenN (ready_frame cts) < 512.
Hypothesis sct_ok : lenN sct <= CT_MAX.
Hypothesis room : 512 <= hw.
Hypothesis SE : sends e.

Record facts (i : nat) (H : list ev) (c : ctx) (s : bytes) : Prop := {
  f_up : ~ In Hangup (acts_of i (x_log c));
  f_script : prefix (concat (answers (acts_of i (x_log c)))) (SCRIPT sct);
  f_going : going cts s -> ~ In (Answer finish_frame) (acts_of i (x_log c));
  f_done : In (Answer finish_frame) (acts_of i (x_log c)) -> concat (answers (acts_of i (x_log c))) = SCRIPT sct;
  f_all : forall n, SpecCapture.received i H = s -> readable cts sct s n -> n <= lenN (concat (answers (acts_of i (x_log c))));
  f_tame : tame s;
  f_calm : forall bs acts, prefix bs s -> ~ reacts_any false hw sct Ph_ready bs acts Endless }.

Lemma whole_tame ds : Forall ordinary ds -> tame (HEAD cts ++ datas ds ++ stop_frame).
Proof.
  intro F. unfold HEAD. rewrite <- app_assoc, <- (app_nil_r stop_frame). apply session_tame.
  - eapply Forall_impl; [|exact F]. intros d [D1 D2]. unfold data_ok. split; [lia|exact D2].
  - exact ready_small.
  - pose proof (start_small hw cts sct agreed ready_ok ready_small sct_ok room). lia.
  - apply tame_nil.
Qed.

Lemma answers_whole ds : concat (answers (Answer (ACC sct) :: kept_of hw ds ++ [Answer finish_frame])) = SCRIPT sct.
Proof.
  change (Answer (ACC sct) :: kept_of hw ds ++ [Answer finish_frame]) with ([Answer (ACC sct)] ++ kept_of hw ds ++ [Answer finish_frame]).
  rewrite !answers_app, (answers_kept hw cts sct agreed ready_ok ready_small sct_ok room). reflexivity.
Qed.

Lemma server_facts i H c s : reach e a H c -> prefix (SpecCapture.received i H) s -> talk cts s -> facts i H c s.
Proof.
  intros RE PR T. destruct (talk_whole hw cts sct agreed ready_ok ready_small sct_ok room e a i H c _ eq_refl eq_refl SE RE PR T) as (ds & F & PS).
  pose proof (prefix_trans _ _ _ PR PS) as PW.
  pose proof (react_whole hw cts sct agreed ready_ok ready_small sct_ok room ds F) as RW.
  pose proof (follows hw cts sct agreed ready_ok ready_small sct_ok room e a i H c _ eq_refl eq_refl SE RE PW _ _ RW) as FW.
  assert (NF : ~ In (Answer finish_frame) (Answer (ACC sct) :: kept_of hw ds)).
  { intros [E|E]; [exact (acc_not_finish hw cts sct agreed ready_ok ready_small sct_ok room E)|exact (no_finish_kept hw cts sct agreed ready_ok ready_small sct_ok room _ E)]. }
  split.
  - intro I. apply (prefix_in _ _ _ FW) in I. destruct I as [I|I]; [discriminate|]. apply in_app_or in I as [I|[I|[]]]; [exact (no_hangup_kept hw cts sct agreed ready_ok ready_small sct_ok room _ I)|discriminate].
  - rewrite <- (answers_whole ds). destruct FW as [u ->]. rewrite answers_app, concat_app. eexists. reflexivity.
  - intros GO I. destruct GO as [->|[->|(ds' & F' & ->)]].
    + apply (prefix_in _ _ _ (follows hw cts sct agreed ready_ok ready_small sct_ok room e a i H c _ eq_refl eq_refl SE RE PR _ _ (react_none hw cts sct agreed ready_ok ready_small sct_ok room Ph_ready))) in I. destruct I.
    + apply (prefix_in _ _ _ (follows hw cts sct agreed ready_ok ready_small sct_ok room e a i H c _ eq_refl eq_refl SE RE PR _ _ (react_readied hw cts sct agreed ready_ok ready_small sct_ok room))) in I.
      destruct I as [I|[]]. exact (acc_not_finish hw cts sct agreed ready_ok ready_small sct_ok room I).
    + apply (prefix_in _ _ _ (follows hw cts sct agreed ready_ok ready_small sct_ok room e a i H c _ eq_refl eq_refl SE RE PR _ _ (react_open hw cts sct agreed ready_ok ready_small sct_ok room ds' F'))) in I.
      destruct I as [I|I]; [exact (acc_not_finish hw cts sct agreed ready_ok ready_small sct_ok room I)|exact (no_finish_kept hw cts sct agreed ready_ok ready_small sct_ok room _ I)].
  - intro I. rewrite app_comm_cons in FW. apply prefix_snoc in FW as [E|P].
    + rewrite E. apply answers_whole.
    + exfalso. apply NF. eapply prefix_in; eassumption.
  - intros n EQ [[E L]|(ds' & F' & E & L)]; rewrite E in EQ, PR.
    + rewrite (follows_all hw cts sct agreed ready_ok ready_small sct_ok room e a i H c _ eq_refl eq_refl SE RE PR _ _ EQ (react_readied hw cts sct agreed ready_ok ready_small sct_ok room)).
      cbn. rewrite app_nil_r. exact L.
    + rewrite (follows_all hw cts sct agreed ready_ok ready_small sct_ok room e a i H c _ eq_refl eq_refl SE RE PR _ _ EQ (react_whole hw cts sct agreed ready_ok ready_small sct_ok room ds' F')).
      rewrite answers_whole. exact L.
  - destruct PS as [u PS]. eapply tame_prefix with (b := u). rewrite <- PS. apply whole_tame, F.
  - intros bs acts PB R. destruct (prefix_trans _ _ _ PB PS) as [u EU]. rewrite EU in RW.
    destruct (ra_grow _ _ _ _ _ _ R _ _ _ RW) as (b & _ & _ & X & _). destruct (X eq_refl) as [_ Y]. discriminate.
Qed.
(** ** The invariant *)
Variables (T0 : Type) (p0 : io T0) (Q0 : trace -> T0 -> Prop) (m : N).
Notation joint := (joint (A := T0)).

Definition partner (j : joint) : option nat :=
  match j_id j with Some i => Some i | None => option_map fst (hd_error (j_past j)) end.

Record J (j : joint) : Prop := {
  J_re : reach e a (j_hist j) (j_srv j);
  J_rb : reads_below m (j_hist j);
  J_wpq : wpq cts sct (j_prog j) Q0 (j_tr j);
  J_runs : forall rest o, runs (j_prog j) rest o -> runs p0 (j_tr j ++ rest) o;
  J_link : linked (j_tr j) = match j_id j with Some _ => true | None => false end;
  J_talk : talk cts (sent (j_tr j));
  J_here : match partner j with
           | Some i => attempted (j_tr j) <> [] /\ prefix (SpecCapture.received i (j_hist j)) (sent (j_tr j)) /\
               prefix (SpecTrace.received (j_tr j)) (concat (answers (acts_of i (x_log (j_srv j)))))
           | None => attempted (j_tr j) = []
           end;
  J_last : j_id j = None -> match j_past j with [] => True | (_, s) :: _ => s = sent (j_tr j) end;
  J_gone : forall i, j_id j = Some i -> ~ In (E_gone i) (j_hist j);
  J_new : forall i s, j_id j = Some i -> ~ In (i, s) (j_past j) }.

Lemma J_start H c : reach e a H c -> reads_below m H -> wpq cts sct p0 Q0 [] -> J (meeting p0 H c).
Proof.
  intros R RB W. split; cbn; auto.
  - left. left. reflexivity.
  - discriminate.
Qed.

Lemma J_at j i : J j -> j_id j = Some i -> At (j_tr j) (sent (j_tr j)) (SpecTrace.received (j_tr j)) true.
Proof.
  intros I E. split; auto.
  - rewrite (J_link j I), E. reflexivity.
  - intros _. pose proof (J_here j I) as P. unfold partner in P. rewrite E in P. apply P.
Qed.

Lemma J_facts j i : J j -> j_id j = Some i -> facts i (j_hist j) (j_srv j) (sent (j_tr j)).
Proof.
  intros I E. pose proof (J_here j I) as P. unfold partner in P. rewrite E in P. destruct P as (_ & P & _).
  apply server_facts; [apply I|exact P|apply I].
Qed.

(** If the server has closed the present connection, it has confirmed the end
    of the session. *)
Lemma J_dropped j i : J j -> j_id j = Some i -> dropped j i -> In (Answer finish_frame) (acts_of i (x_log (j_srv j))).
Proof.
  intros I E [D1 D2]. destruct (closed_why e a i _ _ (J_re j I) D1 D2) as [X|[X|X]]; [|destruct (f_up _ _ _ _ (J_facts j i I E) X)|exact X].
  destruct (J_gone j I i E X).
Qed.

Lemma J_writer j j' : J j -> writer_moves j j' -> J j'.
Proof.
  intros I M. pose proof (J_wpq j I) as W.
  assert (RUN : forall q k an, j_prog j = Vis q k -> ans_ok q an ->
    forall rest o, runs (k an) rest o -> runs p0 ((j_tr j ++ [(q, an)]) ++ rest) o).
  { intros q k an E K rest o R. rewrite <- app_assoc. apply (J_runs j I). rewrite E. cbn [app]. constructor; assumption. }
  destruct M as [j h k i E NA NP|j h iov k i E EI|j h iov k i r E EI D|j h n k i bs E EI L P|j h n k i r bs E EI D NS L|j h k i E EI|j h k E EI];
    rewrite E in W; destruct W as [GQ W].
  - cbn [G] in GQ. destruct (unseen e a i _ _ (J_re j I) NA) as (U1 & U2 & U3).
    assert (A : At (j_tr j) (sent (j_tr j)) (SpecTrace.received (j_tr j)) false) by (split; auto; discriminate).
    apply (at_open _ _ _ h) in A. destruct A as [A1 A2 A3 A4].
    split; cbn [answered j_prog j_tr j_id j_past j_hist j_srv partner].
    + apply I.
    + apply I.
    + exact W.
    + apply RUN; [exact E|exact Logic.I].
    + exact A3.
    + rewrite A1. left. left. reflexivity.
    + split; [auto|]. rewrite U1, A2. split; eexists; reflexivity.
    + discriminate.
    + intros i0 [= <-]. exact U3.
    + intros i0 s [= <-] X. apply NP. apply (in_map fst) in X. exact X.
  - destruct GQ as (GL & GG & GT). pose proof (at_write _ _ _ h iov (J_at j i I EI)) as [A1 A2 A3 A4].
    pose proof (J_here j I) as P. unfold partner in P. rewrite EI in P. destruct P as (P1 & P2 & P3).
    split; cbn [answered j_prog j_tr j_id j_past j_hist j_srv partner].
    + apply I.
    + apply I.
    + exact W.
    + apply RUN; [exact E|exact Logic.I].
    + exact A3.
    + rewrite A1. exact GT.
    + split; [auto|]. rewrite A1, A2. split; [|exact P3]. eapply prefix_trans; [exact P2|]. eexists; reflexivity.
    + discriminate.
    + intros i0 [= <-]. apply (J_gone j I); assumption.
    + intros i0 s [= <-]. apply (J_new j I); assumption.
  - exfalso. destruct GQ as (GL & GG & GT). exact (f_going _ _ _ _ (J_facts j i I EI) GG (J_dropped j i I EI D)).
  - destruct GQ as (GL & GR). pose proof (at_read _ _ _ h n bs (J_at j i I EI)) as [A1 A2 A3 A4].
    pose proof (J_here j I) as P'. unfold partner in P'. rewrite EI in P'. destruct P' as (P1 & P2 & P3).
    assert (EB : firstn (N.to_nat n) (skipn (length (SpecTrace.received (j_tr j))) (SCRIPT sct)) = bs).
    { destruct (prefix_trans _ _ _ P (f_script _ _ _ _ (J_facts j i I EI))) as [u ->]. rewrite <- app_assoc, skipn_app, skipn_all, Nat.sub_diag.
      cbn [app skipn]. subst n. unfold lenN. rewrite Nnat.Nat2N.id, firstn_app, firstn_all, Nat.sub_diag. cbn. apply app_nil_r. }
    cbn [ans_of] in W. rewrite EB in W.
    split; cbn [answered j_prog j_tr j_id j_past j_hist j_srv partner].
    + apply I.
    + apply I.
    + exact W.
    + apply RUN; [exact E|intros _; exact L].
    + exact A3.
    + rewrite A1. apply I.
    + split; [auto|]. rewrite A1, A2. split; [exact P2|exact P].
    + discriminate.
    + intros i0 [= <-]. apply (J_gone j I); assumption.
    + intros i0 s [= <-]. apply (J_new j I); assumption.
  - exfalso. destruct GQ as (GL & GR). pose proof (J_facts j i I EI) as F. pose proof (J_dropped j i I EI D) as FI.
    rewrite (f_done _ _ _ _ F FI) in L. destruct GR as [[GS GR]|(ds & FD & GS & GR)].
    + apply (f_going _ _ _ _ F); [|exact FI]. right. left. exact GS.
    + lia.
  - pose proof (at_close _ _ _ h (J_at j i I EI)) as [A1 A2 A3 A4].
    pose proof (J_here j I) as P. unfold partner in P. rewrite EI in P. destruct P as (P1 & P2 & P3).
    split; cbn [answered j_prog j_tr j_id j_past j_hist j_srv partner option_map hd_error fst].
    + apply I.
    + apply I.
    + exact W.
    + apply RUN; [exact E|exact Logic.I].
    + exact A3.
    + rewrite A1. apply I.
    + rewrite A1, A2, att_snoc. split; [exact P1|]. split; assumption.
    + intros _. auto.
    + discriminate.
    + discriminate.
  - cbn [G] in GQ. assert (AT : At (j_tr j) (sent (j_tr j)) (SpecTrace.received (j_tr j)) false) by (split; auto; discriminate).
    apply (at_destroy _ _ _ h) in AT. destruct AT as [A1 A2 A3 A4].
    pose proof (J_here j I) as P. pose proof (J_last j I EI) as LA. unfold partner in P. rewrite EI in P.
    split; cbn [answered j_prog j_tr j_id j_past j_hist j_srv].
    + apply I.
    + apply I.
    + exact W.
    + apply RUN; [exact E|exact Logic.I].
    + exact A3.
    + rewrite A1. apply I.
    + unfold partner. cbn [j_id j_past]. rewrite A1, A2, att_snoc. exact P.
    + intros _. rewrite A1. exact LA.
    + discriminate.
    + discriminate.
Qed.

Lemma J_server j x j' : J j -> server_moves e a m j x j' -> J j'.
Proof.
  intros I [c' L NW S]. destruct (step_acts _ _ _ _ _ _ (J_re j I) S) as (later & LG).
  split; cbn [j_prog j_tr j_id j_past j_hist j_srv]; try apply I.
  - eapply reach_step; [apply I|exact L|exact S].
  - intros id chunk IN. apply in_app_or in IN as [IN|[IN|[]]]; [eapply (J_rb j I), IN|]. subst x. apply NW.
  - pose proof (J_here j I) as P. pose proof (J_last j I) as LA. unfold partner in *. cbn [j_id j_past].
    assert (X : forall i, (j_id j = Some i \/ j_id j = None /\ exists past, j_past j = (i, sent (j_tr j)) :: past) ->
      attempted (j_tr j) <> [] /\ prefix (SpecCapture.received i (j_hist j)) (sent (j_tr j)) /\
        prefix (SpecTrace.received (j_tr j)) (concat (answers (acts_of i (x_log (j_srv j))))) ->
      attempted (j_tr j) <> [] /\ prefix (SpecCapture.received i (j_hist j ++ [x])) (sent (j_tr j)) /\
        prefix (SpecTrace.received (j_tr j)) (concat (answers (acts_of i (x_log c'))))).
    { intros i ID (P1 & P2 & P3). split; [exact P1|]. split.
      - rewrite Capture4_proofs.received_snoc. destruct x as [u|u chunk|u|u| |]; try (rewrite app_nil_r; exact P2).
        destruct (Nat.eqb_spec u i) as [->|_]; [|rewrite app_nil_r; exact P2]. destruct NW as (_ & N1 & N2).
        destruct ID as [ID|(_ & past & ID)]; [exact (N1 ID)|]. apply N2. rewrite ID. left. reflexivity.
      - eapply prefix_trans; [exact P3|]. rewrite LG, acts_of_app, answers_app, concat_app. eexists. reflexivity. }
    destruct (j_id j) as [i|] eqn:EI; [apply X; auto|]. specialize (LA eq_refl).
    destruct (j_past j) as [|[i s] past]; [exact P|]. cbn [option_map hd_error fst] in *. subst s. apply X; [right; split; [reflexivity|eauto]|exact P].
  - intros i EI IN. apply in_app_or in IN as [IN|[IN|[]]]; [exact (J_gone j I i EI IN)|]. subst x. exact (NW EI).
Qed.

Lemma J_run j0 n j : J j0 -> joint_run e a m j0 n j -> J j.
Proof. intros I R. induction R; auto; [eapply J_writer|eapply J_server|eapply J_server]; eassumption. Qed.
(** ** Ends, progress, bound *)
Lemma J_end j : J j -> match j_prog j with Ret r => Q0 (j_tr j) r | Fail _ => False | Vis _ _ => True end.
Proof. intro I. pose proof (J_wpq j I) as W. destruct (j_prog j); [exact W|exact W|exact Logic.I]. Qed.

Lemma fresh_id (l : list nat) : exists i, forall k, In k l -> (k < i)%nat.
Proof.
  induction l as [|x l [i IH]]; [exists 0%nat; intros k []|]. exists (S (Nat.max x i)). intros k [->|I]; [lia|]. specialize (IH k I). lia.
Qed.
Lemma fresh (H : list ev) (past : list (nat * bytes)) : exists i, ~ accepted i H /\ ~ In i (map fst past).
Proof.
  destruct (fresh_id (map fst past ++ concat (map (fun x => match x with E_accept i => [i] | _ => [] end) H))) as [i F].
  exists i. split; intro I.
  - specialize (F i). enough (X : (i < i)%nat) by lia. apply F. apply in_or_app. right. apply in_concat. exists [i].
    split; [|left; reflexivity]. apply in_map_iff. exists (E_accept i). split; [reflexivity|exact I].
  - specialize (F i). enough (X : (i < i)%nat) by lia. apply F. apply in_or_app. left. exact I.
Qed.
Lemma accepted_dec i H : accepted i H \/ ~ accepted i H.
Proof.
  unfold accepted. induction H as [|x H IH]; [right; intros []|]. destruct IH as [IH|IH]; [left; now right|].
  destruct x as [u|u b|u|u| |]; try (right; intros [X|X]; [discriminate|exact (IH X)]).
  destruct (Nat.eq_dec u i) as [->|NE]; [left; now left|right; intros [[= X]|X]; auto].
Qed.

Lemma J_progress j : output_works e -> 1 <= m -> m + 7 < hw -> J j ->
  (exists r, j_prog j = Ret r) \/ (exists j', writer_moves j j') \/
  (exists x j', its_own j x /\ server_moves e a m j x j') \/
  (exists i, j_id j = Some i /\ ~ accepted i (j_hist j) /\
     (0 < a_conns a)%Z /\ (a_conns a <= Z.of_nat (length (x_conns (j_srv j))))%Z).
Proof.
  intros OW M1 M2 I. pose proof (J_wpq j I) as W. destruct (j_prog j) as [r|f|q k] eqn:EP; [left; eauto|destruct W|right].
  destruct W as [GQ _]. pose proof (J_link j I) as LK.
  assert (ID : linked (j_tr j) = true -> exists i, j_id j = Some i).
  { intro E. rewrite E in LK. destruct (j_id j); [eauto|discriminate]. }
  destruct q as [h|h|h n|h iov|h|h| |q0| |q0|q0]; cbn [G] in GQ; try contradiction.
  4:{ left. destruct GQ as [GL _]. destruct (ID GL) as (i & EI). eexists. eapply wm_write; eassumption. }
  - left. destruct (fresh (j_hist j) (j_past j)) as (i & F1 & F2). eexists. eapply wm_open; eassumption.
  - left. destruct (ID GQ) as (i & EI). eexists. eapply wm_close; eassumption.
  - destruct GQ as [GL GR]. destruct (ID GL) as (i & EI). pose proof (J_facts j i I EI) as F.
    pose proof (J_here j I) as P. unfold partner in P. rewrite EI in P. destruct P as (_ & P2 & P3).
    set (B := concat (answers (acts_of i (x_log (j_srv j))))) in *.
    destruct (N.le_gt_cases (lenN (SpecTrace.received (j_tr j)) + n) (lenN B)) as [LE|GT].
    + left. destruct P3 as [u EU]. eexists. eapply wm_read with (bs := firstn (N.to_nat n) u); try eassumption.
      * rewrite EU, lenN_app in LE. unfold lenN in *. rewrite firstn_length. lia.
      * fold B. rewrite EU. exists (skipn (N.to_nat n) u). rewrite <- app_assoc, firstn_skipn. reflexivity.
    + right. destruct (accepted_dec i (j_hist j)) as [AC|NA].
      * left. destruct P2 as [[|b u] EU].
        { exfalso. rewrite app_nil_r in EU. pose proof (f_all _ _ _ _ F _ (eq_sym EU) GR) as X. fold B in X. lia. }
        destruct (find_conn i (x_conns (j_srv j))) as [c|] eqn:FC.
        2:{ exfalso. pose proof (f_done _ _ _ _ F (J_dropped j i I EI (conj AC FC))) as X. fold B in X. rewrite X in GT.
            pose proof (J_dropped j i I EI (conj AC FC)) as FI.
            destruct GR as [[GS GR]|(ds & FD & GS & GR)]; [|lia]. apply (f_going _ _ _ _ F); [|exact FI]. right. left. exact GS. }
        assert (PB : prefix (SpecCapture.received i (j_hist j) ++ [b]) (sent (j_tr j))).
        { exists u. rewrite EU, <- app_assoc. reflexivity. }
        assert (NWK : network m j (E_data i [b])).
        { split; [exact M1|]. split; [intros _; exact PB|]. intros s IN. exfalso. eapply J_new; eassumption. }
        assert (LEG : legal a (j_hist j) (j_srv j) (E_data i [b])).
        { split; [discriminate|]. exists c. split; [exact FC|]. rewrite lenN_app. change (lenN [b]) with 1.
          assert (T : tame (SpecCapture.received i (j_hist j))) by (apply tame_prefix with (b := b :: u); rewrite <- EU; apply F).
          pose proof (run_not_full e a i m SE M2 _ _ (J_re j I) (J_rb j I) T c FC). lia. }
        destruct (step_or_endless false e a _ _ _ (or_introl SE) OW (J_re j I) LEG) as [(c' & ST)|(_ & id & chunk & acts & E1 & E2)].
        -- exists (E_data i [b]). eexists. split; [exact EI|]. econstructor; eassumption.
        -- exfalso. injection E1 as <- <-. rewrite Capture4_proofs.received_snoc, Nat.eqb_refl in E2.
           exact (f_calm _ _ _ _ F _ _ PB E2).
      * destruct (x_listen (j_srv j)) eqn:EL.
        -- left. exists (E_accept i). eexists. split; [exact EI|]. econstructor; [split; eassumption|exact Logic.I|reflexivity].
        -- right. exists i. split; [exact EI|]. split; [exact NA|]. destruct (reach_inv _ _ _ _ (J_re j I)) as [C _].
           pose proof (cn_listen _ _ _ C) as L1. rewrite EL, (cn_rem _ _ _ C) in L1.
           destruct (0 <? a_conns a)%Z eqn:EC; [|discriminate]. apply Z.ltb_lt in EC. split; [exact EC|].
           symmetry in L1. apply Z.ltb_ge in L1. unfold remaining0 in L1. apply Z.ltb_lt in EC. rewrite EC in L1. lia.
  - left. rewrite GQ in LK. destruct (j_id j) eqn:EI; [discriminate|]. eexists. eapply wm_destroy; eassumption.
Qed.
Definition mu (j : joint) : nat := (weight sct (j_prog j) (j_tr j) + pending j)%nat.

Lemma mu_writer j j' : J j -> writer_moves j j' -> (S (mu j') <= mu j)%nat.
Proof.
  intros I M. pose proof (J_wpq j I) as W. unfold mu.
  destruct M as [j h k i E NA NP|j h iov k i E EI|j h iov k i r E EI D|j h n k i bs E EI L P|j h n k i r bs E EI D NS L|j h k i E EI|j h k E EI];
    rewrite E in W; destruct W as [GQ W]; rewrite E; cbn [weight costs ans_of];
    unfold pending; cbn [answered j_prog j_tr j_id j_past j_hist j_srv].
  - assert (A : At (j_tr j) (sent (j_tr j)) (SpecTrace.received (j_tr j)) false) by (split; auto; discriminate).
    apply (at_open _ _ _ h) in A. rewrite (at_s _ _ _ _ A). pose proof (unaccepted_1 i (j_hist j)). cbn [length]. lia.
  - pose proof (at_write _ _ _ h iov (J_at j i I EI)) as A. rewrite (at_s _ _ _ _ A), EI, app_length. lia.
  - exfalso. destruct GQ as (GL & GG & GT). exact (f_going _ _ _ _ (J_facts j i I EI) GG (J_dropped j i I EI D)).
  - pose proof (at_read _ _ _ h n bs (J_at j i I EI)) as A. rewrite (at_s _ _ _ _ A), EI.
    assert (EB : firstn (N.to_nat n) (skipn (length (SpecTrace.received (j_tr j))) (SCRIPT sct)) = bs).
    { destruct (prefix_trans _ _ _ P (f_script _ _ _ _ (J_facts j i I EI))) as [u ->]. rewrite <- app_assoc, skipn_app, skipn_all, Nat.sub_diag.
      cbn [app skipn]. subst n. unfold lenN. rewrite Nnat.Nat2N.id, firstn_app, firstn_all, Nat.sub_diag. cbn. apply app_nil_r. }
    rewrite EB. lia.
  - exfalso. destruct GQ as (GL & GR). pose proof (J_facts j i I EI) as F. pose proof (J_dropped j i I EI D) as FI.
    rewrite (f_done _ _ _ _ F FI) in L. destruct GR as [[GS GR]|(ds & FD & GS & GR)].
    + apply (f_going _ _ _ _ F); [|exact FI]. right. left. exact GS.
    + lia.
  - rewrite EI. lia.
  - lia.
Qed.

Lemma mu_server j x j' : J j -> server_moves e a m j x j' -> ((if match x with E_accept i | E_data i _ => match j_id j with Some u => Nat.eqb i u | None => false end | _ => false end then S (mu j') else mu j') <= mu j)%nat.
Proof.
  intros I [c' L NW S]. unfold mu, pending. cbn [j_prog j_tr j_id j_past j_hist j_srv].
  destruct (j_id j) as [i|] eqn:EI; [|destruct x; lia].
  rewrite unaccepted_snoc, Capture4_proofs.received_snoc.
  destruct x as [u|u b|u|u| |]; rewrite ?app_nil_r; try lia.
  - destruct (Nat.eqb_spec u i) as [->|_]; [|lia]. destruct L as [_ NA]. rewrite (unaccepted_not _ _ NA). lia.
  - destruct (Nat.eqb_spec u i) as [->|_]; [|rewrite app_nil_r; lia]. destruct L as [NE _]. destruct NW as (_ & N1 & _).
    specialize (N1 EI). apply prefix_len in N1. rewrite app_length. unfold lenN in N1. rewrite app_length in N1.
    destruct b; [contradiction|]. cbn [length] in *. lia.
Qed.

Lemma mu_run j0 n j : J j0 -> joint_run e a m j0 n j -> (n + mu j <= mu j0)%nat.
Proof.
  intros I R. induction R as [|n j j' R IH M|n j x j' R IH O M|n j x j' R IH O M]; [lia| | |]; pose proof (J_run j0 n j I R) as IJ.
  - pose proof (mu_writer j j' IJ M). lia.
  - pose proof (mu_server j x j' IJ M) as X. destruct x as [u|u b|u|u| |]; cbn in O; try contradiction; rewrite O, Nat.eqb_refl in X; lia.
  - pose proof (mu_server j x j' IJ M) as X.
    match type of X with ((if ?b then _ else _) <= _)%nat => destruct b end; lia.
Qed.

End J.

Lemma J_confirmed cts e a Q0 m j iovm rw w cs rs w' : J cts e a (list res * writer) (do_wcalls w (cs ++ [WClose])) Q0 m j ->
  fresh_rdwr rw -> rw_has_read rw = true -> (0 < iovm)%nat -> writer_init iovm cts rw = Some w -> Forall wcall_ok cs ->
  j_prog j = Ret (rs ++ [r_success], w') ->
  exists i, confirmed (j_hist j) (j_srv j) i cs rs.
Proof.
  intros I FR HR Hi Hw Hok ER.
  assert (RU : runs (do_wcalls w (cs ++ [WClose])) (j_tr j) (Done (rs ++ [r_success], w'))).
  { rewrite <- (app_nil_r (j_tr j)). apply (J_runs _ _ _ _ _ _ _ _ I). rewrite ER. constructor. }
  pose proof (J_here _ _ _ _ _ _ _ _ I) as P.
  destruct (close_confirms (fun _ => true) eq_refl _ _ _ _ _ _ _ _ FR Hi Hw Hok RU) as (_ & ss & ct & E & _).
  destruct (partner _ j) as [i|].
  - exists i. destruct P as (P1 & P2 & P3). eapply confirm; try eassumption. split; [|exact P3].
    destruct (exists_last P1) as (before & x & EA). exists before, x. split; [exact EA|].
    unfold sent in P2. rewrite EA, last_last in P2. exact P2.
  - exfalso. unfold attempted in P. rewrite P in E. symmetry in E. apply app_eq_nil in E as [_ E]. discriminate.
Qed.

(** ** Together *)
Section Together.
Variables (iovm : nat) (cts : list bytes) (rw : rdwr) (w : writer) (cs : list wcall) (e : env) (a : args) (m : N) (H : list ev) (c : ctx).
Hypothesis WM : well_met iovm cts rw w cs e a m H c.

Lemma wm_fits : fits true T_READY cts.
Proof. split; [apply WM|]. change (lenN (ready_frame cts) <= 512). pose proof (wm_ready _ _ _ _ _ _ _ _ _ _ WM). lia. Qed.

Definition Q1 (h : trace) (r : list res * writer) : Prop := fst r = stage_results U_fresh cs /\ exists st, LW cts (a_ctype a) (snd r) h st.

Lemma start_wpq : wpq cts (a_ctype a) (do_wcalls w cs) Q1 [].
Proof.
  apply q_calls; try apply WM; [apply wm_fits|].
  destruct WM as [[F1 F2 F3 F4] HB HI HW _ _ _ _ _ _ _ _ _ _]. unfold writer_init in HW. destruct (rw_has_write rw) eqn:E6; [|discriminate].
  injection HW as <-. split; [split; auto|]. split; [reflexivity|]. split; [exact F1|]. exists [], []. split; auto. discriminate.
Qed.

Lemma start_J : J cts e a _ (do_wcalls w cs) Q1 m (meet w cs H c).
Proof.
  apply (J_start cts e a); try apply WM; [apply wm_fits|exact start_wpq].
Qed.

Lemma run_J n j : joint_run e a m (meet w cs H c) n j -> J cts e a _ (do_wcalls w cs) Q1 m j.
Proof. apply J_run; try apply WM; [apply wm_fits|exact start_J]. Qed.

Lemma pair_results n j : joint_run e a m (meet w cs H c) n j ->
  match j_prog j with Ret r => fst r = stage_results U_fresh cs | Fail _ => False | Vis _ _ => True end.
Proof.
  intro R. pose proof (J_wpq _ _ _ _ _ _ _ _ (run_J n j R)) as W. destruct (j_prog j); [apply W|exact W|exact Logic.I].
Qed.

Lemma pair_progress n j : output_works e -> 1 <= m -> m + 7 < capture_highwater a -> joint_run e a m (meet w cs H c) n j ->
  (exists r, j_prog j = Ret r) \/ (exists j', writer_moves j j') \/
  (exists x j', its_own j x /\ server_moves e a m j x j') \/
  (exists i, j_id j = Some i /\ ~ accepted i (j_hist j) /\
     (0 < a_conns a)%Z /\ (a_conns a <= Z.of_nat (length (x_conns (j_srv j))))%Z).
Proof.
  intros OW M1 M2 R. eapply (J_progress cts e a); try apply WM; try assumption; [apply wm_fits|exact (run_J n j R)].
Qed.

Lemma pair_bound n j : joint_run e a m (meet w cs H c) n j -> (n <= weight (a_ctype a) (do_wcalls w cs) [])%nat.
Proof.
  intro R. assert (X : (n + mu a _ j <= mu a _ (meet w cs H c))%nat).
  { eapply (mu_run cts e a); try apply WM; [apply wm_fits|exact start_J|exact R]. }
  unfold mu in X at 2. cbn [meet meeting j_prog j_tr pending j_id] in X. lia.
Qed.

End Together.

Lemma joint_trans {T} e a m (j0 : joint (A := T)) n j : joint_run e a m j0 n j -> forall n' j', joint_run e a m j n' j' -> joint_run e a m j0 (n + n') j'.
Proof.
  intros R n' j' R'. induction R' as [|k u v R' IH M|k u x v R' IH O M|k u x v R' IH O M].
  - rewrite Nat.add_0_r. exact R.
  - rewrite Nat.add_succ_r. eapply jr_writer; eassumption.
  - rewrite Nat.add_succ_r. eapply jr_own; eassumption.
  - eapply jr_other; eassumption.
Qed.

Lemma pair_finishes iovm cts rw w cs e a m H c n j :
  well_met iovm cts rw w cs e a m H c -> output_works e -> 1 <= m -> m + 7 < capture_highwater a -> (a_conns a <= 0)%Z ->
  joint_run e a m (meet w cs H c) n j ->
  exists n' j' r, joint_run e a m j n' j' /\ j_prog j' = Ret r.
Proof.
  intros WM OW M1 M2 CL R.
  enough (X : forall k n1 j1, joint_run e a m j n1 j1 -> (weight (a_ctype a) (do_wcalls w cs) [] <= n + n1 + k)%nat ->
    exists n' j' r, joint_run e a m j n' j' /\ j_prog j' = Ret r).
  { apply (X (weight (a_ctype a) (do_wcalls w cs) []) 0%nat j); [constructor|lia]. }
  induction k as [|k IH]; intros n1 j1 R1 L; pose proof (joint_trans _ _ _ _ _ _ R _ _ R1) as R2;
    destruct (pair_progress _ _ _ _ _ _ _ _ _ _ WM _ _ OW M1 M2 R2) as [(r & E)|[(j' & M)|[(x & j' & O & M)|(i & _ & _ & X & _)]]]; try lia; eauto 6.
  - exfalso. pose proof (pair_bound _ _ _ _ _ _ _ _ _ _ WM _ _ (jr_writer _ _ _ _ _ _ _ R2 M)). lia.
  - exfalso. pose proof (pair_bound _ _ _ _ _ _ _ _ _ _ WM _ _ (jr_own _ _ _ _ _ _ _ _ R2 O M)). lia.
  - eapply IH; [eapply jr_writer; eassumption|lia].
  - eapply IH; [eapply jr_own; eassumption|lia].
Qed.

Lemma pair_confirmed iovm cts rw w cs e a m H c n j rs w' :
  well_met iovm cts rw w (cs ++ [WClose]) e a m H c ->
  joint_run e a m (meet w (cs ++ [WClose]) H c) n j -> j_prog j = Ret (rs ++ [r_success], w') ->
  exists i, confirmed (j_hist j) (j_srv j) i cs rs.
Proof.
  intros WM R E. pose proof (run_J _ _ _ _ _ _ _ _ _ _ WM n j R) as I.
  eapply (J_confirmed cts e a); try apply WM; [exact I| |exact E].
  pose proof (wm_calls _ _ _ _ _ _ _ _ _ _ WM) as F. apply Forall_app in F. apply F.
Qed.

Lemma since_ordinary cs : Forall (fun x => Forall ordinary (wpayloads x)) cs -> forall rs acc, Forall ordinary acc -> Forall ordinary (since_close acc cs rs).
Proof.
  induction 1 as [|x cs O F IH]; intros rs acc A; [destruct rs; exact A|].
  destruct rs as [|r rs]; [destruct x; exact A|].
  assert (X : Forall ordinary (acc ++ wpayloads x)) by (apply Forall_app; auto).
  destruct x; destruct r; cbn [since_close]; auto.
Qed.

Lemma pair_delivered iovm cts rw w cs e a m H c n j rs w' :
  well_met iovm cts rw w (cs ++ [WClose]) e a m H c ->
  joint_run e a m (meet w (cs ++ [WClose]) H c) n j -> j_prog j = Ret (rs ++ [r_success], w') ->
  exists i, confirmed (j_hist j) (j_srv j) i cs rs /\
    stores (acts_of i (x_log (j_srv j))) = map data_frame (fit a (since_close [] cs rs)).
Proof.
  intros WM R E. destruct (pair_confirmed _ _ _ _ _ _ _ _ _ _ _ _ _ _ WM R E) as (i & C). exists i. split; [exact C|].
  eapply closed_stored; [|exact C|].
  - apply (J_re _ _ _ _ _ _ _ _ (run_J _ _ _ _ _ _ _ _ _ _ WM n j R)).
  - apply since_ordinary; [|constructor]. pose proof (wm_payloads _ _ _ _ _ _ _ _ _ _ WM) as F. apply Forall_app in F. apply F.
Qed.

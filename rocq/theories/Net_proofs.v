(** Confluence of the two-party semantics. *)
From Verif Require Import Bytes Io Net.
Local Open Scope nat_scope.

(** Moves that neither close nor depend on the peer having closed. *)
Inductive calm {X} (cap : nat) : proc X -> bytes -> bytes -> proc X -> bytes -> bytes -> Prop :=
| q_put b k o i : length o < cap -> calm cap (PPut b k) o i (k true) (o ++ [b]) i
| q_get b k o i : calm cap (PGet k) o (b :: i) (k (Some b)) o i.

Record cfg X Y := mk_cfg { g_a : proc X; g_b : proc Y; g_ab : bytes; g_ba : bytes }.
Arguments mk_cfg {X Y}.

Section Conf.
Context {X Y : Type} (cap : nat).
Notation cfg := (cfg X Y).

Inductive cstep : bool -> cfg -> cfg -> Prop :=
| cs_a pa pb ab ba pa' ab' ba' : calm cap pa ab ba pa' ab' ba' ->
    cstep true (mk_cfg pa pb ab ba) (mk_cfg pa' pb ab' ba')
| cs_b pa pb ab ba pb' ab' ba' : calm cap pb ba ab pb' ba' ab' ->
    cstep false (mk_cfg pa pb ab ba) (mk_cfg pa pb' ab' ba').

Lemma calm_det {Z} (p : proc Z) o i p1 o1 i1 p2 o2 i2 :
  calm cap p o i p1 o1 i1 -> calm cap p o i p2 o2 i2 -> p1 = p2 /\ o1 = o2 /\ i1 = i2.
Proof. destruct 1; intro H2; inversion H2; subst; auto. Qed.

Lemma cstep_det s c c1 c2 : cstep s c c1 -> cstep s c c2 -> c1 = c2.
Proof.
  intros H1 H2. destruct H1 as [pa pb ab ba pa' ab' ba' M|pa pb ab ba pb' ab' ba' M]; inversion H2; subst;
    destruct (calm_det _ _ _ _ _ _ _ _ _ M ltac:(eassumption)) as (-> & -> & ->); reflexivity.
Qed.

Lemma diamond c c1 c2 : cstep true c c1 -> cstep false c c2 -> exists c3, cstep false c1 c3 /\ cstep true c2 c3.
Proof.
  intros H1 H2. inversion H1 as [pa pb ab ba pa' ab' ba' M|]; subst. inversion H2 as [|a b0 c0 d pb' ab2 ba2 M2]; subst.
  destruct M as [b k o i L|b k o i]; inversion M2 as [b' k' o' i' L'|b' k' o' i']; subst.
  - eexists. split; [apply cs_b, q_put; assumption|apply cs_a, q_put; assumption].
  - eexists. split; [apply cs_b; rewrite <- app_comm_cons; apply q_get|apply cs_a, q_put]. cbn in L. lia.
  - eexists. split; [apply cs_b, q_put; cbn in L'; lia|]. rewrite <- app_comm_cons. apply cs_a, q_get.
  - eexists. split; [apply cs_b, q_get|apply cs_a, q_get].
Qed.

Inductive csteps : nat -> cfg -> cfg -> Prop :=
| css_0 c : csteps 0 c c
| css_S s n c c1 c2 : cstep s c c1 -> csteps n c1 c2 -> csteps (S n) c c2.

Definition resting (c : cfg) : Prop := forall s c', ~ cstep s c c'.

Lemma strip n : forall c cf s c1, csteps n c cf -> resting cf -> cstep s c c1 ->
  exists m, n = S m /\ csteps m c1 cf.
Proof.
  induction n as [|n IH]; intros c cf s c1 H R S.
  - inversion H; subst. destruct (R _ _ S).
  - inversion H as [|s' n' c' d c'' H1 H2]; subst. exists n. split; [reflexivity|].
    destruct (Bool.bool_dec s s') as [<-|D].
    { rewrite (cstep_det _ _ _ _ S H1). assumption. }
    assert (J : exists c3, cstep s d c3 /\ cstep s' c1 c3).
    { destruct s, s'; try congruence.
      - destruct (diamond _ _ _ S H1) as (c3 & A & B). eauto.
      - destruct (diamond _ _ _ H1 S) as (c3 & A & B). eauto. }
    destruct J as (c3 & A & B). destruct (IH _ _ _ _ H2 R A) as (m & -> & C). econstructor; eassumption.
Qed.

Lemma csteps_app n m : forall c1 c2 c3, csteps n c1 c2 -> csteps m c2 c3 -> csteps (n + m) c1 c3.
Proof. induction n; intros c1 c2 c3 H1 H2; inversion H1; subst; cbn; [assumption|econstructor; eauto]. Qed.

(** ** Adding closes *)

(** What is left once the other end has closed: receive what is waiting. *)
Inductive drain {Z} : nat -> proc Z -> bytes -> proc Z -> Prop :=
| dr_0 p : drain 0 p [] p
| dr_S n k b i p : drain n (k (Some b)) i p -> drain (S n) (PGet k) (b :: i) p.

(** Where a program rests: returned, about to close and return, or waiting. *)
Inductive rests {Z} : proc Z -> proc Z -> bool -> Prop :=
| re_ret a : rests (PRet a) (PRet a) false
| re_close a : rests (PClose (PRet a)) (PRet a) true.

Lemma rests_calm {Z} (p p' : proc Z) b o i q o' i' : rests p p' b -> ~ calm cap p o i q o' i'.
Proof. destruct 1; intro C; inversion C. Qed.

(** If B rests at [fb] and the whole comes to rest with empty channels, A only
    receives. *)
Lemma only_a_drains n : forall pa fb ab ba fa fa' fb' ka kb, rests fa fa' ka -> rests fb fb' kb ->
  csteps n (mk_cfg pa fb ab ba) (mk_cfg fa fb [] []) -> ab = [] /\ drain n pa ba fa.
Proof.
  induction n as [|n IH]; intros pa fb ab ba fa fa' fb' ka kb RA RB H.
  - inversion H; subst. split; [reflexivity|constructor].
  - inversion H as [|s n' c c1 c2 S H2]; subst. inversion S as [? ? ? ? pa' ab' ba' M|? ? ? ? pb' ab' ba' M]; subst.
    + destruct (IH _ _ _ _ _ _ _ _ _ RA RB H2) as [E D]. destruct M.
      * destruct o; discriminate E.
      * split; [assumption|constructor; assumption].
    + destruct (rests_calm _ _ _ _ _ _ _ _ RB M).
Qed.
Lemma only_b_drains n : forall pb fa ab ba fb fa' fb' ka kb, rests fa fa' ka -> rests fb fb' kb ->
  csteps n (mk_cfg fa pb ab ba) (mk_cfg fa fb [] []) -> ba = [] /\ drain n pb ab fb.
Proof.
  induction n as [|n IH]; intros pb fa ab ba fb fa' fb' ka kb RA RB H.
  - inversion H; subst. split; [reflexivity|constructor].
  - inversion H as [|s n' c c1 c2 S H2]; subst. inversion S as [? ? ? ? pa' ab' ba' M|? ? ? ? pb' ab' ba' M]; subst.
    + destruct (rests_calm _ _ _ _ _ _ _ _ RA M).
    + destruct (IH _ _ _ _ _ _ _ _ _ RA RB H2) as [E D]. destruct M.
      * destruct o; discriminate E.
      * split; [assumption|constructor; assumption].
Qed.

Definition cnt (b : bool) : nat := if b then 1 else 0.

(** The state of an execution bound to end at [fa], [fb]; [n]: moves left. *)
Inductive bound (fa fa' : proc X) (ka : bool) (fb fb' : proc Y) (kb : bool) : nat -> net X Y -> Prop :=
| b_both n pa pb ab ba : csteps n (mk_cfg pa pb ab ba) (mk_cfg fa fb [] []) ->
    bound fa fa' ka fb fb' kb (n + cnt ka + cnt kb) (mk_net pa pb ab ba false false)
| b_a n pa ba : kb = true -> drain n pa ba fa ->
    bound fa fa' ka fb fb' kb (n + cnt ka) (mk_net pa fb' [] ba false true)
| b_b n pb ab : ka = true -> drain n pb ab fb ->
    bound fa fa' ka fb fb' kb (n + cnt kb) (mk_net fa' pb ab [] true false)
| b_done : ka = true -> kb = true -> bound fa fa' ka fb fb' kb 0 (mk_net fa' fb' [] [] true true).

Lemma calm_move {Z} g (p : proc Z) o i p' o' i' : calm cap p o i p' o' i' -> g = false -> move cap g p o i p' o' i' false.
Proof. destruct 1; constructor; auto. Qed.
Lemma move_calm {Z} (p : proc Z) o i p' o' i' : move cap false p o i p' o' i' false -> calm cap p o i p' o' i'.
Proof. intro M. inversion M; subst; try discriminate; constructor; auto. Qed.

Lemma bound_step fa fa' ka fb fb' kb n c c' : rests fa fa' ka -> rests fb fb' kb ->
  bound fa fa' ka fb fb' kb n c -> step cap c c' -> exists m, n = S m /\ bound fa fa' ka fb fb' kb m c'.
Proof.
  intros RA RB B S.
  assert (R : resting (mk_cfg fa fb [] [])).
  { intros s c2 C. inversion C; subst; [eapply (rests_calm fa fa' ka); eassumption|eapply (rests_calm fb fb' kb); eassumption]. }
  destruct B as [n pa pb ab ba H|n pa ba K D|n pb ab K D|K1 K2].
  - inversion S as [? ? ? ? ? ? pa' ab' ba' cl M|? ? ? ? ? ? pb' ab' ba' cl M]; subst; destruct cl; cbn [orb].
    + (* A closes *)
      assert (EQ : pa' = fa' /\ fa = pa /\ ka = true /\ ab' = ab /\ ba' = ba /\ csteps n (mk_cfg fa pb ab ba) (mk_cfg fa fb [] [])).
      { inversion M; subst.
        assert (FIX : forall n pb ab ba, csteps n (mk_cfg (PClose pa') pb ab ba) (mk_cfg fa fb [] []) -> fa = PClose pa').
        { clear. induction n; intros pb ab ba H; inversion H as [|? ? ? ? ? C H2]; subst; [reflexivity|].
          inversion C as [? ? ? ? ? ? ? Q|]; subst; [inversion Q|]. eapply IHn. eassumption. }
        pose proof (FIX _ _ _ _ H). subst fa. inversion RA; subst. repeat split; auto. }
      destruct EQ as (-> & <- & -> & -> & -> & H2).
      destruct (only_b_drains _ _ _ _ _ _ _ _ _ _ RA RB H2) as [-> D].
      exists (n + cnt kb). split; [cbn; lia|]. apply b_b; auto.
    + apply move_calm in M. destruct (strip _ _ _ _ _ H R (cs_a _ pb _ _ _ _ _ M)) as (m & -> & H2).
      exists (m + cnt ka + cnt kb). split; [reflexivity|]. apply b_both. assumption.
    + assert (EQ : pb' = fb' /\ fb = pb /\ kb = true /\ ab' = ab /\ ba' = ba /\ csteps n (mk_cfg pa fb ab ba) (mk_cfg fa fb [] [])).
      { inversion M; subst.
        assert (FIX : forall n pa ab ba, csteps n (mk_cfg pa (PClose pb') ab ba) (mk_cfg fa fb [] []) -> fb = PClose pb').
        { clear. induction n; intros pa ab ba H; inversion H as [|? ? ? ? ? C H2]; subst; [reflexivity|].
          inversion C as [|? ? ? ? ? ? ? Q]; subst; [|inversion Q]. eapply IHn. eassumption. }
        pose proof (FIX _ _ _ _ H). subst fb. inversion RB; subst. repeat split; auto. }
      destruct EQ as (-> & <- & -> & -> & -> & H2).
      destruct (only_a_drains _ _ _ _ _ _ _ _ _ _ RA RB H2) as [-> D].
      exists (n + cnt ka). split; [cbn; lia|]. apply b_a; auto.
    + apply move_calm in M. destruct (strip _ _ _ _ _ H R (cs_b pa _ _ _ _ _ _ M)) as (m & -> & H2).
      exists (m + cnt ka + cnt kb). split; [reflexivity|]. apply b_both. assumption.
  - subst kb. inversion RB as [|a E1 E2]; subst.
    inversion S as [? ? ? ? ? ? pa' ab' ba' cl M|? ? ? ? ? ? pb' ab' ba' cl M]; subst; [|inversion M].
    destruct D as [p|n k b i p D].
    + destruct RA; inversion M; subst. exists 0. split; [reflexivity|]. apply b_done; reflexivity.
    + inversion M; subst; try congruence. exists (n + cnt ka). split; [reflexivity|]. apply b_a; auto.
  - subst ka. inversion RA as [|a E1 E2]; subst.
    inversion S as [? ? ? ? ? ? pa' ab' ba' cl M|? ? ? ? ? ? pb' ab' ba' cl M]; subst; [inversion M|].
    destruct D as [p|n k b i p D].
    + destruct RB; inversion M; subst. exists 0. split; [reflexivity|]. apply b_done; reflexivity.
    + inversion M; subst; try congruence. exists (n + cnt kb). split; [reflexivity|]. apply b_b; auto.
  - subst. inversion RA; subst. inversion RB; subst. inversion S; subst; match goal with H : move _ _ _ _ _ _ _ _ _ |- _ => inversion H end.
Qed.

Lemma bound_live fa fa' ka fb fb' kb n c : rests fa fa' ka -> rests fb fb' kb ->
  bound fa fa' ka fb fb' kb n c -> c = mk_net fa' fb' [] [] ka kb \/ exists c', step cap c c'.
Proof.
  intros RA RB [n0 pa pb ab ba H|n0 pa ba K D|n0 pb ab K D|K1 K2].
  - inversion H as [c1|s n1 c1 c2 c3 C H2]; subst.
    + destruct RA; [destruct RB|].
      * left. reflexivity.
      * right. eexists. apply st_b. apply m_close.
      * right. eexists. apply st_a. apply m_close.
    + right. inversion C as [? ? ? ? ? ? ? M|? ? ? ? ? ? ? M]; subst; eexists.
      * apply st_a, calm_move; [exact M|reflexivity].
      * apply st_b, calm_move; [exact M|reflexivity].
  - subst kb. inversion RB as [|a E1 E2]; subst. destruct D as [p|n1 k b i p D].
    + destruct RA; [left; reflexivity|]. right. eexists. apply st_a. apply m_close.
    + right. eexists. apply st_a. apply m_get.
  - subst ka. inversion RA as [|a E1 E2]; subst. destruct D as [p|n1 k b i p D].
    + destruct RB; [left; reflexivity|]. right. eexists. apply st_b. apply m_close.
    + right. eexists. apply st_b. apply m_get.
  - subst. left. reflexivity.
Qed.

Lemma bound_steps fa fa' ka fb fb' kb m : rests fa fa' ka -> rests fb fb' kb -> forall n c c',
  steps cap m c c' -> bound fa fa' ka fb fb' kb n c -> m <= n /\ bound fa fa' ka fb fb' kb (n - m) c'.
Proof.
  intros RA RB. induction m as [|m IH]; intros n c c' H B; inversion H; subst.
  - rewrite Nat.sub_0_r. split; [lia|assumption].
  - destruct (bound_step _ _ _ _ _ _ _ _ _ RA RB B ltac:(eassumption)) as (n' & -> & B').
    destruct (IH _ _ _ ltac:(eassumption) B'). split; [lia|assumption].
Qed.

(** Both come to rest with empty channels: every execution ends there, after the
    closes. *)
Theorem ends_closed n pa pb fa fa' ka fb fb' kb : rests fa fa' ka -> rests fb fb' kb ->
  csteps n (mk_cfg pa pb [] []) (mk_cfg fa fb [] []) ->
  always_ends cap (mk_net pa pb [] [] false false) (mk_net fa' fb' [] [] ka kb).
Proof.
  intros RA RB H. split.
  - intros c' S. destruct RA, RB; inversion S; subst; match goal with H : move _ _ _ _ _ _ _ _ _ |- _ => inversion H end.
  - exists (n + cnt ka + cnt kb). intros m c' M.
    destruct (bound_steps _ _ _ _ _ _ _ RA RB _ _ _ M (b_both _ _ _ _ _ _ _ _ _ _ _ H)) as [L B].
    split; [assumption|]. eapply bound_live; eassumption.
Qed.

(** ** An execution where neither closes *)
Definition no_close {Z} (p : proc Z) : Prop := forall k, p <> PClose k.

Lemma never_closes n : forall pa pb ab ba fa fb ab' ba', csteps n (mk_cfg pa pb ab ba) (mk_cfg fa fb ab' ba') ->
  no_close fa -> no_close fb -> no_close pa /\ no_close pb.
Proof.
  induction n as [|n IH]; intros pa pb ab ba fa fb ab' ba' H NA NB; inversion H as [|? ? ? ? ? C H2]; subst; [auto|].
  inversion C as [? ? ? ? ? ? ? Q|? ? ? ? ? ? ? Q]; subst; destruct (IH _ _ _ _ _ _ _ _ H2 NA NB) as [A B]; split; auto;
    destruct Q; intros kk E; discriminate E.
Qed.

Theorem ends_quiet n pa pb fa fb : no_close fa -> no_close fb -> resting (mk_cfg fa fb [] []) ->
  csteps n (mk_cfg pa pb [] []) (mk_cfg fa fb [] []) ->
  always_ends cap (mk_net pa pb [] [] false false) (mk_net fa fb [] [] false false).
Proof.
  intros NA NB R H.
  assert (ONE : forall m p q ab ba c, csteps m (mk_cfg p q ab ba) (mk_cfg fa fb [] []) ->
                step cap (mk_net p q ab ba false false) c ->
                exists m' p' q' ab' ba', m = S m' /\ c = mk_net p' q' ab' ba' false false /\ csteps m' (mk_cfg p' q' ab' ba') (mk_cfg fa fb [] [])).
  { intros m p q ab ba c C S. destruct (never_closes _ _ _ _ _ _ _ _ _ C NA NB) as [CA CB].
    inversion S as [? ? ? ? ? ? pa' ab' ba' cl M|? ? ? ? ? ? pb' ab' ba' cl M]; subst.
    - destruct cl; [inversion M; subst; destruct (CA _ eq_refl)|]. apply move_calm in M.
      destruct (strip _ _ _ _ _ C R (cs_a _ q _ _ _ _ _ M)) as (m' & -> & C'). exists m', pa', q, ab', ba'. auto.
    - destruct cl; [inversion M; subst; destruct (CB _ eq_refl)|]. apply move_calm in M.
      destruct (strip _ _ _ _ _ C R (cs_b p _ _ _ _ _ _ M)) as (m' & -> & C'). exists m', p, pb', ab', ba'. auto. }
  split.
  - intros c S. destruct (ONE 0 _ _ _ _ _ (css_0 _) S) as (m' & ? & ? & ? & ? & E & _). discriminate E.
  - exists n.
    assert (GEN : forall n pa pb ab ba, csteps n (mk_cfg pa pb ab ba) (mk_cfg fa fb [] []) -> forall m c',
                  steps cap m (mk_net pa pb ab ba false false) c' ->
                  m <= n /\ (c' = mk_net fa fb [] [] false false \/ exists c2, step cap c' c2)).
    2:{ intros m c S. exact (GEN _ _ _ _ _ H _ _ S). }
    clear n pa pb H. induction n as [|n IH]; intros pa pb ab ba H m c S.
    + inversion S as [|? ? ? ? S1 S2]; subst.
      * split; [lia|]. left. inversion H. reflexivity.
      * destruct (ONE 0 _ _ _ _ _ H S1) as (m' & ? & ? & ? & ? & E & _). discriminate E.
    + inversion S as [|m0 ? ? ? S1 S2]; subst.
      * split; [lia|]. right. inversion H as [|? ? ? ? ? C H2]; subst.
        inversion C as [? ? ? ? ? ? ? M|? ? ? ? ? ? ? M]; subst; eexists.
        -- apply st_a, calm_move; [exact M|reflexivity].
        -- apply st_b, calm_move; [exact M|reflexivity].
      * destruct (ONE _ _ _ _ _ _ H S1) as (m' & p' & q' & ab' & ba' & E & -> & C'). injection E as <-.
        destruct (IH _ _ _ _ C' _ _ S2). split; [lia|assumption].
Qed.
End Conf.

(** What is left in the queues when the thread has ended is released by destroy. *)
From Coq Require Import Permutation Lia.
From Verif Require Import Bytes Spec SpecTrace Io Io_proofs SpecStream Control Rdwr Writer Api SpecApi Iothr SpecIothr Iothr_proofs Iothr2_proofs Iothr3_proofs Iothr4_proofs.
Local Open Scope nat_scope.

Lemma free_queue_empties dfuel i : forall h,
  wp (free_queue dfuel i) (fun h' o => exists l, h' = h ++ l /\ forall u, o = Done u -> In (QRemove i, AEntry None) l) h.
Proof.
  induction dfuel as [|f IH]; intro h; cbn [free_queue].
  - exists []. rewrite app_nil_r. split; [reflexivity|discriminate].
  - cbn. split; [exists []; rewrite app_nil_r; split; [reflexivity|discriminate]|].
    intros a Ha. destruct a as [r|r bs|z|[e|]|b|]; try contradiction; cbn.
    + unfold free_bytes. destruct (e_free e); cbn.
      * split; [eexists; split; [reflexivity|discriminate]|]. intros a Hb. destruct a; try contradiction. cbn.
        eapply wp_mono; [|apply IH]. intros h' o (l & -> & K). eexists. rewrite <- !app_assoc. split; [reflexivity|]. intros u E. right. right. apply (K u E).
      * eapply wp_mono; [|apply IH]. intros h' o (l & -> & K). eexists. rewrite <- !app_assoc. split; [reflexivity|]. intros u E. right. apply (K u E).
    + eexists. split; [reflexivity|]. intros u _. left. reflexivity.
Qed.
Lemma free_queues_empty dfuel n : forall i h,
  wp (free_queues n i dfuel) (fun h' o => exists l, h' = h ++ l /\ forall u, o = Done u -> forall j, i <= j < i + n -> In (QRemove j, AEntry None) l) h.
Proof.
  induction n as [|n IH]; intros i h; cbn [free_queues].
  - exists []. rewrite app_nil_r. split; [reflexivity|]. intros. lia.
  - apply wp_bind_i. eapply wp_mono; [|apply free_queue_empties]. intros h' o (l & -> & K). destruct o as [u|f|]; cbn [bind_post].
    + eapply wp_mono; [|apply IH]. intros h' o (l' & -> & K'). exists (l ++ l'). rewrite app_assoc. split; [reflexivity|].
      intros v E j Hj. apply in_app_iff. destruct (Nat.eq_dec j i) as [->|]; [left; apply (K u eq_refl)|right; apply (K' v E); lia].
    + exists l. split; [reflexivity|discriminate].
    + exists l. split; [reflexivity|discriminate].
Qed.

Section Leftovers.
Variables (iov_max : N) (cts : list bytes) (rw : rdwr) (t : iothr) (cap fuel dfuel : nat).
Hypothesis Hc : created iov_max cts rw t.

Lemma life_tail tr u : runs (iothr_life fuel dfuel t) tr (Done u) ->
  exists l1 l2, tr = l1 ++ l2 /\ (forall h a, ~ In (QDestroy h, a) l2) /\ forall i, i < queues t -> In (QRemove i, AEntry None) l2.
Proof.
  intro R. set (Q := fun (tr : trace) (o : out unit) => forall u, o = Done u -> exists l1 l2, tr = l1 ++ l2 /\ (forall h a, ~ In (QDestroy h, a) l2) /\ forall i, i < queues t -> In (QRemove i, AEntry None) l2).
  refine (wp_runs _ Q _ _ _ R u eq_refl). destruct (created_ok (fun _ => true) _ _ _ _ eq_refl Hc) as (T & S1 & S2 & S3 & _).
  unfold iothr_life. apply wp_bind_i. eapply wp_mono; [|eapply (wp_thr (fun _ => true) eq_refl _ _ _ S1 S2 S3 dfuel fuel t [] [] [] T eq_refl)].
  intros h1 o K. destruct o as [t1|f|]; cbn [bind_post]; [|intros v E; discriminate|intros v E; discriminate].
  destruct K as (W1 & [_ _ _ _ FO _ _ _ _]). rewrite FO. apply wp_bind_i. eapply wp_mono; [|apply wp_true].
  intros h2 o _. destruct o as [x|f|]; cbn [bind_post]; [|intros v E; discriminate|intros v E; discriminate].
  eapply wp_mono; [|eapply evp_wp; [apply ntr_free_queues|apply free_queues_empty]].
  intros h3 o ((tr3 & -> & F) & (l & E & K)). apply app_inv_head in E. subst l. intros v ->. exists h2, tr3. split; [reflexivity|]. split.
  - intros h a Hi. rewrite Forall_forall in F. exact (F _ Hi).
  - intros i Hi. apply (K v eq_refl). unfold queues in Hi. lia.
Qed.

Variables (H : history) (s : sys).
Hypothesis Hs : system cap fuel dfuel t H s (Done tt).
Variables (hA : history) (d : nat) (a : ans) (hB : history) (sA : sys).
Hypothesis EH : H = hA ++ S_thr (QDestroy d, a) :: hB.
Hypothesis RA : sys_run cap sys_init hA = Some sA.
Hypothesis PA : forall i, s_pending sA i = [].

Lemma left_over_taken i : exists c, of_queue i (removed (thread_of H)) = of_queue i (accepted hA) ++ c.
Proof.
  destruct Hs as (R & RL & _ & F). destruct (Nat.lt_ge_cases i (queues t)) as [Hi|Hi].
  2:{ exists (of_queue i (removed (thread_of H))). replace (of_queue i (accepted hA)) with (@nil entry); [reflexivity|]. symmetry. rewrite EH, accepted_app in F. apply Forall_app in F. destruct F as [F _].
      clear - F Hi. induction F as [|[j x] l Hj F IH]; [reflexivity|]. rewrite of_queue_cons. cbn in Hj. destruct (Nat.eqb_spec j i); [lia|assumption]. }
  destruct (life_tail _ _ RL) as (l1 & l2 & E & ND & K).
  assert (exists m, thread_of hB = m ++ l2) as (m & EB).
  { clear - E ND EH. rewrite EH, thread_app in E. cbn [thread_of flat_map app] in E. fold (thread_of hB) in E. revert l1 E.
    generalize (thread_of hA). intro lA. induction lA as [|x lA IH]; intros l1 E; destruct l1 as [|y l1]; cbn in E.
    - subst l2. exfalso. apply (ND d a). left. reflexivity.
    - injection E as _ E. exists l1. exact E.
    - exfalso. apply (ND d a). rewrite <- E. right. apply in_app_iff. right. left. reflexivity.
    - injection E as _ E. eapply IH, E. }
  destruct (in_split _ _ (K i Hi)) as (m1 & m2 & E2). rewrite E2, app_assoc in EB. destruct (thread_split _ _ _ _ EB) as (h1 & h2 & EB2 & T1 & T2).
  rewrite EH, EB2, sys_app, RA in R. change (S_thr (QDestroy d, a) :: h1 ++ S_thr (QRemove i, AEntry None) :: h2) with ((S_thr (QDestroy d, a) :: h1) ++ S_thr (QRemove i, AEntry None) :: h2) in R.
  rewrite sys_app in R. set (hX := S_thr (QDestroy d, a) :: h1) in *. destruct (sys_run cap sA hX) as [sX|] eqn:RX; [|discriminate].
  cbn [sys_run sys_step] in R. destruct (s_visible sX i) eqn:VX; [|discriminate].
  destruct (sys_publish _ _ _ _ RX i) as (c & Hx). rewrite VX, app_nil_r in Hx.
  destruct (sys_content _ _ _ _ [] RA) as (rest & C1 & _ & Q1); [intro; reflexivity|].
  specialize (Q1 i). specialize (C1 i). rewrite PA, app_nil_r in C1. rewrite C1 in Q1. cbn [app] in Q1.
  exists (c ++ of_queue i (removed ((QRemove i, AEntry None) :: m2))). rewrite Q1, <- app_assoc, (app_assoc (s_visible sA i)), <- Hx.
  rewrite EH, EB2. change (S_thr (QDestroy d, a) :: h1 ++ S_thr (QRemove i, AEntry None) :: h2) with (hX ++ S_thr (QRemove i, AEntry None) :: h2).
  rewrite !thread_app, !removed_app, !of_queue_app. cbn [thread_of flat_map app]. fold (thread_of h2). rewrite T2. reflexivity.
Qed.

(** Lists of (queue, entry) that agree queue by queue up to a remainder. *)
Lemma queues_perm : forall (l b : list (nat * entry)), (forall i, exists c, of_queue i b = of_queue i l ++ c) -> exists c, Permutation b (l ++ c).
Proof.
  induction l as [|[i x] l IH]; intros b K; [exists b; reflexivity|].
  assert (exists b1 b2, b = b1 ++ (i, x) :: b2 /\ of_queue i b1 = []) as (b1 & b2 & -> & E1).
  { destruct (K i) as (c & E). rewrite of_queue_cons, Nat.eqb_refl in E. cbn [app] in E. clear - E. induction b as [|[j y] b IHb]; [discriminate|].
    rewrite of_queue_cons in E. destruct (Nat.eqb j i) eqn:EJ.
    - injection E as -> _. apply Nat.eqb_eq in EJ. subst j. exists [], b. auto.
    - destruct (IHb E) as (b1 & b2 & -> & E1). exists ((j, y) :: b1), b2. split; [reflexivity|]. rewrite of_queue_cons, EJ. exact E1. }
  destruct (IH (b1 ++ b2)) as (c & P).
  - intro j. destruct (K j) as (c & E). exists c. rewrite of_queue_app, !of_queue_cons in E. rewrite of_queue_app. destruct (Nat.eqb i j) eqn:EJ; [|exact E].
    apply Nat.eqb_eq in EJ. subst j. rewrite E1 in *. injection E as E. exact E.
  - exists c. rewrite <- Permutation_middle, P. reflexivity.
Qed.

Lemma left_over_released : exists rest, Permutation (freed (thread_of H)) (owed (map snd (accepted hA)) ++ rest).
Proof.
  destruct (queues_perm (accepted hA) (removed (thread_of H)) left_over_taken) as (c & P).
  destruct (life_end _ _ _ _ _ _ _ _ _ _ Hc Hs eq_refl) as (_ & _ & (_ & U) & _). rewrite app_nil_r in U.
  exists (owed (map snd c)). rewrite <- U, (owed_perm _ _ (Permutation_map snd P)), map_app, owed_app. reflexivity.
Qed.
End Leftovers.

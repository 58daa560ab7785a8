(** The I/O thread inside the whole system. *)
From Coq Require Import Permutation.
From Verif Require Import Bytes Bytes_proofs Spec SpecTrace Io Io_proofs SpecStream Control Rdwr Writer Api SpecApi Queue Writer_proofs Writer2_proofs Queue4_proofs
  Iothr SpecIothr Iothr_proofs Iothr2_proofs Iothr3_proofs.
Local Open Scope nat_scope.

(** ** Lists by queue *)
Lemma of_queue_app i a b : of_queue i (a ++ b) = of_queue i a ++ of_queue i b.
Proof. unfold of_queue. rewrite filter_app, map_app. reflexivity. Qed.
Lemma of_queue_one i j x : of_queue i [(j, x)] = if Nat.eqb j i then [x] else [].
Proof. unfold of_queue. cbn. destruct (Nat.eqb j i); reflexivity. Qed.
Lemma of_queue_cons i j x l : of_queue i ((j, x) :: l) = if Nat.eqb j i then x :: of_queue i l else of_queue i l.
Proof. unfold of_queue. cbn. destruct (Nat.eqb j i); reflexivity. Qed.
Lemma of_queue_subseq i a b : subseq a b -> subseq (of_queue i a) (of_queue i b).
Proof.
  induction 1 as [|[j x] a b H IH|[j x] a b H IH]; [apply sub_nil| |]; rewrite ?of_queue_cons.
  - destruct (Nat.eqb j i); [apply sub_skip|]; assumption.
  - destruct (Nat.eqb j i); [apply sub_take|]; assumption.
Qed.
Lemma of_queue_none l : (forall i, of_queue i l = []) -> l = [].
Proof.
  destruct l as [|[j x] l]; [reflexivity|]. intro H. specialize (H j). rewrite of_queue_cons, Nat.eqb_refl in H. discriminate.
Qed.
Lemma of_queue_first i x r : forall l, of_queue i l = x :: r -> exists a b, l = a ++ (i, x) :: b /\ of_queue i a = [].
Proof.
  induction l as [|[j y] l IH]; [discriminate|]. rewrite of_queue_cons. destruct (Nat.eqb j i) eqn:E.
  - apply Nat.eqb_eq in E. subst j. intros [= -> _]. exists [], l. auto.
  - intro H. destruct (IH H) as (a & b & -> & Ha). exists ((j, y) :: a), b. rewrite of_queue_cons, E. auto.
Qed.
Lemma of_queue_perm i a b : Permutation a b -> Permutation (of_queue i a) (of_queue i b).
Proof.
  intro H. unfold of_queue. apply Permutation_map. induction H; cbn.
  - constructor.
  - destruct (Nat.eqb _ _); [constructor|]; assumption.
  - destruct (Nat.eqb _ _), (Nat.eqb _ _); try constructor; reflexivity.
  - etransitivity; eassumption.
Qed.
Lemma subseq_perm {A} (a b : list A) : subseq a b -> exists c, Permutation b (a ++ c).
Proof.
  induction 1 as [|x a b H (c & IH)|x a b H (c & IH)].
  - exists []. constructor.
  - exists (x :: c). rewrite IH. apply Permutation_middle.
  - exists c. cbn. constructor. exact IH.
Qed.

(** ** The system *)
Section Sys.
Variable cap : nat.

Lemma sys_app h1 h2 : forall s, sys_run cap s (h1 ++ h2) = match sys_run cap s h1 with Some s' => sys_run cap s' h2 | None => None end.
Proof. induction h1 as [|e h1 IH]; intro s; cbn; [reflexivity|]. destruct (sys_step cap s e); [apply IH|reflexivity]. Qed.
Lemma thread_app a b : thread_of (a ++ b) = thread_of a ++ thread_of b.
Proof. apply flat_map_app. Qed.
Lemma accepted_app a b : accepted (a ++ b) = accepted a ++ accepted b.
Proof. apply flat_map_app. Qed.

Lemma entry_eqb x y : (Nat.eqb (e_id x) (e_id y) && bytes_eqb (e_data x) (e_data y) && Bool.eqb (e_free x) (e_free y))%bool = true -> x = y.
Proof.
  rewrite !Bool.andb_true_iff. intros [[A B] C]. apply Nat.eqb_eq in A. apply bytes_eqb_eq in B. apply Bool.eqb_prop in C.
  destruct x, y. cbn in *. congruence.
Qed.

(** The possible shapes of a step. *)
Lemma step_inv s e s' : sys_step cap s e = Some s' ->
  (exists i x, e = S_insert i x /\ s' = mk_sys (upd (s_pending s) i (s_pending s i ++ [x])) (s_visible s) (s_flag s)) \/
  (exists i x r, e = S_publish i /\ s_pending s i = x :: r /\ s' = mk_sys (upd (s_pending s) i r) (upd (s_visible s) i (s_visible s i ++ [x])) (s_flag s)) \/
  (e = S_shutdown /\ s' = mk_sys (s_pending s) (s_visible s) true) \/
  (exists i x r, e = S_thr (QRemove i, AEntry (Some x)) /\ s_visible s i = x :: r /\ s' = mk_sys (s_pending s) (upd (s_visible s) i r) (s_flag s)) \/
  (exists v, e = S_thr v /\ removed_at v = [] /\ s' = s /\
     (forall i, v = (QRemove i, AEntry None) -> s_visible s i = []) /\ (forall b, v = (QShutting, ABool b) -> b = s_flag s)).
Proof.
  destruct e as [i x|i| |v]; cbn [sys_step].
  - destruct (Nat.ltb _ _); [|discriminate]. intros [= <-]. left. eauto.
  - destruct (s_pending s i) as [|x r] eqn:E; [discriminate|]. intros [= <-]. right. left. eauto 6.
  - intros [= <-]. right. right. left. auto.
  - assert (O : Some s = Some s' -> removed_at v = [] -> (forall i, v <> (QRemove i, AEntry None)) -> (forall b, v <> (QShutting, ABool b)) ->
      exists v', S_thr v = S_thr v' /\ removed_at v' = [] /\ s' = s /\ (forall i, v' = (QRemove i, AEntry None) -> s_visible s i = []) /\ (forall b, v' = (QShutting, ABool b) -> b = s_flag s)).
    { intros [= <-] R N1 N2. exists v. split; [reflexivity|]. split; [assumption|]. split; [reflexivity|]. split; intros j E; [destruct (N1 j E)|destruct (N2 j E)]. }
    destruct v as [q a]. destruct q; try (intro X; do 4 right; apply O; [assumption|reflexivity|discriminate|discriminate]).
    + destruct a as [ | | |oe| | ]; try (intro X; do 4 right; apply O; [assumption|reflexivity|discriminate|discriminate]).
      destruct oe as [x|]; destruct (s_visible s i) as [|y r] eqn:E; try discriminate.
      * destruct (_ && _)%bool eqn:B; [|discriminate]. apply entry_eqb in B. subst y. intros [= <-]. do 3 right. left. eauto 6.
      * intros [= <-]. do 4 right. eexists. split; [reflexivity|]. split; [reflexivity|]. split; [reflexivity|]. split; [|discriminate]. intros j [= <-]. assumption.
    + destruct a as [ | | | |b| ]; try (intro X; do 4 right; apply O; [assumption|reflexivity|discriminate|discriminate]).
      destruct (Bool.eqb b (s_flag s)) eqn:B; [|discriminate]. apply Bool.eqb_prop in B. intros [= <-]. do 4 right. eexists. split; [reflexivity|]. split; [reflexivity|]. split; [reflexivity|].
      split; [discriminate|]. intros b' [= <-]. assumption.
Qed.

Lemma upd_same {A} (f : nat -> A) i a : upd f i a i = a.
Proof. unfold upd. rewrite Nat.eqb_refl. reflexivity. Qed.
Lemma upd_eq {A} (f : nat -> A) i a j : upd f i a j = if Nat.eqb i j then a else f j.
Proof. reflexivity. Qed.

(** What is in the queues, as pairs. *)
Definition content (rest : list (nat * entry)) (s : sys) : Prop := forall i, of_queue i rest = s_visible s i ++ s_pending s i.

Lemma sys_content h : forall s0 s r0, sys_run cap s0 h = Some s -> content r0 s0 ->
  exists rest, content rest s /\ Permutation (r0 ++ accepted h) (removed (thread_of h) ++ rest) /\
    forall i, of_queue i (r0 ++ accepted h) = of_queue i (removed (thread_of h)) ++ of_queue i rest.
Proof.
  induction h as [|e h IH]; intros s0 s r0 R C.
  - cbn in R. injection R as <-. exists r0. rewrite app_nil_r. cbn. auto.
  - cbn [sys_run] in R. destruct (sys_step cap s0 e) as [s1|] eqn:E; [|discriminate].
    destruct (step_inv _ _ _ E) as [(i & x & -> & ->) |[(i & x & r & -> & P & ->) |[(-> & ->) |[(i & x & r & -> & V & ->) |(v & -> & RV & -> & _)]]]].
    + destruct (IH _ _ (r0 ++ [(i, x)]) R) as (rest & C' & P' & Q').
      { intro j. rewrite of_queue_app, of_queue_one, C. cbn. rewrite upd_eq. destruct (Nat.eqb i j) eqn:EJ; [apply Nat.eqb_eq in EJ; subst j; rewrite app_assoc; reflexivity|rewrite app_nil_r; reflexivity]. }
      exists rest. rewrite <- app_assoc in P', Q'. cbn in *. auto.
    + destruct (IH _ _ r0 R) as (rest & C' & P' & Q').
      { intro j. rewrite C. cbn. rewrite !upd_eq. destruct (Nat.eqb i j) eqn:EJ; [apply Nat.eqb_eq in EJ; subst j; rewrite P, <- app_assoc; reflexivity|reflexivity]. }
      exists rest. auto.
    + destruct (IH _ _ r0 R) as (rest & C' & P' & Q'); [exact C|]. exists rest. auto.
    + pose proof (C i) as Ci. rewrite V in Ci. cbn in Ci. destruct (of_queue_first _ _ _ _ Ci) as (a & b & -> & Ha).
      assert (Cab : of_queue i b = r ++ s_pending s0 i).
      { rewrite of_queue_app, Ha, of_queue_cons, Nat.eqb_refl in Ci. cbn in Ci. congruence. }
      destruct (IH _ _ (a ++ b) R) as (rest & C' & P' & Q').
      { intro j. cbn. rewrite upd_eq, of_queue_app. destruct (Nat.eqb i j) eqn:EJ.
        - apply Nat.eqb_eq in EJ. subst j. rewrite Ha. exact Cab.
        - specialize (C j). rewrite of_queue_app, of_queue_cons, EJ in C. exact C. }
      exists rest. split; [assumption|]. cbn [accepted thread_of flat_map app removed removed_at]. split.
      * cbn. rewrite <- app_assoc. cbn. rewrite <- Permutation_middle. constructor. rewrite app_assoc. exact P'.
      * intro j. rewrite of_queue_cons. specialize (Q' j). rewrite <- app_assoc, !of_queue_app in *. cbn [app]. rewrite of_queue_cons. destruct (Nat.eqb i j) eqn:EJ.
        -- apply Nat.eqb_eq in EJ. subst j. rewrite Ha in *. cbn [app]. f_equal. exact Q'.
        -- exact Q'.
    + destruct (IH _ _ r0 R) as (rest & C' & P' & Q'); [exact C|]. exists rest.
      cbn [accepted thread_of flat_map app]. fold (thread_of h). fold (accepted h). change (v :: thread_of h) with ([v] ++ thread_of h). rewrite removed_app.
      assert (Z : removed [v] = []) by (unfold removed; cbn; rewrite RV; reflexivity). rewrite Z. auto.
Qed.

(** Everything published stays published. *)
Lemma sys_publish h : forall s0 s, sys_run cap s0 h = Some s -> forall i, exists c,
  of_queue i (removed (thread_of h)) ++ s_visible s i = s_visible s0 i ++ c.
Proof.
  induction h as [|e h IH]; intros s0 s R i.
  - cbn in R. injection R as <-. exists []. rewrite app_nil_r. reflexivity.
  - cbn [sys_run] in R. destruct (sys_step cap s0 e) as [s1|] eqn:E; [|discriminate].
    destruct (IH _ _ R i) as (c & Hc).
    destruct (step_inv _ _ _ E) as [(j & x & -> & ->) |[(j & x & r & -> & P & ->) |[(-> & ->) |[(j & x & r & -> & V & ->) |(v & -> & RV & -> & _)]]]]; cbn in Hc.
    + exists c. exact Hc.
    + rewrite upd_eq in Hc. destruct (Nat.eqb j i) eqn:EJ; [|eauto]. apply Nat.eqb_eq in EJ. subst j. exists ([x] ++ c). rewrite app_assoc. exact Hc.
    + eauto.
    + cbn [thread_of flat_map app removed removed_at]. rewrite of_queue_cons. rewrite upd_eq in Hc. destruct (Nat.eqb j i) eqn:EJ; [|eauto]. apply Nat.eqb_eq in EJ. subst j. exists c. rewrite V. cbn. f_equal. exact Hc.
    + exists c. cbn [thread_of flat_map]. cbn [app]. fold (thread_of h). change (v :: thread_of h) with ([v] ++ thread_of h). rewrite removed_app.
      assert (Z : removed [v] = []) by (unfold removed; cbn; rewrite RV; reflexivity). rewrite Z. exact Hc.
Qed.

Lemma sys_flag h : forall s0 s, sys_run cap s0 h = Some s -> s_flag s0 = true -> s_flag s = true /\ still_running (thread_of h) = 0.
Proof.
  induction h as [|e h IH]; intros s0 s R F; [cbn in R; injection R as <-; auto|].
  cbn [sys_run] in R. destruct (sys_step cap s0 e) as [s1|] eqn:E; [|discriminate].
  destruct (step_inv _ _ _ E) as [(j & x & -> & ->) |[(j & x & r & -> & P & ->) |[(-> & ->) |[(j & x & r & -> & V & ->) |(v & -> & RV & -> & _ & FL)]]]].
  all: try (destruct (IH _ _ R) as [A B]; [cbn; auto|]; split; [exact A|exact B]).
  destruct (IH _ _ R F) as [A B]. split; [exact A|]. cbn [thread_of flat_map app]. fold (thread_of h). change (v :: thread_of h) with ([v] ++ thread_of h). rewrite running_app, B.
  destruct v as [[] [ | | | |b| ]]; try reflexivity. destruct b; [reflexivity|]. specialize (FL false eq_refl). congruence.
Qed.
Lemma sys_noflag h : forall s0 s, sys_run cap s0 h = Some s -> s_flag s0 = false -> ~ In S_shutdown h -> s_flag s = false.
Proof.
  induction h as [|e h IH]; intros s0 s R F N; [cbn in R; injection R as <-; auto|].
  cbn [sys_run] in R. destruct (sys_step cap s0 e) as [s1|] eqn:E; [|discriminate].
  assert (N' : ~ In S_shutdown h) by (intro; apply N; right; assumption). apply (IH _ _ R); [|assumption].
  destruct (step_inv _ _ _ E) as [(j & x & -> & ->) |[(j & x & r & -> & P & ->) |[(-> & ->) |[(j & x & r & -> & V & ->) |(v & -> & RV & -> & _ & FL)]]]]; cbn; auto.
  exfalso. apply N. left. reflexivity.
Qed.

(** Splitting a history at a point of the thread's trace. *)
Lemma thread_split H : forall l1 e l2, thread_of H = l1 ++ e :: l2 -> exists h1 h2, H = h1 ++ S_thr e :: h2 /\ thread_of h1 = l1 /\ thread_of h2 = l2.
Proof.
  induction H as [|x H IH]; intros l1 e l2 E; [destruct l1; discriminate|].
  assert (G : forall y, x = y -> (forall v, y <> S_thr v) -> exists h1 h2, x :: H = h1 ++ S_thr e :: h2 /\ thread_of h1 = l1 /\ thread_of h2 = l2).
  { intros y -> Ny. assert (E' : thread_of H = l1 ++ e :: l2) by (destruct y; try exact E; destruct (Ny e0 eq_refl)).
    destruct (IH _ _ _ E') as (h1 & h2 & -> & A & B). exists (y :: h1), h2. split; [reflexivity|]. split; [|assumption].
    destruct y; try exact A. destruct (Ny e0 eq_refl). }
  destruct x as [i z|i| |v]; try (eapply G; [reflexivity|discriminate]).
  cbn in E. destruct l1 as [|u l1]; cbn in E; injection E as -> E.
  - exists [], H. auto.
  - destruct (IH _ _ _ E) as (h1 & h2 & -> & A & B). exists (S_thr u :: h1), h2. split; [reflexivity|]. cbn. split; [f_equal; exact A|assumption].
Qed.

(** If shutdown was seen and queue [i] was then found empty, everything that was
    visible when the shutdown was requested has been taken by then. *)
Lemma taken_by_drain H s l1 l2 tail n i hA hB sA :
  sys_run cap sys_init H = Some s -> thread_of H = l1 ++ (QShutting, ABool true) :: l2 ++ tail ->
  (forall i, i < n -> In (QRemove i, AEntry None) l2) -> i < n ->
  H = hA ++ S_shutdown :: hB -> ~ In S_shutdown hA -> sys_run cap sys_init hA = Some sA -> (s_pending sA i = []) ->
  exists c, of_queue i (removed (l1 ++ (QShutting, ABool true) :: l2)) = of_queue i (accepted hA) ++ c.
Proof.
  intros R E D Hi EH NS RA PA.
  destruct (thread_split _ _ _ _ E) as (h1 & h2 & EH2 & T1 & T2).
  (* the flag was read after the request *)
  assert (exists hM, h1 = hA ++ S_shutdown :: hM) as (hM & ->).
  { assert (I1 : In S_shutdown h1).
    { rewrite EH2, sys_app in R. destruct (sys_run cap sys_init h1) as [s1|] eqn:R1; [|discriminate]. cbn [sys_run sys_step] in R.
      destruct (Bool.eqb true (s_flag s1)) eqn:B; [|discriminate]. apply Bool.eqb_prop in B.
      assert (Dec : In S_shutdown h1 \/ ~ In S_shutdown h1).
      { clear. induction h1 as [|x h IH]; [right; intros []|]. destruct IH as [IH|IH]; [left; right; assumption|].
        destruct x; try (right; intros [X|X]; [discriminate|auto]). left. left. reflexivity. }
      destruct Dec as [|N]; [assumption|]. pose proof (sys_noflag _ _ _ R1 eq_refl N). congruence. }
    apply in_split in I1. destruct I1 as (a & b & ->). rewrite <- app_assoc in EH2. cbn in EH2. rewrite EH2 in EH. clear - EH NS.
    revert hA EH NS. induction a as [|y a IH]; intros hA EH NS.
    - destruct hA as [|z hA]; cbn in EH; [exists b; reflexivity|]. injection EH as <- _. exfalso. apply NS. left. reflexivity.
    - destruct hA as [|z hA]; cbn in EH; injection EH as -> EH.
      + exists (a ++ S_shutdown :: b). reflexivity.
      + destruct (IH hA EH) as (hM & E); [intro; apply NS; right; assumption|]. exists hM. cbn. f_equal. exact E. }
  destruct (in_split _ _ (D i Hi)) as (m1 & m2 & ->). rewrite <- app_assoc in T2. cbn in T2.
  destruct (thread_split _ _ _ _ T2) as (h3 & h4 & -> & T3 & T4).
  rewrite EH2, <- app_assoc in R. cbn [app] in R. rewrite sys_app, RA in R. cbn [sys_run sys_step] in R.
  set (sB := mk_sys (s_pending sA) (s_visible sA) true) in *.
  change (S_thr (QShutting, ABool true) :: h3 ++ S_thr (QRemove i, AEntry None) :: h4) with ((S_thr (QShutting, ABool true) :: h3) ++ S_thr (QRemove i, AEntry None) :: h4) in R.
  rewrite app_assoc, sys_app in R. set (hX := hM ++ S_thr (QShutting, ABool true) :: h3) in *.
  destruct (sys_run cap sB hX) as [sX|] eqn:RX; [|discriminate]. cbn [sys_run sys_step] in R. destruct (s_visible sX i) eqn:VX; [|discriminate].
  destruct (sys_publish _ _ _ RX i) as (c & Hc). rewrite VX, app_nil_r in Hc. cbn in Hc.
  destruct (sys_content _ _ _ [] RA) as (rest & C1 & _ & Q1); [intro; reflexivity|].
  specialize (Q1 i). specialize (C1 i). rewrite PA, app_nil_r in C1. rewrite C1 in Q1. cbn [app] in Q1.
  exists (c ++ of_queue i (removed m2)). rewrite Q1, <- app_assoc, (app_assoc (s_visible sA i)), <- Hc.
  rewrite thread_app in T1. cbn [thread_of flat_map] in T1. fold (thread_of hM) in T1.
  subst hX. rewrite thread_app. cbn [thread_of flat_map app]. fold (thread_of h3). rewrite T3, <- T1.
  change (m1 ++ (QRemove i, AEntry None) :: m2) with (m1 ++ [(QRemove i, AEntry None)] ++ m2).
  change ((QShutting, ABool true) :: m1 ++ [(QRemove i, AEntry None)] ++ m2) with ([(QShutting, ABool true)] ++ m1 ++ [(QRemove i, AEntry None)] ++ m2).
  change ((QShutting, ABool true) :: m1) with ([(QShutting, ABool true)] ++ m1).
  rewrite !removed_app, !of_queue_app, <- !app_assoc. reflexivity.
Qed.
End Sys.

(** ** Options *)
Record ranged (iov_max : N) (o : iothr_options) : Prop := {
  rg_hint : (1024 <= io_buffer_hint o <= 65536)%N;
  rg_num : (1 <= io_num_input_queues o)%N;
  rg_out : (2 <= io_output_queue_size o)%N /\ (io_output_queue_size o <= N.max 64 iov_max)%N;
  rg_reopen : (1 <= io_reopen_interval o <= 600)%N }.
Lemma ranged_step iov_max o c : ranged iov_max o -> ranged iov_max (snd (do_oset iov_max o c)).
Proof.
  intros [A B C D]. destruct c as [v|v|v|v|v|v|v|v]; cbn [do_oset].
  - unfold set_buffer_hint. destruct (N.ltb_spec v 1024); cbn [orb]; [split; assumption|]. destruct (N.ltb_spec 65536 v); cbn; split; cbn; try assumption; lia.
  - unfold set_flush_timeout. destruct (_ || _)%bool; split; assumption.
  - unfold set_input_queue_size. destruct (_ || _ || _)%bool; split; assumption.
  - unfold set_num_input_queues. destruct (N.ltb_spec v 1); cbn; split; cbn; try assumption; lia.
  - unfold set_output_queue_size. destruct (N.ltb_spec v 2); cbn [orb]; [split; assumption|]. destruct (N.ltb_spec iov_max v); cbn; split; cbn; try assumption; lia.
  - unfold set_queue_model. destruct v; split; assumption.
  - unfold set_notify_threshold. destruct (_ <? _)%N; split; assumption.
  - unfold set_reopen_interval. destruct (N.ltb_spec v 1); cbn [orb]; [split; assumption|]. destruct (N.ltb_spec 600 v); cbn; split; cbn; try assumption; lia.
Qed.
Lemma ranged_default iov_max : ranged iov_max iothr_options_default.
Proof. split; cbn; lia. Qed.
Lemma ranged_configured iov_max cs : ranged iov_max (configured iov_max cs).
Proof.
  unfold configured. generalize (ranged_default iov_max). generalize iothr_options_default. induction cs as [|c cs IH]; intros o R; [assumption|].
  cbn [fold_left]. apply IH, ranged_step, R.
Qed.

Lemma created_ok okb iov_max cts rw t : okb r_success = true -> created iov_max cts rw t ->
  TI okb (rw_has_read rw) cts (t_opt t) t [] [] [] [] /\
  (1 <= io_output_queue_size (t_opt t))%N /\ (io_output_queue_size (t_opt t) < 2 ^ 30)%N /\ (io_buffer_hint (t_opt t) <= 2 ^ 32)%N /\
  (1 <= io_reopen_interval (t_opt t) <= 600)%N /\ 1 <= queues t.
Proof.
  intros OK (FR & IM & iovm & w & oopt & Hi & Hw & OO & HI). split; [eapply TI_init; eassumption|].
  assert (R : ranged iov_max (match oopt with Some o => o | None => iothr_options_default end)).
  { destruct oopt as [o|]; [destruct OO as (cs & ->); apply ranged_configured|apply ranged_default]. }
  destruct R as [A B C D]. unfold iothr_init in HI. cbv zeta in HI. cbn [negb] in HI. destruct (_ && _)%bool; [discriminate|]. injection HI as <-. unfold queues. cbn [t_opt].
  destruct (N.ltb_spec iov_max (io_output_queue_size (match oopt with Some o => o | None => iothr_options_default end))); cbn; repeat split; lia.
Qed.

(** ** The life of an iothr *)
Lemma owed_perm a b : Permutation a b -> Permutation (owed a) (owed b).
Proof.
  intro H. unfold owed. induction H; cbn.
  - constructor.
  - destruct (e_free x); [constructor|]; assumption.
  - destruct (e_free x), (e_free y); try constructor; reflexivity.
  - etransitivity; eassumption.
Qed.
Lemma owed_in x l : In x (owed l) <-> In x l /\ e_free x = true.
Proof. apply filter_In. Qed.

Lemma NoDup_app_left {A} (a b : list A) : NoDup (a ++ b) -> NoDup a.
Proof.
  induction a as [|x a IH]; [constructor|]. cbn. intro N. apply NoDup_cons_iff in N. destruct N as [N1 N2]. constructor; [|auto].
  intro I. apply N1, in_app_iff. left. assumption.
Qed.

Section Life.
Variables (iov_max : N) (cts : list bytes) (rw : rdwr) (t : iothr) (cap fuel dfuel : nat).
Variables (H : history) (s : sys) (o : out unit).
Hypothesis Hc : created iov_max cts rw t.

Lemma life_any okb : okb r_success = true -> forall tr out, runs (iothr_life fuel dfuel t) tr out ->
  match out with
  | Done _ => LI okb (rw_has_read rw) cts (t_opt t) tr
  | Cut => CI okb (rw_has_read rw) cts (t_opt t) tr
  | Stuck f => f = FFuel /\ (fuel <= still_running tr \/ dfuel <= length (removed tr))
  end.
Proof.
  intros OK tr out R. destruct (created_ok okb _ _ _ _ OK Hc) as (T & S1 & S2 & S3 & _).
  pose proof (wp_life okb OK _ _ _ S1 S2 S3 dfuel fuel t [] [] [] T eq_refl) as X.
  pose proof (wp_runs _ _ X _ _ R) as Y. destruct out; auto. cbn [still_running filter length] in Y. rewrite Nat.add_0_r in Y. exact Y.
Qed.

Lemma life_CI okb : okb r_success = true -> forall tr out, runs (iothr_life fuel dfuel t) tr out -> out <> Stuck FFuel ->
  CI okb (rw_has_read rw) cts (t_opt t) tr.
Proof.
  intros OK tr out R N. pose proof (life_any okb OK _ _ R) as X. destruct out as [u|f|]; [|destruct X as [-> _]; congruence|exact X].
  destruct X as (W & tail & P & _). eapply PI_CI, P.
Qed.

Hypothesis Hs : system cap fuel dfuel t H s o.
Let tr := thread_of H.

Lemma life_content : exists rest, content rest s /\ Permutation (accepted H) (removed tr ++ rest) /\
  forall i, of_queue i (accepted H) = of_queue i (removed tr) ++ of_queue i rest.
Proof. destruct Hs as (R & _). destruct (sys_content cap H _ _ [] R) as (rest & A & B & C); [intro; reflexivity|]. exists rest. auto. Qed.

Lemma life_held : exists held, unreleased tr held.
Proof. destruct Hs as (_ & R & N & _). destruct (life_CI (fun _ => true) eq_refl _ _ R N) as (W & held & _ & _ & U & _). eauto. Qed.

Lemma life_good : forall l1 e l2, tr = l1 ++ e :: l2 -> good (io_output_queue_size (t_opt t)) (io_buffer_hint (t_opt t)) l1 e.
Proof.
  destruct Hs as (_ & R & N & _). destruct (life_CI (fun _ => true) eq_refl _ _ R N) as (W & held & _ & _ & _ & G & _).
  intros l1 e l2 E. eapply G. exact E.
Qed.

Lemma life_releases : exists rest, Permutation (owed (map snd (accepted H))) (freed tr ++ rest).
Proof.
  destruct life_content as (rest & _ & P & _). destruct life_held as (held & _ & U). exists (owed held ++ owed (map snd rest)).
  rewrite (owed_perm _ _ (Permutation_map snd P)), map_app, owed_app, U, app_assoc. reflexivity.
Qed.

Lemma life_no_use_after_free : NoDup (map (fun x => e_id (snd x)) (accepted H)) ->
  forall l1 hh iov a l2, tr = l1 ++ (QWrite hh iov, a) :: l2 ->
  control_write iov \/ exists b, iov = frames_of b /\ forall x, In x b -> In x (map snd (accepted H)) /\ ~ In x (freed l1).
Proof.
  intros ND l1 hh iov a l2 E. destruct (life_good _ _ _ E) as [C|(held & b & (U1 & U2) & S & -> & _)]; [left; assumption|]. right. exists b. split; [reflexivity|].
  destruct life_content as (rest & _ & P & _).
  assert (RM : map snd (removed tr) = map snd (removed l1) ++ map snd (removed ((QWrite hh (frames_of b), a) :: l2))) by (rewrite E, removed_app, map_app; reflexivity).
  pose proof (Permutation_map snd P) as P2. rewrite map_app, RM in P2.
  intros x Hx. assert (Xh : In x held).
  { clear - S Hx. induction S; [destruct Hx|right; auto|]. destruct Hx as [->|Hx]; [left; reflexivity|right; auto]. }
  assert (Xr : In x (map snd (removed l1))).
  { clear - U1 Xh. induction U1; [destruct Xh|right; auto|]. destruct Xh as [->|Hx]; [left; reflexivity|right; auto]. }
  split.
  - rewrite P2. apply in_app_iff. left. apply in_app_iff. left. assumption.
  - intro F. assert (FO : In x (owed (map snd (removed l1)))) by (rewrite U2; apply in_app_iff; left; assumption).
    apply owed_in in FO. destruct FO as [_ FE].
    assert (ND2 : NoDup (map e_id (owed (map snd (removed l1))))).
    { rewrite <- map_map in ND. assert (NDr : NoDup (map e_id (map snd (removed l1)))).
      { pose proof (Permutation_map e_id P2) as P3. rewrite P3 in ND. rewrite !map_app in ND. apply NoDup_app_left in ND. apply NoDup_app_left in ND. exact ND. }
      clear - NDr. induction (map snd (removed l1)) as [|y l IH]; [constructor|]. cbn in NDr |- *. apply NoDup_cons_iff in NDr. destruct NDr as [N1 N2].
      destruct (e_free y); [|auto]. cbn. constructor; [|auto]. intro I. apply N1. apply in_map_iff in I. destruct I as (z & Ez & Iz). apply owed_in in Iz. rewrite <- Ez. apply in_map, Iz. }
    rewrite (Permutation_map e_id U2), map_app in ND2.
    assert (OH : In x (owed held)) by (apply owed_in; auto).
    apply (in_map e_id) in F. apply (in_map e_id) in OH. revert ND2 F OH. generalize (map e_id (freed l1)) (map e_id (owed held)) (e_id x). clear.
    intros a b x N A B. induction a as [|y a IH]; [destruct A|]. cbn in N. apply NoDup_cons_iff in N. destruct N as [N1 N2]. destruct A as [->|A]; [|auto].
    apply N1, in_app_iff. right. assumption.
Qed.

Lemma life_order ss : emits tr ss ->
  exists W full dss, Forall2 prefix ss full /\ Forall2 (writer_session (rw_has_read rw) cts) full dss /\
    concat dss = map (fun x => e_data (snd x)) W /\
    (forall i, subseq (of_queue i W) (of_queue i (accepted H))) /\ exists rest, Permutation (accepted H) (W ++ rest).
Proof.
  intro Em. destruct life_content as (rest & _ & P & Q). destruct Hs as (_ & R & N & _). destruct (life_CI (fun _ => true) eq_refl _ _ R N) as (W & held & (L & dss & F & E) & S & _).
  exists W, (attempted tr), dss. split; [apply (emits_between _ _ Em L)|]. split; [exact F|]. split; [rewrite E; reflexivity|]. split.
  - intro i. rewrite Q. apply subseq_skip_r, of_queue_subseq, S.
  - destruct (subseq_perm _ _ S) as (c & Pc). exists (c ++ rest). fold tr in Pc. rewrite P, Pc, app_assoc. reflexivity.
Qed.

Lemma life_spaced : spaced (Z.of_N (io_reopen_interval (t_opt t))) (open_times tr).
Proof. destruct Hs as (_ & R & N & _). destruct (life_CI (fun _ => true) eq_refl _ _ R N) as (W & held & _ & _ & _ & _ & S). exact S. Qed.

(** Runs that complete. *)
Hypothesis Ho : o = Done tt.

Lemma life_end : exists tail, drained (queues t) tr tail /\ unreleased tr [] /\ transport_state tr = Some TDestroyed.
Proof.
  destruct Hs as (_ & R & _). pose proof (life_any (fun _ => true) eq_refl _ _ R) as X. rewrite Ho in X.
  destruct X as (W & tail & (_ & _ & U & _) & T & D & _). exists tail. auto.
Qed.

Lemma life_released_empty : (forall i, s_visible s i = [] /\ s_pending s i = []) -> Permutation (owed (map snd (accepted H))) (freed tr).
Proof.
  intro E. destruct life_content as (rest & C & P & _). assert (rest = []) as ->.
  { apply of_queue_none. intro i. rewrite C. destruct (E i) as [-> ->]. reflexivity. }
  rewrite app_nil_r in P. destruct life_end as (_ & _ & (_ & U) & _). rewrite (owed_perm _ _ (Permutation_map snd P)), U, app_nil_r. reflexivity.
Qed.

Lemma life_drained hA hB sA : H = hA ++ S_shutdown :: hB -> ~ In S_shutdown hA -> sys_run cap sys_init hA = Some sA -> (forall i, s_pending sA i = []) ->
  forall i, exists c, of_queue i (removed tr) = of_queue i (accepted hA) ++ c.
Proof.
  intros E N RA PA i. destruct life_end as (tail & (l1 & l2 & ET & D) & _). destruct Hs as (R & _ & _ & F).
  destruct (Nat.lt_ge_cases i (queues t)) as [Hi|Hi].
  - destruct (taken_by_drain cap H s l1 l2 tail (queues t) i hA hB sA R ET D Hi E N RA (PA i)) as (c & X).
    exists (c ++ of_queue i (removed tail)). rewrite ET. change (l1 ++ (QShutting, ABool true) :: l2 ++ tail) with (l1 ++ ((QShutting, ABool true) :: l2) ++ tail).
    rewrite app_assoc, removed_app, of_queue_app. unfold of_queue at 1. fold (of_queue i (removed (l1 ++ (QShutting, ABool true) :: l2))). rewrite X, <- app_assoc. reflexivity.
  - exists (of_queue i (removed tr)). replace (of_queue i (accepted hA)) with (@nil entry); [reflexivity|]. symmetry. rewrite E, accepted_app in F. apply Forall_app in F. destruct F as [F _].
    clear - F Hi. induction F as [|[j x] l Hj F IH]; [reflexivity|]. rewrite of_queue_cons. cbn in Hj. destruct (Nat.eqb_spec j i); [lia|assumption].
Qed.

Lemma life_quiet : quiet_shutdown cap H -> forall i, s_visible s i = [] /\ s_pending s i = [].
Proof.
  intros (hA & hB & sA & E & RA & PA & AB & N) i. destruct (life_drained hA hB sA E N RA PA i) as (c & X).
  destruct life_content as (rest & C & _ & Q). specialize (Q i). specialize (C i).
  rewrite E, accepted_app in Q. cbn [accepted flat_map app] in Q. fold (accepted hB) in Q. rewrite AB, app_nil_r, X, C in Q.
  rewrite <- app_assoc in Q. rewrite <- (app_nil_r (of_queue i (accepted hA))) in Q at 1. apply app_inv_head in Q.
  symmetry in Q. apply app_eq_nil in Q. destruct Q as [_ Q]. apply app_eq_nil in Q. exact Q.
Qed.

Lemma life_lossless hA hB sA : healthy tr -> H = hA ++ S_shutdown :: hB -> ~ In S_shutdown hA -> sys_run cap sys_init hA = Some sA -> (forall i, s_pending sA i = []) ->
  exists ss ct W, start_choice (rw_has_read rw) cts ct /\
    delivered tr = ss ++ [session_head (rw_has_read rw) cts ct ++ datas (map (fun x => e_data (snd x)) W) ++ stop_frame] /\
    forall i, prefix (of_queue i (accepted hA)) (of_queue i W) /\ prefix (of_queue i W) (of_queue i (accepted H)).
Proof.
  intros Hh E N RA PA. pose proof Hs as (R & RL & _ & F). pose proof (life_any (fun r => res_eqb r r_success) eq_refl _ _ RL) as X. rewrite Ho in X.
  destruct X as (W & tail & P & _ & (l1 & l2 & ET & D) & K). destruct (K Hh) as (ER & ss & ct & CH & ES). exists ss, ct, W. split; [assumption|]. split; [exact ES|].
  assert (EW : W = removed (l1 ++ (QShutting, ABool true) :: l2)).
  { rewrite ET in ER. change (l1 ++ (QShutting, ABool true) :: l2 ++ tail) with (l1 ++ ((QShutting, ABool true) :: l2) ++ tail) in ER.
    rewrite app_assoc, removed_app in ER. apply app_inv_tail in ER. symmetry. exact ER. }
  destruct life_content as (rest & _ & _ & Q). intro i. split.
  2:{ exists (of_queue i (removed tail) ++ of_queue i rest). rewrite Q. fold tr in ER. rewrite ER, of_queue_app, app_assoc. reflexivity. }
  destruct (Nat.lt_ge_cases i (queues t)) as [Hi|Hi].
  - destruct (taken_by_drain cap H s l1 l2 tail (queues t) i hA hB sA R ET D Hi E N RA (PA i)) as (c & X). exists c. rewrite EW. exact X.
  - exists (of_queue i W). replace (of_queue i (accepted hA)) with (@nil entry); [reflexivity|]. symmetry. rewrite E, accepted_app in F. apply Forall_app in F. destruct F as [F _].
    clear - F Hi. induction F as [|[j x] l Hj F IH]; [reflexivity|]. rewrite of_queue_cons. cbn in Hj. destruct (Nat.eqb_spec j i); [lia|assumption].
Qed.
End Life.

(** Enough fuel. *)
Lemma life_terminates iov_max cts rw t cap fuel dfuel hA hB s o : created iov_max cts rw t ->
  sys_run cap sys_init (hA ++ S_shutdown :: hB) = Some s -> runs (iothr_life fuel dfuel t) (thread_of (hA ++ S_shutdown :: hB)) o ->
  length (thread_of hA) < fuel -> length (accepted (hA ++ S_shutdown :: hB)) < dfuel -> forall f, o <> Stuck f.
Proof.
  intros Hc R RL Hf Hd f ->. destruct (life_any _ _ _ _ fuel dfuel Hc (fun _ => true) eq_refl _ _ RL) as [_ [A|A]].
  - rewrite thread_app, running_app in A. rewrite sys_app in R. destruct (sys_run cap sys_init hA) as [sA|]; [|discriminate].
    change (thread_of (S_shutdown :: hB)) with (thread_of hB) in A. cbn [sys_run sys_step] in R. destruct (sys_flag _ _ _ _ R eq_refl) as [_ Z]. rewrite Z in A.
    assert (still_running (thread_of hA) <= length (thread_of hA)) by (unfold still_running; generalize (thread_of hA); intro l; induction l as [|x l IHl]; cbn; [lia|]; destruct x as [[] [ | | | |[|]| ]]; cbn; lia). lia.
  - destruct (sys_content cap _ _ _ [] R) as (rest & _ & P & _); [intro; reflexivity|]. apply Permutation_length in P. cbn [app] in P. rewrite P, app_length in Hd. lia.
Qed.

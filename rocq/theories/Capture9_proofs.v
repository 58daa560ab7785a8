(** Which output files survive rotation, whatever asked for it. *)
From Coq Require Import ZArith Lia.
From Verif Require Import Bytes Spec SpecTrace SpecStream Control Bytes_proofs Control_proofs Capture SpecCapture
  Capture_proofs Capture2_proofs Capture3_proofs Capture4_proofs Capture5_proofs Capture6_proofs.
Import ListNotations.
Local Open Scope N_scope.

(** ** Induction over what a run does to its files *)
Section Keeps.
Variables (e : env) (a : args) (P : ctx -> Prop).
Hypothesis Quiet : forall c c', P c -> map fst (x_outs c') = map fst (x_outs c) -> x_ts c' = x_ts c -> (x_tick c <= x_tick c')%nat -> P c'.
Hypothesis Rot : forall c c', P c -> files_open a c -> rotate_output e a c = Go c' -> P c'.
Hypothesis Boot : forall c, boot e a = Go c -> P c.

Let PF (c : ctx) : Prop := P c /\ files_open a c.

Lemma keeps_quiet c c' : PF c -> files_open a c' -> map fst (x_outs c') = map fst (x_outs c) -> x_ts c' = x_ts c ->
  (x_tick c <= x_tick c')%nat -> PF c'.
Proof. intros [A _] F E1 E2 L. split; [exact (Quiet _ _ A E1 E2 L)|exact F]. Qed.

Lemma keeps_rot c c' : PF c -> rotate_output e a c = Go c' -> PF c'.
Proof.
  intros [A F] H. split; [exact (Rot _ _ A F H)|]. exact (proj1 (proj2 (proj2 (rotate_output_inv _ _ _ _ F H)))).
Qed.

Lemma keeps_maybe c c' : PF c -> maybe_rotate_output e a c = Go c' -> PF c'.
Proof.
  intros K H. unfold maybe_rotate_output in H. cbv zeta in H. destruct (0 <? a_split a)%Z; [|injection H as <-; exact K].
  assert (K1 : PF (tick c)) by (apply (keeps_quiet c); [exact K|exact (proj2 K)|reflexivity|reflexivity|cbn; lia]).
  destruct (_ <=? _)%Z; [exact (keeps_rot _ _ K1 H)|]. injection H as <-. exact K1.
Qed.

Lemma run_keeps H c : reach e a H c -> P c /\ files_open a c.
Proof.
  change (reach e a H c -> PF c). induction 1 as [c B|H c x c' R IH L S].
  - split; [exact (Boot _ B)|]. unfold boot in B. set (c0 := mk_ctx [] false 0 0 (remaining0 a) true [] [] []) in B.
    destruct (open_write_file e a c0) as [[[|] c1]| | |] eqn:O; cbn [rbind] in B; try discriminate.
    injection B as <-. apply open_write_file_inv in O; [|exists []; split; reflexivity].
    destruct O as (_ & _ & O3). destruct (O3 eq_refl) as (F & _). exact F.
  - assert (Cl : forall i c0, PF c0 -> PF (cb_close_conn i c0)).
    { intros i c0 K. apply (keeps_quiet c0); [exact K|exact (proj2 K)|reflexivity|reflexivity|cbn; lia]. }
    destruct x as [i|i chunk|i|i| |]; cbn [step legal] in *.
    + injection S as <-. apply (keeps_quiet c); [exact IH|exact (proj2 IH)|reflexivity|reflexivity|cbn; lia].
    + destruct L as (_ & k0 & F0 & _). rewrite F0 in S. unfold cb_read in S.
      destruct (read_loop e a _ i _ c) as [[r c1]| | |] eqn:RL; cbn [rbind] in S; try discriminate.
      apply (read_loop_keeps e a i PF) in RL; [| | | | |exact IH].
      * destruct r as [k1|].
        -- injection S as <-. apply (keeps_quiet c1); [exact RL|exact (proj2 RL)|reflexivity|reflexivity|cbn; lia].
        -- destruct RL as (c0 & I0 & ->). injection S as <-. now apply Cl.
      * intros k c0 k' c2 C D. pose proof (process_data_inv _ a _ _ _ _ _ (proj2 C) D) as (_ & _ & F & _).
        destruct (data_files _ _ _ _ _ _ D) as (_ & D1 & D2 & D3). apply (keeps_quiet c0); [exact C|exact F|exact D3|exact D1|lia].
      * intros. eapply keeps_maybe; eassumption.
      * intros c0 b C. apply (keeps_quiet c0); [exact C|exact (files_open_send e a i b c0 (proj2 C))| | |];
          unfold send_frame; destruct (e_send e _); cbn; try reflexivity; lia.
      * intros c0 C. apply (keeps_quiet c0); [exact C| |reflexivity|reflexivity|cbn; lia].
        apply files_open_note; [discriminate|exact (proj2 C)].
    + destruct (find_conn i (x_conns c)) as [k|]; [|discriminate]. injection S as <-. unfold cb_write.
      destruct (k_state k); auto.
    + destruct (find_conn i (x_conns c)); [|discriminate]. injection S as <-. auto.
    + assert (Ho : x_open c = true) by exact (proj1 (proj2 (proj2 IH))). rewrite Ho in S. exact (keeps_rot _ _ IH S).
    + destruct (x_open c); injection S as <-; [|exact IH].
      apply (keeps_quiet c); [exact IH|exact (proj2 IH)|reflexivity|reflexivity|cbn; lia].
Qed.
End Keeps.

(** ** What is left under a name *)
Lemma on_disk_iff o name d : on_disk name o = Some d <->
  exists pre post, o = pre ++ (name, d) :: post /\ ~ In name (map fst post).
Proof.
  split.
  - induction o as [|[n d0] o IH]; cbn [on_disk]; [discriminate|]. intro H.
    destruct (on_disk name o) as [d'|] eqn:E.
    + destruct (IH H) as (pre & post & -> & Nx). exists ((n, d0) :: pre), post. auto.
    + destruct (bytes_eqb n name) eqn:B; [|discriminate]. injection H as ->. apply bytes_eqb_eq in B. subst n.
      exists [], o. split; [reflexivity|]. intro I'. clear IH.
      induction o as [|[n d'] o IHo]; [exact I'|]. cbn [on_disk map fst In] in *.
      destruct (on_disk name o) eqn:E'; [discriminate|]. destruct (bytes_eqb n name) eqn:B'; [discriminate|].
      apply bytes_eqb_neq in B'. destruct I' as [->|I']; [congruence|]. exact (IHo E I').
  - intros (pre & post & -> & Nx). induction pre as [|[n d0] pre IH]; cbn [app on_disk].
    + rewrite (on_disk_none _ _ Nx), bytes_eqb_refl. reflexivity.
    + rewrite IH. reflexivity.
Qed.

(** ** Without a calendar option *)
Lemma run_one_name e a H c : is_stdout a = false -> has_calendar a = false -> reach e a H c ->
  Forall (fun o => fst o = a_fname a) (x_outs c).
Proof.
  intros Ns Cal R. rewrite <- (Forall_map fst (fun n => n = a_fname a)). revert R.
  intro R. apply (run_keeps e a (fun c => Forall (fun n => n = a_fname a) (map fst (x_outs c)))) in R; [exact (proj1 R)| | |].
  - intros c0 c' F E _ _. rewrite E. exact F.
  - intros c0 c' F Fo H0. apply rotate_output_inv in H0; [|exact Fo]. destruct H0 as (_ & _ & _ & _ & Rt).
    destruct (Rt Ns) as (c1 & name & _ & _ & _ & Nm & E). rewrite E. apply Forall_app. split; [exact F|].
    unfold next_name in Nm. rewrite Ns, Cal in Nm. injection Nm as <-. repeat constructor.
  - intros c0 B. unfold boot in B. set (c2 := mk_ctx [] false 0 0 (remaining0 a) true [] [] []) in B.
    destruct (open_write_file e a c2) as [[[|] c1]| | |] eqn:O; cbn [rbind] in B; try discriminate.
    injection B as <-. apply open_write_file_inv in O; [|exists []; split; reflexivity].
    destruct O as (_ & _ & O3). destruct (O3 eq_refl) as (_ & _ & name & Nm & E). rewrite E.
    unfold next_name in Nm. rewrite Ns, Cal in Nm. injection Nm as <-. repeat constructor.
Qed.

Lemma only_last_kept e a H c : is_stdout a = false -> has_calendar a = false -> reach e a H c ->
  exists earlier d, x_outs c = earlier ++ [(a_fname a, d)] /\ Forall (fun o => fst o = a_fname a) earlier /\
    on_disk (a_fname a) (x_outs c) = Some d.
Proof.
  intros Ns Cal R. pose proof (run_one_name _ _ _ _ Ns Cal R) as F. pose proof (requested_always _ _ _ _ R Ns) as L.
  destruct (x_outs c) as [|o l] using rev_ind; [cbn in L; lia|]. clear IHl. apply Forall_app in F. destruct F as [F1 F2].
  inversion F2 as [|? ? E _]; subst. destruct o as [n d]. cbn [fst] in E. subst n. exists l, d. split; [reflexivity|].
  split; [exact F1|]. apply on_disk_iff. exists l, []. auto.
Qed.

(** ** With one, on a clock that does not go back *)
Definition shown_inv (e : env) (c : ctx) : Prop :=
  exists times n, map Some (map fst (x_outs c)) = map (e_strftime e) (times ++ [e_time e n]) /\
    (n < x_tick c)%nat /\ spaced 0 (times ++ [e_time e n]) /\ Forall (fun t => exists m, t = e_time e m) times.

Lemma run_shown e a H c : steady e -> is_stdout a = false -> has_calendar a = true -> reach e a H c -> shown_inv e c.
Proof.
  intros St Ns Cal R. apply (run_keeps e a (shown_inv e)) in R; [exact (proj1 R)| | |].
  - intros c0 c' (ts & n & A1 & A2 & A3) E1 _ L. exists ts, n. rewrite E1. split; [exact A1|]. split; [lia|exact A3].
  - intros c0 c' (ts & n & A1 & A2 & A3 & A4) F H0. pose proof (rotate_tick _ _ _ _ F Ns Cal H0) as T.
    apply rotate_output_inv in H0; [|exact F]. destruct H0 as (_ & _ & _ & _ & Rt).
    destruct (Rt Ns) as (c1 & name & R1 & _ & _ & Nm & E). unfold next_name in Nm. rewrite Ns, Cal in Nm.
    exists (ts ++ [e_time e n]), (x_tick c1). split; [|split; [|split]].
    + rewrite E, !map_app, A1. cbn [map]. rewrite Nm, map_app. reflexivity.
    + lia.
    + apply spaced_snoc; [exact A3|]. pose proof (St n (x_tick c1) ltac:(lia)). lia.
    + apply Forall_app. split; [exact A4|]. constructor; [eauto|constructor].
  - intros c0 B. unfold boot in B. set (c2 := mk_ctx [] false 0 0 (remaining0 a) true [] [] []) in B.
    destruct (open_write_file e a c2) as [[[|] c1]| | |] eqn:O; cbn [rbind] in B; try discriminate.
    injection B as <-. pose proof (open_tick _ _ _ _ Ns Cal O) as Tk.
    apply open_write_file_inv in O; [|exists []; split; reflexivity].
    destruct O as (_ & _ & O3). destruct (O3 eq_refl) as (_ & _ & name & Nm & E).
    unfold next_name in Nm. rewrite Ns, Cal in Nm. exists [], (x_tick c2). rewrite E. cbn [app map x_outs c2].
    rewrite Nm. split; [reflexivity|]. split; [exact Tk|]. split; [exact I|constructor].
Qed.

Lemma spaced_mono ts : forall t, spaced 0 (t :: ts) -> Forall (fun u => (t <= u)%Z) ts.
Proof.
  induction ts as [|u ts IH]; intros t Sp; [constructor|]. cbn [spaced] in Sp. destruct Sp as [S1 S2].
  constructor; [lia|]. eapply Forall_impl; [|exact (IH _ S2)]. cbn. intros; lia.
Qed.

Lemma spaced_tail d pre : forall l, spaced d (pre ++ l) -> spaced d l.
Proof.
  induction pre as [|t pre IH]; intros l Sp; [exact Sp|]. apply IH. cbn [app spaced] in Sp. destruct (pre ++ l); [exact I|]. apply Sp.
Qed.

Lemma split_len {A} (l1 : list A) : forall l2 x y, l1 ++ x = l2 ++ y -> length l1 = length l2 -> l1 = l2 /\ x = y.
Proof.
  induction l1 as [|h l1 IH]; intros [|k l2] x y E L; try discriminate L; [auto|].
  cbn [app] in E. injection E as -> E. destruct (IH l2 x y E ltac:(cbn in L; lia)) as [-> ->]. auto.
Qed.

Lemma kept_by_second e a H c : steady e -> telling e -> is_stdout a = false -> has_calendar a = true -> reach e a H c ->
  exists times, map Some (map fst (x_outs c)) = map (e_strftime e) times /\ spaced 0 times /\
  forall pre name d post tpre t tpost, x_outs c = pre ++ (name, d) :: post -> times = tpre ++ t :: tpost ->
    length tpre = length pre -> (~ In name (map fst post) <-> hd_error tpost <> Some t).
Proof.
  intros St Te Ns Cal R. destruct (run_shown _ _ _ _ St Ns Cal R) as (ts & n & A1 & _ & A3 & A4).
  exists (ts ++ [e_time e n]). split; [exact A1|]. split; [exact A3|].
  intros pre name d post tpre t tpost E Et L.
  assert (A4' : Forall (fun t => exists m, t = e_time e m) (ts ++ [e_time e n])) by (apply Forall_app; split; [exact A4|constructor; [eauto|constructor]]).
  rewrite Et in *. rewrite E, !map_app in A1. cbn [map fst] in A1.
  assert (A5 : map (e_strftime e) tpre = map Some (map fst pre) /\ map (e_strftime e) (t :: tpost) = Some name :: map Some (map fst post)).
  { destruct (split_len _ _ _ _ A1) as [X1 X2]; [rewrite !map_length; lia|]. split; [symmetry; exact X1|symmetry; exact X2]. }
  destruct A5 as [_ A5]. cbn [map] in A5. injection A5 as A6 A7.
  apply spaced_tail in A3. apply Forall_app in A4'. destruct A4' as [_ A4']. inversion A4' as [|? ? [m Em] F]; subst.
  assert (X : In name (map fst post) <-> hd_error tpost = Some (e_time e m)); [|tauto].
  split.
  - intro I'. apply (in_map Some) in I'. rewrite <- A7 in I'. apply in_map_iff in I'. destruct I' as (u & Eu & Iu).
    rewrite Forall_forall in F. destruct (F _ Iu) as [k Ek]. subst u. rewrite <- A6 in Eu. apply Te in Eu.
    destruct tpost as [|v tpost]; [contradiction|]. cbn [hd_error]. f_equal.
    assert (Hv : (e_time e m <= v)%Z) by (cbn [spaced] in A3; lia).
    destruct Iu as [->|Iu]; [exact Eu|]. cbn [spaced] in A3. destruct A3 as [_ A3]. apply spaced_mono in A3.
    rewrite Forall_forall in A3. specialize (A3 _ Iu). cbn in A3. lia.
  - intro Hh. destruct tpost as [|v tpost]; [discriminate|]. injection Hh as ->. cbn [map] in A7. rewrite A6 in A7.
    destruct post as [|[n' d'] post]; [discriminate|]. cbn [map fst] in A7 |- *. injection A7 as -> _. left. reflexivity.
Qed.

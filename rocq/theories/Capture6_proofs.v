(** When fstrm_capture begins a new file. *)
From Coq Require Import ZArith Lia Permutation.
From Verif Require Import Bytes Spec SpecTrace SpecStream Control Bytes_proofs Control_proofs Capture SpecCapture
  Capture_proofs Capture2_proofs Capture3_proofs Capture4_proofs Capture5_proofs.
Import ListNotations.
Local Open Scope N_scope.

Lemma read_loop_keeps2 e a id (P : ctx -> Prop)
  (HD : forall k c k' c1 c', P c -> process_data_frame e id k c = Go (k', c1) -> maybe_rotate_output e a c1 = Go c' -> P c')
  (HS : forall c b, P c -> P (snd (send_frame e id b c)))
  (HH : forall c, P c -> P (note c id Hangup)) :
  forall fuel k c r c', P c -> read_loop e a fuel id k c = Go (r, c') ->
  match r with Some _ => P c' | None => exists c0, P c0 /\ c' = cb_close_conn id c0 end.
Proof.
  induction fuel as [|fuel IH]; intros k c r c' Hc H; [discriminate|]. cbn [read_loop] in H.
  destruct (lenN (k_buf k) =? 0). { injection H as <- <-. exact Hc. }
  destruct (k_skip k =? 0); [|exact (IH _ _ _ _ Hc H)].
  destruct (can_read_full_frame a k) as [|k1|k1].
  - injection H as <- <-. eauto.
  - injection H as <- <-. exact Hc.
  - destruct (0 <? k_payload k1).
    + destruct (process_data_frame e id k1 c) as [[k2 c1]| | |] eqn:PD; cbn [rbind] in H; try discriminate.
      destruct (maybe_rotate_output e a c1) as [c2| | |] eqn:MR; cbn [rbind] in H; try discriminate.
      exact (IH _ _ _ _ (HD _ _ _ _ _ Hc PD MR) H).
    + destruct (load_control_frame k1) as [[[|] k2]|]; [|injection H as <- <-; eauto|discriminate].
      destruct (process_control_frame e a id k2 c) as [[[ok k3] c1]| | |] eqn:PC; cbn [rbind] in H; try discriminate.
      pose proof (process_control_keeps _ _ _ _ _ _ _ _ _ HS Hc PC) as H1.
      destruct ok; [exact (IH _ _ _ _ H1 H)|]. injection H as <- <-. eauto.
Qed.

(** ** The number of files *)
Lemma append_last_length o b : length (append_last o b) = length o.
Proof. rewrite <- (map_length fst), append_last_names. apply map_length. Qed.

Lemma data_files e id k c k' c' : process_data_frame e id k c = Go (k', c') ->
  length (x_outs c') = length (x_outs c) /\ x_ts c' = x_ts c /\ x_tick c' = S (x_tick c) /\
  map fst (x_outs c') = map fst (x_outs c).
Proof.
  intro H. unfold process_data_frame, fwrite in H. destruct (e_fwrite e _); [|discriminate]. injection H as _ <-.
  cbn. rewrite append_last_length, append_last_names. auto.
Qed.

Lemma rotate_files e a c c' : files_open a c -> is_stdout a = false -> rotate_output e a c = Go c' ->
  length (x_outs c') = S (length (x_outs c)).
Proof.
  intros F Ns H. apply rotate_output_inv in H; [|exact F]. destruct H as (_ & _ & _ & _ & R).
  destruct (R Ns) as (c1 & name & _ & _ & _ & _ & E). rewrite <- (map_length fst), E, app_length, map_length. cbn. lia.
Qed.

Definition counted (e : env) (a : args) (n : nat) (c : ctx) : Prop :=
  files_open a c /\
  if is_stdout a then length (x_outs c) = 1%nat
  else if (0 <? a_split a)%Z then (n <= length (x_outs c))%nat else length (x_outs c) = n.

Lemma counted_same e a n c c' : counted e a n c -> files_open a c' -> length (x_outs c') = length (x_outs c) -> counted e a n c'.
Proof. intros [_ C] F E. split; [exact F|]. rewrite E. exact C. Qed.

Lemma counted_rotate e a n c c' : counted e a n c -> rotate_output e a c = Go c' -> counted e a (S n) c'.
Proof.
  intros [F C] H. pose proof (rotate_output_inv _ _ _ _ F H) as (_ & _ & F' & S1 & _). split; [exact F'|].
  destruct (is_stdout a) eqn:So; [rewrite (S1 eq_refl); exact C|].
  rewrite (rotate_files e a c c' F So H). destruct (0 <? a_split a)%Z; lia.
Qed.

Lemma counted_maybe e a n c c' : counted e a n c -> maybe_rotate_output e a c = Go c' -> counted e a n c'.
Proof.
  intros C H. pose proof (proj1 C) as F. unfold maybe_rotate_output in H. cbv zeta in H. destruct (0 <? a_split a)%Z eqn:Sp; [|injection H as <-; exact C].
  destruct (_ <=? _)%Z; [|injection H as <-; apply (counted_same _ _ _ _ _ C F eq_refl)].
  assert (C1 : counted e a n (tick c)) by apply (counted_same _ _ _ _ _ C F eq_refl).
  pose proof (counted_rotate _ _ _ _ _ C1 H) as [F' C']. split; [exact F'|]. rewrite Sp in *.
  destruct (is_stdout a); [exact C'|lia].
Qed.

Lemma files_open_send e a id b c : files_open a c -> files_open a (snd (send_frame e id b c)).
Proof.
  intro F. unfold send_frame. destruct (e_send e _); cbn [snd]; [|exact F].
  apply files_open_note; [discriminate|exact F].
Qed.

Lemma run_counted e a H c : reach e a H c -> counted e a (S (requests H)) c.
Proof.
  induction 1 as [c B|H c x c' R IH L S].
  - unfold boot in B. set (c0 := mk_ctx [] false 0 0 (remaining0 a) true [] [] []) in B.
    destruct (open_write_file e a c0) as [[[|] c1]| | |] eqn:O; cbn [rbind] in B; try discriminate.
    injection B as <-. apply open_write_file_inv in O; [|exists []; split; reflexivity].
    destruct O as (_ & _ & O3). destruct (O3 eq_refl) as (F & T & name & Nm & Fs). split; [exact F|].
    assert (E : length (x_outs c1) = 1%nat) by (rewrite <- (map_length fst), Fs; reflexivity).
    rewrite E. cbn [requests filter length]. destruct (is_stdout a); [reflexivity|]. destruct (0 <? a_split a)%Z; lia.
  - assert (Rq : requests (H ++ [x]) = (requests H + match x with E_sigusr1 => 1 | _ => 0 end)%nat).
    { unfold requests. rewrite filter_app, app_length. destruct x; reflexivity. }
    rewrite Rq. destruct x as [i|i chunk|i|i| |]; cbn [step legal] in *; rewrite ?Nat.add_0_r.
    + injection S as <-. exact IH.
    + destruct L as (_ & k0 & F0 & _). rewrite F0 in S. unfold cb_read in S.
      destruct (read_loop e a _ i _ c) as [[r c1]| | |] eqn:RL; cbn [rbind] in S; try discriminate.
      apply (read_loop_keeps e a i (counted e a (Datatypes.S (requests H)))) in RL; [| | | | |exact IH].
      * destruct r as [k1|].
        -- injection S as <-. exact RL.
        -- destruct RL as (c0 & I0 & ->). injection S as <-. exact I0.
      * intros k c0 k' c2 C D. pose proof (process_data_inv _ a _ _ _ _ _ (proj1 C) D) as (_ & _ & F & _).
        apply (counted_same _ _ _ _ _ C F). exact (proj1 (data_files _ _ _ _ _ _ D)).
      * intros. eapply counted_maybe; eassumption.
      * intros c0 b C. apply (counted_same _ _ _ _ _ C (files_open_send e a i b c0 (proj1 C))).
        unfold send_frame. destruct (e_send e _); reflexivity.
      * intros c0 C. apply (counted_same _ _ _ _ _ C); [|reflexivity]. apply files_open_note; [discriminate|exact (proj1 C)].
    + destruct (find_conn i (x_conns c)) as [k|]; [|discriminate]. injection S as <-. unfold cb_write.
      destruct (k_state k); exact IH.
    + destruct (find_conn i (x_conns c)); [|discriminate]. injection S as <-. exact IH.
    + rewrite Nat.add_1_r. destruct IH as [F C]. destruct (proj1 (proj2 F)). apply (counted_rotate e a _ c c'); [split; assumption|].
      assert (Ho : x_open c = true) by exact (proj1 (proj2 F)). rewrite Ho in S. exact S.
    + destruct (x_open c); injection S as <-; exact IH.
Qed.

Lemma stdout_one e a H c : reach e a H c -> is_stdout a = true -> length (x_outs c) = 1%nat.
Proof. intros R So. destruct (run_counted _ _ _ _ R) as [_ C]. rewrite So in C. exact C. Qed.

Lemma requested_only e a H c : reach e a H c -> is_stdout a = false -> (a_split a <= 0)%Z ->
  length (x_outs c) = S (requests H).
Proof.
  intros R So Sp. destruct (run_counted _ _ _ _ R) as [_ C]. rewrite So in C.
  destruct (Z.ltb_spec 0 (a_split a)); [lia|exact C].
Qed.

Lemma requested_always e a H c : reach e a H c -> is_stdout a = false -> (S (requests H) <= length (x_outs c))%nat.
Proof.
  intros R So. destruct (run_counted _ _ _ _ R) as [_ C]. rewrite So in C.
  destruct (Z.ltb_spec 0 (a_split a)); lia.
Qed.

(** ** Not too early *)
Lemma spaced_snoc d l t u : spaced d (l ++ [t]) -> (t + d <= u)%Z -> spaced d ((l ++ [t]) ++ [u]).
Proof.
  intros Sp L. induction l as [|x [|y l] IH].
  - cbn. auto.
  - cbn in *. tauto.
  - cbn [app spaced] in *. destruct Sp as [S1 S2]. split; [exact S1|]. exact (IH S2).
Qed.

Definition timed_inv (e : env) (a : args) (c : ctx) : Prop :=
  files_open a c /\
  exists older, map Some (map fst (x_outs c)) = map (e_strftime e) (older ++ [x_ts c]) /\ spaced (a_split a) (older ++ [x_ts c]).

Lemma timed_quiet e a c c' : timed_inv e a c -> files_open a c' -> map fst (x_outs c') = map fst (x_outs c) ->
  x_ts c' = x_ts c -> timed_inv e a c'.
Proof. intros (_ & older & A1 & A2) F' E1 E2. split; [exact F'|]. exists older. rewrite E1, E2. auto. Qed.

Lemma timed_rotate e a c c' : steady e -> is_stdout a = false -> has_calendar a = true ->
  timed_inv e a c -> maybe_rotate_output e a c = Go c' -> timed_inv e a c'.
Proof.
  intros St Ns Cal I H. unfold maybe_rotate_output in H. cbv zeta in H.
  destruct (0 <? a_split a)%Z eqn:Sp; [|injection H as <-; exact I].
  destruct (_ <=? _)%Z eqn:Due.
  2:{ injection H as <-. apply (timed_quiet _ _ _ _ I); [exact (proj1 I)|reflexivity|reflexivity]. }
  destruct I as (F & older & A1 & A2).
  apply rotate_output_inv in H; [|exact F]. destruct H as (_ & _ & F' & _ & R).
  destruct (R Ns) as (c1 & name & R1 & R2 & R3 & R4 & R5). split; [exact F'|].
  unfold next_ts in R3. unfold next_name in R4. rewrite Ns, Cal in R3, R4. cbn [tick x_tick x_ts x_outs] in *.
  assert (Lt : (x_ts c + a_split a <= x_ts c')%Z).
  { rewrite R3. pose proof (St (x_tick c) (x_tick c1) ltac:(lia)). lia. }
  exists (older ++ [x_ts c]). split.
  - rewrite R5, !map_app, A1, R3. cbn [map]. rewrite R4, map_app. reflexivity.
  - now apply spaced_snoc.
Qed.

Lemma run_timed e a H c : steady e -> is_stdout a = false -> has_calendar a = true ->
  reach e a H c -> ~ In E_sigusr1 H -> timed_inv e a c.
Proof.
  intros St Ns Cal R. induction R as [c B|H c x c' R IH L S]; intro Nu.
  - unfold boot in B. set (c0 := mk_ctx [] false 0 0 (remaining0 a) true [] [] []) in B.
    destruct (open_write_file e a c0) as [[[|] c1]| | |] eqn:O; cbn [rbind] in B; try discriminate.
    injection B as <-. apply open_write_file_inv in O; [|exists []; split; reflexivity].
    destruct O as (_ & _ & O3). destruct (O3 eq_refl) as (F & T & name & Nm & Fs). split; [exact F|].
    unfold next_ts in T. unfold next_name in Nm. rewrite Ns, Cal in T, Nm.
    exists []. rewrite Fs, T. cbn [map app x_outs c0 spaced]. rewrite Nm. split; [reflexivity|exact I].
  - assert (I : timed_inv e a c) by (apply IH; intro; apply Nu, in_or_app; now left). clear IH.
    destruct x as [i|i chunk|i|i| |]; cbn [step legal] in *.
    + injection S as <-. exact I.
    + destruct L as (_ & k0 & F0 & _). rewrite F0 in S. unfold cb_read in S.
      destruct (read_loop e a _ i _ c) as [[r c1]| | |] eqn:RL; cbn [rbind] in S; try discriminate.
      apply (read_loop_keeps e a i (timed_inv e a)) in RL; [| | | | |exact I].
      * destruct r as [k1|].
        -- injection S as <-. exact RL.
        -- destruct RL as (c0 & I0 & ->). injection S as <-. exact I0.
      * intros k c0 k' c2 C D. pose proof (process_data_inv _ a _ _ _ _ _ (proj1 C) D) as (_ & _ & F & _).
        destruct (data_files _ _ _ _ _ _ D) as (_ & D1 & _ & D2). apply (timed_quiet _ _ _ _ C F D2 D1).
      * intros. eapply timed_rotate; eassumption.
      * intros c0 b C. apply (timed_quiet _ _ _ _ C (files_open_send e a i b c0 (proj1 C)));
          unfold send_frame; destruct (e_send e _); reflexivity.
      * intros c0 C. apply (timed_quiet _ _ _ _ C); try reflexivity. apply files_open_note; [discriminate|exact (proj1 C)].
    + destruct (find_conn i (x_conns c)) as [k|]; [|discriminate]. injection S as <-. unfold cb_write.
      destruct (k_state k); exact I.
    + destruct (find_conn i (x_conns c)); [|discriminate]. injection S as <-. exact I.
    + exfalso. apply Nu, in_or_app. right. now left.
    + destruct (x_open c); injection S as <-; exact I.
Qed.

Lemma spaced_names e a H c : steady e -> is_stdout a = false -> has_calendar a = true ->
  reach e a H c -> ~ In E_sigusr1 H ->
  exists times, map Some (map fst (x_outs c)) = map (e_strftime e) times /\ spaced (a_split a) times.
Proof. intros St Ns Cal R Nu. destruct (run_timed _ _ _ _ St Ns Cal R Nu) as (_ & older & A1 & A2). eauto. Qed.

(** ** Not too late *)
Definition named (e : env) (a : args) (c : ctx) : Prop :=
  files_open a c /\ exists older name, map fst (x_outs c) = older ++ [name] /\ e_strftime e (x_ts c) = Some name.

Lemma named_same e a c c' : named e a c -> files_open a c' -> map fst (x_outs c') = map fst (x_outs c) ->
  x_ts c' = x_ts c -> named e a c'.
Proof. intros (_ & older & n & A1 & A2) F' E1 E2. split; [exact F'|]. exists older, n. rewrite E1, E2. auto. Qed.

Lemma named_rotate e a c c' : is_stdout a = false -> has_calendar a = true ->
  named e a c -> rotate_output e a c = Go c' ->
  named e a c' /\ exists n, (x_tick c < n < x_tick c')%nat /\ x_ts c' = e_time e n.
Proof.
  intros Ns Cal (F & _) H. pose proof (rotate_output_inv _ _ _ _ F H) as (_ & _ & F' & _ & R).
  destruct (R Ns) as (c1 & name & R1 & R2 & R3 & R4 & R5).
  unfold next_ts in R3. unfold next_name in R4. rewrite Ns, Cal in R3, R4. split.
  - split; [exact F'|]. exists (map fst (x_outs c)), name. split; [exact R5|]. now rewrite R3.
  - exists (x_tick c1). pose proof (rotate_tick _ _ _ _ F Ns Cal H). split; [lia|exact R3].
Qed.

Lemma named_maybe e a c c' : is_stdout a = false -> has_calendar a = true -> (0 < a_split a)%Z ->
  named e a c -> maybe_rotate_output e a c = Go c' ->
  named e a c' /\ exists n, (x_tick c <= n < x_tick c')%nat /\ (e_time e n < x_ts c' + a_split a)%Z.
Proof.
  intros Ns Cal Sp I H. unfold maybe_rotate_output in H. cbv zeta in H.
  destruct (Z.ltb_spec 0 (a_split a)); [|lia]. destruct (Z.leb_spec (x_ts (tick c) + a_split a) (e_time e (x_tick c))).
  - apply named_rotate in H; [|assumption|assumption|].
    + destruct H as [I' (n & L & E)]. split; [exact I'|]. exists n. cbn [tick x_tick] in L. split; [lia|]. rewrite E. lia.
    + apply (named_same _ _ _ _ I (proj1 I)); reflexivity.
  - injection H as <-. split; [apply (named_same _ _ _ _ I (proj1 I)); reflexivity|].
    exists (x_tick c). cbn [tick x_tick x_ts] in *. split; [lia|assumption].
Qed.

Definition young (e : env) (a : args) (c c' : ctx) : Prop :=
  named e a c' /\ (x_tick c <= x_tick c')%nat /\
  (stored (x_log c') = stored (x_log c) \/
   exists n, (x_tick c <= n < x_tick c')%nat /\ (e_time e n < x_ts c' + a_split a)%Z).

Lemma young_same e a c c' c'' : young e a c c' -> files_open a c'' -> map fst (x_outs c'') = map fst (x_outs c') ->
  x_ts c'' = x_ts c' -> (x_tick c' <= x_tick c'')%nat -> stored (x_log c'') = stored (x_log c') -> young e a c c''.
Proof.
  intros (I & T & A) F E1 E2 L E3. split; [exact (named_same _ _ _ _ I F E1 E2)|]. split; [lia|].
  destruct A as [A|(n & A1 & A2)]; [left; congruence|right; exists n; rewrite E2; split; [lia|exact A2]].
Qed.

Lemma young_data e a id c0 k c k' c1 c' : is_stdout a = false -> has_calendar a = true -> (0 < a_split a)%Z ->
  young e a c0 c -> process_data_frame e id k c = Go (k', c1) -> maybe_rotate_output e a c1 = Go c' -> young e a c0 c'.
Proof.
  intros Ns Cal Sp (I & T & _) D M. pose proof (process_data_inv _ a _ _ _ _ _ (proj1 I) D) as (_ & _ & F & _).
  destruct (data_files _ _ _ _ _ _ D) as (_ & D1 & D2 & D3).
  pose proof (named_same _ _ _ _ I F D3 D1) as I1.
  apply named_maybe in M; [|assumption..]. destruct M as [I' (n & L & E)].
  split; [exact I'|]. split; [lia|]. right. exists n. split; [lia|exact E].
Qed.

Lemma stored_hangup c id : stored (x_log (note c id Hangup)) = stored (x_log c).
Proof. cbn [x_log note]. rewrite stored_snoc. apply app_nil_r. Qed.

Lemma run_named e a H c : is_stdout a = false -> has_calendar a = true -> (0 < a_split a)%Z -> reach e a H c -> named e a c.
Proof.
  intros Ns Cal Sp. induction 1 as [c B|H c x c' R I L S].
  - unfold boot in B. set (c0 := mk_ctx [] false 0 0 (remaining0 a) true [] [] []) in B.
    destruct (open_write_file e a c0) as [[[|] c1]| | |] eqn:O; cbn [rbind] in B; try discriminate.
    injection B as <-. apply open_write_file_inv in O; [|exists []; split; reflexivity].
    destruct O as (_ & _ & O3). destruct (O3 eq_refl) as (F & T & name & Nm & Fs). split; [exact F|].
    unfold next_ts in T. unfold next_name in Nm. rewrite Ns, Cal in T, Nm. exists [], name. rewrite T. split; [exact Fs|exact Nm].
  - destruct x as [i|i chunk|i|i| |]; cbn [step legal] in *.
    + injection S as <-. exact I.
    + destruct L as (_ & k0 & F0 & _). rewrite F0 in S. unfold cb_read in S.
      destruct (read_loop e a _ i _ c) as [[r c1]| | |] eqn:RL; cbn [rbind] in S; try discriminate.
      apply (read_loop_keeps e a i (named e a)) in RL; [| | | | |exact I].
      * destruct r as [k1|].
        -- injection S as <-. exact RL.
        -- destruct RL as (c0 & I0 & ->). injection S as <-. exact I0.
      * intros k c0 k' c2 C D. pose proof (process_data_inv _ a _ _ _ _ _ (proj1 C) D) as (_ & _ & F & _).
        destruct (data_files _ _ _ _ _ _ D) as (_ & D1 & _ & D2). apply (named_same _ _ _ _ C F D2 D1).
      * intros c0 c2 C M. exact (proj1 (named_maybe _ _ _ _ Ns Cal Sp C M)).
      * intros c0 b C. apply (named_same _ _ _ _ C (files_open_send e a i b c0 (proj1 C)));
          unfold send_frame; destruct (e_send e _); reflexivity.
      * intros c0 C. apply (named_same _ _ _ _ C); try reflexivity. apply files_open_note; [discriminate|exact (proj1 C)].
    + destruct (find_conn i (x_conns c)) as [k|]; [|discriminate]. injection S as <-. unfold cb_write.
      destruct (k_state k); exact I.
    + destruct (find_conn i (x_conns c)); [|discriminate]. injection S as <-. exact I.
    + assert (Ho : x_open c = true) by exact (proj1 (proj2 (proj1 I))). rewrite Ho in S.
      exact (proj1 (named_rotate _ _ _ _ Ns Cal I S)).
    + destruct (x_open c); injection S as <-; exact I.
Qed.

Lemma not_late e a H c x c' : steady e -> is_stdout a = false -> has_calendar a = true -> (0 < a_split a)%Z ->
  reach e a H c -> legal a H c x -> step e a x c = Go c' -> stored (x_log c') <> stored (x_log c) ->
  (e_time e (x_tick c) < x_ts c' + a_split a)%Z /\
  exists older name, map fst (x_outs c') = older ++ [name] /\ e_strftime e (x_ts c') = Some name.
Proof.
  intros St Ns Cal Sp R L S G. pose proof (run_named _ _ _ _ Ns Cal Sp R) as I.
  assert (Y : young e a c c').
  { assert (Y0 : young e a c c) by (split; [exact I|]; split; [lia|now left]).
    destruct x as [i|i chunk|i|i| |]; cbn [step legal] in *.
    - destruct (x_open c); injection S as <-; exact Y0.
    - destruct L as (_ & k0 & F0 & _). rewrite F0 in S. unfold cb_read in S.
      destruct (read_loop e a _ i _ c) as [[r c1]| | |] eqn:RL; cbn [rbind] in S; try discriminate.
      apply (read_loop_keeps2 e a i (young e a c)) in RL; [| | | |exact Y0].
      * destruct r as [k1|].
        -- injection S as <-. exact RL.
        -- destruct RL as (c0 & I0 & ->). injection S as <-. exact I0.
      * intros. eapply young_data; eassumption.
      * intros c0 b C. pose proof (files_open_send e a i b c0 (proj1 (proj1 C))) as F.
        apply (young_same _ _ _ _ _ C F); unfold send_frame; destruct (e_send e _); try reflexivity; try (cbn; lia).
        cbn [snd x_log note tick]. rewrite stored_snoc. apply app_nil_r.
      * intros c0 C. apply (young_same _ _ _ _ _ C); try reflexivity; [|apply stored_hangup].
        apply files_open_note; [discriminate|exact (proj1 (proj1 C))].
    - destruct (find_conn i (x_conns c)) as [k|]; [|discriminate]. injection S as <-. unfold cb_write.
      destruct (k_state k); exact Y0.
    - destruct (find_conn i (x_conns c)); [|discriminate]. injection S as <-. exact Y0.
    - exfalso. apply G. assert (Ho : x_open c = true) by exact (proj1 (proj2 (proj1 I))). rewrite Ho in S.
      apply rotate_output_inv in S; [|exact (proj1 I)]. destruct S as (_ & E & _). now rewrite E.
    - destruct (x_open c); injection S as <-; exact Y0. }
  destruct Y as (I' & _ & [A|(n & A1 & A2)]); [contradiction|].
  split; [|exact (proj2 I')]. pose proof (St (x_tick c) n ltac:(lia)). lia.
Qed.

(** ** The end of a session *)
Lemma reacts_finish hw ct ph bs a q : reacts hw ct ph bs a q -> forall p, q = Some p ->
  (p = Ph_stop <-> ph = Ph_stop \/ In (Answer finish_frame) a).
Proof.
  induction 1 as [ph bs I | ph f bs a q K L R IH | ph p bs a q K L R IH
    | ph p x ph' bs a q K L L2 A R IH | ph p bs K L N | ph bs B]; intros p0 E.
  - injection E as <-. cbn [In]. tauto.
  - exact (IH _ E).
  - rewrite (IH _ E). cbn [In]. split; [intros [?|?]; auto|intros [?|[?|?]]; auto; discriminate].
  - rewrite (IH _ E). rewrite in_app_iff. destruct A; cbn [In].
    + split; [intros [?|?]; [discriminate|auto]|intros [?|[[?|[]]|?]]; auto; try discriminate].
    + split; [intros [?|?]; [discriminate|auto]|intros [?|[[]|?]]; auto; discriminate].
    + tauto.
  - discriminate.
  - discriminate.
Qed.

Lemma find_remove_self id ks : NoDup (map fst ks) -> find_conn id (remove_conn id ks) = None.
Proof.
  induction ks as [|[i k] ks IH]; intro N; [reflexivity|]. cbn [remove_conn]. inversion N as [|x l N1 N2]; subst.
  destruct (Nat.eqb_spec i id) as [->|Ne].
  - cbn [map fst] in N1. clear -N1. induction ks as [|[j k'] ks IH]; [reflexivity|]. cbn [find_conn map fst In] in *.
    destruct (Nat.eqb_spec j id); [tauto|]. apply IH. tauto.
  - cbn [find_conn]. destruct (Nat.eqb_spec i id); [contradiction|]. auto.
Qed.

Lemma written_closes e a H c id c' : sends e -> reach e a H c -> tame (received id H) ->
  legal a H c (E_written id) -> step e a (E_written id) c = Go c' ->
  (find_conn id (x_conns c') = None <-> In (Answer finish_frame) (acts_of id (x_log c))).
Proof.
  intros Sn R T L S. destruct (run_reacts _ _ _ _ id Sn R T) as (q & Q1 & Q2). cbn [legal step] in *.
  destruct (find_conn id (x_conns c)) as [k|] eqn:F; [|contradiction].
  pose proof (reacts_finish _ _ _ _ _ _ Q1 _ (Q2 k eq_refl)) as E. injection S as <-.
  assert (N : NoDup (map fst (x_conns c))) by exact (cn_nodup _ _ _ (proj1 (reach_inv _ _ _ _ R))).
  unfold cb_write. destruct (k_state k); cbn [phase_of] in E.
  1,2,3: rewrite F; split; [discriminate|]; intro X; apply or_intror with (A := Ph_ready = Ph_stop) in X; apply E in X; discriminate.
  cbn [cb_close_conn x_conns set_conns]. rewrite (find_remove_self id _ N). destruct E as [E _].
  split; [|reflexivity]. intros _. destruct (E eq_refl) as [|X]; [discriminate|exact X].
Qed.

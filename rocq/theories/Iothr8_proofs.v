From Verif Require Import Bytes Spec Bytes_proofs Io Io_proofs SpecTrace SpecStream
  Control Rdwr Writer Api SpecApi Queue Iothr SpecIothr SpecFair Iothr_proofs Iothr2_proofs.
Local Open Scope nat_scope.

Lemma polls_app a b : polls (a ++ b) = polls a ++ polls b.
Proof. apply flat_map_app. Qed.
Lemma polls_evq tr : Forall evq tr -> polls tr = [].
Proof. induction 1 as [|[q a] tr H F IH]; [reflexivity|]. unfold polls in *. cbn. rewrite IH. destruct q; cbn in H; try contradiction; reflexivity. Qed.

(** ** Options never change *)
Definition keeps (t : iothr) (p : io iothr) : Prop :=
  forall h, wp p (fun _ o => match o with Done t' => t_opt t' = t_opt t | _ => True end) h.

Lemma keeps_close t : keeps t (iothr_close t).
Proof. intro h. unfold iothr_close. destruct (t_opened t); [|cbn; auto]. apply wp_any_bind; auto. intros [? ?] h'. reflexivity. Qed.
Lemma keeps_flush t : keeps t (flush_output t).
Proof.
  intro h. unfold flush_output. apply wp_bind_i.
  assert (G : wp (if t_opened t && negb (match t_outq t with [] => true | _ => false end) then
          bind (writer_writev (t_writer t) (map e_data (t_outq t))) (fun z => match z with (x, w) =>
          let t := t_set_writer t w in
          if negb (res_eqb x r_success) then iothr_close t else Ret t end)
        else Ret t) (fun _ o => match o with Done t' => t_opt t' = t_opt t | _ => True end) h).
  { destruct (t_opened t && _); [|reflexivity]. apply wp_any_bind; auto. intros [x w] h'. cbv zeta.
    destruct (negb _); [|reflexivity]. eapply wp_mono; [|apply keeps_close]. intros h2 [t2| |]; auto. }
  eapply wp_mono; [|exact G]. intros h' [t'| |] E; unfold bind_post; auto.
  apply (wp_any_bind _ _ (fun o => match o with Done t' => t_opt t' = t_opt t | _ => True end)); auto.
Qed.
Lemma keeps_entry t e : keeps t (process_queue_entry t e).
Proof.
  intro h. unfold process_queue_entry. destruct (t_opened t).
  2:{ apply wp_any_bind; auto. intros; reflexivity. }
  cbv zeta. apply wp_bind_i.
  assert (G : wp (maybe_flush_output t (4 + lenN (e_data e))) (fun _ o => match o with Done t' => t_opt t' = t_opt t | _ => True end) h).
  { unfold maybe_flush_output. destruct (_ <? _)%N; [exact I|]. destruct (t_outq t); [reflexivity|].
    destruct (_ || _); [apply keeps_flush|reflexivity]. }
  eapply wp_mono; [|exact G]. intros h' [t'| |] E; unfold bind_post; auto. destruct (_ <=? _)%N; cbn; auto.
Qed.
Lemma keeps_maybe_open t : keeps t (maybe_open t).
Proof.
  intro h. unfold maybe_open. destruct (t_opened t); [reflexivity|]. apply wp_any_bind; auto. intros now h'.
  destruct (_ <? _)%Z; [reflexivity|]. unfold iothr_open. apply wp_any_bind; auto. intros [? ?] h2. reflexivity.
Qed.

(** ** One pass *)
Definition empties (i n : nat) : trace := map (fun i => (QRemove i, AEntry None)) (seq i n).

Lemma wp_pass n : forall i t tot h,
  wp (process_queues_from n i t tot) (fun h' o => exists tr, h' = h ++ tr /\ Forall thev tr /\ (exists k, polls tr = firstn k (seq i n)) /\
    match o with
    | Done (m, t') => t_opt t' = t_opt t /\ polls tr = seq i n /\ (tot <= m)%N /\ (m = tot -> tr = empties i n)
    | _ => True
    end) h.
Proof.
  induction n as [|n IH]; intros i t tot h; cbn [process_queues_from].
  { cbn. exists []. rewrite app_nil_r. repeat split; auto; try lia. exists 0. reflexivity. }
  unfold ask_entry. cbn [bind wp]. split.
  { exists []. rewrite app_nil_r. repeat split; auto. exists 0. reflexivity. }
  intros a Ha. destruct a; cbn in Ha; try contradiction.
  cbn [bind]. match goal with |- context [(QRemove i, AEntry ?o)] => destruct o as [x|] end.
  - apply wp_bind_i. eapply wp_mono; [|apply wp_and; [apply (th_entry t x)|apply (keeps_entry t x)]].
    intros h' o [(tr & -> & F) K].
    assert (P0 : forall tr', (exists k, polls tr' = firstn k (seq (S i) n)) ->
       exists k, polls ([(QRemove i, AEntry (Some x))] ++ tr ++ tr') = firstn k (seq i (S n))).
    { intros tr' [k E]. exists (S k). rewrite !polls_app, (polls_evq tr F), E. reflexivity. }
    assert (T0 : forall tr', Forall thev tr' -> Forall thev ([(QRemove i, AEntry (Some x))] ++ tr ++ tr')).
    { intros tr' F'. constructor; [exact Logic.I|]. apply Forall_app. split; [|assumption]. eapply Forall_impl; [exact evq_thev|exact F]. }
    destruct o as [t'|e|]; unfold bind_post.
    2,3: exists ([(QRemove i, AEntry (Some x))] ++ tr); rewrite app_assoc; repeat split; auto;
      [rewrite <- (app_nil_r tr); apply T0; constructor|rewrite <- (app_nil_r tr); apply P0; exists 0; reflexivity].
    eapply wp_mono; [|apply IH]. intros h2 o2 (tr2 & -> & F2 & P2 & D2).
    exists ([(QRemove i, AEntry (Some x))] ++ tr ++ tr2). split; [rewrite <- !app_assoc; reflexivity|].
    split; [auto|]. split; [auto|]. destruct o2 as [[m t2]| |]; auto. destruct D2 as (D1 & D2 & D3 & D4).
    split; [congruence|]. split; [rewrite !polls_app, (polls_evq tr F), D2; reflexivity|]. split; lia.
  - eapply wp_mono; [|apply IH]. intros h2 o2 (tr2 & -> & F2 & P2 & D2).
    exists ([(QRemove i, AEntry None)] ++ tr2). split; [rewrite <- !app_assoc; reflexivity|].
    split; [constructor; [exact Logic.I|assumption]|]. split; [destruct P2 as [k E]; exists (S k); rewrite polls_app, E; reflexivity|].
    destruct o2 as [[m t2]| |]; auto. destruct D2 as (D1 & D2 & D3 & D4).
    split; [congruence|]. split; [rewrite polls_app, D2; reflexivity|]. split; [lia|]. intro E. rewrite (D4 E). reflexivity.
Qed.

(** ** Round robin *)
Lemma rr_nil num : round_robin num [].
Proof. intros [|k] i E; discriminate. Qed.
Lemma rr_prefix num a b : round_robin num (a ++ b) -> round_robin num a.
Proof. intros R k i E. apply R. rewrite nth_error_app1; [assumption|]. apply nth_error_Some. congruence. Qed.
Lemma rr_pass num a k : length a mod num = 0 -> round_robin num a -> round_robin num (a ++ firstn k (seq 0 num)).
Proof.
  intros M R j i E. destruct (Nat.lt_ge_cases j (length a)) as [L|L].
  { rewrite nth_error_app1 in E by assumption. auto. }
  rewrite nth_error_app2 in E by assumption.
  assert (B : j - length a < length (firstn k (seq 0 num))) by (apply nth_error_Some; congruence).
  rewrite firstn_length, seq_length in B.
  assert (E2 : nth_error (seq 0 num) (j - length a) = Some i).
  { rewrite <- E. rewrite <- (firstn_skipn k (seq 0 num)) at 1. rewrite nth_error_app1; [reflexivity|]. rewrite firstn_length, seq_length. lia. }
  assert (i = j - length a).
  { pose proof (nth_error_nth _ _ 0 E2) as X. rewrite seq_nth in X by lia. lia. }
  subst i. assert (N0 : num <> 0) by lia.
  replace j with ((j - length a) + length a) at 2 by lia.
  rewrite Nat.add_mod, M, Nat.add_0_r, Nat.mod_mod by assumption. rewrite Nat.mod_small by lia. reflexivity.
Qed.

(** What the calls made so far look like, at the top of the loop and anywhere. *)
Definition waits_ok (num : nat) (d : N) (h : trace) : Prop :=
  forall l1 d' a l2, h = l1 ++ (QWait d', a) :: l2 ->
    d' = d /\ exists l0 now, l1 = l0 ++ empty_pass num ++ [(QClock, AClock now)].
Definition anywhere (num : nat) (d : N) (h : trace) : Prop := round_robin num (polls h) /\ waits_ok num d h.
Definition at_top (num : nat) (d : N) (h : trace) : Prop := anywhere num d h /\ length (polls h) mod num = 0.

Lemma waits_snoc num d h e : waits_ok num d h ->
  (forall d', fst e = QWait d' -> d' = d /\ exists l0 now, h = l0 ++ empty_pass num ++ [(QClock, AClock now)]) -> waits_ok num d (h ++ [e]).
Proof.
  intros W K l1 d' a l2 E. destruct l2 as [|x l2] using rev_ind.
  - apply app_inj_tail in E as [<- ->]. apply K. reflexivity.
  - rewrite app_comm_cons, (app_assoc l1) in E. apply app_inj_tail in E as [E _]. eapply W; eassumption.
Qed.
Lemma waits_more num d h tr : waits_ok num d h -> Forall thev tr -> waits_ok num d (h ++ tr).
Proof.
  intros W F l1 d' a l2 E. apply app_eq_app in E. destruct E as (l & [[E1 E2]|[E1 E2]]).
  - destruct l as [|e l]; [|injection E2 as <- E2; eapply W; eassumption].
    cbn in E2. exfalso. rewrite <- E2 in F. inversion_clear F. exact H.
  - exfalso. rewrite E2 in F. apply Forall_app in F as [_ F]. inversion_clear F. exact H.
Qed.
Lemma any_evq num d h tr : anywhere num d h -> Forall evq tr -> anywhere num d (h ++ tr).
Proof.
  intros [R W] F. split.
  - rewrite polls_app, (polls_evq _ F), app_nil_r. assumption.
  - apply waits_more; [assumption|]. eapply Forall_impl; [exact evq_thev|exact F].
Qed.
Lemma top_evq num d h tr : at_top num d h -> Forall evq tr -> at_top num d (h ++ tr).
Proof. intros [A M] F. split; [apply any_evq; assumption|]. rewrite polls_app, (polls_evq _ F), app_nil_r. assumption. Qed.
Lemma top_pass num d h tr k : at_top num d h -> Forall thev tr -> polls tr = firstn k (seq 0 num) -> anywhere num d (h ++ tr).
Proof.
  intros [[R W] M] F E. split; [|apply waits_more; assumption]. rewrite polls_app, E. apply rr_pass; assumption.
Qed.
Lemma top_full num d h tr : at_top num d h -> Forall thev tr -> polls tr = seq 0 num -> at_top num d (h ++ tr).
Proof.
  intros T F E. split.
  - apply (top_pass num d h tr num T F). rewrite E. rewrite <- (seq_length num 0) at 2. rewrite firstn_all. reflexivity.
  - rewrite polls_app, app_length, E, seq_length. destruct T as [_ M].
    destruct num as [|n]; [exact (eq_trans (f_equal (fun x => x mod 0) (Nat.add_0_r _)) M)|].
    rewrite Nat.add_mod, M, Nat.mod_same, Nat.add_0_l by discriminate. apply Nat.mod_0_l. discriminate.
Qed.
Lemma top_any num d h : at_top num d h -> anywhere num d h.
Proof. intros [A _]. exact A. Qed.

Lemma wp_evq {A} (p : io A) num d h (Q : post A) : evp evq p -> at_top num d h ->
  (forall h' o, at_top num d h' -> Q h' o) -> wp p Q h.
Proof. intros E T K. eapply wp_mono; [|apply E]. intros h' o (tr & -> & F). apply K. apply top_evq; assumption. Qed.

Lemma wp_drain num d f : forall t h, N.to_nat (io_num_input_queues (t_opt t)) = num -> at_top num d h ->
  wp (drain f t) (fun h' o => anywhere num d h' /\ match o with Done _ => at_top num d h' | _ => True end) h.
Proof.
  induction f as [|f IH]; intros t h E T; cbn [drain]; [cbn; split; [apply top_any; assumption|exact Logic.I]|].
  apply wp_bind_i. unfold process_queues. rewrite E. eapply wp_mono; [|apply wp_pass].
  intros h' o (tr & -> & F & (k & P) & D). pose proof (top_pass _ _ _ _ _ T F P) as A.
  destruct o as [[m t']| |]; unfold bind_post; auto. destruct D as (D1 & D2 & _ & _).
  pose proof (top_full _ _ _ _ T F D2) as T'. destruct (m =? 0)%N; [cbn; auto|]. apply IH; [congruence|assumption].
Qed.

Lemma wp_loop num d dfuel fuel : forall t h, N.to_nat (io_num_input_queues (t_opt t)) = num -> io_flush_timeout (t_opt t) = d ->
  at_top num d h -> wp (thr_loop fuel dfuel t) (fun h' _ => anywhere num d h') h.
Proof.
  induction fuel as [|fuel IH]; intros t h E1 E2 T; cbn [thr_loop]; [apply top_any; assumption|].
  unfold ask_bool at 1. cbn [bind wp]. split; [apply top_any; assumption|]. intros a0 Ha0. destruct a0; cbn in Ha0; try contradiction.
  assert (T1 : at_top num d (h ++ [(QShutting, ABool b)])).
  { destruct T as [[R W] M]. split; [split|]; rewrite ?polls_app; cbn [polls flat_map fst app]; rewrite ?app_nil_r; auto.
    apply waits_snoc; [assumption|]. intros d' E. discriminate. }
  cbn [bind]. destruct b.
  - apply wp_bind_i. eapply wp_mono; [|apply (wp_drain num d dfuel t _ E1 T1)].
    intros h' [t'| |] [A T']; unfold bind_post; auto. apply wp_bind_i. eapply (wp_evq _ num d); [apply th_flush|assumption|].
    intros h2 [t2| |] T2; unfold bind_post; try (apply top_any; assumption).
    eapply (wp_evq _ num d); [apply th_close|assumption|]. intros. apply top_any; assumption.
  - apply wp_bind_i. eapply wp_mono; [|apply wp_and; [apply (th_maybe_open t)|apply keeps_maybe_open]].
    intros h1 o1 [(tr1 & -> & F1) K1]. pose proof (top_evq _ _ _ _ T1 F1) as T2.
    destruct o1 as [t1| |]; unfold bind_post; try (apply top_any; assumption).
    apply wp_bind_i. unfold process_queues. rewrite K1, E1. eapply wp_mono; [|apply wp_pass].
    intros h2 o2 (tr2 & -> & F2 & (k & P2) & D). pose proof (top_pass _ _ _ _ _ T2 F2 P2) as A2.
    destruct o2 as [[m t2]| |]; unfold bind_post; auto. destruct D as (D1 & D2 & _ & D4).
    pose proof (top_full _ _ _ _ T2 F2 D2) as T3.
    destruct (m =? 0)%N eqn:Em; cbn [negb]; [|apply IH; [congruence|congruence|assumption]].
    apply N.eqb_eq in Em. specialize (D4 Em). subst tr2.
    unfold ask_clock. cbn [bind wp]. split; [apply top_any; assumption|]. intros a1 Ha1. destruct a1; cbn in Ha1; try contradiction.
    match goal with |- context [AClock ?z] => rename z into now end.
    assert (T4 : at_top num d (((h ++ [(QShutting, ABool false)]) ++ tr1) ++ empties 0 num ++ [(QClock, AClock now)])).
    { rewrite app_assoc. apply top_evq; [assumption|]. constructor; [exact Logic.I|constructor]. }
    cbn [bind]. unfold ask_bool. cbn [bind wp]. rewrite <- app_assoc.
    split; [apply top_any; assumption|]. intros a2 Ha2. destruct a2; cbn in Ha2; try contradiction.
    match goal with |- context [(QWait _, ABool ?z)] => rename z into b end.
    rewrite D1, K1, E2.
    assert (T5 : at_top num d ((((h ++ [(QShutting, ABool false)]) ++ tr1) ++ empties 0 num ++ [(QClock, AClock now)]) ++ [(QWait d, ABool b)])).
    { destruct T4 as [[R W] M]. split; [split|]; [rewrite polls_app; cbn [polls flat_map fst app]; rewrite app_nil_r; assumption| |
        rewrite polls_app; cbn [polls flat_map fst app]; rewrite app_nil_r; assumption].
      apply waits_snoc; [assumption|]. intros d' E. injection E as <-. split; [reflexivity|]. eexists _, _. reflexivity. }
    cbn [bind]. destruct b; [|apply IH; [congruence|congruence|assumption]].
    apply wp_bind_i. eapply wp_mono; [|apply wp_and; [apply (th_flush t2)|apply keeps_flush]].
    intros h3 o3 [(tr3 & -> & F3) K3]. pose proof (top_evq _ _ _ _ T5 F3) as T6.
    destruct o3 as [t3| |]; unfold bind_post; try (apply top_any; assumption). apply IH; [congruence|congruence|assumption].
Qed.

Lemma thread_anywhere fuel dfuel t tr o : runs (iothr_thr fuel dfuel t) tr o -> anywhere (queues t) (io_flush_timeout (t_opt t)) tr.
Proof.
  intro R. set (num := queues t). set (d := io_flush_timeout (t_opt t)).
  assert (T0 : at_top num d []).
  { split; [split|]; [apply rr_nil| |destruct num; [reflexivity|apply Nat.mod_0_l; discriminate]]. intros [|? ?] ? ? ? E; discriminate. }
  assert (W : wp (iothr_thr fuel dfuel t) (fun h' _ => anywhere num d h') []).
  { unfold iothr_thr. apply wp_bind_i. eapply wp_mono; [|apply wp_and; [apply (th_maybe_open t)|apply keeps_maybe_open]].
    intros h1 o1 [(tr1 & -> & F1) K1]. pose proof (top_evq _ _ _ _ T0 F1) as T1.
    destruct o1 as [t1| |]; unfold bind_post; try (apply top_any; assumption).
    apply wp_loop; [unfold num, queues; congruence|unfold d; congruence|assumption]. }
  exact (wp_runs _ _ W _ _ R).
Qed.

(** ** Nobody waits for ever *)

(** A poll of a queue that holds something takes its first entry. *)
Lemma entry_eq x y : Nat.eqb (e_id x) (e_id y) && bytes_eqb (e_data x) (e_data y) && Bool.eqb (e_free x) (e_free y) = true -> x = y.
Proof.
  intro H. apply andb_true_iff in H as [H H3]. apply andb_true_iff in H as [H1 H2].
  apply Nat.eqb_eq in H1. apply bytes_eqb_eq in H2. apply Bool.eqb_prop in H3. destruct x, y; cbn in *; congruence.
Qed.

Lemma queue_takes cap i : forall H s s', sys_run cap s H = Some s' -> Forall (fun e => ans_ok (fst e) (snd e)) (thread_of H) ->
  (exists more, of_queue i (removed (thread_of H)) ++ s_visible s' i = s_visible s i ++ more) /\
  (forall p, p <= length (s_visible s i) -> p <= length (filter (Nat.eqb i) (polls (thread_of H))) -> p <= length (of_queue i (removed (thread_of H)))).
Proof.
  induction H as [|e H IH]; intros s s' R AO; cbn [sys_run] in R.
  { injection R as <-. split; [exists []; rewrite app_nil_r; reflexivity|]. auto. }
  destruct (sys_step cap s e) as [s1|] eqn:E; [|discriminate]. destruct (IH _ _ R) as ((more & M) & L).
  { destruct e; cbn in AO; auto. inversion_clear AO. assumption. }
  assert (Q0 : filter (Nat.eqb i) (polls (thread_of (e :: H))) = filter (Nat.eqb i) (polls (thread_of H)) ->
     of_queue i (removed (thread_of (e :: H))) = of_queue i (removed (thread_of H)) ->
     (exists add, s_visible s1 i = s_visible s i ++ add) ->
     (exists more, of_queue i (removed (thread_of (e :: H))) ++ s_visible s' i = s_visible s i ++ more) /\
     (forall p, p <= length (s_visible s i) -> p <= length (filter (Nat.eqb i) (polls (thread_of (e :: H)))) -> p <= length (of_queue i (removed (thread_of (e :: H)))))).
  { intros -> -> (add & V). split; [exists (add ++ more); rewrite M, V, app_assoc; reflexivity|].
    intros p A B. apply L; auto. rewrite V, app_length. lia. }
  assert (Q1 : forall q a, e = S_thr (q, a) -> (forall j, q <> QRemove j) -> s1 = s ->
     (exists more, of_queue i (removed (thread_of (e :: H))) ++ s_visible s' i = s_visible s i ++ more) /\
     (forall p, p <= length (s_visible s i) -> p <= length (filter (Nat.eqb i) (polls (thread_of (e :: H)))) -> p <= length (of_queue i (removed (thread_of (e :: H)))))).
  { intros q a -> NQ ->. apply Q0.
    - destruct q; try reflexivity. destruct (NQ i0 eq_refl).
    - destruct q; try reflexivity. destruct (NQ i0 eq_refl).
    - exists []. rewrite app_nil_r. reflexivity. }
  destruct e as [j x|j| |[q a]]; cbn [sys_step] in E.
  - destruct (Nat.ltb _ _); [|discriminate]. injection E as <-. apply Q0; try reflexivity. exists []. cbn. rewrite app_nil_r. reflexivity.
  - destruct (s_pending s j) as [|x r]; [discriminate|]. injection E as <-. apply Q0; try reflexivity. cbn. unfold upd.
    destruct (Nat.eqb_spec j i) as [->|NE]; [exists [x]; reflexivity|exists []; rewrite app_nil_r; reflexivity].
  - injection E as <-. apply Q0; try reflexivity. exists []. cbn. rewrite app_nil_r. reflexivity.
  - destruct q; try (apply (Q1 _ _ eq_refl); [intros; discriminate|injection E as <-; reflexivity]).
    + cbn in AO. inversion_clear AO as [|? ? A0 _]. cbn in A0. destruct a as [| | |[x|]| |]; try contradiction.
      * destruct (s_visible s i0) as [|y r] eqn:V; [discriminate|]. destruct (_ && _) eqn:EQ; [|discriminate]. apply entry_eq in EQ. subst y. injection E as <-.
        cbn [s_visible] in M, L. unfold upd in M, L. destruct (Nat.eqb_spec i0 i) as [->|NE].
        -- rewrite V. unfold removed, of_queue. cbn. rewrite !Nat.eqb_refl. cbn. split; [exists more; f_equal; exact M|].
           intros [|p] A B; [lia|]. apply le_n_S. apply L; apply le_S_n; assumption.
        -- unfold removed, of_queue. cbn. rewrite (proj2 (Nat.eqb_neq i0 i) NE), (proj2 (Nat.eqb_neq i i0)) by auto. split; [exists more; exact M|exact L].
      * destruct (s_visible s i0) as [|y r] eqn:V; [|discriminate]. injection E as <-.
        destruct (Nat.eqb_spec i i0) as [->|NE].
        -- split; [exists more; exact M|]. rewrite V. intros p A _. cbn in A. lia.
        -- unfold removed, of_queue. cbn. rewrite (proj2 (Nat.eqb_neq i i0) NE). split; [exists more; exact M|exact L].
    + apply (Q1 _ _ eq_refl); [intros; discriminate|]. destruct a; try (injection E as <-; reflexivity).
      destruct (Bool.eqb _ _); [|discriminate]. injection E as <-; reflexivity.
Qed.

Lemma nth_error_firstn' {A} : forall n (l : list A) k, k < n -> nth_error (firstn n l) k = nth_error l k.
Proof. induction n as [|n IH]; intros [|x l] [|k] L; cbn; try lia; auto. apply IH. lia. Qed.
Lemma nth_error_skipn' {A} : forall n (l : list A) k, nth_error (skipn n l) k = nth_error l (n + k).
Proof. induction n as [|n IH]; intros [|x l] k; cbn; auto. destruct k; reflexivity. Qed.
Lemma skipn_skipn' {A} : forall b a (l : list A), skipn a (skipn b l) = skipn (b + a) l.
Proof. induction b as [|b IH]; intros a [|x l]; cbn; auto. apply skipn_nil. Qed.

(** Queue [i] is polled at least once in [num] polls. *)
Lemma rr_count num i : i < num -> forall m k l, round_robin num l -> k + m * num <= length l ->
  m <= length (filter (Nat.eqb i) (firstn (m * num) (skipn k l))).
Proof.
  intros Hi. induction m as [|m IH]; intros k l R L; [lia|].
  cbn [Nat.mul] in *.
  replace (firstn (num + m * num) (skipn k l)) with (firstn num (skipn k l) ++ firstn (m * num) (skipn (k + num) l)).
  2:{ rewrite <- (firstn_skipn num (firstn (num + m * num) (skipn k l))). rewrite firstn_firstn, Nat.min_l by lia. f_equal.
      rewrite skipn_firstn_comm, skipn_skipn'. f_equal. lia. }
  rewrite filter_app, app_length. specialize (IH (k + num) l R). enough (1 <= length (filter (Nat.eqb i) (firstn num (skipn k l)))) by lia.
  (* position of [i] in this window *)
  set (j := (num + i - k mod num) mod num).
  assert (J : j < num) by (apply Nat.mod_upper_bound; lia).
  assert (E : (k + j) mod num = i).
  { unfold j. rewrite Nat.add_mod_idemp_r by lia. pose proof (Nat.mod_upper_bound k num ltac:(lia)).
    rewrite <- Nat.add_mod_idemp_l by lia. replace (k mod num + (num + i - k mod num)) with (i + 1 * num) by lia.
    rewrite Nat.mod_add by lia. apply Nat.mod_small. assumption. }
  assert (IN : In i (firstn num (skipn k l))).
  { apply (nth_error_In _ j). rewrite nth_error_firstn' by assumption. rewrite nth_error_skipn'.
    destruct (nth_error l (k + j)) as [x|] eqn:X; [rewrite (R _ _ X), E; reflexivity|].
    apply nth_error_None in X. lia. }
  assert (IN2 : In i (filter (Nat.eqb i) (firstn num (skipn k l)))) by (apply filter_In; split; [assumption|apply Nat.eqb_refl]).
  destruct (filter (Nat.eqb i) (firstn num (skipn k l))); [destruct IN2|cbn; lia].
Qed.

Lemma runs_ans {A} (p : io A) tr o : runs p tr o -> Forall (fun e => ans_ok (fst e) (snd e)) tr.
Proof. induction 1; constructor; auto. Qed.

Lemma filter_firstn_le {A} (f : A -> bool) n l : length (filter f (firstn n l)) <= length (filter f l).
Proof. rewrite <- (firstn_skipn n l) at 2. rewrite filter_app, app_length. lia. Qed.

Lemma sys_run_app cap : forall H1 H2 s s', sys_run cap s (H1 ++ H2) = Some s' ->
  exists s1, sys_run cap s H1 = Some s1 /\ sys_run cap s1 H2 = Some s'.
Proof.
  induction H1 as [|e H1 IH]; intros H2 s s' R; cbn [app sys_run] in *; [eauto|].
  destruct (sys_step cap s e); [auto|discriminate].
Qed.

(** An entry that becomes visible behind [p] others is the [p]-th entry taken
    from its queue, at the latest with the poll number [(p + 1) * num]. *)
Lemma served fuel dfuel t cap H1 i H2 s o s1 x rest :
  runs (iothr_thr fuel dfuel t) (thread_of (H1 ++ S_publish i :: H2)) o ->
  sys_run cap sys_init (H1 ++ S_publish i :: H2) = Some s ->
  sys_run cap sys_init H1 = Some s1 -> s_pending s1 i = x :: rest -> i < queues t ->
  (length (s_visible s1 i) + 1) * queues t <= length (polls (thread_of H2)) ->
  nth_error (of_queue i (removed (thread_of H2))) (length (s_visible s1 i)) = Some x.
Proof.
  intros R S1 S2 P Hi L. destruct (sys_run_app _ _ _ _ _ S1) as (s1' & E1 & E2). rewrite S2 in E1. injection E1 as <-.
  cbn [sys_run sys_step] in E2. rewrite P in E2. set (sp := mk_sys _ _ _) in E2.
  assert (TO : thread_of (H1 ++ S_publish i :: H2) = thread_of H1 ++ thread_of H2) by (unfold thread_of; rewrite flat_map_app; reflexivity).
  rewrite TO in R. pose proof (runs_ans _ _ _ R) as AO. apply Forall_app in AO as [_ AO].
  destruct (thread_anywhere _ _ _ _ _ R) as [RR _]. rewrite polls_app in RR.
  destruct (queue_takes cap i _ _ _ E2 AO) as ((more & M) & T).
  assert (V : s_visible sp i = s_visible s1 i ++ [x]) by (cbn; unfold upd; rewrite Nat.eqb_refl; reflexivity).
  rewrite V in M, T. set (p := length (s_visible s1 i)) in *.
  assert (LT : p + 1 <= length (of_queue i (removed (thread_of H2)))).
  { apply T; [rewrite app_length; cbn; unfold p; lia|].
    pose proof (rr_count (queues t) i Hi (p + 1) (length (polls (thread_of H1))) _ RR) as C. rewrite app_length in C.
    rewrite skipn_app, skipn_all, Nat.sub_diag in C. cbn [skipn app] in C. specialize (C ltac:(lia)).
    eapply Nat.le_trans; [exact C|]. apply filter_firstn_le. }
  rewrite <- (nth_error_app1 _ (s_visible s i)) by lia. rewrite M, <- app_assoc, nth_error_app2 by (unfold p; lia).
  unfold p. rewrite Nat.sub_diag. reflexivity.
Qed.

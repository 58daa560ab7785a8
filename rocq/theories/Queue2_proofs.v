(** The single-producer single-consumer queue: invariant of every schedule. *)
From Verif Require Import Bytes Bytes_proofs Queue SpecQueue Queue_proofs.
Local Open Scope nat_scope.

(** ** Histories *)
Lemma inserted_app a b : inserted (a ++ b) = inserted a ++ inserted b. Proof. apply flat_map_app. Qed.
Lemma removed_app a b : removed (a ++ b) = removed a ++ removed b. Proof. apply flat_map_app. Qed.
Lemma published_app a b : published (a ++ b) = published a + published b.
Proof. unfold published. rewrite filter_app, app_length. reflexivity. Qed.
Lemma freed_app a b : freed (a ++ b) = freed a + freed b.
Proof. unfold freed. rewrite filter_app, app_length. reflexivity. Qed.
Lemma seen_snoc tr e : seen (tr ++ [e]) = match e with E_chead => published tr | _ => seen tr end.
Proof. unfold seen. rewrite rev_app_distr. cbn [rev app seen_rev]. destruct e; try reflexivity. rewrite rev_involutive. reflexivity. Qed.

Lemma trace_ok_snoc num tr e : trace_ok num tr -> ev_ok num tr e -> trace_ok num (tr ++ [e]).
Proof.
  intros T E l1 f l2 H. destruct l2 as [|g l2] using rev_ind.
  - apply app_inj_tail in H. destruct H as [-> ->]. exact E.
  - clear IHl2. rewrite app_comm_cons, app_assoc in H. apply app_inj_tail in H. destruct H as [H _]. eapply T. exact H.
Qed.

Section SPSC.
Variable num : N.
Variable sz : nat.
Hypothesis QS : queue_size num.
Hypothesis FIT : (num * N.of_nat sz <= 2 ^ 32)%N.
Let nn := N.to_nat num.
Notation idx := (idx num).
Notation cell := (cell num sz).

(** Stores that insert the [j]-th element [x]. *)
Definition byte_stores (j : nat) (x : bytes) (k : nat) : list pstore :=
  map (fun i => PS_byte (cell j i) (nth i x x00)) (seq 0 k).
Definition stores (j : nat) (x : bytes) : list pstore := byte_stores j x sz ++ [PS_head (idx (S j))].
Definition pending (xs : list bytes) (hm h : nat) : list pstore :=
  flat_map (fun j => stores j (nth j xs [])) (seq hm (h - hm)).

Lemma byte_stores_length j x k : length (byte_stores j x k) = k.
Proof. unfold byte_stores. rewrite map_length, seq_length. reflexivity. Qed.
Lemma stores_length j x : length (stores j x) = S sz.
Proof. unfold stores. rewrite app_length, byte_stores_length. cbn. lia. Qed.
Lemma byte_stores_S j x k : byte_stores j x (S k) = byte_stores j x k ++ [PS_byte (cell j k) (nth k x x00)].
Proof. unfold byte_stores. rewrite seq_S, map_app. reflexivity. Qed.
Lemma byte_stores_skip j x k d : d < k -> exists r, skipn d (byte_stores j x k) = PS_byte (cell j d) (nth d x x00) :: r /\ r = skipn (S d) (byte_stores j x k).
Proof.
  intro L. unfold byte_stores.
  assert (E : seq 0 k = seq 0 d ++ d :: seq (S d) (k - S d)).
  { replace k with (d + S (k - S d)) at 1 by lia. rewrite seq_app. reflexivity. }
  rewrite E, map_app. cbn [map]. rewrite !skipn_app, !map_length, !seq_length. rewrite (skipn_all2 (n := d)) by (rewrite map_length, seq_length; lia).
  rewrite (skipn_all2 (n := S d)) by (rewrite map_length, seq_length; lia).
  rewrite Nat.sub_diag. replace (S d - d) with 1 by lia. cbn [app skipn]. eexists. split; reflexivity.
Qed.

Lemma last_head_app a : forall b h, last_head (a ++ b) h = last_head b (last_head a h).
Proof. induction a as [|[]]; intros; cbn; auto. Qed.
Lemma last_head_bytes j x k h : last_head (byte_stores j x k) h = h.
Proof. unfold byte_stores. generalize (seq 0 k). induction l; cbn; auto. Qed.
Lemma last_head_skip_bytes j x k d h : last_head (skipn d (byte_stores j x k)) h = h.
Proof. unfold byte_stores. rewrite skipn_map. generalize (skipn d (seq 0 k)). induction l; cbn; auto. Qed.
Lemma last_head_pending xs hm h0 : forall m, last_head (flat_map (fun j => stores j (nth j xs [])) (seq hm m)) h0 = match m with O => h0 | _ => idx (hm + m) end.
Proof.
  induction m as [|m IH]; [reflexivity|]. rewrite seq_S, flat_map_app, last_head_app. cbn [flat_map]. rewrite app_nil_r.
  unfold stores. rewrite last_head_app. cbn [last_head]. f_equal. lia.
Qed.

(** The element being copied by the producer, and how far. *)
Definition cur (pc : ppc) : list (bytes * nat) := match pc with P_copy x _ _ k => [(x, k)] | _ => [] end.
Definition cur_stores (h : nat) (pc : ppc) : list pstore := match pc with P_copy x _ _ k => byte_stores h x k | _ => [] end.
Definition items (xs : list bytes) (pc : ppc) : list bytes := xs ++ map fst (cur pc).

(** [ins]: elements inserted; [T]/[Tm]: removals done / in memory; [Hm]:
    insertions in memory; [sn]: insertions seen by the running remove; [d]: stores
    of the element at [Hm] that are in memory already. *)
Record core (data : bytes) (head tail : N) (p : producer) (c : consumer) (ins : list bytes) (T Hm Tm sn d : nat) : Prop := {
  i_len : length data = nn * sz;
  i_ord : Tm <= T <= Hm /\ Hm <= length ins;
  i_cap : length ins + 1 <= Tm + nn;
  i_head : head = idx Hm;
  i_tail : tail = idx Tm;
  i_cbuf : (c_buf c = [] /\ Tm = T) \/ (c_buf c = [idx T] /\ S Tm = T);
  i_szs : Forall (fun x => length x = sz) ins;
  i_todo : Forall (fun x => length x = sz) (p_todo p);
  i_data : forall j i, T <= j < Hm -> i < sz -> nth (cell j i) data x00 = nth i (nth j ins []) x00;
  i_pc : match p_pc p with
         | P_idle => True
         | P_tail x h => length x = sz /\ h = idx (length ins)
         | P_copy x h _ k => length x = sz /\ h = idx (length ins) /\ k <= sz /\ length ins + 2 <= Tm + nn
         end;
  i_d : d <= sz;
  i_dlen : d <= length (pending ins Hm (length ins) ++ cur_stores (length ins) (p_pc p));
  i_buf : p_buf p = skipn d (pending ins Hm (length ins) ++ cur_stores (length ins) (p_pc p));
  i_part : forall i, i < d -> nth (cell Hm i) data x00 = nth i (nth Hm (items ins (p_pc p)) []) x00;
  i_cpc : match c_pc c with
          | C_idle => True
          | C_tail h => T <= sn <= Hm /\ h = idx sn
          | C_copy t _ got => t = idx T /\ T < Hm /\ length got <= sz /\ got = firstn (length got) (nth T ins [])
          end }.

Record linked (tr : list qev) (ins : list bytes) (T Hm Tm sn : nat) : Prop := {
  l_ins : inserted tr = ins; l_rem : removed tr = firstn T ins; l_T : T <= length ins;
  l_pub : published tr = Hm; l_fr : freed tr = Tm; l_sn : seen tr = sn; l_ok : trace_ok num tr }.

Definition inv (s : qstate) : Prop :=
  q_num s = num /\ q_sz s = sz /\ q_oob s = false /\
  exists p ins T Hm Tm sn d, q_prods s = [p] /\
    core (q_data s) (q_head s) (q_tail s) p (q_cons s) ins T Hm Tm sn d /\
    linked (q_trace s) ins T Hm Tm sn.

Lemma trace_upd s l : q_trace (upd_log s l) = q_trace s ++ rev l.
Proof. unfold q_trace, upd_log. cbn. apply rev_app_distr. Qed.

Lemma pending_same xs h : pending xs h h = [].
Proof. unfold pending. rewrite Nat.sub_diag. reflexivity. Qed.

Lemma pending_ext xs y hm h : h <= length xs -> pending (xs ++ y) hm h = pending xs hm h.
Proof.
  intro L. unfold pending. rewrite !flat_map_concat_map. f_equal. apply map_ext_in. intros j J. apply in_seq in J.
  rewrite app_nth1 by lia. reflexivity.
Qed.

Lemma pending_snoc xs x hm : hm <= length xs -> pending (xs ++ [x]) hm (S (length xs)) = pending xs hm (length xs) ++ stores (length xs) x.
Proof.
  intro L. unfold pending at 1. replace (S (length xs) - hm) with (S (length xs - hm)) by lia. rewrite seq_S, flat_map_app. cbn [flat_map].
  rewrite app_nil_r. replace (hm + (length xs - hm)) with (length xs) by lia. rewrite app_nth2, Nat.sub_diag by lia. cbn [nth].
  f_equal. fold (pending (xs ++ [x]) hm (length xs)). apply pending_ext. lia.
Qed.

Lemma pending_cons xs hm h : hm < h -> pending xs hm h = stores hm (nth hm xs []) ++ pending xs (S hm) h.
Proof. intro L. unfold pending. replace (h - hm) with (S (h - S hm)) by lia. reflexivity. Qed.

Lemma pending_long xs hm h : hm < h -> S sz <= length (pending xs hm h).
Proof. intro L. rewrite pending_cons by assumption. rewrite app_length, stores_length. lia. Qed.

Lemma last_head_buf xs hm h pc d : d <= sz -> hm <= h -> d <= length (pending xs hm h ++ cur_stores h pc) ->
  last_head (skipn d (pending xs hm h ++ cur_stores h pc)) (idx hm) = idx h.
Proof.
  intros D L DL.
  assert (C : forall d' v, last_head (skipn d' (cur_stores h pc)) v = v).
  { intros d' v. destruct pc; cbn [cur_stores]; rewrite ?skipn_nil; try reflexivity. apply last_head_skip_bytes. }
  destruct (Nat.eq_dec hm h) as [->|NE].
  - rewrite pending_same. cbn [app]. apply C.
  - pose proof (pending_long xs hm h ltac:(lia)) as PL. rewrite skipn_app, last_head_app.
    replace (d - length (pending xs hm h)) with 0 by lia. rewrite (C 0).
    rewrite pending_cons by lia. rewrite skipn_app, last_head_app. rewrite stores_length. replace (d - S sz) with 0 by lia. cbn [skipn].
    unfold stores at 1. rewrite skipn_app, last_head_app, byte_stores_length. replace (d - sz) with 0 by lia. cbn [skipn last_head].
    unfold pending. rewrite last_head_pending. destruct (h - S hm) as [|m] eqn:E; f_equal; lia.
Qed.

Lemma skipn_snoc {A} d (l : list A) a : d <= length l -> skipn d (l ++ [a]) = skipn d l ++ [a].
Proof. intro L. rewrite skipn_app. replace (d - length l) with 0 by lia. reflexivity. Qed.

Lemma nn_big : 2 <= nn.
Proof. pose proof (num_bounds num QS). unfold nn. lia. Qed.

Lemma linked_rem tr ins T Hm Tm sn : linked tr ins T Hm Tm sn -> length (removed tr) = T.
Proof. intros []. rewrite l_rem0. apply firstn_length_le. assumption. Qed.

(** Appending one event to a linked history. *)
Lemma link_ev tr ins T Hm Tm sn e ins' T' Hm' Tm' sn' :
  linked tr ins T Hm Tm sn -> ev_ok num tr e ->
  ins' = ins ++ inserted [e] -> (firstn T ins ++ removed [e] = firstn T' ins') -> T' <= length ins' -> Hm' = Hm + published [e] -> Tm' = Tm + freed [e] ->
  sn' = match e with E_chead => Hm | _ => sn end ->
  linked (tr ++ [e]) ins' T' Hm' Tm' sn'.
Proof.
  intros [] EV -> E2 LT -> -> ->. constructor.
  - rewrite inserted_app, l_ins0. reflexivity.
  - rewrite removed_app, l_rem0. exact E2.
  - exact LT.
  - rewrite published_app, l_pub0. reflexivity.
  - rewrite freed_app, l_fr0. reflexivity.
  - rewrite seen_snoc. destruct e; congruence.
  - apply trace_ok_snoc; assumption.
Qed.

Ltac linkt L := rewrite trace_upd; cbn [rev app];
  match goal with |- linked (q_trace ?X ++ _) _ _ _ _ _ =>
    match type of L with linked (q_trace ?s) _ _ _ _ _ => change (q_trace X) with (q_trace s) end end;
  eapply link_ev; [exact L|unfold ev_ok; cbv zeta|try (cbn; rewrite app_nil_r; reflexivity)|try (cbn; rewrite app_nil_r; reflexivity)|try lia|try (cbn; lia)|try (cbn; lia)|reflexivity].

Lemma prod_step_inv s : inv s -> inv (prod_step s 0).
Proof.
  intros (EN & ES & EO & p & ins & T & Hm & Tm & sn & d & EP & C & L). unfold prod_step. rewrite EP. cbn [nth_error].
  pose proof nn_big as NB. pose proof (linked_rem _ _ _ _ _ _ L) as LR.
  destruct (p_pc p) as [|x h|x h sp k] eqn:EPC.
  - destruct (p_todo p) as [|x todo] eqn:ET; [repeat split; eauto 12|].
    split; [exact EN|]. split; [exact ES|]. split; [exact EO|].
    eexists _, ins, T, Hm, Tm, sn, d. split; [cbn; rewrite EP; reflexivity|]. split; [|exact L].
    destruct C. rewrite EPC, ET in *. inversion i_todo0; subst.
    constructor; cbn; auto. split; [assumption|]. rewrite i_buf0, i_head0. apply last_head_buf; auto. lia.
  - pose proof (i_pc _ _ _ _ _ _ _ _ _ _ _ C) as PC. rewrite EPC in PC. destruct PC as [LX EH].
    pose proof (i_ord _ _ _ _ _ _ _ _ _ _ _ C) as ORD. pose proof (i_cap _ _ _ _ _ _ _ _ _ _ _ C) as CAP.
    rewrite EN, (i_tail _ _ _ _ _ _ _ _ _ _ _ C), EH.
    rewrite (q_space_idx num QS) by (fold nn; lia). fold nn.
    destruct (1 <=? N.of_nat (nn - 1 - (length ins - Tm)))%N eqn:E1.
    + split; [exact EN|]. split; [exact ES|]. split; [exact EO|].
      eexists _, ins, T, Hm, Tm, sn, d. split; [cbn; rewrite EP; reflexivity|]. split.
      * destruct C. rewrite EPC in *. constructor; cbn; auto.
        -- repeat split; auto; lia.
        -- intros i Hi. specialize (i_part0 i Hi). unfold items in *. cbn in *. rewrite app_nil_r in i_part0.
           destruct (Nat.eq_dec Hm (length ins)) as [->|].
           ++ rewrite pending_same in i_dlen0. cbn in i_dlen0. lia.
           ++ rewrite app_nth1 by lia. assumption.
      * linkt L.
        destruct L. rewrite l_ins0, l_fr0. fold nn. lia.
    + split; [exact EN|]. split; [exact ES|]. split; [exact EO|].
      eexists _, ins, T, Hm, Tm, sn, d. split; [cbn; rewrite EP; reflexivity|]. split.
      * destruct C. rewrite EPC in *. constructor; cbn; auto.
      * linkt L.
        destruct L. rewrite l_ins0, l_fr0. fold nn. lia.
  - pose proof (i_pc _ _ _ _ _ _ _ _ _ _ _ C) as PC. rewrite EPC in PC. destruct PC as (LX & EH & KS & CP).
    rewrite ES, EN. destruct (Nat.ltb k sz) eqn:EK.
    + split; [exact EN|]. split; [exact ES|]. split; [exact EO|].
      eexists _, ins, T, Hm, Tm, sn, d. split; [cbn; rewrite EP; reflexivity|]. split; [|exact L].
      destruct C. rewrite EPC in *. cbn [cur_stores items cur map fst] in *. constructor; cbn [p_todo p_pc p_buf cur_stores items cur map fst]; auto.
      * repeat split; auto. lia.
      * rewrite byte_stores_S, app_assoc, app_length. cbn. lia.
      * rewrite EH, q_addr_idx by (auto; lia). rewrite byte_stores_S, app_assoc, skipn_snoc by assumption. f_equal. assumption.
    + assert (k = sz) by lia. subst k.
      split; [exact EN|]. split; [exact ES|]. split; [exact EO|].
      eexists _, (ins ++ [x]), T, Hm, Tm, sn, d. split; [cbn; rewrite EP; reflexivity|].
      pose proof (i_ord _ _ _ _ _ _ _ _ _ _ _ C) as ORD. split.
      * destruct C. rewrite EPC in *. cbn [cur_stores items cur map fst] in *. constructor; cbn [p_todo p_pc p_buf cur_stores items cur map fst]; auto;
          rewrite ?app_nil_r, ?app_length; cbn [length]; try lia.
        -- apply Forall_app. split; [assumption|]. constructor; [assumption|constructor].
        -- intros j i Hj Hi. rewrite app_nth1 by lia. auto.
        -- replace (length ins + 1) with (S (length ins)) by lia. rewrite pending_snoc by lia. unfold stores. rewrite !app_length in *. cbn. lia.
        -- replace (length ins + 1) with (S (length ins)) by lia. rewrite pending_snoc by lia. unfold stores.
           rewrite app_assoc, skipn_snoc by assumption. f_equal; [assumption|]. rewrite EH, q_next_idx by assumption. reflexivity.
        -- intros i Hi. cbn [upd_log upd_prod q_data]. rewrite (i_part0 i Hi). unfold items. cbn [cur map fst]. rewrite !app_nil_r. reflexivity.
        -- cbn [upd_log upd_prod q_cons]. destruct (c_pc (q_cons s)); auto. destruct i_cpc0 as (Q1 & Q2 & Q3 & Q4). repeat split; auto. rewrite app_nth1 by lia. assumption.
      * linkt L.
        -- destruct L. rewrite l_ins0, l_fr0. fold nn. lia.
        -- reflexivity.
        -- cbn [removed flat_map]. rewrite app_nil_r, firstn_app. replace (T - length ins) with 0 by lia. rewrite firstn_O, app_nil_r. reflexivity.
        -- rewrite app_length. lia.
Qed.

Lemma prod_flush_inv s : inv s -> inv (prod_flush s 0).
Proof.
  intros (EN & ES & EO & p & ins & T & Hm & Tm & sn & d & EP & C & L). unfold prod_flush. rewrite EP. cbn [nth_error].
  pose proof nn_big as NB. pose proof (i_ord _ _ _ _ _ _ _ _ _ _ _ C) as ORD. pose proof (i_cap _ _ _ _ _ _ _ _ _ _ _ C) as CAP.
  pose proof (i_d _ _ _ _ _ _ _ _ _ _ _ C) as D.
  assert (BYTE : forall r x, skipn d (pending ins Hm (length ins) ++ cur_stores (length ins) (p_pc p)) = PS_byte (cell Hm d) (nth d x x00) :: r ->
     r = skipn (S d) (pending ins Hm (length ins) ++ cur_stores (length ins) (p_pc p)) ->
     d < sz -> Hm + 2 <= Tm + nn -> x = nth Hm (items ins (p_pc p)) [] ->
     core (put_byte (cell Hm d) (nth d x x00) (q_data s)) (q_head s) (q_tail s) (mk_prod (p_todo p) (p_pc p) r) (q_cons s) ins T Hm Tm sn (S d)).
  { intros r x E1 E2 LD LC EX. destruct C. constructor; cbn; auto.
    - rewrite put_byte_length. assumption.
    - intros j i Hj Hi. rewrite nth_put_other; [auto|]. intro Q. apply (cell_inj num sz FIT) in Q; auto. destruct Q as [Q _].
      assert (N : idx j <> idx Hm) by (apply (idx_ne num QS sz FIT); fold nn; lia). congruence.
    - assert (LL : length (skipn d (pending ins Hm (length ins) ++ cur_stores (length ins) (p_pc p))) = S (length r)) by (rewrite E1; reflexivity).
      rewrite skipn_length in LL. lia.
    - intros i Hi. destruct (Nat.eq_dec i d) as [->|NE].
      + rewrite nth_put_same; [congruence|]. rewrite i_len0. apply (cell_lt num QS sz FIT). assumption.
      + rewrite nth_put_other; [apply i_part0; lia|]. intro Q. apply (cell_inj num sz FIT) in Q; auto; [|lia]. destruct Q; congruence. }
  pose proof (i_buf _ _ _ _ _ _ _ _ _ _ _ C) as EB.
  destruct (Nat.eq_dec Hm (length ins)) as [EHm|NHm].
  - (* only the element being copied is pending *)
    rewrite EHm in EB at 1. rewrite pending_same in EB. cbn [app] in EB.
    destruct (p_pc p) as [|x h|x h sp k] eqn:EPC; cbn [cur_stores] in EB; try (rewrite skipn_nil in EB; rewrite EB; repeat split; eauto 12; fail).
    pose proof (i_pc _ _ _ _ _ _ _ _ _ _ _ C) as PC. rewrite EPC in PC. destruct PC as (LX & EH & KS & CP).
    destruct (Nat.lt_ge_cases d k) as [LK|LK].
    + destruct (byte_stores_skip (length ins) x k d LK) as (r & E1 & E2). rewrite EB, E1.
      split; [exact EN|]. split; [exact ES|]. split.
      { cbn. rewrite EO. cbn. rewrite (i_len _ _ _ _ _ _ _ _ _ _ _ C). apply Nat.leb_gt. apply (cell_lt num QS sz FIT). lia. }
      eexists _, ins, T, Hm, Tm, sn, (S d). split; [cbn; rewrite EP; reflexivity|]. split; [|exact L].
      cbn. rewrite <- EHm at 1. apply BYTE.
      * rewrite EHm at 1. rewrite pending_same. cbn [app cur_stores]. rewrite E1, <- EHm. reflexivity.
      * rewrite EHm at 1. rewrite pending_same. cbn [app cur_stores]. exact E2.
      * lia.
      * lia.
      * unfold items. cbn. rewrite EHm, app_nth2, Nat.sub_diag by lia. reflexivity.
    + rewrite skipn_all2 in EB by (rewrite byte_stores_length; lia). rewrite EB. repeat split; eauto 12.
  - (* the element at [Hm] is complete *)
    rewrite pending_cons in EB by lia. unfold stores in EB. rewrite <- !app_assoc in EB.
    rewrite skipn_app, byte_stores_length in EB.
    destruct (Nat.lt_ge_cases d sz) as [LK|LK].
    + destruct (byte_stores_skip Hm (nth Hm ins []) sz d LK) as (r & E1 & E2). replace (d - sz) with 0 in EB by lia. cbn [skipn] in EB. rewrite E1 in EB. cbn [app] in EB.
      rewrite EB. split; [exact EN|]. split; [exact ES|]. split.
      { cbn. rewrite EO. cbn. rewrite (i_len _ _ _ _ _ _ _ _ _ _ _ C). apply Nat.leb_gt. apply (cell_lt num QS sz FIT). lia. }
      eexists _, ins, T, Hm, Tm, sn, (S d). split; [cbn; rewrite EP; reflexivity|]. split; [|exact L].
      cbn. apply BYTE; [| |lia|lia|].
      * rewrite (pending_cons ins Hm) by lia. unfold stores. rewrite <- !app_assoc, skipn_app, byte_stores_length. replace (d - sz) with 0 by lia. rewrite E1. reflexivity.
      * rewrite (pending_cons ins Hm) by lia. unfold stores. rewrite <- !app_assoc, (skipn_app (S d)), byte_stores_length. replace (S d - sz) with 0 by lia. rewrite E2. reflexivity.
      * unfold items. rewrite app_nth1 by lia. reflexivity.
    + assert (d = sz) by lia. subst d. rewrite skipn_all2 in EB by (rewrite byte_stores_length; lia). rewrite Nat.sub_diag in EB. cbn [skipn app] in EB.
      rewrite EB. split; [exact EN|]. split; [exact ES|]. split; [exact EO|].
      eexists _, ins, T, (S Hm), Tm, sn, 0. split; [cbn; rewrite EP; reflexivity|]. split.
      * destruct C. constructor; cbn; auto; try lia.
        -- intros j i Hj Hi. destruct (Nat.eq_dec j Hm) as [->|]; [|apply i_data0; lia].
           rewrite i_part0 by lia. unfold items. rewrite app_nth1 by lia. reflexivity.
        -- destruct (c_pc (q_cons s)); auto; [destruct i_cpc0; split; [lia|assumption]|]. destruct i_cpc0 as (Q1 & Q2 & Q3 & Q4). repeat split; auto.
      * linkt L.
        destruct L. rewrite l_ins0, l_pub0. lia.
Qed.

Lemma cons_step_inv s : inv s -> inv (cons_step s).
Proof.
  intros (EN & ES & EO & p & ins & T & Hm & Tm & sn & d & EP & C & L). unfold cons_step.
  pose proof nn_big as NB. pose proof (i_ord _ _ _ _ _ _ _ _ _ _ _ C) as ORD. pose proof (i_cap _ _ _ _ _ _ _ _ _ _ _ C) as CAP.
  pose proof (linked_rem _ _ _ _ _ _ L) as LR.
  pose proof (i_cpc _ _ _ _ _ _ _ _ _ _ _ C) as PC. pose proof (i_cbuf _ _ _ _ _ _ _ _ _ _ _ C) as CB.
  destruct (c_pc (q_cons s)) as [|h|t cnt got] eqn:EPC.
  - split; [exact EN|]. split; [exact ES|]. split; [exact EO|].
    eexists _, ins, T, Hm, Tm, Hm, d. split; [cbn; exact EP|]. split.
    + destruct C. constructor; cbn; auto. split; [lia|assumption].
    + linkt L. exact I.
  - destruct PC as [PC1 PC2].
    assert (LT : last_tail (c_buf (q_cons s)) (q_tail s) = idx T).
    { rewrite (i_tail _ _ _ _ _ _ _ _ _ _ _ C). destruct CB as [[-> ->]|[-> _]]; reflexivity. }
    rewrite LT, EN, PC2. rewrite (q_count_idx num QS) by (fold nn; lia).
    destruct (1 <=? N.of_nat (sn - T))%N eqn:E1.
    + split; [exact EN|]. split; [exact ES|]. split; [exact EO|].
      eexists _, ins, T, Hm, Tm, sn, d. split; [cbn; exact EP|]. split.
      * destruct C. constructor; cbn; auto. repeat split; try lia.
      * linkt L.
        destruct L. rewrite l_sn0, LR. lia.
    + split; [exact EN|]. split; [exact ES|]. split; [exact EO|].
      eexists _, ins, T, Hm, Tm, sn, d. split; [cbn; exact EP|]. split.
      * destruct C. constructor; cbn; auto.
      * linkt L.
        destruct L. rewrite l_sn0, LR. lia.
  - destruct PC as (ET & LT & LG & EG). rewrite ES.
    assert (LX : length (nth T ins []) = sz).
    { pose proof (i_szs _ _ _ _ _ _ _ _ _ _ _ C) as F. rewrite Forall_forall in F. apply F. apply nth_In. lia. }
    destruct (Nat.ltb (length got) sz) eqn:EK.
    + split; [exact EN|]. split; [exact ES|]. split.
      { cbn. rewrite EO. cbn. rewrite (i_len _ _ _ _ _ _ _ _ _ _ _ C). apply Nat.leb_gt. rewrite ET, q_addr_idx by (auto; lia). apply (cell_lt num QS sz FIT). lia. }
      eexists _, ins, T, Hm, Tm, sn, d. split; [cbn; exact EP|]. split; [|exact L].
      destruct C. constructor; cbn; auto. repeat split; auto.
      * rewrite app_length. cbn. lia.
      * rewrite ET, q_addr_idx by (auto; lia). rewrite i_data0 by lia. rewrite app_length. cbn [length].
        rewrite EG at 1. rewrite Nat.add_1_r.
        assert (FS : forall (l : bytes) m, m < length l -> firstn (S m) l = firstn m l ++ [nth m l x00]).
        { clear. induction l; intros [|m] H; cbn in *; try lia; auto. f_equal. apply IHl. lia. }
        rewrite FS by lia. reflexivity.
    + assert (LE : length got = sz) by lia.
      destruct CB as [[CB1 CB2]|[CB1 CB2]]; rewrite CB1; [|repeat split; auto; exists p, ins, T, Hm, Tm, sn, d; auto].
      assert (EGX : got = nth T ins []) by (rewrite EG, LE; apply firstn_all2; lia).
      split; [exact EN|]. split; [exact ES|]. split; [exact EO|].
      eexists _, ins, (S T), Hm, Tm, sn, d. split; [cbn; exact EP|]. split.
      * destruct C. constructor; cbn; auto; try lia.
        -- right. rewrite EN, ET, q_next_idx by assumption. split; [reflexivity|lia].
        -- intros j i Hj Hi. apply i_data0; lia.
      * linkt L.
        -- destruct L. rewrite LR, l_pub0, l_ins0. split; [lia|]. rewrite EGX. apply nth_error_nth'. lia.
        -- cbn. rewrite EGX.
           assert (FS : forall (l : list bytes) m, m < length l -> firstn m l ++ [nth m l []] = firstn (S m) l).
           { clear. induction l; intros [|m] H; cbn in *; try lia; auto. f_equal. apply IHl. lia. }
           apply FS. lia.
Qed.

Lemma cons_flush_inv s : inv s -> inv (cons_flush s).
Proof.
  intros (EN & ES & EO & p & ins & T & Hm & Tm & sn & d & EP & C & L). unfold cons_flush.
  pose proof (linked_rem _ _ _ _ _ _ L) as LR.
  destruct (i_cbuf _ _ _ _ _ _ _ _ _ _ _ C) as [[CB1 CB2]|[CB1 CB2]]; rewrite CB1; [repeat split; eauto 12|].
  split; [exact EN|]. split; [exact ES|]. split; [exact EO|].
  eexists _, ins, T, Hm, (S Tm), sn, d. split; [cbn; exact EP|]. split.
  - destruct C. constructor; cbn; auto; try lia; try congruence.
    destruct (p_pc p); auto. intuition lia.
  - destruct C. linkt L.
    destruct L. rewrite LR, l_fr0. lia.
Qed.

Lemma step_inv s a : inv s -> inv (q_step s a).
Proof.
  intro I. destruct a as [[|i]|[|i]| |]; cbn [q_step].
  - apply prod_step_inv, I.
  - unfold prod_step. destruct I as (EN & ES & EO & p & ? & ? & ? & ? & ? & ? & EP & I). rewrite EP. cbn. destruct (nth_error (@nil producer) i) eqn:X; [destruct i; discriminate|].
    repeat split; eauto 12.
  - apply prod_flush_inv, I.
  - unfold prod_flush. destruct I as (EN & ES & EO & p & ? & ? & ? & ? & ? & ? & EP & I). rewrite EP. cbn. destruct (nth_error (@nil producer) i) eqn:X; [destruct i; discriminate|].
    repeat split; eauto 12.
  - apply cons_step_inv, I.
  - apply cons_flush_inv, I.
Qed.

Lemma run_inv sch : forall s, inv s -> inv (q_run s sch).
Proof. induction sch; intros s I; cbn; [exact I|]. apply IHsch, step_inv, I. Qed.

Lemma init_inv todo : Forall (fun x => length x = sz) todo -> inv (q_init num sz [todo]).
Proof.
  intro F. pose proof nn_big. split; [reflexivity|]. split; [reflexivity|]. split; [reflexivity|].
  exists (mk_prod todo P_idle []), [], 0, 0, 0, 0, 0. split; [reflexivity|]. split.
  - assert (idx 0 = 0%N) as Z by (apply N.mod_0_l; pose proof (num_bounds num QS); lia).
    constructor; cbn; auto; try lia. rewrite repeat_length. reflexivity.
  - constructor; try reflexivity. intros l1 e l2 E. destruct l1; discriminate.
Qed.
End SPSC.

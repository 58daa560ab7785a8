(** The lock-free queue on weakly ordered memory: invariant of every schedule. *)
From Verif Require Import Bytes Bytes_proofs SpecTrace Queue QueueWeak SpecQueue Queue_proofs Queue2_proofs Queue3_proofs Queue4_proofs.
Local Open Scope nat_scope.

Lemma drop_nth_keep {A} n : forall (l : list A) a b, nth_error l n = Some a -> In b l -> b = a \/ In b (drop_nth n l).
Proof.
  induction n as [|n IH]; intros [|c l] a b E I; cbn in *; try discriminate.
  - injection E as ->. destruct I; auto.
  - destruct I as [->|I]; [auto|]. destruct (IH l a b E I); auto.
Qed.
Lemma drop_nth_in {A} n : forall (l : list A) b, In b (drop_nth n l) -> In b l.
Proof. induction n; intros [|c l] b I; cbn in *; auto. destruct I; auto. Qed.
Lemma set_nth_length {A} k (v : A) : forall l, length (set_nth k v l) = length l.
Proof. induction k; intros [|a l]; cbn; auto. Qed.
Lemma set_nth_error {A} k (v : A) : forall l j x, nth_error (set_nth k v l) j = Some x -> (j = k /\ x = v) \/ nth_error l j = Some x.
Proof.
  induction k as [|k IH]; intros [|a l] [|j] x E; cbn in *; auto.
  - injection E as ->. auto.
  - destruct (IH l j x E) as [[-> ->]|]; auto.
Qed.
Lemma all_some_nth {A} : forall (l : list (option A)) x k a, all_some l = Some x -> nth_error x k = Some a -> nth_error l k = Some (Some a).
Proof.
  induction l as [|[b|] l IH]; intros x k a E N; cbn in E; try discriminate.
  - injection E as <-. destruct k; discriminate.
  - destruct (all_some l) as [y|] eqn:Y; [|discriminate]. injection E as <-. destruct k; cbn in *; [congruence|]. eapply IH; eauto.
Qed.
Lemma all_some_length {A} : forall (l : list (option A)) x, all_some l = Some x -> length x = length l.
Proof.
  induction l as [|[b|] l IH]; intros x E; cbn in E; try discriminate.
  - injection E as <-. reflexivity.
  - destruct (all_some l) as [y|] eqn:Y; [|discriminate]. injection E as <-. cbn. f_equal. auto.
Qed.

Section Weak.
Variable num : N.
Variable sz : nat.
Hypothesis QS : queue_size num.
Hypothesis FIT : (num * N.of_nat sz <= 2 ^ 32)%N.
Let nn := N.to_nat num.
Notation idx := (idx num).
Notation cell := (cell num sz).
Notation linked := (linked num).

(** Bytes loaded so far are those of the element [x]. *)
Definition got_ok (got : list (option byte)) (x : bytes) : Prop :=
  forall k b, nth_error got k = Some (Some b) -> b = nth k x x00.

Record wcore (data : bytes) (head tail : N) (todo : list bytes) (pc : wpc) (pbuf : list pstore) (cpc : wcpc) (cbuf : list N)
  (ins : list bytes) (T Hm Tm sn : nat) : Prop := {
  w_len : length data = nn * sz;
  w_ord : Tm <= T <= Hm /\ Hm <= length ins;
  w_cap : length ins + 1 <= Tm + nn;
  w_hd : head = idx Hm;
  w_tl : tail = idx Tm;
  w_cb : (cbuf = [] /\ Tm = T) \/ (cbuf = [idx T] /\ S Tm = T);
  w_szs : Forall (fun x => length x = sz) ins;
  w_td : Forall (fun x => length x = sz) todo;
  w_dt : forall j i, T <= j < Hm -> i < sz -> nth (cell j i) data x00 = nth i (nth j ins []) x00;
  w_p : match pc with
        | W_idle => pbuf = [] /\ Hm = length ins
        | W_tail x h => pbuf = [] /\ Hm = length ins /\ length x = sz /\ h = idx (length ins)
        | W_copy x h k =>
            Hm = length ins /\ length x = sz /\ h = idx (length ins) /\ k <= sz /\ length ins + 2 <= Tm + nn /\
            (forall st, In st pbuf -> exists i, i < k /\ st = PS_byte (cell Hm i) (nth i x x00)) /\
            (forall i, i < k -> In (PS_byte (cell Hm i) (nth i x x00)) pbuf \/ nth (cell Hm i) data x00 = nth i x x00)
        | W_done =>
            (pbuf = [] /\ Hm = length ins) \/
            (pbuf = [PS_head (idx (S Hm))] /\ S Hm = length ins /\ forall i, i < sz -> nth (cell Hm i) data x00 = nth i (nth Hm ins []) x00)
        end;
  w_c : match cpc with
        | WC_idle => True
        | WC_look t None got => t = idx T /\ got = repeat None sz
        | WC_look t (Some h) got => t = idx T /\ T <= sn <= Hm /\ h = idx sn /\ length got = sz /\ (T < sn -> got_ok got (nth T ins []))
        | WC_take t got => t = idx T /\ T < Hm /\ length got = sz /\ got_ok got (nth T ins [])
        end }.

Definition winv (s : wstate) : Prop :=
  w_num s = num /\ w_sz s = sz /\ w_oob s = false /\
  exists ins T Hm Tm sn,
    wcore (w_data s) (w_head s) (w_tail s) (w_todo s) (w_pc s) (w_pbuf s) (w_cpc s) (w_cbuf s) ins T Hm Tm sn /\
    linked (w_trace s) ins T Hm Tm sn.

Definition ia64 := mk_ord true true.

Lemma wtrace1 s e : w_trace (mk_w (w_sz s) (w_num s) (w_data s) (w_head s) (w_tail s) (w_todo s) (w_pc s) (w_pbuf s) (w_cpc s) (w_cbuf s) (w_oob s) (e :: w_log s)) = w_trace s ++ [e].
Proof. reflexivity. Qed.

Lemma wnn : 2 <= nn.
Proof. pose proof (num_bounds num QS). unfold nn. lia. Qed.

Ltac wlink L := 
  match goal with |- Queue2_proofs.linked _ ?X _ _ _ _ _ =>
    match type of L with Queue2_proofs.linked _ (w_trace ?s) _ _ _ _ _ =>
      let l := eval cbv [w_trace w_upd_prod w_upd_cons w_log app] in X in
      let e := match l with rev (?e :: _) => e end in
      change X with (w_trace s ++ [e]) end end;
  eapply link_ev; [exact L|unfold ev_ok; cbv zeta|try (cbn; rewrite app_nil_r; reflexivity)|try (cbn; rewrite app_nil_r; reflexivity)|try lia|try (cbn; lia)|try (cbn; lia)|reflexivity].

Lemma w_prod_inv s : winv s -> winv (w_prod ia64 s).
Proof.
  intros (EN & ES & EO & ins & T & Hm & Tm & sn & C & L). unfold w_prod. pose proof wnn as NB.
  pose proof (linked_rem _ _ _ _ _ _ _ L) as LR.
  destruct (w_pc s) as [|x h|x h k|] eqn:EPC; pose proof (w_p _ _ _ _ _ _ _ _ _ _ _ _ _ C) as PC; cbn in PC.
  - destruct PC as [PB PH]. destruct (w_todo s) as [|x todo] eqn:ET.
    + split; [exact EN|]. split; [exact ES|]. split; [exact EO|]. exists ins, T, Hm, Tm, sn. rewrite EPC, ET. auto.
    + split; [exact EN|]. split; [exact ES|]. split; [exact EO|].
      exists ins, T, Hm, Tm, sn. split; [|exact L]. destruct C. inversion w_td0; subst. constructor; cbn; auto.
      rewrite PB. repeat split; auto.
  - destruct PC as (PB & PH & LX & EH). pose proof (w_ord _ _ _ _ _ _ _ _ _ _ _ _ _ C) as ORD. pose proof (w_cap _ _ _ _ _ _ _ _ _ _ _ _ _ C) as CAP.
    rewrite EN, (w_tl _ _ _ _ _ _ _ _ _ _ _ _ _ C), EH. rewrite (q_space_idx num QS) by (fold nn; lia). fold nn.
    destruct (1 <=? N.of_nat (nn - 1 - (length ins - Tm)))%N eqn:E1.
    + split; [exact EN|]. split; [exact ES|]. split; [exact EO|]. exists ins, T, Hm, Tm, sn. split.
      * destruct C. constructor; cbn; auto. rewrite PB. repeat split; auto; try lia. intros st [].
      * wlink L. destruct L. rewrite l_ins, l_fr. fold nn. lia.
    + split; [exact EN|]. split; [exact ES|]. split; [exact EO|]. exists ins, T, Hm, Tm, sn. split.
      * destruct C. constructor; cbn; auto.
      * wlink L. destruct L. rewrite l_ins, l_fr. fold nn. lia.
  - destruct PC as (PH & LX & EH & KS & CP & P1 & P2). rewrite ES, EN. destruct (Nat.ltb k sz) eqn:EK.
    + split; [exact EN|]. split; [exact ES|]. split; [exact EO|]. exists ins, T, Hm, Tm, sn. split; [|exact L].
      destruct C. constructor; cbn [w_upd_prod w_data w_head w_tail w_todo w_pc w_pbuf w_cpc w_cbuf]; auto.
      rewrite EH, q_addr_idx by (auto; lia). rewrite <- PH. repeat split; auto; try lia.
      * intros st I. apply in_app_or in I. destruct I as [I|[<-|[]]].
        -- destruct (P1 st I) as (i & Li & E). exists i. split; [lia|exact E].
        -- exists k. split; [lia|reflexivity].
      * intros i Li. destruct (Nat.eq_dec i k) as [->|]; [left; apply in_or_app; right; left; reflexivity|].
        destruct (P2 i ltac:(lia)); [left; apply in_or_app; auto|auto].
    + assert (k = sz) by lia. subst k. destruct (w_pbuf s) as [|st0 buf] eqn:PB; cbn.
      2:{ split; [exact EN|]. split; [exact ES|]. split; [exact EO|]. exists ins, T, Hm, Tm, sn. rewrite EPC, PB. auto. }
      assert (PD : forall i, i < sz -> nth (cell Hm i) (w_data s) x00 = nth i x x00).
      { intros i Li. destruct (P2 i Li) as [[]|E]; exact E. }
      pose proof (w_ord _ _ _ _ _ _ _ _ _ _ _ _ _ C) as ORD.
      split; [exact EN|]. split; [exact ES|]. split; [exact EO|]. exists (ins ++ [x]), T, Hm, Tm, sn. split.
      * destruct C. constructor; cbn [w_upd_prod w_data w_head w_tail w_todo w_pc w_pbuf w_cpc w_cbuf]; rewrite ?app_length; cbn [length]; auto; try lia.
        -- apply Forall_app. split; [assumption|]. constructor; [assumption|constructor].
        -- intros j i Hj Hi. rewrite app_nth1 by lia. auto.
        -- right. rewrite EH, q_next_idx by assumption. rewrite PH. repeat split; [lia|]. intros i Hi. rewrite app_nth2, Nat.sub_diag by lia. cbn. rewrite <- PH. auto.
        -- destruct (w_cpc s) as [|t [h'|] got|t got]; auto.
           ++ destruct w_c0 as (Q1 & Q2 & Q3 & Q4 & Q5). repeat split; auto; try lia. intro Q. rewrite app_nth1 by lia. auto.
           ++ destruct w_c0 as (Q1 & Q2 & Q3 & Q4). repeat split; auto; try lia. rewrite app_nth1 by lia. auto.
      * wlink L.
        -- destruct L. rewrite l_ins, l_fr. fold nn. lia.
        -- reflexivity.
        -- cbn [removed flat_map]. rewrite app_nil_r, firstn_app. replace (T - length ins) with 0 by lia. rewrite firstn_O, app_nil_r. reflexivity.
        -- rewrite app_length. lia.
  - destruct (w_pbuf s) as [|st0 buf] eqn:PB; cbn.
    + split; [exact EN|]. split; [exact ES|]. split; [exact EO|]. exists ins, T, Hm, Tm, sn. split; [|exact L].
      destruct C. constructor; cbn; auto. destruct PC as [PC|[PC _]]; [exact PC|discriminate].
    + split; [exact EN|]. split; [exact ES|]. split; [exact EO|]. exists ins, T, Hm, Tm, sn. rewrite EPC, PB. auto.
Qed.

Lemma w_pflush_inv s n : winv s -> winv (w_pflush s n).
Proof.
  intros (EN & ES & EO & ins & T & Hm & Tm & sn & C & L). unfold w_pflush. pose proof wnn as NB.
  destruct (nth_error (w_pbuf s) n) as [st|] eqn:NE; [|split; [exact EN|]; split; [exact ES|]; split; [exact EO|]; exists ins, T, Hm, Tm, sn; auto].
  pose proof (w_ord _ _ _ _ _ _ _ _ _ _ _ _ _ C) as ORD. pose proof (w_cap _ _ _ _ _ _ _ _ _ _ _ _ _ C) as CAP.
  pose proof (w_p _ _ _ _ _ _ _ _ _ _ _ _ _ C) as PC.
  destruct (w_pc s) as [|x h|x h k|] eqn:EPC; cbn in PC.
  - destruct PC as [PB _]. rewrite PB in NE. destruct n; discriminate.
  - destruct PC as [PB _]. rewrite PB in NE. destruct n; discriminate.
  - destruct PC as (PH & LX & EH & KS & CP & P1 & P2). destruct (P1 st (nth_error_In _ _ NE)) as (i0 & L0 & ->).
    split; [exact EN|]. split; [exact ES|]. split.
    { cbn. rewrite EO. cbn. rewrite (w_len _ _ _ _ _ _ _ _ _ _ _ _ _ C). apply Nat.leb_gt. apply (cell_lt num QS sz FIT). lia. }
    exists ins, T, Hm, Tm, sn. split; [|exact L].
    destruct C. constructor; cbn [w_data w_head w_tail w_todo w_pc w_pbuf w_cpc w_cbuf]; auto.
    + rewrite put_byte_length. assumption.
    + intros j i Hj Hi. rewrite nth_put_other; [auto|]. intro Q. apply (cell_inj num sz FIT) in Q; auto; [|lia]. destruct Q as [Q _].
      assert (NN : idx j <> idx Hm) by (apply (idx_ne num QS sz FIT); fold nn; lia). congruence.
    + repeat split; auto.
      * intros st I. apply P1. eapply drop_nth_in; eauto.
      * intros i Li. destruct (Nat.eq_dec i i0) as [->|NI].
        -- right. apply nth_put_same. rewrite w_len0. apply (cell_lt num QS sz FIT). lia.
        -- destruct (P2 i Li) as [I|E].
           ++ destruct (drop_nth_keep _ _ _ _ NE I) as [E|I']; [|auto]. exfalso. injection E as E1 _.
              apply (cell_inj num sz FIT) in E1; try lia.
           ++ right. rewrite nth_put_other; [exact E|]. intro Q. apply (cell_inj num sz FIT) in Q; lia.
  - destruct PC as [[PB _]|(PB & PH & PD)]; rewrite PB in NE; [destruct n; discriminate|].
    destruct n as [|n]; [|destruct n; discriminate]. injection NE as <-.
    split; [exact EN|]. split; [exact ES|]. split; [exact EO|]. exists ins, T, (S Hm), Tm, sn. split.
    + destruct C. constructor; cbn [w_data w_head w_tail w_todo w_pc w_pbuf w_cpc w_cbuf]; auto; try lia.
      * intros j i Hj Hi. destruct (Nat.eq_dec j Hm) as [->|]; [auto|apply w_dt0; lia].
      * left. rewrite PB. split; [reflexivity|assumption].
      * destruct (w_cpc s) as [|t [h'|] got|t got]; auto.
        -- destruct w_c0 as (Q1 & Q2 & Q3 & Q4 & Q5). repeat split; auto; lia.
        -- destruct w_c0 as (Q1 & Q2 & Q3 & Q4). repeat split; auto; lia.
    + wlink L. destruct L. rewrite l_ins, l_pub. lia.
Qed.

Lemma w_chead_inv s : winv s -> winv (w_chead s).
Proof.
  intros (EN & ES & EO & ins & T & Hm & Tm & sn & C & L). unfold w_chead.
  pose proof (w_ord _ _ _ _ _ _ _ _ _ _ _ _ _ C) as ORD. pose proof (w_c _ _ _ _ _ _ _ _ _ _ _ _ _ C) as CC.
  assert (SAME : winv s) by (split; [exact EN|]; split; [exact ES|]; split; [exact EO|]; exists ins, T, Hm, Tm, sn; auto).
  destruct (w_cpc s) as [|t [h|] got|t got] eqn:EPC; try exact SAME. destruct CC as [Q1 Q2].
  split; [exact EN|]. split; [exact ES|]. split; [cbn; rewrite EO; reflexivity|]. exists ins, T, Hm, Tm, Hm. split.
  - destruct C. constructor; cbn; auto. repeat split; auto; try lia.
    + rewrite Q2. apply repeat_length.
    + intros _ k b E. exfalso. rewrite Q2 in E. apply nth_error_In, repeat_spec in E. discriminate.
  - wlink L. exact I.
Qed.

Lemma w_cdata_inv s k : winv s -> winv (w_cdata ia64 s k).
Proof.
  intros (EN & ES & EO & ins & T & Hm & Tm & sn & C & L). unfold w_cdata.
  pose proof (w_ord _ _ _ _ _ _ _ _ _ _ _ _ _ C) as ORD. pose proof (w_c _ _ _ _ _ _ _ _ _ _ _ _ _ C) as CC.
  assert (SAME : winv s) by (split; [exact EN|]; split; [exact ES|]; split; [exact EO|]; exists ins, T, Hm, Tm, sn; auto).
  rewrite ES. destruct (Nat.ltb k sz) eqn:EK; cbn [negb]; [|exact SAME].
  assert (OOB : Nat.leb (length (w_data s)) (q_addr (idx T) (N.of_nat sz) k) = false).
  { rewrite (w_len _ _ _ _ _ _ _ _ _ _ _ _ _ C). apply Nat.leb_gt. rewrite q_addr_idx by (auto; lia). apply (cell_lt num QS sz FIT). lia. }
  destruct (w_cpc s) as [|t [h|] got|t got] eqn:EPC; try exact SAME.
  - destruct (nth k got None); [exact SAME|]. destruct CC as (-> & Q2 & Q3 & Q4 & Q5). unfold w_load. rewrite ES.
    split; [exact EN|]. split; [exact ES|]. split; [cbn -[Nat.leb]; rewrite EO, OOB; reflexivity|]. exists ins, T, Hm, Tm, sn. split; [|exact L].
    destruct C. constructor; cbn [w_upd_cons w_data w_head w_tail w_todo w_pc w_pbuf w_cpc w_cbuf]; auto. repeat split; auto; try lia.
    + rewrite set_nth_length. assumption.
    + intros Q j b E. apply set_nth_error in E. destruct E as [[-> E]|E]; [|apply Q5; auto]. injection E as ->.
      rewrite q_addr_idx by (auto; lia). apply w_dt0; lia.
  - destruct (nth k got None); [exact SAME|]. destruct CC as (-> & Q2 & Q3 & Q4). unfold w_load. rewrite ES.
    split; [exact EN|]. split; [exact ES|]. split; [cbn -[Nat.leb]; rewrite EO, OOB; reflexivity|]. exists ins, T, Hm, Tm, sn. split; [|exact L].
    destruct C. constructor; cbn [w_upd_cons w_data w_head w_tail w_todo w_pc w_pbuf w_cpc w_cbuf]; auto. repeat split; auto; try lia.
    + rewrite set_nth_length. assumption.
    + intros j b E. apply set_nth_error in E. destruct E as [[-> E]|E]; [|apply Q4; auto]. injection E as ->.
      rewrite q_addr_idx by (auto; lia). apply w_dt0; lia.
Qed.

Lemma w_cons_inv s : winv s -> winv (w_cons s).
Proof.
  intros (EN & ES & EO & ins & T & Hm & Tm & sn & C & L). unfold w_cons.
  pose proof (w_ord _ _ _ _ _ _ _ _ _ _ _ _ _ C) as ORD. pose proof (w_c _ _ _ _ _ _ _ _ _ _ _ _ _ C) as CC. pose proof (w_cb _ _ _ _ _ _ _ _ _ _ _ _ _ C) as CB.
  pose proof (w_cap _ _ _ _ _ _ _ _ _ _ _ _ _ C) as CAP. pose proof (linked_rem _ _ _ _ _ _ _ L) as LR.
  assert (SAME : winv s) by (split; [exact EN|]; split; [exact ES|]; split; [exact EO|]; exists ins, T, Hm, Tm, sn; auto).
  destruct (w_cpc s) as [|t [h|] got|t got] eqn:EPC; try exact SAME.
  - split; [exact EN|]. split; [exact ES|]. split; [cbn; rewrite EO; reflexivity|]. exists ins, T, Hm, Tm, sn. split; [|exact L].
    assert (LT : last_tail (w_cbuf s) (w_tail s) = idx T).
    { rewrite (w_tl _ _ _ _ _ _ _ _ _ _ _ _ _ C). destruct CB as [[-> ->]|[-> _]]; reflexivity. }
    destruct C. constructor; cbn; auto.
  - destruct CC as (-> & Q2 & -> & Q4 & Q5). rewrite EN, (q_count_idx num QS) by (fold nn; lia).
    destruct (1 <=? N.of_nat (sn - T))%N eqn:E1.
    + split; [exact EN|]. split; [exact ES|]. split; [cbn; rewrite EO; reflexivity|]. exists ins, T, Hm, Tm, sn. split.
      * destruct C. constructor; cbn; auto. repeat split; auto; try lia. apply Q5. lia.
      * wlink L. destruct L. rewrite l_sn, LR. lia.
    + split; [exact EN|]. split; [exact ES|]. split; [cbn; rewrite EO; reflexivity|]. exists ins, T, Hm, Tm, sn. split.
      * destruct C. constructor; cbn; auto.
      * wlink L. destruct L. rewrite l_sn, LR. lia.
  - destruct (all_some got) as [x|] eqn:AS; [|exact SAME]. destruct CC as (-> & Q2 & Q3 & Q4).
    destruct CB as [[CB1 CB2]|[CB1 CB2]]; rewrite CB1; [|exact SAME].
    assert (LX : length (nth T ins []) = sz).
    { pose proof (w_szs _ _ _ _ _ _ _ _ _ _ _ _ _ C) as F. rewrite Forall_forall in F. apply F. apply nth_In. lia. }
    assert (EX : x = nth T ins []).
    { pose proof (all_some_length _ _ AS) as LL. apply (nth_ext _ _ x00 x00); [lia|]. intros k Lk.
      apply Q4. eapply all_some_nth; eauto. apply nth_error_nth'. exact Lk. }
    split; [exact EN|]. split; [exact ES|]. split; [cbn; rewrite EO; reflexivity|]. exists ins, (S T), Hm, Tm, sn. split.
    + destruct C. constructor; cbn; auto; try lia.
      * right. rewrite EN, q_next_idx by assumption. split; [reflexivity|lia].
      * intros j i Hj Hi. apply w_dt0; lia.
    + wlink L.
      * destruct L. rewrite LR, l_pub, l_ins. split; [lia|]. rewrite EX. apply nth_error_nth'. lia.
      * cbn. rewrite EX.
        assert (FS : forall (l : list bytes) m, m < length l -> firstn m l ++ [nth m l []] = firstn (S m) l).
        { clear. induction l; intros [|m] H; cbn in *; try lia; auto. f_equal. apply IHl. lia. }
        apply FS. lia.
Qed.

Lemma w_cflush_inv s : winv s -> winv (w_cflush s).
Proof.
  intros (EN & ES & EO & ins & T & Hm & Tm & sn & C & L). unfold w_cflush.
  pose proof (linked_rem _ _ _ _ _ _ _ L) as LR.
  destruct (w_cb _ _ _ _ _ _ _ _ _ _ _ _ _ C) as [[CB1 CB2]|[CB1 CB2]]; rewrite CB1.
  { split; [exact EN|]; split; [exact ES|]; split; [exact EO|]; exists ins, T, Hm, Tm, sn; auto. }
  split; [exact EN|]. split; [exact ES|]. split; [exact EO|]. exists ins, T, Hm, (S Tm), sn. split.
  - destruct C. constructor; cbn; auto; try lia; try congruence.
    destruct (w_pc s); auto. intuition lia.
  - destruct C. wlink L. destruct L. rewrite LR, l_fr. lia.
Qed.

Lemma w_step_inv s a : winv s -> winv (w_step ia64 s a).
Proof.
  intro I. destruct a; cbn [w_step]; [apply w_prod_inv|apply w_pflush_inv|apply w_cons_inv|apply w_chead_inv|apply w_cdata_inv|apply w_cflush_inv]; exact I.
Qed.
Lemma w_run_inv sch : forall s, winv s -> winv (w_run ia64 s sch).
Proof. induction sch; intros s I; cbn; [exact I|]. apply IHsch, w_step_inv, I. Qed.

Lemma w_init_inv todo : Forall (fun x => length x = sz) todo -> winv (w_init num sz todo).
Proof.
  intro F. pose proof wnn. split; [reflexivity|]. split; [reflexivity|]. split; [reflexivity|].
  exists [], 0, 0, 0, 0. split.
  - assert (idx 0 = 0%N) as Z by (apply N.mod_0_l; pose proof (num_bounds num QS); lia).
    constructor; cbn; auto; try lia. rewrite repeat_length. reflexivity.
  - constructor; try reflexivity. intros l1 e l2 E. destruct l1; discriminate.
Qed.
End Weak.

(** What was inserted comes from the list given, in order. *)
Definition wpc_item (pc : wpc) : list bytes := match pc with W_tail x _ | W_copy x _ _ => [x] | _ => [] end.
Definition w_from (todo : list bytes) (s : wstate) : Prop := subseq (inserted (w_trace s) ++ wpc_item (w_pc s) ++ w_todo s) todo.

Lemma w_from_step o todo s a : w_from todo s -> w_from todo (w_step o s a).
Proof.
  unfold w_from. intro S.
  assert (LG : forall s' e, w_log s' = e :: w_log s -> inserted (w_trace s') = inserted (w_trace s) ++ inserted [e]).
  { intros s' e E. unfold w_trace. rewrite E. apply inserted_app. }
  destruct a as [|n| | |k|]; cbn [w_step].
  - unfold w_prod. destruct (w_pc s) as [|x h|x h k|] eqn:PC.
    + destruct (w_todo s) as [|x r] eqn:TD; [rewrite PC, TD; exact S|exact S].
    + cbv zeta. destruct (1 <=? _)%N; cbn [w_upd_prod w_pc w_todo wpc_item app] in *;  erewrite LG by reflexivity; cbn [inserted flat_map]; rewrite app_nil_r.
      * exact S.
      * apply subseq_drop in S. exact S.
    + destruct (Nat.ltb k (w_sz s)); [exact S|].
      assert (G : subseq ((inserted (w_trace s) ++ [x]) ++ w_todo s) todo) by (rewrite <- app_assoc; exact S).
      destruct (w_pbuf s); [|destruct (o_wmb o); [rewrite PC; exact S|]]; erewrite LG by reflexivity; exact G.
    + destruct (w_pbuf s); [exact S|]. destruct (o_wmb o); [rewrite PC; exact S|exact S].
  - unfold w_pflush. destruct (nth_error (w_pbuf s) n) as [[a b|h]|]; [exact S| |exact S].
    erewrite LG by reflexivity; cbn [inserted flat_map]; rewrite app_nil_r; exact S.
  - unfold w_cons. destruct (w_cpc s) as [|t [h|] got|t got]; try exact S.
    + cbv zeta. destruct (1 <=? _)%N; erewrite LG by reflexivity; cbn [inserted flat_map]; rewrite app_nil_r; exact S.
    + destruct (all_some got); [|exact S]. destruct (w_cbuf s); [|exact S].
      erewrite LG by reflexivity; cbn [inserted flat_map]; rewrite app_nil_r; exact S.
  - unfold w_chead. destruct (w_cpc s) as [|t [h|] got|t got]; try exact S.
    erewrite LG by reflexivity; cbn [inserted flat_map]; rewrite app_nil_r; exact S.
  - unfold w_cdata. destruct (negb _); [exact S|]. destruct (w_cpc s) as [|t [h|] got|t got]; try exact S.
    + destruct (nth k got None); exact S.
    + destruct (o_acq o); exact S.
    + destruct (nth k got None); exact S.
  - unfold w_cflush. destruct (w_cbuf s); [exact S|].
    erewrite LG by reflexivity; cbn [inserted flat_map]; rewrite app_nil_r; exact S.
Qed.
Lemma w_from_run o todo sch : forall s, w_from todo s -> w_from todo (w_run o s sch).
Proof. induction sch; intros s I; cbn; [exact I|]. apply IHsch, w_from_step, I. Qed.

Section WeakFifo.
Variables (num : N) (sz : nat) (todo : list bytes).
Hypothesis INIT : queue_init_ok num = true.
Hypothesis R32 : (num < 2 ^ 32)%N.
Hypothesis FIT : (num * N.of_nat sz <= 2 ^ 32)%N.
Hypothesis TODO : Forall (fun x => length x = sz) todo.
Variable sch : list wact.
Let s := w_run ia64 (w_init num sz todo) sch.

Lemma ws_inv : winv num sz s.
Proof.
  pose proof (proj1 (queue_init_spec num R32) INIT) as QS. apply w_run_inv; [exact QS|exact FIT|]. apply w_init_inv; auto.
Qed.

Lemma weak_fifo : (exists rest, inserted (w_trace s) = removed (w_trace s) ++ rest) /\ subseq (inserted (w_trace s)) todo /\ w_oob s = false.
Proof.
  destruct ws_inv as (_ & _ & EO & ins & T & Hm & Tm & sn & C & L). split; [|split; [|exact EO]].
  - destruct L. rewrite l_ins, l_rem. exists (skipn T ins). symmetry. apply firstn_skipn.
  - assert (F : w_from todo s) by (apply w_from_run; apply subseq_refl). eapply subseq_prefix. exact F.
Qed.

Lemma weak_answers :
  length (inserted (w_trace s)) <= length (removed (w_trace s)) + (N.to_nat num - 1) /\ trace_ok num (w_trace s).
Proof.
  destruct ws_inv as (_ & _ & EO & ins & T & Hm & Tm & sn & C & L). destruct C, L. split; [|exact l_ok].
  rewrite l_rem, l_ins, firstn_length. lia.
Qed.

Lemma weak_drained l1 c l2 : w_trace s = l1 ++ E_empty c :: l2 -> seen l1 = length (inserted l1) -> removed l1 = inserted l1.
Proof.
  intros E S. destruct weak_answers as [_ T].
  assert (EV : ev_ok num l1 (E_empty c)) by (eapply T; exact E). destruct EV as [_ EV].
  assert (P : exists rest, inserted l1 = removed l1 ++ rest).
  { clear S EV. assert (T1 : forall a e b, l1 = a ++ e :: b -> ev_ok num a e).
    { intros a e b X. apply (T a e (b ++ E_empty c :: l2)). rewrite E, X, <- app_assoc. reflexivity. }
    clear E T. induction l1 as [|e l IH] using rev_ind; [exists []; reflexivity|].
    destruct IH as (rest & R); [intros a f b X; apply (T1 a f (b ++ [e])); rewrite X, <- app_assoc; reflexivity|].
    specialize (T1 l e [] eq_refl). rewrite inserted_app, removed_app, R.
    destruct e; cbn [inserted removed flat_map]; rewrite ?app_nil_r; try (exists rest; reflexivity).
    - exists (rest ++ [x]). rewrite <- app_assoc. reflexivity.
    - destruct T1 as [_ T1]. rewrite R, nth_error_app2, Nat.sub_diag in T1 by lia. destruct rest as [|y rest]; [discriminate|]. cbn in T1. injection T1 as ->.
      exists rest. rewrite <- app_assoc. reflexivity. }
  destruct P as (rest & P). rewrite P in *. rewrite app_length in S. destruct rest; [rewrite app_nil_r; reflexivity|cbn in S; lia].
Qed.
End WeakFifo.

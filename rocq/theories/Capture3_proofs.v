(** Proofs about the model of fstrm_capture: the read loop and whole runs. *)
From Coq Require Import ZArith Lia.
From Verif Require Import Bytes Spec SpecTrace SpecStream Control Bytes_proofs Control_proofs Capture SpecCapture
  Capture_proofs Capture2_proofs.
Import ListNotations.
Local Open Scope N_scope.

Lemma wire_cons f fs : wire (f :: fs) = wire1 f ++ wire fs.
Proof. reflexivity. Qed.

(** How far a run of the loop gets. *)
Definition loop_post (a : args) (id : nat) (k : conn) (c : ctx) (pend : bytes)
    (r : option conn) (c' : ctx) : Prop :=
  let hw := capture_highwater a in
  exists c0 acts, same_conns c c0 /\ files_open a c0 /\ x_log c0 = x_log c ++ map (pair id) acts /\
  match r with
  | Some k' => c' = c0 /\ exists pend' fs, at_ hw k' pend' /\ settled hw k' pend' /\
      lenN (k_buf k') <= lenN (k_buf k) /\ Forall frame_ok fs /\ pend = wire fs ++ pend' /\
      forall more a2 q, reacts hw (a_ctype a) (phase_of (k_state k')) (pend' ++ more) a2 q ->
        reacts hw (a_ctype a) (phase_of (k_state k)) (pend ++ more) (acts ++ a2) q
  | None => c' = cb_close_conn id c0 /\
      forall more, reacts hw (a_ctype a) (phase_of (k_state k)) (pend ++ more) acts None
  end.

Lemma read_loop_spec e a id : sends e -> forall fuel k c pend,
  (length (k_buf k) < fuel)%nat -> files_open a c ->
  at_ (capture_highwater a) k pend -> tame pend -> lenN (k_buf k) <= capture_highwater a ->
  (k_skip k = 0 \/ incomplete pend \/ 0 < lenN (k_buf k)) ->
  (exists c', read_loop e a fuel id k c = Exit c') \/
  (exists r c', read_loop e a fuel id k c = Go (r, c') /\ loop_post a id k c pend r c').
Proof.
  intros S. induction fuel as [|fuel IH]; intros k c pend Hfu Hf Hat Ht Hb Hx; [lia|].
  set (hw := capture_highwater a) in *. cbn [read_loop].
  destruct (lenN (k_buf k) =? 0) eqn:E0.
  { (* nothing left *)
    apply N.eqb_eq in E0. pose proof (lenN_0 _ E0) as B0.
    right. exists (Some k), c. split; [reflexivity|]. exists c, []. split; [apply same_conns_refl|]. split; [assumption|].
    split; [cbn; now rewrite app_nil_r|]. split; [reflexivity|]. exists pend, []. split; [assumption|].
    assert (ST : settled hw k pend).
    { destruct Hat as [[Hs <-]|(gone & T & Hp & HT & HH & HL & Hs)].
      - rewrite B0. split; [|split; [intros _; exact I|auto]]. apply incomplete_iff. split; [|exact I].
        intro B. apply bad_header_inv in B. rewrite lenN_nil in B. lia.
      - split; [|split; [lia|auto]]. destruct Hx as [Hx|[Hx|Hx]]; [lia|assumption|lia]. }
    split; [assumption|]. split; [lia|]. split; [constructor|]. split; [reflexivity|]. intros more a2 q R. exact R. }
  assert (Hlen : 0 < lenN (k_buf k)) by lia.
  destruct (k_skip k =? 0) eqn:Es.
  - (* a frame starts here *)
    apply N.eqb_eq in Es. destruct Hat as [[_ Hp]|(gone & T & _ & _ & _ & _ & Hs)]; [|lia]. subst pend.
    pose proof (can_read_spec a k Ht Es Hlen) as CR.
    destruct (can_read_full_frame a k) as [|k1|k1].
    + right. exists None, (cb_close_conn id (note c id Hangup)). split; [reflexivity|].
      exists (note c id Hangup), [Hangup]. split; [repeat split|]. split.
      { destruct Hf as (F1 & F2 & fss & cur & F3 & F4). split; [assumption|]. split; [assumption|].
        exists fss, cur. split; [exact F3|]. cbn [x_log note]. rewrite stored_snoc, app_nil_r. exact F4. }
      split; [reflexivity|]. split; [reflexivity|]. intros more. apply re_badlen. now apply bad_header_app.
    + destruct CR as (C1 & C2 & C3 & C4 & C5). right. exists (Some k1), c. split; [reflexivity|].
      exists c, []. split; [apply same_conns_refl|]. split; [assumption|].
      split; [cbn; now rewrite app_nil_r|]. split; [reflexivity|]. exists (k_buf k), [].
      split; [assumption|]. split; [assumption|]. split; [rewrite C1; lia|]. split; [constructor|].
      split; [reflexivity|]. intros more a2 q R. rewrite C2 in R. exact R.
    + destruct CR as (C1 & C2 & C3 & C4 & f & more & K & B & L & Hp).
      assert (Lw : 4 <= lenN (wire1 f)).
      { destruct f; cbn [wire1]; [rewrite lenN_data_frame; lia|]. rewrite !lenN_app, !lenN_be32. lia. }
      assert (Hm : lenN (k_buf k) = lenN (wire1 f) + lenN more) by (rewrite B; apply lenN_app).
      assert (Htm : tame more) by (rewrite B in Ht; eapply tame_frame; eassumption).
      destruct f as [p|p].
      * (* data *)
        replace (0 <? k_payload k1) with true by lia.
        destruct (process_data_frame e id k1 c) as [[k2 c1]|c1| |f0] eqn:PD.
        2:{ left. exists c1. reflexivity. }
        2:{ unfold process_data_frame in PD. destruct (fwrite e _ c) as [[|] ?]; discriminate. }
        2:{ unfold process_data_frame in PD. destruct (fwrite e _ c) as [[|] ?]; discriminate. }
        cbn [rbind]. destruct (process_data_inv _ a _ _ _ _ _ Hf PD) as (P1 & P2 & P3 & P4).
        assert (Bf : firstn (N.to_nat (k_total k1)) (k_buf k1) = data_frame p).
        { rewrite C1, B, L, lenN_length. apply firstn_app_exact. reflexivity. }
        rewrite Bf in P2.
        destruct (maybe_rotate_defined e a c1) as [[c2 MR]|[c2 MR]]; rewrite MR; cbn [rbind].
        2:{ left. eauto. }
        destruct (maybe_rotate_inv _ _ _ _ P3 MR) as (M1 & M2 & M3).
        assert (Bk : k_buf k2 = more).
        { rewrite P4. unfold drain. cbn [k_buf]. rewrite C1, B, L, lenN_length. apply skipn_app_exact. reflexivity. }
        assert (Sk : k_skip k2 = 0) by (rewrite P4; exact C4).
        assert (St : k_state k2 = k_state k) by (rewrite P4; exact C2).
        specialize (IH k2 c2 more). fold hw in IH. rewrite Bk in IH.
        destruct IH as [(c' & R)|(r & c' & R & c0 & acts & Q1 & Q2 & Q3 & Q4)].
        { unfold lenN in *; lia. } { assumption. } { left; auto. } { assumption. } { lia. } { auto. }
        { left. exists c'. exact R. }
        right. exists r, c'. split; [exact R|]. exists c0, (Store (data_frame p) :: acts).
        split; [eapply same_conns_trans; [exact P1|]; eapply same_conns_trans; eassumption|].
        split; [assumption|]. split; [rewrite Q3, M2, P2; cbn [map]; now rewrite <- app_assoc|].
        assert (Lhw : lenN (data_frame p) <= hw) by (cbn [wire1] in *; lia).
        rewrite St in Q4. destruct r as [k'|].
        -- destruct Q4 as (-> & pend' & fs & Q5 & Q6 & Q7 & Q8 & Q9 & Q10). split; [reflexivity|].
           exists pend', (F_data p :: fs). split; [assumption|]. split; [assumption|]. split; [rewrite Bk in Q7; lia|].
           split; [constructor; assumption|]. split; [rewrite wire_cons, <- app_assoc, <- Q9; exact B|].
           intros more' a2 q R'. rewrite B. cbn [wire1 app]. rewrite <- app_assoc.
           apply re_data; [exact K|exact Lhw|]. apply Q10. exact R'.
        -- destruct Q4 as (-> & Q5). split; [reflexivity|]. intros more'. rewrite B. cbn [wire1]. rewrite <- app_assoc.
           apply re_data; [exact K|exact Lhw|]. apply Q5.
      * (* control *)
        replace (0 <? k_payload k1) with false by lia.
        destruct (load_control_frame_spec k1 p more K ltac:(rewrite C1; exact B) L) as (ok & k2 & LC & LT & LF).
        rewrite LC.
        assert (Lhw : lenN (wire1 (F_ctl p)) <= hw) by lia.
        assert (Hang : forall c1, c1 = c ->
          (lenN (wire1 (F_ctl p)) < 512 -> ~ exists x ph', advance (a_ctype a) (phase_of (k_state k)) p x ph') ->
          loop_post a id k c (k_buf k) None (cb_close_conn id (note c1 id Hangup))).
        { intros c1 -> Hno. exists (note c id Hangup), [Hangup]. split; [repeat split|]. split.
          { destruct Hf as (F1 & F2 & fss & cur & F3 & F4). split; [assumption|]. split; [assumption|].
            exists fss, cur. split; [exact F3|]. cbn [x_log note]. rewrite stored_snoc, app_nil_r. exact F4. }
          split; [reflexivity|]. split; [reflexivity|]. intros more'. rewrite B, <- app_assoc. apply re_refuse; assumption. }
        destruct ok.
        2:{ right. eexists None, _. split; [reflexivity|]. apply Hang; [reflexivity|].
            intros L5 (x & ph' & A). apply (LF eq_refl); [lia|].
            destruct (k_state k); cbn [phase_of] in A; apply advance_inv in A.
            - destruct A as (cts & A1 & _ & A2 & _). eauto.
            - destruct A as (cts & A1 & _ & A2 & _). eauto.
            - destruct A as (A2 & _). exists T_STOP, []. split; [|exact A2].
              split; [unfold known_type; auto|constructor| |discriminate|reflexivity]. vm_compute. discriminate.
            - contradiction. }
        destruct (LT eq_refl) as (L5 & t & cts & K' & Ep & Ek). clear LT LF.
        destruct (process_control_frame_spec e a id k2 c t cts S (proj1 Hf)) as (ok & k3 & c1 & PC & PT & PF).
        { rewrite Ek. reflexivity. } { assumption. }
        rewrite PC. cbn [rbind].
        assert (St2 : k_state k2 = k_state k) by (rewrite Ek; exact C2).
        rewrite St2, <- Ep in PT, PF.
        destruct ok.
        2:{ destruct (PF eq_refl) as (-> & Hno). right. eexists None, _. split; [reflexivity|].
            apply Hang; [reflexivity|]. intros _. exact Hno. }
        destruct (PT eq_refl) as (x & A & B3 & S3 & Hc1). clear PT PF.
        assert (Bk : k_buf k3 = more) by (rewrite B3, Ek; reflexivity).
        assert (Sk : k_skip k3 = 0) by (rewrite S3, Ek; exact C4).
        assert (Hc : same_conns c c1 /\ files_open a c1 /\ x_log c1 = x_log c ++ map (pair id) x).
        { destruct Hc1 as [(-> & ->)|(b & -> & ->)].
          - split; [apply same_conns_refl|]. split; [assumption|]. cbn. now rewrite app_nil_r.
          - split; [repeat split|]. split; [|reflexivity].
            destruct Hf as (F1 & F2 & fss & cur & F3 & F4). split; [assumption|]. split; [assumption|].
            exists fss, cur. split; [exact F3|]. cbn [x_log note tick]. rewrite stored_snoc, app_nil_r. exact F4. }
        destruct Hc as (D1 & D2 & D3).
        specialize (IH k3 c1 more). fold hw in IH. rewrite Bk in IH.
        destruct IH as [(c' & R)|(r & c' & R & c0 & acts & Q1 & Q2 & Q3 & Q4)].
        { unfold lenN in *; lia. } { assumption. } { left; auto. } { assumption. } { lia. } { auto. }
        { left. exists c'. exact R. }
        right. exists r, c'. split; [exact R|]. exists c0, (x ++ acts).
        split; [eapply same_conns_trans; eassumption|].
        split; [assumption|]. split; [rewrite Q3, D3, map_app; now rewrite app_assoc|].
        destruct r as [k'|].
        -- destruct Q4 as (-> & pend' & fs & Q5 & Q6 & Q7 & Q8 & Q9 & Q10). split; [reflexivity|].
           exists pend', (F_ctl p :: fs). split; [assumption|]. split; [assumption|]. split; [rewrite Bk in Q7; lia|].
           split; [constructor; assumption|]. split; [rewrite wire_cons, <- app_assoc, <- Q9; exact B|].
           intros more' a2 q R'. rewrite B, <- !app_assoc.
           eapply re_ctl; [exact K|exact Lhw|lia|exact A|]. apply Q10. exact R'.
        -- destruct Q4 as (-> & Q5). split; [reflexivity|]. intros more'. rewrite B, <- app_assoc.
           eapply re_ctl; [exact K|exact Lhw|lia|exact A|]. apply Q5.
  - (* skipping *)
    destruct Hat as [[Hs _]|(gone & T & Hp & HT & HH & HL & Hs)]; [lia|].
    set (skip := N.min (k_skip k) (lenN (k_buf k))).
    set (k1 := set_sizes (drain k skip) (k_payload k) (k_total k) (k_skip k - skip)).
    assert (Hsk : 0 < skip) by (unfold skip; lia).
    assert (Bk : k_buf k1 = skipn (N.to_nat skip) (k_buf k)) by reflexivity.
    assert (Lk : lenN (k_buf k1) = lenN (k_buf k) - skip) by (rewrite Bk, lenN_skipn; lia).
    assert (Lp : lenN pend = lenN gone + lenN (k_buf k)) by (rewrite Hp; apply lenN_app).
    destruct (N.le_gt_cases (k_skip k) (lenN (k_buf k))) as [G|G].
    + (* the whole frame has gone by *)
      assert (Esk : skip = k_skip k) by (unfold skip; lia).
      destruct (total_of_split pend T HT) as (f & more & K & B & L & _); [lia|].
      assert (Em : k_buf k1 = more).
      { rewrite Bk, Esk. rewrite Hp in B. rewrite <- (firstn_skipn (N.to_nat (k_skip k)) (k_buf k)) in B.
        rewrite app_assoc in B. apply app_eq_len in B as [_ B]; [exact B|].
        rewrite app_length, firstn_length. unfold lenN in *. lia. }
      assert (Htm : tame more) by (rewrite B in Ht; eapply tame_frame; eassumption).
      specialize (IH k1 c more). fold hw in IH. rewrite Em in IH.
      destruct IH as [(c' & R)|(r & c' & R & c0 & acts & Q1 & Q2 & Q3 & Q4)].
      { unfold lenN in *. rewrite Em in Lk. lia. } { assumption. }
      { left. split; [|exact Em]. unfold k1. cbn [k_skip set_sizes]. lia. }
      { assumption. } { rewrite <- Em. lia. } { left. unfold k1. cbn [k_skip set_sizes]. lia. }
      { left. exists c'. exact R. }
      right. exists r, c'. split; [exact R|]. exists c0, acts. split; [assumption|]. split; [assumption|].
      split; [assumption|]. destruct r as [k'|].
      * destruct Q4 as (-> & pend' & fs & Q5 & Q6 & Q7 & Q8 & Q9 & Q10). split; [reflexivity|].
        exists pend', (f :: fs). split; [assumption|]. split; [assumption|]. split; [lia|].
        split; [constructor; assumption|]. split; [rewrite wire_cons, <- app_assoc, <- Q9; exact B|].
        intros more' a2 q R'. rewrite B, <- app_assoc. apply re_skip; [assumption|lia|]. apply Q10. exact R'.
      * destruct Q4 as (-> & Q5). split; [reflexivity|]. intros more'. rewrite B, <- app_assoc.
        apply re_skip; [assumption|lia|]. apply Q5.
    + (* still in the middle of it *)
      assert (Esk : skip = lenN (k_buf k)) by (unfold skip; lia).
      assert (Em : k_buf k1 = []) by (apply lenN_0; lia).
      specialize (IH k1 c pend). fold hw in IH.
      assert (I : incomplete pend).
      { apply incomplete_iff. rewrite HT. split; [|lia]. intro Bd. apply bad_header_total in Bd. congruence. }
      destruct IH as [(c' & R)|(r & c' & R & c0 & acts & Q1 & Q2 & Q3 & Q4)].
      { rewrite Em. cbn [length]. unfold lenN in *. lia. } { assumption. }
      { right. exists pend, T. rewrite Em, app_nil_r. unfold k1. cbn [k_skip set_sizes].
        split; [reflexivity|]. split; [assumption|]. split; [assumption|]. lia. }
      { assumption. } { rewrite Em, lenN_nil. lia. } { auto. }
      { left. exists c'. exact R. }
      right. exists r, c'. split; [exact R|]. exists c0, acts. split; [assumption|]. split; [assumption|].
      split; [assumption|]. destruct r as [k'|]; [|assumption].
      destruct Q4 as (-> & pend' & fs & Q5 & Q6 & Q7 & Q8). split; [reflexivity|].
      exists pend', fs. split; [assumption|]. split; [assumption|]. split; [lia|assumption].
Qed.

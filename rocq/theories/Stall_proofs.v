(** Proofs about the model of fstrm_capture: when a connection can no longer be
    read. *)
From Coq Require Import ZArith Lia.
From Verif Require Import Bytes Spec SpecTrace SpecStream Control Bytes_proofs Control_proofs Capture SpecCapture SpecStall
  Capture_proofs Capture2_proofs Capture3_proofs Capture4_proofs Capture5_proofs.
Import ListNotations.
Local Open Scope N_scope.

(** ** Headers *)
Lemma sized_total bs : incomplete bs -> (sized bs <-> exists T, total_of bs = Some T).
Proof.
  intros I0. pose proof (proj2 I0) as I. unfold sized, total_of. cbv zeta.
  destruct (lenN bs <? 4) eqn:E4.
  { split; [intros [A _]; lia|intros (T & A); discriminate]. }
  assert (V : be_value (firstn 4 bs) = ntohl_bytes bs).
  { rewrite <- ntohl_be_value by (rewrite firstn_length; unfold lenN in E4; lia).
    rewrite <- (firstn_skipn 4 bs) at 2. rewrite ntohl_app; [reflexivity|]. rewrite lenN_firstn. lia. }
  rewrite V. destruct (ntohl_bytes bs =? 0) eqn:E0.
  - destruct (lenN bs <? 8) eqn:E8.
    + split; [intros [_ A]; lia|intros (T & A); discriminate].
    + destruct ((ntohl_bytes (skipn 4 bs) <? 4) || (512 <? ntohl_bytes (skipn 4 bs))) eqn:EB.
      * exfalso. assert (TN : total_of bs = None).
        { unfold total_of. cbv zeta. now rewrite E4, E0, E8, EB. }
        pose proof (short_of_header bs I0 TN). lia.
      * split; [eauto|intros _; split; lia].
  - split; [eauto|intros _; split; lia].
Qed.

Lemma frames_unique fs : forall gs a b, Forall frame_ok fs -> Forall frame_ok gs -> incomplete a -> incomplete b ->
  wire fs ++ a = wire gs ++ b -> fs = gs /\ a = b.
Proof.
  induction fs as [|f fs IH]; intros [|g gs] a b F G Ia Ib E.
  - auto.
  - inversion G; subst. rewrite wire_cons, <- app_assoc in E. cbn in E. exfalso. eapply (proj1 Ia); eassumption.
  - inversion F; subst. rewrite wire_cons, <- app_assoc in E. cbn in E. symmetry in E. exfalso. eapply (proj1 Ib); eassumption.
  - inversion F; inversion G; subst. rewrite !wire_cons, <- !app_assoc in E.
    apply wire1_inj in E as [-> E]; try assumption. apply IH in E as [-> ->]; auto.
Qed.

(** ** A frame too large is found by a read that leaves its bytes *)
Lemma control_keeps_skip e a id k c ok k' c' : process_control_frame e a id k c = Go (ok, k', c') -> k_skip k' = k_skip k.
Proof.
  unfold process_control_frame. destruct (control_get_type (k_ctl k)) as [[] [t|]]; try solve [intros [= <- <- <-]; reflexivity].
  destruct (k_state k); [| | |intros [= <- <- <-]; reflexivity].
  - destruct (t =? FSTRM_CONTROL_READY); cbn [negb]; [|intros [= <- <- <-]; reflexivity]. unfold process_control_frame_ready.
    destruct (control_get_num (k_ctl k)) as [[] n]; try solve [intros [= <- <- <-]; reflexivity].
    destruct (match_content_type a k); [|intros [= <- <- <-]; reflexivity].
    destruct (control_set_type _ _) as [[] k1]; try solve [intros [= <- <- <-]; reflexivity].
    destruct (control_add_field _ _) as [[] k2]; try solve [intros [= <- <- <-]; reflexivity].
    destruct (write_control_frame e id k2 c) as [[[|] c1]| | |]; cbn [rbind]; intros [= <- <- <-]; reflexivity.
  - destruct (t =? FSTRM_CONTROL_START); cbn [negb]; [|intros [= <- <- <-]; reflexivity]. unfold process_control_frame_start.
    destruct (match_content_type a k); intros [= <- <- <-]; reflexivity.
  - destruct (t =? FSTRM_CONTROL_STOP); cbn [negb]; [|intros [= <- <- <-]; reflexivity]. unfold process_control_frame_stop.
    destruct (control_set_type _ _) as [[] k1]; try solve [intros [= <- <- <-]; reflexivity].
    destruct (write_control_frame e id k1 c) as [[[|] c1]| | |]; cbn [rbind]; intros [= <- <- <-]; reflexivity.
Qed.

Lemma can_read_skip a k : match can_read_full_frame a k with CR_full k1 => k_skip k1 = k_skip k | _ => True end.
Proof.
  assert (H : forall p t, match have_frame a (set_sizes k p t (k_skip k)) with CR_full k1 => k_skip k1 = k_skip k | _ => True end).
  { intros p t. unfold have_frame. destruct (_ <? _); [destruct (_ <? _); exact I|]. reflexivity. }
  unfold can_read_full_frame. cbv zeta. destruct (lenN (k_buf k) <? 4); [exact I|].
  destruct (ntohl_bytes (k_buf k) =? 0); [|apply H].
  destruct (lenN (k_buf k) <? 8); [exact I|]. destruct (_ || _); [exact I|]. apply H.
Qed.

Lemma load_skip k ok k' : load_control_frame k = Ok (ok, k') -> k_skip k' = k_skip k.
Proof.
  unfold load_control_frame. destruct (_ <=? k_total k); [intros [= <- <-]; reflexivity|].
  destruct (control_decode _ _ _ _) as [[[] ctl]|]; cbn [obind]; try discriminate; intros [= <- <-]; reflexivity.
Qed.

Lemma read_loop_found e a id : forall fuel k c k' c', read_loop e a fuel id k c = Go (Some k', c') ->
  k_skip k <= lenN (k_buf k) -> 0 < k_skip k' -> 0 < lenN (k_buf k').
Proof.
  induction fuel as [|fuel IH]; intros k c k' c' H L P; [discriminate|]. cbn [read_loop] in H.
  destruct (lenN (k_buf k) =? 0) eqn:E0. { injection H as <- <-. lia. }
  destruct (k_skip k =? 0) eqn:Es.
  - pose proof (can_read_buf a k) as B. pose proof (can_read_skip a k) as Sk.
    destruct (can_read_full_frame a k) as [|k1|k1].
    + discriminate.
    + injection H as <- <-. rewrite B. lia.
    + destruct B as [B _]. destruct (0 <? k_payload k1).
      * destruct (process_data_frame e id k1 c) as [[k2 c1]| | |] eqn:PD; cbn [rbind] in H; try discriminate.
        destruct (maybe_rotate_output e a c1) as [c2| | |]; cbn [rbind] in H; try discriminate.
        apply IH in H; [assumption| |assumption]. unfold process_data_frame in PD. destruct (fwrite e _ c) as [[|] c3]; [|discriminate].
        injection PD as <- <-. cbn [k_skip drain]. lia.
      * destruct (load_control_frame k1) as [[[|] k2]|] eqn:LC; try discriminate.
        destruct (process_control_frame e a id k2 c) as [[[ok k3] c1]| | |] eqn:PC; cbn [rbind] in H; try discriminate.
        destruct ok; [|discriminate]. apply IH in H; [assumption| |assumption].
        apply load_skip in LC. apply control_keeps_skip in PC. lia.
  - apply IH in H; [assumption| |assumption]. cbn [k_skip set_sizes]. lia.
Qed.

(** ** Clogged connections *)
Lemma received_cons id x H : received id (x :: H) =
  match x with E_data i b => if Nat.eqb i id then b else [] | _ => [] end ++ received id H.
Proof. reflexivity. Qed.
Lemma received_app id H H' : received id (H ++ H') = received id H ++ received id H'.
Proof. unfold received. now rewrite map_app, concat_app. Qed.

Lemma clogged_other hw id H x : received id [x] = [] -> (forall chunk, x = E_data id chunk -> chunk <> []) ->
  (clogged hw id (H ++ [x]) <-> clogged hw id H).
Proof.
  intros R N. split.
  - intros (H1 & chunk & H2 & fs & rest & E & R2 & F & D & I & L & G).
    destruct (@exists_last _ H2) as (H2' & y & E2).
    { intros ->. apply app_inj_tail in E as [_ ->]. rewrite received_cons, Nat.eqb_refl, app_nil_r in R.
      exact (N chunk eq_refl R). }
    subst H2. rewrite app_comm_cons, app_assoc in E. apply app_inj_tail in E as [-> <-].
    exists H1, chunk, H2', fs, rest. rewrite received_app in D, R2. apply app_eq_nil in R2 as [R2 _].
    rewrite R, app_nil_r in D. tauto.
  - intros (H1 & chunk & H2 & fs & rest & E & R2 & F & D & I & L & G).
    exists H1, chunk, (H2 ++ [x]), fs, rest. rewrite !received_app, R, !app_nil_r.
    split; [rewrite E, <- app_assoc; reflexivity|]. split; [exact R2|]. tauto.
Qed.

Lemma clogged_read hw id H chunk : chunk <> [] ->
  (clogged hw id (H ++ [E_data id chunk]) <->
   exists fs rest, Forall frame_ok fs /\ received id H ++ chunk = wire fs ++ rest /\ incomplete rest /\ lenN rest = hw /\
     forall g, received id H = wire fs ++ g -> ~ sized g).
Proof.
  intro N. assert (E1 : received id (H ++ [E_data id chunk]) = received id H ++ chunk).
  { rewrite received_snoc, Nat.eqb_refl. reflexivity. }
  split.
  - intros (H1 & chunk' & H2 & fs & rest & E & R2 & F & D & I & L & G).
    assert (H2 = []) as ->.
    { destruct H2 as [|y H2]; [reflexivity|]. exfalso. destruct (@exists_last _ (y :: H2)) as (H2' & z & E2); [discriminate|].
      rewrite E2, app_comm_cons, app_assoc in E. apply app_inj_tail in E as [_ <-].
      rewrite E2, received_snoc, Nat.eqb_refl in R2. apply app_eq_nil in R2 as [_ R2]. contradiction. }
    apply app_inj_tail in E as [-> [= ->]]. rewrite E1 in D. exists fs, rest. auto 6.
  - intros (fs & rest & F & D & I & L & G). exists H, chunk, [], fs, rest. rewrite E1. auto 8.
Qed.

Lemma read_accepted e a H c : reach e a H c -> forall id chunk, In (E_data id chunk) H -> accepted id H.
Proof.
  induction 1 as [c B|H c x c' R IH L S]; intros id chunk I; [contradiction|].
  apply in_or_app. apply in_app_or in I as [I|[->|[]]]; [left; eapply IH; exact I|].
  left. destruct (reach_inv _ _ _ _ R) as [C _]. destruct L as (_ & k & F & _).
  apply (cn_acc _ _ _ C). eapply find_some_in. exact F.
Qed.

(** The buffer is full exactly when the connection is clogged. *)
Lemma run_full e a id : sends e -> forall H c, reach e a H c -> tame (received id H) ->
  forall k, find_conn id (x_conns c) = Some k -> (lenN (k_buf k) = capture_highwater a <-> clogged (capture_highwater a) id H).
Proof.
  intros Hsend H c R. induction R as [c B|H c x c' R IH L S]; intros T k Fk.
  { apply boot_inv in B. destruct B as (_ & _ & B & _). rewrite B in Fk. discriminate. }
  pose proof T as T1. rewrite received_snoc in T1. apply tame_prefix in T1. specialize (IH T1).
  destruct (reach_inv _ _ _ _ R) as [C F].
  assert (Hw : 0 < capture_highwater a) by (unfold capture_highwater; destruct (0 <? a_buffer a)%Z eqn:E; lia).
  assert (Rm : forall i, find_conn id (remove_conn i (x_conns c)) = Some k -> find_conn id (x_conns c) = Some k).
  { intros i. rewrite find_remove by apply (cn_nodup _ _ _ C). destruct (Nat.eqb id i); [discriminate|auto]. }
  assert (Rc : forall i, find_conn id (x_conns (cb_close_conn i c)) = Some k -> find_conn id (x_conns c) = Some k) by exact Rm.
  assert (Keep : received id [x] = [] -> (forall chunk, x = E_data id chunk -> chunk <> []) -> find_conn id (x_conns c) = Some k ->
    (lenN (k_buf k) = capture_highwater a <-> clogged (capture_highwater a) id (H ++ [x]))).
  { intros K1 K2 K3. rewrite clogged_other by assumption. auto. }
  destruct x as [i|i chunk|i|i| |]; cbn [step legal] in *.
  - injection S as <-. cbn [cb_accept_conn x_conns set_conns find_conn] in Fk.
    destruct (Nat.eqb_spec i id) as [->|Hne]; [|apply Keep; [reflexivity|discriminate|assumption]].
    injection Fk as <-. rewrite clogged_other by (try reflexivity; discriminate). cbn [conn_init k_buf]. rewrite lenN_nil.
    split; [lia|]. intros (H1 & chunk & H2 & fs & rest & E & _). exfalso.
    (* a connection that is read was accepted before *)
    destruct L as [_ L]. apply L. eapply (read_accepted e a H c R id chunk). rewrite E. apply in_or_app. right. left. reflexivity.
  - destruct L as (Lne & k0 & F0 & Lb). rewrite F0 in S. unfold cb_read in S.
    set (k1 := mk_conn _ _ _ _ _ (k_buf k0 ++ chunk)) in *.
    destruct (read_loop e a _ i k1 c) as [[r c1]| | |] eqn:RL; cbn [rbind] in S; try discriminate.
    destruct (Nat.eq_dec i id) as [->|Hne].
    2:{ assert (N2 : Nat.eqb id i = false) by (apply Nat.eqb_neq; congruence).
        assert (N3 : Nat.eqb i id = false) by (apply Nat.eqb_neq; congruence).
        apply Keep; [rewrite received_cons, N3; reflexivity|intros ? [= ? _]; contradiction|].
        apply read_loop_evolves in RL; [|assumption]. destruct r as [k2|].
        - destruct RL as [((_ & _ & E1) & _) _]. injection S as <-. cbn [x_conns set_conns] in Fk.
          rewrite E1, find_update, N2 in Fk by apply (cn_nodup _ _ _ C). exact Fk.
        - destruct RL as (c0 & [((_ & _ & E1) & _) _] & ->). injection S as <-.
          cbn [x_conns cb_close_conn set_conns] in Fk. rewrite E1 in Fk. eauto. }
    rewrite clogged_read by assumption.
    pose proof (reach_explained e a id Hsend H c R T1) as E. unfold explained in E. rewrite F0 in E.
    destruct E as (pend & fs & A1 & A2 & A3 & A4 & A5 & A6).
    rewrite received_snoc, Nat.eqb_refl in T.
    assert (Ht : tame (pend ++ chunk)) by (rewrite A5, <- app_assoc in T; eapply tame_wire; eassumption).
    assert (Lc : 0 < lenN chunk) by (destruct chunk; [contradiction|unfold lenN; cbn [length]; lia]).
    destruct (read_loop_spec e a id Hsend (Datatypes.S (length (k_buf k1))) k1 c (pend ++ chunk)) as [(c2 & R2)|(r2 & c2 & R2 & Post)].
    { lia. } { exact F. } { now apply at_more. } { exact Ht. } { exact Lb. }
    { right. right. unfold k1. cbn [k_buf]. rewrite lenN_app. lia. }
    { rewrite RL in R2. discriminate. }
    rewrite RL in R2. injection R2 as <- <-. destruct Post as (c0 & acts & P1 & P2 & P3 & P4).
    destruct r as [k'|].
    2:{ destruct P4 as (-> & _). injection S as <-. cbn [x_conns cb_close_conn set_conns] in Fk.
        destruct P1 as (_ & _ & P1). rewrite P1, find_remove, Nat.eqb_refl in Fk by apply (cn_nodup _ _ _ C). discriminate. }
    destruct P4 as (-> & pend' & fs' & Q1 & Q2 & Q3 & Q4 & Q5 & Q6). injection S as <-. cbn [x_conns set_conns] in Fk.
    destruct P1 as (_ & _ & P1). rewrite P1, find_update, Nat.eqb_refl, F0 in Fk by apply (cn_nodup _ _ _ C).
    injection Fk as <-. clear Q6 A6. set (hw := capture_highwater a) in *.
    destruct Q2 as (I' & S0 & S1). destruct A2 as (I0 & S3 & S4).
    assert (W : received id H ++ chunk = wire (fs ++ fs') ++ pend').
    { rewrite A5, <- app_assoc, Q5, app_assoc. f_equal. unfold wire. rewrite map_app, concat_app. reflexivity. }
    assert (FF : Forall frame_ok (fs ++ fs')) by (apply Forall_app; auto).
    (* what had arrived of the frame when the read began *)
    assert (Early : forall g, received id H = wire (fs ++ fs') ++ g -> fs' = [] /\ g = pend).
    { intros g G. rewrite A5 in G. unfold wire in G. rewrite map_app, concat_app, <- app_assoc in G.
      fold (wire fs) (wire fs') in G. apply app_inv_head in G. destruct fs' as [|f fs']; [auto|]. exfalso.
      rewrite wire_cons, <- app_assoc in G. inversion Q4; subst. eapply (proj1 I0); [|reflexivity]. eassumption. }
    (* a frame known too large before the read is dropped by it *)
    assert (Drop : fs' = [] -> 0 < k_skip k' -> forall T0, total_of pend = Some T0 -> k_buf k' <> [] -> False).
    { intros -> Z T0 E0 Nb. cbn [wire map concat app] in Q5. destruct (S1 Z) as [S2|S2]; [contradiction|].
      destruct Q1 as [[Q1 _]|(g & T' & G1 & G2 & G3 & _ & _)]; [lia|].
      pose proof (total_of_app _ chunk _ E0) as E1. rewrite Q5, G2 in E1. injection E1 as <-.
      assert (Zs : 0 < k_skip k0).
      { destruct (N.eq_dec (k_skip k0) 0) as [Z0|]; [|lia]. specialize (S3 Z0). rewrite E0 in S3. lia. }
      destruct A1 as [[A1 _]|(g0 & T1' & B1 & B2 & B3 & B4 & B5)]; [lia|]. rewrite E0 in B2. injection B2 as <-.
      cbn [read_loop] in RL. cbn [k_buf] in RL.
      replace (lenN (k_buf k1) =? 0) with false in RL by (unfold k1; cbn [k_buf]; rewrite lenN_app; lia).
      assert (Zk : (k_skip k1 =? 0) = false) by (unfold k1; cbn [k_skip]; lia). rewrite Zk in RL.
      apply read_loop_buf in RL. cbn [k_buf set_sizes drain] in RL. rewrite lenN_skipn in RL.
      apply (f_equal lenN) in S2. rewrite <- Q5, lenN_app in S2.
      assert (Lk1 : lenN (k_buf k1) = lenN (k_buf k0) + lenN chunk) by (unfold k1; cbn [k_buf]; apply lenN_app).
      assert (Lpend : lenN pend = lenN g0 + lenN (k_buf k0)) by (rewrite B1; apply lenN_app).
      change (k_skip k1) with (k_skip k0) in RL. lia. }
    split.
    + intro Full. exists (fs ++ fs'), pend'. split; [exact FF|]. split; [exact W|]. split; [exact I'|].
      destruct (N.eq_dec (k_skip k') 0) as [Z|Z].
      * destruct Q1 as [[_ Q1]|(g & T' & _ & _ & _ & _ & Z')]; [|lia]. rewrite Q1 in Full. split; [exact Full|].
        intros g G SG. specialize (S0 Z). apply Early in G as [-> ->].
        apply sized_total in SG as (T0 & E0); [|exact I0]. cbn [wire map concat app] in Q5.
        pose proof (total_of_app _ chunk _ E0) as E1. rewrite Q5 in E1. rewrite E1 in S0.
        apply incomplete_iff in I' as [_ I']. rewrite E1 in I'. lia.
      * destruct (S1 ltac:(lia)) as [S2|S2]; [rewrite S2, lenN_nil in Full; lia|].
        rewrite S2 in Full. split; [exact Full|]. intros g G SG. apply Early in G as [G1 ->].
        apply sized_total in SG as (T0 & E0); [|exact I0]. apply (Drop G1 ltac:(lia) T0 E0).
        rewrite S2. intros ->. rewrite lenN_nil in Full. lia.
    + intros (gs & rest & F' & D & Ir & Lr & G). rewrite W in D.
      apply frames_unique in D as [<- <-]; try assumption.
      destruct (N.eq_dec (k_skip k') 0) as [Z|Z].
      { destruct Q1 as [[_ Q1]|(g & T' & _ & _ & _ & _ & Z')]; [|lia]. now rewrite Q1. }
      destruct (S1 ltac:(lia)) as [S2|S2]; [|now rewrite S2]. exfalso.
      destruct (N.le_gt_cases (k_skip k1) (lenN (k_buf k1))) as [Le|Gt].
      { assert (P : 0 < lenN (k_buf k')) by (eapply read_loop_found; [exact RL|exact Le|lia]). rewrite S2 in P. vm_compute in P. discriminate. }
      (* the read was spent on dropping a frame already known *)
      change (k_skip k1) with (k_skip k0) in Gt.
      destruct A1 as [[A1 _]|(g0 & T1' & B1 & B2 & B3 & B4 & B5)]; [lia|].
      assert (Lk1 : lenN (k_buf k1) = lenN (k_buf k0) + lenN chunk) by (unfold k1; cbn [k_buf]; apply lenN_app).
      assert (Lpend : lenN pend = lenN g0 + lenN (k_buf k0)) by (rewrite B1; apply lenN_app).
      assert (N1 : fs' = []).
      { destruct fs' as [|f fs']; [reflexivity|]. exfalso. pose proof (Forall_inv Q4) as Kf. rewrite wire_cons, <- app_assoc in Q5.
        pose proof (total_of_app _ chunk _ B2) as E1. rewrite Q5, total_of_frame in E1 by exact Kf. injection E1 as E1.
        apply (f_equal lenN) in Q5. rewrite !lenN_app in Q5. lia. }
      subst fs'. rewrite app_nil_r in G. apply (G pend A5). apply sized_total; [exact I0|eauto].
  - destruct (find_conn i (x_conns c)); [|discriminate]. injection S as <-. apply Keep; [reflexivity|discriminate|].
    unfold cb_write in Fk. destruct (k_state c0); eauto.
  - destruct (find_conn i (x_conns c)); [|discriminate]. injection S as <-. apply Keep; [reflexivity|discriminate|]. eauto.
  - apply Keep; [reflexivity|discriminate|]. destruct (x_open c); [|injection S as <-; eauto].
    apply rotate_output_inv in S; [|exact F]. destruct S as ((_ & _ & S1) & _). rewrite S1 in Fk. eauto.
  - apply Keep; [reflexivity|discriminate|]. destruct (x_open c); injection S as <-; eauto.
Qed.

Lemma stalls_exactly e a H c id k : sends e -> reach e a H c -> tame (received id H) ->
  find_conn id (x_conns c) = Some k ->
  ((forall chunk, ~ legal a H c (E_data id chunk)) <-> clogged (capture_highwater a) id H).
Proof.
  intros Se R T Fk. rewrite <- (run_full e a id Se H c R T k Fk).
  pose proof (run_buffer e a H c R id k Fk) as B. split.
  - intro N. apply N.le_antisymm; [exact B|]. apply N.le_ngt. intro Lt. apply (N [x00]). split; [discriminate|].
    exists k. split; [exact Fk|]. rewrite lenN_app. change (lenN [x00]) with 1. lia.
  - intros E chunk (Ne & k' & F' & L). rewrite Fk in F'. injection F' as <-. rewrite lenN_app in L.
    destruct chunk; [contradiction|]. unfold lenN in *. cbn [length] in *. lia.
Qed.

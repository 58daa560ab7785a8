(** Proofs about the model of fstrm_capture: cb_read reacts as specified. *)
From Coq Require Import ZArith Lia.
From Verif Require Import Bytes Spec SpecTrace SpecStream Control Bytes_proofs Control_proofs Capture SpecCapture Capture_proofs.
Import ListNotations.
Local Open Scope N_scope.


Lemma ctl_payload_inj t cts t' cts' : ctl_ok t cts -> ctl_ok t' cts' ->
  ctl_payload t cts = ctl_payload t' cts' -> t = t' /\ cts = cts'.
Proof.
  intros K K' E.
  assert (D : control_decode control_init (ctl_payload t cts) (lenN (ctl_payload t cts)) 0 = Ok (r_success, mk_control t cts)).
  { apply control_decode_iff. split; [exact K|reflexivity]. }
  assert (D' : control_decode control_init (ctl_payload t cts) (lenN (ctl_payload t cts)) 0 = Ok (r_success, mk_control t' cts')).
  { apply control_decode_iff. split; [exact K'|exact E]. }
  rewrite D in D'. injection D' as <- <-. auto.
Qed.

Lemma advance_inv ct ph p x ph' : advance ct ph p x ph' ->
  match ph with
  | Ph_ready => exists cts, ctl_ok T_READY cts /\ (cts = [] \/ In ct cts) /\ p = ctl_payload T_READY cts /\
      x = [Answer (ctl_frame T_ACCEPT [ct])] /\ ph' = Ph_start
  | Ph_start => exists cts, ctl_ok T_START cts /\ (cts = [] \/ In ct cts) /\ p = ctl_payload T_START cts /\
      x = [] /\ ph' = Ph_data
  | Ph_data => p = ctl_payload T_STOP [] /\ x = [Answer finish_frame] /\ ph' = Ph_stop
  | Ph_stop => False
  end.
Proof. destruct 1; eauto 10. Qed.

(** ** Control frames *)
Lemma load_control_frame_spec k p more :
  frame_ok (F_ctl p) -> k_buf k = wire1 (F_ctl p) ++ more -> k_total k = lenN (wire1 (F_ctl p)) ->
  exists ok k2, load_control_frame k = Ok (ok, k2) /\
    (ok = true -> k_total k < 512 /\ exists t cts, ctl_ok t cts /\ p = ctl_payload t cts /\
       k2 = mk_conn (k_state k) (k_payload k) (k_total k) (k_skip k) (mk_control t cts) more) /\
    (ok = false -> k_total k < 512 -> ~ exists t cts, ctl_ok t cts /\ p = ctl_payload t cts).
Proof.
  intros K B L. unfold load_control_frame, FSTRM_CONTROL_FRAME_LENGTH_MAX.
  destruct (512 <=? k_total k) eqn:E.
  { exists false, k. split; [reflexivity|]. split; [discriminate|]. lia. }
  rewrite B, L, (control_decode_frame (k_ctl k) (k_ctl k) (wire1 (F_ctl p)) more [] 1), app_nil_r.
  destruct (control_decode_total (k_ctl k) (wire1 (F_ctl p)) (lenN (wire1 (F_ctl p))) 1) as (r & c' & D & Hr & Hs); [lia|].
  rewrite D. cbn [obind]. rewrite firstn_lenN in Hs. change (N.odd 1) with true in Hs. cbn [ctl_wire] in Hs.
  destruct Hr as [-> | ->].
  - exists true, (drain (set_state k (k_state k) c') (lenN (wire1 (F_ctl p)))).
    split; [reflexivity|]. split; [|discriminate]. intros _. split; [lia|].
    destruct (Hs eq_refl) as [K' W]. exists (c_type c'), (c_cts c'). split; [exact K'|]. split.
    + change (ctl_frame (c_type c') (c_cts c')) with (wire1 (F_ctl (ctl_payload (c_type c') (c_cts c')))) in W.
      rewrite <- (app_nil_r (wire1 (F_ctl p))), <- (app_nil_r (wire1 (F_ctl (ctl_payload _ _)))) in W.
      apply wire1_inj in W as [[= W] _]; [exact W|exact K|].
      cbn [frame_ok]. destruct K' as [_ _ K3 _ _]. split; [|exact K3].
      unfold ctl_payload. rewrite lenN_app, lenN_be32. lia.
    + unfold drain, set_state. cbn [k_state k_payload k_total k_skip k_ctl k_buf].
      rewrite B, skipn_app_exact by (rewrite lenN_length; reflexivity).
      destruct c' as [t0 l0]; cbn [c_type c_cts]. rewrite ?L. reflexivity.
  - exists false, (set_state k (k_state k) c'). split; [reflexivity|]. split; [discriminate|].
    intros _ _ (t & cts & K' & ->).
    pose proof (control_decode_complete (k_ctl k) t cts 1 [] K') as D'. change (N.odd 1) with true in D'.
    cbn [ctl_wire] in D'. rewrite app_nil_r in D'.
    change (wire1 (F_ctl (ctl_payload t cts))) with (ctl_frame t cts) in D. rewrite D in D'. discriminate.
Qed.

Lemma match_content_type_spec a k t cts : k_ctl k = mk_control t cts ->
  ctl_ok t cts -> t = T_READY \/ t = T_START ->
  match_content_type a k = true <-> (cts = [] \/ In (a_ctype a) cts).
Proof.
  intros E K Ht. unfold match_content_type. rewrite E.
  destruct (control_match_spec (mk_control t cts) (Some (a_ctype a))) as [H1 H2]. cbn [c_type c_cts] in H2.
  assert (V : visible t cts = cts).
  { destruct Ht as [-> | ->]; [reflexivity|]. unfold visible. cbn [N.eqb]. change (T_START =? T_START) with true. cbv iota.
    destruct K as [_ _ _ K4 _]. specialize (K4 eq_refl). apply firstn_all2. lia. }
  rewrite V in H2. split.
  - intro M. destruct H1 as [H1|H1]; rewrite H1 in M; [|discriminate].
    apply H2 in H1. destruct H1 as (_ & _ & [->|(s & [= <-] & I)]); auto.
  - intro M. assert (R : control_match (mk_control t cts) (Some (a_ctype a)) = r_success).
    { apply H2. split; [destruct Ht; subst; discriminate|]. split; [destruct Ht; subst; discriminate|].
      destruct M as [->|M]; eauto. }
    rewrite R. reflexivity.
Qed.

Lemma send_ok e id b c : sends e -> send_frame e id b c = (true, note (tick c) id (Answer b)).
Proof. intro S. unfold send_frame. now rewrite S. Qed.

Lemma process_control_frame_spec e a id k c t cts :
  sends e -> lenN (a_ctype a) <= 256 -> k_ctl k = mk_control t cts -> ctl_ok t cts ->
  exists ok k3 c1, process_control_frame e a id k c = Go (ok, k3, c1) /\
    (ok = true -> exists x, advance (a_ctype a) (phase_of (k_state k)) (ctl_payload t cts) x (phase_of (k_state k3)) /\
       k_buf k3 = k_buf k /\ k_skip k3 = k_skip k /\
       (c1 = c /\ x = [] \/ exists b, x = [Answer b] /\ c1 = note (tick c) id (Answer b))) /\
    (ok = false -> c1 = c /\ ~ exists x ph', advance (a_ctype a) (phase_of (k_state k)) (ctl_payload t cts) x ph').
Proof.
  intros S Hct E K.
  assert (KS : ctl_ok T_STOP []).
  { split; [unfold known_type; auto|constructor| |discriminate|reflexivity]. vm_compute. discriminate. }
  assert (No : forall k3 c1, c1 = c ->
    (forall x ph', ~ advance (a_ctype a) (phase_of (k_state k)) (ctl_payload t cts) x ph') ->
    exists ok k3' c1', (Go (false, k3, c1) : ores (bool * conn * ctx)) = Go (ok, k3', c1') /\
    (ok = true -> exists x, advance (a_ctype a) (phase_of (k_state k)) (ctl_payload t cts) x (phase_of (k_state k3')) /\
       k_buf k3' = k_buf k /\ k_skip k3' = k_skip k /\
       (c1' = c /\ x = [] \/ exists b, x = [Answer b] /\ c1' = note (tick c) id (Answer b))) /\
    (ok = false -> c1' = c /\ ~ exists x ph', advance (a_ctype a) (phase_of (k_state k)) (ctl_payload t cts) x ph')).
  { intros k3 c1 Hc N. exists false, k3, c1. split; [reflexivity|]. split; [discriminate|].
    intros _. split; [exact Hc|]. intros (x & ph' & A). exact (N _ _ A). }
  assert (HT : control_get_type (k_ctl k) = (r_success, Some t)).
  { rewrite E. unfold control_get_type. cbn [c_type]. destruct K as [K1 _ _ _ _].
    rewrite (proj2 (type_known_spec _) K1). reflexivity. }
  unfold process_control_frame. rewrite HT.
  destruct (k_state k) eqn:St; cbn [phase_of] in *.
  - (* READY *)
    destruct (t =? FSTRM_CONTROL_READY) eqn:Et; cbn [negb].
    2:{ apply No; [reflexivity|]. intros x ph' A. apply advance_inv in A as (cts' & K' & M & Ep & _).
        apply ctl_payload_inj in Ep as [-> _]; [discriminate|exact K|exact K']. }
    apply N.eqb_eq in Et. subst t. unfold process_control_frame_ready. rewrite E.
    change (control_get_num (mk_control FSTRM_CONTROL_READY cts)) with (r_success, length cts). cbv iota.
    pose proof (match_content_type_spec a k _ _ E K ltac:(left; reflexivity)) as M.
    destruct (match_content_type a k).
    2:{ apply No; [reflexivity|]. intros x ph' A. apply advance_inv in A as (cts' & K' & M' & Ep & _).
        apply ctl_payload_inj in Ep as [_ ->]; [|exact K|exact K'].
        pose proof (proj2 M M'). discriminate. }
    change (control_set_type (control_reset (mk_control FSTRM_CONTROL_READY cts)) FSTRM_CONTROL_ACCEPT)
      with (r_success, mk_control T_ACCEPT []). cbv iota. unfold control_add_field. cbn [c_type c_cts app].
    rewrite write_control_frame_accept. replace (lenN (a_ctype a) <=? 256) with true by lia.
    cbn [rbind]. rewrite send_ok by assumption.
    exists true. eexists. eexists. split; [reflexivity|]. split; [|discriminate].
    intros _. exists [Answer (ctl_frame T_ACCEPT [a_ctype a])]. split; [|split; [reflexivity|split; [reflexivity|right; eauto]]].
    cbn [k_state set_state phase_of]. apply ad_ready; [exact K|]. now apply M.
  - destruct (t =? FSTRM_CONTROL_START) eqn:Et; cbn [negb].
    2:{ apply No; [reflexivity|]. intros x ph' A. apply advance_inv in A as (cts' & K' & M & Ep & _).
        apply ctl_payload_inj in Ep as [-> _]; [discriminate|exact K|exact K']. }
    apply N.eqb_eq in Et. subst t. unfold process_control_frame_start.
    pose proof (match_content_type_spec a k _ _ E K ltac:(right; reflexivity)) as M.
    destruct (match_content_type a k).
    2:{ apply No; [reflexivity|]. intros x ph' A. apply advance_inv in A as (cts' & K' & M' & Ep & _).
        apply ctl_payload_inj in Ep as [_ ->]; [|exact K|exact K'].
        pose proof (proj2 M M'). discriminate. }
    exists true. eexists. eexists. split; [reflexivity|]. split; [|discriminate].
    intros _. exists []. split; [|split; [reflexivity|split; [reflexivity|left; auto]]].
    cbn [k_state set_state phase_of]. apply ad_start; [exact K|]. now apply M.
  - destruct (t =? FSTRM_CONTROL_STOP) eqn:Et; cbn [negb].
    2:{ apply No; [reflexivity|]. intros x ph' A. apply advance_inv in A as (Ep & _).
        apply ctl_payload_inj in Ep as [-> _]; [discriminate|exact K|exact KS]. }
    apply N.eqb_eq in Et. subst t. unfold process_control_frame_stop.
    change (control_set_type (control_reset (k_ctl k)) FSTRM_CONTROL_FINISH) with (r_success, mk_control T_FINISH []). cbv iota.
    rewrite write_control_frame_finish. cbn [rbind]. rewrite send_ok by assumption.
    exists true. eexists. eexists. split; [reflexivity|]. split; [|discriminate].
    intros _. exists [Answer finish_frame]. split; [|split; [reflexivity|split; [reflexivity|right; eauto]]].
    cbn [k_state set_state phase_of].
    assert (cts = []) by (destruct K as [_ _ _ _ K5]; apply K5; left; reflexivity). subst cts. apply ad_stop.
  - apply No; [reflexivity|]. intros x ph' A. apply advance_inv in A. exact A.
Qed.

(** ** The read loop *)
Definition at_ (hw : N) (k : conn) (pend : bytes) : Prop :=
  (k_skip k = 0 /\ k_buf k = pend) \/
  (exists gone T, pend = gone ++ k_buf k /\ total_of pend = Some T /\ hw < T /\
     lenN gone + k_skip k = T /\ 0 < k_skip k).

Definition settled (hw : N) (k : conn) (pend : bytes) : Prop :=
  incomplete pend /\
  (k_skip k = 0 -> match total_of pend with Some T => T <= hw | None => True end) /\
  (0 < k_skip k -> k_buf k = [] \/ k_buf k = pend).

Lemma tame_frame f b : frame_ok f -> tame (wire1 f ++ b) -> tame b.
Proof.
  intros K H fs rest F E L. apply (H (f :: fs) rest); [constructor; assumption| |exact L].
  unfold wire. cbn [map concat]. fold (wire fs). rewrite E. now rewrite app_assoc.
Qed.

Lemma tame_head b : tame b -> 4 <= lenN b -> ntohl_bytes b < 2 ^ 32 - 4.
Proof.
  intros H L. specialize (H [] b (Forall_nil _) eq_refl L).
  rewrite <- ntohl_be_value in H by (rewrite firstn_length; unfold lenN in L; lia).
  rewrite <- (firstn_skipn 4 b), ntohl_app; [exact H|]. rewrite lenN_firstn. lia.
Qed.

Lemma tame_prefix a b : tame (a ++ b) -> tame a.
Proof.
  intros H fs rest F E L.
  rewrite <- (firstn_app_exact (firstn 4 rest) (skipn 4 rest ++ b) 4).
  2:{ rewrite firstn_length. unfold lenN in L. lia. }
  rewrite app_assoc, firstn_skipn. apply (H fs (rest ++ b)); [exact F| |rewrite lenN_app; lia].
  rewrite E. now rewrite app_assoc.
Qed.

(** can_read_full_frame on a buffer that starts a frame. *)
Lemma can_read_spec0 a k : (4 <= lenN (k_buf k) -> ntohl_bytes (k_buf k) < 2 ^ 32 - 4) -> k_skip k = 0 -> 0 < lenN (k_buf k) ->
  match can_read_full_frame a k with
  | CR_closed => bad_header (k_buf k)
  | CR_wait k1 => k_buf k1 = k_buf k /\ k_state k1 = k_state k /\ k_ctl k1 = k_ctl k /\
      at_ (capture_highwater a) k1 (k_buf k) /\ settled (capture_highwater a) k1 (k_buf k)
  | CR_full k1 => k_buf k1 = k_buf k /\ k_state k1 = k_state k /\ k_ctl k1 = k_ctl k /\ k_skip k1 = 0 /\
      exists f more, frame_ok f /\ k_buf k = wire1 f ++ more /\ k_total k1 = lenN (wire1 f) /\
        match f with F_data _ => 0 < k_payload k1 | F_ctl _ => k_payload k1 = 0 end
  end.
Proof.
  intros HT Hs H0. set (hw := capture_highwater a). unfold can_read_full_frame.
  destruct (lenN (k_buf k) <? 4) eqn:E4.
  { cbn [set_sizes k_buf k_state k_ctl k_skip]. repeat split; try reflexivity.
    - left. auto.
    - intros f more K B. rewrite B, lenN_app in E4. destruct f as [p|p]; cbn [wire1] in E4.
      + rewrite lenN_data_frame in E4. lia.
      + rewrite !lenN_app, !lenN_be32 in E4. lia.
    - intro B. apply bad_header_inv in B. lia.
    - intros _. unfold total_of. rewrite E4. trivial.
    - auto. }
  pose proof (HT ltac:(lia)) as Hv.
  set (v := ntohl_bytes (k_buf k)) in *.
  assert (M1 : (4 + v) mod 2 ^ 32 = 4 + v) by (apply N.mod_small; lia).
  assert (HF : forall payload T, total_of (k_buf k) = Some T ->
    match have_frame a (set_sizes k payload T (k_skip k)) with
    | CR_closed => False
    | CR_wait k1 => k_buf k1 = k_buf k /\ k_state k1 = k_state k /\ k_ctl k1 = k_ctl k /\
        at_ hw k1 (k_buf k) /\ settled hw k1 (k_buf k)
    | CR_full k1 => T <= lenN (k_buf k) /\ k1 = set_sizes k payload T (k_skip k)
    end).
  { intros payload T ET. unfold have_frame. cbn [set_sizes k_buf k_total k_payload].
    destruct (lenN (k_buf k) <? T) eqn:EL; [|split; [lia|reflexivity]].
    assert (I : incomplete (k_buf k)).
    { apply incomplete_iff. rewrite ET. split; [|lia]. intro B. apply bad_header_total in B. congruence. }
    fold hw. destruct (hw <? T) eqn:EH; cbn [k_buf k_state k_ctl k_skip set_sizes]; (split; [reflexivity|]);
      (split; [reflexivity|]); (split; [reflexivity|]).
    - split.
      + right. exists [], T. cbn [k_buf k_skip set_sizes]. rewrite ET, lenN_nil. repeat split; lia.
      + split; [exact I|]. cbn [k_buf k_skip set_sizes]. split; [lia|auto].
    - split; [left; auto|]. split; [exact I|]. cbn [k_buf k_skip set_sizes]. rewrite ET. split; [lia|lia]. }
  cbv zeta. rewrite M1. destruct (v =? 0) eqn:Ev.
  - destruct (lenN (k_buf k) <? 8) eqn:E8.
    { cbn [set_sizes k_buf k_state k_ctl k_skip].
      assert (ET : total_of (k_buf k) = None).
      { unfold total_of. rewrite E4. cbv zeta. fold v. rewrite Ev, E8. reflexivity. }
      repeat split; try reflexivity.
      - left. auto.
      - intros f more K B. rewrite B, total_of_frame in ET by assumption. discriminate.
      - intro B. apply bad_header_inv in B. lia.
      - now rewrite ET.
      - auto. }
    unfold FSTRM_CONTROL_FRAME_LENGTH_MAX.
    set (n := ntohl_bytes (skipn 4 (k_buf k))).
    destruct ((n <? 4) || (512 <? n)) eqn:En.
    { apply bad_header_intro; [lia| |]; [|fold n; lia]. fold v. lia. }
    assert (ET : total_of (k_buf k) = Some (8 + n)).
    { unfold total_of. rewrite E4. cbv zeta. fold v. rewrite Ev, E8. fold n. rewrite En. reflexivity. }
    replace (((4 + v + 4) mod 2 ^ 32 + n) mod 2 ^ 32) with (8 + n).
    2:{ apply orb_false_iff in En as [En1 En2]. rewrite (N.mod_small (4 + v + 4)) by lia. rewrite N.mod_small by lia. lia. }
    specialize (HF v (8 + n) ET).
    change (set_sizes (set_sizes k v (4 + v) (k_skip k)) v (8 + n) (k_skip k)) with (set_sizes k v (8 + n) (k_skip k)).
    destruct (have_frame a _) as [|k1|k1]; [contradiction|exact HF|].
    destruct HF as [HL ->]. cbn [k_buf k_state k_ctl k_skip k_total k_payload set_sizes].
    destruct (total_of_split _ _ ET HL) as (f & more & K & B & L & Z). fold v in Z.
    repeat (split; [reflexivity || assumption|]). exists f, more.
    destruct (proj1 Z ltac:(lia)) as [p ->].
    split; [exact K|]. split; [exact B|]. split; [symmetry; exact L|lia].
  - assert (ET : total_of (k_buf k) = Some (4 + v)).
    { unfold total_of. rewrite E4. cbv zeta. fold v. rewrite Ev. reflexivity. }
    specialize (HF v (4 + v) ET).
    destruct (have_frame a _) as [|k1|k1]; [contradiction|exact HF|].
    destruct HF as [HL ->]. cbn [k_buf k_state k_ctl k_skip k_total k_payload set_sizes].
    destruct (total_of_split _ _ ET HL) as (f & more & K & B & L & Z). fold v in Z.
    repeat (split; [reflexivity || assumption|]). exists f, more.
    split; [exact K|]. split; [exact B|]. split; [symmetry; exact L|].
    destruct f as [p|p]; [lia|]. exfalso. assert (v = 0) by (apply Z; eauto). lia.
Qed.

Lemma can_read_spec a k : tame (k_buf k) -> k_skip k = 0 -> 0 < lenN (k_buf k) ->
  match can_read_full_frame a k with
  | CR_closed => bad_header (k_buf k)
  | CR_wait k1 => k_buf k1 = k_buf k /\ k_state k1 = k_state k /\ k_ctl k1 = k_ctl k /\
      at_ (capture_highwater a) k1 (k_buf k) /\ settled (capture_highwater a) k1 (k_buf k)
  | CR_full k1 => k_buf k1 = k_buf k /\ k_state k1 = k_state k /\ k_ctl k1 = k_ctl k /\ k_skip k1 = 0 /\
      exists f more, frame_ok f /\ k_buf k = wire1 f ++ more /\ k_total k1 = lenN (wire1 f) /\
        match f with F_data _ => 0 < k_payload k1 | F_ctl _ => k_payload k1 = 0 end
  end.
Proof. intro T. apply can_read_spec0. now apply tame_head. Qed.

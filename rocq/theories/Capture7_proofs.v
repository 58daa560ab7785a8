(** Proofs about the model of fstrm_capture: any stream whatever, answers that
    fail. *)
From Coq Require Import ZArith Lia.
From Verif Require Import Bytes Spec SpecTrace SpecStream Control Bytes_proofs Control_proofs Capture SpecCapture
  Capture_proofs Capture2_proofs Capture3_proofs Capture4_proofs Capture5_proofs.
Import ListNotations.
Local Open Scope N_scope.

(** ** Huge announcements *)
Lemma huge_iff bs n : huge n bs <-> 4 <= lenN bs /\ ntohl_bytes bs = n /\ 2 ^ 32 - 4 <= n.
Proof.
  split.
  - intros [L (more & ->)]. rewrite lenN_app, lenN_be32, ntohl_be32_small by lia. lia.
  - intros (L & <- & B). split; [split; [exact B|apply ntohl_lt]|]. exists (skipn 4 bs). now apply be32_skipn.
Qed.

Definition calm (bs : bytes) : Prop := forall n, ~ huge n bs.
Lemma calm_head bs : calm bs -> 4 <= lenN bs -> ntohl_bytes bs < 2 ^ 32 - 4.
Proof.
  intros C L. destruct (N.lt_ge_cases (ntohl_bytes bs) (2 ^ 32 - 4)); [assumption|].
  exfalso. apply (C (ntohl_bytes bs)). apply huge_iff. auto.
Qed.
Lemma calm_intro bs : (4 <= lenN bs -> ntohl_bytes bs < 2 ^ 32 - 4) -> calm bs.
Proof. intros C n Hg. apply huge_iff in Hg as (L & <- & B). specialize (C L). lia. Qed.
Lemma calm_app bs more : calm bs -> 4 <= lenN bs -> calm (bs ++ more).
Proof. intros C L. apply calm_intro. intros _. rewrite ntohl_app by assumption. now apply calm_head. Qed.
Lemma calm_left bs more : calm (bs ++ more) -> calm bs.
Proof.
  intros C. apply calm_intro. intro L. rewrite <- (ntohl_app bs more) by assumption.
  apply calm_head; [exact C|]. rewrite lenN_app. lia.
Qed.
Lemma calm_nil : calm [].
Proof. apply calm_intro. rewrite lenN_nil. lia. Qed.
Lemma wire1_4 f : 4 <= lenN (wire1 f).
Proof. destruct f; cbn [wire1]; [rewrite lenN_data_frame; lia|]. rewrite !lenN_app, !lenN_be32. lia. Qed.
Lemma calm_or_huge bs : calm bs \/ exists n, huge n bs.
Proof.
  destruct (N.lt_ge_cases (lenN bs) 4). { left. apply calm_intro. lia. }
  destruct (N.lt_ge_cases (ntohl_bytes bs) (2 ^ 32 - 4)). { left. apply calm_intro. auto. }
  right. exists (ntohl_bytes bs). apply huge_iff. auto.
Qed.
Lemma calm_ctl p : calm (wire1 (F_ctl p)).
Proof. apply calm_intro. intros _. cbn [wire1]. rewrite ntohl_be32_small by lia. lia. Qed.
Lemma calm_bad bs : bad_header bs -> calm bs.
Proof. intros (n & more & -> & _). apply calm_intro. intros _. rewrite ntohl_be32_small by lia. lia. Qed.

(** ** The relation is a function of the stream, unless answers get lost *)
Definition react_any1 lost hw ct ph f bs a q : Prop :=
  (hw < lenN (wire1 f) /\ reacts_any lost hw ct ph bs a q) \/
  (lenN (wire1 f) <= hw /\ exists p a', f = F_data p /\ a = Store (data_frame p) :: a' /\ reacts_any lost hw ct ph bs a' q) \/
  (lenN (wire1 f) <= hw /\ lenN (wire1 f) < 512 /\ exists p x ph' a', f = F_ctl p /\ advance ct ph p x ph' /\ a = x ++ a' /\ reacts_any lost hw ct ph' bs a' q) \/
  (lenN (wire1 f) <= hw /\ exists p, f = F_ctl p /\ (lenN (wire1 f) < 512 -> ~ exists x ph', advance ct ph p x ph') /\ a = [Hangup] /\ q = Shut) \/
  (lost = true /\ lenN (wire1 f) <= hw /\ a = [Hangup] /\ q = Shut).

Lemma ra_cases lost hw ct ph bs a q : reacts_any lost hw ct ph bs a q ->
  (incomplete bs /\ calm bs /\ a = [] /\ q = Open_at ph) \/
  (exists f bs', frame_ok f /\ calm (wire1 f) /\ bs = wire1 f ++ bs' /\ react_any1 lost hw ct ph f bs' a q) \/
  (bad_header bs /\ a = [Hangup] /\ q = Shut) \/
  (exists n r more a', n = 2 ^ 32 - 4 + N.of_nat r /\ (0 < r < 4)%nat /\ bs = be32 n ++ more /\
     a = Store (firstn r (be32 n)) :: a' /\ reacts_any lost hw ct ph (skipn r (be32 n) ++ more) a' q) \/
  (exists more, bs = be32 (2 ^ 32 - 4) ++ more /\ a = [] /\ q = Endless).
Proof.
  unfold react_any1. destruct 1 as [ph bs I C | ph f bs a q K C L R | ph p bs a q K C L R
    | ph p x ph' bs a q K L L2 A R | ph p bs K L N | ph p b ph' bs Lo K L L2 A | ph bs B | ph n r more a q En Hr R | ph more].
  - left. auto.
  - right. left. exists f, bs. repeat (split; [assumption || reflexivity|]). left. auto.
  - right. left. exists (F_data p), bs. split; [exact K|]. split; [exact C|]. split; [reflexivity|]. right. left. split; [exact L|]. exists p, a. auto.
  - right. left. exists (F_ctl p), bs. split; [exact K|]. split; [apply calm_ctl|]. split; [reflexivity|]. right. right. left.
    split; [assumption|]. split; [assumption|]. exists p, x, ph', a. auto.
  - right. left. exists (F_ctl p), bs. split; [exact K|]. split; [apply calm_ctl|]. split; [reflexivity|]. right. right. right. left. split; [exact L|]. exists p. auto.
  - right. left. exists (F_ctl p), bs. split; [exact K|]. split; [apply calm_ctl|]. split; [reflexivity|]. right. right. right. right. auto.
  - right. right. left. auto.
  - right. right. right. left. exists n, r, more, a. auto.
  - right. right. right. right. exists more. auto.
Qed.

Lemma be32_huge n more : 2 ^ 32 - 4 <= n < 2 ^ 32 -> huge n (be32 n ++ more).
Proof. intro B. split; [exact B|]. eauto. Qed.

Lemma ra_frame lost hw ct ph f bs a q : frame_ok f -> calm (wire1 f) ->
  reacts_any lost hw ct ph (wire1 f ++ bs) a q -> react_any1 lost hw ct ph f bs a q.
Proof.
  intros K C R. pose proof (calm_app _ bs C (wire1_4 f)) as C2.
  destruct (ra_cases _ _ _ _ _ _ _ R) as [(I & _)|[(g & bs' & Kg & _ & E & R1)|[(B & _)|[(n & r & more & a' & En & Hr & E & _)|(more & E & _)]]]].
  - exfalso. eapply (proj1 I); [exact K|reflexivity].
  - apply wire1_inj in E as [-> ->]; assumption.
  - exfalso. eapply frame_not_bad; eassumption.
  - exfalso. rewrite E in C2. apply (C2 n), be32_huge. lia.
  - exfalso. rewrite E in C2. apply (C2 (2 ^ 32 - 4)), be32_huge. lia.
Qed.

Lemma ra_huge lost hw ct ph n more a q : 2 ^ 32 - 4 <= n < 2 ^ 32 ->
  reacts_any lost hw ct ph (be32 n ++ more) a q ->
  (n = 2 ^ 32 - 4 /\ a = [] /\ q = Endless) \/
  (exists r a', n = 2 ^ 32 - 4 + N.of_nat r /\ (0 < r < 4)%nat /\ a = Store (firstn r (be32 n)) :: a' /\
     reacts_any lost hw ct ph (skipn r (be32 n) ++ more) a' q).
Proof.
  intros B R. pose proof (be32_huge n more B) as Hg.
  assert (U : forall m mo, m < 2 ^ 32 -> be32 n ++ more = be32 m ++ mo -> m = n /\ mo = more).
  { intros m mo Bm E. assert (X := f_equal ntohl_bytes E). rewrite !ntohl_be32_small in X by lia. subst m.
    apply app_inv_head in E. auto. }
  destruct (ra_cases _ _ _ _ _ _ _ R) as [(_ & C & _)|[(g & bs' & Kg & C & E & R1)|[(Bd & _)|[(m & r & mo & a' & Em & Hr & E & -> & R1)|(mo & E & -> & ->)]]]].
  - exfalso. exact (C n Hg).
  - exfalso. rewrite E in Hg. exact (calm_app _ bs' C (wire1_4 g) n Hg).
  - exfalso. exact (calm_bad _ Bd n Hg).
  - apply U in E as [-> ->]; [|lia]. right. exists r, a'. auto.
  - apply U in E as [<- ->]; [|lia]. left. auto.
Qed.

Lemma ra_bad lost hw ct ph bs a q : bad_header bs -> reacts_any lost hw ct ph bs a q -> a = [Hangup] /\ q = Shut.
Proof.
  intros B R. destruct (ra_cases _ _ _ _ _ _ _ R) as [(I & _)|[(g & bs' & Kg & _ & -> & R1)|[(_ & R1)|[(n & r & more & a' & En & Hr & E & _)|(more & E & _)]]]].
  - exfalso. exact (proj2 I B).
  - exfalso. eapply frame_not_bad; eassumption.
  - assumption.
  - exfalso. apply (calm_bad _ B n). rewrite E. apply be32_huge. lia.
  - exfalso. apply (calm_bad _ B (2 ^ 32 - 4)). rewrite E. apply be32_huge. lia.
Qed.

Lemma ra_incomplete lost hw ct ph bs a q : incomplete bs -> calm bs -> reacts_any lost hw ct ph bs a q -> a = [] /\ q = Open_at ph.
Proof.
  intros [I1 I2] C R. destruct (ra_cases _ _ _ _ _ _ _ R) as [(_ & _ & R1)|[(g & bs' & Kg & _ & -> & R1)|[(B & _)|[(n & r & more & a' & En & Hr & E & _)|(more & E & _)]]]].
  - assumption.
  - exfalso. eapply I1; [eassumption|reflexivity].
  - contradiction.
  - exfalso. apply (C n). rewrite E. apply be32_huge. lia.
  - exfalso. apply (C (2 ^ 32 - 4)). rewrite E. apply be32_huge. lia.
Qed.

Lemma ra_grow hw ct ph bs a q : reacts_any false hw ct ph bs a q ->
  forall more a' q', reacts_any false hw ct ph (bs ++ more) a' q' ->
  exists b, a' = a ++ b /\ (q = Shut -> b = [] /\ q' = Shut) /\ (q = Endless -> b = [] /\ q' = Endless) /\ (more = [] -> b = [] /\ q' = q).
Proof.
  induction 1 as [ph bs I C | ph f bs a q K C L R IH | ph p bs a q K C L R IH
    | ph p x ph' bs a q K L L2 A R IH | ph p bs K L N | ph p b ph' bs Lo K L L2 A | ph bs B | ph n r more0 a q En Hr R IH | ph more0];
    intros more a' q' R'.
  - exists a'. split; [reflexivity|]. split; [discriminate|]. split; [discriminate|]. intros ->. rewrite app_nil_r in R'.
    eapply ra_incomplete; eassumption.
  - rewrite <- app_assoc in R'. apply ra_frame in R'; [|assumption|assumption].
    destruct R' as [(_ & R')|[(L' & _)|[(L' & _)|[(L' & _)|([=] & _)]]]]; [exact (IH _ _ _ R')| | |]; lia.
  - change (data_frame p) with (wire1 (F_data p)) in L, R', C. rewrite <- app_assoc in R'. apply ra_frame in R'; [|exact K|exact C].
    destruct R' as [(L' & _)|[(_ & p' & a1 & [= <-] & -> & R')|[(_ & _ & p' & x & ph' & a1 & [=] & _)|[(_ & p' & [=] & _)|([=] & _)]]]]; [lia|].
    destruct (IH _ _ _ R') as (b & -> & Hb). exists b. split; [reflexivity|assumption].
  - rewrite <- app_assoc in R'. apply ra_frame in R'; [|exact K|apply calm_ctl].
    destruct R' as [(L' & _)|[(_ & p' & a1 & [=] & _)|[(_ & _ & p' & x' & ph1 & a1 & [= <-] & A' & -> & R')|[(_ & p' & [= <-] & N & _)|([=] & _)]]]]; [lia| |exfalso; apply (N L2); eauto].
    destruct (advance_fun _ _ _ _ _ _ _ A A') as [<- <-].
    destruct (IH _ _ _ R') as (b & -> & Hb). exists b. split; [apply app_assoc|assumption].
  - rewrite <- app_assoc in R'. apply ra_frame in R'; [|exact K|apply calm_ctl].
    destruct R' as [(L' & _)|[(_ & p' & a1 & [=] & _)|[(_ & L2 & p' & x' & ph1 & a1 & [= <-] & A' & -> & R')|[(_ & p' & [= <-] & _ & -> & ->)|([=] & _)]]]]; [lia| |].
    + exfalso. apply (N L2). eauto.
    + exists []. split; [reflexivity|]. split; [auto|]. split; [discriminate|auto].
  - discriminate.
  - destruct (ra_bad _ _ _ _ _ _ _ (bad_header_app _ more B) R') as [-> ->]. exists []. split; [reflexivity|]. split; [auto|]. split; [discriminate|auto].
  - rewrite <- app_assoc in R'. apply ra_huge in R'; [|lia]. destruct R' as [(E & _)|(r' & a1 & En' & Hr' & -> & R')]; [lia|].
    assert (r' = r) by lia. subst r'. rewrite app_assoc in R'. destruct (IH _ _ _ R') as (b & -> & Hb). exists b. split; [reflexivity|exact Hb].
  - rewrite <- app_assoc in R'. apply ra_huge in R'; [|lia]. destruct R' as [(_ & -> & ->)|(r' & a1 & En' & Hr' & _)]; [|lia].
    exists []. split; [reflexivity|]. split; [discriminate|]. auto.
Qed.

Lemma ra_fun hw ct ph bs a q a' q' :
  reacts_any false hw ct ph bs a q -> reacts_any false hw ct ph bs a' q' -> a' = a /\ q' = q.
Proof.
  intros R R'. rewrite <- (app_nil_r bs) in R'. destruct (ra_grow _ _ _ _ _ _ R _ _ _ R') as (b & -> & _ & _ & H).
  destruct (H eq_refl) as [-> ->]. now rewrite app_nil_r.
Qed.

(** ** A frame whose announced length wraps *)
Lemma can_read_huge a k n : huge n (k_buf k) ->
  exists k1, can_read_full_frame a k = CR_full k1 /\ k_buf k1 = k_buf k /\ k_state k1 = k_state k /\
    0 < k_payload k1 /\ k_total k1 = n - (2 ^ 32 - 4) /\ k_skip k1 = k_skip k.
Proof.
  intro Hg. apply huge_iff in Hg as (L & E & B). assert (B2 : n < 2 ^ 32) by (rewrite <- E; apply ntohl_lt).
  unfold can_read_full_frame. replace (lenN (k_buf k) <? 4) with false by lia. rewrite E.
  replace (n =? 0) with false by lia.
  assert (M : (4 + n) mod 2 ^ 32 = n - (2 ^ 32 - 4)).
  { replace (4 + n) with (n - (2 ^ 32 - 4) + 1 * 2 ^ 32) by lia. rewrite N.mod_add by lia. apply N.mod_small. lia. }
  rewrite M. unfold have_frame. cbn [set_sizes k_buf k_total].
  replace (lenN (k_buf k) <? n - (2 ^ 32 - 4)) with false by lia.
  eexists. split; [reflexivity|]. cbn [set_sizes k_buf k_state k_payload k_total k_skip]. repeat split; lia.
Qed.

Lemma loop_zero e a id : forall fuel k c, k_skip k = 0 -> 4 <= lenN (k_buf k) -> ntohl_bytes (k_buf k) = 2 ^ 32 - 4 ->
  read_loop e a fuel id k c = Hang \/ exists c', read_loop e a fuel id k c = Exit c'.
Proof.
  induction fuel as [|fuel IH]; intros k c Hs L E; [left; reflexivity|].
  assert (Hg : huge (2 ^ 32 - 4) (k_buf k)) by (apply huge_iff; split; [exact L|split; [exact E|lia]]).
  destruct (can_read_huge a k _ Hg) as (k1 & CR & C1 & C2 & C3 & C4 & C5).
  cbn [read_loop]. replace (lenN (k_buf k) =? 0) with false by lia. replace (k_skip k =? 0) with true by lia.
  rewrite CR. replace (0 <? k_payload k1) with true by lia. unfold process_data_frame.
  destruct (fwrite e _ c) as [[|] c1]; cbn [rbind]; [|right; eauto].
  destruct (maybe_rotate_defined e a (note c1 id (Store (firstn (N.to_nat (k_total k1)) (k_buf k1))))) as [[c2 MR]|[c2 MR]];
    rewrite MR; cbn [rbind]; [|right; eauto].
  replace (k_total k1) with 0 by lia. unfold drain. change (N.to_nat 0) with 0%nat. cbn [skipn].
  apply IH; cbn [k_skip k_buf]; rewrite ?C1; [lia|exact L|exact E].
Qed.

(** ** Control frames whose answer may be lost *)
Lemma process_control_any lost e a id k c t cts :
  (sends e \/ lost = true) -> lenN (a_ctype a) <= 256 -> k_ctl k = mk_control t cts -> ctl_ok t cts ->
  exists ok k3 c1, process_control_frame e a id k c = Go (ok, k3, c1) /\
    (ok = true -> exists x, advance (a_ctype a) (phase_of (k_state k)) (ctl_payload t cts) x (phase_of (k_state k3)) /\
       k_buf k3 = k_buf k /\ k_skip k3 = k_skip k /\
       (c1 = c /\ x = [] \/ exists b, x = [Answer b] /\ c1 = note (tick c) id (Answer b))) /\
    (ok = false -> (c1 = c /\ ~ exists x ph', advance (a_ctype a) (phase_of (k_state k)) (ctl_payload t cts) x ph') \/
       (lost = true /\ c1 = tick c /\ exists b ph', advance (a_ctype a) (phase_of (k_state k)) (ctl_payload t cts) [Answer b] ph')).
Proof.
  intros S Hct E K.
  assert (KS : ctl_ok T_STOP []).
  { split; [unfold known_type; auto|constructor| |discriminate|reflexivity]. vm_compute. discriminate. }
  assert (No : forall k3 c1, c1 = c ->
    (forall x ph', ~ advance (a_ctype a) (phase_of (k_state k)) (ctl_payload t cts) x ph') ->
    exists ok k3' c1', (Go (false, k3, c1) : ores (bool * conn * ctx)) = Go (ok, k3', c1') /\
    (ok = true -> exists x, advance (a_ctype a) (phase_of (k_state k)) (ctl_payload t cts) x (phase_of (k_state k3')) /\
       k_buf k3' = k_buf k /\ k_skip k3' = k_skip k /\
       (c1' = c /\ x = [] \/ exists b, x = [Answer b] /\ c1' = note (tick c) id (Answer b))) /\
    (ok = false -> (c1' = c /\ ~ exists x ph', advance (a_ctype a) (phase_of (k_state k)) (ctl_payload t cts) x ph') \/
       (lost = true /\ c1' = tick c /\ exists b ph', advance (a_ctype a) (phase_of (k_state k)) (ctl_payload t cts) [Answer b] ph'))).
  { intros k3 c1 Hc N. exists false, k3, c1. split; [reflexivity|]. split; [discriminate|].
    intros _. left. split; [exact Hc|]. intros (x & ph' & A). exact (N _ _ A). }
  assert (HT : control_get_type (k_ctl k) = (r_success, Some t)).
  { rewrite E. unfold control_get_type. cbn [c_type]. destruct K as [K1 _ _ _ _].
    rewrite (proj2 (type_known_spec _) K1). reflexivity. }
  unfold process_control_frame. rewrite HT.
  destruct (k_state k) eqn:St; cbn [phase_of] in *.
  - (* READY *)
    destruct (t =? FSTRM_CONTROL_READY) eqn:Et; cbn [negb].
    2:{ apply No; [reflexivity|]. intros x ph' A. apply advance_inv in A as (cts' & K' & M & Ep & _).
        apply ctl_payload_inj in Ep as [-> _]; [discriminate|exact K|exact K']. }
    apply N.eqb_eq in Et. subst t. unfold process_control_frame_ready. rewrite E.
    change (control_get_num (mk_control FSTRM_CONTROL_READY cts)) with (r_success, length cts). cbv iota.
    pose proof (match_content_type_spec a k _ _ E K ltac:(left; reflexivity)) as M.
    destruct (match_content_type a k).
    2:{ apply No; [reflexivity|]. intros x ph' A. apply advance_inv in A as (cts' & K' & M' & Ep & _).
        apply ctl_payload_inj in Ep as [_ ->]; [|exact K|exact K'].
        pose proof (proj2 M M'). discriminate. }
    change (control_set_type (control_reset (mk_control FSTRM_CONTROL_READY cts)) FSTRM_CONTROL_ACCEPT)
      with (r_success, mk_control T_ACCEPT []). cbv iota. unfold control_add_field. cbn [c_type c_cts app].
    rewrite write_control_frame_accept. replace (lenN (a_ctype a) <=? 256) with true by lia.
    cbn [rbind]. unfold send_frame. destruct (e_send e (x_tick c)) eqn:Es.
    2:{ destruct S as [S| ->]; [rewrite S in Es; discriminate|]. exists false. eexists. eexists. split; [reflexivity|]. split; [discriminate|].
        intros _. right. split; [reflexivity|]. split; [reflexivity|]. eexists. eexists. apply ad_ready; [exact K|]. now apply M. }
    exists true. eexists. eexists. split; [reflexivity|]. split; [|discriminate].
    intros _. exists [Answer (ctl_frame T_ACCEPT [a_ctype a])]. split; [|split; [reflexivity|split; [reflexivity|right; eauto]]].
    cbn [k_state set_state phase_of]. apply ad_ready; [exact K|]. now apply M.
  - destruct (t =? FSTRM_CONTROL_START) eqn:Et; cbn [negb].
    2:{ apply No; [reflexivity|]. intros x ph' A. apply advance_inv in A as (cts' & K' & M & Ep & _).
        apply ctl_payload_inj in Ep as [-> _]; [discriminate|exact K|exact K']. }
    apply N.eqb_eq in Et. subst t. unfold process_control_frame_start.
    pose proof (match_content_type_spec a k _ _ E K ltac:(right; reflexivity)) as M.
    destruct (match_content_type a k).
    2:{ apply No; [reflexivity|]. intros x ph' A. apply advance_inv in A as (cts' & K' & M' & Ep & _).
        apply ctl_payload_inj in Ep as [_ ->]; [|exact K|exact K'].
        pose proof (proj2 M M'). discriminate. }
    exists true. eexists. eexists. split; [reflexivity|]. split; [|discriminate].
    intros _. exists []. split; [|split; [reflexivity|split; [reflexivity|left; auto]]].
    cbn [k_state set_state phase_of]. apply ad_start; [exact K|]. now apply M.
  - destruct (t =? FSTRM_CONTROL_STOP) eqn:Et; cbn [negb].
    2:{ apply No; [reflexivity|]. intros x ph' A. apply advance_inv in A as (Ep & _).
        apply ctl_payload_inj in Ep as [-> _]; [discriminate|exact K|exact KS]. }
    apply N.eqb_eq in Et. subst t. unfold process_control_frame_stop.
    change (control_set_type (control_reset (k_ctl k)) FSTRM_CONTROL_FINISH) with (r_success, mk_control T_FINISH []). cbv iota.
    rewrite write_control_frame_finish. cbn [rbind].
    assert (cts = []) by (destruct K as [_ _ _ _ K5]; apply K5; left; reflexivity). subst cts.
    unfold send_frame. destruct (e_send e (x_tick c)) eqn:Es.
    2:{ destruct S as [S| ->]; [rewrite S in Es; discriminate|]. exists false. eexists. eexists. split; [reflexivity|]. split; [discriminate|].
        intros _. right. split; [reflexivity|]. split; [reflexivity|]. eexists. eexists. apply ad_stop. }
    exists true. eexists. eexists. split; [reflexivity|]. split; [|discriminate].
    intros _. exists [Answer finish_frame]. split; [|split; [reflexivity|split; [reflexivity|right; eauto]]].
    cbn [k_state set_state phase_of].
    apply ad_stop.
  - apply No; [reflexivity|]. intros x ph' A. apply advance_inv in A. exact A.
Qed.


(** How far a run of the loop gets. *)
Definition loop_post_any (lost : bool) (a : args) (id : nat) (k : conn) (c : ctx) (pend : bytes)
    (r : option conn) (c' : ctx) : Prop :=
  let hw := capture_highwater a in
  exists c0 acts, same_conns c c0 /\ files_open a c0 /\ x_log c0 = x_log c ++ map (pair id) acts /\
  match r with
  | Some k' => c' = c0 /\ exists pend', at_ hw k' pend' /\ calm pend' /\ settled hw k' pend' /\
      lenN (k_buf k') <= lenN (k_buf k) /\
      forall more a2 q, reacts_any lost hw (a_ctype a) (phase_of (k_state k')) (pend' ++ more) a2 q ->
        reacts_any lost hw (a_ctype a) (phase_of (k_state k)) (pend ++ more) (acts ++ a2) q
  | None => c' = cb_close_conn id c0 /\
      forall more, reacts_any lost hw (a_ctype a) (phase_of (k_state k)) (pend ++ more) acts Shut
  end.

Lemma read_loop_any lost e a id : (sends e \/ lost = true) -> forall fuel k c pend,
  (length (k_buf k) < fuel)%nat -> files_open a c ->
  at_ (capture_highwater a) k pend -> (0 < k_skip k -> calm pend) -> lenN (k_buf k) <= capture_highwater a ->
  (k_skip k = 0 \/ incomplete pend \/ 0 < lenN (k_buf k)) ->
  (exists c', read_loop e a fuel id k c = Exit c') \/
  (read_loop e a fuel id k c = Hang /\ exists acts, forall more,
     reacts_any lost (capture_highwater a) (a_ctype a) (phase_of (k_state k)) (pend ++ more) acts Endless) \/
  (exists r c', read_loop e a fuel id k c = Go (r, c') /\ loop_post_any lost a id k c pend r c').
Proof.
  intros S. induction fuel as [|fuel IH]; intros k c pend Hfu Hf Hat Ht Hb Hx; [lia|].
  set (hw := capture_highwater a) in *. cbn [read_loop].
  destruct (lenN (k_buf k) =? 0) eqn:E0.
  { (* nothing left *)
    apply N.eqb_eq in E0. pose proof (lenN_0 _ E0) as B0.
    right. right. exists (Some k), c. split; [reflexivity|]. exists c, []. split; [apply same_conns_refl|]. split; [assumption|].
    split; [cbn; now rewrite app_nil_r|]. split; [reflexivity|]. exists pend. split; [assumption|].
    assert (ST : settled hw k pend).
    { destruct Hat as [[Hs <-]|(gone & T & Hp & HT & HH & HL & Hs)].
      - rewrite B0. split; [|split; [intros _; exact I|auto]]. apply incomplete_iff. split; [|exact I].
        intro B. apply bad_header_inv in B. rewrite lenN_nil in B. lia.
      - split; [|split; [lia|auto]]. destruct Hx as [Hx|[Hx|Hx]]; [lia|assumption|lia]. }
    split. { destruct Hat as [[Hs <-]|(gone & T & Hp & HT & HH & HL & Hs)]; [rewrite B0; apply calm_nil|now apply Ht]. }
    split; [assumption|]. split; [lia|]. intros more a2 q R. exact R. }
  assert (Hlen : 0 < lenN (k_buf k)) by lia.
  destruct (k_skip k =? 0) eqn:Es.
  - (* a frame starts here *)
    apply N.eqb_eq in Es. destruct Hat as [[_ Hp]|(gone & T & _ & _ & _ & _ & Hs)]; [|lia]. subst pend.
    destruct (calm_or_huge (k_buf k)) as [Cm|(n & Hg)].
    2:{ (* the announced length wraps *)
      destruct (can_read_huge a k n Hg) as (k1 & CR & C1 & C2 & C3 & C4 & C5). rewrite CR.
      pose proof (proj1 (huge_iff _ _) Hg) as (L4 & _ & Bn). destruct Hg as ([_ Bn2] & more & B).
      set (r := N.to_nat (n - (2 ^ 32 - 4))) in *.
      assert (En : n = 2 ^ 32 - 4 + N.of_nat r) by (unfold r; lia).
      assert (Hr4 : (r < 4)%nat) by (unfold r; lia).
      destruct (Nat.eq_dec r 0) as [E00|Hr0].
      { assert (En0 : n = 2 ^ 32 - 4) by lia. rewrite En0 in B.
        destruct (loop_zero e a id (Datatypes.S fuel) k c Es L4) as [HH|(c' & HH)].
        { rewrite B, ntohl_be32_small by lia. reflexivity. }
        - cbn [read_loop] in HH. rewrite E0, Es, CR in HH. right. left. split; [exact HH|].
          exists []. intro more'. rewrite B, <- app_assoc. apply ra_endless.
        - cbn [read_loop] in HH. rewrite E0, Es, CR in HH. left. exists c'. exact HH. }
      replace (0 <? k_payload k1) with true by lia.
      destruct (process_data_frame e id k1 c) as [[k2 c1]|c1| |f0] eqn:PD.
      2:{ left. exists c1. reflexivity. }
      2:{ unfold process_data_frame in PD. destruct (fwrite e _ c) as [[|] ?]; discriminate. }
      2:{ unfold process_data_frame in PD. destruct (fwrite e _ c) as [[|] ?]; discriminate. }
      cbn [rbind]. destruct (process_data_inv _ a _ _ _ _ _ Hf PD) as (P1 & P2 & P3 & P4).
      assert (Tr : N.to_nat (k_total k1) = r) by (rewrite C4; reflexivity).
      assert (L32 : length (be32 n) = 4%nat) by reflexivity.
      rewrite Tr, C1, B, firstn_app, L32 in P2. replace (r - 4)%nat with 0%nat in P2 by lia. rewrite app_nil_r in P2.
      destruct (maybe_rotate_defined e a c1) as [[c2 MR]|[c2 MR]]; rewrite MR; cbn [rbind].
      2:{ left. eauto. }
      destruct (maybe_rotate_inv _ _ _ _ P3 MR) as (M1 & M2 & M3).
      set (more2 := skipn r (be32 n) ++ more).
      assert (Bk : k_buf k2 = more2).
      { rewrite P4. unfold drain. cbn [k_buf]. rewrite Tr, C1, B, skipn_app, L32.
        replace (r - 4)%nat with 0%nat by lia. reflexivity. }
      assert (Lm : (length more2 + r = length (k_buf k))%nat).
      { unfold more2. rewrite B, !app_length, skipn_length, L32. lia. }
      assert (Sk : k_skip k2 = 0) by (rewrite P4; cbn [drain k_skip]; lia).
      assert (St : k_state k2 = k_state k) by (rewrite P4; exact C2).
      specialize (IH k2 c2 more2). fold hw in IH. rewrite Bk in IH.
      destruct IH as [(c' & R)|[(R & acts & Q)|(r0 & c' & R & c0 & acts & Q1 & Q2 & Q3 & Q4)]].
      { unfold bytes in *; lia. } { assumption. } { left; auto. } { lia. } { unfold lenN in *; unfold bytes in *; lia. } { auto. }
      { left. exists c'. exact R. }
      { right. left. split; [exact R|]. exists (Store (firstn r (be32 n)) :: acts). intro more'.
        rewrite B, <- app_assoc. apply ra_wrap; [exact En|lia|]. rewrite app_assoc. fold more2. rewrite <- St. apply Q. }
      right. right. exists r0, c'. split; [exact R|]. exists c0, (Store (firstn r (be32 n)) :: acts).
      split; [eapply same_conns_trans; [exact P1|]; eapply same_conns_trans; eassumption|].
      split; [assumption|]. split; [rewrite Q3, M2, P2; cbn [map]; now rewrite <- app_assoc|].
      rewrite St in Q4. destruct r0 as [k'|].
      - destruct Q4 as (-> & pend' & Q5 & Q5' & Q6 & Q7 & Q10). split; [reflexivity|].
        exists pend'. split; [assumption|]. split; [assumption|]. split; [assumption|].
        split; [rewrite Bk in Q7; unfold lenN in *; unfold bytes in *; lia|].
        intros more' a2 q R'. rewrite B, <- app_assoc. cbn [app]. apply ra_wrap; [exact En|lia|].
        rewrite app_assoc. fold more2. apply Q10. exact R'.
      - destruct Q4 as (-> & Q5). split; [reflexivity|]. intros more'. rewrite B, <- app_assoc.
        apply ra_wrap; [exact En|lia|]. rewrite app_assoc. fold more2. apply Q5. }
    pose proof (can_read_spec0 a k (calm_head _ Cm) Es Hlen) as CR.
    destruct (can_read_full_frame a k) as [|k1|k1].
    + right. right. exists None, (cb_close_conn id (note c id Hangup)). split; [reflexivity|].
      exists (note c id Hangup), [Hangup]. split; [repeat split|]. split.
      { destruct Hf as (F1 & F2 & fss & cur & F3 & F4). split; [assumption|]. split; [assumption|].
        exists fss, cur. split; [exact F3|]. cbn [x_log note]. rewrite stored_snoc, app_nil_r. exact F4. }
      split; [reflexivity|]. split; [reflexivity|]. intros more. apply ra_badlen. now apply bad_header_app.
    + destruct CR as (C1 & C2 & C3 & C4 & C5). right. right. exists (Some k1), c. split; [reflexivity|].
      exists c, []. split; [apply same_conns_refl|]. split; [assumption|].
      split; [cbn; now rewrite app_nil_r|]. split; [reflexivity|]. exists (k_buf k).
      split; [assumption|]. split; [assumption|]. split; [assumption|]. split; [rewrite C1; lia|]. intros more a2 q R. rewrite C2 in R. exact R.
    + destruct CR as (C1 & C2 & C3 & C4 & f & more & K & B & L & Hp).
      assert (Lw : 4 <= lenN (wire1 f)).
      { destruct f; cbn [wire1]; [rewrite lenN_data_frame; lia|]. rewrite !lenN_app, !lenN_be32. lia. }
      assert (Hm : lenN (k_buf k) = lenN (wire1 f) + lenN more) by (rewrite B; apply lenN_app).
      assert (Cf : calm (wire1 f)) by (rewrite B in Cm; now apply calm_left in Cm).
      destruct f as [p|p].
      * (* data *)
        replace (0 <? k_payload k1) with true by lia.
        destruct (process_data_frame e id k1 c) as [[k2 c1]|c1| |f0] eqn:PD.
        2:{ left. exists c1. reflexivity. }
        2:{ unfold process_data_frame in PD. destruct (fwrite e _ c) as [[|] ?]; discriminate. }
        2:{ unfold process_data_frame in PD. destruct (fwrite e _ c) as [[|] ?]; discriminate. }
        cbn [rbind]. destruct (process_data_inv _ a _ _ _ _ _ Hf PD) as (P1 & P2 & P3 & P4).
        assert (Bf : firstn (N.to_nat (k_total k1)) (k_buf k1) = data_frame p).
        { rewrite C1, B, L, lenN_length. apply firstn_app_exact. reflexivity. }
        rewrite Bf in P2.
        destruct (maybe_rotate_defined e a c1) as [[c2 MR]|[c2 MR]]; rewrite MR; cbn [rbind].
        2:{ left. eauto. }
        destruct (maybe_rotate_inv _ _ _ _ P3 MR) as (M1 & M2 & M3).
        assert (Bk : k_buf k2 = more).
        { rewrite P4. unfold drain. cbn [k_buf]. rewrite C1, B, L, lenN_length. apply skipn_app_exact. reflexivity. }
        assert (Sk : k_skip k2 = 0) by (rewrite P4; exact C4).
        assert (St : k_state k2 = k_state k) by (rewrite P4; exact C2).
        specialize (IH k2 c2 more). fold hw in IH. rewrite Bk in IH.
        destruct IH as [(c' & R)|[(R & acts & Q)|(r & c' & R & c0 & acts & Q1 & Q2 & Q3 & Q4)]].
        { unfold lenN in *; lia. } { assumption. } { left; auto. } { lia. } { lia. } { auto. }
        { left. exists c'. exact R. }
        { right. left. split; [exact R|]. exists (Store (data_frame p) :: acts). intro more'. rewrite B. cbn [wire1]. rewrite <- app_assoc.
          apply ra_data; [exact K|exact Cf|cbn [wire1] in *; lia|]. rewrite <- St. apply Q. }
        right. right. exists r, c'. split; [exact R|]. exists c0, (Store (data_frame p) :: acts).
        split; [eapply same_conns_trans; [exact P1|]; eapply same_conns_trans; eassumption|].
        split; [assumption|]. split; [rewrite Q3, M2, P2; cbn [map]; now rewrite <- app_assoc|].
        assert (Lhw : lenN (data_frame p) <= hw) by (cbn [wire1] in *; lia).
        rewrite St in Q4. destruct r as [k'|].
        -- destruct Q4 as (-> & pend' & Q5 & Q5' & Q6 & Q7 & Q10). split; [reflexivity|].
           exists pend'. split; [assumption|]. split; [assumption|]. split; [assumption|]. split; [rewrite Bk in Q7; lia|].
           intros more' a2 q R'. rewrite B. cbn [wire1 app]. rewrite <- app_assoc.
           apply ra_data; [exact K|exact Cf|exact Lhw|]. apply Q10. exact R'.
        -- destruct Q4 as (-> & Q5). split; [reflexivity|]. intros more'. rewrite B. cbn [wire1]. rewrite <- app_assoc.
           apply ra_data; [exact K|exact Cf|exact Lhw|]. apply Q5.
      * (* control *)
        replace (0 <? k_payload k1) with false by lia.
        destruct (load_control_frame_spec k1 p more K ltac:(rewrite C1; exact B) L) as (ok & k2 & LC & LT & LF).
        rewrite LC.
        assert (Lhw : lenN (wire1 (F_ctl p)) <= hw) by lia.
        assert (Hang : forall c1, c1 = c \/ c1 = tick c ->
          (forall more', reacts_any lost hw (a_ctype a) (phase_of (k_state k)) (wire1 (F_ctl p) ++ more') [Hangup] Shut) ->
          loop_post_any lost a id k c (k_buf k) None (cb_close_conn id (note c1 id Hangup))).
        { intros c1 Hc1 Hno. exists (note c1 id Hangup), [Hangup]. split; [destruct Hc1; subst; repeat split|]. split.
          { assert (Hf1 : files_open a c1) by (destruct Hc1; subst; exact Hf). clear Hf. rename Hf1 into Hf.
            destruct Hf as (F1 & F2 & fss & cur & F3 & F4). split; [assumption|]. split; [assumption|].
            exists fss, cur. split; [exact F3|]. cbn [x_log note]. rewrite stored_snoc, app_nil_r. exact F4. }
          split; [destruct Hc1; subst; reflexivity|]. split; [reflexivity|]. intros more'. rewrite B, <- app_assoc. apply Hno. }
        destruct ok.
        2:{ right. right. eexists None, _. split; [reflexivity|]. apply Hang; [now left|]. intro more'. apply ra_refuse; [assumption|assumption|].
            intros L5 (x & ph' & A). apply (LF eq_refl); [lia|].
            destruct (k_state k); cbn [phase_of] in A; apply advance_inv in A.
            - destruct A as (cts & A1 & _ & A2 & _). eauto.
            - destruct A as (cts & A1 & _ & A2 & _). eauto.
            - destruct A as (A2 & _). exists T_STOP, []. split; [|exact A2].
              split; [unfold known_type; auto|constructor| |discriminate|reflexivity]. vm_compute. discriminate.
            - contradiction. }
        destruct (LT eq_refl) as (L5 & t & cts & K' & Ep & Ek). clear LT LF.
        destruct (process_control_any lost e a id k2 c t cts S (proj1 Hf)) as (ok & k3 & c1 & PC & PT & PF).
        { rewrite Ek. reflexivity. } { assumption. }
        rewrite PC. cbn [rbind].
        assert (St2 : k_state k2 = k_state k) by (rewrite Ek; exact C2).
        rewrite St2, <- Ep in PT, PF.
        destruct ok.
        2:{ right. right. eexists None, _. split; [reflexivity|]. destruct (PF eq_refl) as [(-> & Hno)|(Hl & -> & b & ph' & Ad)].
            - apply Hang; [now left|]. intro more'. apply ra_refuse; [assumption|assumption|]. intros _. exact Hno.
            - apply Hang; [now right|]. intro more'. eapply ra_lost; [exact Hl|assumption|assumption|lia|exact Ad]. }
        destruct (PT eq_refl) as (x & A & B3 & S3 & Hc1). clear PT PF.
        assert (Bk : k_buf k3 = more) by (rewrite B3, Ek; reflexivity).
        assert (Sk : k_skip k3 = 0) by (rewrite S3, Ek; exact C4).
        assert (Hc : same_conns c c1 /\ files_open a c1 /\ x_log c1 = x_log c ++ map (pair id) x).
        { destruct Hc1 as [(-> & ->)|(b & -> & ->)].
          - split; [apply same_conns_refl|]. split; [assumption|]. cbn. now rewrite app_nil_r.
          - split; [repeat split|]. split; [|reflexivity].
            destruct Hf as (F1 & F2 & fss & cur & F3 & F4). split; [assumption|]. split; [assumption|].
            exists fss, cur. split; [exact F3|]. cbn [x_log note tick]. rewrite stored_snoc, app_nil_r. exact F4. }
        destruct Hc as (D1 & D2 & D3).
        specialize (IH k3 c1 more). fold hw in IH. rewrite Bk in IH.
        destruct IH as [(c' & R)|[(R & acts & Q)|(r & c' & R & c0 & acts & Q1 & Q2 & Q3 & Q4)]].
        { unfold lenN in *; lia. } { assumption. } { left; auto. } { lia. } { lia. } { auto. }
        { left. exists c'. exact R. }
        { right. left. split; [exact R|]. exists (x ++ acts). intro more'. rewrite B, <- app_assoc.
          eapply ra_ctl; [exact K|exact Lhw|lia|exact A|]. apply Q. }
        right. right. exists r, c'. split; [exact R|]. exists c0, (x ++ acts).
        split; [eapply same_conns_trans; eassumption|].
        split; [assumption|]. split; [rewrite Q3, D3, map_app; now rewrite app_assoc|].
        destruct r as [k'|].
        -- destruct Q4 as (-> & pend' & Q5 & Q5' & Q6 & Q7 & Q10). split; [reflexivity|].
           exists pend'. split; [assumption|]. split; [assumption|]. split; [assumption|]. split; [rewrite Bk in Q7; lia|].
           intros more' a2 q R'. rewrite B, <- !app_assoc.
           eapply ra_ctl; [exact K|exact Lhw|lia|exact A|]. apply Q10. exact R'.
        -- destruct Q4 as (-> & Q5). split; [reflexivity|]. intros more'. rewrite B, <- app_assoc.
           eapply ra_ctl; [exact K|exact Lhw|lia|exact A|]. apply Q5.
  - (* skipping *)
    destruct Hat as [[Hs _]|(gone & T & Hp & HT & HH & HL & Hs)]; [lia|].
    set (skip := N.min (k_skip k) (lenN (k_buf k))).
    set (k1 := set_sizes (drain k skip) (k_payload k) (k_total k) (k_skip k - skip)).
    assert (Hsk : 0 < skip) by (unfold skip; lia).
    assert (Bk : k_buf k1 = skipn (N.to_nat skip) (k_buf k)) by reflexivity.
    assert (Lk : lenN (k_buf k1) = lenN (k_buf k) - skip) by (rewrite Bk, lenN_skipn; lia).
    assert (Lp : lenN pend = lenN gone + lenN (k_buf k)) by (rewrite Hp; apply lenN_app).
    destruct (N.le_gt_cases (k_skip k) (lenN (k_buf k))) as [G|G].
    + (* the whole frame has gone by *)
      assert (Esk : skip = k_skip k) by (unfold skip; lia).
      destruct (total_of_split pend T HT) as (f & more & K & B & L & _); [lia|].
      assert (Em : k_buf k1 = more).
      { rewrite Bk, Esk. rewrite Hp in B. rewrite <- (firstn_skipn (N.to_nat (k_skip k)) (k_buf k)) in B.
        rewrite app_assoc in B. apply app_eq_len in B as [_ B]; [exact B|].
        rewrite app_length, firstn_length. unfold lenN in *. lia. }
      assert (Cf : calm (wire1 f)) by (rewrite B in Ht; eapply calm_left, Ht; exact Hs).
      specialize (IH k1 c more). fold hw in IH. rewrite Em in IH.
      destruct IH as [(c' & R)|[(R & acts & Q)|(r & c' & R & c0 & acts & Q1 & Q2 & Q3 & Q4)]].
      { unfold lenN in *. rewrite Em in Lk. lia. } { assumption. }
      { left. split; [|exact Em]. unfold k1. cbn [k_skip set_sizes]. lia. }
      { unfold k1. cbn [k_skip set_sizes]. lia. } { rewrite <- Em. lia. } { left. unfold k1. cbn [k_skip set_sizes]. lia. }
      { left. exists c'. exact R. }
      { right. left. split; [exact R|]. exists acts. intro more'. rewrite B, <- app_assoc.
        apply ra_skip; [assumption|assumption|lia|]. apply Q. }
      right. right. exists r, c'. split; [exact R|]. exists c0, acts. split; [assumption|]. split; [assumption|].
      split; [assumption|]. destruct r as [k'|].
      * destruct Q4 as (-> & pend' & Q5 & Q5' & Q6 & Q7 & Q10). split; [reflexivity|].
        exists pend'. split; [assumption|]. split; [assumption|]. split; [assumption|]. split; [lia|].
        intros more' a2 q R'. rewrite B, <- app_assoc. apply ra_skip; [assumption|assumption|lia|]. apply Q10. exact R'.
      * destruct Q4 as (-> & Q5). split; [reflexivity|]. intros more'. rewrite B, <- app_assoc.
        apply ra_skip; [assumption|assumption|lia|]. apply Q5.
    + (* still in the middle of it *)
      assert (Esk : skip = lenN (k_buf k)) by (unfold skip; lia).
      assert (Em : k_buf k1 = []) by (apply lenN_0; lia).
      specialize (IH k1 c pend). fold hw in IH.
      assert (I : incomplete pend).
      { apply incomplete_iff. rewrite HT. split; [|lia]. intro Bd. apply bad_header_total in Bd. congruence. }
      destruct IH as [(c' & R)|[(R & acts & Q)|(r & c' & R & c0 & acts & Q1 & Q2 & Q3 & Q4)]].
      { rewrite Em. cbn [length]. unfold lenN in *. lia. } { assumption. }
      { right. exists pend, T. rewrite Em, app_nil_r. unfold k1. cbn [k_skip set_sizes].
        split; [reflexivity|]. split; [assumption|]. split; [assumption|]. lia. }
      { intros _. now apply Ht. } { rewrite Em, lenN_nil. lia. } { auto. }
      { left. exists c'. exact R. }
      { right. left. split; [exact R|]. exists acts. exact Q. }
      right. right. exists r, c'. split; [exact R|]. exists c0, acts. split; [assumption|]. split; [assumption|].
      split; [assumption|]. destruct r as [k'|]; [|assumption].
      destruct Q4 as (-> & pend' & Q5 & Q5' & Q6 & Q7 & Q8). split; [reflexivity|].
      exists pend'. split; [assumption|]. split; [assumption|]. split; [assumption|]. split; [lia|assumption].
Qed.

(** ** Whole runs *)
Lemma total_of_4 bs T : total_of bs = Some T -> 4 <= lenN bs.
Proof. unfold total_of. destruct (lenN bs <? 4) eqn:E; [discriminate|lia]. Qed.

Lemma at_calm hw k pend chunk : at_ hw k pend -> calm pend -> 0 < k_skip k -> calm (pend ++ chunk).
Proof.
  intros [[H1 _]|(gone & T & _ & HT & _)] C Hk; [lia|]. apply calm_app; [exact C|]. eapply total_of_4, HT.
Qed.

Definition explained_any (lost : bool) (a : args) (id : nat) (H : list ev) (c : ctx) : Prop :=
  let hw := capture_highwater a in
  match find_conn id (x_conns c) with
  | Some k => exists pend, at_ hw k pend /\ calm pend /\ settled hw k pend /\ lenN (k_buf k) <= hw /\
      forall more a2 q, reacts_any lost hw (a_ctype a) (phase_of (k_state k)) (pend ++ more) a2 q ->
        reacts_any lost hw (a_ctype a) Ph_ready (received id H ++ more) (acts_of id (x_log c) ++ a2) q
  | None => exists q, q <> Endless /\ reacts_any lost hw (a_ctype a) Ph_ready (received id H) (acts_of id (x_log c)) q
  end.

Lemma explained_any_some lost a id H c k : find_conn id (x_conns c) = Some k -> explained_any lost a id H c ->
  reacts_any lost (capture_highwater a) (a_ctype a) Ph_ready (received id H) (acts_of id (x_log c)) (Open_at (phase_of (k_state k))).
Proof.
  intros F E. unfold explained_any in E. rewrite F in E. destruct E as (pend & _ & C & [I _] & _ & E).
  specialize (E [] [] (Open_at (phase_of (k_state k)))). rewrite !app_nil_r in E. apply E. now apply ra_wait.
Qed.

Lemma reach_explained_any lost e a id : (sends e \/ lost = true) -> forall H c, reach e a H c -> explained_any lost a id H c.
Proof.
  intro Hsend. induction 1 as [c B|H c x c' R IH L S].
  { apply boot_inv in B. destruct B as (_ & _ & B1 & B2). unfold explained_any. rewrite B1, B2. cbn [find_conn].
    exists (Open_at Ph_ready). split; [discriminate|]. apply ra_wait; [apply incomplete_nil|apply calm_nil]. }
  destruct (reach_inv _ _ _ _ R) as [C F].
  pose proof (reach_step _ _ _ _ _ _ R L S) as R'. destruct (reach_inv _ _ _ _ R') as [C' F'].
  destruct x as [i|i chunk|i|i| |]; cbn [step legal] in *.
  - (* accept *)
    injection S as <-. destruct L as [_ L]. unfold explained_any. cbn [cb_accept_conn x_conns set_conns x_log find_conn].
    rewrite received_snoc, app_nil_r. destruct (Nat.eqb_spec i id) as [->|Hne]; [|exact IH].
    unfold explained_any in IH. assert (N : find_conn id (x_conns c) = None).
    { apply find_none. intro I. apply L. exact (cn_acc _ _ _ C _ I). }
    rewrite N in IH.
    assert (R0 : received id H = [] /\ acts_of id (x_log c) = []).
    { clear - R L. revert L. induction R as [c B|H c x c' R IH Lg S]; intro L.
      - apply boot_inv in B. destruct B as (_ & _ & _ & ->). split; reflexivity.
      - assert (L' : ~ accepted id H) by (intro A; apply L; unfold accepted; apply in_or_app; now left).
        specialize (IH L'). destruct IH as [IH1 IH2]. destruct (reach_inv _ _ _ _ R) as [C F].
        rewrite received_snoc, IH1. cbn [app].
        assert (Hid : forall i k, find_conn i (x_conns c) = Some k -> i <> id).
        { intros i k Hf ->. apply L'. apply (cn_acc _ _ _ C). eapply find_some_in. exact Hf. }
        destruct x as [i|i chunk|i|i| |]; cbn [step legal] in *.
        + injection S as <-. split; [reflexivity|exact IH2].
        + destruct Lg as (_ & k & Fk & _). specialize (Hid _ _ Fk).
          destruct (Nat.eqb_spec i id); [contradiction|]. split; [reflexivity|]. rewrite Fk in S. unfold cb_read in S.
          destruct (read_loop e a _ i _ c) as [[r c1]| | |] eqn:RL; cbn [rbind] in S; try discriminate.
          apply read_loop_evolves in RL; [|assumption]. destruct r as [k1|].
          * destruct RL as [(_ & _ & acts & E) _]. injection S as <-. cbn [x_log set_conns].
            rewrite E, acts_of_app, IH2. now apply acts_of_other.
          * destruct RL as (c0 & [(_ & _ & acts & E) _] & ->). injection S as <-. cbn [x_log cb_close_conn set_conns].
            rewrite E, acts_of_app, IH2. now apply acts_of_other.
        + destruct (find_conn i (x_conns c)) as [k|]; [|discriminate]. injection S as <-. split; [reflexivity|].
          unfold cb_write. destruct (k_state k); exact IH2.
        + destruct (find_conn i (x_conns c)) as [k|]; [|discriminate]. injection S as <-. auto.
        + split; [reflexivity|]. destruct (x_open c); [|injection S as <-; exact IH2].
          apply rotate_output_inv in S; [|exact F]. destruct S as (_ & -> & _). exact IH2.
        + split; [reflexivity|]. destruct (x_open c); injection S as <-; exact IH2. }
    destruct R0 as [R1 R2]. rewrite R1, R2. exists []. cbn [app].
    split; [left; split; reflexivity|]. split; [apply calm_nil|]. split.
    { split; [apply incomplete_nil|]. split; [intros _; exact I|]. cbn. lia. }
    split; [cbn; lia|]. intros more a2 q' Hr. exact Hr.
  - (* data *)
    destruct L as (Lne & k & Fk & Lb). rewrite Fk in S. unfold cb_read in S.
    destruct (read_loop e a _ i _ c) as [[r c1]| | |] eqn:RL; cbn [rbind] in S; try discriminate.
    destruct (Nat.eqb_spec i id) as [->|Hne].
    + unfold explained_any in IH. rewrite Fk in IH. destruct IH as (pend & A1 & A1' & A2 & A3 & A6).
      set (k1 := mk_conn _ _ _ _ _ (k_buf k ++ chunk)) in *.
      assert (Ht : 0 < k_skip k1 -> calm (pend ++ chunk)).
      { intro Hk. apply (at_calm _ _ _ _ A1 A1' Hk). }
      assert (Lc : 0 < lenN chunk) by (destruct chunk; [contradiction|unfold lenN; cbn [length]; lia]).
      destruct (read_loop_any lost e a id Hsend (Datatypes.S (length (k_buf k1))) k1 c (pend ++ chunk)) as [(c2 & R2)|[(R2 & _)|(r2 & c2 & R2 & Post)]].
      { lia. } { exact F. } { now apply at_more. } { exact Ht. } { exact Lb. }
      { right. right. unfold k1. cbn [k_buf]. rewrite lenN_app. lia. }
      { rewrite RL in R2. discriminate. }
      { rewrite RL in R2. discriminate. }
      rewrite RL in R2. injection R2 as <- <-. destruct Post as (c0 & acts & P1 & P2 & P3 & P4).
      unfold explained_any. rewrite received_snoc, Nat.eqb_refl. destruct r as [k'|].
      * injection S as <-. destruct P4 as (-> & pend' & Q1 & Q1' & Q2 & Q3 & Q6).
        cbn [x_conns x_log set_conns]. destruct P1 as (_ & _ & P1). rewrite P1.
        rewrite find_update by apply (cn_nodup _ _ _ C). rewrite Nat.eqb_refl, Fk.
        exists pend'. split; [assumption|]. split; [assumption|]. split; [assumption|].
        split; [unfold k1 in Q3; cbn [k_buf] in Q3; lia|].
        intros more a2 q Hr. apply Q6 in Hr. rewrite <- app_assoc in Hr. apply A6 in Hr.
        rewrite P3, acts_of_app, acts_of_same. rewrite <- !app_assoc in *. exact Hr.
      * destruct P4 as (-> & Q). injection S as <-. cbn [x_conns x_log set_conns cb_close_conn].
        destruct P1 as (_ & _ & P1). rewrite P1, find_remove by apply (cn_nodup _ _ _ C). rewrite Nat.eqb_refl.
        exists Shut. split; [discriminate|]. specialize (Q []). rewrite app_nil_r in Q. apply A6 in Q.
        rewrite P3, acts_of_app, acts_of_same. exact Q.
    + apply read_loop_evolves in RL; [|assumption].
      unfold explained_any in *. rewrite received_snoc. destruct (Nat.eqb_spec i id); [contradiction|]. rewrite app_nil_r.
      assert (N2 : Nat.eqb id i = false) by (apply Nat.eqb_neq; congruence).
      destruct r as [k'|].
      * destruct RL as [((_ & _ & E1) & _ & acts & E) _]. injection S as <-. cbn [x_conns x_log set_conns].
        rewrite E1, find_update, N2 by apply (cn_nodup _ _ _ C).
        rewrite E, acts_of_app, (acts_of_other _ _ _ Hne), app_nil_r. exact IH.
      * destruct RL as (c0 & [((_ & _ & E1) & _ & acts & E) _] & ->). injection S as <-.
        cbn [x_conns x_log set_conns cb_close_conn]. rewrite E1, find_remove, N2 by apply (cn_nodup _ _ _ C).
        rewrite E, acts_of_app, (acts_of_other _ _ _ Hne), app_nil_r. exact IH.
  - (* written *)
    destruct (find_conn i (x_conns c)) as [k|] eqn:Fk; [|discriminate]. injection S as <-.
    assert (Cl : explained_any lost a id (H ++ [E_written i]) (cb_close_conn i c)).
    { destruct (find_conn id (x_conns c)) as [k0|] eqn:F0.
      - pose proof (explained_any_some _ _ _ _ _ _ F0 IH) as E0. unfold explained_any in *.
        rewrite received_snoc, app_nil_r. cbn [x_conns x_log cb_close_conn set_conns].
        rewrite find_remove by apply (cn_nodup _ _ _ C). destruct (Nat.eqb_spec id i); [eexists; split; [|exact E0]; discriminate|]. exact IH.
      - unfold explained_any in *. rewrite received_snoc, app_nil_r. cbn [x_conns x_log cb_close_conn set_conns].
        rewrite find_remove by apply (cn_nodup _ _ _ C). rewrite F0 in *. destruct (Nat.eqb id i); exact IH. }
    assert (Nc : explained_any lost a id (H ++ [E_written i]) c).
    { unfold explained_any in *. rewrite received_snoc, app_nil_r. exact IH. }
    unfold cb_write. destruct (k_state k); assumption.
  - (* gone *)
    destruct (find_conn i (x_conns c)) as [k|] eqn:Fk; [|discriminate]. injection S as <-.
    destruct (find_conn id (x_conns c)) as [k0|] eqn:F0.
    + pose proof (explained_any_some _ _ _ _ _ _ F0 IH) as E0. unfold explained_any in *.
      rewrite received_snoc, app_nil_r. cbn [x_conns x_log cb_close_conn set_conns].
      rewrite find_remove by apply (cn_nodup _ _ _ C). destruct (Nat.eqb_spec id i); [eexists; split; [|exact E0]; discriminate|]. exact IH.
    + unfold explained_any in *. rewrite received_snoc, app_nil_r. cbn [x_conns x_log cb_close_conn set_conns].
      rewrite find_remove by apply (cn_nodup _ _ _ C). rewrite F0 in *. destruct (Nat.eqb id i); exact IH.
  - destruct (x_open c).
    + apply rotate_output_inv in S; [|exact F]. destruct S as ((_ & _ & S1) & S2 & _).
      unfold explained_any in *. rewrite received_snoc, app_nil_r, S1, S2. exact IH.
    + injection S as <-. unfold explained_any in *. rewrite received_snoc, app_nil_r. exact IH.
  - unfold explained_any in *. rewrite received_snoc, app_nil_r. destruct (x_open c); injection S as <-; exact IH.
Qed.

Lemma run_reacts_any lost e a H c id : (sends e \/ lost = true) -> reach e a H c ->
  exists q, q <> Endless /\
    reacts_any lost (capture_highwater a) (a_ctype a) Ph_ready (received id H) (acts_of id (x_log c)) q /\
    forall k, find_conn id (x_conns c) = Some k -> q = Open_at (phase_of (k_state k)).
Proof.
  intros S R. pose proof (reach_explained_any lost e a id S H c R) as E.
  destruct (find_conn id (x_conns c)) as [k|] eqn:F.
  - exists (Open_at (phase_of (k_state k))). split; [discriminate|]. split; [now apply (explained_any_some lost a id H c k F)|].
    intros k0 [= <-]. reflexivity.
  - unfold explained_any in E. rewrite F in E. destruct E as (q & Hq & E). exists q. split; [exact Hq|]. split; [exact E|]. discriminate.
Qed.

Lemma step_or_endless lost e a H c x : (sends e \/ lost = true) -> output_works e -> reach e a H c -> legal a H c x ->
  (exists c', step e a x c = Go c') \/
  (step e a x c = Hang /\ exists id chunk acts, x = E_data id chunk /\
     reacts_any lost (capture_highwater a) (a_ctype a) Ph_ready (received id (H ++ [x])) acts Endless).
Proof.
  intros Hsend W R L. destruct (reach_inv _ _ _ _ R) as [C F]. pose proof (proj1 F) as Hct.
  destruct x as [i|i chunk|i|i| |]; cbn [step legal] in *; try solve [left; eauto].
  - destruct L as (Lne & k0 & F0 & Lb). rewrite F0. unfold cb_read.
    pose proof (reach_explained_any lost e a i Hsend H c R) as E. unfold explained_any in E. rewrite F0 in E.
    destruct E as (pend & A1 & A1' & A2 & A3 & A6).
    set (k1 := mk_conn _ _ _ _ _ (k_buf k0 ++ chunk)) in *.
    assert (Ht : 0 < k_skip k1 -> calm (pend ++ chunk)) by (intro Hk; apply (at_calm _ _ _ _ A1 A1' Hk)).
    assert (Lc : 0 < lenN chunk) by (destruct chunk; [contradiction|unfold lenN; cbn [length]; lia]).
    destruct (read_loop_any lost e a i Hsend (Datatypes.S (length (k_buf k1))) k1 c (pend ++ chunk)) as [(c2 & R2)|[(R2 & acts & Q)|(r2 & c2 & R2 & _)]].
    { lia. } { exact F. } { now apply at_more. } { exact Ht. } { exact Lb. }
    { right. right. unfold k1. cbn [k_buf]. rewrite lenN_app. lia. }
    { exfalso. eapply read_loop_no_exit; eassumption. }
    { right. rewrite R2. cbn [rbind]. split; [reflexivity|]. exists i, chunk, (acts_of i (x_log c) ++ acts).
      split; [reflexivity|]. rewrite received_snoc, Nat.eqb_refl. apply A6. specialize (Q []). rewrite app_nil_r in Q. exact Q. }
    left. rewrite R2. cbn [rbind]. destruct r2; eauto.
  - left. destruct (find_conn i (x_conns c)); [eauto|contradiction].
  - left. destruct (find_conn i (x_conns c)); [eauto|contradiction].
  - left. destruct (x_open c); [now apply rotate_works|eauto].
Qed.

Lemma hang_exactly e a H c x : sends e -> output_works e -> reach e a H c -> legal a H c x ->
  (step e a x c = Hang <-> exists id chunk acts, x = E_data id chunk /\
     reacts_any false (capture_highwater a) (a_ctype a) Ph_ready (received id (H ++ [x])) acts Endless) /\
  (step e a x c = Hang \/ exists c', step e a x c = Go c').
Proof.
  intros S W R L. destruct (step_or_endless false e a H c x (or_introl S) W R L) as [(c' & G)|(G & Q)].
  - split; [|right; eauto]. rewrite G. split; [discriminate|]. intros (id & chunk & acts & -> & Q). exfalso.
    destruct (run_reacts_any false e a _ _ id (or_introl S) (reach_step _ _ _ _ _ _ R L G)) as (q & Hq & Q' & _).
    destruct (ra_fun _ _ _ _ _ _ _ _ Q Q') as [_ ->]. now apply Hq.
  - split; [|left; exact G]. split; auto.
Qed.

Lemma runs_agree_any e a H c id e' H' c' id' more :
  sends e -> sends e' -> reach e a H c -> reach e' a H' c' ->
  received id' H' = received id H ++ more ->
  exists later, acts_of id' (x_log c') = acts_of id (x_log c) ++ later /\ (more = [] -> later = []).
Proof.
  intros S S' R R' E.
  destruct (run_reacts_any false e a H c id (or_introl S) R) as (q & _ & Q & _).
  destruct (run_reacts_any false e' a H' c' id' (or_introl S') R') as (q' & _ & Q' & _).
  rewrite E in Q'. destruct (ra_grow _ _ _ _ _ _ Q _ _ _ Q') as (b & -> & _ & _ & Hb). exists b. split; [reflexivity|].
  intro M. apply Hb. exact M.
Qed.

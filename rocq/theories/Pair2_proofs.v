(** The capture server as the partner of a writer that behaves. *)
From Coq Require Import ZArith Lia.
From Verif Require Import Bytes Spec SpecTrace SpecStream Control Bytes_proofs Control_proofs Io Rdwr Writer Api SpecApi SpecDeliver SpecPair Capture SpecCapture Pair Pair_proofs
  Capture_proofs Capture2_proofs Capture3_proofs Capture4_proofs Capture5_proofs Capture6_proofs Capture7_proofs Capture8_proofs Deliver_proofs.
Import ListNotations.
Local Open Scope N_scope.

(** ** Why a connection is closed *)
Lemma read_loop_hangs e a id : forall fuel k c c', read_loop e a fuel id k c = Go (None, c') ->
  exists c0, c' = cb_close_conn id (note c0 id Hangup).
Proof.
  induction fuel as [|fuel IH]; intros k c c' H; [discriminate|]. cbn [read_loop] in H.
  destruct (lenN (k_buf k) =? 0); [discriminate|]. destruct (k_skip k =? 0); [|exact (IH _ _ _ H)].
  destruct (can_read_full_frame a k) as [|k1|k1]; [injection H as <-; eauto|discriminate|].
  destruct (0 <? k_payload k1).
  - destruct (process_data_frame e id k1 c) as [[k2 c1]| | |]; try discriminate. cbn [rbind] in H.
    destruct (maybe_rotate_output e a c1) as [c2| | |]; try discriminate. exact (IH _ _ _ H).
  - destruct (load_control_frame k1) as [[[|] k2]|]; try discriminate; [|injection H as <-; eauto].
    destruct (process_control_frame e a id k2 c) as [[[[|] k3] c1]| | |]; try discriminate; cbn [rbind] in H; [exact (IH _ _ _ H)|].
    injection H as <-. eauto.
Qed.

Lemma acts_note id c i x : acts_of id (x_log (note c i x)) = acts_of id (x_log c) ++ (if Nat.eqb i id then [x] else []).
Proof. cbn [x_log note]. rewrite acts_of_app. unfold acts_of at 2. cbn [map concat fst snd]. rewrite app_nil_r. reflexivity. Qed.

(** Logs grow; a connection's entry changes only through its own events. *)
Lemma step_acts e a H c x c' : reach e a H c -> step e a x c = Go c' ->
  exists later, x_log c' = x_log c ++ later.
Proof.
  intros R S. destruct (reach_inv _ _ _ _ R) as [C F].
  destruct x as [i|i chunk|i|i| |]; cbn [step] in S.
  - injection S as <-. exists []. cbn. rewrite app_nil_r. reflexivity.
  - destruct (find_conn i (x_conns c)) as [k|]; [|discriminate]. unfold cb_read in S.
    destruct (read_loop e a _ i _ c) as [[r c1]| | |] eqn:RL; cbn [rbind] in S; try discriminate.
    apply read_loop_evolves in RL; [|assumption]. destruct r as [k1|].
    + destruct RL as [(_ & _ & acts & E) _]. injection S as <-. cbn [x_log set_conns]. eauto.
    + destruct RL as (c0 & [(_ & _ & acts & E) _] & ->). injection S as <-. cbn [x_log cb_close_conn set_conns]. eauto.
  - destruct (find_conn i (x_conns c)) as [k|]; [|discriminate]. injection S as <-. exists []. rewrite app_nil_r.
    unfold cb_write. destruct (k_state k); reflexivity.
  - destruct (find_conn i (x_conns c)) as [k|]; [|discriminate]. injection S as <-. exists []. rewrite app_nil_r. reflexivity.
  - exists []. rewrite app_nil_r. destruct (x_open c); [|injection S as <-; reflexivity].
    apply rotate_output_inv in S; [|exact F]. destruct S as (_ & -> & _). reflexivity.
  - exists []. rewrite app_nil_r. destruct (x_open c); injection S as <-; reflexivity.
Qed.

Definition ended (id : nat) (H : list ev) (c : ctx) : Prop :=
  In (E_gone id) H \/ In Hangup (acts_of id (x_log c)) \/ In (Answer finish_frame) (acts_of id (x_log c)).

Lemma closed_why e a id : forall H c, reach e a H c -> accepted id H -> find_conn id (x_conns c) = None -> ended id H c.
Proof.
  induction 1 as [c B|H c x c' R IH L S]; intros A N; [destruct A|].
  destruct (reach_inv _ _ _ _ R) as [C F]. pose proof (cn_nodup _ _ _ C) as ND.
  destruct (step_acts _ _ _ _ _ _ R S) as (later & LG).
  assert (KEEP : ended id H c -> ended id (H ++ [x]) c').
  { unfold ended. rewrite LG, acts_of_app. intros [E|[E|E]]; [left|right; left|right; right]; apply in_or_app; left; exact E. }
  assert (OLD : find_conn id (x_conns c) = None -> accepted id H -> ended id (H ++ [x]) c') by (intros; apply KEEP; auto).
  unfold accepted in A. apply in_app_or in A.
  destruct x as [i|i chunk|i|i| |]; cbn [step legal] in *.
  - injection S as <-. cbn [x_conns cb_accept_conn set_conns find_conn] in N.
    destruct (Nat.eqb_spec i id) as [->|NE]; [discriminate|].
    destruct A as [A|[A|[]]]; [auto|congruence].
  - destruct A as [A|[A|[]]]; [|discriminate].
    destruct L as (_ & k & Fk & _). rewrite Fk in S. unfold cb_read in S.
    destruct (read_loop e a _ i _ c) as [[r c1]| | |] eqn:RL; cbn [rbind] in S; try discriminate.
    pose proof RL as RL0. apply read_loop_evolves in RL; [|assumption]. destruct r as [k1|].
    + destruct RL as [((_ & _ & E1) & _) _]. injection S as <-. cbn [x_conns set_conns] in N.
      rewrite E1, find_update in N by assumption. destruct (Nat.eqb_spec id i) as [->|NE]; [rewrite Fk in N; discriminate|auto].
    + destruct RL as (c0 & [((_ & _ & E1) & _) _] & ->). injection S as <-. cbn [x_conns set_conns cb_close_conn] in N.
      rewrite E1, find_remove in N by assumption. destruct (Nat.eqb_spec id i) as [->|NE]; [|auto].
      apply read_loop_hangs in RL0 as (c2 & E2). rewrite E2. right. left. cbn [x_log cb_close_conn set_conns].
      rewrite acts_note, Nat.eqb_refl. apply in_or_app. right. left. reflexivity.
  - destruct A as [A|[A|[]]]; [|discriminate].
    destruct (Nat.eqb_spec i id) as [->|NE].
    + pose proof (proj1 (any_written_closes e a H c id c' R L S) N) as I. right. right. rewrite LG, acts_of_app. apply in_or_app. left. exact I.
    + destruct (find_conn i (x_conns c)) as [k|] eqn:Fk; [|discriminate]. injection S as <-.
      unfold cb_write in *. destruct (k_state k); try (apply OLD; assumption).
      cbn [x_conns set_conns cb_close_conn] in N. rewrite find_remove in N by assumption.
      destruct (Nat.eqb_spec id i); [congruence|auto].
  - destruct A as [A|[A|[]]]; [|discriminate].
    destruct (Nat.eqb_spec i id) as [->|NE]; [left; apply in_or_app; right; left; reflexivity|].
    destruct (find_conn i (x_conns c)) as [k|] eqn:Fk; [|discriminate]. injection S as <-.
    cbn [x_conns set_conns cb_close_conn] in N. rewrite find_remove in N by assumption.
    destruct (Nat.eqb_spec id i); [congruence|auto].
  - destruct A as [A|[A|[]]]; [|discriminate].
    destruct (x_open c); [|injection S as <-; auto].
    apply rotate_output_inv in S; [|exact F]. destruct S as ((_ & _ & S1) & _). rewrite S1 in N. auto.
  - destruct A as [A|[A|[]]]; [|discriminate]. destruct (x_open c); injection S as <-; auto.
Qed.

(** Nothing happens on a connection before it is accepted. *)
Lemma unseen e a id : forall H c, reach e a H c -> ~ accepted id H ->
  SpecCapture.received id H = [] /\ acts_of id (x_log c) = [] /\ ~ In (E_gone id) H.
Proof.
  induction 1 as [c B|H c x c' R IH Lg S]; intro L.
  - apply boot_inv in B. destruct B as (_ & _ & _ & ->). split; [reflexivity|]. split; [reflexivity|intros []].
  - assert (L' : ~ accepted id H) by (intro A; apply L; unfold accepted; apply in_or_app; now left).
    specialize (IH L'). destruct IH as (IH1 & IH2 & IH3). destruct (reach_inv _ _ _ _ R) as [C F].
    rewrite received_snoc, IH1. cbn [app].
    assert (Hid : forall i k, find_conn i (x_conns c) = Some k -> i <> id).
    { intros i k Hf ->. apply L'. apply (cn_acc _ _ _ C). eapply find_some_in. exact Hf. }
    assert (NG : x <> E_gone id -> ~ In (E_gone id) (H ++ [x])).
    { intros NE I. apply in_app_or in I as [I|[I|[]]]; [exact (IH3 I)|exact (NE I)]. }
    destruct x as [i|i chunk|i|i| |]; cbn [step legal] in *.
    + injection S as <-. split; [reflexivity|]. split; [exact IH2|apply NG; discriminate].
    + destruct Lg as (_ & k & Fk & _). specialize (Hid _ _ Fk).
      destruct (Nat.eqb_spec i id); [contradiction|]. split; [reflexivity|]. split; [|apply NG; discriminate]. rewrite Fk in S. unfold cb_read in S.
      destruct (read_loop e a _ i _ c) as [[r c1]| | |] eqn:RL; cbn [rbind] in S; try discriminate.
      apply read_loop_evolves in RL; [|assumption]. destruct r as [k1|].
      * destruct RL as [(_ & _ & acts & E) _]. injection S as <-. cbn [x_log set_conns].
        rewrite E, acts_of_app, IH2. now apply acts_of_other.
      * destruct RL as (c0 & [(_ & _ & acts & E) _] & ->). injection S as <-. cbn [x_log cb_close_conn set_conns].
        rewrite E, acts_of_app, IH2. now apply acts_of_other.
    + destruct (find_conn i (x_conns c)) as [k|]; [|discriminate]. injection S as <-. split; [reflexivity|].
      split; [|apply NG; discriminate]. unfold cb_write. destruct (k_state k); exact IH2.
    + destruct (find_conn i (x_conns c)) as [k|] eqn:Fk; [|discriminate]. injection S as <-. split; [reflexivity|]. split; [exact IH2|].
      apply NG. specialize (Hid _ _ Fk). congruence.
    + split; [reflexivity|]. split; [|apply NG; discriminate]. destruct (x_open c); [|injection S as <-; exact IH2].
      apply rotate_output_inv in S; [|exact F]. destruct S as (_ & -> & _). exact IH2.
    + split; [reflexivity|]. split; [|apply NG; discriminate]. destruct (x_open c); injection S as <-; exact IH2.
Qed.

(** ** The reaction to a session, whole or in part *)
Lemma prefix_trans {T} (x y z : list T) : prefix x y -> prefix y z -> prefix x z.
Proof. intros [u ->] [v ->]. exists (u ++ v). apply eq_sym, app_assoc. Qed.
Lemma prefix_in {T} (x y : list T) v : prefix x y -> In v x -> In v y.
Proof. intros [u ->] I. apply in_or_app. auto. Qed.
Lemma answers_prefix x y : prefix x y -> prefix (concat (answers x)) (concat (answers y)).
Proof. intros [u ->]. unfold answers. rewrite map_app, !concat_app. eexists. reflexivity. Qed.
Section Session.
Variables (hw : N) (cts : list bytes) (sct : bytes).
Hypothesis agreed : agree cts sct.
Hypothesis ready_ok : fits true T_READY cts.
Hypothesis ready_small : lenN (ready_frame cts) < 512.
Hypothesis sct_ok : lenN sct <= CT_MAX.
Hypothesis room : 512 <= hw.

Definition kept_of (ds : list bytes) : list act := map Store (map data_frame (filter (fun d => lenN (data_frame d) <=? hw) ds)).

Lemma ready_ctl_ok : ctl_ok T_READY cts.
Proof using All.
  destruct ready_ok as [F L]. split; try discriminate; auto.
  - unfold known_type. intuition.
  - cbn [ctl_wire] in L. unfold ctl_frame in L. rewrite !lenN_app in L. lia.
  - intros [E|E]; discriminate E.
Qed.
Lemma start_small : lenN (start_frame (hd_error cts)) <= 8 + 4 + 8 + 256.
Proof using All.
  unfold start_frame, ctl_frame, ctl_payload, ct_field. destruct ready_ok as [F _]. destruct cts as [|x l]; cbn [hd_error optl map concat].
  - vm_compute. discriminate.
  - inversion F; subst. unfold CT_MAX in *. rewrite !lenN_app, !lenN_be32, lenN_nil. lia.
Qed.
Lemma start_ctl_ok : ctl_ok T_START (optl (hd_error cts)).
Proof using All.
  pose proof start_small as S. unfold start_frame, ctl_frame in S. rewrite !lenN_app, !lenN_be32 in S.
  destruct ready_ok as [F _]. split; try discriminate.
  - unfold known_type. intuition.
  - destruct cts; cbn [hd_error optl]; [constructor|]. inversion F; subst. repeat constructor. assumption.
  - unfold CTL_MAX. lia.
  - intros _. destruct cts; cbn; lia.
  - intros [E|E]; discriminate E.
Qed.

Lemma react_ready : forall more acts q, reacts_any false hw sct Ph_start more acts q ->
  reacts_any false hw sct Ph_ready (ready_frame cts ++ more) (Answer (ACC sct) :: acts) q.
Proof using All.
  intros more acts q R. change (Answer (ACC sct) :: acts) with ([Answer (ctl_frame T_ACCEPT [sct])] ++ acts).
  change (ready_frame cts) with (wire1 (F_ctl (ctl_payload T_READY cts))).
  eapply ra_ctl; [| | |apply ad_ready; [exact ready_ctl_ok|]|exact R].
  - split; [apply payload_ge4|apply ready_ctl_ok].
  - change (lenN (ready_frame cts) <= hw). lia.
  - exact ready_small.
  - destruct agreed as [->|E]; [left; reflexivity|right]. destruct cts; [discriminate|]. injection E as ->. left. reflexivity.
Qed.
Lemma react_start : forall more acts q, reacts_any false hw sct Ph_data more acts q ->
  reacts_any false hw sct Ph_start (start_frame (hd_error cts) ++ more) acts q.
Proof using All.
  intros more acts q R. pose proof start_small as S. change acts with ([] ++ acts).
  change (start_frame (hd_error cts)) with (wire1 (F_ctl (ctl_payload T_START (optl (hd_error cts))))) in *.
  eapply ra_ctl; [| | |apply ad_start; [exact start_ctl_ok|]|exact R].
  - split; [apply payload_ge4|apply start_ctl_ok].
  - lia.
  - lia.
  - destruct agreed as [->|E]; [left; reflexivity|right]. rewrite E. left. reflexivity.
Qed.
Lemma react_datas ds : Forall ordinary ds -> forall more acts q, reacts_any false hw sct Ph_data more acts q ->
  reacts_any false hw sct Ph_data (datas ds ++ more) (kept_of ds ++ acts) q.
Proof using All.
  induction 1 as [|d ds O F IH]; intros more acts q R; [exact R|].
  assert (E : datas (d :: ds) = data_frame d ++ datas ds) by reflexivity. rewrite E, <- app_assoc.
  destruct (plain_data d O) as [P1 P2]. specialize (IH _ _ _ R). unfold kept_of in *. cbn [filter].
  destruct (lenN (data_frame d) <=? hw) eqn:EL.
  - cbn [map app]. apply ra_data; auto. apply N.leb_le, EL.
  - apply N.leb_gt in EL. apply (ra_skip _ _ _ _ (F_data d)); auto.
Qed.
Lemma react_stop : reacts_any false hw sct Ph_data stop_frame [Answer finish_frame] (Open_at Ph_stop).
Proof using All.
  rewrite <- (app_nil_r stop_frame). change [Answer finish_frame] with ([Answer finish_frame] ++ []).
  change stop_frame with (wire1 (F_ctl (ctl_payload T_STOP []))).
  eapply ra_ctl; [| | |apply ad_stop|].
  - vm_compute. split; discriminate.
  - apply N.le_trans with 512; [vm_compute; discriminate|exact room].
  - reflexivity.
  - apply ra_wait; [apply incomplete_nil|apply calm_nil].
Qed.
Lemma react_none ph : reacts_any false hw sct ph [] [] (Open_at ph).
Proof using All. apply ra_wait; [apply incomplete_nil|apply calm_nil]. Qed.

Lemma react_open ds : Forall ordinary ds ->
  reacts_any false hw sct Ph_ready (HEAD cts ++ datas ds) (Answer (ACC sct) :: kept_of ds) (Open_at Ph_data).
Proof using All.
  intro F. unfold HEAD. rewrite <- app_assoc. apply react_ready, react_start.
  rewrite <- (app_nil_r (datas ds)), <- (app_nil_r (kept_of ds)). apply react_datas; [exact F|apply react_none].
Qed.
Lemma react_whole ds : Forall ordinary ds ->
  reacts_any false hw sct Ph_ready (HEAD cts ++ datas ds ++ stop_frame) (Answer (ACC sct) :: kept_of ds ++ [Answer finish_frame]) (Open_at Ph_stop).
Proof using All. intro F. unfold HEAD. rewrite <- app_assoc. apply react_ready, react_start, react_datas; [exact F|apply react_stop]. Qed.
Lemma react_readied : reacts_any false hw sct Ph_ready (ready_frame cts) [Answer (ACC sct)] (Open_at Ph_start).
Proof using All. rewrite <- (app_nil_r (ready_frame cts)). apply react_ready. apply react_none. Qed.

Lemma no_hangup_kept ds : ~ In Hangup (kept_of ds).
Proof using All. unfold kept_of. intro I. apply in_map_iff in I as (x & E & _). discriminate. Qed.
Lemma no_finish_kept ds : ~ In (Answer finish_frame) (kept_of ds).
Proof using All. unfold kept_of. intro I. apply in_map_iff in I as (x & E & _). discriminate. Qed.
Lemma answers_kept ds : answers (kept_of ds) = [].
Proof using All. unfold kept_of. induction (map data_frame _); [reflexivity|exact IHl]. Qed.
Lemma acc_not_finish : Answer (ACC sct) <> Answer finish_frame.
Proof using All. intros [=]. Qed.

(** ** What a server does on a connection on which a session is sent *)
Variables (e : env) (a : args) (i : nat) (H : list ev) (c : ctx) (s : bytes).
Hypothesis hw_is : hw = capture_highwater a.
Hypothesis ct_is : sct = a_ctype a.
Hypothesis SE : sends e.
Hypothesis RE : reach e a H c.
Hypothesis PR : prefix (SpecCapture.received i H) s.
Notation A := (acts_of i (x_log c)).

Lemma follows acts q : reacts_any false hw sct Ph_ready s acts q -> prefix A acts.
Proof using All.
  intro R. destruct (run_reacts_any false e a H c i (or_introl SE) RE) as (q0 & _ & R0 & _). subst hw sct. destruct PR as [more ->].
  destruct (ra_grow _ _ _ _ _ _ R0 _ _ _ R) as (b & -> & _). exists b. reflexivity.
Qed.
Lemma follows_all acts q : SpecCapture.received i H = s -> reacts_any false hw sct Ph_ready s acts q -> A = acts.
Proof using All.
  intros E R. destruct (run_reacts_any false e a H c i (or_introl SE) RE) as (q0 & _ & R0 & _). subst hw sct. rewrite E in R0.
  exact (proj1 (ra_fun _ _ _ _ _ _ _ _ R R0)).
Qed.

Lemma talk_whole : talk cts s -> exists ds, Forall ordinary ds /\ prefix s (HEAD cts ++ datas ds ++ stop_frame).
Proof using All.
  intros [[->|[->|(ds & F & ->)]]|(ds & F & ->)].
  - exists []. split; [constructor|]. eexists. reflexivity.
  - exists []. split; [constructor|]. unfold HEAD. rewrite <- app_assoc. eexists. reflexivity.
  - exists ds. split; [exact F|]. rewrite app_assoc. eexists. reflexivity.
  - exists ds. split; [exact F|]. exists []. rewrite app_nil_r. reflexivity.
Qed.
End Session.

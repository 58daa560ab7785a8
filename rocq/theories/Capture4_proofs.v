(** Proofs about the model of fstrm_capture: invariants of whole runs. *)
From Coq Require Import ZArith Lia.
From Verif Require Import Bytes Spec SpecTrace SpecStream Control Bytes_proofs Control_proofs Capture SpecCapture
  Capture_proofs Capture2_proofs Capture3_proofs.
Import ListNotations.
Local Open Scope N_scope.

(** ** What the loop keeps on any input *)
Lemma write_control_frame_keeps e id (P : ctx -> Prop) ctl c ok c' :
  (forall c b, P c -> P (snd (send_frame e id b c))) ->
  P c -> write_control_frame e id ctl c = Go (ok, c') -> P c'.
Proof.
  intros HS Hc H. unfold write_control_frame in H.
  destruct (encode_frame ctl) as [[b|]|]; [|congruence|discriminate].
  injection H as H. specialize (HS c b Hc). rewrite H in HS. exact HS.
Qed.

Lemma process_control_keeps e a id (P : ctx -> Prop) k c ok k' c' :
  (forall c b, P c -> P (snd (send_frame e id b c))) ->
  P c -> process_control_frame e a id k c = Go (ok, k', c') -> P c'.
Proof.
  intros HS Hc H. unfold process_control_frame in H.
  destruct (control_get_type (k_ctl k)) as [[] [t|]]; try congruence.
  destruct (k_state k); [| | |congruence].
  - destruct (t =? FSTRM_CONTROL_READY); cbn [negb] in H; [|congruence]. unfold process_control_frame_ready in H.
    destruct (control_get_num (k_ctl k)) as [[] n]; try congruence.
    destruct (match_content_type a k); [|congruence].
    destruct (control_set_type _ _) as [[] k1]; try congruence.
    destruct (control_add_field _ _) as [[] k2]; try congruence.
    destruct (write_control_frame e id k2 c) as [[ok1 c1]| | |] eqn:W; cbn [rbind] in H; try discriminate.
    pose proof (write_control_frame_keeps _ _ _ _ _ _ _ HS Hc W). destruct ok1; congruence.
  - destruct (t =? FSTRM_CONTROL_START); cbn [negb] in H; [|congruence]. unfold process_control_frame_start in H.
    destruct (match_content_type a k); congruence.
  - destruct (t =? FSTRM_CONTROL_STOP); cbn [negb] in H; [|congruence]. unfold process_control_frame_stop in H.
    destruct (control_set_type _ _) as [[] k1]; try congruence.
    destruct (write_control_frame e id k1 c) as [[ok1 c1]| | |] eqn:W; cbn [rbind] in H; try discriminate.
    pose proof (write_control_frame_keeps _ _ _ _ _ _ _ HS Hc W). destruct ok1; congruence.
Qed.

Lemma read_loop_keeps e a id (P : ctx -> Prop)
  (HD : forall k c k' c', P c -> process_data_frame e id k c = Go (k', c') -> P c')
  (HR : forall c c', P c -> maybe_rotate_output e a c = Go c' -> P c')
  (HS : forall c b, P c -> P (snd (send_frame e id b c)))
  (HH : forall c, P c -> P (note c id Hangup)) :
  forall fuel k c r c', P c -> read_loop e a fuel id k c = Go (r, c') ->
  match r with Some _ => P c' | None => exists c0, P c0 /\ c' = cb_close_conn id c0 end.
Proof.
  induction fuel as [|fuel IH]; intros k c r c' Hc H; [discriminate|]. cbn [read_loop] in H.
  destruct (lenN (k_buf k) =? 0). { injection H as <- <-. exact Hc. }
  destruct (k_skip k =? 0); [|exact (IH _ _ _ _ Hc H)].
  destruct (can_read_full_frame a k) as [|k1|k1].
  - injection H as <- <-. eauto.
  - injection H as <- <-. exact Hc.
  - destruct (0 <? k_payload k1).
    + destruct (process_data_frame e id k1 c) as [[k2 c1]| | |] eqn:PD; cbn [rbind] in H; try discriminate.
      pose proof (HD _ _ _ _ Hc PD) as H1.
      destruct (maybe_rotate_output e a c1) as [c2| | |] eqn:MR; cbn [rbind] in H; try discriminate.
      exact (IH _ _ _ _ (HR _ _ H1 MR) H).
    + destruct (load_control_frame k1) as [[[|] k2]|]; [|injection H as <- <-; eauto|discriminate].
      destruct (process_control_frame e a id k2 c) as [[[ok k3] c1]| | |] eqn:PC; cbn [rbind] in H; try discriminate.
      pose proof (process_control_keeps _ _ _ _ _ _ _ _ _ HS Hc PC) as H1.
      destruct ok; [exact (IH _ _ _ _ H1 H)|]. injection H as <- <-. eauto.
Qed.

(** A change made on behalf of connection [id]. *)
Definition evolves (a : args) (id : nat) (c c' : ctx) : Prop :=
  same_conns c c' /\ (files_open a c -> files_open a c') /\
  exists acts, x_log c' = x_log c ++ map (pair id) acts.

Lemma evolves_refl a id c : evolves a id c c.
Proof. split; [apply same_conns_refl|]. split; [auto|]. exists []. now rewrite app_nil_r. Qed.
Lemma evolves_trans a id c1 c2 c3 : evolves a id c1 c2 -> evolves a id c2 c3 -> evolves a id c1 c3.
Proof.
  intros (A1 & A2 & x & A3) (B1 & B2 & y & B3). split; [eapply same_conns_trans; eassumption|]. split; [auto|].
  exists (x ++ y). rewrite B3, A3, map_app. now rewrite app_assoc.
Qed.

Lemma files_open_note a c id x : (forall b, x <> Store b) -> files_open a c -> files_open a (note c id x).
Proof.
  intros Hx (F1 & F2 & fss & cur & F3 & F4). split; [assumption|]. split; [assumption|].
  exists fss, cur. split; [exact F3|]. cbn [x_log note]. rewrite stored_snoc.
  destruct x; [exfalso; eapply Hx; reflexivity| |]; now rewrite app_nil_r.
Qed.

Lemma read_loop_evolves e a id fuel k c r c' : files_open a c ->
  read_loop e a fuel id k c = Go (r, c') ->
  match r with
  | Some _ => evolves a id c c' /\ files_open a c'
  | None => exists c0, (evolves a id c c0 /\ files_open a c0) /\ c' = cb_close_conn id c0
  end.
Proof.
  intros Hf H.
  refine (read_loop_keeps e a id (fun x => evolves a id c x /\ files_open a x) _ _ _ _ fuel k c r c' _ H).
  - intros k0 c0 k1 c1 [E F] PD. destruct (process_data_inv _ a _ _ _ _ _ F PD) as (P1 & P2 & P3 & _).
    split; [|assumption]. eapply evolves_trans; [exact E|]. split; [assumption|]. split; [auto|].
    eexists [_]. exact P2.
  - intros c0 c1 [E F] MR. destruct (maybe_rotate_inv _ _ _ _ F MR) as (M1 & M2 & M3).
    split; [|assumption]. eapply evolves_trans; [exact E|]. split; [assumption|]. split; [auto|].
    exists []. now rewrite app_nil_r.
  - intros c0 b [E F]. unfold send_frame. destruct (e_send e (x_tick c0)); cbn [snd].
    + assert (G : files_open a (note (tick c0) id (Answer b))) by (apply files_open_note; [discriminate|exact F]).
      split; [|exact G]. eapply evolves_trans; [exact E|]. split; [repeat split|]. split; [auto|].
      exists [Answer b]. reflexivity.
    + split; [|exact F]. eapply evolves_trans; [exact E|]. split; [repeat split|]. split; [auto|].
      exists []. now rewrite app_nil_r.
  - intros c0 [E F]. assert (G : files_open a (note c0 id Hangup)) by (apply files_open_note; [discriminate|exact F]).
    split; [|exact G]. eapply evolves_trans; [exact E|]. split; [repeat split|]. split; [auto|].
    exists [Hangup]. reflexivity.
  - split; [apply evolves_refl|exact Hf].
Qed.

(** ** The connection table *)
Lemma find_update id k ks id' : NoDup (map fst ks) ->
  find_conn id' (update_conn id k ks) =
  if Nat.eqb id' id then match find_conn id ks with Some _ => Some k | None => None end else find_conn id' ks.
Proof.
  induction ks as [|[i k0] ks IH]; intro N; [cbn [update_conn remove_conn find_conn]; destruct (Nat.eqb id' id); reflexivity|]. cbn [update_conn find_conn].
  inversion N as [|x l N1 N2]; subst.
  destruct (Nat.eqb_spec i id) as [->|Hne]; cbn [find_conn].
  - rewrite (Nat.eqb_sym id id'). destruct (Nat.eqb id' id); reflexivity.
  - rewrite (IH N2). destruct (Nat.eqb_spec id' id) as [E|Hn']; [subst id'|].
    + destruct (Nat.eqb_spec i id); [contradiction|reflexivity].
    + reflexivity.
Qed.

Lemma find_none id ks : find_conn id ks = None <-> ~ In id (map fst ks).
Proof.
  induction ks as [|[i k0] ks IH]; [cbn; tauto|]. cbn [find_conn map fst In].
  destruct (Nat.eqb_spec i id) as [->|Hne]; [|rewrite IH; tauto].
  split; [discriminate|]. intro H. exfalso. apply H. auto.
Qed.

Lemma update_ids id k ks : map fst (update_conn id k ks) = map fst ks.
Proof.
  induction ks as [|[i k0] ks IH]; [reflexivity|]. cbn [update_conn].
  destruct (Nat.eqb i id); cbn [map fst]; congruence.
Qed.

Lemma remove_in id ks i : In i (map fst (remove_conn id ks)) -> In i (map fst ks).
Proof.
  induction ks as [|[j k0] ks IH]; [auto|]. cbn [remove_conn].
  destruct (Nat.eqb j id); cbn [map fst In]; intuition.
Qed.

Lemma remove_nodup id ks : NoDup (map fst ks) -> NoDup (map fst (remove_conn id ks)).
Proof.
  induction ks as [|[j k0] ks IH]; intro N; [constructor|]. cbn [remove_conn map fst] in *.
  inversion N as [|x l N1 N2]; subst. destruct (Nat.eqb j id); [assumption|].
  cbn [map fst]. constructor; [|auto]. intro I. apply N1. eapply remove_in. exact I.
Qed.

Lemma find_remove id ks id' : NoDup (map fst ks) ->
  find_conn id' (remove_conn id ks) = if Nat.eqb id' id then None else find_conn id' ks.
Proof.
  induction ks as [|[i k0] ks IH]; intro N; [cbn [update_conn remove_conn find_conn]; destruct (Nat.eqb id' id); reflexivity|]. cbn [remove_conn find_conn].
  inversion N as [|x l N1 N2]; subst. destruct (Nat.eqb_spec i id) as [->|Hne]; cbn [find_conn].
  - destruct (Nat.eqb_spec id' id) as [E|Hn']; [subst id'; now apply find_none|].
    rewrite (proj2 (Nat.eqb_neq id id')) by congruence. reflexivity.
  - rewrite (IH N2). destruct (Nat.eqb_spec i id') as [E|]; [|reflexivity].
    rewrite (proj2 (Nat.eqb_neq id' id)) by congruence. reflexivity.
Qed.

Lemma remove_length id ks : In id (map fst ks) -> length ks = S (length (remove_conn id ks)).
Proof.
  induction ks as [|[i k0] ks IH]; [contradiction|]. cbn [remove_conn map fst In].
  destruct (Nat.eqb_spec i id) as [->|Hne]; [reflexivity|]. intros [?|I]; [contradiction|].
  cbn [length]. rewrite (IH I). reflexivity.
Qed.

Lemma find_some_in id ks k : find_conn id ks = Some k -> In id (map fst ks).
Proof. intro F. destruct (in_dec Nat.eq_dec id (map fst ks)) as [|N]; [assumption|]. apply find_none in N. congruence. Qed.

Lemma update_length id k ks : length (update_conn id k ks) = length ks.
Proof. rewrite <- (map_length fst), update_ids. apply map_length. Qed.

(** ** Counting and files: no hypothesis on the peers *)
Record counts (a : args) (H : list ev) (c : ctx) : Prop := {
  cn_nodup : NoDup (map fst (x_conns c));
  cn_acc : forall id, In id (map fst (x_conns c)) -> accepted id H;
  cn_rem : x_remaining c = (remaining0 a - Z.of_nat (length (x_conns c)))%Z;
  cn_listen : x_listen c = if (0 <? a_conns a)%Z then (0 <? x_remaining c)%Z else true }.

Lemma counts_same a H c c' : same_conns c c' -> counts a H c -> counts a H c'.
Proof. intros (E1 & E2 & E3) [C1 C2 C3 C4]. split; rewrite ?E1, ?E2, ?E3; assumption. Qed.

Lemma counts_more a H x c : counts a H c -> counts a (H ++ [x]) c.
Proof.
  intros [C1 C2 C3 C4]. split; try assumption. intros id I. apply in_or_app. left. now apply C2.
Qed.

Lemma counts_close a H c id : In id (map fst (x_conns c)) -> counts a H c -> counts a H (cb_close_conn id c).
Proof.
  intros I [C1 C2 C3 C4]. unfold cb_close_conn. split; cbn [x_conns x_remaining x_listen set_conns].
  - now apply remove_nodup.
  - intros i Hi. apply C2. eapply remove_in. exact Hi.
  - rewrite C3. rewrite (remove_length _ _ I). lia.
  - rewrite C4. unfold remaining0 in *. rewrite (remove_length _ _ I) in C3.
    destruct (0 <? a_conns a)%Z eqn:E; destruct (x_remaining c + 1 =? 1)%Z eqn:E1; lia.
Qed.

Lemma counts_accept a H c id : counts a H c -> ~ accepted id H ->
  counts a (H ++ [E_accept id]) (cb_accept_conn id c).
Proof.
  intros [C1 C2 C3 C4] N. unfold cb_accept_conn. split; cbn [x_conns x_remaining x_listen set_conns map fst].
  - constructor; [|assumption]. intro I. apply N. now apply C2.
  - intros i [<-|I]; apply in_or_app; [right; left; reflexivity|left; now apply C2].
  - rewrite C3. cbn [length]. lia.
  - rewrite C4. unfold remaining0 in *.
    destruct (0 <? a_conns a)%Z eqn:E; destruct (x_remaining c - 1 =? 0)%Z eqn:E1; lia.
Qed.

(** What any step does. *)
Lemma step_counts e a H c x c' : reach e a H c -> counts a H c -> files_open a c ->
  legal a H c x -> step e a x c = Go c' ->
  counts a (H ++ [x]) c' /\ files_open a c'.
Proof.
  intros _ C F L S. destruct x as [id|id chunk|id|id| |]; cbn [step legal] in *.
  - injection S as <-. destruct L as [_ L]. split; [now apply counts_accept|exact F].
  - destruct L as (_ & k & Fk & _). rewrite Fk in S. unfold cb_read in S.
    destruct (read_loop e a _ id _ c) as [[r c1]| | |] eqn:R; cbn [rbind] in S; try discriminate.
    apply read_loop_evolves in R; [|assumption]. destruct r as [k1|].
    + destruct R as [(E1 & _) F1]. injection S as <-. split; [|exact F1].
      apply counts_more. destruct (counts_same _ _ _ _ E1 C) as [C1 C2 C3 C4].
      split; cbn [x_conns x_remaining x_listen set_conns]; rewrite ?update_ids, ?update_length; assumption.
    + destruct R as (c0 & [(E1 & _) F1] & ->). injection S as <-. split; [|exact F1].
      apply counts_more, counts_close; [|eapply counts_same; eassumption].
      destruct E1 as (_ & _ & ->). eapply find_some_in. exact Fk.
  - destruct (find_conn id (x_conns c)) as [k|] eqn:Fk; [|discriminate]. injection S as <-.
    unfold cb_write. apply find_some_in in Fk.
    destruct (k_state k); (split; [|exact F]); apply counts_more; try assumption. now apply counts_close.
  - destruct (find_conn id (x_conns c)) as [k|] eqn:Fk; [|discriminate]. injection S as <-.
    apply find_some_in in Fk. split; [|exact F]. now apply counts_more, counts_close.
  - destruct (x_open c); [|injection S as <-; split; [now apply counts_more|exact F]].
    apply rotate_output_inv in S; [|exact F]. destruct S as (S1 & _ & S2 & _).
    split; [|exact S2]. apply counts_more. eapply counts_same; eassumption.
  - injection S as <-. split; [|destruct (x_open c); exact F]. apply counts_more.
    eapply counts_same; [|exact C]. destruct (x_open c); repeat split.
Qed.

Lemma boot_inv e a c : boot e a = Go c ->
  counts a [] c /\ files_open a c /\ x_conns c = [] /\ x_log c = [].
Proof.
  unfold boot. set (c0 := mk_ctx [] false 0 0 (remaining0 a) true [] [] []). intro B.
  destruct (open_write_file e a c0) as [[[|] c1]| | |] eqn:O; cbn [rbind] in B; try discriminate.
  injection B as <-. apply open_write_file_inv in O; [|exists []; split; reflexivity].
  destruct O as (O1 & O2 & O3). destruct (O3 eq_refl) as (O4 & _). split; [|split; [exact O4|]].
  - eapply counts_same; [exact O1|]. split; cbn; [constructor|contradiction|lia|].
    unfold remaining0. destruct (0 <? a_conns a)%Z eqn:E; [lia|reflexivity].
  - destruct O1 as (_ & _ & O1). split; [exact O1|exact O2].
Qed.

Lemma reach_inv e a H c : reach e a H c -> counts a H c /\ files_open a c.
Proof.
  induction 1 as [c B|H c x c' R [C F] L S].
  - apply boot_inv in B. tauto.
  - eapply step_counts; eassumption.
Qed.

(** ** The reaction to each peer *)
Lemma received_snoc id H x : received id (H ++ [x]) =
  received id H ++ match x with E_data i b => if Nat.eqb i id then b else [] | _ => [] end.
Proof. unfold received. rewrite map_app, concat_app. cbn [map concat]. now rewrite app_nil_r. Qed.

Lemma acts_of_app id l l' : acts_of id (l ++ l') = acts_of id l ++ acts_of id l'.
Proof. unfold acts_of. now rewrite map_app, concat_app. Qed.
Lemma acts_of_same id x : acts_of id (map (pair id) x) = x.
Proof.
  induction x as [|y x IH]; [reflexivity|]. unfold acts_of in *. cbn [map concat fst snd].
  rewrite Nat.eqb_refl. cbn [app]. now rewrite IH.
Qed.
Lemma acts_of_other id id' x : id <> id' -> acts_of id' (map (pair id) x) = [].
Proof.
  intro N. induction x as [|y x IH]; [reflexivity|]. unfold acts_of in *. cbn [map concat fst snd].
  destruct (Nat.eqb_spec id id'); [contradiction|exact IH].
Qed.

Definition explained (a : args) (id : nat) (H : list ev) (c : ctx) : Prop :=
  let hw := capture_highwater a in
  match find_conn id (x_conns c) with
  | Some k => exists pend fs, at_ hw k pend /\ settled hw k pend /\ lenN (k_buf k) <= hw /\
      Forall frame_ok fs /\ received id H = wire fs ++ pend /\
      forall more a2 q, reacts hw (a_ctype a) (phase_of (k_state k)) (pend ++ more) a2 q ->
        reacts hw (a_ctype a) Ph_ready (received id H ++ more) (acts_of id (x_log c) ++ a2) q
  | None => exists q, reacts hw (a_ctype a) Ph_ready (received id H) (acts_of id (x_log c)) q
  end.

Lemma at_more hw k pend chunk : at_ hw k pend ->
  at_ hw (mk_conn (k_state k) (k_payload k) (k_total k) (k_skip k) (k_ctl k) (k_buf k ++ chunk)) (pend ++ chunk).
Proof.
  intros [[H1 H2]|(gone & T & H1 & H2 & H3 & H4 & H5)]; cbn [k_buf k_skip].
  - left. cbn. rewrite H2. auto.
  - right. exists gone, T. cbn. rewrite H1, app_assoc. rewrite <- H1. split; [reflexivity|].
    split; [now apply total_of_app|]. auto.
Qed.

Lemma tame_wire fs b : Forall frame_ok fs -> tame (wire fs ++ b) -> tame b.
Proof.
  induction 1 as [|f fs K F IH]; [auto|]. rewrite wire_cons, <- app_assoc. intro T.
  apply IH. eapply tame_frame; eassumption.
Qed.

Lemma incomplete_nil : incomplete [].
Proof.
  apply incomplete_iff. split; [|exact I]. intro B. apply bad_header_inv in B. rewrite lenN_nil in B. lia.
Qed.

Lemma explained_none_of_some a id H c k : find_conn id (x_conns c) = Some k -> explained a id H c ->
  reacts (capture_highwater a) (a_ctype a) Ph_ready (received id H) (acts_of id (x_log c)) (Some (phase_of (k_state k))).
Proof.
  intros F E. unfold explained in E. rewrite F in E. destruct E as (pend & fs & _ & [I _] & _ & _ & _ & E).
  specialize (E [] [] (Some (phase_of (k_state k)))). rewrite !app_nil_r in E. apply E. now apply re_wait.
Qed.

Lemma reach_explained e a id : sends e -> forall H c, reach e a H c -> tame (received id H) -> explained a id H c.
Proof.
  intro Hsend. induction 1 as [c B|H c x c' R IH L S]; intro T.
  { apply boot_inv in B. destruct B as (_ & _ & B1 & B2). unfold explained. rewrite B1, B2. cbn [find_conn].
    exists (Some Ph_ready). apply re_wait. apply incomplete_nil. }
  rewrite received_snoc in T. specialize (IH (tame_prefix _ _ T)).
  destruct (reach_inv _ _ _ _ R) as [C F].
  pose proof (reach_step _ _ _ _ _ _ R L S) as R'. destruct (reach_inv _ _ _ _ R') as [C' F'].
  destruct x as [i|i chunk|i|i| |]; cbn [step legal] in *; rewrite ?app_nil_r in T.
  - (* accept *)
    injection S as <-. destruct L as [_ L]. unfold explained. cbn [cb_accept_conn x_conns set_conns x_log find_conn].
    rewrite received_snoc, app_nil_r. destruct (Nat.eqb_spec i id) as [->|Hne]; [|exact IH].
    unfold explained in IH. assert (N : find_conn id (x_conns c) = None).
    { apply find_none. intro I. apply L. exact (cn_acc _ _ _ C _ I). }
    rewrite N in IH. destruct IH as [q IH].
    assert (R0 : received id H = [] /\ acts_of id (x_log c) = []).
    { clear - R L. revert L. induction R as [c B|H c x c' R IH Lg S]; intro L.
      - apply boot_inv in B. destruct B as (_ & _ & _ & ->). split; reflexivity.
      - assert (L' : ~ accepted id H) by (intro A; apply L; unfold accepted; apply in_or_app; now left).
        specialize (IH L'). destruct IH as [IH1 IH2]. destruct (reach_inv _ _ _ _ R) as [C F].
        rewrite received_snoc, IH1. cbn [app].
        assert (Hid : forall i k, find_conn i (x_conns c) = Some k -> i <> id).
        { intros i k Hf ->. apply L'. apply (cn_acc _ _ _ C). eapply find_some_in. exact Hf. }
        destruct x as [i|i chunk|i|i| |]; cbn [step legal] in *.
        + injection S as <-. split; [reflexivity|exact IH2].
        + destruct Lg as (_ & k & Fk & _). specialize (Hid _ _ Fk).
          destruct (Nat.eqb_spec i id); [contradiction|]. split; [reflexivity|]. rewrite Fk in S. unfold cb_read in S.
          destruct (read_loop e a _ i _ c) as [[r c1]| | |] eqn:RL; cbn [rbind] in S; try discriminate.
          apply read_loop_evolves in RL; [|assumption]. destruct r as [k1|].
          * destruct RL as [(_ & _ & acts & E) _]. injection S as <-. cbn [x_log set_conns].
            rewrite E, acts_of_app, IH2. now apply acts_of_other.
          * destruct RL as (c0 & [(_ & _ & acts & E) _] & ->). injection S as <-. cbn [x_log cb_close_conn set_conns].
            rewrite E, acts_of_app, IH2. now apply acts_of_other.
        + destruct (find_conn i (x_conns c)) as [k|]; [|discriminate]. injection S as <-. split; [reflexivity|].
          unfold cb_write. destruct (k_state k); exact IH2.
        + destruct (find_conn i (x_conns c)) as [k|]; [|discriminate]. injection S as <-. auto.
        + split; [reflexivity|]. destruct (x_open c); [|injection S as <-; exact IH2].
          apply rotate_output_inv in S; [|exact F]. destruct S as (_ & -> & _). exact IH2.
        + split; [reflexivity|]. destruct (x_open c); injection S as <-; exact IH2. }
    destruct R0 as [R1 R2]. rewrite R1, R2. exists [], []. cbn [wire map concat app].
    split; [left; split; reflexivity|]. split.
    { split; [apply incomplete_nil|]. split; [intros _; exact I|]. cbn. lia. }
    split; [cbn; lia|]. split; [constructor|]. split; [reflexivity|]. intros more a2 q' Hr. exact Hr.
  - (* data *)
    destruct L as (Lne & k & Fk & Lb). rewrite Fk in S. unfold cb_read in S.
    destruct (read_loop e a _ i _ c) as [[r c1]| | |] eqn:RL; cbn [rbind] in S; try discriminate.
    destruct (Nat.eqb_spec i id) as [->|Hne].
    + unfold explained in IH. rewrite Fk in IH. destruct IH as (pend & fs & A1 & A2 & A3 & A4 & A5 & A6).
      set (k1 := mk_conn _ _ _ _ _ (k_buf k ++ chunk)) in *.
      assert (Ht : tame (pend ++ chunk)).
      { rewrite A5, <- app_assoc in T. eapply tame_wire; eassumption. }
      assert (Lc : 0 < lenN chunk) by (destruct chunk; [contradiction|unfold lenN; cbn [length]; lia]).
      destruct (read_loop_spec e a id Hsend (Datatypes.S (length (k_buf k1))) k1 c (pend ++ chunk)) as [(c2 & R2)|(r2 & c2 & R2 & Post)].
      { lia. } { exact F. } { now apply at_more. } { exact Ht. } { exact Lb. }
      { right. right. unfold k1. cbn [k_buf]. rewrite lenN_app. lia. }
      { rewrite RL in R2. discriminate. }
      rewrite RL in R2. injection R2 as <- <-. destruct Post as (c0 & acts & P1 & P2 & P3 & P4).
      unfold explained. rewrite received_snoc, Nat.eqb_refl. destruct r as [k'|].
      * injection S as <-. destruct P4 as (-> & pend' & fs' & Q1 & Q2 & Q3 & Q4 & Q5 & Q6).
        cbn [x_conns x_log set_conns]. destruct P1 as (_ & _ & P1). rewrite P1.
        rewrite find_update by apply (cn_nodup _ _ _ C). rewrite Nat.eqb_refl, Fk.
        exists pend', (fs ++ fs'). split; [assumption|]. split; [assumption|].
        split; [unfold k1 in Q3; cbn [k_buf] in Q3; lia|].
        split; [now apply Forall_app|]. split.
        { rewrite A5. unfold wire. rewrite map_app, concat_app, <- !app_assoc. f_equal. exact Q5. }
        intros more a2 q Hr. apply Q6 in Hr. rewrite <- app_assoc in Hr. apply A6 in Hr.
        rewrite P3, acts_of_app, acts_of_same. rewrite <- !app_assoc in *. exact Hr.
      * destruct P4 as (-> & Q). injection S as <-. cbn [x_conns x_log set_conns cb_close_conn].
        destruct P1 as (_ & _ & P1). rewrite P1, find_remove by apply (cn_nodup _ _ _ C). rewrite Nat.eqb_refl.
        exists None. specialize (Q []). rewrite app_nil_r in Q. apply A6 in Q.
        rewrite P3, acts_of_app, acts_of_same. exact Q.
    + rewrite app_nil_r in T. apply read_loop_evolves in RL; [|assumption].
      unfold explained in *. rewrite received_snoc. destruct (Nat.eqb_spec i id); [contradiction|]. rewrite app_nil_r.
      assert (N2 : Nat.eqb id i = false) by (apply Nat.eqb_neq; congruence).
      destruct r as [k'|].
      * destruct RL as [((_ & _ & E1) & _ & acts & E) _]. injection S as <-. cbn [x_conns x_log set_conns].
        rewrite E1, find_update, N2 by apply (cn_nodup _ _ _ C).
        rewrite E, acts_of_app, (acts_of_other _ _ _ Hne), app_nil_r. exact IH.
      * destruct RL as (c0 & [((_ & _ & E1) & _ & acts & E) _] & ->). injection S as <-.
        cbn [x_conns x_log set_conns cb_close_conn]. rewrite E1, find_remove, N2 by apply (cn_nodup _ _ _ C).
        rewrite E, acts_of_app, (acts_of_other _ _ _ Hne), app_nil_r. exact IH.
  - (* written *)
    destruct (find_conn i (x_conns c)) as [k|] eqn:Fk; [|discriminate]. injection S as <-.
    assert (Cl : explained a id (H ++ [E_written i]) (cb_close_conn i c)).
    { destruct (find_conn id (x_conns c)) as [k0|] eqn:F0.
      - pose proof (explained_none_of_some _ _ _ _ _ F0 IH) as E0. unfold explained in *.
        rewrite received_snoc, app_nil_r. cbn [x_conns x_log cb_close_conn set_conns].
        rewrite find_remove by apply (cn_nodup _ _ _ C). destruct (Nat.eqb_spec id i); [eauto|]. exact IH.
      - unfold explained in *. rewrite received_snoc, app_nil_r. cbn [x_conns x_log cb_close_conn set_conns].
        rewrite find_remove by apply (cn_nodup _ _ _ C). rewrite F0 in *. destruct (Nat.eqb id i); exact IH. }
    assert (Nc : explained a id (H ++ [E_written i]) c).
    { unfold explained in *. rewrite received_snoc, app_nil_r. exact IH. }
    unfold cb_write. destruct (k_state k); assumption.
  - (* gone *)
    destruct (find_conn i (x_conns c)) as [k|] eqn:Fk; [|discriminate]. injection S as <-.
    destruct (find_conn id (x_conns c)) as [k0|] eqn:F0.
    + pose proof (explained_none_of_some _ _ _ _ _ F0 IH) as E0. unfold explained in *.
      rewrite received_snoc, app_nil_r. cbn [x_conns x_log cb_close_conn set_conns].
      rewrite find_remove by apply (cn_nodup _ _ _ C). destruct (Nat.eqb_spec id i); [eauto|]. exact IH.
    + unfold explained in *. rewrite received_snoc, app_nil_r. cbn [x_conns x_log cb_close_conn set_conns].
      rewrite find_remove by apply (cn_nodup _ _ _ C). rewrite F0 in *. destruct (Nat.eqb id i); exact IH.
  - destruct (x_open c).
    + apply rotate_output_inv in S; [|exact F]. destruct S as ((_ & _ & S1) & S2 & _).
      unfold explained in *. rewrite received_snoc, app_nil_r, S1, S2. exact IH.
    + injection S as <-. unfold explained in *. rewrite received_snoc, app_nil_r. exact IH.
  - injection S as <-. unfold explained in *. rewrite received_snoc, app_nil_r. destruct (x_open c); exact IH.
Qed.

(** C45-C49, C59-C61, C73: fstrm_capture. *)
From Coq Require Import ZArith Lia.
From Verif Require Import Bytes Spec SpecTrace SpecStream Control Bytes_proofs Capture SpecCapture
  Capture_proofs Capture2_proofs Capture4_proofs Capture5_proofs Capture6_proofs Capture7_proofs Capture8_proofs Capture9_proofs SpecStall Stall_proofs.
Import ListNotations.
Local Open Scope N_scope.

(** ** Concrete objects for the examples *)
Definition ex_ct : bytes := [x63; x74].
Definition ex_env : env :=
  mk_env (fun n => Z.of_nat n) (fun t => Some (repeat x61 (Z.to_nat t))) (fun _ => true) (fun _ => true) (fun _ => true).
(** --type ct --write f, buffer of 64 bytes, two connections. *)
Definition ex_args : args := mk_args ex_ct [x66] 64 2 0 false false.
Definition ex_session (ds : list bytes) : bytes :=
  ready_frame [ex_ct] ++ start_frame (Some ex_ct) ++ datas ds ++ stop_frame.
Definition ex_data (a b : N) (l : bytes) : bytes := firstn (N.to_nat b - N.to_nat a) (skipn (N.to_nat a) l).
Definition ex_big : bytes := repeat x62 80.
Definition ex_s1 : bytes := ex_session [[x01]; ex_big; [x02; x03]].
Definition ex_s2 : bytes := ex_session [[x04]].
(** Two connections interleaved, one with a frame too large for the buffer,
    and a rotation in between. *)
Definition ex_H : list ev :=
  [E_accept 1; E_data 1 (ex_data 0 5 ex_s1); E_accept 2; E_data 2 (ex_data 0 30 ex_s2);
   E_data 1 (ex_data 5 60 ex_s1); E_data 2 (ex_data 30 64 ex_s2); E_sigusr1; E_data 1 (ex_data 60 100 ex_s1);
   E_written 2; E_data 1 (ex_data 100 164 ex_s1)].
Definition ex_c : ctx := match play0 ex_env ex_args ex_H with Some c => c | None => mk_ctx [] false 0 0 0 false [] [] [] end.
Example ex_run : reach ex_env ex_args ex_H ex_c.
Proof. apply play0_sound. vm_compute. reflexivity. Qed.
Example ex_sends : sends ex_env.
Proof. intro n. reflexivity. Qed.
Example ex_tame : forall id, tame (received id ex_H).
Proof.
  assert (T : forall ds, Forall (fun d => data_ok d /\ lenN d < 2 ^ 32 - 4) ds -> tame (ex_session ds)).
  { intros ds F. unfold ex_session. rewrite <- (app_nil_r stop_frame). apply session_tame; [exact F|reflexivity|reflexivity|apply tame_nil]. }
  intros [|[|[|id]]]; [apply tame_nil| | |apply tame_nil].
  - replace (received 1 ex_H) with ex_s1 by (vm_compute; reflexivity). apply T. repeat constructor; vm_compute; intuition discriminate.
  - replace (received 2 ex_H) with ex_s2 by (vm_compute; reflexivity). apply T. repeat constructor; vm_compute; intuition discriminate.
Qed.
Example ex_files : map snd (x_outs ex_c) =
    [capture_file ex_ct [[x01]; [x04]]; start_frame (Some ex_ct) ++ datas [[x02; x03]]] /\
  acts_of 1 (x_log ex_c) = [Answer (ctl_frame T_ACCEPT [ex_ct]); Store (data_frame [x01]); Store (data_frame [x02; x03]); Answer finish_frame].
Proof. split; vm_compute; reflexivity. Qed.

(** ** C45: segmentation *)
(** What the server did for a connection is the reaction to the bytes it
    received, whatever the reads, the other connections, the clock, the
    rotations; and it is as far as these bytes allow. *)
Theorem C45_reaction e a H c id :
  sends e -> reach e a H c -> tame (received id H) ->
  exists q, reacts (capture_highwater a) (a_ctype a) Ph_ready (received id H) (acts_of id (x_log c)) q /\
    forall k, find_conn id (x_conns c) = Some k -> q = Some (phase_of (k_state k)).
Proof. exact (run_reacts e a H c id). Qed.
Print Assumptions C45_reaction.

(** The reaction is a function of the bytes. *)
Theorem C45_reaction_unique hw ct ph bs a q a' q' :
  reacts hw ct ph bs a q -> reacts hw ct ph bs a' q' -> a' = a /\ q' = q.
Proof. exact (reacts_fun hw ct ph bs a q a' q'). Qed.
Print Assumptions C45_reaction_unique.

(** Two runs, on two machines, whatever the streams: the connection that
    received more has the same acts and then some; equal bytes, equal acts. *)
Theorem C45_segmentation e a H c id e' H' c' id' more :
  sends e -> sends e' -> reach e a H c -> reach e' a H' c' ->
  received id' H' = received id H ++ more ->
  exists later, acts_of id' (x_log c') = acts_of id (x_log c) ++ later /\ (more = [] -> later = []).
Proof. exact (runs_agree_any e a H c id e' H' c' id' more). Qed.
Print Assumptions C45_segmentation.

(** Any stream, answers that may fail: what the server did is a reaction to
    the bytes received, a failed answer closing the connection. *)
Theorem C45_any_stream lost e a H c id : (sends e \/ lost = true) -> reach e a H c ->
  exists q, q <> Endless /\
    reacts_any lost (capture_highwater a) (a_ctype a) Ph_ready (received id H) (acts_of id (x_log c)) q /\
    forall k, find_conn id (x_conns c) = Some k -> q = Open_at (phase_of (k_state k)).
Proof. exact (run_reacts_any lost e a H c id). Qed.
Print Assumptions C45_any_stream.

(** It is a function of the bytes as long as no answer fails, and agrees with
    the simpler description where that applies. *)
Theorem C45_any_unique hw ct ph bs a q a' q' :
  reacts_any false hw ct ph bs a q -> reacts_any false hw ct ph bs a' q' -> a' = a /\ q' = q.
Proof. exact (ra_fun hw ct ph bs a q a' q'). Qed.
Print Assumptions C45_any_unique.

Theorem C45_any_agrees hw ct ph bs a q : reacts hw ct ph bs a q -> tame bs ->
  reacts_any false hw ct ph bs a (match q with Some p => Open_at p | None => Shut end).
Proof. exact (reacts_any_tame hw ct ph bs a q). Qed.
Print Assumptions C45_any_agrees.

(** A server whose answers all fail, and a stream with a length that
    wraps. *)
Definition ex_mute : env :=
  mk_env (fun n => Z.of_nat n) (fun t => Some (repeat x61 (Z.to_nat t))) (fun _ => true) (fun _ => true) (fun _ => false).
Definition ex_Hm : list ev :=
  [E_accept 1; E_data 1 (be32 (2 ^ 32 - 1)); E_data 1 ([x00; x00; x01] ++ firstn 11 (repeat x05 300));
   E_accept 2; E_data 2 (ready_frame [ex_ct])].
Example C45_mute : exists c, reach ex_mute ex_args ex_Hm c /\
  acts_of 1 (x_log c) = [Store [xff; xff; xff]] /\ acts_of 2 (x_log c) = [Hangup] /\
  find_conn 1 (x_conns c) <> None /\ find_conn 2 (x_conns c) = None.
Proof.
  eexists. split; [apply play0_sound; vm_compute; reflexivity|].
  split; [vm_compute; reflexivity|]. split; [vm_compute; reflexivity|].
  split; [vm_compute; discriminate|vm_compute; reflexivity].
Qed.

Definition ex_H2 : list ev := E_accept 7 :: map (fun b => E_data 7 [b]) ex_s1.
Example C45_other_split : exists c, reach ex_env ex_args ex_H2 c /\ received 7 ex_H2 = received 1 ex_H /\
  acts_of 7 (x_log c) = acts_of 1 (x_log ex_c).
Proof. eexists. split; [apply play0_sound; vm_compute; reflexivity|]. split; vm_compute; reflexivity. Qed.

(** ** C46: files *)
(** Missing: streams announcing lengths of 2^32-4 and above, refuted below. *)
Theorem C46_closed_files_partial e a H c c' :
  sends e -> reach e a H c -> (forall id, tame (received id H)) -> shutdown e c = Go c' ->
  exists files, map snd (x_outs c') = map (capture_file (a_ctype a)) files /\
    stored (x_log c') = map data_frame (concat files) /\ Forall data_ok (concat files) /\
    map fst (x_outs c') = map fst (x_outs c) /\ x_log c' = x_log c.
Proof. exact (shut_files e a H c c'). Qed.
Print Assumptions C46_closed_files_partial.

Theorem C46_running_files_partial e a H c :
  sends e -> reach e a H c -> (forall id, tame (received id H)) ->
  exists files cur,
    map snd (x_outs c) = map (capture_file (a_ctype a)) files ++ [start_frame (Some (a_ctype a)) ++ datas cur] /\
    stored (x_log c) = map data_frame (concat files ++ cur) /\ Forall data_ok (concat files ++ cur).
Proof. exact (run_files e a H c). Qed.
Print Assumptions C46_running_files_partial.

(** What is stored for a connection: its data frames that fit the buffer, all
    of them, verbatim, in order, up to the last complete frame received (or to
    the frame on which the server hung up). *)
Theorem C46_verbatim_partial e a H c id :
  sends e -> reach e a H c -> tame (received id H) ->
  exists fs rest, Forall frame_ok fs /\ received id H = wire fs ++ rest /\
    stores (acts_of id (x_log c)) = map wire1 (filter (kept (capture_highwater a)) fs) /\
    (find_conn id (x_conns c) <> None -> incomplete rest).
Proof.
  intros S R T. destruct (run_reacts e a H c id S R T) as (q & Q & A).
  destruct (reacts_stores _ _ _ _ _ _ Q) as (fs & rest & B1 & B2 & B3 & B4). exists fs, rest.
  repeat (split; [assumption|]). intro F. apply B4. destruct (find_conn id (x_conns c)) as [k|]; [|contradiction].
  rewrite (A k eq_refl). discriminate.
Qed.
Print Assumptions C46_verbatim_partial.

(** Any streams, any failing answers: a file is START, pieces, STOP, and a
    piece is a whole data frame or a fragment of one to three bytes 0xff. *)
Theorem C46_any_files e a H c c' : reach e a H c -> shutdown e c = Go c' ->
  exists files, map snd (x_outs c') = map (fun bs => start_frame (Some (a_ctype a)) ++ concat bs ++ stop_frame) files /\
    concat files = stored (x_log c) /\ Forall (storable (capture_highwater a)) (concat files) /\
    map fst (x_outs c') = map fst (x_outs c).
Proof. exact (any_files e a H c c'). Qed.
Print Assumptions C46_any_files.

Theorem C46_any_verbatim e a H c id : reach e a H c ->
  exists ps rest, Forall piece_ok ps /\ received id H = pieces ps ++ rest /\
    stores (acts_of id (x_log c)) = map piece_bytes (filter (kept_piece (capture_highwater a)) ps) /\
    (find_conn id (x_conns c) <> None -> incomplete rest).
Proof. exact (any_verbatim e a H c id). Qed.
Print Assumptions C46_any_verbatim.

Example C46_closed : exists c', shutdown ex_env ex_c = Go c' /\
  map snd (x_outs c') = map (capture_file ex_ct) [[[x01]; [x04]]; [[x02; x03]]].
Proof. eexists. split; vm_compute; reflexivity. Qed.

(** The length 2^32-3 wraps the frame size to 1: a byte is stored by itself. *)
Definition bad_frag : list ev := [E_accept 1; E_data 1 (be32 (2 ^ 32 - 3))].
Theorem C46_fragment_refuted : exists e a H c c',
  sends e /\ args_accepted a = true /\ reach e a H c /\ shutdown e c = Go c' /\
  ~ exists files, map snd (x_outs c') = map (capture_file (a_ctype a)) files /\ Forall data_ok (concat files).
Proof.
  exists ex_env, ex_args, bad_frag.
  eexists. eexists. split; [exact ex_sends|]. split; [reflexivity|].
  split; [apply play0_sound; vm_compute; reflexivity|]. split; [vm_compute; reflexivity|].
  intros (files & E & F). apply (f_equal (map (@length byte))) in E. rewrite map_map in E.
  match type of E with ?l = _ => replace l with [35%nat] in E by (vm_compute; reflexivity) end.
  destruct files as [|ds [|]]; try discriminate. cbn [map] in E.
  assert (E1 : length (capture_file (a_ctype ex_args) ds) = 35%nat) by congruence. clear E.
  unfold capture_file in E1. rewrite !app_length in E1.
  change (length (start_frame (Some (a_ctype ex_args)))) with 22%nat in E1. change (length stop_frame) with 12%nat in E1.
  destruct ds as [|d ds]; [discriminate|]. cbn [concat app] in F. inversion F as [|? ? [D _] _]; subst.
  unfold datas in E1. cbn [map concat] in E1. unfold data_frame in E1 at 1. rewrite !app_length in E1.
  change (length (be32 (lenN d))) with 4%nat in E1. unfold lenN in D. lia.
Qed.
Print Assumptions C46_fragment_refuted.

(** ** C47: negotiation *)
(** A data frame sent first thing is stored. *)
Theorem C47_data_before_handshake_refuted : exists e a H c p,
  sends e /\ args_accepted a = true /\ reach e a H c /\ received 1 H = data_frame p /\
  stored (x_log c) = [data_frame p].
Proof.
  exists ex_env, ex_args, [E_accept 1; E_data 1 (data_frame [x01])]. eexists. exists [x01].
  split; [exact ex_sends|]. split; [reflexivity|]. split; [apply play0_sound; vm_compute; reflexivity|].
  split; vm_compute; reflexivity.
Qed.
Print Assumptions C47_data_before_handshake_refuted.

(** The server answers ACCEPT with its type, then FINISH, nothing else and at
    most once. *)
Theorem C47_answers e a H c id : reach e a H c ->
  prefix (answers (acts_of id (x_log c))) [ctl_frame T_ACCEPT [a_ctype a]; finish_frame].
Proof. exact (any_answers e a H c id). Qed.
Print Assumptions C47_answers.

(** A connection in the data phase sent READY and START offering the type (or
    none at all), in this order, and no other control frame that fits the
    buffer.  Missing: that only its data frames are stored, refuted above. *)
Theorem C47_negotiated_partial e a H c id k :
  sends e -> reach e a H c -> tame (received id H) ->
  find_conn id (x_conns c) = Some k -> phase_of (k_state k) = Ph_data ->
  exists fs1 cts1 fs2 cts2 fs3 rest,
    received id H = wire fs1 ++ ctl_frame T_READY cts1 ++ wire fs2 ++ ctl_frame T_START cts2 ++ wire fs3 ++ rest /\
    ctl_ok T_READY cts1 /\ (cts1 = [] \/ In (a_ctype a) cts1) /\
    ctl_ok T_START cts2 /\ (cts2 = [] \/ In (a_ctype a) cts2) /\
    Forall (idle (capture_highwater a)) (fs1 ++ fs2 ++ fs3) /\ incomplete rest.
Proof.
  intros S R T F P. destruct (run_reacts e a H c id S R T) as (q & Q & A).
  apply (reacts_negotiated _ _ _ _ _ _ Q eq_refl). rewrite (A _ F), P. reflexivity.
Qed.
Print Assumptions C47_negotiated_partial.

(** The same for any stream. *)
Theorem C47_any_negotiated e a H c id k : reach e a H c ->
  find_conn id (x_conns c) = Some k -> phase_of (k_state k) = Ph_data ->
  exists ps1 cts1 ps2 cts2 ps3 rest,
    received id H = pieces ps1 ++ ctl_frame T_READY cts1 ++ pieces ps2 ++ ctl_frame T_START cts2 ++ pieces ps3 ++ rest /\
    ctl_ok T_READY cts1 /\ (cts1 = [] \/ In (a_ctype a) cts1) /\
    ctl_ok T_START cts2 /\ (cts2 = [] \/ In (a_ctype a) cts2) /\
    Forall (idle_piece (capture_highwater a)) (ps1 ++ ps2 ++ ps3) /\ incomplete rest.
Proof. exact (any_negotiated e a H c id k). Qed.
Print Assumptions C47_any_negotiated.

Definition ex_H3 : list ev := firstn 8 ex_H.
Example C47_in_data_phase : exists c k, reach ex_env ex_args ex_H3 c /\ find_conn 1 (x_conns c) = Some k /\
  phase_of (k_state k) = Ph_data /\ answers (acts_of 1 (x_log c)) = [ctl_frame T_ACCEPT [ex_ct]].
Proof.
  eexists. eexists. split; [apply play0_sound; vm_compute; reflexivity|].
  split; [vm_compute; reflexivity|]. split; vm_compute; reflexivity.
Qed.
Example C47_in_data_phase_tame : tame (received 1 ex_H3).
Proof.
  pose proof (ex_tame 1) as T. replace (received 1 ex_H) with (received 1 ex_H3 ++ received 1 (skipn 8 ex_H)) in T by (vm_compute; reflexivity).
  eapply tame_prefix. exact T.
Qed.

(** ** C48: the connection limit *)
Theorem C48_limit e a H c :
  reach e a H c -> (0 < a_conns a)%Z ->
  (Z.of_nat (length (x_conns c)) <= a_conns a)%Z /\
  (x_listen c = true <-> (Z.of_nat (length (x_conns c)) < a_conns a)%Z).
Proof.
  intros R Pos. destruct (reach_inv _ _ _ _ R) as [[C1 C2 C3 C4] _].
  pose proof (run_limit e a H c R Pos) as L. split; [exact L|].
  rewrite C4. unfold remaining0 in C3. replace (0 <? a_conns a)%Z with true in * by lia. lia.
Qed.
Print Assumptions C48_limit.

Theorem C48_unlimited e a H c : reach e a H c -> (a_conns a <= 0)%Z -> x_listen c = true.
Proof.
  intros R Neg. destruct (reach_inv _ _ _ _ R) as [[_ _ _ C4] _].
  rewrite C4. replace (0 <? a_conns a)%Z with false by lia. reflexivity.
Qed.
Print Assumptions C48_unlimited.

(** The counter is an [int]. *)
Theorem C48_counter_in_range e a H c :
  reach e a H c -> (a_conns a < 2 ^ 31)%Z -> (Z.of_nat (length (x_conns c)) < 2 ^ 31 - 1)%Z ->
  (- 2 ^ 31 <= x_remaining c - 1)%Z /\ (x_remaining c < 2 ^ 31)%Z.
Proof.
  intros R Lt Few. destruct (reach_inv _ _ _ _ R) as [[_ _ C3 _] _].
  rewrite C3. unfold remaining0. destruct (0 <? a_conns a)%Z eqn:E; lia.
Qed.
Print Assumptions C48_counter_in_range.

Example C48_at_the_limit : exists c, reach ex_env ex_args (firstn 3 ex_H) c /\ length (x_conns c) = 2%nat /\ x_listen c = false /\
  length (x_conns ex_c) = 1%nat /\ x_listen ex_c = true.
Proof. eexists. split; [apply play0_sound; vm_compute; reflexivity|]. repeat split; vm_compute; reflexivity. Qed.

(** ** C49: oversized frames *)
(** The acts are those of a peer that did not send the oversized frame. *)
Theorem C49_skip_partial e a H c id e' H' c' id' fs f rest :
  sends e -> sends e' -> reach e a H c -> reach e' a H' c' ->
  Forall frame_ok (f :: fs) -> Forall (fun g => forall n, ~ huge n (wire1 g)) (f :: fs) -> capture_highwater a < lenN (wire1 f) ->
  received id H = wire fs ++ wire1 f ++ rest -> received id' H' = wire fs ++ rest ->
  acts_of id (x_log c) = acts_of id' (x_log c').
Proof. exact (any_skip e a H c id e' H' c' id' fs f rest). Qed.
Print Assumptions C49_skip_partial.

Definition ex_H4 : list ev := E_accept 3 :: map (fun b => E_data 3 [b]) (ex_session [[x01]; [x02; x03]]).
Example C49_skipped : exists c, reach ex_env ex_args ex_H4 c /\ capture_highwater ex_args < lenN (wire1 (F_data ex_big)) /\
  acts_of 3 (x_log c) = acts_of 1 (x_log ex_c) /\
  received 1 ex_H = wire [F_ctl (ctl_payload T_READY [ex_ct]); F_ctl (ctl_payload T_START [ex_ct]); F_data [x01]] ++ wire1 (F_data ex_big)
    ++ data_frame [x02; x03] ++ stop_frame.
Proof.
  eexists. split; [apply play0_sound; vm_compute; reflexivity|]. split; [reflexivity|]. split; vm_compute; reflexivity.
Qed.

Theorem C49_buffer_bound e a H c id k :
  reach e a H c -> find_conn id (x_conns c) = Some k -> lenN (k_buf k) <= capture_highwater a.
Proof. intro R. exact (run_buffer e a H c R id k). Qed.
Print Assumptions C49_buffer_bound.

(** With reads of at most [m] bytes and a buffer of more than [m + 7], there is
    always room to read on. *)
Theorem C49_never_stalls_partial e a H c id k m :
  sends e -> m + 7 < capture_highwater a -> reach e a H c -> reads_below m H -> tame (received id H) ->
  find_conn id (x_conns c) = Some k ->
  forall b, legal a H c (E_data id [b]).
Proof.
  intros S M R B T F b. split; [discriminate|]. exists k. split; [exact F|].
  pose proof (run_not_full e a id m S M H c R B T k F). rewrite lenN_app. change (lenN [b]) with 1. lia.
Qed.
Print Assumptions C49_never_stalls_partial.

Example C49_small_reads : reads_below 56 ex_H2 /\ 56 + 7 < capture_highwater ex_args.
Proof.
  split; [|reflexivity]. intros id chunk I. vm_compute in I.
  repeat (destruct I as [I|I]; [first [discriminate I|injection I as <- <-; vm_compute; discriminate]|]). contradiction.
Qed.

(** A read that fills the buffer and leaves the header of an oversized frame in
    it: nothing is drained, so no further read is possible and the connection
    waits for ever. *)
Definition bad_stall : list ev := [E_accept 1; E_data 1 (be32 100 ++ repeat x61 60)].
Theorem C49_stall_refuted : exists e a H c k,
  sends e /\ args_accepted a = true /\ reach e a H c /\ tame (received 1 H) /\
  find_conn 1 (x_conns c) = Some k /\ 0 < k_skip k /\ forall chunk, ~ legal a H c (E_data 1 chunk).
Proof.
  exists ex_env, ex_args, bad_stall. eexists. eexists. split; [exact ex_sends|]. split; [reflexivity|].
  split; [apply play0_sound; vm_compute; reflexivity|]. split.
  { replace (received 1 bad_stall) with (be32 100 ++ repeat x61 60) by (vm_compute; reflexivity).
    apply tame_end; [|intros _; reflexivity]. apply incomplete_iff. split.
    - intro B. apply bad_header_inv in B as (_ & B & _). discriminate.
    - vm_compute. reflexivity. }
  split; [vm_compute; reflexivity|]. split; [reflexivity|].
  intros chunk [N (k & F & L)]. vm_compute in F. injection F as <-.
  rewrite lenN_app in L. destruct chunk as [|b chunk]; [contradiction|].
  assert (1 <= lenN (b :: chunk)) by (rewrite lenN_cons; lia).
  change (capture_highwater ex_args) with 64 in L.
  match goal with H : lenN ?l + _ <= 64 |- _ => assert (E : lenN l = 64) by reflexivity; rewrite E in H end. lia.
Qed.
Print Assumptions C49_stall_refuted.

(** Which connections stall: exactly those whose last read began before the size
    of a frame was known and filled the buffer with the beginning of it. *)
Theorem C49_stalls_exactly e a H c id k :
  sends e -> reach e a H c -> tame (received id H) -> find_conn id (x_conns c) = Some k ->
  ((forall chunk, ~ legal a H c (E_data id chunk)) <-> clogged (capture_highwater a) id H).
Proof. exact (stalls_exactly e a H c id k). Qed.
Print Assumptions C49_stalls_exactly.

Example C49_clogged_case : clogged (capture_highwater ex_args) 1 bad_stall.
Proof.
  exists [E_accept 1], (be32 100 ++ repeat x61 60), [], [], (be32 100 ++ repeat x61 60).
  split; [reflexivity|]. split; [reflexivity|]. split; [constructor|]. split; [reflexivity|]. split.
  - apply incomplete_iff. split; [|vm_compute; reflexivity]. intro B. apply bad_header_inv in B as (_ & B & _). discriminate.
  - split; [reflexivity|]. intros g G [S _]. cbn in G. subst g. vm_compute in S. now apply S.
Qed.
(** A buffer smaller than a header is accepted: every connection stalls before
    its first frame is known. *)
Example C49_tiny_buffer : exists a c k, args_accepted a = true /\ reach ex_env a [E_accept 1; E_data 1 [x00; x00; x00]] c /\
  find_conn 1 (x_conns c) = Some k /\ clogged (capture_highwater a) 1 [E_accept 1; E_data 1 [x00; x00; x00]].
Proof.
  exists (mk_args (a_ctype ex_args) (a_fname ex_args) 3 (a_conns ex_args) (a_split ex_args) (a_localtime ex_args) (a_gmtime ex_args)).
  eexists. eexists. split; [reflexivity|]. split; [apply play0_sound; vm_compute; reflexivity|]. split; [vm_compute; reflexivity|].
  exists [E_accept 1], [x00; x00; x00], [], [], [x00; x00; x00].
  split; [reflexivity|]. split; [reflexivity|]. split; [constructor|]. split; [reflexivity|]. split.
  - apply incomplete_iff. split; [|vm_compute; exact I]. intro B. apply bad_header_inv in B as (B & _). vm_compute in B. now apply B.
  - split; [reflexivity|]. intros g G [S _]. cbn in G. subst g. vm_compute in S. now apply S.
Qed.

(** A frame announced as 2^32-3 bytes long is larger than any buffer, yet part
    of it is stored. *)
Theorem C49_wrapped_refuted : exists e a H c n,
  sends e /\ args_accepted a = true /\ reach e a H c /\ n < 2 ^ 32 /\ capture_highwater a < n /\
  received 1 H = be32 n /\ stored (x_log c) <> [].
Proof.
  exists ex_env, ex_args, bad_frag. eexists. exists (2 ^ 32 - 3).
  split; [exact ex_sends|]. split; [reflexivity|]. split; [apply play0_sound; vm_compute; reflexivity|].
  split; [reflexivity|]. split; [reflexivity|]. split; [reflexivity|]. vm_compute. discriminate.
Qed.
Print Assumptions C49_wrapped_refuted.

(** ** C59: rotation *)
(** SIGUSR1 without --localtime or --gmtime reopens the same name and truncates
    it: what was captured is gone. *)
Theorem C59_sigusr1_overwrites_refuted : exists e a H c name d,
  sends e /\ output_works e /\ args_accepted a = true /\ reach e a H c /\
  In (name, d) (x_outs c) /\ on_disk name (x_outs c) <> Some d /\
  d = capture_file (a_ctype a) [[x01]; [x04]].
Proof.
  exists ex_env, ex_args, ex_H, ex_c, [x66], (capture_file ex_ct [[x01]; [x04]]).
  split; [exact ex_sends|]. split; [repeat split; discriminate|]. split; [reflexivity|]. split; [exact ex_run|].
  assert (E : x_outs ex_c = [([x66], capture_file ex_ct [[x01]; [x04]]); ([x66], start_frame (Some ex_ct) ++ datas [[x02; x03]])])
    by (vm_compute; reflexivity).
  rewrite E. split; [left; reflexivity|]. split; [|reflexivity]. vm_compute. discriminate.
Qed.
Print Assumptions C59_sigusr1_overwrites_refuted.

(** As long as the names differ, every file stays. *)
Theorem C59_distinct_names_kept_partial e a H c name d :
  reach e a H c -> NoDup (map fst (x_outs c)) -> In (name, d) (x_outs c) -> on_disk name (x_outs c) = Some d.
Proof. intros _. exact (on_disk_kept (x_outs c) name d). Qed.
Print Assumptions C59_distinct_names_kept_partial.

(** Rotation by --split alone, with a format that tells apart the times the
    clock shows and a clock that does not go back, never reuses a name. *)
Theorem C59_timed_rotation_partial e a H c :
  steady e -> telling e -> args_accepted a = true -> is_stdout a = false -> has_calendar a = true ->
  reach e a H c -> ~ In E_sigusr1 H ->
  forall name d, In (name, d) (x_outs c) -> on_disk name (x_outs c) = Some d.
Proof.
  intros St Te _ Ns Cal R Nu name d. apply on_disk_kept. eapply run_names_distinct; eassumption.
Qed.
Print Assumptions C59_timed_rotation_partial.

(** What is left on disk, whatever asked for the rotations: under each name
    exactly the file opened last under it ... *)
Theorem C59_survivors_exactly e a H c name d : reach e a H c ->
  (on_disk name (x_outs c) = Some d <->
   exists pre post, x_outs c = pre ++ (name, d) :: post /\ ~ In name (map fst post)).
Proof. intros _. exact (on_disk_iff (x_outs c) name d). Qed.
Print Assumptions C59_survivors_exactly.

(** ... so without --localtime or --gmtime only the last of all files ... *)
Theorem C59_no_calendar_keeps_last e a H c : is_stdout a = false -> has_calendar a = false -> reach e a H c ->
  exists earlier d, x_outs c = earlier ++ [(a_fname a, d)] /\ Forall (fun o => fst o = a_fname a) earlier /\
    on_disk (a_fname a) (x_outs c) = Some d.
Proof. exact (only_last_kept e a H c). Qed.
Print Assumptions C59_no_calendar_keeps_last.

(** ... and with one of them, on a clock that does not go back and with a format
    that tells its times apart, every file but those whose successor was opened
    in the same second, be it for --split or for SIGUSR1. *)
Theorem C59_kept_exactly e a H c :
  steady e -> telling e -> is_stdout a = false -> has_calendar a = true -> reach e a H c ->
  exists times, map Some (map fst (x_outs c)) = map (e_strftime e) times /\ spaced 0 times /\
  forall pre name d post tpre t tpost, x_outs c = pre ++ (name, d) :: post -> times = tpre ++ t :: tpost ->
    length tpre = length pre -> (~ In name (map fst post) <-> hd_error tpost <> Some t).
Proof. exact (kept_by_second e a H c). Qed.
Print Assumptions C59_kept_exactly.

Definition ex_args5 : args := mk_args ex_ct [x66] 64 2 3 true false.
Definition ex_H5 : list ev := E_accept 3 :: E_data 3 (ready_frame [ex_ct]) :: E_data 3 (start_frame (Some ex_ct)) ::
  map (fun b => E_data 3 (data_frame [b])) [x01; x02; x03; x04].
Example C59_rotated : exists c, reach ex_env ex_args5 ex_H5 c /\ args_accepted ex_args5 = true /\ length (x_outs c) = 5%nat /\
  map snd (x_outs c) = [capture_file ex_ct [[x01]]; capture_file ex_ct [[x02]]; capture_file ex_ct [[x03]]; capture_file ex_ct [[x04]]; start_frame (Some ex_ct)] /\
  steady ex_env /\ telling ex_env.
Proof.
  eexists. split; [apply play0_sound; vm_compute; reflexivity|]. split; [reflexivity|].
  split; [vm_compute; reflexivity|]. split; [vm_compute; reflexivity|]. split; [intros n m L; cbn; lia|].
  intros n m E. cbn in E. injection E as E. apply (f_equal (@length byte)) in E. rewrite !repeat_length in E. cbn. lia.
Qed.

(** Two SIGUSR1 in the same second: the file between them is gone, the others stay. *)
Definition ex_env5 : env :=
  mk_env (fun n => if (n <? 3)%nat then 1%Z else 2%Z) (fun t => Some (repeat x61 (Z.to_nat t))) (fun _ => true) (fun _ => true) (fun _ => true).
Definition ex_args5b : args := mk_args ex_ct [x66] 64 2 0 true false.
Definition ex_H5b : list ev := [E_accept 3; E_data 3 (ready_frame [ex_ct]); E_data 3 (start_frame (Some ex_ct)); E_data 3 (data_frame [x01]);
  E_sigusr1; E_data 3 (data_frame [x02]); E_sigusr1; E_data 3 (data_frame [x03])].
Example C59_same_second : exists c, reach ex_env5 ex_args5b ex_H5b c /\ steady ex_env5 /\ telling ex_env5 /\
  map fst (x_outs c) = [[x61]; [x61; x61]; [x61; x61]] /\
  on_disk [x61] (x_outs c) = Some (capture_file ex_ct [[x01]]) /\
  on_disk [x61; x61] (x_outs c) = Some (start_frame (Some ex_ct) ++ datas [[x03]]).
Proof.
  eexists. split; [apply play0_sound; vm_compute; reflexivity|]. split; [|split; [|vm_compute; auto]].
  - intros n m L. unfold ex_env5. cbn [e_time]. destruct (Nat.ltb_spec n 3), (Nat.ltb_spec m 3); lia.
  - intros n m E. unfold ex_env5 in *. cbn [e_time e_strftime] in *. destruct (n <? 3)%nat, (m <? 3)%nat; try reflexivity; vm_compute in E; discriminate.
Qed.

(** ** C73: a new file is begun when, and only when, it is asked for *)
Theorem C73_standard_output e a H c : reach e a H c -> is_stdout a = true -> length (x_outs c) = 1%nat.
Proof. exact (stdout_one e a H c). Qed.
Print Assumptions C73_standard_output.

Theorem C73_only_on_request e a H c : reach e a H c -> is_stdout a = false -> (a_split a <= 0)%Z ->
  length (x_outs c) = S (requests H).
Proof. exact (requested_only e a H c). Qed.
Print Assumptions C73_only_on_request.

Theorem C73_every_request e a H c : reach e a H c -> is_stdout a = false -> (S (requests H) <= length (x_outs c))%nat.
Proof. exact (requested_always e a H c). Qed.
Print Assumptions C73_every_request.

(** --split: never before its time ... *)
Theorem C73_not_early e a H c : steady e -> is_stdout a = false -> has_calendar a = true ->
  reach e a H c -> ~ In E_sigusr1 H ->
  exists times, map Some (map fst (x_outs c)) = map (e_strftime e) times /\ spaced (a_split a) times.
Proof. exact (spaced_names e a H c). Qed.
Print Assumptions C73_not_early.

(** ... and as soon as a frame was stored after it: once an event that stored
    something is over, the current file carries the name of a time less than
    the interval before the event. *)
Theorem C73_not_late e a H c x c' :
  steady e -> is_stdout a = false -> has_calendar a = true -> (0 < a_split a)%Z ->
  reach e a H c -> legal a H c x -> step e a x c = Go c' -> stored (x_log c') <> stored (x_log c) ->
  exists t older name, (e_time e (x_tick c) < t + a_split a)%Z /\
    map fst (x_outs c') = older ++ [name] /\ e_strftime e t = Some name.
Proof.
  intros St Ns Cal Sp R L S0 G. destruct (not_late e a H c x c' St Ns Cal Sp R L S0 G) as (A & o & n & B & C).
  exists (x_ts c'), o, n. auto.
Qed.
Print Assumptions C73_not_late.

Example C73_two_files : reach ex_env ex_args ex_H ex_c /\ is_stdout ex_args = false /\ (a_split ex_args <= 0)%Z /\
  requests ex_H = 1%nat /\ length (x_outs ex_c) = 2%nat.
Proof. split; [exact ex_run|]. repeat split; vm_compute; try reflexivity. discriminate. Qed.

Example C73_rotated : exists c c', reach ex_env ex_args5 (firstn 6 ex_H5) c /\ step ex_env ex_args5 (E_data 3 (data_frame [x04])) c = Go c' /\
  legal ex_args5 (firstn 6 ex_H5) c (E_data 3 (data_frame [x04])) /\ stored (x_log c') <> stored (x_log c) /\
  steady ex_env /\ is_stdout ex_args5 = false /\ has_calendar ex_args5 = true /\ (0 < a_split ex_args5)%Z /\
  ~ In E_sigusr1 ex_H5.
Proof.
  eexists. eexists. split; [apply play0_sound; vm_compute; reflexivity|].
  split; [vm_compute; reflexivity|].
  split; [cbn; split; [discriminate|]; eexists; split; [reflexivity|discriminate]|]. split; [discriminate|].
  split; [intros n m L; cbn; lia|]. repeat split. vm_compute. intuition discriminate.
Qed.

(** ** C60: the server survives its peers *)
(** No undefined behaviour of the kinds modelled, whatever the bytes. *)
Theorem C60_defined e a H c x f : reach e a H c -> legal a H c x -> step e a x c <> Broke f.
Proof. intros R L. exact (step_not_broke e a H c x R L f). Qed.
Print Assumptions C60_defined.

(** Missing: streams announcing lengths of 2^32-4 and above. *)
Theorem C60_keeps_running_partial e a H c x :
  sends e -> output_works e -> reach e a H c -> legal a H c x -> (forall id, tame (received id (H ++ [x]))) ->
  exists c', step e a x c = Go c'.
Proof. exact (step_runs e a H c x). Qed.
Print Assumptions C60_keeps_running_partial.

Example C60_next : legal ex_args ex_H ex_c (E_written 1) /\ (forall id, tame (received id (ex_H ++ [E_written 1]))) /\ output_works ex_env.
Proof.
  split; [apply legalb_sound; vm_compute; reflexivity|]. split; [|repeat split; discriminate].
  intro id. rewrite received_snoc. rewrite app_nil_r. apply ex_tame.
Qed.

(** Four bytes from any peer stop the server for good. *)
Theorem C60_hang_refuted : exists e a H c x,
  sends e /\ output_works e /\ args_accepted a = true /\ reach e a H c /\ legal a H c x /\
  (exists id, x = E_data id (be32 (2 ^ 32 - 4))) /\ forall fuel k, find_conn 1 (x_conns c) = Some k ->
    forall r c', read_loop e a fuel 1 (mk_conn (k_state k) (k_payload k) (k_total k) (k_skip k) (k_ctl k) (be32 (2 ^ 32 - 4))) c <> Go (r, c').
Proof.
  exists ex_env, ex_args, [E_accept 1]. eexists. exists (E_data 1 (be32 (2 ^ 32 - 4))).
  split; [exact ex_sends|]. split; [repeat split; discriminate|]. split; [reflexivity|].
  split; [apply play0_sound; vm_compute; reflexivity|]. split; [apply legalb_sound; vm_compute; reflexivity|].
  split; [eauto|]. intros fuel k F r c'. vm_compute in F. injection F as <-. apply zero_frame_hangs; [repeat split; discriminate|reflexivity].
Qed.
Print Assumptions C60_hang_refuted.

(** ... and nothing else does: the server hangs exactly when what a peer has
    sent leads there. *)
Theorem C60_hang_exactly e a H c x : sends e -> output_works e -> reach e a H c -> legal a H c x ->
  (step e a x c = Hang <-> exists id chunk acts, x = E_data id chunk /\
     reacts_any false (capture_highwater a) (a_ctype a) Ph_ready (received id (H ++ [x])) acts Endless) /\
  (step e a x c = Hang \/ exists c', step e a x c = Go c').
Proof. exact (hang_exactly e a H c x). Qed.
Print Assumptions C60_hang_exactly.

(** Answers that cannot be sent do not stop it either. *)
Theorem C60_answers_fail e a H c x : output_works e -> reach e a H c -> legal a H c x ->
  (exists c', step e a x c = Go c') \/
  (step e a x c = Hang /\ exists id chunk acts, x = E_data id chunk /\
     reacts_any true (capture_highwater a) (a_ctype a) Ph_ready (received id (H ++ [x])) acts Endless).
Proof. exact (step_or_endless true e a H c x (or_intror eq_refl)). Qed.
Print Assumptions C60_answers_fail.

(** After a complete handshake, in the middle of the data. *)
Definition ex_zero : ev := E_data 1 (be32 (2 ^ 32 - 4)).
Definition ex_Hz : list ev := [E_accept 1; E_data 1 (ready_frame [ex_ct] ++ start_frame (Some ex_ct)); E_data 1 (data_frame [x01])].
Example C60_hangs_late : exists c, reach ex_env ex_args ex_Hz c /\ legal ex_args ex_Hz c ex_zero /\ step ex_env ex_args ex_zero c = Hang /\
  legal ex_args ex_Hz c (E_data 1 [xff; xff; xff]) /\ exists c', step ex_env ex_args (E_data 1 [xff; xff; xff]) c = Go c'.
Proof.
  eexists. split; [apply play0_sound; vm_compute; reflexivity|]. split; [apply legalb_sound; vm_compute; reflexivity|].
  split; [vm_compute; reflexivity|]. split; [apply legalb_sound; vm_compute; reflexivity|].
  eexists. vm_compute. reflexivity.
Qed.

(** ** C61: a whole session *)
(** A writer offering the type, announcing it or none, has all its data frames
    stored, in order, and gets ACCEPT and FINISH. *)
Theorem C61_session e a H c id cts st ds :
  sends e -> reach e a H c ->
  received id H = ready_frame cts ++ start_frame st ++ datas ds ++ stop_frame ->
  ctl_ok T_READY cts -> ctl_ok T_START (optl st) ->
  cts = [] \/ In (a_ctype a) cts -> st = None \/ st = Some (a_ctype a) ->
  lenN (ready_frame cts) < 512 -> 512 <= capture_highwater a ->
  Forall (fun d => data_ok d /\ lenN d < 2 ^ 32 - 4 /\ lenN (data_frame d) <= capture_highwater a) ds ->
  acts_of id (x_log c) =
    Answer (ctl_frame T_ACCEPT [a_ctype a]) :: map Store (map data_frame ds) ++ [Answer finish_frame].
Proof. exact (session_captured e a H c id cts st ds). Qed.
Print Assumptions C61_session.

Definition ex_args6 : args := mk_args ex_ct [x66] 0 0 0 false false.
Example C61_hypotheses : exists c, reach ex_env ex_args6 [E_accept 1; E_data 1 (ex_session [[x01]; [x02]])] c /\
  512 <= capture_highwater ex_args6 /\ ctl_ok T_READY [ex_ct] /\ ctl_ok T_START [ex_ct].
Proof.
  eexists. split; [apply play0_sound; vm_compute; reflexivity|]. split; [vm_compute; discriminate|].
  split; (split; vm_compute; repeat constructor; intuition discriminate).
Qed.

(** Once the answers are written, the connection is closed if FINISH was among
    them, and kept otherwise. *)
Theorem C61_closes_after_finish e a H c id c' : reach e a H c ->
  legal a H c (E_written id) -> step e a (E_written id) c = Go c' ->
  (find_conn id (x_conns c') = None <-> In (Answer finish_frame) (acts_of id (x_log c))).
Proof. exact (any_written_closes e a H c id c'). Qed.
Print Assumptions C61_closes_after_finish.

Example C61_closed : exists c', reach ex_env ex_args ex_H ex_c /\ tame (received 1 ex_H) /\
  legal ex_args ex_H ex_c (E_written 1) /\ step ex_env ex_args (E_written 1) ex_c = Go c' /\
  find_conn 1 (x_conns ex_c) <> None /\ find_conn 1 (x_conns c') = None.
Proof.
  eexists. split; [exact ex_run|]. split; [exact (ex_tame 1)|]. split; [exact (proj1 C60_next)|].
  split; [vm_compute; reflexivity|]. split; [vm_compute; discriminate|vm_compute; reflexivity].
Qed.

(** C10-C16, C24: the writer. *)
From Verif Require Import Bytes Spec SpecTrace SpecStream Io Control Rdwr Writer Api SpecApi SpecReopen
  Io_proofs Writer_proofs Writer2_proofs Writer3_proofs Writer4_proofs Writer6_proofs.
Local Open Scope N_scope.

(** Concrete objects for the examples. *)
Definition ex_file : rdwr := mk_rdwr 0 true true true false true false.
Definition ex_sock : rdwr := mk_rdwr 0 true true true true true false.
Definition ex_uni : writer := mk_writer ws_opening [[x61]; [x62]] ex_file None None None None 1024.
Definition ex_bi : writer := mk_writer ws_opening [[x61]; [x62]] ex_sock None None None None 1024.
Definition ok1 : ans := ARes r_success.
Definition fail1 : ans := ARes r_failure.
Definition rd (b : bytes) : ans := ARead r_success b.
(** The peer's answer to READY: an ACCEPT frame listing [ct], in three reads. *)
Definition accept_a : list ans := [rd (be32 0); rd (be32 13); rd (ctl_payload T_ACCEPT [[x61]])].
Definition accept_b : list ans := [rd (be32 0); rd (be32 13); rd (ctl_payload T_ACCEPT [[x62]])].

Example ex_objects : fresh_rdwr ex_file /\ fresh_rdwr ex_sock /\
  writer_init 1024 [[x61]; [x62]] ex_file = Some ex_uni /\
  writer_init 1024 [[x61]; [x62]] ex_sock = Some ex_bi.
Proof. repeat split. Qed.

(** C10 (writer side). *)
Theorem C10_writer_legal_transport_use : forall iovm cts rw w cs tr o,
  fresh_rdwr rw -> (0 < iovm)%nat -> writer_init iovm cts rw = Some w -> Forall wcall_ok cs ->
  runs (writer_life w cs) tr o ->
  transport_state tr <> None /\
  match o with
  | Done _ => transport_state tr = Some TDestroyed
  | Stuck _ => False
  | Cut => True
  end.
Proof. exact writer_legal. Qed.
Print Assumptions C10_writer_legal_transport_use.

(** A history with a failed write, a refused write, a failed reopen, and a
    reopen that succeeds. *)
Example C10_writer_nonvacuous : exists tr rs,
  runs (writer_life ex_uni [WWrite [x01]; WWrite [x02]; WClose; WOpen; WOpen; WWrite [x03]]) tr
       (Done (rs, r_success)) /\
  rs = [r_failure; r_failure; r_failure; r_failure; r_success; r_success] /\
  length tr = 11%nat.
Proof.
  eexists _, _. split.
  - apply follow_sound with (l := [ok1; ok1; fail1; ok1; fail1; ok1; ok1; ok1; ok1; ok1; ok1]).
    vm_compute. reflexivity.
  - vm_compute. split; reflexivity.
Qed.

(** C11 (writer side): refuted in general. *)
Theorem C11_writer_closed_at_destroy_refuted : exists tr rs,
  runs (writer_life ex_bi [WOpen]) tr (Done (rs, r_failure)) /\ left_open tr.
Proof.
  eexists _, _. split.
  - apply follow_sound with (l := [ok1; ok1] ++ accept_b ++ [ok1]). vm_compute. reflexivity.
  - eexists [_; _; _; _; _], _, _. vm_compute. split; reflexivity.
Qed.
Print Assumptions C11_writer_closed_at_destroy_refuted.

(** Proved if no call failed.  Missing: histories with failed calls. *)
Theorem C11_writer_closed_at_destroy_partial : forall iovm cts rw w cs tr rs x,
  fresh_rdwr rw -> (0 < iovm)%nat -> writer_init iovm cts rw = Some w -> Forall wcall_ok cs ->
  runs (writer_life w cs) tr (Done (rs, x)) -> Forall (eq r_success) rs -> ~ left_open tr.
Proof. exact writer_no_leak. Qed.
Print Assumptions C11_writer_closed_at_destroy_partial.

Example C11_writer_nonvacuous : exists tr,
  runs (writer_life ex_bi [WWrite [x01]; WGetControl 1]) tr (Done ([r_success; r_success], r_success)).
Proof.
  eexists.
  apply follow_sound with (l := [ok1; ok1] ++ accept_a ++ [ok1; ok1; ok1] ++
    [rd (be32 0); rd (be32 4); rd (be32 5)] ++ [ok1; ok1]).
  vm_compute. reflexivity.
Qed.

(** What is left of the full claim once calls may fail: in every history, the
    transport is left open only if the last session stopped before START, and
    then without any failure of the transport in that session. *)
Theorem C11_writer_left_open_only_in_handshake : forall iovm cts rw w cs tr rs x,
  fresh_rdwr rw -> (0 < iovm)%nat -> writer_init iovm cts rw = Some w -> Forall wcall_ok cs ->
  runs (writer_life w cs) tr (Done (rs, x)) -> left_open tr ->
  exists ss b, delivered tr = ss ++ [b] /\ stalled_handshake (rw_has_read rw) cts b.
Proof. exact writer_left_open. Qed.
Print Assumptions C11_writer_left_open_only_in_handshake.

Theorem C11_one_way_writer_closed_at_destroy : forall iovm cts rw w cs tr rs x,
  fresh_rdwr rw -> rw_has_read rw = false -> (0 < iovm)%nat -> writer_init iovm cts rw = Some w ->
  Forall wcall_ok cs -> Forall (fun ct => lenN ct <= CT_MAX) cts ->
  runs (writer_life w cs) tr (Done (rs, x)) -> ~ left_open tr.
Proof. exact writer_file_closed. Qed.
Print Assumptions C11_one_way_writer_closed_at_destroy.

(** A history that leaves the transport open, with READY as its last session. *)
Example C11_writer_left_open_nonvacuous : exists tr rs,
  runs (writer_life ex_bi [WOpen]) tr (Done (rs, r_failure)) /\ left_open tr /\
  delivered tr = [ready_frame [[x61]; [x62]]].
Proof.
  eexists _, _. split; [|split].
  - apply follow_sound with (l := [ok1; ok1] ++ accept_b ++ [ok1]). vm_compute. reflexivity.
  - eexists [_; _; _; _; _], _, _. vm_compute. split; reflexivity.
  - vm_compute. reflexivity.
Qed.

(** A one-way history with a failed write, a failed reopen and a reopen. *)
Example C11_one_way_nonvacuous : exists tr rs,
  runs (writer_life ex_uni [WWrite [x01]; WWrite [x02]; WClose; WOpen; WOpen; WWrite [x03]]) tr
       (Done (rs, r_success)) /\ rs = [r_failure; r_failure; r_failure; r_failure; r_success; r_success] /\
  transport_state tr = Some TDestroyed.
Proof.
  eexists _, _. split.
  - apply follow_sound with (l := [ok1; ok1; fail1; ok1; fail1; ok1; ok1; ok1; ok1; ok1; ok1]).
    vm_compute. reflexivity.
  - vm_compute. split; reflexivity.
Qed.

(** C12 *)
Theorem C12_unidirectional_format : forall iovm cts rw w cs,
  fresh_rdwr rw -> rw_has_read rw = false -> (0 < iovm)%nat ->
  Forall (fun ct => lenN ct <= CT_MAX) cts -> Forall wcall_ok cs ->
  writer_init iovm cts rw = Some w ->
  let '(xs, st, ss) := u_steps cts U_fresh [] cs in
  exec sink [] (writer_life w cs) =
  match st with
  | U_open => (add_last ss stop_frame, Done (xs, r_success))
  | _ => (ss, Done (xs, r_failure))
  end.
Proof. exact uni_life. Qed.
Print Assumptions C12_unidirectional_format.

Example C12_nonvacuous :
  exec sink [] (writer_life ex_uni [WWritev [[x01]; [x02; x03]]; WClose; WOpen; WWrite [x04]]) =
  ([ start_frame (Some [x61]) ++ be32 1 ++ [x01] ++ be32 2 ++ [x02; x03] ++ stop_frame;
     start_frame (Some [x61]) ++ be32 1 ++ [x04] ++ stop_frame ],
   Done ([r_success; r_success; r_success; r_success], r_success)).
Proof. vm_compute. reflexivity. Qed.

(** C13: on a file-like transport, in any context. *)
Theorem C13_batching_irrelevant : forall iovm cts rw w pre ps post,
  fresh_rdwr rw -> rw_has_read rw = false -> (0 < iovm)%nat ->
  Forall (fun ct => lenN ct <= CT_MAX) cts ->
  Forall wcall_ok (pre ++ [WWritev ps] ++ post) ->
  writer_init iovm cts rw = Some w ->
  fst (exec sink [] (writer_life w (pre ++ [WWritev ps] ++ post))) =
  fst (exec sink [] (writer_life w (pre ++ map WWrite ps ++ post))).
Proof. exact batching. Qed.
Print Assumptions C13_batching_irrelevant.

(** On any opened writer, uni- or bi-directional: one writev emits exactly the
    data frames. *)
Theorem C13_writev_emits_frames : forall w ps ss,
  w_state w = ws_opened -> rw_opened (w_rdwr w) = true -> rw_has_write (w_rdwr w) = true ->
  (0 < w_iov_max w)%nat -> lenN ps < 2 ^ 30 ->
  exec sink ss (writer_writev w ps) = (add_last ss (datas ps), Done (r_success, w)).
Proof. intros w ps ss H1 H2 H3 H4. apply sink_writev. exact (conj H1 (conj H2 (conj H3 H4))). Qed.
Print Assumptions C13_writev_emits_frames.

(** No transport write gets more than 256 buffers. *)
Theorem C13_write_size_bound : forall w iov tr o h iov' a,
  runs (writer_writev w iov) tr o -> In (QWrite h iov', a) tr -> (length iov' <= 256)%nat.
Proof. exact write_calls_bounded. Qed.
Print Assumptions C13_write_size_bound.

Example C13_nonvacuous :
  let ps := map (fun i => [byte_of_N (N.of_nat i)]) (seq 0 300) in
  exec sink [] (writer_life ex_uni [WWritev ps]) =
    ([start_frame (Some [x61]) ++ datas ps ++ stop_frame], Done ([r_success], r_success)) /\
  lenN (datas ps) = 1500.
Proof. vm_compute. split; reflexivity. Qed.

(** C14: whatever reached the medium, [ss], is a list of prefixes of valid
    streams whose payloads are explained by the calls. *)
Theorem C14_crash_prefix : forall iovm cts rw w cs tr o ss,
  fresh_rdwr rw -> (0 < iovm)%nat -> writer_init iovm cts rw = Some w -> Forall wcall_ok cs ->
  runs (writer_life w cs) tr o -> emits tr ss ->
  exists full rs σs dss,
    explained cs rs σs /\ Forall2 prefix ss full /\
    Forall2 (writer_session (rw_has_read rw) cts) full dss /\ concat dss = concat σs.
Proof. exact writer_crash_prefix. Qed.
Print Assumptions C14_crash_prefix.

(** A crash in the middle of the second data frame. *)
Example C14_nonvacuous : exists tr ss,
  runs (writer_life ex_uni [WWrite [x01]; WWrite [x02; x03; x04]]) tr Cut /\
  emits tr ss /\ ss = [start_frame (Some [x61]) ++ be32 1 ++ [x01] ++ be32 3 ++ [x02]].
Proof.
  eexists _, _. split.
  - apply follow_sound with (l := [ok1; ok1; ok1; fail1]). vm_compute. reflexivity.
  - split.
    + pose proof em_nil as E0.
      pose proof (em_other _ _ (QOpen 0, ok1) E0 ltac:(congruence)) as E1.
      pose proof (em_other _ _ (QWrite 0 [start_frame (Some [x61])], ok1) E1 ltac:(unfold ok1; congruence)) as E2.
      pose proof (em_other _ _ (QWrite 0 [be32 1; [x01]], ok1) E2 ltac:(unfold ok1; congruence)) as E3.
      refine (em_fail _ _ 0 [be32 3; [x02; x03; x04]] r_failure (be32 3 ++ [x02]) E3 ltac:(discriminate) _).
      exists [x03; x04]. reflexivity.
    + vm_compute. reflexivity.
Qed.

(** C15: when the history ends, successful calls delivered all their payloads,
    failed ones an initial part, in order. *)
Theorem C15_results_explained_by_delivery : forall iovm cts rw w cs tr rs x,
  fresh_rdwr rw -> (0 < iovm)%nat -> writer_init iovm cts rw = Some w -> Forall wcall_ok cs ->
  runs (writer_life w cs) tr (Done (rs, x)) ->
  exists σs dss,
    length rs = length cs /\ explained cs rs σs /\
    Forall2 (writer_session (rw_has_read rw) cts) (delivered tr) dss /\ concat dss = concat σs.
Proof. exact writer_delivered. Qed.
Print Assumptions C15_results_explained_by_delivery.

(** A call that reports success met no transport failure. *)
Theorem C15_success_means_no_failure : forall w c tr w',
  runs (do_wcall w c) tr (Done (r_success, w')) -> Forall ev_ok tr.
Proof. exact success_all_ok. Qed.
Print Assumptions C15_success_means_no_failure.

(** After a close, successful or not, nothing happens until reopened. *)
Theorem C15_silent_after_close : forall w tr x w' cs tr2 o,
  runs (do_wcall w WClose) tr (Done (x, w')) -> tr <> [] ->
  Forall (fun c => c <> WOpen) cs -> Forall wcall_ok cs ->
  runs (do_wcalls w' cs) tr2 o ->
  tr2 = [] /\ exists xs, o = Done (xs, w') /\
    Forall2 (fun c x => wpayloads c <> [] -> x = r_failure) cs xs.
Proof. exact quiet_after_close. Qed.
Print Assumptions C15_silent_after_close.

(** 150 payloads are split in two writes, the second of which fails: the call
    fails although the first 128 were delivered. *)
Example C15_nonvacuous :
  let ps := map (fun i => [byte_of_N (N.of_nat i)]) (seq 0 150) in
  exists tr rs, runs (writer_life ex_uni [WWritev ps; WClose]) tr (Done (rs, r_failure)) /\
    rs = [r_failure; r_failure] /\
    delivered tr = [start_frame (Some [x61]) ++ datas (firstn 128 ps)].
Proof.
  eexists _, _. split.
  - apply follow_sound with (l := [ok1; ok1; ok1; fail1; ok1; ok1]). vm_compute. reflexivity.
  - vm_compute. split; reflexivity.
Qed.

(** C24 (writer side): refuted in general: success with no frame, and, after a
    failed reopen, success with a frame of another type. *)
Theorem C24_writer_null_control_refuted : exists tr,
  runs (calls_then_get ex_uni [] T_ACCEPT) tr (Done ([], r_success, Some None)).
Proof.
  eexists. apply follow_sound with (l := [ok1; ok1]). vm_compute. reflexivity.
Qed.
Print Assumptions C24_writer_null_control_refuted.

Theorem C24_writer_wrong_type_refuted : exists tr xs,
  runs (calls_then_get ex_bi [WOpen; WClose; WOpen] T_ACCEPT) tr
       (Done (xs, r_success, Some (Some (mk_control T_FINISH [])))).
Proof.
  eexists _, _.
  apply follow_sound with (l := [ok1; ok1] ++ accept_a ++ [ok1] ++
    [ok1; rd (be32 0); rd (be32 4); rd (be32 5); ok1] ++
    [ok1; ok1; rd (be32 0); rd (be32 4); rd (be32 5)]).
  vm_compute. reflexivity.
Qed.
Print Assumptions C24_writer_wrong_type_refuted.

(** Proved whenever the last reopen did not fail (and, for FINISH, no close
    did): other calls may have failed in any way.  Missing: histories that end
    with a failed reopen. *)
Theorem C24_writer_control_truth_partial : forall iovm cts rw w cs t tr xs c,
  fresh_rdwr rw -> (0 < iovm)%nat -> writer_init iovm cts rw = Some w -> Forall wcall_ok cs ->
  runs (calls_then_get w cs t) tr (Done (xs, r_success, Some (Some c))) ->
  no_failed_reopen false true cs xs = true -> (t = T_FINISH -> no_failed_close cs xs = true) ->
  handed_out (rw_has_read rw) cts tr t c.
Proof. exact writer_get_control_reopen. Qed.
Print Assumptions C24_writer_control_truth_partial.

Example C24_writer_nonvacuous : exists tr,
  runs (calls_then_get ex_bi [WWrite [x01]] T_ACCEPT) tr
       (Done ([r_success], r_success, Some (Some (mk_control T_ACCEPT [[x61]])))).
Proof.
  eexists. apply follow_sound with (l := [ok1; ok1] ++ accept_a ++ [ok1; ok1]).
  vm_compute. reflexivity.
Qed.

(** A failed first open, a failed write and a failed close come before. *)
Example C24_writer_mishaps : exists tr xs,
  runs (calls_then_get ex_bi [WOpen; WWrite [x01]; WWrite [x02]; WClose] T_ACCEPT) tr
       (Done (xs, r_success, Some (Some (mk_control T_ACCEPT [[x61]])))) /\
  xs = [r_failure; r_success; r_failure; r_failure] /\
  no_failed_reopen false true [WOpen; WWrite [x01]; WWrite [x02]; WClose] xs = true.
Proof.
  eexists _, _. split; [|split].
  - apply follow_sound with (l := [fail1; ok1; ok1] ++ accept_a ++ [ok1; ok1; fail1; ok1]).
    vm_compute. reflexivity.
  - reflexivity.
  - vm_compute. reflexivity.
Qed.

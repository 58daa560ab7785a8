(** C10, C11, C16-C24: the reader, and writer/reader round trips. *)
From Verif Require Import Bytes Spec SpecTrace SpecStream Io Control Rdwr Reader Writer Api SpecApi SpecReader SpecFile File
  Io_proofs Writer2_proofs Reader2_proofs Reader3_proofs File_proofs Reader4_proofs Reader5_proofs Reader6_proofs Reader7_proofs SpecReopen Exact_proofs Prop_Writer.
From Verif Require Reader8_proofs.
Local Open Scope N_scope.

(** Concrete objects for the examples. *)
Definition ex_rfile : rdwr := file_reader_rdwr 0.
Definition ex_ropt : reader_options := mk_ropt [[x61]] 1000.
Definition ex_any : reader_options := mk_ropt [] 1000.
Definition mk_r (o : reader_options) (rw : rdwr) : reader :=
  mk_reader rs_opening (ro_cts o) (ro_max o) rw None None None None None 512.
Definition eof : ans := ARead r_stop [].
(** Answers to the three reads of a control frame. *)
Definition ctl_reads (t : N) (cts : list bytes) : list ans :=
  [rd (be32 0); rd (be32 (lenN (ctl_payload t cts))); rd (ctl_payload t cts)].

Example ex_reader_objects : fresh_rdwr ex_rfile /\ fresh_rdwr ex_sock /\
  reader_init ex_ropt ex_rfile = Some (mk_r ex_ropt ex_rfile) /\
  reader_init ex_ropt ex_sock = Some (mk_r ex_ropt ex_sock).
Proof. repeat split. Qed.

(** C10 (reader side). *)
Theorem C10_reader_legal_transport_use : forall o rw r fuel cs tr out,
  fresh_rdwr rw -> reader_init o rw = Some r -> runs (reader_life fuel r cs) tr out ->
  transport_state tr <> None /\
  match out with
  | Done _ => transport_state tr = Some TDestroyed
  | Stuck f => f = FFuel /\ (fuel <= total_read tr)%nat
  | Cut => True
  end.
Proof.
  intros o rw r fuel cs tr out F H R.
  destruct (reader_life_spec okS eq_refl o rw r fuel cs tr out F H R) as (L & _ & D). split; [exact L|].
  destruct out as [[xs x]|f|]; [apply D|exact D|exact I].
Qed.
Print Assumptions C10_reader_legal_transport_use.

(** What a reader sends: at most ACCEPT (of its own types) and FINISH, and
    only on a bi-directional transport. *)
Theorem C10_reader_sends_only_handshake : forall o rw r fuel cs tr out,
  fresh_rdwr rw -> reader_init o rw = Some r -> runs (reader_life fuel r cs) tr out ->
  Forall (reader_session (rw_has_write rw) (ro_cts o)) (attempted tr).
Proof.
  intros o rw r fuel cs tr out F H R.
  exact (proj1 (proj2 (reader_life_spec (fun _ => true) eq_refl o rw r fuel cs tr out F H R))).
Qed.
Print Assumptions C10_reader_sends_only_handshake.

(** A failed handshake, a reopen, a read that fails, and a destroy. *)
Example C10_reader_nonvacuous : exists tr xs,
  runs (reader_life 5 (mk_r ex_ropt ex_sock) [ROpen; ROpen; RRead; RRead]) tr (Done (xs, r_failure)) /\
  xs = [(r_failure, None); (r_success, None); (r_success, Some [x07]); (r_stop, None)] /\ length tr = 19%nat.
Proof.
  eexists _, _. split.
  - apply follow_sound with (l := [ok1] ++ ctl_reads T_READY [[x61]] ++ [fail1; ok1] ++
      [ok1] ++ ctl_reads T_READY [[x61]] ++ [ok1] ++ ctl_reads T_START [[x61]] ++
      [rd (be32 1); rd [x07]; eof; ok1; ok1]). vm_compute. reflexivity.
  - vm_compute. split; reflexivity.
Qed.

(** C25: in every session of every history, the ACCEPT is the answer to the
    READY that was just received on this connection: exactly the reader's own
    types that were offered, and nothing kept from an earlier handshake.  The
    only other thing a reader ever writes is FINISH. *)
Theorem C25_accept_answers_ready : forall o rw r fuel cs tr out tr1 h iov a tr2,
  fresh_rdwr rw -> reader_init o rw = Some r -> runs (reader_life fuel r cs) tr out ->
  tr = tr1 ++ (QWrite h iov, a) :: tr2 ->
  reader_write_ok (ro_cts o) (received tr1) (concat iov).
Proof.
  intros o rw r fuel cs tr out tr1 h iov a tr2 F H R. exact (reader_writes o rw r fuel cs tr out F H R tr1 h iov a tr2).
Qed.
Print Assumptions C25_accept_answers_ready.

(** Two sessions of a reader wanting "a" and "b": the first peer offers both,
    the second only "b". *)
Example C25_accept_answers_ready_nonvacuous : exists tr xs,
  runs (reader_life 5 (mk_r (mk_ropt [[x61]; [x62]] 1000) ex_sock) [ROpen; RClose; ROpen]) tr (Done (xs, r_success)) /\
  flat_map (fun e => match e with (QWrite _ iov, _) => [concat iov] | _ => [] end) tr =
    [ctl_frame T_ACCEPT [[x61]; [x62]]; finish_frame; ctl_frame T_ACCEPT [[x62]]; finish_frame].
Proof.
  eexists _, _. split.
  - apply follow_sound with (l := [ok1] ++ ctl_reads T_READY [[x61]; [x62]] ++ [ok1] ++ ctl_reads T_START [[x61]] ++ [ok1; ok1] ++
      [ok1] ++ ctl_reads T_READY [[x62]] ++ [ok1] ++ ctl_reads T_START [[x62]] ++ [ok1; ok1; ok1]). vm_compute. reflexivity.
  - vm_compute. reflexivity.
Qed.

(** C11 (reader side): refuted: an unwanted content type, or an oversized data
    frame, leaves the transport open for good. *)
Theorem C11_reader_closed_at_destroy_refuted :
  (exists tr xs, runs (reader_life 5 (mk_r ex_ropt ex_rfile) [ROpen]) tr (Done (xs, r_failure)) /\ left_open tr) /\
  (exists tr xs, runs (reader_life 5 (mk_r ex_ropt ex_rfile) [RRead]) tr (Done (xs, r_failure)) /\ left_open tr).
Proof.
  split.
  - eexists _, _. split.
    + apply follow_sound with (l := [ok1] ++ ctl_reads T_START [[x62]] ++ [ok1]). vm_compute. reflexivity.
    + eexists [_; _; _; _], _, _. vm_compute. split; reflexivity.
  - eexists _, _. split.
    + apply follow_sound with (l := [ok1] ++ ctl_reads T_START [[x61]] ++ [rd (be32 1001); ok1]). vm_compute. reflexivity.
    + eexists [_; _; _; _; _], _, _. vm_compute. split; reflexivity.
Qed.
Print Assumptions C11_reader_closed_at_destroy_refuted.

(** Proved when every open succeeded and every read after that returned data or
    end of stream.  Missing: histories with a failed open or read. *)
Theorem C11_reader_closed_at_destroy_partial : forall o rw r fuel cs tr xs x,
  fresh_rdwr rw -> reader_init o rw = Some r ->
  runs (reader_life fuel r cs) tr (Done (xs, x)) -> good_history true false cs xs -> ~ left_open tr.
Proof. exact reader_no_leak. Qed.
Print Assumptions C11_reader_closed_at_destroy_partial.

Example C11_reader_nonvacuous : exists tr xs,
  runs (reader_life 5 (mk_r ex_ropt ex_rfile) [RRead; RRead; RClose; ROpen]) tr (Done (xs, r_success)) /\
  good_history true false [RRead; RRead; RClose; ROpen] xs.
Proof.
  eexists _, _. split.
  - apply follow_sound with (l := [ok1] ++ ctl_reads T_START [[x61]] ++ [rd (be32 1); rd [x07]] ++ ctl_reads T_STOP [] ++
      [ok1; ok1] ++ ctl_reads T_START [] ++ [ok1; ok1]). vm_compute. reflexivity.
  - vm_compute. repeat split; auto. left. discriminate.
Qed.

(** Over all histories: a transport is left open only if what was received on it
    since it was opened is not the beginning of any stream this reader takes
    (a wrong or malformed frame, an unwanted content type, an oversized frame),
    or if the reader's own answer to a READY does not fit into a frame. *)
Theorem C11_reader_left_open_only_after_refusal : forall o rw r fuel cs tr xs x,
  fresh_rdwr rw -> reader_init o rw = Some r ->
  runs (reader_life fuel r cs) tr (Done (xs, x)) -> left_open tr ->
  refused (rw_has_write rw) (ro_cts o) (ro_max o) (received tr) \/
  (rw_has_write rw = true /\ unanswerable (ro_cts o) (received tr)).
Proof. exact reader_left_open_why. Qed.
Print Assumptions C11_reader_left_open_only_after_refusal.

(** An oversized frame after a good one is refused, the good one is not. *)
Example C11_refused_nonvacuous :
  (exists tr xs, runs (reader_life 5 (mk_r ex_ropt ex_rfile) [RRead; RRead; RClose]) tr (Done (xs, r_failure)) /\
     left_open tr /\ received tr = ctl_frame T_START [[x61]] ++ data_frame [x07] ++ be32 1001) /\
  ~ refused false [[x61]] 1000 (ctl_frame T_START [[x61]] ++ data_frame [x07]).
Proof.
  split.
  - eexists _, _. split; [|split].
    + apply follow_sound with (l := [ok1] ++ ctl_reads T_START [[x61]] ++ [rd (be32 1); rd [x07]; rd (be32 1001); ok1]). vm_compute. reflexivity.
    + eexists [_; _; _; _; _; _; _], _, _. vm_compute. split; reflexivity.
    + vm_compute. reflexivity.
  - intro R. apply (R []). rewrite app_nil_r. exists (ctl_frame T_START [[x61]]), ([] ++ data_frame [x07]), ([] ++ [[x07]]).
    split; [|split; [|left; reflexivity]].
    + exists [], [[x61]].
      split; [split; [unfold known_type; tauto|constructor|vm_compute; discriminate|intros _; cbn; lia|intros _; reflexivity]|].
      split; [split; [unfold known_type; tauto|constructor; [vm_compute; discriminate|constructor]|vm_compute; discriminate|intros _; cbn; lia|intros [E|E]; discriminate E]|].
      split; [right; right; exists [x61]; cbn; auto|reflexivity].
    + apply c_data; [constructor|split; vm_compute; [discriminate|reflexivity]|vm_compute; discriminate].
Qed.

(** Three types of 200 bytes do not fit into one ACCEPT. *)
Definition ex_long_types : list bytes := map (repeat x61) [200%nat; 201%nat; 202%nat].
Example C11_unanswerable_nonvacuous : exists tr xs,
  runs (reader_life 5 (mk_r (mk_ropt ex_long_types 1000) ex_sock) [ROpen]) tr (Done (xs, r_failure)) /\
  left_open tr /\ received tr = ctl_frame T_READY [] /\ unanswerable ex_long_types (received tr).
Proof.
  eexists _, _. split; [|split; [|split]].
  - apply follow_sound with (l := [ok1] ++ ctl_reads T_READY [] ++ [ok1]). vm_compute. reflexivity.
  - eexists [_; _; _; _], _, _. vm_compute. split; reflexivity.
  - vm_compute. reflexivity.
  - exists [], ex_long_types. split; [|split; [vm_compute; reflexivity|split]].
    + split; [unfold known_type; tauto|constructor|vm_compute; discriminate|intros _; cbn; lia|intros _; reflexivity].
    + unfold ex_long_types. cbn [map]. repeat (apply an_take; [left; reflexivity|]). constructor.
    + intros [_ F]. vm_compute in F. apply F. reflexivity.
Qed.

(** C16: refuted.  An empty payload is accepted and then hides the next frame. *)
Theorem C16_empty_payload_refuted : exists s,
  exec sink [] (writer_life ex_uni [WWrite []; WWrite [x01; x02]]) = ([s], Done ([r_success; r_success], r_success)) /\
  snd (exec (source r_stop false) s (reader_life 50 (mk_r ex_ropt ex_rfile) [ROpen; RRead; RRead])) =
  Done ([(r_success, None); (r_failure, None); (r_failure, None)], r_failure).
Proof. eexists. split; [vm_compute; reflexivity|vm_compute; reflexivity]. Qed.
Print Assumptions C16_empty_payload_refuted.

(** A payload of 4 GiB or more loses all but (length mod 2^32) bytes. *)
Theorem C16_long_payload_refuted : forall eofr zok o rw r p tail fuel,
  eofr <> r_success -> fresh_rdwr rw -> rw_has_write rw = false -> reader_init o rw = Some r -> ro_cts o = [] ->
  1 <= lenN p mod 2 ^ 32 -> lenN p mod 2 ^ 32 <= ro_max o -> (length (data_frame p ++ tail) < fuel)%nat ->
  exists s r', exec (source eofr zok) (start_frame None ++ data_frame p ++ tail) (do_rcalls fuel r [ROpen; RRead]) =
    (s, Done ([(r_success, None); (r_success, Some (firstn (N.to_nat (lenN p mod 2 ^ 32)) p))], r')).
Proof. exact long_payload. Qed.
Print Assumptions C16_long_payload_refuted.

(** Such payloads exist. *)
Example C16_long_nonvacuous : exists p : bytes,
  1 <= lenN p mod 2 ^ 32 /\ lenN p mod 2 ^ 32 <= 1000 /\ lenN (firstn (N.to_nat (lenN p mod 2 ^ 32)) p) < lenN p.
Proof.
  assert (E : forall n, lenN (repeat x00 (N.to_nat n)) = n) by (intro n; unfold lenN; rewrite repeat_length; apply N2Nat.id).
  exists (repeat x00 (N.to_nat (2 ^ 32 + 4))). specialize (E (2 ^ 32 + 4)).
  generalize dependent (repeat x00 (N.to_nat (2 ^ 32 + 4))). intros p E.
  rewrite Bytes_proofs.lenN_firstn, E. change ((2 ^ 32 + 4) mod 2 ^ 32) with 4. repeat split; vm_compute; congruence.
Qed.

(** Proved for payloads of 1 .. 2^32-1 bytes within the reader's limit. *)
Theorem C16_payloads_read_back_partial : forall eofr zok iovm cts rww w ps o rw r m fuel,
  (0 < iovm)%nat -> fresh_rdwr rww -> rw_has_read rww = false -> Forall (fun ct => lenN ct <= CT_MAX) cts ->
  writer_init iovm cts rww = Some w ->
  eofr <> r_success -> fresh_rdwr rw -> rw_has_write rw = false -> reader_init o rw = Some r ->
  ro_cts o = [] \/ cts = [] \/ (exists c, hd_error cts = Some c /\ In c (ro_cts o)) ->
  lenN ps < 2 ^ 30 -> Forall (fun p => data_ok p /\ lenN p <= ro_max o) ps ->
  exists s, exec sink [] (writer_life w [WOpen; WWritev ps]) = ([s], Done ([r_success; r_success], r_success)) /\
    ((length s <= fuel)%nat ->
     exists r', exec (source eofr zok) s (do_rcalls fuel r (ROpen :: repeat RRead (length ps + 1 + m))) =
     ([], Done ((r_success, None) :: map (fun d => (r_success, Some d)) ps ++
                (r_stop, None) :: repeat (r_failure, None) m, r'))).
Proof. exact good_payloads. Qed.
Print Assumptions C16_payloads_read_back_partial.

(** And for no others: whatever the payloads, they come back, followed by the
    end of the stream, if and only if each has 1 .. 2^32-1 bytes and is within
    the reader's limit. *)
Theorem C16_read_back_exactly : forall eofr zok iovm cts rww w ps o rw r m fuel,
  (0 < iovm)%nat -> fresh_rdwr rww -> rw_has_read rww = false -> Forall (fun ct => lenN ct <= CT_MAX) cts ->
  writer_init iovm cts rww = Some w ->
  eofr <> r_success -> fresh_rdwr rw -> rw_has_write rw = false -> reader_init o rw = Some r ->
  ro_cts o = [] \/ cts = [] \/ (exists c, hd_error cts = Some c /\ In c (ro_cts o)) ->
  lenN ps < 2 ^ 30 ->
  exists s, exec sink [] (writer_life w [WOpen; WWritev ps]) = ([s], Done ([r_success; r_success], r_success)) /\
    ((length s <= fuel)%nat ->
     ((exists r', snd (exec (source eofr zok) s (do_rcalls fuel r (ROpen :: repeat RRead (length ps + 1 + m)))) =
       Done ((r_success, None) :: map (fun d => (r_success, Some d)) ps ++ (r_stop, None) :: repeat (r_failure, None) m, r'))
      <-> Forall (fun p => data_ok p /\ lenN p <= ro_max o) ps)).
Proof. exact any_payloads. Qed.
Print Assumptions C16_read_back_exactly.

Example C16_nonvacuous :
  let ps := [[x01]; [x00; x00; x00; x00]; [x00; x00; x00; x00; x00; x00; x00; x04; x00; x00; x00; x03]] in
  Forall (fun p => data_ok p /\ lenN p <= 1000) ps /\
  snd (exec (source r_stop false) (start_frame (Some [x61]) ++ datas ps ++ stop_frame)
         (reader_life 100 (mk_r ex_ropt ex_rfile) (repeat RRead 5))) =
  Done (map (fun d => (r_success, Some d)) ps ++ [(r_stop, None); (r_failure, None)], r_success).
Proof. split; [repeat constructor; vm_compute; discriminate|vm_compute; reflexivity]. Qed.

(** C17: any history of calls on a file writer, then any number of reads
    through a file reader: exactly the payloads of the last opened stream, then
    end of stream; all results are success. *)
Theorem C17_file_round_trip : forall iovm cts hw w cs d0 hr o r fuel m ds,
  (0 < iovm)%nat -> Forall (fun ct => lenN ct <= CT_MAX) cts -> Forall wcall_ok cs ->
  Forall (fun c => Forall (fun p => data_ok p /\ lenN p <= ro_max o) (wpayloads c)) cs ->
  writer_init iovm cts (file_writer_rdwr hw) = Some w ->
  reader_init o (file_reader_rdwr hr) = Some r ->
  ro_cts o = [] \/ cts = [] \/ (exists c, hd_error cts = Some c /\ In c (ro_cts o)) ->
  kept cs = Some ds ->
  let fd := f_data (fst (exec file_ops (mk_cfile true d0 None) (writer_life w cs))) in
  (length fd <= fuel)%nat ->
  exec file_ops (mk_cfile false fd None) (reader_life fuel r (ROpen :: repeat RRead (length ds + 1 + m))) =
  (mk_cfile false fd None,
   Done ((r_success, None) :: map (fun d => (r_success, Some d)) ds ++
         (r_stop, None) :: repeat (r_failure, None) m, r_success)).
Proof. exact file_round_trip. Qed.
Print Assumptions C17_file_round_trip.

(** The same without an explicit open. *)
Theorem C17_file_round_trip_implicit_open : forall iovm cts hw w cs d0 hr o r fuel m ds,
  (0 < iovm)%nat -> Forall (fun ct => lenN ct <= CT_MAX) cts -> Forall wcall_ok cs ->
  Forall (fun c => Forall (fun p => data_ok p /\ lenN p <= ro_max o) (wpayloads c)) cs ->
  writer_init iovm cts (file_writer_rdwr hw) = Some w ->
  reader_init o (file_reader_rdwr hr) = Some r ->
  ro_cts o = [] \/ cts = [] \/ (exists c, hd_error cts = Some c /\ In c (ro_cts o)) ->
  kept cs = Some ds ->
  let fd := f_data (fst (exec file_ops (mk_cfile true d0 None) (writer_life w cs))) in
  (length fd <= fuel)%nat ->
  exec file_ops (mk_cfile false fd None) (reader_life fuel r (repeat RRead (length ds + 1 + m))) =
  (mk_cfile false fd None,
   Done (map (fun d => (r_success, Some d)) ds ++ (r_stop, None) :: repeat (r_failure, None) m, r_success)).
Proof. exact file_round_trip_implicit. Qed.
Print Assumptions C17_file_round_trip_implicit_open.

(** The START frame reports the writer's content type. *)
Theorem C17_file_start_content_type : forall iovm cts hw w cs d0 hr o r fuel m ds,
  (0 < iovm)%nat -> Forall (fun ct => lenN ct <= CT_MAX) cts -> Forall wcall_ok cs ->
  Forall (fun c => Forall (fun p => data_ok p /\ lenN p <= ro_max o) (wpayloads c)) cs ->
  writer_init iovm cts (file_writer_rdwr hw) = Some w ->
  reader_init o (file_reader_rdwr hr) = Some r ->
  ro_cts o = [] \/ cts = [] \/ (exists c, hd_error cts = Some c /\ In c (ro_cts o)) ->
  kept cs = Some ds ->
  let fd := f_data (fst (exec file_ops (mk_cfile true d0 None) (writer_life w cs))) in
  (length fd <= fuel)%nat ->
  snd (exec file_ops (mk_cfile false fd None)
         (rcalls_then_get fuel r (ROpen :: repeat RRead (length ds + 1 + m)) T_START)) =
  Done ((r_success, None) :: map (fun d => (r_success, Some d)) ds ++ (r_stop, None) :: repeat (r_failure, None) m,
        r_success, Some (Some (mk_control T_START (optl (hd_error cts))))).
Proof. exact file_round_trip_start. Qed.
Print Assumptions C17_file_start_content_type.

(** A writer that is never opened leaves the file alone; otherwise the file is
    START, the payloads since the last open, STOP. *)
Theorem C17_file_contents : forall iovm cts h w cs d0,
  (0 < iovm)%nat -> Forall (fun ct => lenN ct <= CT_MAX) cts -> Forall wcall_ok cs ->
  Forall (fun c => Forall (fun p => lenN p <> 0) (wpayloads c)) cs ->
  writer_init iovm cts (file_writer_rdwr h) = Some w ->
  fst (exec file_ops (mk_cfile true d0 None) (writer_life w cs)) =
  mk_cfile true match kept cs with
                | None => d0
                | Some ds => start_frame (hd_error cts) ++ datas ds ++ stop_frame
                end None.
Proof. exact file_contents. Qed.
Print Assumptions C17_file_contents.

Example C17_nonvacuous :
  let cs := [WWritev [[x01]; [x02; x03]]; WClose; WWrite [x09]; WOpen; WWrite [x04]; WOpen; WWrite [x05; x06]] in
  let w := mk_writer ws_opening [[x61]] (file_writer_rdwr 0) None None None None 1024 in
  let fd := f_data (fst (exec file_ops (mk_cfile true [x77] None) (writer_life w cs))) in
  kept cs = Some [[x04]; [x05; x06]] /\ (length fd <= 100)%nat /\
  snd (exec file_ops (mk_cfile false fd None) (reader_life 100 (mk_r ex_ropt ex_rfile) (repeat RRead 4))) =
  Done ([(r_success, Some [x04]); (r_success, Some [x05; x06]); (r_stop, None); (r_failure, None)], r_success).
Proof. vm_compute. repeat split. repeat constructor. Qed.

(** C18: the reader computes [parse] on every data section, whatever the
    transport's end-of-input result. *)
Theorem C18_reader_meaning : forall eofr zok o rw r rdy st inp m fuel,
  eofr <> r_success -> fresh_rdwr rw -> reader_init o rw = Some r ->
  ctl_ok T_READY rdy -> ctl_ok T_START st -> start_accepted (ro_cts o) st ->
  (rw_has_write rw = true -> fits true T_ACCEPT (ro_cts o)) -> (length inp < fuel)%nat ->
  exists ds e rest r',
    parse (ro_max o) inp ds e rest /\
    (forall ds' e' rest', parse (ro_max o) inp ds' e' rest' -> ds' = ds /\ e' = e /\ rest' = rest) /\
    exec (source eofr zok) (head_of (rw_has_write rw) rdy st ++ inp)
         (do_rcalls fuel r (ROpen :: repeat RRead (length ds + 1 + m))) =
    (rest, Done ((r_success, None) :: map (fun d => (r_success, Some d)) ds ++
                 (ending_result eofr e, None) :: repeat (r_failure, None) m, r')).
Proof. exact source_meaning. Qed.
Print Assumptions C18_reader_meaning.

(** Bi-directional, with a stray FINISH frame in the middle and garbage after
    STOP. *)
Example C18_nonvacuous :
  ctl_ok T_READY [[x61]; [x62]] /\ start_accepted [[x61]] [[x61]] /\ fits true T_ACCEPT [[x61]] /\
  snd (exec (source r_failure true)
         (head_of true [[x61]; [x62]] [[x61]] ++ data_frame [x01] ++ finish_frame ++ data_frame [x02; x03] ++ stop_frame ++ [xff])
         (reader_life 100 (mk_r ex_ropt ex_sock) (repeat RRead 4))) =
  Done ([(r_success, Some [x01]); (r_success, Some [x02; x03]); (r_stop, None); (r_failure, None)], r_success).
Proof.
  split; [|split; [|split]].
  - split; [unfold known_type; tauto|repeat constructor; discriminate|vm_compute; discriminate|discriminate|intros [E|E]; discriminate E].
  - right; right. exists [x61]. cbn. auto.
  - split; [repeat constructor; discriminate|vm_compute; discriminate].
  - vm_compute. reflexivity.
Qed.

(** C19: cutting a data section anywhere yields a prefix of its frames and then
    no data. *)
Theorem C19_truncation : forall eofr zok o rw r rdy st inp b ds e rest fuel,
  eofr <> r_success -> fresh_rdwr rw -> reader_init o rw = Some r ->
  ctl_ok T_READY rdy -> ctl_ok T_START st -> start_accepted (ro_cts o) st ->
  (rw_has_write rw = true -> fits true T_ACCEPT (ro_cts o)) ->
  parse (ro_max o) inp ds e rest -> prefix b inp -> (length inp < fuel)%nat ->
  exists ds' e', prefix ds' ds /\ (e' = E_eof \/ ds' = ds /\ e' = e) /\ forall m, exists s' r',
    exec (source eofr zok) (head_of (rw_has_write rw) rdy st ++ b)
         (do_rcalls fuel r (ROpen :: repeat RRead (length ds' + 1 + m))) =
    (s', Done ((r_success, None) :: map (fun d => (r_success, Some d)) ds' ++
               (ending_result eofr e', None) :: repeat (r_failure, None) m, r')).
Proof. exact source_cut. Qed.
Print Assumptions C19_truncation.

(** C19: the same for a file of any length cut anywhere after its START frame. *)
Theorem C19_truncated_file : forall o h r d b st inp ds e rest fuel,
  reader_init o (file_reader_rdwr h) = Some r ->
  d = ctl_frame T_START st ++ inp -> ctl_ok T_START st -> start_accepted (ro_cts o) st ->
  parse (ro_max o) inp ds e rest -> prefix b d -> (length (ctl_frame T_START st) <= length b)%nat -> (length d <= fuel)%nat ->
  exists ds' e', prefix ds' ds /\ (e' = E_eof \/ ds' = ds /\ e' = e) /\ forall m, exists f' r',
    exec file_ops (mk_cfile false b None) (do_rcalls fuel r (ROpen :: repeat RRead (length ds' + 1 + m))) =
    (f', Done ((r_success, None) :: map (fun d => (r_success, Some d)) ds' ++
               (ending_result r_stop e', None) :: repeat (r_failure, None) m, r')).
Proof. exact file_cut. Qed.
Print Assumptions C19_truncated_file.

Example C19_nonvacuous :
  let inp := data_frame [x01] ++ data_frame [x02; x03] ++ stop_frame in
  parse 1000 inp [[x01]; [x02; x03]] E_stop [] /\
  prefix (data_frame [x01] ++ be32 2 ++ [x02]) inp /\
  snd (exec (source r_failure true) (head_of false [] [[x61]] ++ data_frame [x01] ++ be32 2 ++ [x02])
         (do_rcalls 100 (mk_r ex_ropt ex_rfile) (repeat RRead 3))) =
  snd (exec (source r_failure true) (head_of false [] [[x61]] ++ data_frame [x01])
         (do_rcalls 100 (mk_r ex_ropt ex_rfile) (repeat RRead 3))).
Proof.
  cbv zeta. split; [|split].
  - apply p_data; [split; vm_compute; [discriminate|reflexivity]|vm_compute; discriminate|].
    apply p_data; [split; vm_compute; [discriminate|reflexivity]|vm_compute; discriminate|].
    rewrite <- (app_nil_r stop_frame). apply p_stop.
  - exists ([x03] ++ stop_frame). vm_compute. reflexivity.
  - vm_compute. reflexivity.
Qed.

(** On a file, a stream cut inside a frame and a complete stream give the same
    read results. *)
Theorem C19_cut_looks_complete_refuted :
  let full := head_of false [] [[x61]] ++ data_frame [x01] ++ stop_frame in
  let cut := head_of false [] [[x61]] ++ data_frame [x01] ++ be32 2 ++ [x02] in
  let reads d := match snd (exec file_ops (mk_cfile false d None) (do_rcalls 100 (mk_r ex_ropt ex_rfile) (repeat RRead 3))) with
                 | Done (xs, _) => Some xs | _ => None end in
  reads full = Some [(r_success, Some [x01]); (r_stop, None); (r_failure, None)] /\ reads cut = reads full.
Proof. vm_compute. split; reflexivity. Qed.
Print Assumptions C19_cut_looks_complete_refuted.

(** C20: refuted: the oversized frame is reported as success, with nothing
    stored through the output parameters. *)
Theorem C20_oversize_reported_refuted :
  snd (exec (source r_stop false) (head_of false [] [[x61]] ++ be32 1001 ++ repeat x00 1001 ++ stop_frame)
         (reader_life 100 (mk_r ex_ropt ex_rfile) [ROpen; RRead])) =
  Done ([(r_success, None); (r_success, None)], r_failure).
Proof. vm_compute. reflexivity. Qed.
Print Assumptions C20_oversize_reported_refuted.

(** Proved: never read from the transport, never allocated, and no data ever
    after.  Missing: the failure report. *)
Theorem C20_reads_bounded_partial : forall o rw r fuel cs tr out h n a,
  reader_init o rw = Some r -> runs (reader_life fuel r cs) tr out -> In (QRead h n, a) tr ->
  n <= N.max 512 (ro_max o).
Proof. exact reader_reads_bounded. Qed.
Print Assumptions C20_reads_bounded_partial.

Theorem C20_buffer_bounded_partial : forall o rw r fuel cs tr xs r',
  reader_init o rw = Some r -> runs (do_rcalls fuel r cs) tr (Done (xs, r')) ->
  r_alloc r' <= N.max 512 (2 * ro_max o).
Proof. exact reader_alloc_bounded. Qed.
Print Assumptions C20_buffer_bounded_partial.

Theorem C20_nothing_after_oversize_partial : forall eofr zok o rw r rdy st n rest m fuel,
  eofr <> r_success -> fresh_rdwr rw -> reader_init o rw = Some r ->
  ctl_ok T_READY rdy -> ctl_ok T_START st -> start_accepted (ro_cts o) st ->
  (rw_has_write rw = true -> fits true T_ACCEPT (ro_cts o)) ->
  ro_max o < n -> 1 <= n -> n < 2 ^ 32 -> (length (be32 n ++ rest) < fuel)%nat ->
  exists r', exec (source eofr zok) (head_of (rw_has_write rw) rdy st ++ be32 n ++ rest)
         (do_rcalls fuel r (ROpen :: repeat RRead (1 + m))) =
    (rest, Done ((r_success, None) :: (r_success, None) :: repeat (r_failure, None) m, r')).
Proof.
  intros eofr zok o rw r rdy st n rest m fuel NE FR HI KR KS AC FT N1 N2 N3 L.
  destruct (source_stream eofr zok o rw r rdy st _ _ _ _ m fuel NE FR HI KR KS AC FT (p_over (ro_max o) n rest N1 N2 N3) L) as (r' & E & _).
  exists r'. exact E.
Qed.
Print Assumptions C20_nothing_after_oversize_partial.

(** Exactly which streams make a read report success without data: those whose
    data section runs into a frame above the limit. *)
Theorem C20_unset_exactly : forall eofr zok o rw r rdy st inp ds e rest m fuel,
  eofr <> r_success -> fresh_rdwr rw -> reader_init o rw = Some r ->
  ctl_ok T_READY rdy -> ctl_ok T_START st -> start_accepted (ro_cts o) st ->
  (rw_has_write rw = true -> fits true T_ACCEPT (ro_cts o)) ->
  parse (ro_max o) inp ds e rest -> (length inp < fuel)%nat ->
  exists xs r', exec (source eofr zok) (head_of (rw_has_write rw) rdy st ++ inp)
         (do_rcalls fuel r (ROpen :: repeat RRead (length ds + 1 + m))) = (rest, Done ((r_success, None) :: xs, r')) /\
    (In (r_success, None) xs <-> e = E_oversize).
Proof. exact unset_exactly. Qed.
Print Assumptions C20_unset_exactly.

Example C20_nonvacuous : exists tr xs r',
  runs (do_rcalls 5 (mk_r ex_ropt ex_rfile) [RRead]) tr (Done (xs, r')) /\
  In (QRead 0 1000, rd (repeat x00 1000)) tr /\ r_alloc r' = 1024.
Proof.
  eexists _, _, _. split; [|split].
  - apply follow_sound with (l := [ok1] ++ ctl_reads T_START [] ++ [rd (be32 1000); rd (repeat x00 1000)]). vm_compute. reflexivity.
  - do 5 right. left. reflexivity.
  - vm_compute. reflexivity.
Qed.

(** C21: the only way for a reader to get stuck is to run out of the model's
    fuel, and then the transport has delivered at least that many bytes; so
    every call returns once the input is exhausted.  No undefined behaviour
    except the zero-length array, and that only for announced length zero. *)
Theorem C21_no_undefined_behaviour : forall o rw r fuel cs tr out,
  fresh_rdwr rw -> reader_init o rw = Some r -> runs (reader_life fuel r cs) tr out ->
  forall f, out = Stuck f -> f = FFuel /\ (fuel <= total_read tr)%nat.
Proof.
  intros o rw r fuel cs tr out F H R f ->.
  exact (proj2 (proj2 (reader_life_spec okS eq_refl o rw r fuel cs tr (Stuck f) F H R))).
Qed.
Print Assumptions C21_no_undefined_behaviour.

Theorem C21_zero_length_array_only_on_announced_zero : forall o rw r fuel cs tr out,
  reader_init o rw = Some r -> runs (reader_life fuel r cs) tr out -> iso_preceded tr.
Proof. exact reader_iso. Qed.
Print Assumptions C21_zero_length_array_only_on_announced_zero.

(** Endless non-STOP control frames keep one read call busy; and the
    zero-length array is reachable. *)
Example C21_nonvacuous :
  (exists tr, runs (reader_life 2 (mk_r ex_ropt ex_rfile) [RRead]) tr (Stuck FFuel) /\ total_read tr = 45%nat) /\
  (exists tr xs x, runs (reader_life 5 (mk_r ex_ropt ex_rfile) [RRead]) tr (Done (xs, x)) /\ In (QIsoUb 0, AUnit) tr).
Proof.
  split.
  - eexists. split.
    + apply follow_sound with (l := [ok1] ++ ctl_reads T_START [[x61]] ++ ctl_reads T_FINISH [] ++ ctl_reads T_FINISH []).
      vm_compute. reflexivity.
    + vm_compute. reflexivity.
  - eexists _, _, _. split.
    + apply follow_sound with (l := [ok1] ++ ctl_reads T_START [] ++ [rd (be32 0); rd (be32 0); AUnit; rd []; ok1]).
      vm_compute. reflexivity.
    + do 6 right. left. reflexivity.
Qed.

(** C22: every history of calls follows the life cycle [rsteps], and the data
    returned is what was received. *)
Theorem C22_life_cycle : forall o rw r fuel cs tr xs r',
  fresh_rdwr rw -> reader_init o rw = Some r -> runs (do_rcalls fuel r cs) tr (Done (xs, r')) ->
  exists ph, rsteps P_fresh cs xs ph /\
    phase_received (rw_has_write rw) (ro_cts o) (ro_max o) ph (received tr).
Proof.
  intros o rw r fuel cs tr xs r' F H R.
  exact (proj2 (proj2 (reader_calls_spec okS eq_refl o rw r fuel cs tr (Done (xs, r')) F H R))).
Qed.
Print Assumptions C22_life_cycle.

(** Once an opened reader has returned no data, no read succeeds until the
    application opens it again. *)
Theorem C22_end_is_final : forall o rw r fuel pre post tr xs r' xs1 x xs2,
  fresh_rdwr rw -> reader_init o rw = Some r ->
  runs (do_rcalls fuel r (pre ++ RRead :: post)) tr (Done (xs, r')) ->
  xs = xs1 ++ (x, None) :: xs2 -> length xs1 = length pre ->
  (exists c y, In (c, y) (combine pre xs1) /\ got_going c y) ->
  Forall (fun c => c <> ROpen) post ->
  Forall2 (fun c y => c = RRead -> fst y <> r_success /\ snd y = None) post xs2.
Proof. exact reader_end_is_final. Qed.
Print Assumptions C22_end_is_final.

Example C22_nonvacuous : exists tr xs r',
  runs (do_rcalls 5 (mk_r ex_ropt ex_rfile) [RRead; RRead; RRead; RClose; RRead; ROpen; RRead]) tr (Done (xs, r')) /\
  xs = [(r_success, Some [x07]); (r_stop, None); (r_failure, None); (r_success, None); (r_stop, None);
        (r_success, None); (r_success, Some [x08])].
Proof.
  eexists _, _, _. split.
  - apply follow_sound with (l := [ok1] ++ ctl_reads T_START [[x61]] ++ [rd (be32 1); rd [x07]] ++ ctl_reads T_STOP [] ++
      [ok1; ok1] ++ ctl_reads T_START [] ++ [rd (be32 1); rd [x08]]). vm_compute. reflexivity.
  - vm_compute. reflexivity.
Qed.

(** C23: whatever the transport does, a successful open, or a read that
    returns data, means an acceptable START frame was received. *)
Theorem C23_open_implies_accepted : forall o rw r fuel cs tr xs r' x,
  fresh_rdwr rw -> reader_init o rw = Some r ->
  runs (do_rcalls fuel r (cs ++ [ROpen])) tr (Done (xs ++ [(x, None)], r')) -> length xs = length cs -> x = r_success ->
  exists hd, reader_head (rw_has_write rw) (ro_cts o) hd /\ prefix hd (received tr).
Proof. exact reader_head_received. Qed.
Print Assumptions C23_open_implies_accepted.

Theorem C23_data_implies_accepted : forall o rw r fuel cs tr xs r' d,
  fresh_rdwr rw -> reader_init o rw = Some r ->
  runs (do_rcalls fuel r (cs ++ [RRead])) tr (Done (xs ++ [(r_success, Some d)], r')) -> length xs = length cs ->
  exists hd, reader_head (rw_has_write rw) (ro_cts o) hd /\ prefix hd (received tr).
Proof. exact reader_data_head. Qed.
Print Assumptions C23_data_implies_accepted.

(** And on a transport delivering a well-formed head, open succeeds iff START
    is acceptable. *)
Theorem C23_open_iff_accepted : forall eofr zok o rw r rdy st inp fuel,
  eofr <> r_success -> fresh_rdwr rw -> reader_init o rw = Some r ->
  ctl_ok T_READY rdy -> ctl_ok T_START st ->
  (rw_has_write rw = true -> fits true T_ACCEPT (ro_cts o)) ->
  exists x s r', exec (source eofr zok) (head_of (rw_has_write rw) rdy st ++ inp) (do_rcalls fuel r [ROpen]) =
      (s, Done ([(x, None)], r')) /\
    (x = r_success <-> start_accepted (ro_cts o) st).
Proof. exact source_accept. Qed.
Print Assumptions C23_open_iff_accepted.

Example C23_nonvacuous :
  let o := mk_ropt [[x61]; [x62; x63]] 1000 in
  let opens st := match snd (exec (source r_stop false) (head_of false [] st) (do_rcalls 5 (mk_r o ex_rfile) [ROpen])) with
                  | Done ([(x, _)], _) => Some x | _ => None end in
  opens [] = Some r_success /\ opens [[x62; x63]] = Some r_success /\ opens [[x62]] = Some r_failure /\
  opens [[x62; x63; x64]] = Some r_failure.
Proof. vm_compute. repeat split. Qed.

(** C24 (reader side): refuted in general: success with no frame; and, after a
    failed reopen, success with a frame of another type. *)
Theorem C24_reader_null_control_refuted : exists tr,
  runs (rcalls_then_get 5 (mk_r ex_ropt ex_rfile) [ROpen; RRead] T_STOP) tr
       (Done ([(r_success, None); (r_stop, None)], r_success, Some None)).
Proof.
  eexists. apply follow_sound with (l := [ok1] ++ ctl_reads T_START [] ++ [eof; ok1]). vm_compute. reflexivity.
Qed.
Print Assumptions C24_reader_null_control_refuted.

Theorem C24_reader_wrong_type_refuted : exists tr xs,
  runs (rcalls_then_get 5 (mk_r ex_ropt ex_rfile) [ROpen; RClose; ROpen] T_START) tr
       (Done (xs, r_success, Some (Some (mk_control T_STOP [])))).
Proof.
  eexists _, _. apply follow_sound with (l := [ok1] ++ ctl_reads T_START [] ++ [ok1; ok1] ++ ctl_reads T_STOP []).
  vm_compute. reflexivity.
Qed.
Print Assumptions C24_reader_wrong_type_refuted.

(** And one of the right type whose contents are only the beginning of a
    malformed frame, refused when the stream was reopened. *)
Theorem C24_reader_refused_frame_refuted : exists tr xs c,
  runs (rcalls_then_get 5 (mk_r ex_any ex_rfile) [ROpen; RClose; ROpen] T_START) tr (Done (xs, r_success, Some (Some c))) /\
  map fst xs = [r_success; r_success; r_failure] /\ c = mk_control T_START [[x61; x62]] /\ ~ handed_out_r false tr T_START c.
Proof.
  eexists _, _, _. split.
  { apply follow_sound with (l := [ok1] ++ ctl_reads T_START [] ++ [ok1; ok1; rd (be32 0); rd (be32 18);
      rd (ctl_payload T_START [[x61; x62]] ++ be32 9)]). vm_compute. reflexivity. }
  split; [reflexivity|]. split; [reflexivity|]. intros (_ & H & _). destruct (H eq_refl) as (rdy & rest & E). vm_compute in E. discriminate.
Qed.
Print Assumptions C24_reader_refused_frame_refuted.

(** Proved whenever the last reopen did not fail; other calls, and earlier opens,
    may have failed in any way.  Missing: histories that end with a failed
    reopen. *)
Theorem C24_reader_control_truth_partial : forall o rw r fuel cs t tr xs c,
  fresh_rdwr rw -> reader_init o rw = Some r ->
  runs (rcalls_then_get fuel r cs t) tr (Done (xs, r_success, Some (Some c))) ->
  no_failed_reopen_r false true cs xs = true -> handed_out_r (rw_has_write rw) tr t c.
Proof. intros o rw r fuel cs t tr xs c F H R. exact (proj2 (Reader8_proofs.reader_get_control_both o rw r fuel cs t tr xs c F H R)). Qed.
Print Assumptions C24_reader_control_truth_partial.

(** STOP is handed out truthfully in every history: a whole stream, ending in
    STOP, was received at some time. *)
Theorem C24_reader_stop_truth : forall o rw r fuel cs tr xs c,
  fresh_rdwr rw -> reader_init o rw = Some r ->
  runs (rcalls_then_get fuel r cs T_STOP) tr (Done (xs, r_success, Some (Some c))) ->
  c = mk_control T_STOP [] /\ whole_stream_received (rw_has_write rw) (ro_cts o) (ro_max o) tr.
Proof. intros o rw r fuel cs tr xs c F H R. exact (proj1 (Reader8_proofs.reader_get_control_both o rw r fuel cs T_STOP tr xs c F H R) eq_refl). Qed.
Print Assumptions C24_reader_stop_truth.
(** Also after a failed reopen. *)
Example C24_reader_stop_case : exists tr xs,
  runs (rcalls_then_get 5 (mk_r ex_any ex_rfile) [RRead; RRead; RClose; ROpen] T_STOP) tr
       (Done (xs, r_success, Some (Some (mk_control T_STOP [])))) /\ map fst xs = [r_success; r_stop; r_success; r_failure].
Proof.
  eexists _, _. split.
  - apply follow_sound with (l := [ok1] ++ ctl_reads T_START [] ++ [rd (be32 1); rd [x07]] ++ ctl_reads T_STOP [] ++ [ok1; fail1]).
    vm_compute. reflexivity.
  - reflexivity.
Qed.

(** A history with mishaps: the first open, the one after, a read and a close
    fail; reopening succeeds. *)
Example C24_reader_mishaps : exists tr xs,
  runs (rcalls_then_get 5 (mk_r ex_any ex_rfile) [ROpen; RRead; RRead; RClose; ROpen; ROpen; RClose] T_START) tr
       (Done (xs, r_success, Some (Some (mk_control T_START [[x62]])))) /\
  map fst xs = [r_failure; r_success; r_failure; r_failure; r_failure; r_success; r_failure] /\
  no_failed_reopen_r false true [ROpen; RRead; RRead; RClose; ROpen; ROpen; RClose] xs = true.
Proof.
  eexists _, _. split.
  - apply follow_sound with (l := [fail1; ok1] ++ ctl_reads T_START [[x61]] ++ [rd (be32 1); rd [x07]; ARead r_failure []; ok1; fail1; ok1] ++
      ctl_reads T_START [[x62]] ++ [fail1]). vm_compute. reflexivity.
  - split; reflexivity.
Qed.

Example C24_reader_nonvacuous : exists tr xs,
  runs (rcalls_then_get 5 (mk_r ex_ropt ex_sock) [RRead; RRead] T_ACCEPT) tr
       (Done (xs, r_success, Some (Some (mk_control T_ACCEPT [[x61]])))) /\
  no_failed_reopen_r false true [RRead; RRead] xs = true.
Proof.
  eexists _, _. split.
  - apply follow_sound with (l := [ok1] ++ ctl_reads T_READY [[x62]; [x61]] ++ [ok1] ++ ctl_reads T_START [[x61]] ++
      [rd (be32 1); rd [x07]; eof; ok1]). vm_compute. reflexivity.
  - vm_compute. reflexivity.
Qed.

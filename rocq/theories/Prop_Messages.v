(** C83, C84, C85: what fstrm_dump and fstrm_replay print. *)
From Coq Require Import String.
From Verif Require Import Bytes Spec Io Io_proofs SpecTrace SpecStream Control Rdwr Reader Writer SpecReader SpecFile File
  Misc SpecMisc Tools SpecTools Messages SpecMessages Tools_proofs Messages_proofs Messages2_proofs Messages3_proofs Prop_Writer Prop_Reader Prop_Net Prop_Tools.
Local Open Scope N_scope.

(** ** C83: the report of a dump *)

(** A file that is a stream, dumped into an output that may behave in any way:
    the program does exactly what a client copying the frames does; exit status and
    text follow from how that went. *)
Theorem C83_dump_reports : forall fuel iovm d st ds e w,
  stream_file d st ds e -> e <> E_oversize -> (length d <= fuel)%nat ->
  writer_init iovm st (file_writer_rdwr 1) = Some w ->
  sim (fun x y => map f_data (fst x) = [d] /\ fst (snd x) = dump_verdict e y /\ reads_as (snd (snd x)) (dump_report st ds e y))
    (on_files 0 [input d] (dump_say fuel iovm true)) (copy_how w ds).
Proof. intros fuel iovm d st ds e w SF NO L Hw. exact (dump_say_sim d st ds e fuel iovm w SF NO L Hw). Qed.
Print Assumptions C83_dump_reports.
Example C83_dump_case : exists w, writer_init 1024 [[x61]] (file_writer_rdwr 1) = Some w /\
  stream_file ex_in [[x61]] [[x01; x02]; [x0a]] E_stop /\ (length ex_in <= 100)%nat /\
  exists f log, snd (exec file_ops (mk_cfile true [] None) (on_files 0 [input ex_in] (dump_say 100 1024 true))) = Done ([f], (true, log)) /\
    heard to_stderr log = str "FSTRM_CONTROL_START." ++ [x0a] ++
       str "FSTRM_CONTROL_FIELD_CONTENT_TYPE (1 bytes)." ++ [x0a] ++ str " ""a""" ++ [x0a] ++
       str "Data frame (2) bytes." ++ [x0a] ++ str "Data frame (1) bytes." ++ [x0a] ++ str "FSTRM_CONTROL_STOP." ++ [x0a] /\
    heard to_stdout log = str " ""\x01\x02""" ++ [x0a] ++ str " ""\x0a""" ++ [x0a].
Proof.
  eexists. split; [reflexivity|]. split; [exact ex_in_stream|]. split; [vm_compute; lia|].
  eexists _, _. split; [vm_compute; reflexivity|]. split; vm_compute; reflexivity.
Qed.

(** Without an output file. *)
Theorem C83_dump_reports_alone : forall fuel iovm d st ds e tr o,
  stream_file d st ds e -> e <> E_oversize -> (length d <= fuel)%nat ->
  runs (on_files 0 [input d] (dump_say fuel iovm false)) tr o ->
  tr = [] /\ exists f log, o = Done ([f], (dump_status e, log)) /\ f_data f = d /\
    reads_as log (start_note st ++ flat_map frame_note ds ++ [end_note e]).
Proof.
  intros fuel iovm d st ds e tr o SF NO L R. pose proof (dump_say_stdout d st ds e fuel iovm SF L) as S.
  assert (Tools2_proofs.oversize e = false) as OV by (destruct e; congruence || reflexivity). rewrite OV in S.
  destruct (sim_runs _ _ _ S _ _ R) as (o' & R' & M). inversion R'; subst. split; [reflexivity|].
  destruct o as [[fs [rv log]]| |]; try contradiction. destruct M as (M1 & M2 & M3). cbn [fst snd] in M1, M2, M3. subst rv.
  destruct fs as [|f [|]]; try discriminate M1. injection M1 as M1. exists f, log. auto.
Qed.
Print Assumptions C83_dump_reports_alone.
Example C83_alone_nonvacuous : stream_file ex_in [[x61]] [[x01; x02]; [x0a]] E_stop /\ (length ex_in <= 100)%nat /\
  exists f log, runs (on_files 0 [input ex_in] (dump_say 100 1024 false)) [] (Done ([f], (true, log))).
Proof.
  split; [exact ex_in_stream|]. split; [vm_compute; lia|]. eexists _, _.
  match goal with |- runs ?p _ _ => let v := eval vm_compute in p in replace p with v by (vm_compute; reflexivity) end. constructor.
Qed.

(** A file that is not a stream. *)
Theorem C83_dump_refusal : forall fuel iovm d output tr o,
  no_stream d -> runs (on_files 0 [input d] (dump_say fuel iovm output)) tr o ->
  tr = [] /\ exists fs, o = Done (fs, (false, [note "Error: fstrm_reader_open() failed."])).
Proof.
  intros fuel iovm d output tr o NS R. destruct (sim_runs _ _ _ (dump_say_bad d fuel iovm output NS) _ _ R) as (o' & R' & M).
  inversion R'; subst. split; [reflexivity|]. destruct o as [[fs y]| |]; try contradiction. destruct M as [_ M]. cbn [snd] in M. subst y. eauto.
Qed.
Print Assumptions C83_dump_refusal.
Example C83_refusal_nonvacuous : no_stream [x01].
Proof. intros st inp _ E. apply (f_equal (@hd byte x00)) in E. vm_compute in E. discriminate E. Qed.

(** For every behaviour of both files: the exit status is a failure exactly if
    an error message was printed. *)
Theorem C83_failure_is_explained : forall fuel iovm output tr rv log,
  runs (dump_say fuel iovm output) tr (Done (rv, log)) -> (rv = false <-> Exists complaint log).
Proof. exact dump_explains. Qed.
Print Assumptions C83_failure_is_explained.
Example C83_explained_nonvacuous : exists tr log, runs (dump_say 10 1024 false) tr (Done (false, log)).
Proof.
  exists [(QOpen 0, ARes r_failure); (QDestroy 0, ARes r_success)], (err "Error: fstrm_reader_open() failed.").
  repeat (constructor; try exact I).
Qed.

(** The messages are all that is new: exit status, stdout and the use of the
    files are those of the program of C50, C51 and C63. *)
Theorem C83_same_program : forall fuel iovm output,
  sim (fun a b => b = (fst a, heard to_stdout (snd a))) (dump_say fuel iovm output) (dump_main fuel iovm output).
Proof. exact dump_erase. Qed.
Print Assumptions C83_same_program.

(** Lengths are printed in decimal, without leading zeros. *)
Theorem C83_numbers : forall n, digits 10 (dec n) n /\ (n <> 0 -> forall c s, dec n = c :: s -> c <> x30).
Proof. exact dec_numeral. Qed.
Print Assumptions C83_numbers.
Example C83_numbers_case : dec 1048576 = str "1048576" /\ dec 0 = str "0".
Proof. split; reflexivity. Qed.

(** One file name: the frames are printed.  Two: they are also written to the
    second file.  Otherwise the usage is printed and no file is touched. *)
Theorem C83_arguments : forall fuel iovm a0 args,
  match args with
  | [_] => dump_program fuel iovm (a0 :: args) = dump_say fuel iovm false
  | [_; _] => dump_program fuel iovm (a0 :: args) = dump_say fuel iovm true
  | _ => exists log, dump_program fuel iovm (a0 :: args) = Ret (false, log) /\ heard to_stdout log = [] /\
      heard to_stderr log = str "Usage: " ++ a0 ++ str " <INPUT FILE> [<OUTPUT FILE>]" ++ [x0a] ++
        str "Dumps a Frame Streams formatted input file." ++ [x0a; x0a]
  end.
Proof.
  intros fuel iovm a0 args.
  assert (G : dump_program fuel iovm (a0 :: args) = dump_program fuel iovm [a0] -> exists log, dump_program fuel iovm (a0 :: args) = Ret (false, log) /\
    heard to_stdout log = [] /\ heard to_stderr log = str "Usage: " ++ a0 ++ str " <INPUT FILE> [<OUTPUT FILE>]" ++ [x0a] ++
      str "Dumps a Frame Streams formatted input file." ++ [x0a; x0a]).
  { intro E. rewrite E. eexists. split; [reflexivity|]. split; [reflexivity|].
    unfold heard, err, nl. cbn [filter app is_stream fst map snd concat]. rewrite <- !app_assoc. reflexivity. }
  destruct args as [|a [|b [|c args]]]; try (apply G; reflexivity); reflexivity.
Qed.
Print Assumptions C83_arguments.

(** ** C84: whether the messages tell the truth *)

(** "FSTRM_CONTROL_STOP." is printed for a file that ends in the middle of a
    frame and has no STOP frame. *)
Theorem C84_stop_message_refuted : exists d st ds, stream_file d st ds E_eof /\
  exists f log, runs (on_files 0 [input d] (dump_say 100 1024 false)) [] (Done ([f], (true, log))) /\
    In (note "FSTRM_CONTROL_STOP.") log.
Proof.
  exists ex_cut, [[x61]], [[x01; x02]]. split; [exact ex_cut_stream|]. eexists _, _. split.
  - match goal with |- runs ?p _ _ => let v := eval vm_compute in p in replace p with v by (vm_compute; reflexivity) end. constructor.
  - vm_compute. tauto.
Qed.
Print Assumptions C84_stop_message_refuted.

(** fstrm_replay says nothing at all about such a file, although its last frame
    is lost ... *)
Theorem C84_replay_truncation_refuted : exists d st ds, stream_file d st ds E_eof /\ start_accepted [[x61]] st /\
  exists tr fs, runs (on_files 1 [input d] (replay_say 100 1024 true false [x61] [str "file"])) tr (Done (fs, (true, []))).
Proof.
  exists ex_cut, [[x61]], [[x01; x02]]. split; [exact ex_cut_stream|]. split; [right; right; exists [x61]; split; [left; reflexivity|reflexivity]|].
  pose (acc := ctl_frame T_ACCEPT [[x61]]). eexists _, _.
  apply follow_sound with (l := [ok1; ok1; ARead r_success (be32 0); ARead r_success (be32 (lenN acc - 8));
       ARead r_success (skipn 8 acc); ok1; ok1; ok1; ARead r_success (be32 0); ARead r_success (be32 4); ARead r_success (be32 5); ok1; ok1]).
  vm_compute. reflexivity.
Qed.
Print Assumptions C84_replay_truncation_refuted.

(** ... and fails without any message if the content type is too long. *)
Theorem C84_replay_fails_silently : forall fuel iovm unix port ct names, CT_MAX < lenN ct ->
  replay_say fuel iovm unix port ct names = Ret (false, []).
Proof. intros fuel iovm u p ct names H. exact (replay_say_long ct names fuel iovm u p H). Qed.
Print Assumptions C84_replay_fails_silently.
Example C84_long_nonvacuous : CT_MAX < lenN (repeat x61 257).
Proof. vm_compute. reflexivity. Qed.

(** In every other case a failing fstrm_replay has printed an error message,
    whatever its files and connection do. *)
Theorem C84_replay_explains_partial : forall fuel iovm unix port ct names tr log,
  runs (replay_say fuel iovm unix port ct names) tr (Done (false, log)) ->
  Exists complaint log \/ (log = [] /\ CT_MAX < lenN ct).
Proof. exact replay_explains. Qed.
Print Assumptions C84_replay_explains_partial.
Example C84_explains_nonvacuous : exists tr log, runs (replay_say 10 1024 true false [x61] []) tr (Done (false, log)) /\ log <> [].
Proof.
  exists [(QOpen 0, ARes r_failure); (QDestroy 0, ARes r_success)], (err "Error: fstrm_writer_open() failed."). split; [|discriminate].
  repeat (constructor; try exact I).
Qed.

(** ** C85: the report of a replay *)

(** For every connection: the program does what a hasty client writing all the
    frames does, and prints a note for every file that is skipped or cannot be
    read, in order. *)
Theorem C85_replay_reports : forall ct names files dss notes fuel iovm unix port w,
  files_note ct names files dss notes -> Forall (fun d => (length d <= fuel)%nat) files -> lenN ct <= CT_MAX ->
  writer_init iovm [ct] (socket_rdwr 0) = Some w ->
  sim (fun x y => map f_data (fst x) = files /\ snd x = (replay_verdict y, replay_report (unix && port) dss notes y))
    (on_files 1 (map input files) (replay_say fuel iovm unix port ct names)) (hasty_how w (concat dss)).
Proof. exact replay_say_sim. Qed.
Print Assumptions C85_replay_reports.

Example C85_notes_case : exists w, writer_init 1024 [[x61]] (socket_rdwr 0) = Some w /\
  files_note [x61] [str "one"; str "two"; str "three"] [ex_in; ex_other; [x01]] [[[x01; x02]; [x0a]]; []; []]
    [[]; [note "Warning: content type mismatch for two, skipping"]; [note "Warning: failed to read control frame from three, skipping"]].
Proof.
  eexists. split; [reflexivity|].
  constructor; [eapply fn_match; [exact ex_in_stream|right; right; exists [x61]; split; [left; reflexivity|reflexivity]|left; reflexivity]|].
  constructor.
  { change (file_note [x61] (str "two") ex_other [] [line (str "Warning: content type mismatch for " ++ str "two" ++ str ", skipping")]).
    apply fn_mismatch with (st := [[x62]]) (ds := [[x05]]) (e := E_stop).
    + split; [split; [unfold known_type; tauto|repeat constructor; vm_compute; discriminate|vm_compute; discriminate|intros _; cbn; lia|intros [H|H]; discriminate H]|].
      eexists _, []. split; [reflexivity|]. apply p_data; [vm_compute; split; [discriminate|reflexivity]|vm_compute; discriminate|].
      rewrite <- (app_nil_r stop_frame). apply p_stop.
    + intros [H|[H|(c & [<-|[]] & I)]]; [discriminate H..|discriminate I]. }
  constructor; [|constructor].
  change (file_note [x61] (str "three") [x01] [] [line (str "Warning: failed to read control frame from " ++ str "three" ++ str ", skipping")]).
  apply fn_none. exact C83_refusal_nonvacuous.
Qed.

Theorem C85_every_file_has_a_note : forall ct name d,
  (exists st ds, stream_file d st ds E_oversize /\ start_accepted [ct] st) \/ exists ds x, file_note ct name d ds x.
Proof. exact note_total. Qed.
Print Assumptions C85_every_file_has_a_note.

Theorem C85_note_is_unique : forall ct name d ds x ds' x',
  file_note ct name d ds x -> file_note ct name d ds' x' -> ds = ds' /\ x = x'.
Proof. exact note_unique. Qed.
Print Assumptions C85_note_is_unique.

Theorem C85_same_program : forall fuel iovm unix port ct names,
  sim (fun a b => b = fst a) (replay_say fuel iovm unix port ct names) (replay_main fuel iovm ct (length names)).
Proof. exact replay_erase. Qed.
Print Assumptions C85_same_program.

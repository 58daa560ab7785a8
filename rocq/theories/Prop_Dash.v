(** C87: fstrm_dump writing to standard output. *)
From Verif Require Import Bytes Spec Io Io_proofs SpecTrace SpecStream Rdwr Reader Writer SpecReader SpecFile File
  Misc Tools SpecTools Reader3_proofs Dash SpecDash Dash_proofs.
Local Open Scope N_scope.

(** For every input with a stream in it, whatever its ending (the oversize frame
    excepted): the exact bytes on stdout, stdout is closed once and not used
    afterwards, and the exit status is that of a dump to a file. *)
Theorem C87_stdout : forall d st ds e fuel iovm, stream_file d st ds e -> e <> E_oversize ->
  (length d <= fuel)%nat -> (0 < iovm)%nat ->
  exists f, exec stdout_ops stdo0 (on_files 0 [input d] (dash_main fuel iovm)) =
    (mk_stdo (mixed st ds) false true false, Done ([f], dump_status e)) /\ f_data f = d.
Proof. exact dash_outcome. Qed.
Print Assumptions C87_stdout.

(** A stream of two frames and its dump. *)
Definition ex_two : bytes := ctl_frame T_START [[x61]] ++ data_frame [x78; x00] ++ data_frame [x79] ++ stop_frame.
Example C87_stdout_case : length ex_two = 44%nat /\
  let (s, o) := exec stdout_ops stdo0 (on_files 0 [input ex_two] (dash_main 44 1024)) in
  so_text s = ctl_frame T_START [[x61]] ++ [x20; x22; x78; x5c; x78; x30; x30; x22; x0a] ++ data_frame [x78; x00] ++
    [x20; x22; x79; x22; x0a] ++ data_frame [x79] ++ stop_frame /\
  so_bad s = false /\ match o with Done (_, rv) => rv = true | _ => False end.
Proof. vm_compute. repeat split; reflexivity. Qed.

(** The same for a stdout that may refuse anything at any time: the program is one
    that prints and copies frame by frame, gives up at the first frame refused,
    and closes the writer; it fails if a frame was refused, if closing failed, or
    if the input ends wrongly. *)
Theorem C87_any_stdout : forall d st ds e fuel iovm w, stream_file d st ds e -> (length d <= fuel)%nat ->
  writer_init iovm st (file_writer_rdwr 1) = Some w ->
  sim (fun x y => map f_data (fst x) = [d] /\ snd x = y && dump_status e)
    (on_files 0 [input d] (dash_main fuel iovm)) (print_copy (above_limit e) w ds).
Proof. exact dash_sim. Qed.
Print Assumptions C87_any_stdout.

(** Printing cannot fail the program: its result is not looked at; a refused
    frame ends it, the transport being closed by then. *)
Example C87_any_stdout_case : (exists w, writer_init 1024 [[x61]] (file_writer_rdwr 1) = Some w) /\
  exists tr f, runs (on_files 0 [input ex_two] (dash_main 44 1024)) tr (Done (f, false)) /\
    map fst tr = [QOpen 1; QWrite 1 [ctl_frame T_START [[x61]]]; QWrite 2 [[x20; x22; x78; x5c; x78; x30; x30; x22; x0a]];
      QWrite 1 [be32 2; [x78; x00]]; QClose 1; QDestroy 1].
Proof.
  split; [eexists; reflexivity|]. eexists _, _. split.
  - apply follow_sound with (l := [ARes r_success; ARes r_success; ARes r_failure; ARes r_failure; ARes r_success; ARes r_success]).
    vm_compute. reflexivity.
  - vm_compute. reflexivity.
Qed.

(** Without a stream in the input nothing is written. *)
Theorem C87_no_stream : forall d fuel iovm, no_stream d ->
  exists f, exec stdout_ops stdo0 (on_files 0 [input d] (dash_main fuel iovm)) = (stdo0, Done ([f], false)) /\ f_data f = d.
Proof. exact dash_bad. Qed.
Print Assumptions C87_no_stream.
Example C87_no_stream_case :
  let (s, o) := exec stdout_ops stdo0 (on_files 0 [input [x68; x65; x6c; x6c; x6f]] (dash_main 5 1024)) in
  s = stdo0 /\ match o with Done (_, rv) => rv = false | _ => False end.
Proof. vm_compute. split; reflexivity. Qed.

(** A frame above the limit: as with every other output, see C20. *)
Theorem C87_oversize_refuted : forall d st ds fuel iovm, stream_file d st ds E_oversize ->
  (length d <= fuel)%nat -> (0 < iovm)%nat ->
  snd (exec stdout_ops stdo0 (on_files 0 [input d] (dash_main fuel iovm))) = Stuck (FUb ub_uninit).
Proof. exact dash_oversize. Qed.
Print Assumptions C87_oversize_refuted.

Example C87_oversize_case : stream_file (ctl_frame T_START [] ++ data_frame [x79] ++ be32 2000000 ++ [x78]) [] [[x79]] E_oversize.
Proof.
  split; [split; [right; left; reflexivity|constructor|vm_compute; discriminate|intros _; cbn; lia|reflexivity]|].
  exists (data_frame [x79] ++ be32 2000000 ++ [x78]), [x78]. split; [reflexivity|].
  apply p_data; [split; vm_compute; congruence|vm_compute; congruence|apply p_over; vm_compute; congruence].
Qed.

(** Hence the output is a copy of the input stream exactly when there are no data
    frames to copy. *)
Theorem C87_copy_exactly : forall d st ds e fuel iovm, stream_file d st ds e -> e <> E_oversize ->
  (length d <= fuel)%nat -> (0 < iovm)%nat ->
  (stream_file (so_text (fst (exec stdout_ops stdo0 (on_files 0 [input d] (dash_main fuel iovm))))) st ds E_stop <-> ds = []).
Proof. exact dash_copy_iff. Qed.
Print Assumptions C87_copy_exactly.

(** With a data frame, the output is for every reader with a limit below
    539099136 bytes a stream whose first frame is above the limit; that includes
    the default limit, and dumping the output again runs into C20.  The first
    program reports success. *)
Theorem C87_copy_refuted : forall st x ds fuel iovm max, ctl_ok T_START st ->
  Forall (fun p => data_ok p /\ lenN p <= DEFAULT_MAX) (x :: ds) ->
  let d := ctl_frame T_START st ++ datas (x :: ds) ++ stop_frame in
  (length d <= fuel)%nat -> (0 < iovm)%nat -> max < 539099136 ->
  exists s f, exec stdout_ops stdo0 (on_files 0 [input d] (dash_main fuel iovm)) = (s, Done ([f], true)) /\
    (exists inp rest, so_text s = ctl_frame T_START st ++ inp /\ parse max inp [] E_oversize rest) /\
    forall fuel' tr o, (length (so_text s) <= fuel')%nat ->
      runs (on_files 0 [input (so_text s)] (dump_main fuel' iovm false)) tr o -> o = Stuck (FUb ub_uninit).
Proof. exact dash_not_a_copy. Qed.
Print Assumptions C87_copy_refuted.
Example C87_hypotheses : ctl_ok T_START [[x61]] /\ Forall (fun p => data_ok p /\ lenN p <= DEFAULT_MAX) [[x78; x00]; [x79]] /\
  ex_two = ctl_frame T_START [[x61]] ++ datas [[x78; x00]; [x79]] ++ stop_frame.
Proof.
  split; [|split; [|reflexivity]].
  - split; [right; left; reflexivity|constructor; [vm_compute; discriminate|constructor]|vm_compute; discriminate|intros _; cbn; lia|intros [X|X]; discriminate X].
  - repeat constructor; vm_compute; congruence.
Qed.

(** C80: what a file writer leaves on a disk that may fail at any time. *)
From Verif Require Import Bytes Spec Io Io_proofs SpecTrace SpecStream Control Rdwr Reader Writer Api SpecApi SpecReader SpecFile File
  Misc Tools SpecTools Tools_proofs Tools2_proofs SpecDeliver Stdio SpecDisk Stdio_proofs Stdio2_proofs Stdio3_proofs Prop_Tools.
Local Open Scope nat_scope.

(** A close that reports success: the stream is closed and the file holds the
    whole stream, with the payloads of every call that reported success since
    the close before, whatever the disk did during any call. *)
Theorem C80_close_means_on_disk : forall D old iovm cts h w cs tr rs w' f,
  0 < iovm -> writer_init iovm cts (file_writer_rdwr h) = Some w -> Forall wcall_ok cs ->
  runs (do_wcalls w (cs ++ [WClose])) tr (Done (rs ++ [r_success], w')) -> disk_runs D (disk_init old) tr f ->
  d_fp f = None /\ d_content f = start_frame (hd_error cts) ++ datas (since_close [] cs rs) ++ stop_frame.
Proof. intros D old iovm cts h w cs tr rs w' f Hi Hw. exact (close_on_disk D old iovm cts h w Hi Hw cs tr rs w' f). Qed.
Print Assumptions C80_close_means_on_disk.

(** The same when destroy closes the writer. *)
Theorem C80_destroy_means_on_disk : forall D old iovm cts h w cs tr rs f,
  0 < iovm -> writer_init iovm cts (file_writer_rdwr h) = Some w -> Forall wcall_ok cs ->
  runs (writer_life w cs) tr (Done (rs, r_success)) -> disk_runs D (disk_init old) tr f ->
  d_fp f = None /\ d_content f = start_frame (hd_error cts) ++ datas (since_close [] cs rs) ++ stop_frame.
Proof. intros D old iovm cts h w cs tr rs f Hi Hw. exact (destroy_on_disk D old iovm cts h w Hi Hw cs tr rs f). Qed.
Print Assumptions C80_destroy_means_on_disk.

(** What any reader makes of the file after such a close. *)
Theorem C80_read_back : forall D old iovm cts h w cs tr rs w' f hr o r,
  0 < iovm -> writer_init iovm cts (file_writer_rdwr h) = Some w -> Forall wcall_ok cs ->
  Forall (fun ct => (lenN ct <= CT_MAX)%N) cts ->
  Forall (fun c => Forall (fun p => data_ok p /\ (lenN p <= ro_max o)%N) (wpayloads c)) cs ->
  runs (do_wcalls w (cs ++ [WClose])) tr (Done (rs ++ [r_success], w')) -> disk_runs D (disk_init old) tr f ->
  reader_init o (file_reader_rdwr hr) = Some r ->
  ro_cts o = [] \/ cts = [] \/ (exists c, hd_error cts = Some c /\ In c (ro_cts o)) ->
  reads_as r (d_content f) (since_close [] cs rs).
Proof. exact disk_read_back. Qed.
Print Assumptions C80_read_back.

(** Whatever fails, and wherever the program dies (pending bytes are lost): the
    file is as it was, or holds an initial part of the last stream the writer
    started, with payloads of the calls in order. *)
Theorem C80_always_a_prefix : forall D old iovm cts h w cs tr o f,
  0 < iovm -> writer_init iovm cts (file_writer_rdwr h) = Some w -> Forall wcall_ok cs ->
  runs (writer_life w cs) tr o -> disk_runs D (disk_init old) tr f ->
  (attempted tr = [] /\ d_content f = old) \/
  exists rs σs before ds full, explained cs rs σs /\ concat σs = before ++ ds /\
    writer_session false cts full ds /\ prefix (d_content f) full.
Proof. intros D old iovm cts h w cs tr o f Hi Hw. exact (prefix_on_disk D old iovm cts h w Hi Hw cs tr o f). Qed.
Print Assumptions C80_always_a_prefix.

(** fstrm_dump to an output file: exit status 0 means that the copy is on disk;
    otherwise the output is an initial part of it, or was not touched. *)
Theorem C80_dump_on_disk : forall D old fuel iovm d tr fs out f,
  length d <= fuel -> 0 < iovm -> runs (on_files 0 [input d] (dump_main fuel iovm true)) tr (Done (fs, (true, out))) ->
  disk_runs D (disk_init old) tr f ->
  exists st ds e, stream_file d st ds e /\ (e = E_stop \/ e = E_eof) /\ out = printed ds /\
    d_fp f = None /\ d_content f = ctl_frame T_START st ++ datas ds ++ stop_frame.
Proof. exact dump_on_disk. Qed.
Print Assumptions C80_dump_on_disk.

Theorem C80_dump_prefix : forall D old fuel iovm d st ds e tr o f,
  stream_file d st ds e -> e <> E_oversize -> length d <= fuel -> 0 < iovm ->
  runs (on_files 0 [input d] (dump_main fuel iovm true)) tr o -> disk_runs D (disk_init old) tr f ->
  d_content f = old \/ prefix (d_content f) (ctl_frame T_START st ++ datas ds ++ stop_frame).
Proof. exact dump_disk_prefix. Qed.
Print Assumptions C80_dump_prefix.

(** When no stdio call meets an error, every call reports what C12 says and the
    file holds the last stream, however long bytes waited in the buffer. *)
Theorem C80_without_errors : forall iovm cts h w cs D old tr rs x f,
  0 < iovm -> Forall (fun ct => (lenN ct <= CT_MAX)%N) cts -> Forall wcall_ok cs ->
  Forall (fun c => Forall (fun p => lenN p <> 0%N) (wpayloads c)) cs ->
  writer_init iovm cts (file_writer_rdwr h) = Some w ->
  runs (writer_life w cs) tr (Done (rs, x)) -> disk_runs D (disk_init old) tr f -> no_disk_error D (disk_init old) tr ->
  let '(xs, st, ss) := u_steps cts U_fresh [] cs in
  rs = xs /\ d_fp f = None /\
  match st with
  | U_open => x = r_success /\ d_content f = last (add_last ss stop_frame) old
  | _ => x = r_failure /\ d_content f = last ss old
  end.
Proof. exact no_error_same. Qed.
Print Assumptions C80_without_errors.

(** ** Examples *)
Definition ex_dw : writer := mk_writer ws_opening [[x61]] (file_writer_rdwr 0) None None None None 1024.
Example ex_dw_init : writer_init 1024 [[x61]] (file_writer_rdwr 0) = Some ex_dw.
Proof. reflexivity. Qed.

(** Everything stays in the buffer until the stream is closed. *)
Definition lazy_disk (n : nat) : dact := mk_dact (if n =? 6 then 100 else 0) true 0.
Definition ex_dcalls : list wcall := [WOpen; WWrite [x01; x02]; WWrite [x0a]].

Example C80_close_nonvacuous : exists tr rs w' f,
  runs (do_wcalls ex_dw (ex_dcalls ++ [WClose])) tr (Done (rs ++ [r_success], w')) /\
  disk_runs lazy_disk (disk_init [xff]) tr f /\ since_close [] ex_dcalls rs = [[x01; x02]; [x0a]] /\
  reader_init reader_options_default (file_reader_rdwr 0) <> None.
Proof.
  edestruct (disk_log_runs lazy_disk (do_wcalls ex_dw (ex_dcalls ++ [WClose])) (disk_init [xff])) as [R DR]; [vm_compute; reflexivity|reflexivity|]. eexists _, [r_success; r_success; r_success], _, _.
  split; [exact R|]. split; [exact DR|]. split; [reflexivity|discriminate].
Qed.

Example C80_destroy_nonvacuous : exists tr rs f,
  runs (writer_life ex_dw ex_dcalls) tr (Done (rs, r_success)) /\ disk_runs lazy_disk (disk_init [xff]) tr f.
Proof.
  edestruct (disk_log_runs lazy_disk (writer_life ex_dw ex_dcalls) (disk_init [xff])) as [R DR]; [vm_compute; reflexivity|reflexivity|]. eexists _, [r_success; r_success; r_success], _. split; [exact R|exact DR].
Qed.

(** Everything waits in the buffer until the close; no error. *)
Example C80_no_error : exists tr rs f,
  runs (writer_life ex_dw ex_dcalls) tr (Done (rs, r_success)) /\ disk_runs lazy_disk (disk_init [xff]) tr f /\
  no_disk_error lazy_disk (disk_init [xff]) tr /\ d_content f = start_frame (Some [x61]) ++ datas [[x01; x02]; [x0a]] ++ stop_frame.
Proof.
  edestruct (disk_log_runs lazy_disk (writer_life ex_dw ex_dcalls) (disk_init [xff])) as [R DR]; [vm_compute; reflexivity|reflexivity|].
  eexists _, [r_success; r_success; r_success], _. split; [exact R|]. split; [exact DR|]. split; [|vm_compute; reflexivity].
  vm_compute. repeat split; repeat constructor.
Qed.

(** The disk fills up when the stream is closed: no write failed, the close
    does, and the file ends in the middle of the first data frame. *)
Definition full_disk (n : nat) : dact := if n =? 6 then mk_dact 25 false 3 else mk_dact 0 true 0.
Example C80_full_disk : exists tr w' f,
  runs (do_wcalls ex_dw (ex_dcalls ++ [WClose])) tr (Done ([r_success; r_success; r_success; r_failure], w')) /\
  disk_runs full_disk (disk_init [xff]) tr f /\
  d_content f = start_frame (Some [x61]) ++ be32 2.
Proof.
  edestruct (disk_log_runs full_disk (do_wcalls ex_dw (ex_dcalls ++ [WClose])) (disk_init [xff])) as [R DR]; [vm_compute; reflexivity|reflexivity|]. eexists _, _, _.
  split; [exact R|]. split; [exact DR|]. vm_compute. reflexivity.
Qed.

(** The writes succeeded and nothing is in the file yet. *)
Example C80_before_close : exists tr w' f,
  runs (do_wcalls ex_dw ex_dcalls) tr (Done ([r_success; r_success; r_success], w')) /\
  disk_runs lazy_disk (disk_init [xff]) tr f /\ d_content f = [].
Proof.
  edestruct (disk_log_runs lazy_disk (do_wcalls ex_dw ex_dcalls) (disk_init [xff])) as [R DR]; [vm_compute; reflexivity|reflexivity|]. eexists _, _, _.
  split; [exact R|]. split; [exact DR|]. vm_compute. reflexivity.
Qed.

Example C80_dump_nonvacuous : exists tr fs out f,
  runs (on_files 0 [input ex_in] (dump_main 100 1024 true)) tr (Done (fs, (true, out))) /\
  disk_runs (fun _ => mk_dact 100 true 0) (disk_init [xff]) tr f.
Proof.
  edestruct (disk_log_runs (fun _ => mk_dact 100 true 0) (on_files 0 [input ex_in] (dump_main 100 1024 true)) (disk_init [xff])) as [R DR]; [vm_compute; reflexivity|reflexivity|]. eexists _, _, _, _. split; [exact R|exact DR].
Qed.

(** C81: the output files of fstrm_capture on a disk that may fail. *)
From Coq Require Import ZArith Lia.
From Verif Require Import Bytes Spec SpecTrace SpecStream Io Control Rdwr Reader Writer Api SpecApi File Stdio
  Capture SpecCapture SpecDeliver CaptureDisk Capture2_proofs Capture5_proofs Deliver_proofs System2_proofs
  CaptureDisk_proofs CaptureDisk2_proofs Prop_Capture Prop_Deliver.
Import ListNotations.
Local Open Scope N_scope.

(** A server that ends with status 0 has stored all its files, if no fclose()
    or fflush() met an error.  Missing: the program does not look at their
    results, so their failures are not reported (see below). *)
Theorem C81_clean_exit_stored_partial : forall e a H c c' D fs cs d,
  reach e a H c -> shutdown e c = Go c' ->
  cap_runs D cdisk0 (x_io c') fs cs d -> Forall (eq true) fs -> Forall (eq true) cs ->
  cd_cur d = None /\ cd_closed d = map snd (x_outs c').
Proof. exact stored_all. Qed.
Print Assumptions C81_clean_exit_stored_partial.

(** Then a reader of the files on the disk gets what writers were confirmed. *)
Theorem C81_confirmed_on_disk_partial : forall e a H c c' D fs cs d o hr r,
  reach e a H c -> (forall id, tame (SpecCapture.received id H)) -> shutdown e c = Go c' ->
  cap_runs D cdisk0 (x_io c') fs cs d -> Forall (eq true) fs -> Forall (eq true) cs ->
  reader_init o (file_reader_rdwr hr) = Some r -> ro_cts o = [] \/ In (a_ctype a) (ro_cts o) ->
  capture_highwater a <= ro_max o + 4 ->
  exists files, Forall2 (reads_as r) (cd_files d) files /\
    forall id wcs rs, confirmed H c id wcs rs -> Forall ordinary (since_close [] wcs rs) ->
      subseq (fit a (since_close [] wcs rs)) (concat files).
Proof. exact confirmed_on_disk. Qed.
Print Assumptions C81_confirmed_on_disk_partial.

(** After SIGHUP all frames received so far are on the disk, on the same
    condition. *)
Theorem C81_sighup_stores_partial : forall e a H c c' D fs cs d,
  reach e a H c -> step e a E_sighup c = Go c' ->
  cap_runs D cdisk0 (x_io c') fs cs d -> Forall (eq true) fs -> Forall (eq true) cs ->
  cd_files d = map snd (x_outs c').
Proof. exact sighup_stores. Qed.
Print Assumptions C81_sighup_stores_partial.

(** On a disk that stores what it is asked to the conditions hold: every run up
    to any point can happen there, and no call meets an error. *)
Theorem C81_healthy_disk : forall e a H c c' D, reach e a H c -> c' = c \/ shutdown e c = Go c' ->
  healthy D (List.length (concat (map snd (x_outs c')))) ->
  (exists fs cs d, cap_runs D cdisk0 (x_io c') fs cs d) /\
  (forall fs cs d, cap_runs D cdisk0 (x_io c') fs cs d -> Forall (eq true) fs /\ Forall (eq true) cs).
Proof. exact healthy_disk. Qed.
Print Assumptions C81_healthy_disk.
Example C81_healthy_case : forall room, healthy (fun n => mk_dact (room + n) true 0) room.
Proof. intros room n. split; [reflexivity|]. cbn. lia. Qed.

(** A failed fwrite() is never passed over: a server that goes on has had
    none, and has handed over exactly the bytes of its files. *)
Theorem C81_write_errors_end : forall e a H c, reach e a H c ->
  (forall b, ~ In (IoWrite b false) (x_io c)) /\ handed (x_io c) = map snd (x_outs c).
Proof. intros e a H c R. split; [exact (writes_succeed e a H c R)|exact (handed_outs e a H c R)]. Qed.
Print Assumptions C81_write_errors_end.

(** As long as no fflush() failed, whenever the server is stopped, by a signal
    or by its own exit(), each file is a prefix of what was to be in it. *)
Theorem C81_always_prefixes : forall e a io D fs cs d,
  moment e a io -> cap_runs D cdisk0 io fs cs d -> Forall (eq true) fs ->
  Forall2 prefix (cd_files d) (handed io) /\ Forall2 prefix (cd_files (cd_exit D d)) (handed io).
Proof. exact always_prefixes. Qed.
Print Assumptions C81_always_prefixes.

(** When the server ends itself with exit(), for another reason than a failed
    fwrite(), bytes still pending are stored too, if the disk takes them. *)
Theorem C81_exit_stores : forall e a io D fs cs d,
  moment e a io -> cap_runs D cdisk0 io fs cs d -> (forall b, ~ In (IoWrite b false) io) ->
  Forall (eq true) fs -> Forall (eq true) cs ->
  da_ok (D (cd_tick d)) = true -> (List.length (concat (handed io)) <= da_out (D (cd_tick d)))%nat ->
  cd_files (cd_exit D d) = handed io.
Proof. intros e a io D fs cs d _. exact (exit_stores io D fs cs d). Qed.
Print Assumptions C81_exit_stores.

(** Whatever fails, the files hold nothing but bytes handed over for them, in
    order. *)
Theorem C81_nothing_else : forall io D fs cs d,
  cap_runs D cdisk0 io fs cs d -> Forall2 subseq (cd_files d) (handed io).
Proof. exact always_parts. Qed.
Print Assumptions C81_nothing_else.

(** ** What goes wrong *)
(** Stdio calls: 0 START, 1 its fflush(), then the frames and so on. *)
Definition cd_args : args := mk_args ex_ct [x66] 64 2 0 false false.
Definition cd_H : list ev :=
  [E_accept 1; E_data 1 (ready_frame [ex_ct]); E_data 1 (start_frame (Some ex_ct));
   E_data 1 (data_frame [x0a; x0b; x0c; x0d; x0e]); E_sighup; E_data 1 (data_frame [x0f])].
Definition all_out : dact := mk_dact 1000 true 0.
Definition keep_all : dact := mk_dact 0 true 0.
(** The disk is full when the file is closed. *)
Definition full_at_close (n : nat) : dact :=
  match n with 1%nat | 3%nat => all_out | 6%nat => mk_dact 2 false 0 | _ => keep_all end.
(** The disk is full for a moment at the SIGHUP, and the C library drops what
    it could not write. *)
Definition full_at_hup (n : nat) : dact :=
  match n with 1%nat | 6%nat => all_out | 3%nat => mk_dact 4 false 0 | _ => keep_all end.

Definition cd_c : ctx := match play0 ex_env cd_args cd_H with Some c => c | None => mk_ctx [] false 0 0 0 false [] [] [] end.
Lemma cd_run : reach ex_env cd_args cd_H cd_c.
Proof. apply play0_sound. vm_compute. reflexivity. Qed.
Definition cd_c' : ctx := match shutdown ex_env cd_c with Go c => c | _ => cd_c end.
Lemma cd_end : shutdown ex_env cd_c = Go cd_c'.
Proof. vm_compute. reflexivity. Qed.
Lemma cd_stored : stored (x_log cd_c') = [data_frame [x0a; x0b; x0c; x0d; x0e]; data_frame [x0f]].
Proof. vm_compute. reflexivity. Qed.

(** The last frame waits in the buffer until exit(). *)
Definition slow_disk (n : nat) : dact := match n with 1%nat | 3%nat | 5%nat => all_out | _ => keep_all end.
Example C81_exit_case : exists fs cs d, moment ex_env cd_args (x_io cd_c) /\ cap_runs slow_disk cdisk0 (x_io cd_c) fs cs d /\
    Forall (eq true) fs /\ Forall (eq true) cs /\ cd_files d <> handed (x_io cd_c) /\
    cd_files (cd_exit slow_disk d) = handed (x_io cd_c).
Proof.
  do 3 eexists. split.
  - pose proof cd_run as R. apply (mo_end _ _ _ _ _ R (or_introl cd_end) (x_io cd_c) (skipn (length (x_io cd_c)) (x_io cd_c'))).
    vm_compute. reflexivity.
  - split; [apply cap_exec_sound; vm_compute; reflexivity|]. split; [repeat constructor|]. split; [repeat constructor|].
    split; [vm_compute; discriminate|vm_compute; reflexivity].
Qed.

(** The server ends with status 0 although the end of its file is lost: the
    second frame, and STOP. *)
Theorem C81_clean_exit_stored_refuted : exists e a H c c' D fs cs d,
  sends e /\ output_works e /\ reach e a H c /\ shutdown e c = Go c' /\
  cap_runs D cdisk0 (x_io c') fs cs d /\ Forall (eq true) fs /\
  stored (x_log c') = [data_frame [x0a; x0b; x0c; x0d; x0e]; data_frame [x0f]] /\
  map snd (x_outs c') = [capture_file (a_ctype a) [[x0a; x0b; x0c; x0d; x0e]; [x0f]]] /\
  cd_files d = [start_frame (Some (a_ctype a)) ++ data_frame [x0a; x0b; x0c; x0d; x0e] ++ [x00; x00]].
Proof.
  exists ex_env, cd_args, cd_H, cd_c, cd_c', full_at_close. do 3 eexists.
  split; [exact ex_sends|]. split; [repeat split; discriminate|]. split; [exact cd_run|]. split; [exact cd_end|].
  split; [apply cap_exec_sound; vm_compute; reflexivity|]. split; [repeat constructor|]. split; [exact cd_stored|].
  split; vm_compute; reflexivity.
Qed.
Print Assumptions C81_clean_exit_stored_refuted.

(** The server ends with status 0, its file is complete for any reader, and
    holds a payload that nobody sent and none of those that were sent. *)
Theorem C81_frames_intact_refuted : exists e a H c c' D fs cs d o r,
  sends e /\ output_works e /\ reach e a H c /\ shutdown e c = Go c' /\
  cap_runs D cdisk0 (x_io c') fs cs d /\ Forall (eq true) cs /\
  stored (x_log c') = [data_frame [x0a; x0b; x0c; x0d; x0e]; data_frame [x0f]] /\
  reader_init o (file_reader_rdwr 0) = Some r /\
  exists f, cd_files d = [f] /\ reads_as r f [[x00; x00; x00; x01; x0f]].
Proof.
  destruct (reader_init (mk_ropt [] 1024) (file_reader_rdwr 0)) as [r|] eqn:RI; [|discriminate].
  exists ex_env, cd_args, cd_H, cd_c, cd_c', full_at_hup. do 5 eexists.
  split; [exact ex_sends|]. split; [repeat split; discriminate|]. split; [exact cd_run|]. split; [exact cd_end|].
  split; [apply cap_exec_sound; vm_compute; reflexivity|]. split; [repeat constructor|]. split; [exact cd_stored|].
  split; [exact RI|]. eexists. split; [reflexivity|].
  intros fuel m Hf. apply (file_read_back [ex_ct] 0 (mk_ropt [] 1024) r fuel m [[x00; x00; x00; x01; x0f]]).
  - repeat constructor. vm_compute. discriminate.
  - exact RI.
  - left. reflexivity.
  - repeat constructor; vm_compute; intuition discriminate.
  - exact Hf.
Qed.
Print Assumptions C81_frames_intact_refuted.

(** ** Cases *)
(** A disk without errors: the confirmed session of C74. *)
Example C81_good_disk : reach ex_env ex_args dl_H dl_c /\ shutdown ex_env dl_c = Go dl_c' /\
  confirmed dl_H dl_c 1 dl_cs dl_rs /\
  exists fs cs d, cap_runs (fun _ => all_out) cdisk0 (x_io dl_c') fs cs d /\ Forall (eq true) fs /\ Forall (eq true) cs /\
    fs = [true; true] /\ cs = [true; true].
Proof.
  split; [apply C74_confirmed|]. split; [apply C74_files|]. split; [apply C74_confirmed|].
  do 3 eexists. split; [apply cap_exec_sound; vm_compute; reflexivity|]. repeat constructor.
Qed.

(** SIGHUP: pending before, stored after. *)
Definition lazy_disk (n : nat) : dact := match n with 1%nat | 3%nat => all_out | _ => mk_dact 3 true 0 end.
Definition hup_c : ctx := match play0 ex_env cd_args (firstn 4 cd_H) with Some c => c | None => mk_ctx [] false 0 0 0 false [] [] [] end.
Example C81_sighup : reach ex_env cd_args (firstn 4 cd_H) hup_c /\
  (exists fs cs d, cap_runs lazy_disk cdisk0 (x_io hup_c) fs cs d /\
     cd_cur d = Some (start_frame (Some ex_ct) ++ [x00; x00; x00], [x05; x0a; x0b; x0c; x0d; x0e])) /\
  exists c' fs cs d, step ex_env cd_args E_sighup hup_c = Go c' /\ cap_runs lazy_disk cdisk0 (x_io c') fs cs d /\
    fs = [true; true] /\ cs = [].
Proof.
  split; [apply play0_sound; vm_compute; reflexivity|]. split.
  - do 3 eexists. split; [apply cap_exec_sound; vm_compute; reflexivity|]. reflexivity.
  - do 4 eexists. split; [vm_compute; reflexivity|]. split; [apply cap_exec_sound; vm_compute; reflexivity|]. split; reflexivity.
Qed.

(** A write that fails half way: the server exits, the file is a prefix. *)
Definition bad_disk (n : nat) : dact := match n with 0%nat | 1%nat => all_out | 2%nat => mk_dact 6 false 1 | _ => mk_dact 1 false 0 end.
Definition bad_e : env :=
  mk_env (fun n => Z.of_nat n) (fun t => Some (repeat x61 (Z.to_nat t))) (fun _ => true) (fun n => (n <? 2)%nat) (fun _ => true).
Definition bad_c : ctx := match play0 bad_e cd_args (firstn 3 cd_H) with Some c => c | None => mk_ctx [] false 0 0 0 false [] [] [] end.
Definition bad_x : ctx := match step bad_e cd_args (E_data 1 (data_frame [x0a; x0b; x0c; x0d; x0e])) bad_c with Exit c => c | _ => bad_c end.
Example C81_failing_write : moment bad_e cd_args (x_io bad_x) /\
  exists fs cs d, cap_runs bad_disk cdisk0 (x_io bad_x) fs cs d /\ Forall (eq true) fs /\
    In (IoWrite (data_frame [x0a; x0b; x0c; x0d; x0e]) false) (x_io bad_x) /\
    cd_files d = [start_frame (Some ex_ct) ++ firstn 6 (data_frame [x0a; x0b; x0c; x0d; x0e])] /\
    cd_files (cd_exit bad_disk d) = [start_frame (Some ex_ct) ++ firstn 7 (data_frame [x0a; x0b; x0c; x0d; x0e])].
Proof.
  split.
  - apply (mo_step _ _ (firstn 3 cd_H) bad_c (E_data 1 (data_frame [x0a; x0b; x0c; x0d; x0e])) bad_x) with (more := []).
    + apply play0_sound. vm_compute. reflexivity.
    + right. vm_compute. reflexivity.
    + now rewrite app_nil_r.
  - do 3 eexists. split; [apply cap_exec_sound; vm_compute; reflexivity|]. split; [repeat constructor|].
    split; [vm_compute; auto|]. split; vm_compute; reflexivity.
Qed.

(** C86: dumping a file onto itself. *)
From Coq Require Import String.
From Verif Require Import Bytes Spec Io Io_proofs SpecTrace SpecStream Control Rdwr Reader Writer SpecReader SpecFile File
  Misc Tools SpecTools Messages SpecMessages Stdio CaptureDisk InPlace SpecInPlace Messages3_proofs InPlace_proofs InPlace2_proofs InPlace3_proofs.
Local Open Scope nat_scope.

(** For every file, every disk and every size of the stdio buffer from 520 bytes
    up: the file is left as if its first [B] bytes had been dumped into another
    file holding the same, and exit status and messages are those of that dump. *)
Theorem C86_same_as_first_block : forall B D d fuel iovm, 520 <= B ->
  let (s, o) := exec (shared_ops B D) (shared_init d) (dump_say fuel iovm true) in
  let (f, o') := exec (disk_ops D) (disk_init d) (on_files 0 [input (firstn B d)] (dump_say fuel iovm true)) in
  sh_w s = f /\
  match o, o' with
  | Done a, Done (fs, b) => a = b /\ map f_data fs = [firstn B d]
  | Stuck x, Stuck y => x = y
  | Cut, Cut => True
  | _, _ => False
  end.
Proof.
  intros B D d fuel iovm HB. pose proof (dump_in_place B D d fuel iovm HB) as K.
  destruct (exec (shared_ops B D) (shared_init d) (dump_say fuel iovm true)) as [s o].
  destruct (exec (disk_ops D) (disk_init d) (on_files 0 [input (firstn B d)] (dump_say fuel iovm true))) as [f o'].
  destruct K as [K1 K2]. split; [exact K1|]. destruct o as [a| |], o' as [[fs b]| |]; exact K2.
Qed.
Print Assumptions C86_same_as_first_block.

(** A disk that never fails. *)
Definition ex_fine (n : nat) : dact := mk_dact 3000 true 0.
Lemma ex_fine_healthy n : n <= 3000 -> healthy ex_fine n.
Proof. intros L k. split; [reflexivity|exact L]. Qed.

(** A stream of 150 frames in 1224 bytes. *)
Definition ex_long : bytes := ctl_frame T_START [] ++ datas (repeat [x2e; x2e; x2e; x2e] 150) ++ stop_frame.
Example C86_block_case : length ex_long = 1224 /\
  let (s, o) := exec (shared_ops 520 ex_fine) (shared_init ex_long) (dump_say 2000 1024 true) in
  length (d_content (sh_w s)) = 528 /\ match o with Done (ok, _) => ok = true | _ => False end.
Proof. split; [vm_compute; reflexivity|]. vm_compute. split; reflexivity. Qed.

(** Exactly which frames remain of a complete stream, on a disk with room: those
    that lie wholly within the first [B] bytes.  The exit status is success, and
    the messages end as for a complete stream. *)
Theorem C86_what_remains : forall B D st ds fuel iovm, 520 <= B -> ctl_ok T_START st ->
  Forall (fun p => data_ok p /\ (lenN p <= DEFAULT_MAX)%N) ds ->
  let d := ctl_frame T_START st ++ datas ds ++ stop_frame in
  length d <= fuel -> 0 < iovm -> healthy D (length d + 12) ->
  exists s log, exec (shared_ops B D) (shared_init d) (dump_say fuel iovm true) = (s, Done (true, log)) /\
    d_fp (sh_w s) = None /\
    d_content (sh_w s) = ctl_frame T_START st ++ datas (fit (B - length (ctl_frame T_START st)) ds) ++ stop_frame /\
    reads_as log (start_note st ++ flat_map frame_note (fit (B - length (ctl_frame T_START st)) ds) ++ [note "FSTRM_CONTROL_STOP."]).
Proof. exact in_place_fits. Qed.
Print Assumptions C86_what_remains.
Example C86_remains_nonvacuous : 520 <= 520 /\ ctl_ok T_START [] /\
  Forall (fun p => data_ok p /\ (lenN p <= DEFAULT_MAX)%N) (repeat [x2e; x2e; x2e; x2e] 150) /\ healthy ex_fine (length ex_long + 12) /\
  fit (520 - length (ctl_frame T_START [])) (repeat [x2e; x2e; x2e; x2e] 150) = repeat [x2e; x2e; x2e; x2e] 63.
Proof.
  split; [lia|]. split; [|split; [|split]].
  - split; [right; left; reflexivity|constructor|vm_compute; discriminate|intros _; cbn; lia|reflexivity].
  - apply Forall_forall. intros p H. apply repeat_spec in H. subst p. repeat split; vm_compute; congruence.
  - apply ex_fine_healthy. vm_compute. lia.
  - vm_compute. reflexivity.
Qed.

(** The frames that remain are the first ones, as many as there is room for. *)
Theorem C86_first_ones : forall n ds,
  prefix (fit n ds) ds /\ length (datas (fit n ds)) <= n /\
  (fit n ds = ds \/ exists p c, ds = fit n ds ++ p :: c /\ n < length (datas (fit n ds ++ [p]))).
Proof. intros n ds. split; [apply fit_prefix|]. split; [apply fit_size|apply fit_next]. Qed.
Print Assumptions C86_first_ones.

(** A complete stream no longer than the buffer is left as it was. *)
Theorem C86_small_file_unchanged : forall B D st ds fuel iovm, 520 <= B -> ctl_ok T_START st ->
  Forall (fun p => data_ok p /\ (lenN p <= DEFAULT_MAX)%N) ds ->
  let d := ctl_frame T_START st ++ datas ds ++ stop_frame in
  length d <= B -> length d <= fuel -> 0 < iovm -> healthy D (length d + 12) ->
  exists s log, exec (shared_ops B D) (shared_init d) (dump_say fuel iovm true) = (s, Done (true, log)) /\ d_content (sh_w s) = d.
Proof.
  intros B D st ds fuel iovm HB K F d LB L HI W. destruct (in_place_fits B D st ds fuel iovm HB K F L HI W) as (s & log & E & _ & X & _).
  exists s, log. split; [exact E|]. fold d in E. rewrite X. unfold d. do 2 f_equal.
  destruct (fit_next ds (B - length (ctl_frame T_START st))) as [-> |(p & c & EC & LT)]; [reflexivity|]. exfalso.
  unfold d in LB. rewrite !app_length in LB. rewrite EC in LB at 1. unfold datas in LB, LT. rewrite map_app, concat_app, app_length in LB, LT.
  cbn [map concat] in LB, LT. rewrite app_length in LB, LT. cbn [length] in LT. lia.
Qed.
Print Assumptions C86_small_file_unchanged.

Example C86_small_nonvacuous : exists s log,
  exec (shared_ops 1300 ex_fine) (shared_init ex_long) (dump_say 2000 1024 true) = (s, Done (true, log)) /\ d_content (sh_w s) = ex_long.
Proof.
  destruct C86_remains_nonvacuous as (_ & K & F & W & _).
  refine (C86_small_file_unchanged 1300 ex_fine [] (repeat [x2e; x2e; x2e; x2e] 150) 2000 1024 _ K F _ _ _ W); [lia|apply Nat.leb_le; vm_compute; reflexivity|apply Nat.leb_le; vm_compute; reflexivity|lia].
Qed.

(** Whatever the disk does, a successful exit means: the file holds the complete
    stream of the frames in its former first [B] bytes. *)
Theorem C86_success_means : forall B D d fuel iovm s log, 520 <= B -> length d <= fuel -> 0 < iovm ->
  exec (shared_ops B D) (shared_init d) (dump_say fuel iovm true) = (s, Done (true, log)) ->
  exists st ds e, stream_file (firstn B d) st ds e /\ (e = E_stop \/ e = E_eof) /\
    d_fp (sh_w s) = None /\ d_content (sh_w s) = ctl_frame T_START st ++ datas ds ++ stop_frame.
Proof. exact in_place_success. Qed.
Print Assumptions C86_success_means.
Example C86_success_nonvacuous :
  let (s, o) := exec (shared_ops 520 (fun n => mk_dact (9 * n) (Nat.ltb n 200) 0)) (shared_init ex_long) (dump_say 2000 1024 true) in
  length (d_content (sh_w s)) = 528 /\ match o with Done (ok, _) => ok = true | _ => False end.
Proof. vm_compute. split; reflexivity. Qed.

(** So frames are lost without notice: for every size of the buffer there is a
    complete stream that does not survive a successful dump onto itself. *)
Theorem C86_in_place_refuted : forall B, 520 <= B -> exists d st ds D fuel iovm s log,
  stream_file d st ds E_stop /\ length d <= fuel /\ 0 < iovm /\ healthy D (length d + 12) /\
  exec (shared_ops B D) (shared_init d) (dump_say fuel iovm true) = (s, Done (true, log)) /\
  ~ Exists complaint log /\ forall e, ~ stream_file (d_content (sh_w s)) st ds e.
Proof. exact in_place_loses. Qed.
Print Assumptions C86_in_place_refuted.

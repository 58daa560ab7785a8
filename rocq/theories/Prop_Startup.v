(** C70: starting fstrm_capture. *)
From Coq Require Import ZArith.
From Verif Require Import Bytes Bytes_proofs Spec SpecStream SpecMisc Misc Misc_proofs Capture Startup SpecStartup Startup_proofs.
Import ListNotations.
Local Open Scope N_scope.

(** ** Concrete objects: [-t t -u s -w w] in a world where every call works but
    binding, as given. *)
Definition ex_cmd (u o : bytes) : cmdline := mk_cmd false (Some [x74]) (Some u) None None (Some o) 0 0 0 false false.
Definition ex_world (bind : bool) : world :=
  mk_world false (fun _ => None) (fun _ => None) (fun _ => true) (fun _ => true) (fun _ => bind) (fun _ _ => bind) 0 (fun _ => None) true true.
Definition p_s : bytes := [x73].
Definition p_w : bytes := [x77].
Definition p_x : bytes := [x78].
(** A disk with an old capture at [w], an old socket at [s], another file at [x]. *)
Definition ex_fs : fs := fun q =>
  if bytes_eqb q p_w then Some (NFile (start_frame (Some [x74]) ++ data_frame [x01] ++ stop_frame))
  else if bytes_eqb q p_s then Some NSock
  else if bytes_eqb q p_x then Some (NFile [x05]) else None.
Example ex_valid b : valid (ex_world b) (ex_cmd p_s p_w) /\ listens_at (ex_world b) (ex_cmd p_s p_w) (L_unix p_s).
Proof.
  assert (L : listens_at (ex_world b) (ex_cmd p_s p_w) (L_unix p_s)) by (split; [cbn; congruence|split; [cbn; repeat constructor|reflexivity]]).
  split; [|exact L]. split; [reflexivity|]. split; [discriminate|]. split; [exists p_w; split; [reflexivity|discriminate]|].
  split; [intros [X _]; discriminate|]. split; [intro X; contradiction X; reflexivity|]. eexists. exact L.
Qed.

(** The server starts exactly if the options are as documented, the socket's path
    can be cleared, the output can be opened and its START frame written, and the
    socket can be bound. *)
Theorem C70_starts_exactly : forall w m f, (exists f' l a c, main_start w m f = SRun f' l a c) <->
  valid w m /\ exists l out ct, listens_at w m l /\ output w m = Some out /\ m_type m = Some ct /\
    clearable w f l /\ writable w f l out /\ lenN ct <= 256 /\ w_fwrite w = true /\ bindable w l out.
Proof. exact start_exactly. Qed.
Print Assumptions C70_starts_exactly.

(** Options that are not as documented: exit status 1 and no file is touched. *)
Theorem C70_usage_error_changes_nothing : forall w m f, ~ valid w m -> exists f', main_start w m f = SFail f' /\ same f' f.
Proof. exact start_invalid. Qed.
Print Assumptions C70_usage_error_changes_nothing.
(** Splitting without a calendar; a port that is no number; a path of 108 bytes. *)
Example C70_usage_case :
  ~ valid (ex_world true) (mk_cmd false (Some [x74]) (Some p_s) None None (Some p_w) 0 0 5 false false) /\
  ~ valid (ex_world true) (mk_cmd false (Some [x74]) None (Some p_x) (Some p_x) (Some p_w) 0 0 0 false false) /\
  ~ valid (ex_world true) (ex_cmd (repeat x73 108) p_w) /\ ~ valid (ex_world true) (mk_cmd false (Some [x74]) (Some p_s) (Some p_x) None (Some p_w) 0 0 0 false false).
Proof.
  split; [|split; [|split]].
  - intros (_ & _ & _ & _ & K & _). destruct K; discriminate.
  - intros (_ & _ & _ & _ & _ & l & _ & K). cbn in K. destruct K as (a & p & n & _ & [= <-] & P & _). apply parse_port_spec in P. vm_compute in P. discriminate.
  - intros (_ & _ & _ & _ & _ & l & _ & K & _). vm_compute in K. apply PeanoNat.Nat.leb_le in K. vm_compute in K. discriminate.
  - intros (_ & _ & _ & _ & _ & l & K & _). apply K; [discriminate|reflexivity].
Qed.

(** Whatever happens, it ends one way or the other, and files other than the
    socket's path and the output are left alone. *)
Theorem C70_only_named_paths : forall w m f,
  exists f', result_fs (main_start w m f) = Some f' /\ forall q, ~ named w m q -> f' q = f q.
Proof. intros w m f. destruct (always_result w m f) as (f' & E). exists f'. split; [exact E|]. exact (only_named w m f f' E). Qed.
Print Assumptions C70_only_named_paths.

(** When it runs: it listens where it was told ([--unix] before [--tcp]), the
    socket is there, the output holds the START frame with the content type and
    nothing else, and the server is in the state from which C45 to C49 start. *)
Theorem C70_running : forall w m f f' l a c, main_start w m f = SRun f' l a c ->
  listens_at w m l /\ exists out ct, output w m = Some out /\ m_type m = Some ct /\
    same f' (with_socket (with_output (cleared f l) out (start_frame (Some ct))) l) /\ parse_args (w_tty w) m = Some a /\
    boot (out_env w a (snd (open_input w m f))) a = Go c.
Proof. exact running. Qed.
Print Assumptions C70_running.
Example C70_case : exists f l a c, main_start (ex_world true) (ex_cmd p_s p_w) ex_fs = SRun f l a c /\
  f p_s = Some NSock /\ f p_w = Some (NFile (start_frame (Some [x74]))) /\ f p_x = Some (NFile [x05]) /\ l = L_unix p_s.
Proof. eexists _, _, _, _. split; [reflexivity|]. repeat split; vm_compute; reflexivity. Qed.

(** Refuted: a start that fails leaves an existing capture alone.  The output is
    truncated before the socket is bound: here a whole stream is lost, and the file
    is left without a STOP frame. *)
Theorem C70_failed_start_keeps_output_refuted : exists w m f f' n ps,
  main_start w m f = SFail f' /\ output w m = Some (Some n) /\ m_unix m <> Some n /\
  f n = Some (NFile (start_frame (m_type m) ++ data_frame ps ++ stop_frame)) /\ f' n = Some (NFile (start_frame (m_type m))).
Proof.
  exists (ex_world false), (ex_cmd p_s p_w), ex_fs. eexists _, p_w, [x01]. split; [reflexivity|].
  split; [reflexivity|]. split; [discriminate|]. split; vm_compute; reflexivity.
Qed.
Print Assumptions C70_failed_start_keeps_output_refuted.
(** A content type of more than 256 bytes, which cannot work, empties it as well. *)
Theorem C70_long_type_empties_output : forall w m f l n ct, valid w m -> listens_at w m l -> clearable w f l ->
  output w m = Some (Some n) -> writable w f l (Some n) -> m_type m = Some ct -> 256 < lenN ct ->
  exists f', main_start w m f = SFail f' /\ f' n = Some (NFile []).
Proof.
  intros w m f l n ct V L C O W T H. destruct (start_no_start w m f l V L C (Some n) O W ct T (or_introl H)) as (f' & E & S).
  exists f'. split; [exact E|]. rewrite (S n). unfold with_output. rewrite bytes_eqb_refl. reflexivity.
Qed.
Print Assumptions C70_long_type_empties_output.
(** Exactly when a failed start changes the output file, and to what.  Missing: it
    should not. *)
Theorem C70_failed_start_partial : forall w m f f' n,
  main_start w m f = SFail f' -> output w m = Some (Some n) -> m_unix m <> Some n ->
  f' n = f n \/
  exists l ct, valid w m /\ listens_at w m l /\ clearable w f l /\ writable w f l (Some n) /\ m_type m = Some ct /\
    ((256 < lenN ct \/ w_fwrite w = false) /\ f' n = Some (NFile []) \/
     lenN ct <= 256 /\ w_fwrite w = true /\ ~ bindable w l (Some n) /\ f' n = Some (NFile (start_frame (Some ct)))).
Proof. exact failed_output. Qed.
Print Assumptions C70_failed_start_partial.

(** Refuted: only a socket is removed from the socket's path ("Remove a previously
    bound socket existing on the filesystem").  Any file is, here even by a start
    that then fails. *)
Theorem C70_removes_only_sockets_refuted : exists w m f f' p b,
  main_start w m f = SFail f' /\ m_unix m = Some p /\ f p = Some (NFile b) /\ b <> [] /\ f' p = None.
Proof.
  exists (ex_world false), (ex_cmd p_x p_w), ex_fs. eexists _, p_x, [x05]. split; [reflexivity|].
  split; [reflexivity|]. split; [vm_compute; reflexivity|]. split; [discriminate|vm_compute; reflexivity].
Qed.
Print Assumptions C70_removes_only_sockets_refuted.

(** The same path for both: the server never starts. *)
Theorem C70_same_path : forall w m f p, m_unix m = Some p -> output w m = Some (Some p) ->
  exists f', main_start w m f = SFail f' /\
  (f' p = f p \/ f' p = None \/ f' p = Some (NFile []) \/ exists ct, m_type m = Some ct /\ f' p = Some (NFile (start_frame (Some ct)))).
Proof. exact same_path. Qed.
Print Assumptions C70_same_path.
Example C70_same_path_case : exists f', main_start (ex_world true) (ex_cmd p_w p_w) ex_fs = SFail f' /\ f' p_w = Some (NFile (start_frame (Some [x74]))).
Proof. eexists. split; [reflexivity|vm_compute; reflexivity]. Qed.

(** C74: what a successful close of a writer talking to fstrm_capture means. *)
From Coq Require Import ZArith Lia.
From Verif Require Import Bytes Spec SpecTrace SpecStream Io Io_proofs Control Rdwr Reader Writer Api SpecApi File
  Capture SpecCapture SpecDeliver Writer5_proofs Capture2_proofs Capture5_proofs Deliver_proofs Prop_Capture.
Import ListNotations.
Local Open Scope N_scope.

(** A close that reports success ends a session that holds exactly the payloads
    of the successful calls since the last close, whatever failed before. *)
Theorem C74_close_ends_session : forall iovm cts rw w cs tr rs w',
  fresh_rdwr rw -> (0 < iovm)%nat -> writer_init iovm cts rw = Some w -> Forall wcall_ok cs ->
  runs (do_wcalls w (cs ++ [WClose])) tr (Done (rs ++ [r_success], w')) ->
  exists before ct, delivered tr =
    before ++ [session_head (rw_has_read rw) cts ct ++ datas (since_close [] cs rs) ++ stop_frame] /\
    start_choice (rw_has_read rw) cts ct.
Proof.
  intros iovm cts rw w cs tr rs w' FR Hi Hw Hok R.
  destruct (close_confirms (fun r => res_eqb r r_success) eq_refl _ _ _ _ _ _ _ _ FR Hi Hw Hok R) as (_ & ss & ct & E & S & _).
  exists ss, ct. split; assumption.
Qed.
Print Assumptions C74_close_ends_session.

(** The server has then stored these payloads, those that fit its buffer, in
    order and nothing else from this connection.  No assumption is made on what
    else the server does, on its clock, its files or whether its answers to
    others get through. *)
Theorem C74_close_means_stored : forall e a H c id cs rs,
  reach e a H c -> confirmed H c id cs rs -> Forall ordinary (since_close [] cs rs) ->
  stores (acts_of id (x_log c)) = map data_frame (fit a (since_close [] cs rs)).
Proof. exact closed_stored. Qed.
Print Assumptions C74_close_means_stored.

(** Once the server has stopped they are in its files, in order. *)
Theorem C74_close_means_in_files : forall e a H c id cs rs c',
  reach e a H c -> confirmed H c id cs rs -> Forall ordinary (since_close [] cs rs) ->
  shutdown e c = Go c' ->
  exists files, map snd (x_outs c') = map (fun bs => start_frame (Some (a_ctype a)) ++ concat bs ++ stop_frame) files /\
    subseq (map data_frame (fit a (since_close [] cs rs))) (concat files).
Proof. exact closed_in_files. Qed.
Print Assumptions C74_close_means_in_files.

(** And a reader of these files gets them, if no peer announced a frame of
    2^32-4 bytes or more: every file reads as some payloads followed by end of
    stream, and together they contain what any writer was confirmed. *)
Theorem C74_confirmed_is_read_back : forall e a H c c' o hr r,
  reach e a H c -> (forall id, tame (SpecCapture.received id H)) -> shutdown e c = Go c' ->
  reader_init o (file_reader_rdwr hr) = Some r -> ro_cts o = [] \/ In (a_ctype a) (ro_cts o) ->
  capture_highwater a <= ro_max o + 4 ->
  exists files, Forall2 (fun out ds => reads_as r (snd out) ds) (x_outs c') files /\
    forall id cs rs, confirmed H c id cs rs -> Forall ordinary (since_close [] cs rs) ->
      subseq (fit a (since_close [] cs rs)) (concat files).
Proof. exact captured_read_back. Qed.
Print Assumptions C74_confirmed_is_read_back.

(** ** A case *)
(** The first open meets a refused connection, the second one works; the
    writer writes three payloads, one of which is too large for the server. *)
Definition dl_rw : rdwr := mk_rdwr 0 true true true true true false.
Definition dl_w : writer := mk_writer ws_opening [ex_ct; [x61]] dl_rw None None None None 1024.
Definition dl_cs : list wcall := [WWrite [x09]; WWrite [x01]; WWritev [ex_big; [x02; x03]]].
Definition dl_ok : ans := ARes r_success.
Definition dl_reads (p : bytes) : list ans :=
  [ARead r_success (be32 0); ARead r_success (be32 (lenN p)); ARead r_success p].
Definition dl_ans : list ans :=
  [ARes r_failure] ++ [dl_ok; dl_ok] ++ dl_reads (ctl_payload T_ACCEPT [ex_ct]) ++ [dl_ok; dl_ok; dl_ok; dl_ok] ++
  dl_reads (ctl_payload T_FINISH []) ++ [dl_ok].
Definition dl_tr : trace := match follow (do_wcalls dl_w (dl_cs ++ [WClose])) dl_ans with Some (t, _) => t | None => [] end.
Definition dl_rs : list res := [r_failure; r_success; r_success].
Definition dl_sent : bytes := ready_frame [ex_ct; [x61]] ++ start_frame (Some ex_ct) ++ datas [[x01]; ex_big; [x02; x03]] ++ stop_frame.
(** The server reads the stream of connection 1 one byte at a time, has another
    client whose session it interrupts, and rotates its file on the way. *)
Definition dl_H : list ev :=
  [E_accept 1] ++ map (fun b => E_data 1 [b]) (firstn 70 dl_sent) ++ [E_accept 2; E_data 2 (firstn 40 ex_s2); E_sigusr1] ++
  map (fun b => E_data 1 [b]) (skipn 70 dl_sent).
Definition dl_c : ctx := match play0 ex_env ex_args dl_H with Some c => c | None => mk_ctx [] false 0 0 0 false [] [] [] end.
Definition dl_c' : ctx := match shutdown ex_env dl_c with Go c => c | _ => dl_c end.

Example C74_confirmed : reach ex_env ex_args dl_H dl_c /\ confirmed dl_H dl_c 1 dl_cs dl_rs /\
  since_close [] dl_cs dl_rs = [[x01]; ex_big; [x02; x03]] /\ Forall ordinary (since_close [] dl_cs dl_rs).
Proof.
  split; [apply play0_sound; vm_compute; reflexivity|]. split; [|split; [reflexivity|repeat constructor; vm_compute; congruence]].
  eapply (confirm _ _ _ 1024 [ex_ct; [x61]] dl_rw dl_w dl_cs dl_rs dl_tr).
  - split; reflexivity.
  - reflexivity.
  - lia.
  - reflexivity.
  - repeat constructor.
  - apply follow_sound with (l := dl_ans). vm_compute. reflexivity.
  - split.
    + exists [], dl_sent. split; [vm_compute; reflexivity|]. exists []. vm_compute. reflexivity.
    + exists []. vm_compute. reflexivity.
Qed.
Example C74_files : shutdown ex_env dl_c = Go dl_c' /\
  stores (acts_of 1 (x_log dl_c)) = [data_frame [x01]; data_frame [x02; x03]] /\
  map snd (x_outs dl_c') = [capture_file ex_ct [[x01]]; capture_file ex_ct [[x02; x03]]] /\
  fit ex_args (since_close [] dl_cs dl_rs) = [[x01]; [x02; x03]].
Proof. split; [vm_compute; reflexivity|]. split; [vm_compute; reflexivity|]. split; vm_compute; reflexivity. Qed.
Example C74_tame : forall id, tame (SpecCapture.received id dl_H).
Proof.
  assert (T : forall cts ds, lenN (ready_frame cts) < 512 -> Forall (fun d => data_ok d /\ lenN d < 2 ^ 32 - 4) ds ->
    tame (ready_frame cts ++ start_frame (Some ex_ct) ++ datas ds ++ stop_frame)).
  { intros cts ds L F. rewrite <- (app_nil_r stop_frame). apply session_tame; [exact F|exact L|reflexivity|apply tame_nil]. }
  intros [|[|[|id]]]; [apply tame_nil| | |].
  - replace (SpecCapture.received 1 dl_H) with dl_sent by (vm_compute; reflexivity). apply T; [reflexivity|].
    repeat constructor; vm_compute; intuition discriminate.
  - apply (tame_prefix _ (skipn 40 ex_s2)). replace (SpecCapture.received 2 dl_H ++ skipn 40 ex_s2) with ex_s2 by (vm_compute; reflexivity).
    apply T; [reflexivity|]. repeat constructor; vm_compute; intuition discriminate.
  - apply tame_nil.
Qed.
Example C74_reader : exists r, reader_init (mk_ropt [ex_ct] 4096) (file_reader_rdwr 0) = Some r /\
  capture_highwater ex_args <= 4096 + 4.
Proof. eexists. split; [reflexivity|]. vm_compute. discriminate. Qed.

(** The restriction to payloads that fit cannot be dropped: here the payload of
    80 bytes was reported written, the close succeeded, and it is nowhere. *)
Theorem C74_oversize_lost_refuted : exists e a H c id cs rs d,
  reach e a H c /\ confirmed H c id cs rs /\ Forall ordinary (since_close [] cs rs) /\
  In d (since_close [] cs rs) /\ ~ In (data_frame d) (stored (x_log c)).
Proof.
  exists ex_env, ex_args, dl_H, dl_c, 1%nat, dl_cs, dl_rs, ex_big.
  destruct C74_confirmed as (A & B & C & D). split; [exact A|]. split; [exact B|]. split; [exact D|].
  split; [rewrite C; right; left; reflexivity|]. 
  replace (stored (x_log dl_c)) with [data_frame [x01]; data_frame [x02; x03]] by (vm_compute; reflexivity).
  intros [E|[E|[]]]; apply (f_equal (@length byte)) in E; vm_compute in E; discriminate E.
Qed.
Print Assumptions C74_oversize_lost_refuted.

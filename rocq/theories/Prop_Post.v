(** C76: from the producers of an I/O thread to the files of a capture server. *)
From Coq Require Import ZArith Lia.
From Verif Require Import Bytes Spec SpecTrace SpecStream Control Io Io_proofs Rdwr Writer Api SpecApi Reader File Iothr SpecIothr Iothr4_proofs
  System SpecSystem Capture SpecCapture SpecDeliver SpecClient Capture2_proofs Capture5_proofs Iothr7_proofs Deliver3_proofs Prop_Capture Prop_Deliver Prop_Iothr.
Import ListNotations.
Local Open Scope N_scope.

(** Whatever the thread does to its transport is what some sequence of calls on
    its writer does, so everything proved of writers holds of it. *)
Theorem C76_thread_is_client : forall iov_max cts rw t fuel dfuel tr o,
  created iov_max cts rw t -> runs (iothr_life fuel dfuel t) tr o ->
  exists iovm w cs o', (0 < iovm)%nat /\ writer_init iovm cts rw = Some w /\ Forall wcall_ok cs /\
    runs (writer_life w cs) (writer_part tr) o' /\ (o = Done tt -> exists rs x, o' = Done (rs, x)).
Proof. exact thread_is_client. Qed.
Print Assumptions C76_thread_is_client.

(** What was accepted before the shutdown request is stored by the server, queue
    by queue in order; nothing is stored on this connection but what was
    accepted. *)
Theorem C76_posted_is_stored : forall e a K c id before all,
  reach e a K c -> posted K c id before all -> Forall ordinary (payloads all) ->
  exists W, in_queue_order before W all /\ stores (acts_of id (x_log c)) = map data_frame (fit a (payloads W)).
Proof. exact posted_stored. Qed.
Print Assumptions C76_posted_is_stored.

(** Once the server has stopped it is in its files. *)
Theorem C76_posted_is_in_files : forall e a K c id before all c',
  reach e a K c -> posted K c id before all -> Forall ordinary (payloads all) -> shutdown e c = Go c' ->
  exists W files, in_queue_order before W all /\
    map snd (x_outs c') = map (fun bs => start_frame (Some (a_ctype a)) ++ concat bs ++ stop_frame) files /\
    subseq (map data_frame (fit a (payloads W))) (concat files).
Proof. exact posted_in_files. Qed.
Print Assumptions C76_posted_is_in_files.

(** And a reader gets it, from as many threads as there are. *)
Theorem C76_posted_is_read_back : forall e a K c c' o hr r,
  reach e a K c -> (forall id, tame (SpecCapture.received id K)) -> shutdown e c = Go c' ->
  reader_init o (file_reader_rdwr hr) = Some r -> ro_cts o = [] \/ In (a_ctype a) (ro_cts o) ->
  capture_highwater a <= ro_max o + 4 ->
  exists files, Forall2 (fun out ds => reads_as r (snd out) ds) (x_outs c') files /\
    forall id before all, posted K c id before all -> Forall ordinary (payloads all) ->
      exists W, in_queue_order before W all /\ subseq (fit a (payloads W)) (concat files).
Proof. exact posted_read_back. Qed.
Print Assumptions C76_posted_is_read_back.

(** ** A case *)
(** Two producers; one payload is still in a store buffer when the thread looks
    at the queues, one comes after the shutdown request. *)
Definition pt_w : writer := mk_writer ws_opening [ex_ct; [x61]] dl_rw None None None None 1024.
Definition pt_t : iothr := mk_iothr (configured 1024 ex_opts) pt_w false 0 [] 0.
Definition pt_reads (p : bytes) : list (sysev + ans) := map inr (dl_reads p).
Definition pt_H : history := weave (iothr_life 10 10 pt_t)
  (ins 0 ex_a ++ [clock1 10; ok1; ok1] ++ pt_reads (ctl_payload T_ACCEPT [ex_ct]) ++ [ok1] ++
   [inl (S_insert 1 ex_b)] ++ [bool1 false; got ex_a; none1] ++ [inl (S_publish 1)] ++ ins 0 ex_c ++
   [inl S_shutdown; bool1 true; got ex_c; got ex_b; ok1; unit1; unit1] ++ ins 0 ex_d ++ [got ex_d; none1; none1; none1; ok1; unit1; unit1; ok1] ++
   pt_reads (ctl_payload T_FINISH []) ++ [ok1; ok1; none1; none1]).
Definition pt_before : list (nat * entry) := [(0%nat, ex_a); (1%nat, ex_b); (0%nat, ex_c)].
Definition pt_all : list (nat * entry) := pt_before ++ [(0%nat, ex_d)].
Definition pt_sent : bytes := ready_frame [ex_ct; [x61]] ++ start_frame (Some ex_ct) ++ datas [[x01]; [x03]; [x02]; [x04]] ++ stop_frame.
Definition pt_K : list ev :=
  [E_accept 1] ++ map (fun b => E_data 1 [b]) (firstn 60 pt_sent) ++ [E_accept 2; E_data 2 (firstn 40 ex_s2); E_sigusr1] ++
  map (fun b => E_data 1 [b]) (skipn 60 pt_sent).
Definition pt_c : ctx := match play0 ex_env ex_args pt_K with Some c => c | None => mk_ctx [] false 0 0 0 false [] [] [] end.
Definition pt_c' : ctx := match shutdown ex_env pt_c with Go c => c | _ => pt_c end.

Example C76_posted : reach ex_env ex_args pt_K pt_c /\ posted pt_K pt_c 1 pt_before pt_all /\ Forall ordinary (payloads pt_all).
Proof.
  split; [apply play0_sound; vm_compute; reflexivity|]. split; [|repeat constructor; vm_compute; congruence].
  assert (PA : forall s, sys_run 4 sys_init (firstn 16 pt_H) = Some s -> forall i, s_pending s i = []).
  { intros s E. vm_compute in E. assert (EQ : forall a b : sys, Some a = Some b -> a = b) by congruence. apply EQ in E. rewrite <- E. intros [|[|i]]; reflexivity. }
  change pt_before with (SpecIothr.accepted (firstn 16 pt_H)) at 1. change pt_all with (SpecIothr.accepted pt_H).
  eapply (post_sys _ _ _ 1024 [ex_ct; [x61]] dl_rw pt_t 4 10 10 pt_H _ (firstn 16 pt_H) (skipn 17 pt_H)).
  - split; [repeat split|]. split; [vm_compute; intuition discriminate|]. exists 1024%nat, pt_w, (Some (configured 1024 ex_opts)).
    split; [apply Nat.lt_0_succ|]. split; [reflexivity|]. split; [eexists; reflexivity|]. vm_compute. reflexivity.
  - reflexivity.
  - split; [vm_compute; reflexivity|]. split; [|split; [discriminate|vm_compute; repeat constructor]].
    apply (follow_sound (iothr_life 10 10 pt_t) (map snd (thread_of pt_H))). vm_compute. reflexivity.
  - split; [vm_compute; repeat constructor|]. eexists (firstn 6 (thread_of pt_H)), 0%nat, (Some ex_ct), (skipn 7 (thread_of pt_H)).
    split; [vm_compute; reflexivity|]. vm_compute. intuition discriminate.
  - vm_compute. reflexivity.
  - vm_compute. intuition discriminate.
  - vm_compute. reflexivity.
  - apply PA. vm_compute. reflexivity.
  - split.
    + exists [], pt_sent. split; [vm_compute; reflexivity|]. exists []. vm_compute. reflexivity.
    + exists []. vm_compute. reflexivity.
Qed.
Example C76_case : stores (acts_of 1 (x_log pt_c)) = map data_frame [[x01]; [x03]; [x02]; [x04]] /\ shutdown ex_env pt_c = Go pt_c' /\
  map snd (x_outs pt_c') = [capture_file ex_ct [[x01]]; capture_file ex_ct [[x03]; [x02]; [x04]]].
Proof. split; [vm_compute; reflexivity|]. split; vm_compute; reflexivity. Qed.
Example C76_tame : forall id, tame (SpecCapture.received id pt_K).
Proof.
  assert (T : forall cts ds, lenN (ready_frame cts) < 512 -> Forall (fun d => data_ok d /\ lenN d < 2 ^ 32 - 4) ds ->
    tame (ready_frame cts ++ start_frame (Some ex_ct) ++ datas ds ++ stop_frame)).
  { intros cts ds L F. rewrite <- (app_nil_r stop_frame). apply session_tame; [exact F|exact L|reflexivity|apply tame_nil]. }
  intros [|[|[|id]]]; [apply tame_nil| | |].
  - replace (SpecCapture.received 1 pt_K) with pt_sent by (vm_compute; reflexivity). apply T; [reflexivity|].
    repeat constructor; vm_compute; intuition discriminate.
  - apply (tame_prefix _ (skipn 40 ex_s2)). replace (SpecCapture.received 2 pt_K ++ skipn 40 ex_s2) with ex_s2 by (vm_compute; reflexivity).
    apply T; [reflexivity|]. repeat constructor; vm_compute; intuition discriminate.
  - apply tame_nil.
Qed.

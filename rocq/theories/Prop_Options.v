(** C64: options objects and creation of readers and writers. *)
From Verif Require Import Bytes Spec SpecTrace SpecStream SpecControl Io Control Rdwr Writer Reader Api OptApi SpecApi SpecOptions
  SpecReader Io_proofs Writer2_proofs Reader4_proofs Options_proofs Prop_Writer Prop_Reader.
Local Open Scope N_scope.

(** Which option calls are accepted, and what they leave behind: a refused
    call changes nothing. *)
Theorem C64_writer_options : forall ks,
  do_wopts [] ks = (map (fun k => res_of (type_fits k)) ks, filter type_fits ks).
Proof. intro ks. exact (wopts_eq ks []). Qed.
Print Assumptions C64_writer_options.

Theorem C64_reader_options : forall ks,
  do_ropts reader_options_default ks =
  (map (fun k => res_of (opt_fits k)) ks, mk_ropt (types_of ks) (limit_of ks)).
Proof. exact reader_options_meaning. Qed.
Print Assumptions C64_reader_options.

Example C64_options_nonvacuous :
  do_wopts [] [[x61]; repeat x00 257; repeat x00 256] =
    ([r_success; r_failure; r_success], [[x61]; repeat x00 256]) /\
  do_ropts reader_options_default [OMax 511; OAdd [x61]; OMax 512; OMax 4294967295; OMax 4294967294; OAdd (repeat x00 257)] =
    ([r_failure; r_success; r_success; r_failure; r_success; r_failure], mk_ropt [[x61]] 4294967294).
Proof. vm_compute. split; reflexivity. Qed.

(** Objects are created exactly for transports with the needed method. *)
Theorem C64_init : forall iovm cts o rw,
  (rw_has_write rw = true <-> exists w, writer_init iovm cts rw = Some w) /\
  (rw_has_read rw = true <-> exists r, reader_init o rw = Some r).
Proof.
  intros iovm cts o rw. unfold writer_init, reader_init.
  destruct (rw_has_write rw), (rw_has_read rw); cbn; repeat split; intro H; try (eexists; reflexivity);
    try reflexivity; try discriminate H; destruct H as [x H]; discriminate H.
Qed.
Print Assumptions C64_init.

(** Whatever the history of option calls, a writer to a file-like transport
    writes the stream announcing the first accepted content type. *)
Theorem C64_options_to_stream : forall ks iovm rw w cs,
  fresh_rdwr rw -> rw_has_read rw = false -> (0 < iovm)%nat -> Forall wcall_ok cs ->
  writer_init iovm (snd (do_wopts [] ks)) rw = Some w ->
  let '(xs, st, ss) := u_steps (filter type_fits ks) U_fresh [] cs in
  exec sink [] (writer_life w cs) =
  match st with
  | U_open => (add_last ss stop_frame, Done (xs, r_success))
  | _ => (ss, Done (xs, r_failure))
  end.
Proof.
  intros ks iovm rw w cs FR HR IO OK HI. rewrite wopts_eq in HI. cbn [snd app] in HI.
  exact (C12_unidirectional_format iovm (filter type_fits ks) rw w cs FR HR IO (types_fit ks) OK HI).
Qed.
Print Assumptions C64_options_to_stream.

(** Whatever the history of option calls, the reader never asks for more than
    the last accepted maximum. *)
Theorem C64_options_bound_reads : forall ks rw r fuel cs tr out h n a,
  reader_init (snd (do_ropts reader_options_default ks)) rw = Some r ->
  runs (reader_life fuel r cs) tr out -> In (QRead h n, a) tr -> n <= limit_of ks.
Proof.
  intros ks rw r fuel cs tr out h n a HI R IN. rewrite reader_options_meaning in HI. cbn [snd] in HI.
  pose proof (C20_reads_bounded_partial _ _ _ _ _ _ _ _ _ _ HI R IN) as B. cbn [ro_max] in B.
  pose proof (limit_range ks). lia.
Qed.
Print Assumptions C64_options_bound_reads.

Example C64_stream_nonvacuous : exists w,
  writer_init 1024 (snd (do_wopts [] [repeat x00 257; [x62]])) ex_file = Some w /\
  fst (exec sink [] (writer_life w [WWrite [x01]])) = [start_frame (Some [x62]) ++ be32 1 ++ [x01] ++ stop_frame].
Proof. eexists. split; vm_compute; reflexivity. Qed.

(** Refuted: "a writer whose options were accepted can be opened".  Two
    accepted content types too long together for one control frame. *)
Theorem C64_accepted_options_usable_refuted : exists ks,
  fst (do_wopts [] ks) = [r_success; r_success] /\ ~ fits true T_READY (snd (do_wopts [] ks)).
Proof.
  exists [repeat x61 241; repeat x62 244]. split; [vm_compute; reflexivity|].
  intros [_ H]. vm_compute in H. contradiction.
Qed.
Print Assumptions C64_accepted_options_usable_refuted.

(** Such a writer on a bi-directional transport never sends a byte and reports
    failure for every open and every write, whatever the transport does. *)
Theorem C64_unsendable_types : forall iovm cts rw w cs tr o,
  rw_has_read rw = true -> writer_init iovm cts rw = Some w ->
  ~ fits true T_READY cts -> runs (writer_life w cs) tr o ->
  (forall h iov a, ~ In (QWrite h iov, a) tr) /\
  match o with
  | Done (xs, x) => x <> r_success /\ Forall2 (fun c x => c = WOpen \/ wpayloads c <> [] -> x <> r_success) cs xs
  | Stuck _ => False
  | Cut => True
  end.
Proof. exact mute_life. Qed.
Print Assumptions C64_unsendable_types.

Example C64_unsendable_nonvacuous : exists w tr,
  writer_init 1024 [repeat x61 241; repeat x62 244] ex_sock = Some w /\
  runs (writer_life w [WOpen; WWrite [x01]]) tr (Done ([r_failure; r_failure], r_failure)) /\ length tr = 3%nat.
Proof.
  eexists. eexists. split; [reflexivity|]. split.
  - apply follow_sound with (l := [ok1; ok1; ok1]). vm_compute. reflexivity.
  - reflexivity.
Qed.

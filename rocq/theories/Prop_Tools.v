(** C50, C51, C62, C63: fstrm_dump and fstrm_replay. *)
From Verif Require Import Bytes Spec Io Io_proofs SpecTrace SpecStream Control Rdwr Reader Writer Api SpecApi SpecReader SpecFile File
  Misc Tools SpecTools Net SpecNet Reader_proofs Tools_proofs Tools2_proofs Tools3_proofs Tools4_proofs Tools5_proofs Prop_Writer Prop_Reader Prop_Net.
Local Open Scope N_scope.

(** ** Concrete objects for the examples *)
(** START "a", two data frames with a READY frame between them, STOP. *)
Definition ex_in : bytes :=
  ctl_frame T_START [[x61]] ++ data_frame [x01; x02] ++ ctl_frame T_READY [[x62]] ++ data_frame [x0a] ++ stop_frame.
Example ex_in_stream : stream_file ex_in [[x61]] [[x01; x02]; [x0a]] E_stop.
Proof.
  split; [split; [unfold known_type; tauto|repeat constructor; vm_compute; discriminate|vm_compute; discriminate|intros _; cbn; lia|intros [H|H]; discriminate H]|].
  eexists _, []. split; [reflexivity|].
  apply p_data; [vm_compute; split; [discriminate|reflexivity]|vm_compute; discriminate|].
  apply p_skip; [split; [unfold known_type; tauto|repeat constructor; vm_compute; discriminate|vm_compute; discriminate|intro H; discriminate H|intros [H|H]; discriminate H]|discriminate|].
  apply p_data; [vm_compute; split; [discriminate|reflexivity]|vm_compute; discriminate|].
  rewrite <- (app_nil_r stop_frame). apply p_stop.
Qed.
(** The same, cut in the middle of the last data frame. *)
Definition ex_cut : bytes :=
  ctl_frame T_START [[x61]] ++ data_frame [x01; x02] ++ be32 1.
Example ex_cut_stream : stream_file ex_cut [[x61]] [[x01; x02]] E_eof.
Proof.
  split; [split; [unfold known_type; tauto|repeat constructor; vm_compute; discriminate|vm_compute; discriminate|intros _; cbn; lia|intros [H|H]; discriminate H]|].
  eexists _, []. split; [reflexivity|].
  apply p_data; [vm_compute; split; [discriminate|reflexivity]|vm_compute; discriminate|].
  rewrite <- (app_nil_r (be32 1)). apply p_eof_data; vm_compute; congruence.
Qed.
(** A frame of more than 1 MiB. *)
Definition ex_huge : bytes := ctl_frame T_START [] ++ be32 1048577.
Example ex_huge_stream : stream_file ex_huge [] [] E_oversize.
Proof.
  split; [split; [unfold known_type; tauto|constructor|vm_compute; discriminate|intros _; cbn; lia|intros [H|H]; discriminate H]|].
  exists (be32 1048577), []. split; [reflexivity|]. rewrite <- (app_nil_r (be32 1048577)). apply p_over; vm_compute; congruence.
Qed.

(** ** C50: dumping to a file *)
(** The new file starts with the same START, carries the same frames and ends
    with STOP; they are also printed; the input is not modified. *)
Theorem C50_dump_to_file : forall fuel iovm d st ds e d0,
  stream_file d st ds e -> e <> E_oversize -> (length d <= fuel)%nat -> (0 < iovm)%nat ->
  exists f out,
    exec file_ops (mk_cfile true d0 None) (on_files 0 [input d] (dump_main fuel iovm true)) =
      (mk_cfile true out None, Done ([f], (dump_status e, printed ds))) /\
    f_data f = d /\ stream_file out st ds E_stop /\ out = ctl_frame T_START st ++ datas ds ++ stop_frame.
Proof.
  intros fuel iovm d st ds e d0 SF NO L HI. destruct (dump_file fuel iovm d st ds e SF L HI d0 NO) as (f & E & D).
  exists f, (ctl_frame T_START st ++ datas ds ++ stop_frame). split; [exact E|]. split; [exact D|].
  split; [|reflexivity]. rewrite <- (st_whole d st ds e SF). exact (whole_file d st ds e SF).
Qed.
Print Assumptions C50_dump_to_file.

Example C50_dump_nonvacuous :
  snd (exec file_ops (mk_cfile true [x00] None) (on_files 0 [input ex_in] (dump_main 100 1024 true))) <> Cut /\
  f_data (fst (exec file_ops (mk_cfile true [x00] None) (on_files 0 [input ex_in] (dump_main 100 1024 true)))) =
    ctl_frame T_START [[x61]] ++ data_frame [x01; x02] ++ data_frame [x0a] ++ stop_frame.
Proof. split; vm_compute; [discriminate|reflexivity]. Qed.

(** Dumping the result again gives the same file. *)
Theorem C50_dump_is_idempotent : forall fuel iovm d st ds e d0 d1,
  stream_file d st ds e -> e <> E_oversize -> (length d <= fuel)%nat -> (0 < iovm)%nat ->
  let out := f_data (fst (exec file_ops (mk_cfile true d0 None) (on_files 0 [input d] (dump_main fuel iovm true)))) in
  (length out <= fuel)%nat ->
  f_data (fst (exec file_ops (mk_cfile true d1 None) (on_files 0 [input out] (dump_main fuel iovm true)))) = out.
Proof.
  intros fuel iovm d st ds e d0 d1 SF NO L HI. destruct (C50_dump_to_file fuel iovm d st ds e d0 SF NO L HI) as (f & out & E & _ & SF2 & EO).
  cbv zeta. rewrite E. cbn [fst f_data]. intro L2.
  destruct (C50_dump_to_file fuel iovm out st ds E_stop d1 SF2 ltac:(discriminate) L2 HI) as (f2 & out2 & E2 & _ & _ & EO2).
  rewrite E2. cbn [fst f_data]. congruence.
Qed.
Print Assumptions C50_dump_is_idempotent.

(** Whatever happens to the output: failures, a crash at any point.  What is
    there is an initial part of the same stream; a successful exit means all of
    it was written. *)
Theorem C50_dump_any_output : forall fuel iovm d st ds e tr o ss,
  stream_file d st ds e -> e <> E_oversize -> (length d <= fuel)%nat -> (0 < iovm)%nat ->
  runs (on_files 0 [input d] (dump_main fuel iovm true)) tr o -> emits tr ss ->
  (ss = [] \/ exists s, ss = [s] /\ prefix s (ctl_frame T_START st ++ datas ds ++ stop_frame)) /\
  match o with
  | Done (fs, (ok, out)) => map f_data fs = [d] /\ (exists n, out = printed (firstn n ds)) /\
      (ok = true -> dump_status e = true /\ out = printed ds /\
         delivered tr = [ctl_frame T_START st ++ datas ds ++ stop_frame])
  | Stuck _ => False
  | Cut => True
  end.
Proof. intros fuel iovm d st ds e tr o ss SF NO L HI R E. exact (dump_any fuel iovm d st ds e SF L HI tr o ss NO R E). Qed.
Print Assumptions C50_dump_any_output.

(** A write error at the second frame: failure, and the first is there. *)
Example C50_dump_any_nonvacuous : exists tr fs,
  runs (on_files 0 [input ex_in] (dump_main 100 1024 true)) tr (Done (fs, (false, printed [[x01; x02]; [x0a]]))) /\
  delivered tr = [ctl_frame T_START [[x61]] ++ data_frame [x01; x02]].
Proof.
  eexists _, _. split.
  - apply follow_sound with (l := [ok1; ok1; ok1; fail1; ok1; ok1]). vm_compute. reflexivity.
  - vm_compute. reflexivity.
Qed.

(** Without an output file: the frames are printed. *)
Theorem C50_dump_prints : forall fuel iovm d st ds e tr o,
  stream_file d st ds e -> e <> E_oversize -> (length d <= fuel)%nat ->
  runs (on_files 0 [input d] (dump_main fuel iovm false)) tr o ->
  tr = [] /\ exists f, o = Done ([f], (dump_status e, printed ds)) /\ f_data f = d.
Proof.
  intros fuel iovm d st ds e tr o SF NO L R. pose proof (dump_stdout d st ds e fuel iovm SF L) as S.
  assert (oversize e = false) as OV by (destruct e; congruence || reflexivity). rewrite OV in S.
  destruct (sim_runs _ _ _ S _ _ R) as (o' & R' & M). inversion R'; subst. split; [reflexivity|].
  destruct o as [[fs y]| |]; try contradiction. destruct M as [M1 M2]. cbn [fst snd] in M1, M2. subst y.
  destruct fs as [|f [|]]; try discriminate M1. injection M1 as M1. exists f. auto.
Qed.
Print Assumptions C50_dump_prints.

(** A file that does not begin with a well-formed START frame is refused, and
    nothing is written. *)
Theorem C50_dump_refuses_other_files : forall fuel iovm d output tr o,
  no_stream d -> runs (on_files 0 [input d] (dump_main fuel iovm output)) tr o ->
  tr = [] /\ exists fs, o = Done (fs, (false, [])).
Proof.
  intros fuel iovm d output tr o NS R. destruct (sim_runs _ _ _ (dump_bad d fuel iovm output NS) _ _ R) as (o' & R' & M).
  inversion R'; subst. split; [reflexivity|]. destruct o as [[fs y]| |]; try contradiction. destruct M as [_ M]. cbn in M. subst y. eauto.
Qed.
Print Assumptions C50_dump_refuses_other_files.

(** Every file is of one of these kinds. *)
Theorem C50_every_file_is_classified : forall d, no_stream d \/ exists st ds e, stream_file d st ds e.
Proof. exact classify. Qed.
Print Assumptions C50_every_file_is_classified.

(** ** C50: replaying files *)
(** To a reader at the other end of a connection: it receives the frames of the
    matching files, in order, and a clean end. *)
Theorem C50_replay_to_reader : forall fuel iovm ct files dss w o rwr r cap fuel2 m (early : bool),
  Forall2 (offers ct) files dss -> Forall (fun d => (length d <= fuel)%nat) files ->
  pair_ok iovm [ct] (socket_rdwr 0) w o rwr r -> (1 <= cap)%nat -> (ro_cts o = [] \/ In ct (ro_cts o)) ->
  Forall (fun p => lenN p <= ro_max o) (concat dss) -> (length (datas (concat dss) ++ stop_frame) < fuel2)%nat ->
  exists fs, map f_data fs = files /\
    always_ends cap
      (connect (on_files 1 (map input files) (replay_main fuel iovm ct (length files)))
               (reader_life fuel2 r ((if early then [ROpen] else []) ++ repeat RRead (length (concat dss) + 1 + m))))
      (mk_net (PRet (fs, true))
              (PRet ((if early then [(r_success, None)] else []) ++
                     map (fun d => (r_success, Some d)) (concat dss) ++ (r_stop, None) :: repeat (r_failure, None) m, r_success))
              [] [] true true).
Proof. exact replay_peer. Qed.
Print Assumptions C50_replay_to_reader.

(** Three files: a stream of type "a", one of another type, a truncated one. *)
Definition ex_other : bytes := ctl_frame T_START [[x62]] ++ data_frame [x05] ++ stop_frame.
Example ex_offers : Forall2 (offers [x61]) [ex_in; ex_other; ex_cut] [[[x01; x02]; [x0a]]; []; [[x01; x02]]].
Proof.
  constructor; [|constructor; [|constructor; [|constructor]]].
  - eapply of_match; [exact ex_in_stream| |discriminate]. right; right. exists [x61]. split; [left; reflexivity|reflexivity].
  - apply of_mismatch with (st := [[x62]]) (ds := [[x05]]) (e := E_stop).
    + split; [split; [unfold known_type; tauto|repeat constructor; vm_compute; discriminate|vm_compute; discriminate|intros _; cbn; lia|intros [H|H]; discriminate H]|].
      eexists _, []. split; [reflexivity|]. apply p_data; [vm_compute; split; [discriminate|reflexivity]|vm_compute; discriminate|].
      rewrite <- (app_nil_r stop_frame). apply p_stop.
    + intros [H|[H|(c & [<-|[]] & I)]]; [discriminate H..|discriminate I].
  - eapply of_match; [exact ex_cut_stream| |discriminate]. right; right. exists [x61]. split; [left; reflexivity|reflexivity].
Qed.
Example C50_replay_nonvacuous : let r := mk_r (mk_ropt [[x61]] 1000) ex_sock in
  pair_ok 1024 [[x61]] (socket_rdwr 0) (mk_writer ws_opening [[x61]] (socket_rdwr 0) None None None None 1024)
     (mk_ropt [[x61]] 1000) ex_sock r /\
  Forall (fun p => lenN p <= 1000) (concat [[[x01; x02]; [x0a]]; []; [[x01; x02]]]).
Proof.
  split; [|repeat constructor; vm_compute; discriminate].
  split; try reflexivity; try apply Nat.lt_0_succ; try solve_fits; repeat split.
Qed.

(** Whatever the connection does: nothing goes out but streams of the content
    type given carrying frames of the files, in order; a successful exit means
    that all were passed to the transport and accepted. *)
Theorem C50_replay_any_connection : forall fuel iovm ct files dss tr o ss,
  Forall2 (offers ct) files dss -> Forall (fun d => (length d <= fuel)%nat) files -> lenN ct <= CT_MAX -> (0 < iovm)%nat ->
  runs (on_files 1 (map input files) (replay_main fuel iovm ct (length files))) tr o -> emits tr ss ->
  (exists full sent, Forall2 prefix ss full /\ Forall2 (writer_session true [ct]) full sent /\ subseq (concat sent) (concat dss)) /\
  match o with
  | Done (fs, ok) => map f_data fs = files /\
      (ok = true -> exists sent, Forall2 (writer_session true [ct]) (delivered tr) sent /\ concat sent = concat dss)
  | Stuck _ => False
  | Cut => True
  end.
Proof. intros fuel iovm ct files dss tr o ss OF HF HC HI. exact (replay_any fuel iovm ct files dss OF HF HC HI tr o ss). Qed.
Print Assumptions C50_replay_any_connection.

(** ** C51: success and the end of the input *)
(** Refuted: wherever a stream file is cut after its START frame, the dump
    exits with success, and its output ends with STOP. *)
Theorem C51_truncation_goes_unnoticed : forall fuel iovm st ds d d0,
  ctl_ok T_START st -> Forall (fun p => data_ok p /\ lenN p <= DEFAULT_MAX) ds ->
  prefix d (datas ds ++ stop_frame) -> (length (ctl_frame T_START st ++ d) <= fuel)%nat -> (0 < iovm)%nat ->
  exists f k, (d <> datas ds ++ stop_frame -> stream_file (ctl_frame T_START st ++ d) st (firstn k ds) E_eof) /\
    exec file_ops (mk_cfile true d0 None) (on_files 0 [input (ctl_frame T_START st ++ d)] (dump_main fuel iovm true)) =
    (mk_cfile true (ctl_frame T_START st ++ datas (firstn k ds) ++ stop_frame) None, Done ([f], (true, printed (firstn k ds)))).
Proof. exact dump_truncated. Qed.
Print Assumptions C51_truncation_goes_unnoticed.

Theorem C51_success_means_stop_refuted : exists fuel iovm d f out,
  (forall st ds, ~ stream_file d st ds E_stop) /\
  exec file_ops (mk_cfile true [] None) (on_files 0 [input d] (dump_main fuel iovm true)) =
    (mk_cfile true (ctl_frame T_START [[x61]] ++ datas [[x01; x02]] ++ stop_frame) None, Done ([f], (true, out))).
Proof.
  exists 100%nat, 1024%nat, ex_cut. eexists _, _. split; [|vm_compute; reflexivity].
  intros st ds H.
  pose proof (C50_dump_to_file 100 1024 ex_cut st ds E_stop [] H ltac:(discriminate) ltac:(vm_compute; lia) ltac:(lia)) as (f & out & E & _ & _ & EO).
  destruct H as (K & inp & rest & EI & P).
  assert (L : (length (stop_frame) <= length inp)%nat).
  { clear - P. remember E_stop as e eqn:Ee. induction P; try discriminate Ee; try (rewrite app_length; specialize (IHP Ee); lia). rewrite app_length. lia. }
  vm_compute in E. injection E as E _. rewrite EO in E.
  (* the output is longer than the input *)
  assert (LE : length ex_cut = 31%nat) by (vm_compute; reflexivity).
  assert (LO : length (ctl_frame T_START st ++ datas ds ++ stop_frame) = 39%nat) by (rewrite <- E; vm_compute; reflexivity).
  assert (G : (length (datas ds ++ stop_frame) <= length inp)%nat).
  { clear - P. remember E_stop as e eqn:Ee. induction P; try discriminate Ee.
    - specialize (IHP Ee). change (datas (p :: ds)) with (data_frame p ++ datas ds). rewrite <- app_assoc, !app_length in *. lia.
    - specialize (IHP Ee). rewrite !app_length in *. lia.
    - rewrite !app_length. change (length (datas [])) with 0%nat. lia. }
  rewrite EI in LE. rewrite app_length in LE, LO. lia.
Qed.
Print Assumptions C51_success_means_stop_refuted.

(** What is true: success means a well-formed START followed by whole frames up
    to a STOP or to the end of the input, all of it copied. *)
Theorem C51_success_partial : forall fuel iovm d tr fs out,
  (length d <= fuel)%nat -> (0 < iovm)%nat ->
  runs (on_files 0 [input d] (dump_main fuel iovm true)) tr (Done (fs, (true, out))) ->
  exists st ds e, stream_file d st ds e /\ (e = E_stop \/ e = E_eof) /\
    out = printed ds /\ delivered tr = [ctl_frame T_START st ++ datas ds ++ stop_frame].
Proof. exact dump_success. Qed.
Print Assumptions C51_success_partial.

Example C51_success_nonvacuous : exists tr fs,
  runs (on_files 0 [input ex_in] (dump_main 100 1024 true)) tr (Done (fs, (true, printed [[x01; x02]; [x0a]]))).
Proof. eexists _, _. apply follow_sound with (l := [ok1; ok1; ok1; ok1; ok1; ok1; ok1]). vm_compute. reflexivity. Qed.

(** Exactly the files that are dumped with success, to a file that takes
    everything and to the standard output. *)
Theorem C51_success_exactly : forall fuel iovm d d0 output,
  (length d <= fuel)%nat -> (0 < iovm)%nat ->
  (exists fs out, snd (exec file_ops (mk_cfile true d0 None) (on_files 0 [input d] (dump_main fuel iovm output))) = Done (fs, (true, out))) <->
  (exists st ds e, stream_file d st ds e /\ (e = E_stop \/ e = E_eof)).
Proof. exact dump_success_iff. Qed.
Print Assumptions C51_success_exactly.

Example C51_exactly_nonvacuous :
  (exists fs out, snd (exec file_ops (mk_cfile true [] None) (on_files 0 [input ex_in] (dump_main 100 1024 false))) = Done (fs, (true, out))) /\
  (exists fs out, snd (exec file_ops (mk_cfile true [] None) (on_files 0 [input (firstn 5 ex_in)] (dump_main 100 1024 true))) = Done (fs, (false, out))).
Proof. split; eexists _, _; vm_compute; reflexivity. Qed.

(** ** C62: the exit status of replay *)
(** Refuted: a file of another type, a truncated file, and a connection that
    breaks before the STOP frame is sent all go unnoticed. *)
Theorem C62_replay_status_refuted : exists fuel iovm ct files tr fs,
  (exists d st ds, In d files /\ stream_file d st ds E_stop /\ ds <> [] /\ ~ start_accepted [ct] st) /\
  runs (on_files 1 (map input files) (replay_main fuel iovm ct (length files))) tr (Done (fs, true)) /\
  delivered tr = [ready_frame [ct] ++ start_frame (Some ct) ++ datas [[x01; x02]; [x0a]; [x01; x02]]] /\
  In (QWrite 0 [stop_frame], fail1) tr.
Proof.
  exists 100%nat, 1024%nat, [x61], [ex_in; ex_other; ex_cut].
  pose (acc := ctl_frame T_ACCEPT [[x61]]).
  eexists _, _. split; [|split].
  - exists ex_other, [[x62]], [[x05]]. split; [right; left; reflexivity|].
    split; [|split; [discriminate|]].
    + split; [split; [unfold known_type; tauto|repeat constructor; vm_compute; discriminate|vm_compute; discriminate|intros _; cbn; lia|intros [H|H]; discriminate H]|].
      eexists _, []. split; [reflexivity|]. apply p_data; [vm_compute; split; [discriminate|reflexivity]|vm_compute; discriminate|].
      rewrite <- (app_nil_r stop_frame). apply p_stop.
    + intros [H|[H|(c & [<-|[]] & I)]]; [discriminate H..|discriminate I].
  - apply follow_sound with (l := [ok1; ok1; ARead r_success (be32 0); ARead r_success (be32 (lenN acc - 8));
       ARead r_success (skipn 8 acc); ok1; ok1; ok1; ok1; fail1; ok1; ok1]). vm_compute. reflexivity.
  - split; vm_compute; [reflexivity|]. do 9 right. left. reflexivity.
Qed.
Print Assumptions C62_replay_status_refuted.

(** What is true: success means that every frame offered by the files was
    accepted by the transport, within well-formed sessions. *)
Theorem C62_replay_status_partial : forall fuel iovm ct files dss tr fs,
  Forall2 (offers ct) files dss -> Forall (fun d => (length d <= fuel)%nat) files -> lenN ct <= CT_MAX -> (0 < iovm)%nat ->
  runs (on_files 1 (map input files) (replay_main fuel iovm ct (length files))) tr (Done (fs, true)) ->
  exists sent, Forall2 (writer_session true [ct]) (delivered tr) sent /\ concat sent = concat dss.
Proof.
  intros fuel iovm ct files dss tr fs OF HF HC HI R. destruct (some_emits tr) as [ss E].
  destruct (replay_any fuel iovm ct files dss OF HF HC HI tr _ ss R E) as [_ [_ K]]. exact (K eq_refl).
Qed.
Print Assumptions C62_replay_status_partial.

(** Exactly: whatever the connection does, replay does on it what a program does
    that opens the writer, writes the offered frames one by one, gives up with
    a failure at the first that is refused, and otherwise closes and succeeds
    without looking at the result of close. *)
Theorem C62_replay_exactly : forall ct files dss fuel iovm w,
  Forall2 (offers ct) files dss -> Forall (fun d => (length d <= fuel)%nat) files -> lenN ct <= CT_MAX ->
  writer_init iovm [ct] (socket_rdwr 0) = Some w ->
  sim (fun x y => map f_data (fst x) = files /\ snd x = y)
    (on_files 1 (map input files) (replay_main fuel iovm ct (length files))) (hasty_copy w (concat dss)).
Proof. exact replay_sim. Qed.
Print Assumptions C62_replay_exactly.
Example C62_exactly_nonvacuous : exists w, writer_init 1024 [[x61]] (socket_rdwr 0) = Some w /\
  Forall2 (offers [x61]) [ex_in; ex_other; ex_cut] [[[x01; x02]; [x0a]]; []; [[x01; x02]]].
Proof. eexists. split; [reflexivity|exact ex_offers]. Qed.

(** ** C63: undefined behaviour in dump *)
(** Refuted: a file with a frame above the limit. *)
Theorem C63_oversize_is_undefined : forall fuel iovm d st ds d0,
  stream_file d st ds E_oversize -> (length d <= fuel)%nat -> (0 < iovm)%nat ->
  snd (exec file_ops (mk_cfile true d0 None) (on_files 0 [input d] (dump_main fuel iovm true))) = Stuck (FUb ub_uninit) /\
  snd (exec file_ops (mk_cfile true d0 None) (on_files 0 [input d] (dump_main fuel iovm false))) = Stuck (FUb ub_uninit).
Proof.
  intros fuel iovm d st ds d0 SF L HI. split; [exact (dump_over fuel iovm d st ds E_oversize SF L HI d0 eq_refl)|].
  destruct (sim_exec _ file_ops _ _ (dump_stdout d st ds E_oversize fuel iovm SF L) (mk_cfile true d0 None)) as [_ X]. cbn [oversize exec snd] in X.
  destruct (snd (exec file_ops (mk_cfile true d0 None) (on_files 0 [input d] (dump_main fuel iovm false)))); try contradiction. rewrite X. reflexivity.
Qed.
Print Assumptions C63_oversize_is_undefined.
Example C63_oversize_nonvacuous : stream_file ex_huge [] [] E_oversize /\ (length ex_huge <= 100)%nat.
Proof. split; [exact ex_huge_stream|vm_compute; lia]. Qed.

Theorem C63_dump_is_defined_refuted : exists fuel iovm d,
  (length d <= fuel)%nat /\ (0 < iovm)%nat /\
  snd (exec file_ops (mk_cfile true [] None) (on_files 0 [input d] (dump_main fuel iovm true))) = Stuck (FUb ub_uninit).
Proof. exists 100%nat, 1024%nat, ex_huge. split; [vm_compute; lia|]. split; [lia|]. vm_compute. reflexivity. Qed.
Print Assumptions C63_dump_is_defined_refuted.

(** What is true: any other file, any behaviour of the output. *)
Theorem C63_dump_is_defined_partial : forall fuel iovm d tr o output,
  (forall st ds, ~ stream_file d st ds E_oversize) -> (length d <= fuel)%nat -> (0 < iovm)%nat ->
  runs (on_files 0 [input d] (dump_main fuel iovm output)) tr o -> forall f, o <> Stuck f.
Proof.
  intros fuel iovm d tr o output NO L HI R f ->. destruct (classify d) as [NS|(st & ds & e & SF)].
  { destruct (C50_dump_refuses_other_files _ _ _ _ _ _ NS R) as [_ (fs & E)]. discriminate E. }
  assert (NE : e <> E_oversize) by (intros ->; exact (NO st ds SF)).
  destruct output.
  - destruct (some_emits tr) as [ss E]. destruct (dump_any fuel iovm d st ds e SF L HI tr _ ss NE R E) as [_ []].
  - destruct (C50_dump_prints _ _ _ _ _ _ _ _ SF NE L R) as [_ (g & E & _)]. discriminate E.
Qed.
Print Assumptions C63_dump_is_defined_partial.

(** Exactly the files on which dump is undefined. *)
Theorem C63_dump_is_defined_exactly : forall fuel iovm d d0 output,
  (length d <= fuel)%nat -> (0 < iovm)%nat ->
  (exists f, snd (exec file_ops (mk_cfile true d0 None) (on_files 0 [input d] (dump_main fuel iovm output))) = Stuck f) <->
  (exists st ds, stream_file d st ds E_oversize).
Proof. exact dump_stuck_iff. Qed.
Print Assumptions C63_dump_is_defined_exactly.

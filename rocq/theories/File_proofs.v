(** Writers and readers on files. *)
From Verif Require Import Bytes Spec Bytes_proofs Io Io_proofs SpecTrace SpecStream
  Control Control_proofs Rdwr Rdwr_proofs Reader Writer Api SpecApi SpecReader SpecFile File
  Writer_proofs Writer2_proofs Reader_source_proofs Reader_proofs Reader3_proofs.
Ltac Zify.zify_post_hook ::= Z.div_mod_to_equations.
Local Open Scope N_scope.

(** ** The file as an accepting transport *)
Definition file_rep (d0 : bytes) (b : bool) (ss : list bytes) : cfile :=
  mk_cfile true (last ss d0) (if b then Some [] else None).

Lemma last_snoc {A} (l : list A) x d : last (l ++ [x]) d = x.
Proof. induction l as [|a l IH]; [reflexivity|]. cbn [app]. destruct l; [reflexivity|]. exact IH. Qed.

Lemma file_write_ok d iov : Forall (fun b => lenN b <> 0) iov ->
  file_op_write (mk_cfile true d (Some [])) iov = (mk_cfile true (d ++ concat iov) (Some []), r_success).
Proof.
  intro F. revert d. induction iov as [|b iov IH]; intro d; cbn.
  - rewrite app_nil_r. reflexivity.
  - inversion_clear F. destruct (lenN b =? 0) eqn:E; [lia|]. rewrite IH by assumption. rewrite app_assoc. reflexivity.
Qed.

Lemma iovs_ne ps : Forall (fun p => lenN p <> 0) ps -> Forall (fun b => lenN b <> 0) (frame_iovecs ps).
Proof. induction 1; cbn; auto. constructor; [discriminate|]. constructor; auto. Qed.

Lemma file_life iovm cts rw w cs d0 :
  fresh_rdwr rw -> rw_has_read rw = false -> (0 < iovm)%nat ->
  Forall (fun ct => lenN ct <= CT_MAX) cts -> Forall wcall_ok cs ->
  Forall (fun c => Forall (fun p => lenN p <> 0) (wpayloads c)) cs ->
  writer_init iovm cts rw = Some w ->
  let '(xs, st, ss) := u_steps cts U_fresh [] cs in
  exec file_ops (mk_cfile true d0 None) (writer_life w cs) =
  match st with
  | U_open => (mk_cfile true (last (add_last ss stop_frame) d0) None, Done (xs, r_success))
  | _ => (mk_cfile true (last ss d0) None, Done (xs, r_failure))
  end.
Proof.
  intros FR HR Hi F OK PK Hw.
  apply (acc_life cfile file_ops (file_rep d0) (fun ss => ss <> []) (fun iov => Forall (fun b => lenN b <> 0) iov)
     (fun p => lenN p <> 0)) with (iovm := iovm) (rw := rw); auto.
  - intros ss x. destruct ss; discriminate.
  - intros ss b NE. destruct ss as [|x ss _] using rev_ind; [congruence|]. rewrite add_last_snoc. destruct ss; discriminate.
  - intros h ss. cbn. unfold file_rep. rewrite last_snoc. reflexivity.
  - intros h ss iov NE OKi. cbn. unfold file_rep. rewrite file_write_ok by assumption.
    destruct ss as [|x ss _] using rev_ind; [congruence|]. rewrite add_last_snoc, !last_snoc. reflexivity.
  - intros t cts0. repeat constructor. discriminate.
  - apply iovs_ne.
Qed.

(** What the last session holds. *)
Definition kept_rel (cts : list bytes) (s : ustate * list bytes) (st : ustate) (ss : list bytes) : Prop :=
  fst s = st /\
  match st with
  | U_fresh => ss = []
  | U_open => exists pre, ss = pre ++ [start_frame (hd_error cts) ++ datas (snd s)]
  | U_closed => exists pre, ss = pre ++ [start_frame (hd_error cts) ++ datas (snd s) ++ stop_frame]
  end.

Lemma datas_nil : datas [] = [].
Proof. reflexivity. Qed.

Lemma kept_step_rel cts s st ss c : kept_rel cts s st ss ->
  let '(_, st', ss') := u_step cts st ss c in kept_rel cts (kept_step s c) st' ss'.
Proof.
  intros [E R]. destruct s as [st0 ds]. cbn [fst snd] in E. subst st0.
  assert (NEW : kept_rel cts (U_open, []) U_open (ss ++ [start_frame (hd_error cts)])).
  { split; [reflexivity|]. exists ss. cbn [snd]. rewrite datas_nil, app_nil_r. reflexivity. }
  assert (WR : forall ps, match match st with U_fresh => (U_open, ss ++ [start_frame (hd_error cts)]) | _ => (st, ss) end with
     | (st1, ss1) => match st1 with
         | U_closed => kept_rel cts (st, ds) st1 ss1
         | _ => kept_rel cts (U_open, (match st with U_fresh => [] | _ => ds end) ++ ps) U_open (add_last ss1 (datas ps))
         end end).
  { intro ps. destruct st; cbn [app].
    - split; [reflexivity|]. exists ss. rewrite add_last_snoc. reflexivity.
    - split; [reflexivity|]. destruct R as [pre ->]. exists pre. cbn [snd]. rewrite add_last_snoc, datas_app, app_assoc. reflexivity.
    - split; [reflexivity|]. exact R. }
  destruct c as [|p|ps| |t]; cbn [u_step kept_step wpayloads].
  - destruct st; cbn [u_open]; auto. split; auto.
  - specialize (WR [p]). destruct st; cbn [u_implicit u_open] in *; exact WR.
  - destruct ps as [|p ps]; [split; auto|]. specialize (WR (p :: ps)). destruct st; cbn [u_implicit u_open] in *; exact WR.
  - destruct st; cbn [fst snd]; [split; auto| |split; auto]. split; [reflexivity|]. destruct R as [pre ->]. exists pre.
    rewrite add_last_snoc, <- app_assoc. reflexivity.
  - destruct st; cbn [u_implicit u_open]; auto; split; auto.
Qed.

Lemma kept_steps_rel cts cs : forall s st ss, kept_rel cts s st ss ->
  let '(_, st', ss') := u_steps cts st ss cs in kept_rel cts (fold_left kept_step cs s) st' ss'.
Proof.
  induction cs as [|c cs IH]; intros s st ss R; cbn [u_steps fold_left]; [exact R|].
  pose proof (kept_step_rel cts s st ss c R) as R1. destruct (u_step cts st ss c) as [[x st1] ss1].
  specialize (IH _ _ _ R1). destruct (u_steps cts st1 ss1 cs) as [[xs st2] ss2]. exact IH.
Qed.

Lemma file_contents iovm cts h w cs d0 :
  (0 < iovm)%nat -> Forall (fun ct => lenN ct <= CT_MAX) cts -> Forall wcall_ok cs ->
  Forall (fun c => Forall (fun p => lenN p <> 0) (wpayloads c)) cs ->
  writer_init iovm cts (file_writer_rdwr h) = Some w ->
  fst (exec file_ops (mk_cfile true d0 None) (writer_life w cs)) =
  mk_cfile true match kept cs with
                | None => d0
                | Some ds => start_frame (hd_error cts) ++ datas ds ++ stop_frame
                end None.
Proof.
  intros Hi F OK PK Hw.
  pose proof (file_life iovm cts (file_writer_rdwr h) w cs d0 ltac:(split; reflexivity) eq_refl Hi F OK PK Hw) as L.
  assert (R0 : kept_rel cts (U_fresh, []) U_fresh []) by (split; reflexivity).
  pose proof (kept_steps_rel cts cs (U_fresh, []) U_fresh [] R0) as R.
  destruct (u_steps cts U_fresh [] cs) as [[xs st] ss]. rewrite L. unfold kept.
  destruct (fold_left kept_step cs (U_fresh, [])) as [st' ds]. destruct R as [E R]. cbn [fst snd] in E, R. subst st'.
  destruct st; cbn [fst]; f_equal.
  - subst ss. reflexivity.
  - destruct R as [pre ->]. rewrite add_last_snoc, last_snoc, <- app_assoc. reflexivity.
  - destruct R as [pre ->]. rewrite last_snoc. reflexivity.
Qed.

(** ** The file as a source *)
Definition file_src (d : bytes) (b : bool) (s : bytes) : cfile :=
  mk_cfile false d (if b then Some s else None).

Lemma ready_nil_ok : ctl_ok T_READY [].
Proof. split; [right; right; right; left; reflexivity|constructor|vm_compute; discriminate|discriminate|reflexivity]. Qed.

Lemma start_ok ct : match ct with Some c => lenN c <= CT_MAX | None => True end -> ctl_ok T_START (optl ct).
Proof.
  intro H. split.
  - right; left; reflexivity.
  - destruct ct; repeat constructor; assumption.
  - rewrite lenN_ctl_payload. destruct ct as [c|]; cbn [optl]; unfold fields; cbn [map concat].
    + rewrite app_nil_r, lenN_ct_field. unfold CT_MAX, CTL_MAX in *. lia.
    + vm_compute. discriminate.
  - intros _. destruct ct; cbn; lia.
  - intros [E|E]; discriminate E.
Qed.

Lemma file_stream o h r d st inp ds e rest m fuel :
  reader_init o (file_reader_rdwr h) = Some r ->
  d = ctl_frame T_START st ++ inp ->
  ctl_ok T_START st -> start_accepted (ro_cts o) st ->
  parse (ro_max o) inp ds e rest -> (length inp < fuel)%nat ->
  exists r', exec file_ops (mk_cfile false d None) (do_rcalls fuel r (ROpen :: repeat RRead (length ds + 1 + m))) =
    (file_src d (rw_opened (r_rdwr r')) rest, Done ((r_success, None) :: read_results r_stop ds e m, r')) /\ ended e r' /\
    r_start r' = Some (mk_control T_START st) /\ same_ops (file_reader_rdwr h) (r_rdwr r').
Proof.
  intros HI -> K A P L.
  set (d := ctl_frame T_START st ++ inp).
  destruct (src_stream r_stop false ltac:(discriminate) cfile file_ops (file_src d)) with
    (eofok := True) (o := o) (rw := file_reader_rdwr h) (r := r) (s0 := mk_cfile false d None) (rdy := @nil bytes) (st := st)
    (inp := inp) (ds := ds) (e := e) (rest := rest) (m := m) (fuel := fuel) as (r' & E & En & Es & So); auto.
  - intros h0 n s Hn Hl. cbn. destruct (n =? 0) eqn:E0; [lia|]. destruct (lenN s <? n) eqn:E1; [lia|reflexivity].
  - intros _ h0 n s Hn. cbn. destruct (n =? 0) eqn:E0; [lia|]. destruct (lenN s <? n) eqn:E1; [reflexivity|lia].
  - split; reflexivity.
  - discriminate.
  - exact ready_nil_ok.
  - discriminate.
  - exists r'. auto.
Qed.

(** The first read opens the stream by itself. *)
Lemma implicit_open {S} (hd : S -> query -> S * ans) fuel r cs s s' xs r' :
  r_state r = rs_opening ->
  exec hd s (do_rcalls fuel r (ROpen :: RRead :: cs)) = (s', Done ((r_success, None) :: xs, r')) ->
  exec hd s (do_rcalls fuel r (RRead :: cs)) = (s', Done (xs, r')).
Proof.
  intros St E. cbn [do_rcalls do_rcall] in *. unfold reader_read at 1, reader_maybe_open. rewrite St.
  rewrite !exec_bind in E. rewrite !exec_bind.
  destruct (exec hd s (reader_open r)) as [s1 [[x r1]| |]] eqn:EO; try discriminate E.
  cbn [exec] in E. rewrite exec_bind in E.
  assert (X : x = r_success).
  { rewrite exec_bind in E. destruct (exec hd s1 (reader_read fuel r1)) as [s2 [[[x2 d2] r2]| |]]; try discriminate E.
    rewrite exec_bind in E. destruct (exec hd s2 (do_rcalls fuel r2 cs)) as [s3 [[xs3 r3]| |]]; try discriminate E.
    cbn [exec] in E. congruence. }
  subst x. cbn [res_eqb negb exec].
  assert (O : r_state r1 = rs_opened).
  { clear E. unfold reader_open in EO. rewrite St in EO. rewrite exec_bind in EO.
    destruct (exec hd s (rdwr_open (r_rdwr r))) as [s2 [[x2 rw2]| |]]; try discriminate EO.
    destruct x2; cbn [res_eqb negb exec] in EO; try (injection EO; congruence). cbv zeta in EO. cbn [res_eqb negb] in EO.
    rewrite exec_bind in EO.
    match type of EO with context [exec hd s2 ?p] => destruct (exec hd s2 p) as [s3 [[x3 r3]| |]] end; try discriminate EO.
    destruct x3; cbn [res_eqb negb exec] in EO; injection EO as _; try congruence. subst r1. reflexivity. }
  rewrite O. rewrite read_opened in E by assumption.
  rewrite exec_bind in E. destruct (exec hd s1 (reader_next_data fuel r1)) as [s2 [[[x2 d2] r2]| |]]; try discriminate E.
  rewrite exec_bind in E. rewrite exec_bind. destruct (exec hd s2 (do_rcalls fuel r2 cs)) as [s3 [[xs3 r3]| |]]; try discriminate E.
  cbn [exec] in *. injection E as -> -> ->. reflexivity.
Qed.

(** Destroying a reader that has read STOP. *)
Lemma file_destroy h d s r : r_state r = rs_closing -> same_ops (file_reader_rdwr h) (r_rdwr r) -> canread (r_rdwr r) ->
  exec file_ops (file_src d true s) (reader_destroy r) = (mk_cfile false d None, Done r_success).
Proof.
  intros St [b E] C. unfold reader_destroy, reader_close. rewrite St. cbv zeta. cbn [set_rstate r_rdwr].
  rewrite E. cbn. destruct C as (C1 & _). rewrite E in C1. cbn in C1. subst b. reflexivity.
Qed.

Lemma kept_forall (P : bytes -> Prop) cs : Forall (fun c => Forall P (wpayloads c)) cs ->
  forall s, Forall P (snd s) -> Forall P (snd (fold_left kept_step cs s)).
Proof.
  induction 1 as [|c cs Hc _ IH]; intros s Hs; [exact Hs|]. cbn [fold_left]. apply IH. clear IH.
  destruct s as [st ds]. cbn [snd] in *. destruct c as [|p|ps| |t]; cbn [kept_step wpayloads] in *.
  - destruct st; cbn; auto.
  - destruct st; cbn; auto. apply Forall_app. auto.
  - destruct ps as [|p ps]; [cbn; auto|]. destruct st; cbn [snd]; auto. apply Forall_app. auto.
  - destruct st; cbn; auto.
  - destruct st; cbn; auto.
Qed.

Lemma kept_some (P : bytes -> Prop) cs ds : Forall (fun c => Forall P (wpayloads c)) cs -> kept cs = Some ds -> Forall P ds.
Proof.
  intros F E. unfold kept in E. pose proof (kept_forall P cs F (U_fresh, []) (Forall_nil _)) as K.
  destruct (fold_left kept_step cs (U_fresh, [])) as [st ds']. cbn [snd] in K. destruct st; congruence.
Qed.

Lemma parse_stop max ds : Forall (fun p => data_ok p /\ lenN p <= max) ds -> parse max (datas ds ++ stop_frame) ds E_stop [].
Proof.
  intro F. rewrite <- (app_nil_r ds) at 2. apply parse_datas; [assumption|].
  rewrite <- (app_nil_r stop_frame). apply p_stop.
Qed.

Lemma start_accepted_hd wanted cts : wanted = [] \/ cts = [] \/ (exists c, hd_error cts = Some c /\ In c wanted) ->
  start_accepted wanted (optl (hd_error cts)).
Proof.
  intros [H|[->|(c & E & I)]]; [left; assumption|right; left; reflexivity|]. rewrite E. right; right. exists c. auto.
Qed.

Section RoundTrip.
Variables (iovm : nat) (cts : list bytes) (hw : nat) (w : writer) (cs : list wcall) (d0 : bytes).
Variables (hr : nat) (o : reader_options) (r : reader) (fuel m : nat) (ds : list bytes).
Hypothesis Hi : (0 < iovm)%nat.
Hypothesis F : Forall (fun ct => lenN ct <= CT_MAX) cts.
Hypothesis OK : Forall wcall_ok cs.
Hypothesis PK : Forall (fun c => Forall (fun p => data_ok p /\ lenN p <= ro_max o) (wpayloads c)) cs.
Hypothesis HW : writer_init iovm cts (file_writer_rdwr hw) = Some w.
Hypothesis HR : reader_init o (file_reader_rdwr hr) = Some r.
Hypothesis AC : ro_cts o = [] \/ cts = [] \/ (exists c, hd_error cts = Some c /\ In c (ro_cts o)).
Hypothesis KD : kept cs = Some ds.
Let fd := f_data (fst (exec file_ops (mk_cfile true d0 None) (writer_life w cs))).
Hypothesis FU : (length fd <= fuel)%nat.

Lemma fd_eq : fd = start_frame (hd_error cts) ++ datas ds ++ stop_frame.
Proof.
  assert (PK' : Forall (fun c => Forall (fun p => lenN p <> 0) (wpayloads c)) cs).
  { eapply Forall_impl; [|exact PK]. intros c Hc. eapply Forall_impl; [|exact Hc]. cbn. intros p [[H _] _]. lia. }
  unfold fd. rewrite (file_contents iovm cts hw) by assumption. rewrite KD. reflexivity.
Qed.

Lemma round_trip_reads : exists r',
  exec file_ops (mk_cfile false fd None) (do_rcalls fuel r (ROpen :: repeat RRead (length ds + 1 + m))) =
  (file_src fd true [], Done ((r_success, None) :: map (fun d => (r_success, Some d)) ds ++ (r_stop, None) :: repeat (r_failure, None) m, r')) /\
  r_state r' = rs_closing /\ canread (r_rdwr r') /\ same_ops (file_reader_rdwr hr) (r_rdwr r') /\
  r_start r' = Some (mk_control T_START (optl (hd_error cts))).
Proof.
  pose proof fd_eq as E. clearbody fd.
  destruct (file_stream o hr r fd (optl (hd_error cts)) (datas ds ++ stop_frame) ds E_stop [] m fuel HR E) as (r' & X & En & Es & So).
  - apply start_ok. destruct cts as [|c l]; cbn; auto. inversion_clear F. assumption.
  - apply start_accepted_hd. exact AC.
  - apply parse_stop. eapply kept_some; eassumption.
  - rewrite E in FU. rewrite app_length in FU. unfold start_frame, ctl_frame in FU. rewrite app_length, length_be32 in FU. lia.
  - exists r'. destruct En as (E1 & E2 & E3). pose proof E3 as (E4 & _). rewrite E4 in X. auto.
Qed.

Lemma file_round_trip :
  exec file_ops (mk_cfile false fd None) (reader_life fuel r (ROpen :: repeat RRead (length ds + 1 + m))) =
  (mk_cfile false fd None,
   Done ((r_success, None) :: map (fun d => (r_success, Some d)) ds ++ (r_stop, None) :: repeat (r_failure, None) m, r_success)).
Proof.
  destruct round_trip_reads as (r' & E & S1 & C & So & _). unfold reader_life. rewrite exec_bind, E, exec_bind.
  rewrite (file_destroy hr) by assumption. reflexivity.
Qed.

Lemma file_round_trip_implicit :
  exec file_ops (mk_cfile false fd None) (reader_life fuel r (repeat RRead (length ds + 1 + m))) =
  (mk_cfile false fd None,
   Done (map (fun d => (r_success, Some d)) ds ++ (r_stop, None) :: repeat (r_failure, None) m, r_success)).
Proof.
  destruct round_trip_reads as (r' & E & S1 & C & So & _). unfold reader_life.
  replace (length ds + 1 + m)%nat with (S (length ds + m)) in * by lia. cbn [repeat] in *.
  rewrite exec_bind, (implicit_open _ _ _ _ _ _ _ _) with (2 := E), exec_bind.
  - rewrite (file_destroy hr) by assumption. reflexivity.
  - unfold reader_init in HR. destruct (negb _); [discriminate|]. injection HR as <-. reflexivity.
Qed.

Lemma file_round_trip_start :
  snd (exec file_ops (mk_cfile false fd None) (rcalls_then_get fuel r (ROpen :: repeat RRead (length ds + 1 + m)) T_START)) =
   Done ((r_success, None) :: map (fun d => (r_success, Some d)) ds ++ (r_stop, None) :: repeat (r_failure, None) m, r_success,
     Some (Some (mk_control T_START (optl (hd_error cts))))).
Proof.
  destruct round_trip_reads as (r' & E & S1 & C & So & Es). unfold rcalls_then_get. rewrite exec_bind, E, exec_bind.
  unfold reader_get_control, reader_maybe_open. rewrite S1. cbn [bind res_eqb negb exec snd].
  change (T_START =? FSTRM_CONTROL_START) with true. cbn [exec snd]. rewrite Es. reflexivity.
Qed.
End RoundTrip.

(** ** A truncated file *)
Lemma file_cut o h r d b st inp ds e rest fuel :
  reader_init o (file_reader_rdwr h) = Some r ->
  d = ctl_frame T_START st ++ inp -> ctl_ok T_START st -> start_accepted (ro_cts o) st ->
  parse (ro_max o) inp ds e rest -> prefix b d -> (length (ctl_frame T_START st) <= length b)%nat -> (length d <= fuel)%nat ->
  exists ds' e', prefix ds' ds /\ (e' = E_eof \/ ds' = ds /\ e' = e) /\ forall m,
   exists f' r', exec file_ops (mk_cfile false b None) (do_rcalls fuel r (ROpen :: repeat RRead (length ds' + 1 + m))) =
     (f', Done ((r_success, None) :: read_results r_stop ds' e' m, r')).
Proof.
  intros HI -> K A P PB LB L. destruct (prefix_app_inv b _ _ PB) as [(k & _ & L1)|(b' & -> & PB')]; [lia|].
  destruct (parse_cut _ _ _ _ _ P b' PB') as (ds' & e' & rest' & P' & PD & D).
  exists ds', e'. split; [assumption|]. split; [assumption|]. intro m.
  destruct (file_stream o h r _ st b' ds' e' rest' m fuel HI eq_refl K A P') as (r' & X & _).
  - destruct PB' as [c ->]. rewrite !app_length in L. unfold ctl_frame in L at 1. rewrite app_length, length_be32 in L. lia.
  - eauto.
Qed.

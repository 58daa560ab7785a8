(** Proofs for C87: fstrm_dump with "-" as output file. *)
From Verif Require Import Bytes Spec Bytes_proofs Io Io_proofs SpecTrace SpecStream
  Control Control_proofs Rdwr Rdwr_proofs Reader Writer Api SpecApi SpecReader SpecFile File
  Misc Tools SpecTools Writer_proofs Writer2_proofs Reader_source_proofs Reader_proofs Reader3_proofs File_proofs
  Tools_proofs Tools2_proofs Tools3_proofs Tools4_proofs Tools5_proofs Messages3_proofs Dash SpecDash.
Ltac Zify.zify_post_hook ::= Z.div_mod_to_equations.
Local Open Scope N_scope.

(** ** The program as printing and copying *)
Lemma asks_print_out f d : asks (outside 0 (length [f : cfile])) (fun _ => True) (print_out d).
Proof. cbn. split; [reflexivity|]. intros []; cbn; exact I. Qed.

Lemma dash_copies {B C} (S : list cfile * B -> C -> Prop) d e rest k : forall fuel rfuel inp ds r w k',
  parse DEFAULT_MAX inp ds e rest -> reading DEFAULT_MAX r -> same_ops (file_reader_rdwr 0) (r_rdwr r) -> wat 1 w ->
  (length inp < fuel)%nat -> (length inp < rfuel)%nat ->
  (forall ok f1 r1 w1, f_data f1 = d -> f_write f1 = false -> same_ops (file_reader_rdwr 0) (r_rdwr r1) -> wat 1 w1 ->
     ok && oversize e = false ->
     sim S (on_files 0 [f1] (k (ok && dump_status e, r1, w1))) (k' (ok, w1))) ->
  sim S (on_files 0 [file_src d true inp] (bind (dash_loop fuel rfuel r w) k))
    (bind (print_each w ds) (fun z => match z with (ok, w) => if ok && oversize e then Fail (FUb ub_uninit) else k' (ok, w) end)).
Proof.
  induction fuel as [|fuel IH]; intros rfuel inp ds r w k' P R So W L1 L2 K; [lia|].
  cbn [dash_loop]. apply sim_assoc_l.
  pose proof (f_read d rfuel inp ds e rest r P R L2) as N.
  destruct ds as [|d0 ds].
  - destruct N as (f' & r' & E & D & Fw & St & Sm).
    rewrite (on_files_local 0 0 _ _ _ [_] f' _ (asks_rread 0 rfuel r (rat_ops _ _ So)) ltac:(cbn; lia) E). cbn [set_nth print_each bind].
    pose proof (same_file _ _ _ So Sm) as So'.
    specialize (K true f' r' w D Fw So' W).
    destruct e; cbn [ending_result dump_status oversize andb] in *; try (apply K; reflexivity).
    + apply sim_assoc_l. rewrite (on_files_local 0 0 _ _ _ [_] _ _ (asks_print 0 r' (rat_ops _ _ So')) ltac:(cbn; lia) (f_print f' r' St)).
      apply K. reflexivity.
    + apply sim_assoc_l. rewrite (on_files_local 0 0 _ _ _ [_] _ _ (asks_print 0 r' (rat_ops _ _ So')) ltac:(cbn; lia) (f_print f' r' St)).
      apply K. reflexivity.
    + constructor.
  - destruct N as (r' & inp' & E & P' & L' & R' & Sm).
    rewrite (on_files_local 0 0 _ _ _ [_] _ _ (asks_rread 0 rfuel r (rat_ops _ _ So)) ltac:(cbn; lia) E). cbn [set_nth print_each].
    pose proof (same_file _ _ _ So Sm) as So'. apply sim_assoc_l, sim_assoc_r.
    apply sim_local with (J := fun _ => True); [apply asks_print_out|]. intros _ _.
    apply sim_assoc_l, sim_assoc_r.
    apply sim_local with (J := fun z => wat 1 (snd z)).
    { eapply asks_weaken; [|apply asks_writev; exact W]. intros q. apply on_outside. cbn. lia. }
    intros [x w1] W1. cbn [snd] in W1. destruct (negb (res_eqb x r_success)).
    + cbn [bind]. exact (K false (file_src d true inp') r' w1 eq_refl eq_refl So' W1 eq_refl).
    + apply (IH rfuel inp' ds r' w1 k' P' R' So' W1); [lia|lia|exact K].
Qed.

Definition dash_rel (d : bytes) (e : ending) (x : list cfile * bool) (y : bool) : Prop :=
  map f_data (fst x) = [d] /\ snd x = y && dump_status e.

Lemma dash_sim d st ds e fuel iovm w : stream_file d st ds e -> (length d <= fuel)%nat ->
  writer_init iovm st (file_writer_rdwr 1) = Some w ->
  sim (dash_rel d e) (on_files 0 [input d] (dash_main fuel iovm)) (print_copy (oversize e) w ds).
Proof.
  intros (K & inp & rest & E & P) L Hw.
  assert (Li : (length inp < fuel)%nat) by (pose proof (length_start st inp); subst d; lia).
  unfold dash_main. destruct (reader_init reader_options_default (file_reader_rdwr 0)) as [r|] eqn:EI; [|discriminate].
  destruct (f_open d 0 st inp r E K EI) as (r1 & X & R & Es & So & _).
  assert (R0 : rat 0 r) by (injection EI as <-; reflexivity).
  rewrite (on_files_local 0 0 _ _ _ [_] _ _ (asks_ropen 0 r R0) ltac:(cbn; lia) X). cbn [set_nth res_eqb negb].
  rewrite (on_files_local 0 0 _ _ _ [_] _ _ (asks_start 0 r1 (Some []) (rat_ops _ _ So)) ltac:(cbn; lia)
     (f_start _ r1 st (Some []) (rd_state _ _ R) Es K)).
  cbn [set_nth res_eqb negb app]. rewrite Hw. unfold print_copy.
  apply sim_local with (J := fun z => wat 1 (snd z)).
  { apply out1, asks_wopen, (wat_init iovm st), Hw. }
  intros [x w1] W1. cbn [snd] in W1. destruct (negb (res_eqb x r_success)).
  - apply sim_local with (J := fun _ => True); [apply out1, asks_wdestroy, W1|]. intros z _. unfold dump_cleanup.
    apply sim_destroy; auto. intros f' y D W. cbn [bind on_files]. constructor. split; [cbn; rewrite D; reflexivity|reflexivity].
  - apply dash_copies with (rest := rest) (k' := fun z : bool * writer => match z with (ok, w) => bind (writer_close w) (fun z : res * writer => match z with (x, w) =>
      bind (writer_destroy w) (fun _ : res => Ret (ok && res_eqb x r_success)) end) end); auto.
    intros ok f1 r2 w2 D1 Fw1 So1 W2 OE. unfold dump_cleanup.
    apply sim_destroy; auto. intros f' y D W.
    apply sim_local with (J := fun z => wat 1 (snd z)); [apply out1, asks_wclose, W2|].
    intros [x2 w3] W3. cbn [snd] in W3.
    apply sim_local with (J := fun _ => True); [apply out1, asks_wdestroy, W3|]. intros z _. cbn [bind on_files]. constructor.
    split; [cbn; congruence|]. cbn [snd fst]. destruct (res_eqb x2 r_success), ok, (dump_status e); reflexivity.
Qed.

(** ** stdout *)
Definition so_rep (b : bool) (ss : list bytes) : stdo :=
  mk_stdo (concat ss) b (match length ss with O => false | 1%nat => negb b | _ => true end)
    (match length ss with O | 1%nat => false | _ => true end).
Notation ne := (fun ss : list bytes => ss <> []).
Notation nz := (Forall (fun b => lenN b <> 0)).

Lemma add_last_concat ss b : ss <> [] -> concat (add_last ss b) = concat ss ++ b /\ length (add_last ss b) = length ss.
Proof.
  destruct ss as [|x ss _] using rev_ind; [congruence|]. intros _. rewrite add_last_snoc, !concat_app, !app_length. cbn. rewrite !app_nil_r, app_assoc. split; reflexivity.
Qed.
Lemma so_open h ss : stdout_ops (so_rep false ss) (QOpen h) = (so_rep true (ss ++ [[]]), ARes r_success).
Proof.
  cbn. unfold so_rep. rewrite concat_app. cbn. rewrite app_nil_r. destruct ss as [|a [|b ss]]; reflexivity.
Qed.
Lemma stdo_writes iov : nz iov -> forall s, so_fp s = true -> (so_bad s || so_shut s = so_bad s)%bool ->
  stdo_write s iov = (mk_stdo (so_text s ++ concat iov) true (so_shut s) (so_bad s), r_success).
Proof.
  induction 1 as [|b iov Hb _ IH]; intros [t f sh bd] F Z; cbn [so_fp so_text so_shut so_bad] in *; subst f; cbn [stdo_write so_fp].
  - cbn [concat]. rewrite app_nil_r. reflexivity.
  - destruct (lenN b =? 0) eqn:E; [lia|]. rewrite IH; cbn [so_fp so_text so_shut so_bad concat]; [|reflexivity|rewrite Z; exact Z].
    rewrite Z, <- app_assoc. reflexivity.
Qed.
Lemma so_write h ss iov : ss <> [] -> nz iov -> stdout_ops (so_rep true ss) (QWrite h iov) = (so_rep true (add_last ss (concat iov)), ARes r_success).
Proof.
  intros NE NZ. destruct (add_last_concat ss (concat iov) NE) as [C L].
  assert (E : so_rep true (add_last ss (concat iov)) = mk_stdo (so_text (so_rep true ss) ++ concat iov) true (so_shut (so_rep true ss)) (so_bad (so_rep true ss))).
  { unfold so_rep. rewrite C, L. reflexivity. }
  assert (Z : (so_bad (so_rep true ss) || so_shut (so_rep true ss) = so_bad (so_rep true ss))%bool) by (destruct ss as [|a [|b ss]]; reflexivity).
  rewrite E. pose proof (stdo_writes iov NZ (so_rep true ss) eq_refl Z) as Wr.
  destruct h as [|[|[|h]]]; cbn [stdout_ops]; try (rewrite Wr; reflexivity).
  rewrite Z. reflexivity.
Qed.
Lemma nz_ctl t cts : nz [ctl_frame t cts].
Proof. repeat constructor. discriminate. Qed.

(** One frame: printed, then written. *)
Lemma so_rdwr_write rw iov t : rw_opened rw = true -> rw_has_write rw = true -> nz iov ->
  exec stdout_ops (so_rep true [t]) (rdwr_write rw iov) = (so_rep true [t ++ concat iov], Done (r_success, rw)).
Proof.
  intros O W Z. unfold rdwr_write. rewrite O, W. cbn [negb andb bind ask_res exec]. rewrite so_write by (discriminate || assumption). reflexivity.
Qed.
Lemma so_print t d : exec stdout_ops (so_rep true [t]) (print_out d) = (so_rep true [t ++ print_data_frame d], Done tt).
Proof.
  unfold print_out, ask_res. cbn [bind exec]. rewrite so_write; [|discriminate|repeat constructor; discriminate].
  cbn [concat add_last]. rewrite app_nil_r. reflexivity.
Qed.
Lemma so_writer_write cts w t d : US cts w U_open -> lenN d <> 0 ->
  exec stdout_ops (so_rep true [t]) (writer_write w d) = (so_rep true [t ++ data_frame d], Done (r_success, w)).
Proof.
  intros [W [S1 S2]] Z. unfold writer_write, writer_writev, writer_maybe_open. rewrite S1. cbn [bind res_eqb negb]. rewrite S1.
  change (2 ^ 31 <=? 2 * lenN [d]) with false. cbv iota. change (2 * length [d] <=? FSTRM__WRITER_IOVEC_SIZE)%nat with true. cbv iota.
  unfold write_iov. change (FSTRM__WRITER_IOVEC_SIZE <? 2 * length [d])%nat with false. cbv iota.
  rewrite exec_bind, so_rdwr_write; [|exact S2|apply W|apply iovs_ne; repeat constructor; exact Z].
  cbn [exec]. rewrite frame_iovecs_datas, set_wrdwr_same. unfold datas. cbn [map concat]. rewrite app_nil_r. reflexivity.
Qed.

Lemma so_print_each cts w ds : US cts w U_open -> nz ds -> forall t,
  exec stdout_ops (so_rep true [t]) (print_each w ds) =
  (so_rep true [t ++ flat_map (fun d => print_data_frame d ++ data_frame d) ds], Done (true, w)).
Proof.
  intros U. induction 1 as [|d ds Hd _ IH]; intro t; cbn [print_each flat_map].
  - rewrite app_nil_r. reflexivity.
  - rewrite exec_bind, so_print, exec_bind, (so_writer_write cts) by assumption. cbn [res_eqb negb]. rewrite IH.
    rewrite <- !app_assoc. reflexivity.
Qed.

Lemma so_print_copy iovm cts w ds over : (0 < iovm)%nat -> Forall (fun ct => lenN ct <= CT_MAX) cts ->
  writer_init iovm cts (file_writer_rdwr 1) = Some w -> nz ds ->
  if over : bool then snd (exec stdout_ops stdo0 (print_copy over w ds)) = Stuck (FUb ub_uninit)
  else exec stdout_ops stdo0 (print_copy over w ds) =
    (mk_stdo (start_frame (hd_error cts) ++ flat_map (fun d => print_data_frame d ++ data_frame d) ds ++ stop_frame) false true false, Done true).
Proof.
  intros HI HC Hw NZ.
  assert (U : US cts w U_fresh) by (injection Hw as <-; repeat split; auto).
  destruct (acc_open stdo stdout_ops so_rep ne nz ltac:(intros [|? ?] ?; discriminate) so_open so_write nz_ctl cts w U_fresh [] U HC ltac:(discriminate))
    as (w1 & E & U1 & _ & _). cbn [u_open fst snd isopen app] in E, U1.
  assert (P : exec stdout_ops stdo0 (print_copy over w ds) = exec stdout_ops
    (so_rep true [start_frame (hd_error cts) ++ flat_map (fun d => print_data_frame d ++ data_frame d) ds])
    (if over then Fail (FUb ub_uninit) else bind (writer_close w1) (fun z => match z with (x, w) =>
      bind (writer_destroy w) (fun _ => Ret (true && res_eqb x r_success)) end))).
  { unfold print_copy. rewrite exec_bind. change stdo0 with (so_rep false []). rewrite E. cbn [res_eqb negb].
    rewrite exec_bind, (so_print_each cts) by assumption. destruct over; reflexivity. }
  rewrite P. destruct over; [reflexivity|]. pose proof U1 as [W [S1 S2]].
  rewrite exec_bind. unfold writer_close. rewrite S1. cbv zeta. rewrite write_stop_eq, exec_bind. cbn [set_wstate w_rdwr].
  rewrite so_rdwr_write; [|exact S2|apply W|apply nz_ctl]. cbn [res_eqb negb concat]. rewrite (ok_read _ _ _ W), app_nil_r.
  rewrite exec_bind. unfold rdwr_close. rewrite (ok_close _ _ _ W), S2. cbn.
  unfold writer_destroy, rdwr_destroy. cbn. rewrite (ok_destroy _ _ _ W). cbn. rewrite !app_nil_r, <- app_assoc. reflexivity.
Qed.

Lemma dash_outcome d st ds e fuel iovm : stream_file d st ds e -> e <> E_oversize -> (length d <= fuel)%nat -> (0 < iovm)%nat ->
  exists f, exec stdout_ops stdo0 (on_files 0 [input d] (dash_main fuel iovm)) =
    (mk_stdo (mixed st ds) false true false, Done ([f], dump_status e)) /\ f_data f = d.
Proof.
  intros SF NO L HI. destruct (dump_writer iovm st) as [w Hw].
  pose proof (dash_sim d st ds e fuel iovm w SF L Hw) as S.
  pose proof (so_print_copy iovm st w ds (oversize e) HI (st_small _ _ _ _ SF) Hw (ds_nonempty fuel iovm _ _ _ _ SF L HI)) as X.
  replace (oversize e) with false in * by (destruct e; congruence || reflexivity).
  destruct (sim_exec _ stdout_ops _ _ S stdo0) as [Y1 Y2]. rewrite X in Y1, Y2. cbn [fst snd] in Y1, Y2.
  destruct (exec stdout_ops stdo0 (on_files 0 [input d] (dash_main fuel iovm))) as [s [[fs rv]| |]]; cbn [fst snd] in *; try contradiction.
  destruct Y2 as [Z1 Z2]. cbn [fst snd andb] in Z1, Z2. subst s rv. destruct fs as [|f [|]]; try discriminate Z1. injection Z1 as Z1.
  exists f. split; [|exact Z1]. unfold mixed, start_frame. rewrite start_hd by apply SF. reflexivity.
Qed.

Lemma dash_oversize d st ds fuel iovm : stream_file d st ds E_oversize -> (length d <= fuel)%nat -> (0 < iovm)%nat ->
  snd (exec stdout_ops stdo0 (on_files 0 [input d] (dash_main fuel iovm))) = Stuck (FUb ub_uninit).
Proof.
  intros SF L HI. destruct (dump_writer iovm st) as [w Hw].
  pose proof (dash_sim d st ds _ fuel iovm w SF L Hw) as S.
  pose proof (so_print_copy iovm st w ds (oversize E_oversize) HI (st_small _ _ _ _ SF) Hw (ds_nonempty fuel iovm _ _ _ _ SF L HI)) as X.
  cbn [oversize] in *. destruct (sim_exec _ stdout_ops _ _ S stdo0) as [_ Y]. rewrite X in Y.
  destruct (snd (exec stdout_ops stdo0 (on_files 0 [input d] (dash_main fuel iovm)))) as [| |]; try contradiction. subst f. reflexivity.
Qed.

(** ** What a reader makes of it *)
Lemma mixed_nil st : ctl_ok T_START st -> stream_file (mixed st []) st [] E_stop.
Proof.
  intro K. split; [exact K|]. exists stop_frame, []. split; [reflexivity|]. change (parse DEFAULT_MAX (stop_frame ++ []) [] E_stop []). apply p_stop.
Qed.

Lemma printed_head d : exists c1 c2 r, print_data_frame d = x20 :: x22 :: c1 :: c2 :: r.
Proof.
  unfold print_data_frame, print_string. cbn [app]. destruct (flat_map print_char d ++ [x22]) as [|c1 r] eqn:E.
  { apply app_eq_nil in E. destruct E. discriminate. }
  cbn [app]. destruct r as [|c2 r]; cbn [app]; eauto.
Qed.

(** The first bytes of the printed form, read as a length. *)
Lemma printed_length d : exists n r, print_data_frame d = be32 n ++ r /\ 539099136 <= n /\ n < 2 ^ 32.
Proof.
  destruct (printed_head d) as (c1 & c2 & r & ->).
  pose proof (to_N_lt c1) as B1. pose proof (to_N_lt c2) as B2.
  exists (ntohl_bytes [x20; x22; c1; c2]), r. split.
  - rewrite be32_ntohl by (cbn; lia). reflexivity.
  - split; [|apply ntohl_lt]. rewrite ntohl_val. change (to_N x20) with 32. change (to_N x22) with 34. lia.
Qed.

Lemma mixed_over max st d ds : ctl_ok T_START st -> max < 539099136 ->
  exists inp rest, mixed st (d :: ds) = ctl_frame T_START st ++ inp /\ parse max inp [] E_oversize rest.
Proof.
  intros K M. destruct (printed_length d) as (n & r & E & L & U).
  eexists _, _. split; [reflexivity|]. cbn [flat_map]. rewrite E, <- !app_assoc. apply p_over; lia.
Qed.
Lemma mixed_cons st d ds : ctl_ok T_START st -> stream_file (mixed st (d :: ds)) st [] E_oversize.
Proof. intro K. split; [exact K|]. apply mixed_over; [exact K|reflexivity]. Qed.

Lemma dash_again st d ds fuel iovm tr o : ctl_ok T_START st -> (length (mixed st (d :: ds)) <= fuel)%nat ->
  runs (on_files 0 [input (mixed st (d :: ds))] (dump_main fuel iovm false)) tr o -> o = Stuck (FUb ub_uninit).
Proof.
  intros K L R. pose proof (dump_stdout _ _ _ _ fuel iovm (mixed_cons st d ds K) L) as S. cbn [oversize] in S.
  destruct (sim_runs _ _ _ S _ _ R) as (o' & R' & M). inversion R'; subst. destruct o as [| |]; try contradiction. congruence.
Qed.

(** No stream at all: nothing is written. *)
Lemma dash_bad d fuel iovm : no_stream d ->
  exists f, exec stdout_ops stdo0 (on_files 0 [input d] (dash_main fuel iovm)) = (stdo0, Done ([f], false)) /\ f_data f = d.
Proof.
  intros NS.
  assert (S : sim (fun x (_ : unit) => map f_data (fst x) = [d] /\ snd x = false) (on_files 0 [input d] (dash_main fuel iovm)) (Ret tt)).
  { unfold dash_main. destruct (reader_init reader_options_default (file_reader_rdwr 0)) as [r|] eqn:EI; [|discriminate].
    destruct (f_open_bad d 0 r NS EI) as (x & f' & r' & E & NE & D & W & So).
    assert (R0 : rat 0 r) by (injection EI as <-; reflexivity).
    rewrite (on_files_local 0 0 _ _ _ [_] _ _ (asks_ropen 0 r R0) ltac:(cbn; lia) E). cbn [set_nth].
    destruct (res_eqb x r_success) eqn:EX; [apply res_eqb_true in EX; contradiction|]. cbn [negb]. unfold dump_cleanup.
    apply sim_destroy; auto. intros f2 y D2 W2. cbn [bind on_files]. constructor. split; [cbn; congruence|reflexivity]. }
  destruct (sim_exec _ stdout_ops _ _ S stdo0) as [Y1 Y2]. cbn [exec fst snd] in Y1, Y2.
  destruct (exec stdout_ops stdo0 (on_files 0 [input d] (dash_main fuel iovm))) as [s [[fs rv]| |]]; cbn [fst snd] in *; try contradiction.
  destruct Y2 as [Z1 ->]. subst s. destruct fs as [|f [|]]; try discriminate Z1. injection Z1 as Z1. eauto.
Qed.

Lemma dash_copy_iff d st ds e fuel iovm : stream_file d st ds e -> e <> E_oversize -> (length d <= fuel)%nat -> (0 < iovm)%nat ->
  (stream_file (so_text (fst (exec stdout_ops stdo0 (on_files 0 [input d] (dash_main fuel iovm))))) st ds E_stop <-> ds = []).
Proof.
  intros SF NO L HI. destruct (dash_outcome d st ds e fuel iovm SF NO L HI) as (f & E & _). rewrite E. cbn [fst so_text].
  assert (K : ctl_ok T_START st) by apply SF. destruct ds as [|x ds].
  - split; [reflexivity|]. intros _. now apply mixed_nil.
  - split; [|discriminate]. intro SF2. destruct (stream_det _ _ _ _ _ _ _ SF2 (mixed_cons st x ds K)) as (_ & X & _). discriminate X.
Qed.

Lemma dash_not_a_copy st x ds fuel iovm max : ctl_ok T_START st ->
  Forall (fun p => data_ok p /\ lenN p <= DEFAULT_MAX) (x :: ds) ->
  let d := ctl_frame T_START st ++ datas (x :: ds) ++ stop_frame in
  (length d <= fuel)%nat -> (0 < iovm)%nat -> max < 539099136 ->
  exists s f, exec stdout_ops stdo0 (on_files 0 [input d] (dash_main fuel iovm)) = (s, Done ([f], true)) /\
    (exists inp rest, so_text s = ctl_frame T_START st ++ inp /\ parse max inp [] E_oversize rest) /\
    forall fuel' tr o, (length (so_text s) <= fuel')%nat ->
      runs (on_files 0 [input (so_text s)] (dump_main fuel' iovm false)) tr o -> o = Stuck (FUb ub_uninit).
Proof.
  intros K F d L HI M. assert (SF : stream_file d st (x :: ds) E_stop).
  { split; [exact K|]. eexists _, []. split; [reflexivity|]. now apply parse_stop. }
  destruct (dash_outcome d st _ _ fuel iovm SF ltac:(discriminate) L HI) as (f & E & _). eexists _, f. split; [exact E|]. cbn [so_text].
  split; [now apply mixed_over|]. intros fuel' tr o L' R. eapply dash_again; eauto.
Qed.

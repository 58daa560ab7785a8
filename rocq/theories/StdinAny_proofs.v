(** Any list of names for fstrm_replay. *)
From Verif Require Import Bytes Spec Bytes_proofs Io Io_proofs SpecTrace SpecStream
  Control Control_proofs Rdwr Rdwr_proofs Reader Writer Api SpecApi SpecReader SpecFile File
  Misc Tools SpecTools Writer_proofs Writer2_proofs Reader_source_proofs Reader_proofs Reader3_proofs File_proofs
  Tools_proofs Tools2_proofs Tools3_proofs StdinNames SpecStdinNames StdinNames_proofs SpecStdinAny.
Ltac Zify.zify_post_hook ::= Z.div_mod_to_equations.
Local Open Scope N_scope.

Definition left_as (r : option bytes) (s : bytes) (opened : bool) : Prop :=
  match r with Some rest => s = rest /\ opened = true | None => opened = false end.

Section One.
Variable d : bytes.
Notation rep := (file_src d).
Notation tl_long := (src_tail_long false cfile file_ops rep (F_read d) (F_read0 d) (F_close d) (F_iso d)).
Notation tl_ok := (src_tail_ok false cfile file_ops rep (F_read d) (F_read0 d) (F_close d) (F_iso d)).
Notation rd_n := (src_read_n false cfile file_ops rep (F_read d) (F_read0 d) (F_close d) (F_iso d)).
Notation rd_0 := (src_read0 false cfile file_ops rep (F_read0 d) (F_close d)).
Notation nx := (next_step r_stop false cfile file_ops rep (F_read d) True (F_short d) (F_read0 d) (F_close d) (F_iso d)).

Lemma t_bad rw c inp r : canread rw -> bad_frame inp r ->
  exists c' rw' s', exec file_ops (rep true inp) (read_control_frame_tail rw c) = (rep (rw_opened rw') s', Done (r_failure, None, c', rw')) /\
    same_ops rw rw' /\ left_as r s' (rw_opened rw').
Proof.
  intros C B. destruct B as [n rest Hn L|p rest Hp Hn B|rest].
  - exists c, rw, rest. rewrite (proj1 C). split; [exact (tl_long rw c n rest C Hn L)|]. split; [apply same_ops_refl|]. split; reflexivity.
  - unfold CTL_MAX in Hn. unfold read_control_frame_tail. rewrite exec_bind.
    rewrite (rd_n rw 4) by (assumption || reflexivity || lia).
    cbn [res_eqb negb]. rewrite <- (app_nil_r (be32 _)), ntohl_be32_small by (change (2^32) with 4294967296; lia).
    cbv zeta. unfold FSTRM_CONTROL_FRAME_LENGTH_MAX. destruct (512 <? lenN p) eqn:E; [lia|].
    destruct (bad_decode c p B) as [c' D].
    destruct (lenN p =? 0) eqn:E0; [exfalso; apply Hp, lenN_0; lia|]. cbn [bind]. rewrite exec_bind, (rd_n rw (lenN p)) by (assumption || reflexivity || lia).
    cbn [res_eqb negb]. rewrite D. cbn [lift bind res_eqb negb exec].
    exists c', rw, rest. rewrite (proj1 C). split; [reflexivity|]. split; [apply same_ops_refl|]. split; reflexivity.
  - unfold read_control_frame_tail. rewrite exec_bind.
    rewrite (rd_n rw 4) by (assumption || reflexivity || lia).
    cbn [res_eqb negb]. rewrite <- (app_nil_r (be32 _)), ntohl_be32_small by reflexivity.
    cbv zeta. unfold FSTRM_CONTROL_FRAME_LENGTH_MAX. change (512 <? 0) with false. change (0 =? 0) with true. cbn iota.
    cbn [ask_unit bind exec]. rewrite F_iso. cbn [bind]. rewrite exec_bind, rd_0 by assumption. cbn [res_eqb negb exec].
    exists c, (set_opened rw false), rest. split; [reflexivity|]. split; [apply same_ops_set|]. reflexivity.
Qed.

Lemma n_bad inp ds r : bad_stream inp ds r -> forall rd fuel, reading DEFAULT_MAX rd -> (length inp < fuel)%nat ->
  match ds with
  | d0 :: ds' => exists r' inp', exec file_ops (rep true inp) (reader_next_data fuel rd) = (rep true inp', Done (r_success, Some d0, r')) /\
      bad_stream inp' ds' r /\ (length inp' < length inp)%nat /\ reading DEFAULT_MAX r' /\ same_r rd r'
  | [] => exists r' s', exec file_ops (rep true inp) (reader_next_data fuel rd) = (rep (rw_opened (r_rdwr r')) s', Done (r_failure, None, r')) /\
      r_state r' = rs_failed /\ same_r rd r' /\ left_as r s' (rw_opened (r_rdwr r'))
  end.
Proof.
  induction 1 as [p inp ds r K Hm P IH|t cts inp ds r K Ht P IH|inp r B]; intros rd fuel R F; destruct R as [RS RC RM RA]; destruct fuel as [|fuel]; try lia.
  - destruct K as [K1 K2]. unfold data_frame. rewrite <- app_assoc.
    rewrite nx by assumption. destruct (lenN p =? 0) eqn:E0; [lia|]. cbn [negb].
    rewrite RM. destruct (DEFAULT_MAX <? lenN p) eqn:E1; [lia|].
    destruct (reserve_64 (r_alloc rd) (lenN p)) as (a & -> & A1 & A2); [assumption..|]. cbv zeta.
    destruct (a <? lenN p) eqn:E2; [lia|]. rewrite exec_bind. cbn [set_ralloc r_rdwr].
    rewrite (src_read false cfile file_ops rep (F_read d) (F_read0 d) (F_close d) (F_iso d)) by (assumption || lia). cbn [res_eqb negb exec].
    eexists _, inp. split; [reflexivity|]. split; [assumption|]. split.
    { rewrite !app_length, length_be32. lia. }
    split; split; cbn; auto; try lia. apply same_ops_refl.
  - unfold ctl_frame. rewrite <- !app_assoc.
    assert (Step : forall c rw', c = mk_control t cts -> rw' = r_rdwr rd ->
      exec file_ops (rep true (be32 0 ++ be32 (lenN (ctl_payload t cts)) ++ ctl_payload t cts ++ inp)) (reader_next_data (S fuel) rd) =
      exec file_ops (rep true inp) (reader_next_data fuel (set_rtmp (set_rrdwr rd rw') (Some c)))).
    { intros c rw' -> ->. rewrite nx by (assumption || reflexivity). change (0 =? 0) with true. cbn [negb]. cbv zeta.
      rewrite exec_bind. rewrite app_assoc. fold (ctail t cts). rewrite tl_ok by assumption.
      cbn [res_eqb negb]. unfold FSTRM_CONTROL_STOP. destruct (t =? 3) eqn:E; [apply N.eqb_eq in E; contradiction|reflexivity]. }
    specialize (Step _ _ eq_refl eq_refl). set (r1 := set_rtmp _ _) in Step.
    assert (R1 : reading DEFAULT_MAX r1) by (split; auto).
    assert (L1 : (length inp < fuel)%nat) by (unfold ctl_frame in F; rewrite !app_length, !length_be32 in F; lia).
    specialize (IH r1 fuel R1 L1).
    assert (S1 : same_r rd r1) by (split; cbn; auto; [apply same_ops_refl|lia]).
    destruct ds as [|d0 ds].
    + destruct IH as (r' & s' & E & En & Sm & Lf). exists r', s'. rewrite Step. split; [exact E|]. split; [exact En|]. split; [eapply same_r_trans; eassumption|exact Lf].
    + destruct IH as (r' & inp' & E & En & Ln & Rd & Sm). exists r', inp'. rewrite Step. do 2 (split; [assumption|]).
      split; [|split; [assumption|eapply same_r_trans; eassumption]]. rewrite !app_length. lia.
  - rewrite nx by (assumption || reflexivity). change (0 =? 0) with true. cbn [negb]. cbv zeta.
    destruct (t_bad (r_rdwr rd) (match r_tmp rd with Some c => c | None => control_init end) inp r RC B) as (c' & rw' & s' & E & So & Lf).
    rewrite exec_bind, E. cbn [res_eqb negb exec].
    exists (set_rstate (set_rtmp (set_rrdwr rd rw') (Some c')) rs_failed), s'. split; [reflexivity|]. split; [reflexivity|]. split; [|exact Lf].
    split; cbn; auto; lia.
Qed.

Lemma f_refused rw oc s r : canread rw -> refused s r ->
  exists x c rw' s', exec file_ops (rep true s) (read_control rw oc T_START) = (rep (rw_opened rw') s', Done (x, Some c, rw')) /\
    x <> r_success /\ same_ops rw rw' /\ left_as r s' (rw_opened rw').
Proof.
  intros C Rf. unfold read_control, read_control_frame. rewrite exec_bind, exec_bind. set (c0 := match oc with None => control_init | Some c => c end).
  assert (HD : forall n b, n < 2 ^ 32 -> exec file_ops (rep true (be32 n ++ b)) (rdwr_read rw 4) = (rep true b, Done (r_success, be32 n, rw))).
  { intros n b Hn. apply rd_n; (assumption || reflexivity || lia). }
  assert (NT : forall n, n < 2 ^ 32 -> ntohl_bytes (be32 n) = n).
  { intros n Hn. rewrite <- (app_nil_r (be32 n)). apply ntohl_be32_small; assumption. }
  assert (Z : 0 < 2 ^ 32) by reflexivity.
  destruct Rf as [n rest H1 H2|t cts rest K T|inp r B|s L|b L|n b Hn L].
  - rewrite HD, NT by assumption. cbn [res_eqb negb]. destruct (n =? 0) eqn:E0; [lia|]. cbn [negb exec res_eqb].
    exists r_failure, c0, rw, rest. rewrite (proj1 C). split; [reflexivity|]. split; [discriminate|]. split; [apply same_ops_refl|]. split; reflexivity.
  - unfold ctl_frame. rewrite <- !app_assoc. rewrite HD, NT by assumption. cbn [res_eqb negb]. change (0 =? 0) with true. cbn [negb].
    rewrite app_assoc. fold (ctail t cts). rewrite (tl_ok rw c0 t cts rest C K). cbn [res_eqb negb]. destruct (t =? T_START) eqn:ET; [apply N.eqb_eq in ET; contradiction|].
    cbn [negb exec]. exists r_failure, (mk_control t cts), rw, rest. rewrite (proj1 C). split; [reflexivity|]. split; [discriminate|]. split; [apply same_ops_refl|]. split; reflexivity.
  - rewrite HD, NT by assumption. cbn [res_eqb negb]. change (0 =? 0) with true. cbn [negb].
    destruct (t_bad rw c0 inp r C B) as (c' & rw' & s' & E & So & Lf). rewrite E. cbn [res_eqb negb exec].
    exists r_failure, c', rw', s'. split; [reflexivity|]. split; [discriminate|]. auto.
  - rewrite (src_short r_stop ltac:(discriminate) cfile file_ops rep True (F_short d) (F_close d) rw 4 s I C L).
    cbn [res_eqb negb exec]. exists r_stop, c0, (set_opened rw false), []. split; [reflexivity|]. split; [discriminate|]. split; [apply same_ops_set|]. reflexivity.
  - rewrite HD, NT by assumption. cbn [res_eqb negb]. change (0 =? 0) with true. cbn [negb].
    rewrite (src_tail_eof1 r_stop ltac:(discriminate) cfile file_ops rep True (F_short d) (F_close d) rw c0 b I C L).
    cbn [res_eqb negb exec]. exists r_stop, c0, (set_opened rw false), []. split; [reflexivity|]. split; [discriminate|]. split; [apply same_ops_set|]. reflexivity.
  - rewrite HD, NT by assumption. cbn [res_eqb negb]. change (0 =? 0) with true. cbn [negb].
    rewrite (src_tail_eof2 r_stop false ltac:(discriminate) cfile file_ops rep (F_read d) True (F_short d) (F_read0 d) (F_close d) (F_iso d) rw c0 n b I C Hn L).
    cbn [res_eqb negb exec]. exists r_stop, c0, (set_opened rw false), []. split; [reflexivity|]. split; [discriminate|]. split; [apply same_ops_set|]. reflexivity.
Qed.

Lemma f_get_refused h rd r : refused d r -> reader_init reader_options_default (file_reader_rdwr h) = Some rd ->
  exists x s' r', exec file_ops (input d) (reader_get_control rd FSTRM_CONTROL_START) = (rep (rw_opened (r_rdwr r')) s', Done (x, None, r')) /\ x <> r_success /\
    same_ops (file_reader_rdwr h) (r_rdwr r') /\ r_state r' = rs_opening /\ left_as r s' (rw_opened (r_rdwr r')).
Proof.
  intros NS [= <-]. unfold reader_get_control, reader_maybe_open. cbn [r_state]. rewrite exec_bind, exec_bind.
  unfold reader_open. cbn [r_state r_rdwr]. rewrite exec_bind. unfold rdwr_open at 1.
  cbn [rw_has_open file_reader_rdwr negb ask_res bind exec]. cbn [input file_ops file_op_open f_fp f_write f_data bind res_eqb exec].
  cbv zeta. cbn [res_eqb negb]. rewrite exec_bind. cbn [set_rrdwr r_rdwr set_opened rw_has_write file_reader_rdwr].
  unfold reader_open_unidirectional. rewrite exec_bind. change FSTRM_CONTROL_START with T_START. cbn [r_rdwr r_start].
  change (mk_cfile false d (Some d)) with (rep true d).
  destruct (f_refused (mk_rdwr h true true true true false true) None d r) as (x & c & rw' & s' & E & NE & So & Lf); auto.
  { repeat split. }
  match goal with |- context [exec file_ops ?s (read_control ?rw ?oc T_START)] =>
    change (exec file_ops s (read_control rw oc T_START)) with (exec file_ops (rep true d) (read_control (mk_rdwr h true true true true false true) None T_START)) end.
  rewrite E. cbv zeta. destruct (res_eqb x r_success) eqn:EX; [apply res_eqb_true in EX; contradiction|]. cbn [negb exec]. rewrite !EX. cbn [negb exec].
  repeat (rewrite EX; cbn [negb exec]).
  match goal with |- context [Done (x, None, ?rr)] => exists x, s', rr end. split; [reflexivity|]. split; [assumption|]. split; [|split; [reflexivity|exact Lf]]. cbn [set_rstart set_rrdwr r_rdwr].
  eapply same_ops_trans; [apply (same_ops_set (file_reader_rdwr h) true)|exact So].
Qed.
End One.

(** Destroying a reader that is neither opened nor closing touches nothing. *)
Lemma n_destroy_left h f r : same_ops (file_reader_rdwr h) (r_rdwr r) -> (r_state r = rs_failed \/ r_state r = rs_opening) ->
  exists x, exec file_ops f (reader_destroy r) = (f, Done x).
Proof.
  intros [b Eb] St. unfold reader_destroy. assert (E : match r_state r with rs_opened | rs_closing => reader_close r | _ => Ret (r_failure, r) end = Ret (r_failure, r)).
  { destruct St as [-> | ->]; reflexivity. }
  rewrite E. cbn [bind]. rewrite Eb. eexists. reflexivity.
Qed.

(** What is left of stdin afterwards. *)
Definition leaves (s0 : option std) (r : option bytes) (s : std) : Prop :=
  match s0 with
  | Some s0 => s = s0
  | None => match r with Some rest => s = mk_std rest false | None => sd_shut s = true end
  end.

Lemma tied_leaves s0 s o f r : tied s0 s o f -> f_fp f = r -> leaves s0 r s.
Proof.
  destruct o as [g|fp], s0 as [s0|]; cbn; try tauto. intros (_ & F & Sh) <-. rewrite F. destruct fp; cbn in *; [destruct s; cbn in *; congruence|exact Sh].
Qed.

Lemma left_fp d r s b : left_as r s b -> f_fp (file_src d b s) = r.
Proof. destruct r; cbn; [intros [-> ->]|intros ->]; reflexivity. Qed.

Lemma names_copies_bad {B C} (S : std * list nobj * B -> C -> Prop) d rr (pre post : list nobj) s0 k q : forall fuel rfuel inp ds r w (k' : writer -> io C) s o,
  let h := (1 + length pre)%nat in
  bad_stream inp ds rr -> reading DEFAULT_MAX r -> same_ops (file_reader_rdwr h) (r_rdwr r) -> wat 0 w ->
  (length inp < fuel)%nat -> (length inp < rfuel)%nat -> tied s0 s o (file_src d true inp) ->
  (forall s1 o1, sim S (on_names 1 s1 (pre ++ o1 :: post) (k None)) q) ->
  (forall s1 o1 f1 r1 w1, tied s0 s1 o1 f1 -> f_fp f1 = rr -> r_state r1 = rs_failed -> same_ops (file_reader_rdwr h) (r_rdwr r1) -> wat 0 w1 ->
     sim S (on_names 1 s1 (pre ++ o1 :: post) (k (Some (r1, w1)))) (k' w1)) ->
  sim S (on_names 1 s (pre ++ o :: post) (bind (replay_loop fuel rfuel r w) k)) (each w ds k' q).
Proof.
  induction fuel as [|fuel IH]; intros rfuel inp ds r w k' s o h P R So W L1 L2 T KN K; [lia|].
  cbn [replay_loop]. apply names_assoc.
  pose proof (n_bad d inp ds rr P r rfuel R L2) as N. rewrite <- (read_opened rfuel r) in N by apply R.
  assert (Qr : quiet (reader_read rfuel r)) by apply quiet_rread, R.
  destruct ds as [|d0 ds].
  - destruct N as (r' & s' & E & St & Sm & Lf). pose proof (same_file _ _ _ So Sm) as So'.
    match goal with |- sim _ (on_names _ _ _ (bind _ ?kk)) _ =>
      destruct (mid_names kk _ _ pre post s0 s o _ _ _ (asks_rread _ rfuel r (rat_ops _ _ So)) Qr E T) as (s1 & o1 & EN & T1) end.
    rewrite EN. unfold each. cbn [write_each bind].
    eapply K; eauto. apply left_fp; exact Lf.
  - destruct N as (r' & inp' & E & P' & L' & R' & Sm). pose proof (same_file _ _ _ So Sm) as So'.
    match goal with |- sim _ (on_names _ _ _ (bind _ ?kk)) _ =>
      destruct (mid_names kk _ _ pre post s0 s o _ _ _ (asks_rread _ rfuel r (rat_ops _ _ So)) Qr E T) as (s1 & o1 & EN & T1) end.
    rewrite EN. cbv zeta.
    eapply sim_r; [apply sim_sym, each_cons|]. apply names_assoc.
    apply names_local with (J := fun z => wat 0 (snd z)); [apply wat0_names, asks_writev; exact W|].
    intros [x w1] W1. cbn [snd] in W1. destruct (negb (res_eqb x r_success)); [cbn [bind]; apply KN|].
    apply IH with (r := r') (inp := inp'); auto; lia.
Qed.

Lemma names_destroy_left {B C} (S : std * list nobj * B -> C -> Prop) s0 s pre o f post r (k : res -> io B) q :
  same_ops (file_reader_rdwr (1 + length pre)) (r_rdwr r) -> (r_state r = rs_failed \/ r_state r = rs_opening) -> tied s0 s o f ->
  (forall s' o' x, tied s0 s' o' f -> sim S (on_names 1 s' (pre ++ o' :: post) (k x)) q) ->
  sim S (on_names 1 s (pre ++ o :: post) (bind (reader_destroy r) k)) q.
Proof.
  intros So St T K. destruct (n_destroy_left _ f r So St) as (x & E).
  assert (Qd : quiet (reader_destroy r)) by (apply quiet_destroy; destruct So as [b ->]; reflexivity).
  destruct (mid_names k _ _ pre post s0 s o _ _ _ (asks_rdestroy _ r (rat_ops _ _ So)) Qd E T) as (s1 & o1 & EN & T1).
  rewrite EN. eapply K; eauto.
Qed.

Lemma names_one {B C} (S : std * list nobj * B -> C -> Prop) ct d ds rr pre post s0 s o fuel w k (k' : writer -> io C) q :
  replays ct d ds rr -> (length d <= fuel)%nat -> wat 0 w -> fresh s0 s o (input d) ->
  (forall s1 o1, sim S (on_names 1 s1 (pre ++ o1 :: post) (k None)) q) ->
  (forall s1 o1 w1, leaves s0 rr s1 -> wat 0 w1 -> sim S (on_names 1 s1 (pre ++ o1 :: post) (k (Some w1))) (k' w1)) ->
  sim S (on_names 1 s (pre ++ o :: post) (bind (process_file fuel ct (1 + length pre) w) k)) (each w ds k' q).
Proof.
  intros O L W T KN K. destruct O as [d st ds e F A Ce|st inp ds rr Ks A P|d st ds e F A|d rr Rf].
  - eapply names_file; eauto.
    + eapply of_match; eauto. destruct Ce as [-> | ->]; discriminate.
    + intros s1 o1 w1 Af W1. apply K; [|exact W1]. destruct s0 as [s0|]; cbn in *; [exact Af|]. apply Af. eapply es_match; eauto.
  - unfold process_file. set (d := ctl_frame T_START st ++ inp) in *.
    destruct (reader_init reader_options_default (file_reader_rdwr (1 + length pre))) as [r|] eqn:EI; [|discriminate].
    assert (R0 : rat (1 + length pre) r) by (injection EI as <-; reflexivity).
    pose proof (opens1_get _ r FSTRM_CONTROL_START EI) as Op. apply names_assoc.
    destruct (f_get d _ st inp r eq_refl Ks EI) as (r1 & X & R & So).
    assert (Li : (length inp < fuel)%nat) by (pose proof (length_start st inp); subst d; lia).
    match goal with |- sim _ (on_names _ _ _ (bind _ ?kk)) _ =>
      destruct (mid_opens kk _ _ pre post s0 s o _ _ _ (asks_rget _ r _ R0) Op X T) as (s1 & o1 & EN & T1) end.
    rewrite EN. cbn [res_eqb negb].
    rewrite (proj2 (match_accepted ct st Ks) A). cbn [negb]. apply names_assoc.
    apply names_copies_bad with (d := d) (rr := rr) (s0 := s0) (inp := inp); auto; try (rewrite (rat_ops _ _ So) in *; assumption).
    intros s2 o2 f2 r2 w1 T2 F2 St2 So2 W1. apply names_assoc. eapply names_destroy_left; eauto. intros s3 o3 x T3. cbn [bind]. apply K; [|exact W1].
    eapply tied_leaves; eauto.
  - eapply names_file; eauto.
    + eapply of_mismatch; eauto.
    + intros s1 o1 w1 Af W1. apply K; [|exact W1]. destruct s0 as [s0|]; cbn in *; [exact Af|]. apply Af. eapply es_mismatch; eauto.
  - unfold process_file.
    destruct (reader_init reader_options_default (file_reader_rdwr (1 + length pre))) as [r|] eqn:EI; [|discriminate].
    assert (R0 : rat (1 + length pre) r) by (injection EI as <-; reflexivity).
    pose proof (opens1_get _ r FSTRM_CONTROL_START EI) as Op. apply names_assoc.
    destruct (f_get_refused d _ r rr Rf EI) as (x & s' & r' & E & NE & So & St & Lf).
    match goal with |- sim _ (on_names _ _ _ (bind _ ?kk)) _ =>
      destruct (mid_opens kk _ _ pre post s0 s o _ _ _ (asks_rget _ r _ R0) Op E T) as (s1 & o1 & EN & T1) end.
    rewrite EN. destruct (res_eqb x r_success) eqn:EX; [apply res_eqb_true in EX; contradiction|]. cbn [negb].
    apply names_assoc. eapply names_destroy_left; [exact So|right; exact St|exact T1|]. intros s3 o3 y T3. cbn [bind]. unfold each. cbn [write_each bind].
    apply K; [|exact W]. eapply tied_leaves; [exact T3|]. apply left_fp; exact Lf.
Qed.

(** What is left is a part of what there was. *)
Lemma bad_frame_rest inp rest : bad_frame inp (Some rest) -> (length rest <= length inp)%nat.
Proof. inversion 1; subst; rewrite !app_length; lia. Qed.
Lemma bad_stream_rest inp ds r : bad_stream inp ds r -> forall rest, r = Some rest -> (length rest <= length inp)%nat.
Proof.
  induction 1 as [p inp ds r K Hm P IH|t cts inp ds r K Ht P IH|inp r B]; intros rest ->; rewrite ?app_length; try (specialize (IH _ eq_refl); lia).
  apply bad_frame_rest in B. lia.
Qed.
Lemma replays_rest ct d ds rest : replays ct d ds (Some rest) -> (length rest <= length d)%nat.
Proof.
  inversion 1 as [|st inp ds' r Ks A P| |d' r Rf]; subst.
  - rewrite app_length. pose proof (bad_stream_rest _ _ _ P _ eq_refl). lia.
  - inversion Rf; subst; rewrite ?app_length; try lia. match goal with B : bad_frame _ _ |- _ => apply bad_frame_rest in B end. lia.
Qed.

Definition holds_std (r : option bytes) (s : std) : Prop := match r with Some rest => s = mk_std rest false | None => sd_shut s = true end.

Lemma names_any {B C} (S : std * list nobj * B -> C -> Prop) ct fuel k q so names dss b :
  replays_all ct so names dss b ->
  forall pre s w (k' : writer -> io C), wat 0 w -> holds_std so s ->
  (forall d, so = Some d -> (length d <= fuel)%nat) -> (forall c, In (Some c) names -> (length c <= fuel)%nat) ->
  (forall s os, sim S (on_names 1 s os (k None)) q) ->
  (forall s os w1, wat 0 w1 -> sim S (on_names 1 s os (k (Some w1))) (k' w1)) ->
  sim S (on_names 1 s (pre ++ map named names) (bind (process_files fuel ct (1 + length pre) (length names) w) k))
    (each w (concat dss) (fun w => if b then Fail (FUb ub_uaf) else k' w) q).
Proof.
  induction 1 as [so|so c names ds r dss b P _ IH|d ds r names dss b P _ IH|names]; intros pre s w k' W Hs Ld Lc KN K.
  - cbn [length process_files map concat bind]. unfold each. cbn [write_each bind]. apply K; auto.
  - cbn [length process_files map concat named]. apply names_assoc. eapply sim_r; [apply each_app|].
    apply names_one with (d := c) (rr := r) (s0 := Some s); auto; [apply Lc; left; reflexivity|cbn; auto|].
    intros s1 o1 w1 A W1. cbn [leaves] in A. subst s1. rewrite app_one, (len_one pre o1). apply IH; auto. intros c' Hc. apply Lc. right. exact Hc.
  - cbn [length process_files map concat named]. apply names_assoc. eapply sim_r; [apply each_app|].
    cbn [holds_std] in Hs. subst s.
    apply names_one with (d := d) (rr := r) (s0 := None); auto; [cbn; auto|].
    intros s1 o1 w1 A W1. cbn [leaves] in A. rewrite app_one, (len_one pre o1). apply IH; auto; [|intros c' Hc; apply Lc; right; exact Hc].
    intros rest ->. specialize (Ld d eq_refl). pose proof (replays_rest _ _ _ _ P). lia.
  - cbn [length process_files map concat named]. unfold each. cbn [write_each bind]. apply names_assoc. rewrite names_shut by exact Hs. constructor.
Qed.

(** ** The program *)
Lemma replay_names_any ct d names dss b fuel iovm w :
  replays_all ct (Some d) names dss b -> (length d <= fuel)%nat -> (forall c, In (Some c) names -> (length c <= fuel)%nat) ->
  lenN ct <= CT_MAX -> writer_init iovm [ct] (socket_rdwr 0) = Some w ->
  sim (fun x y => snd x = y)
    (on_names 1 (mk_std d false) (map named names) (replay_main fuel iovm ct (length names)))
    (if b then hasty_then_ub w (concat dss) else hasty_copy w (concat dss)).
Proof.
  intros RA Ld Lc0 Lc Hw. unfold replay_main, init_writer.
  unfold writer_options_add_content_type. unfold CT_MAX, FSTRM_CONTROL_FIELD_CONTENT_TYPE_LENGTH_MAX in *.
  destruct (256 <? lenN ct) eqn:E1; [lia|]. cbn [app]. rewrite Hw.
  assert (W : wat 0 w) by (injection Hw as <-; reflexivity).
  assert (Ld' : forall d', Some d = Some d' -> (length d' <= fuel)%nat) by (intros d' [= <-]; exact Ld).
  destruct b.
  - apply names_assoc. unfold hasty_then_ub.
    apply names_local with (J := fun z => wat 0 (snd z)); [apply wat0_names, asks_wopen; exact W|].
    intros [x w1] W1. cbn [snd] in W1. destruct (negb (res_eqb x r_success)).
    + apply names_assoc. apply names_local with (J := fun _ => True); [apply wat0_names, asks_wdestroy, W1|]. intros z _. cbn [bind on_names].
      constructor. reflexivity.
    + cbn [bind]. eapply sim_r; [|apply (names_any _ ct fuel _ (Ret false) (Some d) names dss true RA [] (mk_std d false) w1 (fun w => bind (writer_close w) (fun z => bind (writer_destroy (snd z)) (fun _ => Ret true))))]; auto.
      * unfold each. apply bind_ext. intros [[n ok] w2]. destruct ok; reflexivity.
      * reflexivity.
      * intros s os. cbn [on_names]. constructor. reflexivity.
      * intros s os w2 W2. apply names_local with (J := fun z => wat 0 (snd z)); [apply wat0_names, asks_wclose, W2|].
        intros [x2 w3] W3. cbn [snd] in W3 |- *.
        apply names_local with (J := fun _ => True); [apply wat0_names, asks_wdestroy, W3|]. intros z _. cbn [on_names]. constructor. reflexivity.
  - eapply sim_r; [apply sim_sym, hasty_each|]. apply names_assoc.
    apply names_local with (J := fun z => wat 0 (snd z)); [apply wat0_names, asks_wopen; exact W|].
    intros [x w1] W1. cbn [snd] in W1. destruct (negb (res_eqb x r_success)).
    + apply names_assoc. apply names_local with (J := fun _ => True); [apply wat0_names, asks_wdestroy, W1|]. intros z _. cbn [bind on_names].
      constructor. reflexivity.
    + cbn [bind]. apply (names_any _ ct fuel _ _ (Some d) names dss false RA [] (mk_std d false)); auto; [reflexivity| |].
      * intros s os. cbn [on_names]. constructor. reflexivity.
      * intros s os w2 W2. apply names_local with (J := fun z => wat 0 (snd z)); [apply wat0_names, asks_wclose, W2|].
        intros [x2 w3] W3. cbn [snd] in W3.
        apply names_local with (J := fun _ => True); [apply wat0_names, asks_wdestroy, W3|]. intros z _. cbn [on_names]. constructor. reflexivity.
Qed.

(** ** Every input is one of these *)
Lemma parse_bad inp ds e rest : parse DEFAULT_MAX inp ds e rest -> e = E_badctl -> exists r, bad_stream inp ds r.
Proof.
  induction 1 as [p inp ds e rest K Hm P IH|t cts inp ds e rest K Ht P IH| | | | | | |n rest H1 H2|p rest Hp B]; intro Ee; try discriminate Ee.
  - destruct (IH Ee) as [r Hr]. exists r. apply bs_data; assumption.
  - destruct (IH Ee) as [r Hr]. exists r. apply bs_skip; assumption.
  - exists (Some rest). apply bs_bad, bf_long; assumption.
  - destruct p as [|x p].
    + exists None. apply bs_bad. exact (bf_empty rest).
    + exists (Some rest). apply bs_bad, bf_bad; [discriminate|assumption..].
Qed.

Lemma no_stream_refused d : no_stream d -> exists r, refused d r.
Proof.
  intro NS. destruct (N.lt_ge_cases (lenN d) 4) as [L4|L4]; [exists None; apply rf_short; exact L4|].
  destruct (split_at d 4) as (h & b & -> & Lh); [unfold lenN in L4; lia|].
  assert (Eh : h = be32 (ntohl_bytes h)) by (rewrite be32_ntohl by lia; symmetry; apply firstn_all2; lia).
  pose proof (ntohl_lt h) as Hlt. set (n := ntohl_bytes h) in *. clearbody n. subst h.
  destruct (N.eq_dec n 0) as [->|E0]; [|exists (Some b); apply rf_data; [lia|exact Hlt]].
  destruct (N.lt_ge_cases (lenN b) 4) as [B4|B4]; [exists None; apply rf_short_len; exact B4|].
  destruct (split_at b 4) as (h2 & b2 & -> & Lh2); [unfold lenN in B4; lia|].
  assert (Eh2 : h2 = be32 (ntohl_bytes h2)) by (rewrite be32_ntohl by lia; symmetry; apply firstn_all2; lia).
  pose proof (ntohl_lt h2) as Hlt2. set (cl := ntohl_bytes h2) in *. clearbody cl. subst h2.
  destruct (N.lt_ge_cases CTL_MAX cl) as [C1|C1]; [exists (Some b2); apply rf_bad, bf_long; assumption|].
  destruct (N.lt_ge_cases (lenN b2) cl) as [C2|C2]; [exists None; apply rf_short_ctl; assumption|].
  destruct (split_at b2 (N.to_nat cl)) as (p & b3 & -> & Lp); [unfold lenN in C2; lia|].
  assert (Hp : cl = lenN p) by (unfold lenN; lia). subst cl.
  destruct (decode_noheader control_init p) as (x & c' & D & Hr & Hs). destruct Hr as [-> | ->].
  - destruct (Hs eq_refl) as [K EP]. destruct c' as [t cts]. cbn [c_type c_cts] in *. subst p.
    assert (F : be32 0 ++ be32 (lenN (ctl_payload t cts)) ++ ctl_payload t cts ++ b3 = ctl_frame t cts ++ b3) by (unfold ctl_frame; rewrite <- !app_assoc; reflexivity).
    exists (Some b3). rewrite F in *. apply rf_other; [exact K|]. intros ->. exact (NS cts b3 K eq_refl).
  - destruct p as [|y p]; [exists None; apply rf_bad; exact (bf_empty b3)|]. exists (Some b3). apply rf_bad, bf_bad; [discriminate|exact C1|].
    intros t cts K E. rewrite E in D. pose proof (control_decode_complete control_init t cts 0 [] K) as D'.
    change (N.odd 0) with false in D'. cbn [ctl_wire] in D'. rewrite app_nil_r in D'. congruence.
Qed.

Lemma replays_total ct d : ~ oversized ct d -> exists ds r, replays ct d ds r.
Proof.
  intro NO. destruct (classify d) as [NS|(st & ds & e & SF)].
  - destruct (no_stream_refused d NS) as [r Hr]. exists [], r. apply rp_none; exact Hr.
  - pose proof SF as (Ks & inp & rest & E & P).
    destruct (res_eqb (control_match (mk_control T_START st) (Some ct)) r_success) eqn:EM.
    + apply match_accepted in EM; [|exact Ks]. destruct e.
      * exists ds, None. exact (rp_end ct d st ds _ SF EM (or_introl eq_refl)).
      * exists ds, None. exact (rp_end ct d st ds _ SF EM (or_intror eq_refl)).
      * destruct (parse_bad _ _ _ _ P eq_refl) as [r Hr]. exists ds, r. subst d. apply rp_bad; assumption.
      * exfalso. apply NO. exists st, ds. auto.
    + exists [], None. eapply rp_mismatch; eauto. intro A. apply match_accepted in A; [congruence|exact Ks].
Qed.

Lemma bad_frame_suffix inp rest : bad_frame inp (Some rest) -> exists a, inp = a ++ rest.
Proof. inversion 1; subst; [eexists; reflexivity|rewrite app_assoc; eexists; reflexivity]. Qed.
Lemma bad_stream_suffix inp ds r : bad_stream inp ds r -> forall rest, r = Some rest -> exists a, inp = a ++ rest.
Proof.
  induction 1 as [p inp ds r K Hm P IH|t cts inp ds r K Ht P IH|inp r B]; intros rest ->; try (destruct (IH _ eq_refl) as [a ->]; rewrite app_assoc; eexists; reflexivity).
  apply bad_frame_suffix in B as [a ->]. rewrite app_assoc. eexists; reflexivity.
Qed.
Lemma replays_suffix ct d ds rest : replays ct d ds (Some rest) -> exists a, d = a ++ rest.
Proof.
  inversion 1 as [|st inp ds' r Ks A P| |d' r Rf]; subst.
  - destruct (bad_stream_suffix _ _ _ P _ eq_refl) as [a ->]. rewrite app_assoc. eexists; reflexivity.
  - inversion Rf; subst; try (eexists; reflexivity). match goal with B : bad_frame _ _ |- _ => apply bad_frame_suffix in B as [a ->] end.
    rewrite app_assoc. eexists; reflexivity.
Qed.

Lemma replays_all_total ct names : forall so,
  (forall c, In (Some c) names -> ~ oversized ct c) -> (forall d a d', so = Some d -> d = a ++ d' -> ~ oversized ct d') ->
  exists dss b, replays_all ct so names dss b.
Proof.
  induction names as [|n names IH]; intros so Nc Ns; [exists [], false; constructor|].
  assert (Nc' : forall c, In (Some c) names -> ~ oversized ct c) by (intros c H; apply Nc; right; exact H).
  destruct n as [c|].
  - destruct (replays_total ct c (Nc c (or_introl eq_refl))) as (ds & r & P). destruct (IH so Nc' Ns) as (dss & b & A).
    exists (ds :: dss), b. eapply ra_file; eauto.
  - destruct so as [d|]; [|exists [], true; constructor].
    destruct (replays_total ct d (Ns d [] d eq_refl eq_refl)) as (ds & r & P). destruct (IH r Nc') as (dss & b & A).
    + intros d1 a d2 -> ->. destruct (replays_suffix _ _ _ _ P) as [a0 ->]. apply (Ns _ (a0 ++ a) d2 eq_refl). rewrite app_assoc. reflexivity.
    + exists (ds :: dss), b. eapply ra_stdin; eauto.
Qed.

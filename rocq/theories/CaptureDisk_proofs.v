(** Proofs about CaptureDisk.v. *)
From Coq Require Import ZArith Lia.
From Verif Require Import Bytes Spec SpecTrace SpecStream Io Control Rdwr Reader Writer Api SpecApi File Stdio
  Capture SpecCapture SpecDeliver CaptureDisk Capture_proofs Capture4_proofs Iothr2_proofs Deliver_proofs.
Import ListNotations.
Local Open Scope nat_scope.

(** ** The calls the program makes *)
Definition io_ok (x : iocall) : Prop := forall b, x <> IoWrite b false.
Definition opens (o : bool) (x : iocall) : bool :=
  match x with IoOpen => true | IoClose => false | _ => o end.
(** Only the last call may be a failed write, but for a close. *)
Definition quits (io : list iocall) : Prop :=
  exists l t, io = l ++ t /\ Forall io_ok l /\
    (t = [] \/ exists b, t = [IoWrite b false] \/ t = [IoWrite b false; IoClose]).

Definition J (c : ctx) : Prop :=
  Forall io_ok (x_io c) /\ handed (x_io c) = map snd (x_outs c) /\ fold_left opens (x_io c) false = x_open c.
Definition K (c : ctx) : Prop := quits (x_io c).

Lemma J_K c : J c -> K c.
Proof. intros [F _]. exists (x_io c), []. rewrite app_nil_r. auto. Qed.

Lemma J_same c c' : J c -> x_io c' = x_io c -> x_outs c' = x_outs c -> x_open c' = x_open c -> J c'.
Proof. intros (F & H & O) E1 E2 E3. unfold J. rewrite E1, E2, E3. auto. Qed.

Lemma handed_snoc io x : handed (io ++ [x]) = hand (handed io) x.
Proof. unfold handed. now rewrite fold_left_app. Qed.

Lemma add_last_snoc l s b : add_last (l ++ [s]) b = l ++ [s ++ b].
Proof. unfold add_last. rewrite rev_app_distr. cbn. now rewrite rev_involutive. Qed.

Lemma append_add o b : map snd (append_last o b) = add_last (map snd o) b.
Proof.
  destruct (rev o) as [|[n d] r] eqn:E.
  - assert (o = []) as -> by (rewrite <- (rev_involutive o), E; reflexivity). reflexivity.
  - assert (o = rev r ++ [(n, d)]) as -> by (rewrite <- (rev_involutive o), E; reflexivity).
    rewrite append_last_snoc, !map_app. cbn [map snd]. now rewrite add_last_snoc.
Qed.

Lemma J_note c x : J c -> io_ok x -> hand (handed (x_io c)) x = handed (x_io c) -> opens (x_open c) x = x_open c ->
  J (note_io c x).
Proof.
  intros (F & H & O) Ox Hx Op. split; [|split]; cbn [x_io x_outs x_open note_io].
  - apply Forall_app. auto.
  - now rewrite handed_snoc, Hx.
  - rewrite fold_left_app. cbn. now rewrite O.
Qed.

Lemma fwrite_J e b c ok c1 : J c -> fwrite e b c = (ok, c1) ->
  (ok = true -> J c1 /\ x_open c1 = x_open c) /\
  (ok = false -> x_io c1 = x_io c ++ [IoWrite b false]).
Proof.
  intros (F & H & O) E. unfold fwrite in E. destruct (e_fwrite e (x_tick c)); injection E as <- <-.
  - split; [|discriminate]. intros _. split; [|reflexivity]. split; [|split]; cbn [note_io x_io x_outs x_open tick set_outs].
    + apply Forall_app. split; [exact F|]. repeat constructor. intros b' Hb. discriminate.
    + rewrite handed_snoc, append_add. cbn. now rewrite H.
    + rewrite fold_left_app. cbn. exact O.
  - split; [discriminate|reflexivity].
Qed.

Lemma failed_K c b : J c -> forall c1, x_io c1 = x_io c ++ [IoWrite b false] -> K c1.
Proof. intros [F _] c1 E. exists (x_io c), [IoWrite b false]. split; [exact E|]. split; [exact F|]. right. exists b. left. reflexivity. Qed.

Lemma close_J e c : J c ->
  match close_write_file e c with
  | Go (true, c1) => J c1 /\ x_open c1 = false
  | Go (false, c1) => K c1
  | Exit c1 => K c1
  | _ => True
  end.
Proof.
  intros Jc. unfold close_write_file, close_write_stop. destruct (x_open c) eqn:Op; [|auto].
  destruct (control_set_type control_init FSTRM_CONTROL_STOP) as [[] k]; cbn [rbind]; try (apply J_K; exact Jc).
  destruct (encode_frame k) as [[b|]|f]; cbn [rbind]; [|apply J_K; exact Jc|exact I].
  destruct (fwrite e b c) as [ok c1] eqn:W. destruct (fwrite_J _ _ _ _ _ Jc W) as [T Fl].
  destruct ok.
  - destruct (T eq_refl) as [(F & H & O) _]. split; [|reflexivity]. split; [|split]; cbn [note_io x_io x_outs x_open set_outs].
    + apply Forall_app. split; [exact F|]. repeat constructor. intros b' Hb. discriminate.
    + rewrite handed_snoc. exact H.
    + rewrite fold_left_app. reflexivity.
  - apply (failed_K c b Jc). auto.
Qed.

Lemma open_J e a c : J c ->
  match open_write_file e a c with
  | Go (true, c1) => J c1 /\ x_open c1 = true
  | Go (false, c1) => K c1
  | Exit c1 => K c1
  | _ => True
  end.
Proof.
  assert (B : forall name c0, J c0 ->
    match (' (ok, c2) <~ open_write_start e a (note_io (set_outs c0 (x_outs c0 ++ [(name, [])]) true) IoOpen) ;;
           if ok : bool then Go (true, c2) else Go (false, note_io (set_outs c2 (x_outs c2) false) IoClose)) with
    | Go (true, c1) => J c1 /\ x_open c1 = true
    | Go (false, c1) => K c1
    | Exit c1 => K c1
    | _ => True
    end).
  { intros name c0 (F & H & O). set (c1 := note_io _ IoOpen).
    assert (J1 : J c1).
    { split; [|split]; cbn [c1 note_io x_io x_outs x_open set_outs].
      - apply Forall_app. split; [exact F|]. repeat constructor. intros b' Hb. discriminate.
      - rewrite handed_snoc, map_app. cbn. now rewrite H.
      - rewrite fold_left_app. reflexivity. }
    assert (KC : forall x, J x -> K (note_io (set_outs x (x_outs x) false) IoClose)).
    { intros x [Fx _]. exists (x_io x ++ [IoClose]), []. rewrite app_nil_r. split; [reflexivity|]. split; [|auto].
      apply Forall_app. split; [exact Fx|]. repeat constructor. intros b' Hb. discriminate. }
    unfold open_write_start. destruct (control_set_type control_init FSTRM_CONTROL_START) as [[] k]; cbn [rbind]; try (apply KC; exact J1).
    destruct (control_add_field k (a_ctype a)) as [[] k']; cbn [rbind]; try (apply KC; exact J1).
    destruct (encode_frame k') as [[b|]|f]; cbn [rbind]; [|apply KC; exact J1|exact I].
    destruct (fwrite e b c1) as [ok c2] eqn:W. destruct (fwrite_J _ _ _ _ _ J1 W) as [T Fl].
    destruct ok; cbn [flushed rbind].
    - destruct (T eq_refl) as [J2 O2]. split; [|exact O2]. apply J_note; auto; intros b' Hb; discriminate.
    - exists (x_io c1), [IoWrite b false; IoClose]. split; [cbn; rewrite (Fl eq_refl), <- app_assoc; reflexivity|].
      split; [exact (proj1 J1)|]. right. exists b. right. reflexivity. }
  intros Jc. unfold open_write_file. destruct (is_stdout a); [apply B; exact Jc|].
  assert (Js : forall t x, J x -> J (set_ts (tick x) t)) by (intros t x Jx; apply (J_same x); auto).
  assert (Jt : forall x, J x -> J (tick x)) by (intros x Jx; apply (J_same x); auto).
  destruct (has_calendar a).
  - unfold update_output_fname. destruct (e_strftime e _) as [name|]; [|apply J_K, Js, Jc].
    destruct (e_open e _); [apply B|apply J_K]; apply Jt, Js, Jc.
  - destruct (e_open e _); [apply B|apply J_K]; apply Jt, Jc.
Qed.

(** All outcomes of a piece of the program. *)
Definition both {A} (P : A -> Prop) (x : ores A) : Prop :=
  match x with Go v => P v | Exit c => K c | _ => True end.
Lemma both_bind {A B} (P : A -> Prop) (Q : B -> Prop) x (f : A -> ores B) :
  both P x -> (forall v, P v -> both Q (f v)) -> both Q (rbind x f).
Proof. destruct x; cbn; auto. Qed.

Lemma rotate_J e a c : J c -> both J (rotate_output e a c).
Proof.
  intros Jc. unfold rotate_output. destruct (is_stdout a); [exact Jc|].
  pose proof (close_J e c Jc) as C. destruct (close_write_file e c) as [[[] c1]|x| |]; cbn [rbind both]; auto.
  destruct C as [C _]. pose proof (open_J e a c1 C) as O.
  destruct (open_write_file e a c1) as [[[] c2]|x| |]; cbn [rbind both]; auto. apply O.
Qed.

Lemma maybe_J e a c : J c -> both J (maybe_rotate_output e a c).
Proof.
  intros Jc. unfold maybe_rotate_output. destruct (_ <? _)%Z; [|exact Jc].
  assert (Jt : J (tick c)) by (apply (J_same c); auto).
  destruct (_ <=? _)%Z; [apply rotate_J; exact Jt|exact Jt].
Qed.

Lemma data_J e id k c : J c -> both (fun v => J (snd v)) (process_data_frame e id k c).
Proof.
  intros Jc. unfold process_data_frame. destruct (fwrite e _ c) as [ok c1] eqn:W.
  destruct (fwrite_J _ _ _ _ _ Jc W) as [T Fl]. destruct ok; cbn.
  - destruct (T eq_refl) as [J1 _]. apply (J_same c1); auto.
  - eapply failed_K; eauto.
Qed.

Lemma control_J e a id k c : J c -> both (fun v => J (snd v)) (process_control_frame e a id k c).
Proof.
  intros Jc.
  assert (W : forall k2, both (fun v => J (snd v)) (write_control_frame e id k2 c)).
  { intros k2. unfold write_control_frame. destruct (encode_frame k2) as [[b|]|f]; cbn; auto.
    unfold send_frame. destruct (e_send e _); cbn; apply (J_same c); auto. }
  unfold process_control_frame. destruct (control_get_type (k_ctl k)) as [[] [t|]]; try exact Jc.
  destruct (k_state k).
  - destruct (negb _); [exact Jc|]. unfold process_control_frame_ready.
    destruct (control_get_num (k_ctl k)) as [[] n]; try exact Jc.
    destruct (match_content_type a k); [|exact Jc].
    destruct (control_set_type _ _) as [[] k1]; try exact Jc.
    destruct (control_add_field k1 (a_ctype a)) as [[] k2]; try exact Jc.
    eapply both_bind; [apply W|]. intros [[] c1] J1; exact J1.
  - destruct (negb _); [exact Jc|]. unfold process_control_frame_start. destruct (match_content_type a k); exact Jc.
  - destruct (negb _); [exact Jc|]. unfold process_control_frame_stop.
    destruct (control_set_type _ _) as [[] k1]; try exact Jc.
    eapply both_bind; [apply W|]. intros [[] c1] J1; exact J1.
  - exact Jc.
Qed.

Lemma loop_J e a fuel : forall id k c, J c -> both (fun v => J (snd v)) (read_loop e a fuel id k c).
Proof.
  induction fuel as [|fuel IH]; intros id k c Jc; [exact Logic.I|]. cbn [read_loop].
  destruct (_ =? _)%N; [exact Jc|]. destruct (_ =? _)%N.
  - assert (JH : forall x, J x -> J (cb_close_conn id (note x id Hangup))) by (intros x Jx; apply (J_same x); auto).
    destruct (can_read_full_frame a k) as [|k1|k1]; [apply JH; exact Jc|exact Jc|].
    destruct (_ <? _)%N.
    + eapply both_bind; [apply data_J; exact Jc|]. intros [k2 c1] J1. cbn [snd] in J1.
      eapply both_bind; [apply maybe_J; exact J1|]. intros c2 J2. apply IH. exact J2.
    + destruct (load_control_frame k1) as [[[] k2]|f]; [|apply JH; exact Jc|exact Logic.I].
      eapply both_bind; [apply control_J; exact Jc|]. intros [[[] k3] c1] J1; cbn [snd] in J1.
      * apply IH. exact J1.
      * apply JH. exact J1.
  - apply IH. exact Jc.
Qed.

Lemma step_J e a x c : J c -> both J (step e a x c).
Proof.
  intros Jc. destruct x as [id|id chunk|id|id| |]; cbn [step].
  - apply (J_same c); auto.
  - destruct (find_conn id (x_conns c)); [|exact Logic.I]. unfold cb_read.
    eapply both_bind; [apply loop_J; exact Jc|]. intros [[k1|] c1] J1; cbn [snd] in J1; [apply (J_same c1); auto|exact J1].
  - destruct (find_conn id (x_conns c)) as [k|]; [|exact Logic.I]. cbn. unfold cb_write.
    destruct (k_state k); auto; apply (J_same c); auto.
  - destruct (find_conn id (x_conns c)); [|exact Logic.I]. apply (J_same c); auto.
  - destruct (x_open c); [apply rotate_J|]; exact Jc.
  - destruct (x_open c); [|exact Jc]. cbn. apply J_note; auto. intros b' Hb. discriminate.
Qed.

Lemma boot_J e a : both J (boot e a).
Proof.
  unfold boot. set (c0 := mk_ctx _ _ _ _ _ _ _ _ _). assert (J0 : J c0) by (split; [constructor|split; reflexivity]).
  pose proof (open_J e a c0 J0) as O. destruct (open_write_file e a c0) as [[[] c1]|x| |]; cbn [rbind both]; auto. apply O.
Qed.

Lemma shutdown_J e c : J c -> both (fun c' => J c' /\ x_open c' = false) (shutdown e c).
Proof.
  intros Jc. unfold shutdown. pose proof (close_J e c Jc) as C.
  destruct (close_write_file e c) as [[[] c1]|x| |]; cbn [rbind both]; auto.
Qed.

Lemma reach_J e a H c : reach e a H c -> J c.
Proof.
  induction 1 as [c B|H c x c' R IH L S].
  - pose proof (boot_J e a) as X. now rewrite B in X.
  - pose proof (step_J e a x c IH) as X. now rewrite S in X.
Qed.

(** ** The disk *)
Section Runs.
Variable D : nat -> dact.

Lemma cap_runs_app d io1 io2 fs cs d2 : cap_runs D d (io1 ++ io2) fs cs d2 ->
  exists fs1 cs1 d1 fs2 cs2, fs = fs1 ++ fs2 /\ cs = cs1 ++ cs2 /\
    cap_runs D d io1 fs1 cs1 d1 /\ cap_runs D d1 io2 fs2 cs2 d2.
Proof.
  revert d fs cs. induction io1 as [|x io1 IH]; intros d fs cs R.
  - exists [], [], d, fs, cs. repeat split; auto. constructor.
  - cbn [app] in R. inversion R; subst;
      match goal with H : cap_runs D _ (io1 ++ io2) _ _ _ |- _ =>
        destruct (IH _ _ _ H) as (fs1 & cs1 & d1 & fs2 & cs2 & -> & -> & R1 & R2) end.
    + exists fs1, cs1, d1, fs2, cs2. repeat split; auto. constructor. exact R1.
    + exists fs1, cs1, d1, fs2, cs2. repeat split; auto. econstructor; eauto.
    + exists (ok :: fs1), cs1, d1, fs2, cs2. repeat split; auto. econstructor; eauto.
    + exists fs1, (ok :: cs1), d1, fs2, cs2. repeat split; auto. econstructor; eauto.
Qed.

Lemma c_fwrite_ok da content buf b content' buf' : c_fwrite da content buf b = (content', buf', true) ->
  content' ++ buf' = content ++ buf ++ b.
Proof.
  unfold c_fwrite. destruct b as [|x b]; [discriminate|]. intros H. injection H as <- <- O. rewrite O.
  rewrite <- !app_assoc. now rewrite firstn_skipn.
Qed.

Lemma firstn_le_prefix {A} n (l : list A) : prefix (firstn n l) l.
Proof. exists (skipn n l). now rewrite firstn_skipn. Qed.
Lemma prefix_app_l {A} (a b c : list A) : prefix b c -> prefix (a ++ b) (a ++ c).
Proof. intros [x ->]. exists x. now rewrite app_assoc. Qed.
Lemma prefix_trans {A} (a b c : list A) : prefix a b -> prefix b c -> prefix a c.
Proof. intros [x ->] [y ->]. exists (x ++ y). now rewrite app_assoc. Qed.

Lemma prefix_firstn_app {A} n (l x : list A) : prefix x (skipn n l) -> prefix (firstn n l ++ x) l.
Proof. intros [y E]. exists y. rewrite <- app_assoc, <- E. now rewrite firstn_skipn. Qed.

Lemma c_fwrite_prefix da content buf b content' buf' ok : c_fwrite da content buf b = (content', buf', ok) ->
  prefix (content' ++ buf') (content ++ buf ++ b).
Proof.
  unfold c_fwrite. destruct b as [|x b].
  - intros H. injection H as <- <- _. rewrite app_nil_r. exists []. now rewrite app_nil_r.
  - set (p := buf ++ x :: b). intros H. injection H as <- <- _. rewrite <- app_assoc. apply prefix_app_l.
    fold p. apply prefix_firstn_app.
    destruct (da_ok da); [exists []; now rewrite app_nil_r|apply firstn_le_prefix].
Qed.

Lemma put_ok ps : forall n content buf content' buf' n',
  put D n content buf ps = (content', buf', n', true) -> content' ++ buf' = content ++ buf ++ concat ps.
Proof.
  induction ps as [|p ps IH]; intros n content buf content' buf' n' P; cbn [put concat] in *.
  - injection P as <- <- _. now rewrite app_nil_r.
  - destruct (c_fwrite (D n) content buf p) as [[c1 b1] [|]] eqn:W; [|discriminate].
    rewrite (IH _ _ _ _ _ _ P). apply c_fwrite_ok in W. rewrite app_assoc, W, <- !app_assoc. reflexivity.
Qed.

Lemma put_prefix ps : forall n content buf content' buf' n' ok,
  put D n content buf ps = (content', buf', n', ok) -> prefix (content' ++ buf') (content ++ buf ++ concat ps).
Proof.
  induction ps as [|p ps IH]; intros n content buf content' buf' n' ok P; cbn [put concat] in *.
  - injection P as <- <- _ _. rewrite app_nil_r. exists []. now rewrite app_nil_r.
  - destruct (c_fwrite (D n) content buf p) as [[c1 b1] [|]] eqn:W.
    + pose proof (IH _ _ _ _ _ _ _ P) as Q. apply c_fwrite_ok in W. rewrite app_assoc, W in Q. now rewrite <- !app_assoc in Q.
    + injection P as <- <- _ _. apply c_fwrite_prefix in W. eapply prefix_trans; [exact W|].
      exists (concat ps). now rewrite <- !app_assoc.
Qed.

Lemma c_fflush_ok da content buf content' buf' : c_fflush da content buf = (content', buf', true) ->
  content' = content ++ buf /\ buf' = [].
Proof.
  unfold c_fflush. destruct (skipn (da_out da) buf) as [|x r] eqn:E; [|rewrite andb_false_r; discriminate].
  rewrite andb_true_r. intros H. injection H as <- <- O. rewrite O. split; [|reflexivity].
  rewrite <- (firstn_skipn (da_out da) buf) at 2. now rewrite E, app_nil_r.
Qed.

Lemma c_fflush_prefix da content buf content' buf' ok : c_fflush da content buf = (content', buf', ok) ->
  prefix (content' ++ buf') (content ++ buf).
Proof.
  unfold c_fflush. intros H. injection H as <- <- _. rewrite <- app_assoc. apply prefix_app_l.
  apply prefix_firstn_app.
  destruct (_ && _); [exists (skipn (da_out da) buf); reflexivity|apply firstn_le_prefix].
Qed.

(** All that is on disk or pending. *)
Definition held (d : cdisk) : list bytes :=
  cd_closed d ++ match cd_cur d with Some (content, buf) => [content ++ buf] | None => [] end.

(** Every result good: everything handed over is held. *)
Lemma all_good d io fs cs d' : cap_runs D d io fs cs d' -> Forall io_ok io ->
  Forall (eq true) fs -> Forall (eq true) cs -> held d' = fold_left hand io (held d).
Proof.
  induction 1 as [d|files n io fs cs d R IH|files content buf n ps content' buf' n' ok io fs cs d Hp P R IH
    |files content buf n content' buf' ok io fs cs d W R IH|files content buf n content' ok io fs cs d W R IH];
    intros Fio Ffs Fcs; [reflexivity| | | |]; inversion Fio as [|? ? Ox Fio']; subst; cbn [fold_left].
  - rewrite IH; auto. unfold held. cbn. now rewrite app_nil_r.
  - rewrite IH; auto. unfold held. cbn [cd_closed cd_cur hand]. rewrite add_last_snoc.
    destruct ok; [|exfalso; apply (Ox (concat ps)); reflexivity]. rewrite (put_ok _ _ _ _ _ _ _ P). now rewrite <- app_assoc.
  - inversion Ffs as [|? ? O Ffs']; subst. rewrite IH; auto. unfold held. cbn [cd_closed cd_cur hand].
    destruct (c_fflush_ok _ _ _ _ _ W) as [-> ->]. now rewrite app_nil_r.
  - inversion Fcs as [|? ? O Fcs']; subst. rewrite IH; auto. unfold held. cbn [cd_closed cd_cur hand].
    unfold c_fclose in W. destruct (c_fflush (D n) content buf) as [[c1 b1] o1] eqn:E. injection W as -> ->.
    destruct (c_fflush_ok _ _ _ _ _ E) as [-> _]. now rewrite app_nil_r.
Qed.

Lemma cur_open d io fs cs d' : cap_runs D d io fs cs d' ->
  match cd_cur d' with Some _ => true | None => false end =
  fold_left opens io (match cd_cur d with Some _ => true | None => false end).
Proof. induction 1; cbn [fold_left opens cd_cur] in *; auto. Qed.

(** Flushes good: what is held is, file by file, a prefix of what was handed
    over; for the file being written, all of it unless its last write failed. *)
Definition pre_held (d : cdisk) (l : list bytes) : Prop :=
  exists done, Forall2 prefix (cd_closed d) done /\
    match cd_cur d with
    | Some (content, buf) => l = done ++ [content ++ buf]
    | None => l = done
    end.

Lemma good_flushes d io fs cs d' : cap_runs D d io fs cs d' -> Forall io_ok io -> Forall (eq true) fs ->
  forall l, pre_held d l -> pre_held d' (fold_left hand io l).
Proof.
  induction 1 as [d|files n io fs cs d R IH|files content buf n ps content' buf' n' ok io fs cs d Hp P R IH
    |files content buf n content' buf' ok io fs cs d W R IH|files content buf n content' ok io fs cs d W R IH];
    intros Fio Ffs l (done & Hf & El); [exists done; auto| | | |]; inversion Fio as [|? ? Ox Fio']; subst;
    cbn [fold_left cd_closed cd_cur hand] in *; subst.
  - apply IH; auto. exists done. split; [exact Hf|reflexivity].
  - apply IH; auto. exists done. split; [exact Hf|]. cbn [cd_cur]. rewrite add_last_snoc.
    destruct ok; [|exfalso; apply (Ox (concat ps)); reflexivity]. rewrite (put_ok _ _ _ _ _ _ _ P). now rewrite <- app_assoc.
  - inversion Ffs as [|? ? O Ffs']; subst. apply IH; auto. exists done. split; [exact Hf|]. cbn [cd_cur].
    destruct (c_fflush_ok _ _ _ _ _ W) as [-> ->]. now rewrite app_nil_r.
  - apply IH; auto. exists (done ++ [content ++ buf]). split; [|reflexivity]. apply Forall2_app; [exact Hf|].
    repeat constructor. unfold c_fclose in W. destruct (c_fflush (D n) content buf) as [[c1 b1] o1] eqn:E. injection W as -> ->.
    apply c_fflush_prefix in E. eapply prefix_trans; [|exact E]. exists b1. reflexivity.
Qed.

Lemma pre_held_files d l : pre_held d l -> Forall2 prefix (cd_files d) l.
Proof.
  intros (done & Hf & E). unfold cd_files. destruct (cd_cur d) as [[content buf]|]; subst.
  - apply Forall2_app; [exact Hf|]. repeat constructor. exists buf. reflexivity.
  - now rewrite app_nil_r.
Qed.

(** In general: bytes may be missing anywhere. *)
Lemma subseq_refl {A} (l : list A) : subseq l l.
Proof. induction l; [apply sub_nil|apply sub_take; assumption]. Qed.
Lemma prefix_subseq {A} (a b : list A) : prefix a b -> subseq a b.
Proof. intros [c ->]. rewrite <- (app_nil_r a) at 1. apply subseq_app; [apply subseq_refl|apply subseq_nil_l]. Qed.

Definition sub_held (d : cdisk) (l : list bytes) : Prop := Forall2 subseq (held d) l.

Lemma any_results d io fs cs d' : cap_runs D d io fs cs d' ->
  forall l, sub_held d l -> sub_held d' (fold_left hand io l).
Proof.
  induction 1 as [d|files n io fs cs d R IH|files content buf n ps content' buf' n' ok io fs cs d Hp P R IH
    |files content buf n content' buf' ok io fs cs d W R IH|files content buf n content' ok io fs cs d W R IH];
    intros l Hl; [exact Hl| | | |]; cbn [fold_left]; apply IH; unfold sub_held, held in *; cbn [cd_closed cd_cur hand] in *.
  - rewrite app_nil_r in Hl. apply Forall2_app; [exact Hl|]. repeat constructor.
  - apply Forall2_app_inv_l in Hl. destruct Hl as (l1 & l2 & H1 & H2 & ->).
    inversion H2 as [|? s ? ? Hs Hn]; subst. inversion Hn; subst. rewrite add_last_snoc.
    apply Forall2_app; [exact H1|]. repeat constructor.
    apply put_prefix in P. eapply subseq_trans; [apply prefix_subseq; exact P|].
    rewrite app_assoc. apply subseq_app; [exact Hs|apply subseq_refl].
  - apply Forall2_app_inv_l in Hl. destruct Hl as (l1 & l2 & H1 & H2 & ->).
    inversion H2 as [|? s ? ? Hs Hn]; subst. inversion Hn; subst.
    apply Forall2_app; [exact H1|]. repeat constructor.
    apply c_fflush_prefix in W. eapply subseq_trans; [apply prefix_subseq; exact W|exact Hs].
  - apply Forall2_app_inv_l in Hl. destruct Hl as (l1 & l2 & H1 & H2 & ->).
    inversion H2 as [|? s ? ? Hs Hn]; subst. inversion Hn; subst. rewrite app_nil_r.
    apply Forall2_app; [exact H1|]. repeat constructor.
    unfold c_fclose in W. destruct (c_fflush (D n) content buf) as [[c1 b1] o1] eqn:E. injection W as -> ->.
    apply c_fflush_prefix in E. eapply subseq_trans; [apply prefix_subseq|exact Hs]. eapply prefix_trans; [|exact E]. exists b1. reflexivity.
Qed.
Lemma held_files d l : Forall2 subseq (held d) l -> Forall2 subseq (cd_files d) l.
Proof.
  unfold held, cd_files. destruct (cd_cur d) as [[content buf]|]; [|auto]. intros Hl.
  apply Forall2_app_inv_l in Hl. destruct Hl as (l1 & l2 & H1 & H2 & ->).
  inversion H2 as [|? s ? ? Hs Hn]; subst. inversion Hn; subst. apply Forall2_app; [exact H1|]. repeat constructor.
  eapply subseq_trans; [|exact Hs]. apply prefix_subseq. exists buf. reflexivity.
Qed.
End Runs.

(** ** The whole program *)
Lemma held0 : held cdisk0 = [].
Proof. reflexivity. Qed.

Lemma stored_all e a H c c' D fs cs d : reach e a H c -> shutdown e c = Go c' ->
  cap_runs D cdisk0 (x_io c') fs cs d -> Forall (eq true) fs -> Forall (eq true) cs ->
  cd_cur d = None /\ cd_closed d = map snd (x_outs c').
Proof.
  intros R S CR Ffs Fcs. pose proof (shutdown_J e c (reach_J _ _ _ _ R)) as X. rewrite S in X.
  destruct X as [(F & Hh & O) Cl]. pose proof (cur_open _ _ _ _ _ _ CR) as Cu. cbn [cd_cur cdisk0] in Cu. rewrite O, Cl in Cu.
  pose proof (all_good _ _ _ _ _ _ CR F Ffs Fcs) as G. rewrite held0 in G. fold (handed (x_io c')) in G. rewrite Hh in G.
  unfold held in G. destruct (cd_cur d) as [[content buf]|]; [discriminate|]. rewrite app_nil_r in G. auto.
Qed.

Lemma sighup_stores e a H c c' D fs cs d : reach e a H c -> step e a E_sighup c = Go c' ->
  cap_runs D cdisk0 (x_io c') fs cs d -> Forall (eq true) fs -> Forall (eq true) cs ->
  cd_files d = map snd (x_outs c').
Proof.
  intros R S CR Ffs Fcs. assert (Op : x_open c = true) by exact (proj1 (proj2 (proj2 (reach_inv _ _ _ _ R)))).
  pose proof (step_J e a E_sighup c (reach_J _ _ _ _ R)) as X. rewrite S in X.
  destruct X as (F & Hh & O). cbn [step] in S. rewrite Op in S. injection S as <-. cbn [note_io x_io x_outs] in *.
  pose proof (all_good _ _ _ _ _ _ CR F Ffs Fcs) as G. rewrite held0 in G. fold (handed (x_io c ++ [IoFlush])) in G. rewrite Hh in G.
  rewrite <- G. destruct (cap_runs_app _ _ _ _ _ _ _ CR) as (fs1 & cs1 & d1 & fs2 & cs2 & -> & -> & R1 & R2).
  inversion R2 as [| | |files content buf n content' buf' ok io fs0 cs0 d0 W R3|]; subst. inversion R3; subst.
  apply Forall_app in Ffs. destruct Ffs as [_ Ffs]. inversion Ffs; subst.
  destruct (c_fflush_ok _ _ _ _ _ W) as [-> ->]. unfold cd_files, held. cbn. now rewrite !app_nil_r.
Qed.

Lemma writes_succeed e a H c : reach e a H c -> forall b, ~ In (IoWrite b false) (x_io c).
Proof.
  intros R b Hb. destruct (reach_J _ _ _ _ R) as [F _]. rewrite Forall_forall in F. exact (F _ Hb b eq_refl).
Qed.

Lemma handed_outs e a H c : reach e a H c -> handed (x_io c) = map snd (x_outs c).
Proof. intros R. apply (reach_J _ _ _ _ R). Qed.

Lemma quits_prefix io more : quits (io ++ more) -> quits io.
Proof.
  intros (l & t & E & F & T).
  assert (X : exists z, (l = io ++ z /\ more = z ++ t) \/ (io = l ++ z /\ t = z ++ more)).
  { clear F T. revert l E. induction io as [|y io IH]; intros l E; cbn [app] in *.
    - exists l. left. auto.
    - destruct l as [|y' l]; cbn [app] in *.
      + exists (y :: io). right. auto.
      + injection E as <- E. destruct (IH l E) as [z [[-> ->]|[-> ->]]]; exists z; [left|right]; auto. }
  destruct X as [z [[-> _]|[-> Et]]].
  - apply Forall_app in F. exists io, []. rewrite app_nil_r. intuition.
  - destruct T as [->|[b [->| ->]]].
    + destruct z; [|discriminate]. exists l, []. auto.
    + destruct z as [|y z]; [exists l, []; auto|]. injection Et as <- Et. destruct z; [|discriminate].
      exists l, [IoWrite b false]. split; [reflexivity|]. split; [exact F|]. right. exists b. auto.
    + destruct z as [|y z]; [exists l, []; auto|]. injection Et as <- Et. destruct z as [|y z].
      * exists l, [IoWrite b false]. split; [reflexivity|]. split; [exact F|]. right. exists b. auto.
      * injection Et as <- Et. destruct z; [|discriminate].
        exists l, [IoWrite b false; IoClose]. split; [reflexivity|]. split; [exact F|]. right. exists b. auto.
Qed.

Lemma moment_quits e a io : moment e a io -> quits io.
Proof.
  assert (B : forall x c, both J x -> x = Go c \/ x = Exit c -> quits (x_io c)).
  { intros x c P [->| ->]; [apply J_K|]; exact P. }
  intros [c S io0 more E|H c x c' R S io0 more E|H c c' R S io0 more E]; apply (quits_prefix _ more); rewrite <- E.
  - apply (B (boot e a)); [apply boot_J|exact S].
  - apply (B (step e a x c)); [apply step_J, (reach_J _ _ _ _ R)|exact S].
  - pose proof (shutdown_J e c (reach_J _ _ _ _ R)) as P. destruct S as [S|S]; rewrite S in P; [apply J_K, P|exact P].
Qed.

(** What is held is a prefix, file by file, also after a failed write. *)
Definition fin_held (d : cdisk) (l : list bytes) : Prop :=
  exists done, Forall2 prefix (cd_closed d) done /\
    match cd_cur d with
    | Some (content, buf) => exists s, l = done ++ [s] /\ prefix (content ++ buf) s
    | None => l = done
    end.
Lemma pre_fin d l : pre_held d l -> fin_held d l.
Proof.
  intros (done & F & E). exists done. split; [exact F|]. destruct (cd_cur d) as [[content buf]|]; [|exact E].
  exists (content ++ buf). split; [exact E|]. exists []. now rewrite app_nil_r.
Qed.
Lemma fin_files D d l : fin_held d l -> Forall2 prefix (cd_files d) l /\ Forall2 prefix (cd_files (cd_exit D d)) l.
Proof.
  intros (done & F & E). unfold cd_files, cd_exit. destruct (cd_cur d) as [[content buf]|] eqn:Cu; cbn [cd_closed cd_cur].
  - destruct E as (s & -> & P). split.
    + apply Forall2_app; [exact F|]. repeat constructor. eapply prefix_trans; [|exact P]. exists buf. reflexivity.
    + rewrite app_nil_r. apply Forall2_app; [exact F|]. repeat constructor. eapply prefix_trans; [|exact P].
      unfold c_fclose. destruct (c_fflush (D (cd_tick d)) content buf) as [[c1 b1] o1] eqn:W. cbn [fst].
      apply c_fflush_prefix in W. eapply prefix_trans; [|exact W]. exists b1. reflexivity.
  - rewrite Cu, app_nil_r, E. auto.
Qed.

Lemma quits_prefixes D io fs cs d : cap_runs D cdisk0 io fs cs d -> quits io -> Forall (eq true) fs ->
  fin_held d (handed io).
Proof.
  intros R (l & t & -> & F & T) Ffs.
  destruct (cap_runs_app _ _ _ _ _ _ _ R) as (fs1 & cs1 & d1 & fs2 & cs2 & -> & -> & R1 & R2).
  apply Forall_app in Ffs. destruct Ffs as [Ffs1 Ffs2].
  assert (P1 : pre_held d1 (handed l)).
  { apply (good_flushes _ _ _ _ _ _ R1 F Ffs1). exists []. split; [constructor|reflexivity]. }
  unfold handed. rewrite fold_left_app. fold (handed l).
  assert (W : forall b io d2 fs cs, cap_runs D d1 (IoWrite b false :: io) fs cs d2 ->
    exists d3, cap_runs D d3 io fs cs d2 /\ fin_held d3 (add_last (handed l) b)).
  { intros b io d2 fs cs RW. inversion RW as [| |files content buf n ps content' buf' n' ok io0 fs0 cs0 d0 Hp P R3| |]; subst.
    eexists. split; [exact R3|]. destruct P1 as (done & Fd & E). cbn [cd_closed cd_cur] in *.
    exists done. split; [exact Fd|]. cbn [cd_cur]. rewrite E, add_last_snoc. eexists. split; [reflexivity|].
    apply put_prefix in P. now rewrite app_assoc in P. }
  destruct T as [->|[b [->| ->]]]; cbn [fold_left hand].
  - inversion R2; subst. apply pre_fin. exact P1.
  - destruct (W _ _ _ _ _ R2) as (d3 & R3 & P3). inversion R3; subst. exact P3.
  - destruct (W _ _ _ _ _ R2) as (d3 & R3 & P3).
    inversion R3 as [| | | |files content buf n content' ok io0 fs0 cs0 d0 E R4]; subst. inversion R4; subst.
    destruct P3 as (done & Fd & s & El & P). cbn [cd_closed cd_cur] in *. exists (done ++ [s]).
    cbn [cd_closed cd_cur]. split; [|exact El]. apply Forall2_app; [exact Fd|]. repeat constructor.
    unfold c_fclose in E. destruct (c_fflush (D n) content buf) as [[c1 b1] o1] eqn:E1. injection E as -> ->.
    apply c_fflush_prefix in E1. eapply prefix_trans; [|exact P]. eapply prefix_trans; [|exact E1]. exists b1. reflexivity.
Qed.

Lemma always_prefixes e a io D fs cs d : moment e a io -> cap_runs D cdisk0 io fs cs d -> Forall (eq true) fs ->
  Forall2 prefix (cd_files d) (handed io) /\ Forall2 prefix (cd_files (cd_exit D d)) (handed io).
Proof. intros M R F. apply fin_files. exact (quits_prefixes _ _ _ _ _ R (moment_quits _ _ _ M) F). Qed.

Lemma always_parts io D fs cs d : cap_runs D cdisk0 io fs cs d -> Forall2 subseq (cd_files d) (handed io).
Proof. intros R. apply held_files. apply (any_results _ _ _ _ _ _ R). constructor. Qed.

(** ** Running the calls, every frame in one piece *)
Fixpoint cap_exec (D : nat -> dact) (d : cdisk) (io : list iocall) : option (list bool * list bool * cdisk) :=
  match io with
  | [] => Some ([], [], d)
  | x :: io' =>
      match x, cd_cur d with
      | IoOpen, None => cap_exec D (mk_cdisk (cd_closed d) (Some ([], [])) (cd_tick d)) io'
      | IoWrite b ok, Some (content, buf) =>
          let '(content, buf, n, ok') := put D (cd_tick d) content buf (match b with [] => [] | _ => [b] end) in
          if eqb ok ok' then cap_exec D (mk_cdisk (cd_closed d) (Some (content, buf)) n) io' else None
      | IoFlush, Some (content, buf) =>
          let '(content, buf, ok) := c_fflush (D (cd_tick d)) content buf in
          match cap_exec D (mk_cdisk (cd_closed d) (Some (content, buf)) (S (cd_tick d))) io' with
          | Some (fs, cs, d') => Some (ok :: fs, cs, d')
          | None => None
          end
      | IoClose, Some (content, buf) =>
          let '(content, ok) := c_fclose (D (cd_tick d)) content buf in
          match cap_exec D (mk_cdisk (cd_closed d ++ [content]) None (S (cd_tick d))) io' with
          | Some (fs, cs, d') => Some (fs, ok :: cs, d')
          | None => None
          end
      | _, _ => None
      end
  end.
Lemma cap_exec_sound D io : forall d fs cs d', cap_exec D d io = Some (fs, cs, d') -> cap_runs D d io fs cs d'.
Proof.
  induction io as [|x io IH]; intros [files cur n] fs cs d' E; cbn [cap_exec cd_closed cd_cur cd_tick] in E.
  - injection E as <- <- <-. constructor.
  - destruct x as [|b ok| |], cur as [[content buf]|]; try discriminate.
    + constructor. apply IH. exact E.
    + destruct (put D n content buf _) as [[[c1 b1] n1] ok1] eqn:P. destruct (eqb ok ok1) eqn:O; [|discriminate].
      apply eqb_prop in O. subst ok1.
      replace b with (concat (match b with [] => [] | _ => [b] end)) by (destruct b; cbn; now rewrite ?app_nil_r).
      econstructor; [|exact P|apply IH; exact E]. destruct b; repeat constructor. discriminate.
    + destruct (c_fflush (D n) content buf) as [[c1 b1] ok] eqn:P.
      destruct (cap_exec D _ io) as [[[fs1 cs1] d1]|] eqn:X; [|discriminate]. injection E as <- <- <-.
      econstructor; [exact P|apply IH; exact X].
    + destruct (c_fclose (D n) content buf) as [c1 ok] eqn:P.
      destruct (cap_exec D _ io) as [[[fs1 cs1] d1]|] eqn:X; [|discriminate]. injection E as <- <- <-.
      econstructor; [exact P|apply IH; exact X].
Qed.

Lemma confirmed_on_disk e a H c c' D fs cs d o hr r :
  reach e a H c -> (forall id, tame (SpecCapture.received id H)) -> shutdown e c = Go c' ->
  cap_runs D cdisk0 (x_io c') fs cs d -> Forall (eq true) fs -> Forall (eq true) cs ->
  reader_init o (file_reader_rdwr hr) = Some r -> ro_cts o = [] \/ In (a_ctype a) (ro_cts o) ->
  (capture_highwater a <= ro_max o + 4)%N ->
  exists files, Forall2 (reads_as r) (cd_files d) files /\
    forall id wcs rs, confirmed H c id wcs rs -> Forall ordinary (since_close [] wcs rs) ->
      subseq (fit a (since_close [] wcs rs)) (concat files).
Proof.
  intros R T S CR Ffs Fcs RI AC HW. destruct (stored_all _ _ _ _ _ _ _ _ _ R S CR Ffs Fcs) as [Cu Cl].
  destruct (captured_read_back _ _ _ _ _ _ _ _ R T S RI AC HW) as (files & F & G). exists files. split; [|exact G].
  unfold cd_files. rewrite Cu, Cl, app_nil_r. clear - F. induction F; constructor; auto.
Qed.

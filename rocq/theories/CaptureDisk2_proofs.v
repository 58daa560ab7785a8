(** Proofs for C81: a disk that does what it is asked. *)
From Coq Require Import ZArith Lia.
From Verif Require Import Bytes Spec SpecTrace Io Control Stdio Capture SpecCapture CaptureDisk Capture2_proofs CaptureDisk_proofs.
Import ListNotations.
Local Open Scope nat_scope.

(** ** The calls come in an order that makes sense *)
Definition next (s : option bool) (x : iocall) : option bool :=
  match s, x with
  | Some false, IoOpen => Some true
  | Some true, IoWrite _ _ => Some true
  | Some true, IoFlush => Some true
  | Some true, IoClose => Some false
  | _, _ => None
  end.
Definition sane (c : ctx) : Prop := fold_left next (x_io c) (Some false) = Some (x_open c).
Definition live (c : ctx) : Prop := sane c /\ x_open c = true.

Lemma sane_same c c' : sane c -> x_io c' = x_io c -> x_open c' = x_open c -> sane c'.
Proof. unfold sane. intros H -> ->. exact H. Qed.
Lemma live_same c c' : live c -> x_io c' = x_io c -> x_open c' = x_open c -> live c'.
Proof. intros [L O] E1 E2. split; [eapply sane_same; eauto|congruence]. Qed.
Lemma sane_note c x o : sane c -> next (Some (x_open c)) x = Some o -> forall l, sane (note_io (set_outs c l o) x).
Proof.
  unfold sane. intros H Nx l. cbn [note_io x_io set_outs x_open]. rewrite fold_left_app, H. exact Nx.
Qed.

Lemma fwrite_live e b c ok c1 : live c -> fwrite e b c = (ok, c1) -> live c1.
Proof.
  intros [L O] E. unfold fwrite in E. destruct (e_fwrite e (x_tick c)); injection E as <- <-; (split; [|exact O]);
    unfold sane in *; cbn [note_io x_io set_outs x_open tick]; rewrite fold_left_app, L, O; reflexivity.
Qed.

Lemma close_live e c : live c ->
  match close_write_file e c with
  | Go (true, c1) => sane c1 /\ x_open c1 = false
  | Go (false, c1) => sane c1
  | Exit c1 => sane c1
  | _ => True
  end.
Proof.
  intros Lc. unfold close_write_file, close_write_stop. destruct (x_open c) eqn:Op; [|destruct Lc; split; auto].
  destruct (control_set_type control_init FSTRM_CONTROL_STOP) as [[] k]; cbn [rbind]; try (apply Lc).
  destruct (encode_frame k) as [[b|]|f]; cbn [rbind]; [|apply Lc|exact I].
  destruct (fwrite e b c) as [ok c1] eqn:W. pose proof (fwrite_live _ _ _ _ _ Lc W) as [L1 O1].
  destruct ok; [|exact L1]. split; [|reflexivity]. apply sane_note; [exact L1|]. rewrite O1. reflexivity.
Qed.

Lemma open_live e a c : sane c -> x_open c = false ->
  match open_write_file e a c with
  | Go (true, c1) => live c1
  | Go (false, c1) => sane c1
  | Exit c1 => sane c1
  | _ => True
  end.
Proof.
  assert (B : forall name c0, sane c0 -> x_open c0 = false ->
    match (' (ok, c2) <~ open_write_start e a (note_io (set_outs c0 (x_outs c0 ++ [(name, [])]) true) IoOpen) ;;
           if ok : bool then Go (true, c2) else Go (false, note_io (set_outs c2 (x_outs c2) false) IoClose)) with
    | Go (true, c1) => live c1
    | Go (false, c1) => sane c1
    | Exit c1 => sane c1
    | _ => True
    end).
  { intros name c0 S0 O0. set (c1 := note_io _ IoOpen).
    assert (L1 : live c1) by (split; [apply sane_note; [exact S0|rewrite O0; reflexivity]|reflexivity]).
    assert (KC : forall x, live x -> sane (note_io (set_outs x (x_outs x) false) IoClose)).
    { intros x [Sx Ox]. apply sane_note; [exact Sx|]. rewrite Ox. reflexivity. }
    unfold open_write_start. destruct (control_set_type control_init FSTRM_CONTROL_START) as [[] k]; cbn [rbind]; try (apply KC; exact L1).
    destruct (control_add_field k (a_ctype a)) as [[] k']; cbn [rbind]; try (apply KC; exact L1).
    destruct (encode_frame k') as [[b|]|f]; cbn [rbind]; [|apply KC; exact L1|exact I].
    destruct (fwrite e b c1) as [ok c2] eqn:W. pose proof (fwrite_live _ _ _ _ _ L1 W) as L2.
    destruct ok; cbn [flushed rbind]; [|apply KC; exact L2].
    destruct L2 as [S2 O2]. split; [|exact O2]. unfold sane in *. cbn [note_io x_io x_open]. rewrite fold_left_app, S2, O2. reflexivity. }
  intros Sc Oc. unfold open_write_file. destruct (is_stdout a); [apply B; assumption|].
  destruct (has_calendar a).
  - unfold update_output_fname. destruct (e_strftime e _) as [name|]; [|exact Sc].
    destruct (e_open e _); [apply B|]; assumption.
  - destruct (e_open e _); [apply B|]; assumption.
Qed.

Definition each {A} (P : A -> Prop) (x : ores A) : Prop :=
  match x with Go v => P v | Exit c => sane c | _ => True end.
Lemma each_bind {A B} (P : A -> Prop) (Q : B -> Prop) x (f : A -> ores B) :
  each P x -> (forall v, P v -> each Q (f v)) -> each Q (rbind x f).
Proof. destruct x; cbn; auto. Qed.

Lemma rotate_live e a c : live c -> each live (rotate_output e a c).
Proof.
  intros Lc. unfold rotate_output. destruct (is_stdout a); [exact Lc|].
  pose proof (close_live e c Lc) as C. destruct (close_write_file e c) as [[[] c1]|x| |]; cbn [rbind each]; auto.
  destruct C as [C O]. pose proof (open_live e a c1 C O) as P.
  destruct (open_write_file e a c1) as [[[] c2]|x| |]; cbn [rbind each]; auto.
Qed.
Lemma maybe_live e a c : live c -> each live (maybe_rotate_output e a c).
Proof.
  intros Lc. unfold maybe_rotate_output. destruct (_ <? _)%Z; [|exact Lc].
  assert (Lt : live (tick c)) by (apply (live_same c); auto).
  destruct (_ <=? _)%Z; [apply rotate_live; exact Lt|exact Lt].
Qed.
Lemma data_live e id k c : live c -> each (fun v => live (snd v)) (process_data_frame e id k c).
Proof.
  intros Lc. unfold process_data_frame. destruct (fwrite e _ c) as [ok c1] eqn:W.
  pose proof (fwrite_live _ _ _ _ _ Lc W) as L1. destruct ok; cbn; [apply (live_same c1); auto|apply L1].
Qed.
Lemma control_live e a id k c : live c -> each (fun v => live (snd v)) (process_control_frame e a id k c).
Proof.
  intros Jc.
  assert (W : forall k2, each (fun v => live (snd v)) (write_control_frame e id k2 c)).
  { intros k2. unfold write_control_frame. destruct (encode_frame k2) as [[b|]|f]; cbn; auto.
    unfold send_frame. destruct (e_send e _); cbn; apply (live_same c); auto. }
  unfold process_control_frame. destruct (control_get_type (k_ctl k)) as [[] [t|]]; try exact Jc.
  destruct (k_state k).
  - destruct (negb _); [exact Jc|]. unfold process_control_frame_ready.
    destruct (control_get_num (k_ctl k)) as [[] n]; try exact Jc.
    destruct (match_content_type a k); [|exact Jc].
    destruct (control_set_type _ _) as [[] k1]; try exact Jc.
    destruct (control_add_field k1 (a_ctype a)) as [[] k2]; try exact Jc.
    eapply each_bind; [apply W|]. intros [[] c1] J1; exact J1.
  - destruct (negb _); [exact Jc|]. unfold process_control_frame_start. destruct (match_content_type a k); exact Jc.
  - destruct (negb _); [exact Jc|]. unfold process_control_frame_stop.
    destruct (control_set_type _ _) as [[] k1]; try exact Jc.
    eapply each_bind; [apply W|]. intros [[] c1] J1; exact J1.
  - exact Jc.
Qed.
Lemma loop_live e a fuel : forall id k c, live c -> each (fun v => live (snd v)) (read_loop e a fuel id k c).
Proof.
  induction fuel as [|fuel IH]; intros id k c Jc; [exact Logic.I|]. cbn [read_loop].
  destruct (_ =? _)%N; [exact Jc|]. destruct (_ =? _)%N.
  - assert (JH : forall x, live x -> live (cb_close_conn id (note x id Hangup))) by (intros x Jx; apply (live_same x); auto).
    destruct (can_read_full_frame a k) as [|k1|k1]; [apply JH; exact Jc|exact Jc|].
    destruct (_ <? _)%N.
    + eapply each_bind; [apply data_live; exact Jc|]. intros [k2 c1] J1. cbn [snd] in J1.
      eapply each_bind; [apply maybe_live; exact J1|]. intros c2 J2. apply IH. exact J2.
    + destruct (load_control_frame k1) as [[[] k2]|f]; [|apply JH; exact Jc|exact Logic.I].
      eapply each_bind; [apply control_live; exact Jc|]. intros [[[] k3] c1] J1; cbn [snd] in J1.
      * apply IH. exact J1.
      * apply JH. exact J1.
  - apply IH. exact Jc.
Qed.
Lemma step_live e a x c : live c -> each live (step e a x c).
Proof.
  intros Jc. destruct x as [id|id chunk|id|id| |]; cbn [step].
  - apply (live_same c); auto.
  - destruct (find_conn id (x_conns c)); [|exact Logic.I]. unfold cb_read.
    eapply each_bind; [apply loop_live; exact Jc|]. intros [[k1|] c1] J1; cbn [snd] in J1; [apply (live_same c1); auto|exact J1].
  - destruct (find_conn id (x_conns c)) as [k|]; [|exact Logic.I]. cbn. unfold cb_write.
    destruct (k_state k); auto; apply (live_same c); auto.
  - destruct (find_conn id (x_conns c)); [|exact Logic.I]. apply (live_same c); auto.
  - destruct (x_open c); [apply rotate_live|]; exact Jc.
  - destruct (x_open c) eqn:O; [|exact Jc]. destruct Jc as [S0 _]. split; [|exact O].
    unfold sane in *. cbn [note_io x_io x_open]. rewrite fold_left_app, S0, O. reflexivity.
Qed.
Lemma boot_live e a : each live (boot e a).
Proof.
  unfold boot. set (c0 := mk_ctx _ _ _ _ _ _ _ _ _).
  pose proof (open_live e a c0 eq_refl eq_refl) as O. destruct (open_write_file e a c0) as [[[] c1]|x| |]; cbn [rbind each]; auto.
Qed.
Lemma reach_live e a H c : reach e a H c -> live c.
Proof.
  induction 1 as [c B|H c x c' R IH L S0].
  - pose proof (boot_live e a) as X. now rewrite B in X.
  - pose proof (step_live e a x c IH) as X. now rewrite S0 in X.
Qed.
Lemma shutdown_live e c : live c -> each (fun c' => sane c' /\ x_open c' = false) (shutdown e c).
Proof.
  intros Jc. unfold shutdown. pose proof (close_live e c Jc) as C.
  destruct (close_write_file e c) as [[[] c1]|x| |]; cbn [rbind each]; auto.
Qed.

(** ** The disk *)
Fixpoint bytes_of (io : list iocall) : nat :=
  match io with [] => 0 | IoWrite b _ :: r => length b + bytes_of r | _ :: r => bytes_of r end.

Section Healthy.
Variable D : nat -> dact.
Variable room : nat.
Hypothesis works : healthy D room.

Lemma put_healthy ps : Forall (fun p => p <> []) ps -> forall n content buf, length buf + length (concat ps) <= room ->
  exists content' n', put D n content buf ps = (content', if ps then buf else [], n', true).
Proof.
  induction 1 as [|p ps Hp _ IH]; intros n content buf L; cbn [put]; [eauto|].
  destruct (works n) as [Ok Out]. cbn [concat] in L. rewrite app_length in L.
  destruct p as [|x p]; [congruence|]. unfold c_fwrite. rewrite Ok.
  replace (skipn (da_out (D n)) (buf ++ x :: p)) with (@nil byte).
  2:{ symmetry. apply skipn_all2. rewrite app_length. unfold bytes in *. lia. }
  destruct (IH (S n) (content ++ firstn (da_out (D n)) (buf ++ x :: p)) []) as (c' & n' & ->); [cbn; lia|].
  exists c', n'. destruct ps; reflexivity.
Qed.

Lemma flush_healthy n content buf : length buf <= room ->
  exists content', c_fflush (D n) content buf = (content', [], true).
Proof.
  intros L. destruct (works n) as [Ok Out]. unfold c_fflush. rewrite Ok.
  rewrite (skipn_all2 buf) by (unfold bytes in *; lia). cbn [andb]. eauto.
Qed.

(** Whatever happens on such a disk is a success. *)
Lemma healthy_good d io fs cs d' : cap_runs D d io fs cs d' ->
  (match cd_cur d with Some (_, buf) => length buf | None => 0 end) + bytes_of io <= room ->
  Forall io_ok io /\ Forall (eq true) fs /\ Forall (eq true) cs.
Proof.
  induction 1 as [d|files n io fs cs d R IH|files content buf n ps content' buf' n' ok io fs cs d Hp P R IH
    |files content buf n content' buf' ok io fs cs d W R IH|files content buf n content' ok io fs cs d W R IH];
    intros L; cbn [cd_cur bytes_of length] in *; [auto|..].
  - destruct IH as (F1 & F2 & F3); [lia|]. repeat split; auto. constructor; [intros b E; discriminate|exact F1].
  - destruct (put_healthy ps Hp n content buf) as (c2 & n2 & E); [lia|]. rewrite E in P. injection P as <- <- <- <-.
    destruct IH as (F1 & F2 & F3); [destruct ps; cbn [length]; lia|]. repeat split; auto. constructor; [intros b Eb; discriminate|exact F1].
  - destruct (flush_healthy n content buf) as (c2 & E); [lia|]. rewrite E in W. injection W as <- <- <-.
    destruct IH as (F1 & F2 & F3); [cbn [length]; lia|]. repeat split; auto. constructor; [intros b Eb; discriminate|exact F1].
  - destruct (flush_healthy n content buf) as (c2 & E); [lia|]. unfold c_fclose in W. rewrite E in W. injection W as <- <-.
    destruct IH as (F1 & F2 & F3); [lia|]. repeat split; auto. constructor; [intros b Eb; discriminate|exact F1].
Qed.

(** And every sane list of calls with no failed write can happen. *)
Lemma healthy_happens io : forall d, Forall io_ok io ->
  fold_left next io (Some (match cd_cur d with Some _ => true | None => false end)) <> None ->
  (match cd_cur d with Some (_, buf) => length buf | None => 0 end) + bytes_of io <= room ->
  exists fs cs d', cap_runs D d io fs cs d'.
Proof.
  induction io as [|x io IH]; intros [files cur n] F Hn L; [do 3 eexists; constructor|].
  inversion F as [|? ? Ox F']; subst. cbn [fold_left cd_cur] in *.
  assert (NN : fold_left next io None <> None -> False).
  { intro Q. apply Q. clear. induction io as [|y io IH]; [reflexivity|]. exact IH. }
  destruct cur as [[content buf]|], x as [|b ok| |]; cbn [next bytes_of] in *; try (contradiction NN; exact Hn).
  - destruct ok; [|exfalso; exact (Ox b eq_refl)].
    destruct b as [|y b].
    + destruct (IH (mk_cdisk files (Some (content, buf)) n) F' Hn) as (fs & cs & d' & R); [cbn [cd_cur length] in *; lia|].
      do 3 eexists. change (@nil byte) with (concat (@nil bytes)). eapply cr_write; [constructor|reflexivity|exact R].
    + assert (Hp : Forall (fun p : bytes => p <> []) [y :: b]) by (repeat constructor; discriminate).
      assert (Eb : concat [y :: b] = y :: b) by (cbn [concat]; apply app_nil_r).
      destruct (put_healthy [y :: b] Hp n content buf) as (c2 & n2 & E); [rewrite Eb; lia|].
      destruct (IH (mk_cdisk files (Some (c2, [])) n2) F' Hn) as (fs & cs & d' & R); [cbn [cd_cur length] in *; lia|].
      do 3 eexists. rewrite <- Eb. eapply cr_write; [exact Hp|exact E|exact R].
  - destruct (flush_healthy n content buf) as (c2 & E); [lia|].
    destruct (IH (mk_cdisk files (Some (c2, [])) (S n)) F' Hn) as (fs & cs & d' & R); [cbn [cd_cur length] in *; lia|].
    do 3 eexists. eapply cr_flush; [exact E|exact R].
  - destruct (flush_healthy n content buf) as (c2 & E); [lia|].
    destruct (IH (mk_cdisk (files ++ [c2]) None (S n)) F' Hn) as (fs & cs & d' & R); [cbn [cd_cur length] in *; lia|].
    do 3 eexists. eapply cr_close; [unfold c_fclose; rewrite E; reflexivity|exact R].
  - destruct (IH (mk_cdisk files (Some ([], [])) n) F' Hn) as (fs & cs & d' & R); [cbn [cd_cur length] in *; lia|].
    do 3 eexists. eapply cr_open. exact R.
Qed.
End Healthy.

Lemma handed_bytes io : forall s l, (s = true -> l <> []) -> fold_left next io (Some s) <> None ->
  length (concat (fold_left hand io l)) = length (concat l) + bytes_of io.
Proof.
  induction io as [|x io IH]; intros s l Hs Hn; cbn [fold_left bytes_of] in *; [lia|].
  assert (NN : fold_left next io None <> None -> False).
  { intro Q. apply Q. clear. induction io as [|y io IH]; [reflexivity|]. exact IH. }
  destruct s, x as [|b ok| |]; cbn [next hand] in *; try (contradiction NN; exact Hn).
  - destruct (@exists_last _ l (Hs eq_refl)) as (l' & z & ->). rewrite add_last_snoc.
    rewrite (IH true); [|intros _ E; apply app_eq_nil in E as [_ E]; discriminate|exact Hn].
    rewrite !concat_app, !app_length. cbn [concat]. rewrite !app_nil_r, app_length. lia.
  - rewrite (IH true); auto.
  - rewrite (IH false); auto.
  - rewrite (IH true); [|intros _ E; apply app_eq_nil in E as [_ E]; discriminate|exact Hn].
    rewrite concat_app, app_length. cbn. lia.
Qed.

Lemma healthy_both D c : J c -> sane c -> healthy D (length (concat (map snd (x_outs c)))) ->
  (exists fs cs d, cap_runs D cdisk0 (x_io c) fs cs d) /\
  (forall fs cs d, cap_runs D cdisk0 (x_io c) fs cs d -> Forall (eq true) fs /\ Forall (eq true) cs).
Proof.
  intros (F & Hd & _) Sn He.
  assert (NN : fold_left next (x_io c) (Some false) <> None) by (rewrite Sn; discriminate).
  assert (L : bytes_of (x_io c) <= length (concat (map snd (x_outs c)))).
  { rewrite <- Hd. unfold handed. rewrite (handed_bytes _ false); [cbn; lia|discriminate|exact NN]. }
  split.
  - apply (healthy_happens D _ He); [exact F|exact NN|exact L].
  - intros fs cs d R. apply (healthy_good D _ He _ _ _ _ _ R). exact L.
Qed.

Lemma healthy_disk e a H c c' D : reach e a H c -> c' = c \/ shutdown e c = Go c' ->
  healthy D (length (concat (map snd (x_outs c')))) ->
  (exists fs cs d, cap_runs D cdisk0 (x_io c') fs cs d) /\
  (forall fs cs d, cap_runs D cdisk0 (x_io c') fs cs d -> Forall (eq true) fs /\ Forall (eq true) cs).
Proof.
  intros R [-> | Sh] He.
  - apply healthy_both; [exact (reach_J e a H c R)|apply (reach_live e a H c R)|exact He].
  - pose proof (shutdown_J e c (reach_J e a H c R)) as SJ. pose proof (shutdown_live e c (reach_live e a H c R)) as SL.
    rewrite Sh in SJ, SL. apply healthy_both; [apply SJ|apply SL|exact He].
Qed.

(** ** exit() *)
Lemma exit_stores io D fs cs d : cap_runs D cdisk0 io fs cs d ->
  (forall b, ~ In (IoWrite b false) io) -> Forall (eq true) fs -> Forall (eq true) cs ->
  da_ok (D (cd_tick d)) = true -> length (concat (handed io)) <= da_out (D (cd_tick d)) ->
  cd_files (cd_exit D d) = handed io.
Proof.
  intros R NW Ff Fc Ok Out.
  assert (F : Forall io_ok io) by (apply Forall_forall; intros x I b E; subst x; exact (NW b I)).
  pose proof (all_good _ _ _ _ _ _ R F Ff Fc) as G. rewrite held0 in G. fold (handed io) in G. rewrite <- G in Out |- *.
  unfold held, cd_files, cd_exit in *. destruct d as [files [[content buf]|] n]; cbn [cd_closed cd_cur cd_tick] in *; [|reflexivity].
  rewrite concat_app, app_length in Out. cbn [concat] in Out. rewrite app_nil_r, app_length in Out.
  unfold c_fclose, c_fflush. rewrite (firstn_all2 buf) by (unfold bytes in *; lia).
  cbn [fst]. now rewrite app_nil_r.
Qed.

(** What fstrm_replay prints. *)
From Coq Require Import String.
From Verif Require Import Bytes Spec Bytes_proofs Io Io_proofs SpecTrace SpecStream
  Control Control_proofs Rdwr Rdwr_proofs Reader Writer Api SpecApi SpecReader SpecFile File
  Misc Tools SpecTools Writer_proofs Writer2_proofs Reader_source_proofs Reader_proofs Reader3_proofs File_proofs
  Tools_proofs Tools2_proofs Tools3_proofs Messages SpecMessages Messages_proofs.
Local Open Scope N_scope.

(** ** The same program as without messages *)
Lemma init_erase iovm u p ct : sim (fun a b => b = fst a) (say_init_writer iovm u p ct) (init_writer iovm ct).
Proof.
  unfold say_init_writer, init_writer. destruct (writer_options_add_content_type [] ct) as [[] cts]; try (constructor; reflexivity).
  destruct (writer_init _ _ _) as [w|]; [|constructor; reflexivity].
  apply sim_bind with (R := eq); [apply sim_refl; reflexivity|]. intros [x w1] b <-. destruct (negb _); [|constructor; reflexivity].
  apply sim_bind with (R := eq); [apply sim_refl; reflexivity|]. intros z b _. constructor. reflexivity.
Qed.
Lemma rloop_erase fuel rfuel name : forall r w, sim (fun a b => b = fst a) (replay_say_loop fuel rfuel name r w) (replay_loop fuel rfuel r w).
Proof.
  induction fuel as [|fuel IH]; intros r w; [constructor|]. cbn [replay_say_loop replay_loop].
  apply sim_bind with (R := eq); [apply sim_refl; reflexivity|]. intros [[x data] r1] b <-.
  destruct x; try (constructor; reflexivity).
  - destruct data as [data|]; [|constructor].
    apply sim_bind with (R := eq); [apply sim_refl; reflexivity|]. intros [x w1] b <-. destruct (negb _); [constructor; reflexivity|]. apply IH.
  - apply sim_bind with (R := eq); [apply sim_refl; reflexivity|]. intros [[x c] r2] b <-. constructor. reflexivity.
Qed.
Lemma file_erase fuel ct name h w : sim (fun a b => b = fst a) (say_file fuel ct name h w) (process_file fuel ct h w).
Proof.
  unfold say_file, process_file. destruct (reader_init _ _) as [r|]; [|constructor; reflexivity].
  apply sim_bind with (R := eq); [apply sim_refl; reflexivity|]. intros [[x c] r1] b <-.
  assert (G : forall r (log : list said), sim (fun a b => b = fst a) (bind (reader_destroy r) (fun _ => Ret (Some w, log))) (bind (reader_destroy r) (fun _ => Ret (Some w)))).
  { intros r0 log. apply sim_bind with (R := eq); [apply sim_refl; reflexivity|]. intros z b _. constructor. reflexivity. }
  destruct (negb _); [apply G|]. destruct c as [[c|]|]; try constructor. destruct (negb _); [apply G|].
  eapply sim_bind; [apply rloop_erase|]. intros [z log] b ->. cbn [fst]. destruct z as [[r2 w2]|]; [|constructor; reflexivity].
  apply sim_bind with (R := eq); [apply sim_refl; reflexivity|]. intros z b _. constructor. reflexivity.
Qed.
Lemma files_erase fuel ct names : forall h w, sim (fun a b => b = fst a) (say_files fuel ct names h w) (process_files fuel ct h (length names) w).
Proof.
  induction names as [|name names IH]; intros h w; [constructor; reflexivity|]. cbn [say_files length process_files].
  eapply sim_bind; [apply file_erase|]. intros [z log] b ->. cbn [fst]. destruct z as [w1|]; [|constructor; reflexivity].
  assert (G : forall (p : io (option writer * list said)) q, sim (fun a b => b = fst a) p q -> sim (fun a b => b = fst a) (bind p (fun z => match z with (z, log') => Ret (z, log ++ log') end)) q).
  { intros p q H. induction H as [a b ->|f|q k k' H IHk]; cbn [bind]; [|constructor|constructor; assumption]. destruct a as [a la]. constructor. reflexivity. }
  apply G, IH.
Qed.
Lemma replay_erase fuel iovm u p ct names : sim (fun a b => b = fst a)
  (replay_say fuel iovm u p ct names) (replay_main fuel iovm ct (length names)).
Proof.
  unfold replay_say, replay_main. eapply sim_bind; [apply init_erase|]. intros [z log] b ->. cbn [fst].
  destruct z as [w|]; [|constructor; reflexivity].
  eapply sim_bind; [apply files_erase|]. intros [z log'] b ->. cbn [fst]. destruct z as [w1|]; [|constructor; reflexivity].
  apply sim_bind with (R := eq); [apply sim_refl; reflexivity|]. intros [x w2] b <-.
  apply sim_bind with (R := eq); [apply sim_refl; reflexivity|]. intros z b _. constructor. reflexivity.
Qed.

(** ** Writing frames, and which one failed *)
Definition eachn {A} (w : writer) (ds : list bytes) (k : writer -> io A) (q : nat -> io A) : io A :=
  bind (write_each w ds) (fun z => match z with (n, ok, w) => if ok then k w else q n end).

Lemma eachn_cons {A} w d ds (k : writer -> io A) q :
  sim eq (eachn w (d :: ds) k q)
    (bind (writer_write w d) (fun z => match z with (x, w) => if negb (res_eqb x r_success) then q 1%nat else eachn w ds k (fun n => q (S n)) end)).
Proof.
  unfold eachn at 1. cbn [write_each]. eapply sim_l; [apply sim_assoc|]. apply bind_ext'. intros [x w1].
  destruct (negb _); [apply sim_refl; reflexivity|]. eapply sim_l; [apply sim_assoc|]. apply bind_ext. intros [[n ok] w2]. reflexivity.
Qed.

Lemma eachn_app {A} a b (k : writer -> io A) : forall q w,
  sim eq (eachn w a (fun w => eachn w b k (fun n => q (length a + n)%nat)) q) (eachn w (a ++ b) k q).
Proof.
  induction a as [|d a IH]; intros q w; [apply sim_refl; reflexivity|].
  cbn [app]. eapply sim_l; [apply eachn_cons|]. eapply sim_r; [apply sim_sym, eachn_cons|].
  apply bind_ext'. intros [x w1]. destruct (negb _); [apply sim_refl; reflexivity|].
  apply (IH (fun n => q (S n))).
Qed.

Definition wfail : said := (to_stderr, str "Error: write_data_frame() failed").

Lemma say_replay_copies {B C} (R0 : list cfile * B -> C -> Prop) name d e rest (pre post : list cfile) k : forall fuel rfuel inp ds r w (k' : writer -> io C) q,
  let h := (1 + length pre)%nat in
  parse DEFAULT_MAX inp ds e rest -> e <> E_oversize -> reading DEFAULT_MAX r -> same_ops (file_reader_rdwr h) (r_rdwr r) -> wat 0 w ->
  (length inp < fuel)%nat -> (length inp < rfuel)%nat ->
  (forall f1 n, (1 <= n)%nat -> (n <= length ds)%nat -> sim R0 (on_files 1 (pre ++ f1 :: post) (k (None, [wfail]))) (q n)) ->
  (forall f1 r1 w1, f_data f1 = d -> f_write f1 = false -> same_ops (file_reader_rdwr h) (r_rdwr r1) -> wat 0 w1 ->
     sim R0 (on_files 1 (pre ++ f1 :: post) (k (Some (r1, w1), if dump_status e then [] else err "Error: fstrm_reader_read() failed."))) (k' w1)) ->
  sim R0 (on_files 1 (pre ++ file_src d true inp :: post) (bind (replay_say_loop fuel rfuel name r w) k)) (eachn w ds k' q).
Proof.
  induction fuel as [|fuel IH]; intros rfuel inp ds r w k' q h P NO R So W L1 L2 KN K; [lia|].
  cbn [replay_say_loop]. apply sim_assoc_l.
  pose proof (f_read d rfuel inp ds e rest r P R L2) as N.
  destruct ds as [|d0 ds].
  - destruct N as (f' & r' & E & D & Fw & St & Sm). pose proof (same_file _ _ _ So Sm) as So'.
    rewrite (mid_local _ _ _ pre _ post _ _ (asks_rread _ rfuel r (rat_ops _ _ So)) E). unfold eachn. cbn [write_each bind].
    assert (G : forall f, exec file_ops f (reader_get_control r' FSTRM_CONTROL_STOP) = (f, Done (r_success, Some (r_stop_c r'), r'))).
    { intro f. unfold reader_get_control, reader_maybe_open. destruct St as [St|St]; rewrite St; reflexivity. }
    destruct e; cbn [ending_result dump_status] in *; try (cbn [bind]; apply K; auto); try congruence;
    (apply sim_assoc_l; rewrite (mid_local _ _ _ pre _ post _ _ (asks_rget _ r' _ (rat_ops _ _ So')) (G f')); cbn [bind]; apply K; auto).
  - destruct N as (r' & inp' & E & P' & L' & R' & Sm). pose proof (same_file _ _ _ So Sm) as So'.
    rewrite (mid_local _ _ _ pre _ post _ _ (asks_rread _ rfuel r (rat_ops _ _ So)) E). cbv zeta.
    eapply sim_r; [apply sim_sym, eachn_cons|]. apply sim_assoc_l.
    apply sim_local with (J := fun z => wat 0 (snd z)); [apply wat0_out, asks_writev; exact W|].
    intros [x w1] W1. cbn [snd] in W1. destruct (negb (res_eqb x r_success)); [cbn [bind]; apply KN; cbn; lia|].
    apply IH with (r := r'); auto; try lia. intros f1 n N1 N2. apply KN; cbn; lia.
Qed.

Lemma say_replay_file {B C} (R0 : list cfile * B -> C -> Prop) ct name d ds x pre post fuel w k (k' : writer -> io C) q :
  file_note ct name d ds x -> (length d <= fuel)%nat -> wat 0 w ->
  (forall f1 n, (1 <= n)%nat -> (n <= length ds)%nat -> sim R0 (on_files 1 (pre ++ f1 :: post) (k (None, [wfail]))) (q n)) ->
  (forall f1 w1, f_data f1 = d -> wat 0 w1 -> sim R0 (on_files 1 (pre ++ f1 :: post) (k (Some w1, x))) (k' w1)) ->
  sim R0 (on_files 1 (pre ++ input d :: post) (bind (say_file fuel ct name (1 + length pre) w) k)) (eachn w ds k' q).
Proof.
  intros O L W KN K. unfold say_file.
  destruct (reader_init reader_options_default (file_reader_rdwr (1 + length pre))) as [r|] eqn:EI; [|discriminate].
  assert (Rr : rat (1 + length pre) r) by (injection EI as <-; reflexivity).
  assert (G : forall st ds e, stream_file d st ds e -> start_accepted [ct] st -> e <> E_oversize ->
    (forall f1 n, (1 <= n)%nat -> (n <= length ds)%nat -> sim R0 (on_files 1 (pre ++ f1 :: post) (k (None, [wfail]))) (q n)) ->
    (forall f1 w1, f_data f1 = d -> wat 0 w1 ->
       sim R0 (on_files 1 (pre ++ f1 :: post) (k (Some w1, if dump_status e then [] else err "Error: fstrm_reader_read() failed."))) (k' w1)) ->
    sim R0 (on_files 1 (pre ++ input d :: post) (bind (say_file fuel ct name (1 + length pre) w) k)) (eachn w ds k' q)).
  { clear O KN K. intros st ds0 e F A NO KN K. unfold say_file. rewrite EI. apply sim_assoc_l.
    destruct F as (Ks & inp & rest & E & P). destruct (f_get d _ st inp r E Ks EI) as (r1 & X & R & So).
    assert (Li : (length inp < fuel)%nat) by (pose proof (length_start st inp); subst d; lia).
    rewrite (mid_local _ _ _ pre _ post _ _ (asks_rget _ r _ Rr) X). cbn [res_eqb negb].
    rewrite (proj2 (match_accepted ct st Ks) A). cbn [negb]. apply sim_assoc_l.
    apply say_replay_copies with (e := e) (rest := rest); auto; try (rewrite (rat_ops _ _ So) in *; assumption).
    intros f1 r2 w1 D1 F1 So1 W1. apply sim_assoc_l. apply sim_destroy_mid; auto. intros f' y D' F'. cbn [bind]. apply K; auto. congruence. }
  destruct O as [d st ds e F A NO|d st ds e F A N1 N2 NO|d st ds e F A|d NS].
  - pose proof (G st ds e F A) as H. unfold say_file in H. rewrite EI in H. apply H; auto.
    + destruct NO; congruence.
    + intros f1 w1 D1 W1. replace (dump_status e) with true by (destruct NO; subst e; reflexivity). apply K; auto.
  - pose proof (G st ds e F A NO) as H. unfold say_file in H. rewrite EI in H. apply H; auto.
    intros f1 w1 D1 W1. replace (dump_status e) with false by (destruct e; congruence || reflexivity). apply K; auto.
  - apply sim_assoc_l. destruct F as (Ks & inp & rest & E & P). destruct (f_get d _ st inp r E Ks EI) as (r1 & X & R & So).
    rewrite (mid_local _ _ _ pre _ post _ _ (asks_rget _ r _ Rr) X). cbn [res_eqb negb].
    destruct (res_eqb (control_match _ _) _) eqn:EM; [apply match_accepted in EM; [contradiction|assumption]|]. cbn [negb].
    apply sim_assoc_l. apply sim_destroy_mid; auto. intros f' y D' F'. cbn [bind]. unfold eachn. cbn [write_each bind].
    specialize (K f' w D' W). unfold line in K. rewrite <- !app_assoc in K. exact K.
  - apply sim_assoc_l. destruct (f_get_bad d _ r NS EI) as (x & f' & r' & E & NE & D & Fw & So).
    rewrite (mid_local _ _ _ pre _ post _ _ (asks_rget _ r _ Rr) E).
    destruct (res_eqb x r_success) eqn:EX; [apply res_eqb_true in EX; contradiction|]. cbn [negb].
    apply sim_assoc_l. apply sim_destroy_mid; auto. intros f2 y D2 F2. cbn [bind]. unfold eachn. cbn [write_each bind].
    assert (D2' : f_data f2 = d) by congruence. specialize (K f2 w D2' W). unfold line in K. rewrite <- !app_assoc in K. exact K.
Qed.

Lemma say_replay_files {B C} (R0 : list cfile * B -> C -> Prop) ct fuel names files dss notes : files_note ct names files dss notes ->
  Forall (fun d => (length d <= fuel)%nat) files -> forall pre w k (k' : writer -> io C) q, wat 0 w ->
  (forall fs n, (1 <= n)%nat -> (n <= length (concat dss))%nat -> sim R0 (on_files 1 fs (k (None, notes_before n dss notes ++ [wfail]))) (q n)) ->
  (forall fs w1, map f_data fs = map f_data pre ++ files -> wat 0 w1 -> sim R0 (on_files 1 fs (k (Some w1, concat notes))) (k' w1)) ->
  sim R0 (on_files 1 (pre ++ map input files) (bind (say_files fuel ct names (1 + length pre) w) k)) (eachn w (concat dss) k' q).
Proof.
  induction 1 as [|name d ds x names files dss notes O _ IH]; intros L pre w k k' q W KN K.
  - cbn [say_files map concat bind]. unfold eachn. cbn [write_each bind]. apply K; auto. rewrite map_app. reflexivity.
  - inversion_clear L as [|? ? L1 L2]. cbn [say_files map concat]. apply sim_assoc_l.
    eapply sim_r; [apply eachn_app|]. apply say_replay_file with (x := x); auto.
    + intros f1 n N1 N2. cbn [bind]. specialize (KN (pre ++ f1 :: map input files) n N1). cbn [notes_before concat] in KN.
      rewrite app_length in KN. destruct (n <=? length ds)%nat eqn:E; [apply KN; lia|apply Nat.leb_gt in E; lia].
    + intros f1 w1 D1 W1. replace (pre ++ f1 :: map input files) with ((pre ++ [f1]) ++ map input files) by (rewrite <- app_assoc; reflexivity).
      replace (S (1 + length pre)) with (1 + length (pre ++ [f1]))%nat by (rewrite app_length; cbn; lia).
      apply sim_assoc_l. apply IH; auto.
      * intros fs n N1 N2. cbn [bind]. specialize (KN fs (length ds + n)%nat). cbn [notes_before concat] in KN.
        rewrite app_length in KN. destruct (length ds + n <=? length ds)%nat eqn:E; [apply Nat.leb_le in E; lia|].
        replace (length ds + n - length ds)%nat with n in KN by lia. rewrite <- app_assoc in KN. apply KN; lia.
      * intros fs w2 M W2. cbn [bind]. apply K; auto. rewrite M, map_app, <- app_assoc. cbn. rewrite D1. reflexivity.
Qed.

Lemma hasty_how_each w ds : sim eq (hasty_how w ds)
  (bind (writer_open w) (fun z => match z with (x, w) =>
     if negb (res_eqb x r_success) then bind (writer_destroy w) (fun _ => Ret W_unopened)
     else eachn w ds (fun w => bind (writer_close w) (fun z => match z with (x, w) => bind (writer_destroy w) (fun _ => Ret (W_written (res_eqb x r_success))) end))
       (fun n => Ret (W_stopped n false)) end)).
Proof.
  unfold hasty_how. apply bind_ext'. intros [x w1]. destruct (negb _); [apply sim_refl; reflexivity|].
  apply bind_ext. intros [[n ok] w2]. destruct ok; reflexivity.
Qed.

Lemma replay_say_sim ct names files dss notes fuel iovm u p w : files_note ct names files dss notes ->
  Forall (fun d => (length d <= fuel)%nat) files -> lenN ct <= CT_MAX ->
  writer_init iovm [ct] (socket_rdwr 0) = Some w ->
  sim (fun x y => map f_data (fst x) = files /\ snd x = (replay_verdict y, replay_report (u && p) dss notes y))
    (on_files 1 (map input files) (replay_say fuel iovm u p ct names)) (hasty_how w (concat dss)).
Proof.
  intros O L Lc Hw. destruct (inputs_read files) as [I1 I2].
  eapply sim_mono; [|apply (sim_asks _ _ (fun x y => snd x = (replay_verdict y, replay_report (u && p) dss notes y)) _ _ (inputs_kept 1 _ _ I1))].
  { intros a b [H1 H2]. rewrite I2 in H1. auto. }
  unfold replay_say, say_init_writer.
  unfold writer_options_add_content_type. unfold CT_MAX, FSTRM_CONTROL_FIELD_CONTENT_TYPE_LENGTH_MAX in *.
  destruct (256 <? lenN ct) eqn:E1; [lia|]. rewrite app_nil_l. rewrite Hw.
  eapply sim_r; [apply sim_sym, hasty_how_each|]. apply sim_assoc_l.
  assert (W : wat 0 w) by (injection Hw as <-; reflexivity).
  apply sim_local with (J := fun z => wat 0 (snd z)); [apply wat0_out, asks_wopen; exact W|].
  intros [x w1] W1. cbn [snd] in W1. destruct (negb (res_eqb x r_success)).
  - apply sim_assoc_l. apply sim_local with (J := fun _ => True); [apply wat0_out, asks_wdestroy, W1|]. intros z _. cbn [bind on_files].
    constructor. cbn [snd]. destruct (u && p); reflexivity.
  - cbn [bind]. change 1%nat with (1 + length (@nil cfile))%nat at 2. apply (say_replay_files _ ct fuel names files dss notes O L []); auto.
    + intros fs n N1 N2. cbn [on_files]. constructor. cbn [snd]. unfold replay_report. destruct (u && p); reflexivity.
    + intros fs w2 M W2. apply sim_local with (J := fun z => wat 0 (snd z)); [apply wat0_out, asks_wclose, W2|].
      intros [x2 w3] W3. cbn [snd] in W3.
      apply sim_local with (J := fun _ => True); [apply wat0_out, asks_wdestroy, W3|]. intros z _. cbn [on_files]. constructor. cbn [snd].
      unfold replay_report. destruct (res_eqb x2 r_success); destruct (u && p); reflexivity.
Qed.

(** A content type that is too long: nothing is said. *)
Lemma replay_say_long ct names fuel iovm u p : CT_MAX < lenN ct ->
  replay_say fuel iovm u p ct names = Ret (false, []).
Proof.
  intro H. unfold replay_say, say_init_writer, writer_options_add_content_type.
  unfold CT_MAX, FSTRM_CONTROL_FIELD_CONTENT_TYPE_LENGTH_MAX in *. destruct (256 <? lenN ct) eqn:E1; [reflexivity|lia].
Qed.

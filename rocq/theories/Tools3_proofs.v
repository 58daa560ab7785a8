(** fstrm_replay as a copy. *)
From Verif Require Import Bytes Spec Bytes_proofs Io Io_proofs SpecTrace SpecStream
  Control Control_proofs Rdwr Rdwr_proofs Reader Writer Api SpecApi SpecReader SpecFile File
  Misc Tools SpecTools Writer_proofs Writer2_proofs Reader_source_proofs Reader_proofs Reader3_proofs File_proofs
  Tools_proofs Tools2_proofs.
Local Open Scope N_scope.

Definition each {A} (w : writer) (ds : list bytes) (k : writer -> io A) (q : io A) : io A :=
  bind (write_each w ds) (fun z => match z with (_, ok, w) => if ok then k w else q end).

Lemma each_cons {A} w d ds (k : writer -> io A) q :
  sim eq (each w (d :: ds) k q)
    (bind (writer_write w d) (fun z => match z with (x, w) => if negb (res_eqb x r_success) then q else each w ds k q end)).
Proof.
  unfold each at 1. cbn [write_each]. eapply sim_l; [apply sim_assoc|]. apply bind_ext'. intros [x w1].
  destruct (negb _); [apply sim_refl; reflexivity|]. eapply sim_l; [apply sim_assoc|]. apply bind_ext. intros [[n ok] w2]. reflexivity.
Qed.

Lemma sim_sym {A} (p q : io A) : sim eq p q -> sim eq q p.
Proof. induction 1 as [a b ->|f|q0 k k' H IH]; constructor; auto. Qed.

Lemma each_ext {A} w ds (k k' : writer -> io A) q : (forall w, sim eq (k w) (k' w)) -> sim eq (each w ds k q) (each w ds k' q).
Proof. intro H. apply bind_ext'. intros [[n ok] w1]. destruct ok; [apply H|apply sim_refl; reflexivity]. Qed.

Lemma each_app {A} a b (k : writer -> io A) q : forall w,
  sim eq (each w a (fun w => each w b k q) q) (each w (a ++ b) k q).
Proof.
  induction a as [|d a IH]; intro w; [apply sim_refl; reflexivity|].
  cbn [app]. eapply sim_l; [apply each_cons|]. eapply sim_r; [apply sim_sym, each_cons|].
  apply bind_ext'. intros [x w1]. destruct (negb _); [apply sim_refl; reflexivity|]. apply IH.
Qed.

Lemma wat0_out {A} (I : A -> Prop) (fs : list cfile) p : asks (on 0) I p -> asks (outside 1 (length fs)) I p.
Proof. apply asks_weaken. intro q. apply on_outside. lia. Qed.

Lemma set_nth_mid {A} (x y : A) a b : set_nth (length a) x (a ++ y :: b) = a ++ x :: b.
Proof. induction a; cbn; congruence. Qed.

(** A step on the file after [pre]. *)
Lemma mid_local {A B} (k : A -> io B) p J pre f post f' a :
  asks (on (1 + length pre)) J p -> exec file_ops f p = (f', Done a) ->
  on_files 1 (pre ++ f :: post) (bind p k) = on_files 1 (pre ++ f' :: post) (k a).
Proof.
  intros H E. rewrite (on_files_local 1 (length pre) k p J (pre ++ f :: post) f' (Done a)).
  - rewrite set_nth_mid. reflexivity.
  - exact H.
  - rewrite app_length. cbn. lia.
  - rewrite app_nth2 by lia. rewrite Nat.sub_diag. exact E.
Qed.

Lemma replay_copies {B C} (S : list cfile * B -> C -> Prop) d e rest (pre post : list cfile) k q : forall fuel rfuel inp ds r w (k' : writer -> io C),
  let h := (1 + length pre)%nat in
  parse DEFAULT_MAX inp ds e rest -> e <> E_oversize -> reading DEFAULT_MAX r -> same_ops (file_reader_rdwr h) (r_rdwr r) -> wat 0 w ->
  (length inp < fuel)%nat -> (length inp < rfuel)%nat ->
  (forall f1, sim S (on_files 1 (pre ++ f1 :: post) (k None)) q) ->
  (forall f1 r1 w1, f_data f1 = d -> f_write f1 = false -> same_ops (file_reader_rdwr h) (r_rdwr r1) -> wat 0 w1 ->
     sim S (on_files 1 (pre ++ f1 :: post) (k (Some (r1, w1)))) (k' w1)) ->
  sim S (on_files 1 (pre ++ file_src d true inp :: post) (bind (replay_loop fuel rfuel r w) k)) (each w ds k' q).
Proof.
  induction fuel as [|fuel IH]; intros rfuel inp ds r w k' h P NO R So W L1 L2 KN K; [lia|].
  cbn [replay_loop]. apply sim_assoc_l.
  pose proof (f_read d rfuel inp ds e rest r P R L2) as N.
  destruct ds as [|d0 ds].
  - destruct N as (f' & r' & E & D & Fw & St & Sm). pose proof (same_file _ _ _ So Sm) as So'.
    rewrite (mid_local _ _ _ pre _ post _ _ (asks_rread _ rfuel r (rat_ops _ _ So)) E). unfold each. cbn [write_each bind].
    assert (G : forall f, exec file_ops f (reader_get_control r' FSTRM_CONTROL_STOP) = (f, Done (r_success, Some (r_stop_c r'), r'))).
    { intro f. unfold reader_get_control, reader_maybe_open. destruct St as [St|St]; rewrite St; reflexivity. }
    destruct e; cbn [ending_result] in *; try (cbn [bind]; apply K; auto); try congruence;
    (apply sim_assoc_l; rewrite (mid_local _ _ _ pre _ post _ _ (asks_rget _ r' _ (rat_ops _ _ So')) (G f')); cbn [bind]; apply K; auto).
  - destruct N as (r' & inp' & E & P' & L' & R' & Sm). pose proof (same_file _ _ _ So Sm) as So'.
    rewrite (mid_local _ _ _ pre _ post _ _ (asks_rread _ rfuel r (rat_ops _ _ So)) E). cbv zeta.
    eapply sim_r; [apply sim_sym, each_cons|]. apply sim_assoc_l.
    apply sim_local with (J := fun z => wat 0 (snd z)); [apply wat0_out, asks_writev; exact W|].
    intros [x w1] W1. cbn [snd] in W1. destruct (negb (res_eqb x r_success)); [cbn [bind]; apply KN|].
    apply IH with (r := r'); auto; lia.
Qed.

Lemma f_get d h st inp r : d = ctl_frame T_START st ++ inp -> ctl_ok T_START st ->
  reader_init reader_options_default (file_reader_rdwr h) = Some r ->
  exists r', exec file_ops (input d) (reader_get_control r FSTRM_CONTROL_START) =
      (file_src d true inp, Done (r_success, Some (Some (mk_control T_START st)), r')) /\
    reading DEFAULT_MAX r' /\ same_ops (file_reader_rdwr h) (r_rdwr r').
Proof.
  intros E K EI. destruct (f_open d h st inp r E K EI) as (r1 & X & R & Es & So & _). exists r1. split; [|auto].
  unfold reader_get_control, reader_maybe_open. assert (S : r_state r = rs_opening) by (injection EI as <-; reflexivity). rewrite S.
  rewrite exec_bind, exec_bind, X. cbn [exec res_eqb negb]. change (FSTRM_CONTROL_START =? FSTRM_CONTROL_START) with true.
  cbn [exec]. rewrite Es. reflexivity.
Qed.

Lemma f_get_bad d h r : no_stream d -> reader_init reader_options_default (file_reader_rdwr h) = Some r ->
  exists x f' r', exec file_ops (input d) (reader_get_control r FSTRM_CONTROL_START) = (f', Done (x, None, r')) /\ x <> r_success /\
    f_data f' = d /\ f_write f' = false /\ same_ops (file_reader_rdwr h) (r_rdwr r').
Proof.
  intros NS EI. destruct (f_open_bad d h r NS EI) as (x & f' & r' & E & NE & D). exists x, f', r'. split; [|auto].
  unfold reader_get_control, reader_maybe_open. assert (S : r_state r = rs_opening) by (injection EI as <-; reflexivity). rewrite S.
  rewrite exec_bind, exec_bind, E. destruct (res_eqb x r_success) eqn:EX; [apply res_eqb_true in EX; contradiction|].
  cbn [negb exec]. rewrite EX. reflexivity.
Qed.

Lemma sim_destroy_mid {B C} (S : list cfile * B -> C -> Prop) pre f post r (k : res -> io B) q :
  same_ops (file_reader_rdwr (1 + length pre)) (r_rdwr r) -> f_write f = false ->
  (forall f' x, f_data f' = f_data f -> f_write f' = false -> sim S (on_files 1 (pre ++ f' :: post) (k x)) q) ->
  sim S (on_files 1 (pre ++ f :: post) (bind (reader_destroy r) k)) q.
Proof.
  intros So Fw K. destruct (f_destroy _ f r So Fw) as (f' & x & E & D & W).
  rewrite (mid_local _ _ _ pre _ post _ _ (asks_rdestroy _ r (rat_ops _ _ So)) E). auto.
Qed.

Lemma match_accepted ct st : ctl_ok T_START st ->
  res_eqb (control_match (mk_control T_START st) (Some ct)) r_success = true <-> start_accepted [ct] st.
Proof.
  intro K. rewrite <- (start_loop_accepted st [ct] K). cbn [start_match_loop].
  destruct (res_eqb _ _); split; auto; discriminate.
Qed.

Lemma replay_file {B C} (S : list cfile * B -> C -> Prop) ct d ds pre post fuel w k (k' : writer -> io C) q :
  offers ct d ds -> (length d <= fuel)%nat -> wat 0 w ->
  (forall f1, sim S (on_files 1 (pre ++ f1 :: post) (k None)) q) ->
  (forall f1 w1, f_data f1 = d -> wat 0 w1 -> sim S (on_files 1 (pre ++ f1 :: post) (k (Some w1))) (k' w1)) ->
  sim S (on_files 1 (pre ++ input d :: post) (bind (process_file fuel ct (1 + length pre) w) k)) (each w ds k' q).
Proof.
  intros O L W KN K. unfold process_file.
  destruct (reader_init reader_options_default (file_reader_rdwr (1 + length pre))) as [r|] eqn:EI; [|discriminate].
  assert (R0 : rat (1 + length pre) r) by (injection EI as <-; reflexivity).
  apply sim_assoc_l. destruct O as [d st ds e F A NO|d st ds e F A|d NS].
  - destruct F as (Ks & inp & rest & E & P). destruct (f_get d _ st inp r E Ks EI) as (r1 & X & R & So).
    assert (Li : (length inp < fuel)%nat) by (pose proof (length_start st inp); subst d; lia).
    rewrite (mid_local _ _ _ pre _ post _ _ (asks_rget _ r _ R0) X). cbn [res_eqb negb].
    rewrite (proj2 (match_accepted ct st Ks) A). cbn [negb]. apply sim_assoc_l.
    apply replay_copies with (e := e) (rest := rest); auto; try (rewrite (rat_ops _ _ So) in *; assumption).
    intros f1 r2 w1 D1 F1 So1 W1. apply sim_assoc_l. apply sim_destroy_mid; auto. intros f' x D' F'. cbn [bind]. apply K; auto. congruence.
  - destruct F as (Ks & inp & rest & E & P). destruct (f_get d _ st inp r E Ks EI) as (r1 & X & R & So).
    rewrite (mid_local _ _ _ pre _ post _ _ (asks_rget _ r _ R0) X). cbn [res_eqb negb].
    destruct (res_eqb (control_match _ _) _) eqn:EM; [apply match_accepted in EM; [contradiction|assumption]|]. cbn [negb].
    apply sim_assoc_l. apply sim_destroy_mid; auto. intros f' x D' F'. cbn [bind]. unfold each. cbn [write_each bind]. apply K; auto.
  - destruct (f_get_bad d _ r NS EI) as (x & f' & r' & E & NE & D & Fw & So).
    rewrite (mid_local _ _ _ pre _ post _ _ (asks_rget _ r _ R0) E).
    destruct (res_eqb x r_success) eqn:EX; [apply res_eqb_true in EX; contradiction|]. cbn [negb].
    apply sim_assoc_l. apply sim_destroy_mid; auto. intros f2 y D2 F2. cbn [bind]. unfold each. cbn [write_each bind]. apply K; auto. congruence.
Qed.

Lemma replay_files {B C} (S : list cfile * B -> C -> Prop) ct fuel k q files dss : Forall2 (offers ct) files dss ->
  Forall (fun d => (length d <= fuel)%nat) files -> forall pre w (k' : writer -> io C), wat 0 w ->
  (forall fs, sim S (on_files 1 fs (k None)) q) ->
  (forall fs w1, map f_data fs = map f_data pre ++ files -> wat 0 w1 -> sim S (on_files 1 fs (k (Some w1))) (k' w1)) ->
  sim S (on_files 1 (pre ++ map input files) (bind (process_files fuel ct (1 + length pre) (length files) w) k)) (each w (concat dss) k' q).
Proof.
  induction 1 as [|d ds files dss O _ IH]; intros L pre w k' W KN K.
  - cbn [length process_files map concat bind]. unfold each. cbn [write_each bind]. apply K; auto. rewrite map_app. reflexivity.
  - inversion_clear L as [|? ? L1 L2]. cbn [length process_files map concat]. apply sim_assoc_l.
    eapply sim_r; [apply each_app|]. apply replay_file; auto.
    intros f1 w1 D1 W1. replace (pre ++ f1 :: map input files) with ((pre ++ [f1]) ++ map input files) by (rewrite <- app_assoc; reflexivity).
    replace (Datatypes.S (1 + length pre)) with (1 + length (pre ++ [f1]))%nat by (rewrite app_length; cbn; lia).
    apply IH; auto. intros fs w2 M W2. apply K; auto. rewrite M, map_app, <- app_assoc. cbn. rewrite D1. reflexivity.
Qed.

Lemma hasty_each w ds : sim eq (hasty_copy w ds)
  (bind (writer_open w) (fun z => match z with (x, w) =>
     if negb (res_eqb x r_success) then bind (writer_destroy w) (fun _ => Ret false)
     else each w ds (fun w => bind (writer_close w) (fun z => match z with (_, w) => bind (writer_destroy w) (fun _ => Ret true) end)) (Ret false) end)).
Proof.
  unfold hasty_copy. apply bind_ext'. intros [x w1]. destruct (negb _); [apply sim_refl; reflexivity|].
  apply bind_ext. intros [[n ok] w2]. destruct ok; reflexivity.
Qed.

(** Whether a file starts with a START frame. *)
Lemma f_control_kind d : no_stream d \/ exists st inp, ctl_ok T_START st /\ d = ctl_frame T_START st ++ inp.
Proof.
  assert (NB : forall n b, 4 <= lenN b \/ lenN b < 4 -> n < 2 ^ 32 -> n <> 0 -> no_stream (be32 n ++ b)).
  { intros n b _ Hn N st inp K E. unfold ctl_frame in E. rewrite <- app_assoc in E.
    apply (f_equal ntohl_bytes) in E. rewrite !ntohl_be32_small in E by (assumption || reflexivity). contradiction. }
  destruct (N.lt_ge_cases (lenN d) 4) as [L4|L4].
  { left. intros st inp K ->. unfold ctl_frame in L4. rewrite !lenN_app, lenN_be32 in L4. lia. }
  destruct (split_at d 4) as (h & b & -> & Lh); [unfold lenN in L4; lia|].
  assert (Eh : h = be32 (ntohl_bytes h)) by (rewrite be32_ntohl by lia; symmetry; apply firstn_all2; lia).
  pose proof (ntohl_lt h) as Hlt. rewrite Eh. set (len := ntohl_bytes h) in *. clearbody len. clear Eh Lh L4 h.
  destruct (N.eq_dec len 0) as [->|Hne]; [|left; apply NB; lia].
  destruct (N.lt_ge_cases (lenN b) 4) as [B4|B4].
  { left. intros st inp K E. unfold ctl_frame in E. rewrite <- !app_assoc in E. apply app_inv_head in E. subst b.
    rewrite lenN_app, lenN_be32 in B4. lia. }
  destruct (split_at b 4) as (h2 & b2 & -> & Lh2); [unfold lenN in B4; lia|].
  assert (Eh2 : h2 = be32 (ntohl_bytes h2)) by (rewrite be32_ntohl by lia; symmetry; apply firstn_all2; lia).
  pose proof (ntohl_lt h2) as Hlt2. rewrite Eh2. set (cl := ntohl_bytes h2) in *. clearbody cl. clear Eh2 Lh2 B4 h2.
  assert (INV : forall st inp, ctl_ok T_START st -> be32 0 ++ be32 cl ++ b2 = ctl_frame T_START st ++ inp ->
     cl = lenN (ctl_payload T_START st) /\ b2 = ctl_payload T_START st ++ inp).
  { intros st inp K E. unfold ctl_frame in E. rewrite <- !app_assoc in E. apply app_inv_head in E.
    assert (lenN (ctl_payload T_START st) <= 512) by apply K.
    pose proof (f_equal ntohl_bytes E) as E2. rewrite !ntohl_be32_small in E2 by (assumption || (change (2^32) with 4294967296; lia)). subst cl.
    split; [reflexivity|]. eapply app_inv_head. exact E. }
  destruct (N.lt_ge_cases (lenN b2) cl) as [C2|C2].
  { left. intros st inp K E. destruct (INV st inp K E) as [-> ->]. rewrite lenN_app in C2. lia. }
  destruct (split_at b2 (N.to_nat cl)) as (p & b3 & -> & Lp); [unfold lenN in C2; lia|].
  assert (Hp : cl = lenN p) by (unfold lenN; lia). subst cl.
  assert (INV2 : forall st inp, ctl_ok T_START st -> be32 0 ++ be32 (lenN p) ++ p ++ b3 = ctl_frame T_START st ++ inp -> p = ctl_payload T_START st).
  { intros st inp K E. destruct (INV st inp K E) as [E1 E2]. apply (f_equal (firstn (length p))) in E2. rewrite firstn_app_exact in E2 by reflexivity.
    rewrite E2. unfold lenN in E1. replace (length p) with (length (ctl_payload T_START st)) by lia. apply firstn_app_exact. reflexivity. }
  destruct (decode_noheader control_init p) as (x & c' & D & Hr & Hs). destruct Hr as [-> | ->].
  - destruct (Hs eq_refl) as [K EP]. destruct c' as [t cts]. cbn [c_type c_cts] in *.
    destruct (N.eq_dec t T_START) as [->|Nt].
    + right. exists cts, b3. split; [exact K|]. rewrite EP. unfold ctl_frame. rewrite <- !app_assoc. reflexivity.
    + left. intros st inp Ks E. pose proof (INV2 st inp Ks E) as E2. rewrite EP in E2. unfold ctl_payload in E2.
      apply (f_equal ntohl_bytes) in E2. rewrite !ntohl_be32_small in E2 by (reflexivity || (destruct (ok_type _ _ K) as [->|[->|[->|[->| ->]]]]; reflexivity)).
      contradiction.
  - left. intros st inp K E. pose proof (INV2 st inp K E) as ->.
    pose proof (control_decode_complete control_init T_START st 0 [] K) as D'.
    change (N.odd 0) with false in D'. cbn [ctl_wire] in D'. rewrite app_nil_r in D'. congruence.
Qed.

(** No program changes a file it has opened for reading. *)
Lemma file_ops_data f q : f_write f = false -> f_data (fst (file_ops f q)) = f_data f /\ f_write (fst (file_ops f q)) = false.
Proof.
  intro W. destruct q; cbn; try (split; [reflexivity|exact W]).
  - unfold file_op_open. rewrite W. destruct (f_fp f); cbn; auto.
  - unfold file_op_close. destruct (f_fp f); cbn; auto.
  - unfold file_op_read. rewrite W. destruct (f_fp f) as [s|]; cbn; auto. destruct (_ =? 0); cbn; auto. destruct (lenN s <? _); cbn; auto.
  - destruct iov; cbn; destruct (f_fp f) eqn:E; cbn; auto. rewrite W. cbn. unfold file_op_close. rewrite E. cbn. auto.
Qed.

Lemma map_set_nth {A B} (g : A -> B) x l : forall i d, g x = g (nth i l d) -> map g (set_nth i x l) = map g l.
Proof. induction l as [|y l IH]; intros [|i] d H; cbn in *; try congruence; auto. f_equal. eapply IH. exact H. Qed.

Lemma Forall_set_nth {A} (P : A -> Prop) x l : forall i, P x -> Forall P l -> Forall P (set_nth i x l).
Proof. induction l as [|y l IH]; intros [|i] H F; cbn; auto; inversion_clear F; constructor; auto. Qed.

Lemma inputs_kept {A} base (p : io A) : forall fs, Forall (fun f => f_write f = false) fs ->
  asks (fun _ => True) (fun x => map f_data (fst x) = map f_data fs) (on_files base fs p).
Proof.
  induction p as [a|f|q k IH]; intros fs F; cbn; auto.
  destruct (file_index base (length fs) q) as [i|]; [|cbn; auto].
  assert (W : f_write (nth i fs no_file) = false).
  { destruct (nth_in_or_default i fs no_file) as [H| ->]; [|reflexivity]. rewrite Forall_forall in F. auto. }
  destruct (file_ops_data _ q W) as [D1 W1]. destruct (file_ops (nth i fs no_file) q) as [f1 a1] eqn:EF. cbn [fst] in *.
  eapply asks_mono; [|apply IH, Forall_set_nth; assumption].
  intros a E. cbn in *. rewrite E. apply map_set_nth with (d := no_file). exact D1.
Qed.

Lemma sim_asks {A B} P (I : A -> Prop) (R : A -> B -> Prop) p q : asks P I p -> sim R p q -> sim (fun a b => I a /\ R a b) p q.
Proof. intros H K. induction K as [a b K|f|q k k' K IH]; constructor; auto. intro a. apply IH. apply H. Qed.

Lemma inputs_read ds : Forall (fun f => f_write f = false) (map input ds) /\ map f_data (map input ds) = ds.
Proof. induction ds as [|d ds [H1 H2]]; cbn; auto. split; [constructor; auto|congruence]. Qed.

Lemma replay_sim ct files dss fuel iovm w : Forall2 (offers ct) files dss ->
  Forall (fun d => (length d <= fuel)%nat) files -> lenN ct <= CT_MAX ->
  writer_init iovm [ct] (socket_rdwr 0) = Some w ->
  sim (fun x y => map f_data (fst x) = files /\ snd x = y)
    (on_files 1 (map input files) (replay_main fuel iovm ct (length files))) (hasty_copy w (concat dss)).
Proof.
  intros O L Lc Hw. destruct (inputs_read files) as [I1 I2].
  eapply sim_mono; [|apply (sim_asks _ _ (fun x y => snd x = y) _ _ (inputs_kept 1 _ _ I1))].
  { intros a b [H1 H2]. rewrite I2 in H1. auto. }
  unfold replay_main, init_writer.
  unfold writer_options_add_content_type. unfold CT_MAX, FSTRM_CONTROL_FIELD_CONTENT_TYPE_LENGTH_MAX in *.
  destruct (256 <? lenN ct) eqn:E1; [lia|]. cbn [app]. rewrite Hw.
  eapply sim_r; [apply sim_sym, hasty_each|]. apply sim_assoc_l.
  assert (W : wat 0 w) by (injection Hw as <-; reflexivity).
  apply sim_local with (J := fun z => wat 0 (snd z)); [apply wat0_out, asks_wopen; exact W|].
  intros [x w1] W1. cbn [snd] in W1. destruct (negb (res_eqb x r_success)).
  - apply sim_assoc_l. apply sim_local with (J := fun _ => True); [apply wat0_out, asks_wdestroy, W1|]. intros z _. cbn [bind on_files].
    constructor. reflexivity.
  - cbn [bind]. change 1%nat with (1 + length (@nil cfile))%nat at 2. apply (replay_files _ ct fuel _ _ files dss O L []); auto.
    + intros fs. cbn [on_files]. constructor. reflexivity.
    + intros fs w2 M W2. cbn [map app] in M. apply sim_local with (J := fun z => wat 0 (snd z)); [apply wat0_out, asks_wclose, W2|].
      intros [x2 w3] W3. cbn [snd] in W3.
      apply sim_local with (J := fun _ => True); [apply wat0_out, asks_wdestroy, W3|]. intros z _. cbn [on_files]. constructor. reflexivity.
Qed.

(** Every file is a stream or not. *)
Lemma classify d : no_stream d \/ exists st ds e, stream_file d st ds e.
Proof.
  destruct (f_control_kind d) as [H|(st & inp & K & E)]; [left; exact H|right].
  destruct (parse_total DEFAULT_MAX (length inp) inp (Nat.le_refl _)) as (ds & e & rest & P).
  exists st, ds, e. split; [exact K|]. exists inp, rest. auto.
Qed.

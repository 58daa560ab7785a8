(** What is in the file after fstrm_dump FILE FILE. *)
From Verif Require Import Bytes Spec Bytes_proofs Io Io_proofs SpecTrace SpecStream Control Rdwr Reader Writer Api SpecApi SpecReader SpecFile File
  Misc Tools SpecTools Messages SpecMessages Stdio CaptureDisk InPlace SpecInPlace Tools_proofs Tools2_proofs Tools3_proofs Tools4_proofs Tools5_proofs
  Messages_proofs Messages3_proofs Writer_proofs File_proofs SpecDisk Stdio_proofs Stdio2_proofs Stdio3_proofs InPlace_proofs InPlace2_proofs.
Local Open Scope nat_scope.

(** ** A disk with room for all of it *)
Lemma fwrite_grows iov : forall c, f_write c = true -> prefix (f_data c) (f_data (fst (file_op_write c iov))) /\ f_write (fst (file_op_write c iov)) = true.
Proof.
  induction iov as [|b iov IH]; intros c W; cbn [file_op_write].
  - destruct (f_fp c); cbn [fst]; split; auto; apply prefix_refl.
  - destruct (f_fp c) as [rem|] eqn:E; [|split; [apply prefix_refl|exact W]]. rewrite W. cbn [negb orb].
    destruct (lenN b =? 0)%N.
    + unfold file_op_close. rewrite E. cbn. split; [apply prefix_refl|exact W].
    + destruct (IH (mk_cfile true (f_data c ++ b) (Some rem)) eq_refl) as [P1 P2]. split; [|exact P2].
      eapply prefix_trans; [|exact P1]. exists b. reflexivity.
Qed.

Lemma wcd_grows c q : f_write c = true -> wcd q -> prefix (f_data c) (f_data (fst (file_ops c q))) /\ f_write (fst (file_ops c q)) = true.
Proof.
  intros W Q. destruct q; try contradiction; cbn [file_ops].
  - unfold file_op_close. destruct (f_fp c); cbn; split; auto; apply prefix_refl.
  - pose proof (fwrite_grows iov c W) as G. destruct (file_op_write c iov). exact G.
  - split; [apply prefix_refl|exact W].
Qed.

Lemma exec_grows {A} (p : io A) : asks wcd (fun _ => True) p -> forall c, f_write c = true -> prefix (f_data c) (f_data (fst (exec file_ops c p))).
Proof.
  induction p as [a|e|q k IH]; intros H c W; cbn [exec]; try apply prefix_refl.
  destruct H as [Q H]. destruct (wcd_grows c q W Q) as [P1 W1]. destruct (file_ops c q) as [c1 a]. cbn [fst] in *.
  eapply prefix_trans; [exact P1|]. apply (IH a (H a)). exact W1.
Qed.

Lemma prefix_le {A} (a b : list A) : prefix a b -> length a <= length b.
Proof. intros [c ->]. rewrite app_length. lia. Qed.

Section Room.
Variables (D : nat -> dact) (room : nat).
Hypothesis works : healthy D room.

Lemma room_closes f c : same_file f c -> length (f_data c) <= room -> closes_well D f.
Proof.
  intros [_ S] L. unfold closes_well. destruct (d_fp f) as [buf|]; [|exact I]. destruct S as [_ S]. rewrite S, app_length in L.
  destruct (works (d_tick f)) as [W1 W2]. split; [exact W1|lia].
Qed.

Lemma room_writes iov : forall f c, same_file f c -> length (f_data (fst (file_op_write c iov))) <= room -> writes_well D f iov.
Proof.
  induction iov as [|b iov IH]; intros f c SF L; pose proof SF as [W S]; cbn [writes_well].
  - destruct (d_fp f); exact I.
  - destruct (d_fp f) as [buf|] eqn:E; [|exact I]. destruct S as [S1 S2].
    destruct (c_fwrite (D (d_tick f)) (d_content f) buf b) as [[content buf'] ok] eqn:F. unfold c_fwrite in F.
    cbn [file_op_write] in L. rewrite S1, W in L. cbn [negb orb] in L.
    destruct b as [|x b].
    + injection F as <- <- <-. cbn [lenN length N.of_nat N.eqb] in L.
      apply room_closes with (c := c); [split; cbn; auto|]. unfold file_op_close in L. rewrite S1 in L. exact L.
    + destruct (works (d_tick f)) as [O _]. rewrite O in F. injection F as <- <- <-. split; [exact O|].
      assert (Z : (lenN (x :: b) =? 0)%N = false) by reflexivity. rewrite Z in L. eapply IH; [|exact L].
      split; [reflexivity|]. cbn. split; [reflexivity|]. rewrite S2, <- !app_assoc. f_equal. rewrite firstn_skipn. reflexivity.
Qed.

Lemma room_goes f c q : same_file f c -> length (f_data (fst (file_ops c q))) <= room -> goes_well D f q.
Proof.
  intros SF L. destruct q; cbn [goes_well file_ops] in *; try exact I.
  - apply (works (d_tick f)).
  - apply room_closes with (c := c); [exact SF|]. unfold file_op_close in L. destruct (f_fp c); exact L.
  - apply room_writes with (c := c); [exact SF|]. destruct (file_op_write c iov). exact L.
Qed.

Lemma room_exec {A} (p : io A) : asks wcd (fun _ => True) p -> forall f c, same_file f c ->
  length (f_data (fst (exec file_ops c p))) <= room ->
  snd (exec (disk_ops D) f p) = snd (exec file_ops c p) /\ same_file (fst (exec (disk_ops D) f p)) (fst (exec file_ops c p)).
Proof.
  induction p as [a|e|q k IH]; intros H f c SF L; cbn [exec] in *; try (split; [reflexivity|exact SF]).
  destruct H as [Q H]. pose proof SF as [W _]. destruct (wcd_grows c q W Q) as [P1 W1].
  assert (G : goes_well D f q).
  { apply room_goes with (c := c); [exact SF|]. destruct (file_ops c q) as [c1 a]. cbn [fst] in *.
    pose proof (prefix_le _ _ (exec_grows (k a) (H a) c1 W1)). lia. }
  destruct (ops_sim D f c q SF G) as [A1 A2]. destruct (disk_ops D f q) as [f1 a1], (file_ops c q) as [c1 a]. cbn [fst snd] in *. subst a1.
  apply (IH a (H a)); assumption.
Qed.

Lemma room_opens {A} (p : io A) : opens_first p -> forall old, 
  length (f_data (fst (exec file_ops (mk_cfile true old None) p))) <= room ->
  snd (exec (disk_ops D) (disk_init old) p) = snd (exec file_ops (mk_cfile true old None) p) /\
  same_file (fst (exec (disk_ops D) (disk_init old) p)) (fst (exec file_ops (mk_cfile true old None) p)).
Proof.
  destruct p as [a|e|q k]; try contradiction. destruct q; try contradiction. intros H old L.
  cbn [exec] in *. cbn [disk_ops file_ops] in *. unfold disk_open, file_op_open, disk_init in *. cbn [d_fp d_tick f_fp f_write] in *.
  destruct (works 0) as [W _]. rewrite W.
  apply room_exec; [apply H| |exact L]. split; [reflexivity|]. cbn. auto.
Qed.
End Room.

Lemma copy_how_opens w ds : opens_first (copy w ds) -> opens_first (copy_how w ds).
Proof.
  assert (S : sim (fun a b => True) (copy_how w ds) (copy w ds)).
  { unfold copy_how, copy. eapply sim_bind; [apply sim_refl with (R := eq); reflexivity|]. intros [x w1] ? <-.
    destruct (negb _); (eapply sim_bind; [apply sim_refl with (R := eq); reflexivity|]).
    - intros ? ? _. constructor; exact I.
    - intros [[n ok] w2] ? <-. eapply sim_bind; [apply sim_refl with (R := eq); reflexivity|]. intros [y w3] ? <-.
      eapply sim_bind; [apply sim_refl with (R := eq); reflexivity|]. intros ? ? _. constructor; exact I. }
  revert S. generalize (copy_how w ds) (copy w ds). intros p q S O.
  assert (G : forall (p : io went) (q : io (nat * bool)), sim (fun _ _ => True) p q -> asks wcd (fun _ => True) q -> asks wcd (fun _ => True) p).
  { clear. induction 1 as [a b _|e|q k k' H IH]; intro K; [exact I|exact I|]. destruct K as [K1 K2]. split; [exact K1|]. intro a. apply IH, K2. }
  destruct S as [a b _|e|q k k' H]; try exact O. destruct q; try exact O. cbn in *. intro a. eapply G; [apply H|apply O].
Qed.

Lemma copy_how_file iovm cts w ds d0 : 0 < iovm -> Forall (fun ct => (lenN ct <= CT_MAX)%N) cts ->
  writer_init iovm cts (file_writer_rdwr 1) = Some w -> Forall (fun p => lenN p <> 0%N) ds ->
  exec file_ops (mk_cfile true d0 None) (copy_how w ds) = (mk_cfile true (whole (hd_error cts) ds) None, Done (W_written true)).
Proof.
  intros HI HC HW NZ. pose proof (copy_file iovm cts (file_writer_rdwr 1) w ltac:(split; reflexivity) eq_refl HI HC HW ds d0 NZ) as E.
  unfold copy in E. unfold copy_how. rewrite exec_bind in E. rewrite exec_bind.
  destruct (exec file_ops (mk_cfile true d0 None) (writer_open w)) as [s1 [[x w1]| |]]; try discriminate E.
  destruct (negb _).
  { rewrite exec_bind in E. rewrite exec_bind. idtac.
 destruct (exec file_ops s1 (writer_destroy w1)) as [s2 [y| |]]; cbn in E; [discriminate E|discriminate E|discriminate E]. }
  rewrite exec_bind in E. rewrite exec_bind. destruct (exec file_ops s1 (write_each w1 ds)) as [s2 [[[n ok] w2]| |]]; try discriminate E.
  rewrite exec_bind in E. rewrite exec_bind. destruct (exec file_ops s2 (writer_close w2)) as [s3 [[y w3]| |]]; try discriminate E.
  rewrite exec_bind in E. rewrite exec_bind. destruct (exec file_ops s3 (writer_destroy w3)) as [s4 [z| |]]; try discriminate E.
  cbn [exec] in *. injection E as E1 E2 E3. apply andb_true_iff in E3. destruct E3 as [-> ->]. rewrite E1. reflexivity.
Qed.

Lemma in_place_outcome B D d fuel iovm st ds e : 520 <= B -> stream_file (firstn B d) st ds e -> e <> E_oversize ->
  length d <= fuel -> 0 < iovm -> healthy D (length (ctl_frame T_START st ++ datas ds ++ stop_frame)) ->
  exists s log, exec (shared_ops B D) (shared_init d) (dump_say fuel iovm true) = (s, Done (dump_status e, log)) /\
    d_fp (sh_w s) = None /\ d_content (sh_w s) = ctl_frame T_START st ++ datas ds ++ stop_frame /\
    reads_as log (dump_report st ds e (W_written true)).
Proof.
  intros HB SF NO L HI W. pose proof (dump_in_place B D d fuel iovm HB) as K.
  assert (L2 : length (firstn B d) <= fuel) by (rewrite firstn_length; unfold bytes in *; lia).
  destruct (dump_writer iovm st) as [w Hw].
  pose proof (dump_say_sim (firstn B d) st ds e fuel iovm w SF NO L2 Hw) as S.
  destruct (sim_exec _ (disk_ops D) _ _ S (disk_init d)) as [X1 X2].
  pose proof (copy_how_file iovm st w ds d HI (st_small _ _ _ _ SF) Hw (ds_nonempty fuel iovm _ _ _ _ SF L2 HI)) as E.
  pose proof (eq_trans E (f_equal (fun z => (mk_cfile true z None, Done (W_written true))) (st_whole _ _ _ _ SF))) as E'. clear E. rename E' into E. cbn beta in E.
  assert (IF : w_state w = ws_opening /\ oneway (w_rdwr w) /\ rw_has_open (w_rdwr w) = true) by (injection Hw as <-; repeat split; reflexivity).
  destruct IF as (I1 & I2 & I3).
  destruct (room_opens D _ W (copy_how w ds) (copy_how_opens w ds (copy_opens w ds I1 I2 I3)) d) as [R1 R2].
  { rewrite E. cbn [fst f_data]. apply le_n. }
  rewrite E in R1, R2. cbn [fst snd] in R1, R2. rewrite R1 in X2. rewrite <- X1 in R2.
  destruct (exec (shared_ops B D) (shared_init d) (dump_say fuel iovm true)) as [s o].
  destruct (exec (disk_ops D) (disk_init d) (on_files 0 [input (firstn B d)] (dump_say fuel iovm true))) as [f o']. cbn [fst snd] in *.
  destruct K as [<- K]. destruct o' as [[fs [rv log]]| |]; try contradiction. destruct X2 as (Y1 & Y2 & Y3). cbn [fst snd] in Y1, Y2, Y3.
  destruct o as [[rv' log']| |]; try contradiction. destruct K as [K _]. injection K as -> ->. subst rv.
  exists s, log. split; [reflexivity|]. destruct R2 as [_ R2]. cbn [f_fp f_data] in R2. destruct (d_fp (sh_w s)) as [buf|]; destruct R2 as [R3 R4]; [discriminate|].
  split; [reflexivity|]. split; [symmetry; exact R4|exact Y3].
Qed.

(** Success, on any disk. *)
Lemma disk_traced {A} D (p : io A) : asks wcd (fun _ => True) p -> forall f, exists tr,
  runs p tr (snd (exec (disk_ops D) f p)) /\ disk_runs D f tr (fst (exec (disk_ops D) f p)).
Proof.
  induction p as [a|e|q k IH]; intros H f; cbn [exec]; try (exists []; split; constructor).
  destruct H as [Q H]. assert (OK : ans_ok q (snd (disk_ops D f q))).
  { destruct q; try contradiction; cbn [disk_ops]; try (destruct (disk_close D f)); try (destruct (disk_write D f iov)); exact I. }
  destruct (disk_ops D f q) as [f1 a] eqn:E. cbn [snd] in OK. destruct (IH a (H a) f1) as (tr & R1 & R2).
  exists ((q, a) :: tr). split; [constructor; assumption|econstructor; eassumption].
Qed.

Lemma opens_traced {A} D (p : io A) : opens_first p -> forall f, exists tr,
  runs p tr (snd (exec (disk_ops D) f p)) /\ disk_runs D f tr (fst (exec (disk_ops D) f p)).
Proof.
  destruct p as [a|e|q k]; try contradiction. destruct q; try contradiction. intros H f. cbn [exec].
  destruct (disk_ops D f (QOpen h)) as [f1 a] eqn:E. destruct (disk_traced D (k a) (H a) f1) as (tr & R1 & R2).
  exists ((QOpen h, a) :: tr). split; [constructor; [|assumption]|econstructor; eassumption].
  cbn [disk_ops] in E. destruct (disk_open D f). injection E as <- <-. exact I.
Qed.

Lemma copy_how_copy w ds : sim (fun a b => a = W_written true -> snd b = true) (copy_how w ds) (copy w ds).
Proof.
  unfold copy_how, copy. eapply sim_bind; [apply sim_refl with (R := eq); reflexivity|]. intros [x w1] ? <-.
  destruct (negb _); (eapply sim_bind; [apply sim_refl with (R := eq); reflexivity|]).
  - intros ? ? _. constructor; discriminate.
  - intros [[n ok] w2] ? <-. eapply sim_bind; [apply sim_refl with (R := eq); reflexivity|]. intros [y w3] ? <-.
    eapply sim_bind; [apply sim_refl with (R := eq); reflexivity|]. intros ? ? _. constructor. cbn [snd].
    destruct ok; [|discriminate]. intros [= ->]. reflexivity.
Qed.

Lemma in_place_success B D d fuel iovm s log : 520 <= B -> length d <= fuel -> 0 < iovm ->
  exec (shared_ops B D) (shared_init d) (dump_say fuel iovm true) = (s, Done (true, log)) ->
  exists st ds e, stream_file (firstn B d) st ds e /\ (e = E_stop \/ e = E_eof) /\
    d_fp (sh_w s) = None /\ d_content (sh_w s) = ctl_frame T_START st ++ datas ds ++ stop_frame.
Proof.
  intros HB L HI E. pose proof (dump_in_place B D d fuel iovm HB) as K. rewrite E in K.
  assert (L2 : length (firstn B d) <= fuel) by (rewrite firstn_length; unfold bytes in *; lia).
  destruct (exec (disk_ops D) (disk_init d) (on_files 0 [input (firstn B d)] (dump_say fuel iovm true))) as [f o'] eqn:E2.
  destruct K as [<- K]. destruct o' as [[fs [rv log']]| |]; try contradiction. destruct K as [K _]. injection K as <- <-.
  destruct (classify (firstn B d)) as [NS|(st & ds & e & SF)].
  { destruct (sim_exec _ (disk_ops D) _ _ (dump_say_bad (firstn B d) fuel iovm true NS) (disk_init d)) as [_ X].
    rewrite E2 in X. cbn [exec snd] in X. destruct X as [_ X]. cbn [snd] in X. discriminate X. }
  destruct (dump_writer iovm st) as [w Hw].
  assert (NO : e = E_stop \/ e = E_eof).
  { destruct (sim_exec _ (disk_ops D) _ _ (dump_say_sim_ub (firstn B d) st ds e fuel iovm w SF L2 Hw) (disk_init d)) as [_ X].
    rewrite E2 in X. cbn [snd] in X. destruct (snd (exec _ _ (copy_how_ub _ _ _))) as [y| |]; try contradiction.
    destruct X as (_ & X & _). cbn [fst snd] in X. destruct y as [|n c|[]]; try discriminate X. cbn in X. destruct e; auto; discriminate X. }
  assert (NO' : e <> E_oversize) by (destruct NO; subst e; discriminate).
  exists st, ds, e. split; [exact SF|]. split; [exact NO|].
  destruct (sim_exec _ (disk_ops D) _ _ (dump_say_sim (firstn B d) st ds e fuel iovm w SF NO' L2 Hw) (disk_init d)) as [X1 X2].
  rewrite E2 in X1, X2. cbn [fst snd] in X1, X2.
  assert (IF : w_state w = ws_opening /\ oneway (w_rdwr w) /\ rw_has_open (w_rdwr w) = true) by (injection Hw as <-; repeat split; reflexivity).
  destruct IF as (I1 & I2 & I3).
  destruct (opens_traced D (copy_how w ds) (copy_how_opens w ds (copy_opens w ds I1 I2 I3)) (disk_init d)) as (tr & R1 & R2).
  rewrite <- X1 in R2. destruct (snd (exec (disk_ops D) (disk_init d) (copy_how w ds))) as [y| |]; try contradiction.
  destruct X2 as (_ & X2 & _). cbn [fst snd] in X2. destruct y as [|n c|[]]; try discriminate X2.
  destruct (sim_runs _ _ _ (copy_how_copy w ds) _ _ R1) as (o & R3 & M). destruct o as [[n b]| |]; try contradiction.
  specialize (M eq_refl). cbn [snd] in M. subst b.
  rewrite <- (st_whole _ _ _ _ SF). exact (copy_on_disk D d iovm st 1 w HI Hw ds tr n _ R3 R2).
Qed.

(** ** The first [n] bytes of a stream *)
Lemma parse_fit max ds : Forall (fun p => data_ok p /\ (lenN p <= max)%N) ds -> forall n,
  exists e rest, parse max (firstn n (datas ds ++ stop_frame)) (fit n ds) e rest /\ (e = E_stop \/ e = E_eof) /\
    (length (datas ds ++ stop_frame) <= n -> e = E_stop /\ fit n ds = ds).
Proof.
  assert (LT : forall n k (b : bytes), n < 4 -> (lenN (firstn n (be32 k ++ b)) < 4)%N).
  { intros n k b H. unfold lenN. rewrite firstn_length. lia. }
  assert (CUT : forall n k (b : bytes), 4 <= n -> firstn n (be32 k ++ b) = be32 k ++ firstn (n - 4) b).
  { intros n k b H. rewrite firstn_app, length_be32, firstn_all2 by (rewrite length_be32; lia). reflexivity. }
  induction 1 as [|d ds [K M] F IH]; intro n.
  - change (datas [] ++ stop_frame) with (be32 0 ++ be32 4 ++ be32 T_STOP ++ []). cbn [fit].
    destruct (Nat.ltb_spec n 4) as [H|H].
    { exists E_eof, []. split; [apply p_eof_len, LT, H|]. split; [auto|]. intro X. rewrite !app_length, !length_be32 in X. lia. }
    rewrite CUT by exact H. destruct (Nat.ltb_spec (n - 4) 4) as [H1|H1].
    { exists E_eof, []. split; [apply p_eof_ctl_len, LT, H1|]. split; [auto|]. intro X. rewrite !app_length, !length_be32 in X. lia. }
    rewrite CUT by exact H1. destruct (Nat.ltb_spec (n - 4 - 4) 4) as [H2|H2].
    { exists E_eof, []. split; [apply p_eof_ctl; [vm_compute; discriminate|apply LT, H2]|]. split; [auto|]. intro X. rewrite !app_length, !length_be32 in X. lia. }
    rewrite CUT by exact H2. rewrite firstn_nil. exists E_stop, []. split; [exact (p_stop max [])|]. auto.
  - assert (E0 : datas (d :: ds) ++ stop_frame = be32 (lenN d) ++ d ++ datas ds ++ stop_frame).
    { unfold datas at 1. cbn [map concat]. unfold data_frame. rewrite <- !app_assoc. reflexivity. }
    rewrite E0. cbn [fit].
    destruct (Nat.leb_spec (4 + length d) n) as [H|H].
    + destruct (IH (n - (4 + length d))) as (e & rest & P & EE & C). exists e, rest. split; [|split; [exact EE|]].
      * rewrite CUT by lia. rewrite firstn_app, firstn_all2 by lia. rewrite app_assoc.
        replace (n - 4 - length d) with (n - (4 + length d)) by lia. apply (p_data max d); assumption.
      * intro X. rewrite !app_length, length_be32 in X. destruct C as [-> ->]; [rewrite app_length; lia|]. auto.
    + exists E_eof, []. split; [|split; [auto|]].
      * destruct (Nat.ltb_spec n 4) as [H1|H1]; [apply p_eof_len, LT, H1|]. rewrite CUT by exact H1. destruct K as [K1 K2].
        apply p_eof_data; try assumption. unfold lenN. rewrite firstn_length. lia.
      * intro X. rewrite !app_length, length_be32 in X. lia.
Qed.

Lemma start_short st : ctl_ok T_START st -> length (ctl_frame T_START st) <= 520.
Proof.
  intros K. pose proof (ok_total _ _ K) as T. unfold CTL_MAX, lenN in T. rewrite len_frame. lia.
Qed.

Lemma stream_fit B st ds : ctl_ok T_START st -> Forall (fun p => data_ok p /\ (lenN p <= DEFAULT_MAX)%N) ds -> 520 <= B ->
  exists e, stream_file (firstn B (ctl_frame T_START st ++ datas ds ++ stop_frame)) st (fit (B - length (ctl_frame T_START st)) ds) e /\
    (e = E_stop \/ e = E_eof).
Proof.
  intros K F HB. pose proof (start_short st K) as L.
  destruct (parse_fit DEFAULT_MAX ds F (B - length (ctl_frame T_START st))) as (e & rest & P & EE & _).
  exists e. split; [|exact EE]. split; [exact K|]. exists (firstn (B - length (ctl_frame T_START st)) (datas ds ++ stop_frame)), rest.
  split; [|exact P]. rewrite firstn_app, firstn_all2 by lia. reflexivity.
Qed.

Lemma fit_size ds : forall n, length (datas (fit n ds)) <= n.
Proof.
  induction ds as [|p ds IH]; intro n; cbn [fit]; [apply Nat.le_0_l|]. destruct (Nat.leb_spec (4 + length p) n) as [H|H]; [|apply Nat.le_0_l].
  unfold datas. cbn [map concat]. rewrite app_length. specialize (IH (n - (4 + length p))). unfold datas in IH.
  unfold data_frame at 1. rewrite app_length, length_be32. lia.
Qed.
Lemma fit_prefix ds : forall n, prefix (fit n ds) ds.
Proof.
  induction ds as [|p ds IH]; intro n; cbn [fit]; [apply prefix_refl|]. destruct (_ <=? _); [|apply prefix_nil].
  destruct (IH (n - (4 + length p))) as [c E]. exists c. cbn. f_equal. exact E.
Qed.
Lemma fit_next ds : forall n, fit n ds = ds \/ exists p c, ds = fit n ds ++ p :: c /\ n < length (datas (fit n ds ++ [p])).
Proof.
  induction ds as [|p ds IH]; intro n; cbn [fit]; [left; reflexivity|]. destruct (Nat.leb_spec (4 + length p) n) as [H|H].
  - destruct (IH (n - (4 + length p))) as [E|(q & c & E & L)]; [left; rewrite E; reflexivity|]. right. exists q, c. split.
    + cbn [app]. rewrite <- E. reflexivity.
    + unfold datas in *. cbn [app map concat]. rewrite app_length. change (length (data_frame p)) with (4 + length p). lia.
  - right. exists p, ds. split; [reflexivity|]. unfold datas. cbn [app map concat]. unfold data_frame. rewrite !app_length, length_be32. lia.
Qed.

Lemma in_place_fits B D st ds fuel iovm : 520 <= B -> ctl_ok T_START st -> Forall (fun p => data_ok p /\ (lenN p <= DEFAULT_MAX)%N) ds ->
  let d := ctl_frame T_START st ++ datas ds ++ stop_frame in
  length d <= fuel -> 0 < iovm -> healthy D (length d + 12) ->
  exists s log, exec (shared_ops B D) (shared_init d) (dump_say fuel iovm true) = (s, Done (true, log)) /\
    d_fp (sh_w s) = None /\
    d_content (sh_w s) = ctl_frame T_START st ++ datas (fit (B - length (ctl_frame T_START st)) ds) ++ stop_frame /\
    reads_as log (start_note st ++ flat_map frame_note (fit (B - length (ctl_frame T_START st)) ds) ++ [end_note E_stop]).
Proof.
  intros HB K F d L HI W. destruct (stream_fit B st ds K F HB) as (e & SF & EE). fold d in SF.
  destruct (in_place_outcome B D d fuel iovm _ _ _ HB SF ltac:(destruct EE; subst e; discriminate) L HI) as (s & log & E & X1 & X2 & X3).
  { intro n. destruct (W n) as [W1 W2]. split; [exact W1|]. refine (Nat.le_trans _ _ _ _ W2).
    destruct (fit_prefix ds (B - length (ctl_frame T_START st))) as [c EC]. unfold d. rewrite !app_length.
    assert (length (datas ds) = length (datas (fit (B - length (ctl_frame T_START st)) ds)) + length (datas c)) as LC
      by (rewrite EC at 1; unfold datas; rewrite map_app, concat_app, app_length; reflexivity). revert LC.
    generalize (length (datas ds)) (length (datas (fit (B - length (ctl_frame T_START st)) ds))). intros. lia. }
  exists s, log. rewrite E. split; [destruct EE; subst e; reflexivity|]. split; [exact X1|]. split; [exact X2|].
  unfold dump_report in X3. cbn [close_note] in X3. destruct EE; subst e; exact X3.
Qed.

Lemma many_ok n : Forall (fun p => data_ok p /\ (lenN p <= DEFAULT_MAX)%N) (repeat [x00] n).
Proof. induction n; cbn; constructor; auto. repeat split; vm_compute; congruence. Qed.
Lemma many_size n : length (datas (repeat [x00] n)) = 5 * n.
Proof. induction n as [|n IH]; [reflexivity|]. unfold datas in *. cbn [repeat map concat]. rewrite app_length, IH. change (length (data_frame [x00])) with 5. lia. Qed.

Lemma asks_exec {S A} P (J : A -> Prop) (hd : S -> query -> S * ans) p : asks P J p -> forall s s' a, exec hd s p = (s', Done a) -> J a.
Proof.
  induction p as [a|e|q k IH]; intros H s s' b E; cbn [exec] in E; try discriminate E.
  - injection E as <- <-. exact H.
  - destruct H as [_ H]. destruct (hd s q) as [s1 a]. exact (IH a (H a) s1 s' b E).
Qed.

Lemma in_place_loses B : 520 <= B -> exists d st ds D fuel iovm s log,
  stream_file d st ds E_stop /\ length d <= fuel /\ 0 < iovm /\ healthy D (length d + 12) /\
  exec (shared_ops B D) (shared_init d) (dump_say fuel iovm true) = (s, Done (true, log)) /\
  ~ Exists complaint log /\ forall e, ~ stream_file (d_content (sh_w s)) st ds e.
Proof.
  intro HB. set (ds := repeat [x00] B). set (d := ctl_frame T_START [] ++ datas ds ++ stop_frame). set (D := fun _ : nat => mk_dact (length d + 12) true 0).
  assert (K : ctl_ok T_START []) by (split; [right; left; reflexivity|constructor|vm_compute; discriminate|intros _; apply Nat.le_0_l|reflexivity]).
  assert (W : healthy D (length d + 12)) by (intro n; split; [reflexivity|apply le_n]).
  destruct (in_place_fits B D [] ds (length d) 1024 HB K (many_ok B) (le_n _) ltac:(lia) W) as (s & log & E & _ & X & _).
  fold d in E.
  exists d, [], ds, D, (length d), 1024, s, log. split.
  { split; [exact K|]. exists (datas ds ++ stop_frame), []. split; [reflexivity|]. apply parse_stop. exact (many_ok B). }
  split; [apply le_n|]. split; [lia|]. split; [exact W|]. split; [exact E|]. split.
  - pose proof (asks_exec _ _ _ _ (dump_fair (length d) 1024 true) _ _ _ E) as F. cbn [fst snd] in F. cbn in F. intro Y. apply Exists_exists in Y. destruct Y as (x & Hx & C). exact (proj1 (Forall_forall _ _) F x Hx C).
  - intros e SF. rewrite X in SF.
    pose proof (fit_size ds (B - length (ctl_frame T_START []))) as L.
    assert (F : Forall (fun p => data_ok p /\ (lenN p <= DEFAULT_MAX)%N) (fit (B - length (ctl_frame T_START [])) ds)).
    { destruct (fit_prefix ds (B - length (ctl_frame T_START []))) as [c EC]. pose proof (many_ok B) as M. fold ds in M. rewrite EC in M.
      apply Forall_app in M. apply M. }
    assert (SF2 : stream_file (ctl_frame T_START [] ++ datas (fit (B - length (ctl_frame T_START [])) ds) ++ stop_frame) [] (fit (B - length (ctl_frame T_START [])) ds) E_stop).
    { split; [exact K|]. eexists _, []. split; [reflexivity|]. apply parse_stop. exact F. }
    destruct (stream_det _ _ _ _ _ _ _ SF SF2) as (_ & EQ & _). rewrite <- EQ in L. unfold ds in L. rewrite many_size in L. lia.
Qed.

(** On a disk that meets no error, the file of Stdio.v is the file of File.v. *)
From Verif Require Import Bytes Spec Io Io_proofs SpecTrace SpecStream Control Rdwr Writer Api SpecApi SpecFile File File_proofs Stdio SpecDisk.
Local Open Scope nat_scope.

Definition same_file (f : dfile) (c : cfile) : Prop :=
  f_write c = true /\
  match d_fp f with
  | Some buf => f_fp c = Some [] /\ f_data c = d_content f ++ buf
  | None => f_fp c = None /\ f_data c = d_content f
  end.

Lemma close_sim D f c : same_file f c -> closes_well D f ->
  snd (disk_close D f) = snd (file_op_close c) /\ same_file (fst (disk_close D f)) (fst (file_op_close c)).
Proof.
  intros [W S] CW. unfold disk_close, file_op_close, closes_well, same_file in *. destruct (d_fp f) as [buf|] eqn:E.
  - destruct S as [S1 S2]. destruct CW as [O L]. rewrite S1. unfold c_fclose, c_fflush. rewrite O, skipn_all2, firstn_all2 by assumption. cbn.
    rewrite S2. auto.
  - destruct S as [S1 S2]. rewrite S1. cbn. rewrite E. auto.
Qed.

Lemma write_sim D iov : forall f c, same_file f c -> writes_well D f iov ->
  snd (disk_write D f iov) = snd (file_op_write c iov) /\ same_file (fst (disk_write D f iov)) (fst (file_op_write c iov)).
Proof.
  induction iov as [|b iov IH]; intros f c SF WW; pose proof SF as [W S]; cbn [disk_write file_op_write writes_well] in *.
  - destruct (d_fp f) as [buf|] eqn:E; destruct S as [-> S2]; auto.
  - destruct (d_fp f) as [buf|] eqn:E; destruct S as [S1 S2]; rewrite S1; auto. rewrite W. cbn [negb orb].
    destruct (c_fwrite (D (d_tick f)) (d_content f) buf b) as [[content buf'] ok] eqn:F. unfold c_fwrite in F.
    destruct b as [|x b].
    + injection F as <- <- <-. cbn [lenN length N.of_nat N.eqb].
      destruct (close_sim D (mk_dfile (d_content f) (Some buf) (S (d_tick f))) c) as [K1 K2]; auto. split; cbn; auto.
    + destruct WW as [O WW]. rewrite O in F. injection F as <- <- <-.
      assert (Z : (lenN (x :: b) =? 0)%N = false) by reflexivity. rewrite Z. apply IH; [|exact WW].
      split; [reflexivity|]. cbn. split; [reflexivity|]. rewrite S2, <- !app_assoc. f_equal. rewrite firstn_skipn. reflexivity.
Qed.

Lemma ops_sim D f c q : same_file f c -> goes_well D f q ->
  snd (disk_ops D f q) = snd (file_ops c q) /\ same_file (fst (disk_ops D f q)) (fst (file_ops c q)).
Proof.
  intros SF G. pose proof SF as [W S]. destruct q; cbn [disk_ops file_ops goes_well] in *; auto.
  - unfold disk_open, file_op_open, same_file in *. destruct (d_fp f) as [buf|] eqn:E; destruct S as [S1 S2]; rewrite S1.
    + cbn. rewrite E. auto.
    + rewrite G, W. cbn. auto.
  - pose proof (close_sim D f c SF G) as K. destruct (disk_close D f), (file_op_close c). cbn in *. destruct K as [-> K]. auto.
  - unfold file_op_read. destruct (d_fp f); destruct S as [-> S2]; rewrite ?W; cbn; auto.
  - pose proof (write_sim D iov f c SF G) as K. destruct (disk_write D f iov), (file_op_write c iov). cbn in *. destruct K as [-> K]. auto.
Qed.

Lemma disk_is_file {A} D (p : io A) tr o : runs p tr o -> o <> Cut -> forall f c f', same_file f c -> disk_runs D f tr f' -> no_disk_error D f tr ->
  exists c', exec file_ops c p = (c', o) /\ same_file f' c'.
Proof.
  induction 1 as [a|e|q k|q k a tr o HA R IH]; intros NC f c f' SF DR NE.
  - inversion DR; subst. exists c. auto.
  - inversion DR; subst. exists c. auto.
  - congruence.
  - inversion DR as [|? ? ? f1 ? ? E DR']; subst. cbn [no_disk_error] in NE. destruct NE as [G NE].
    destruct (ops_sim D f c q SF G) as [A1 A2]. rewrite E in *. cbn [fst snd] in *.
    cbn [exec]. destruct (file_ops c q) as [c1 a1]. cbn in A1, A2. subst a1. eapply IH; eauto.
Qed.

Lemma no_error_same iovm cts h w cs D old tr rs x f :
  (0 < iovm) -> Forall (fun ct => (lenN ct <= CT_MAX)%N) cts -> Forall wcall_ok cs ->
  Forall (fun c => Forall (fun p => lenN p <> 0%N) (wpayloads c)) cs ->
  writer_init iovm cts (file_writer_rdwr h) = Some w ->
  runs (writer_life w cs) tr (Done (rs, x)) -> disk_runs D (disk_init old) tr f -> no_disk_error D (disk_init old) tr ->
  let '(xs, st, ss) := u_steps cts U_fresh [] cs in
  rs = xs /\ d_fp f = None /\
  match st with
  | U_open => x = r_success /\ d_content f = last (add_last ss stop_frame) old
  | _ => x = r_failure /\ d_content f = last ss old
  end.
Proof.
  intros I C O P W R DR NE.
  assert (SF : same_file (disk_init old) (mk_cfile true old None)) by (split; [reflexivity|split; reflexivity]).
  destruct (disk_is_file D _ _ _ R ltac:(discriminate) _ (mk_cfile true old None) _ SF DR NE) as (c' & E & [S1 S2]).
  pose proof (file_life iovm cts (file_writer_rdwr h) w cs old ltac:(repeat split) eq_refl I C O P W) as FC.
  destruct (u_steps cts U_fresh [] cs) as [[xs st] ss]. rewrite E in FC.
  destruct st; injection FC as -> -> ->; cbn in S2; destruct (d_fp f); destruct S2 as [S2 S3]; try discriminate; auto.
Qed.

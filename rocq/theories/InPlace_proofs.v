(** A reader and a writer on one file, compared with the same programs on two
    files. *)
From Verif Require Import Bytes Spec Bytes_proofs Io Io_proofs SpecTrace SpecStream Control Control_proofs Rdwr Rdwr_proofs Reader Writer File
  Misc Tools SpecTools Messages SpecMessages Stdio InPlace Tools_proofs Tools2_proofs.
Ltac Zify.zify_post_hook ::= Z.div_mod_to_equations.
Local Open Scope nat_scope.

(** ** Programs that never write more than they have read
    [thr st c w p Q]: [st] 0 = nothing opened, 1 = reader opened, 2 = writer
    opened; [c] bytes were read since, [w] bytes written since. *)
Fixpoint thr {A} (st c w : nat) (p : io A) (Q : nat -> nat -> nat -> A -> Prop) : Prop :=
  match p with
  | Ret a => Q st c w a
  | Fail _ => True
  | Vis q k =>
      match q with
      | QOpen O => st = 0 /\ forall a, thr 1 0 w (k a) Q
      | QOpen _ => 1 <= c /\ thr 2 c 0 (k (ARes r_success)) Q /\ forall a, a <> ARes r_success -> thr st c w (k a) Q
      | QRead O n => w <= c /\ (st < 2 -> c + N.to_nat n <= 520) /\
          (forall bs, lenN bs = n -> thr st (c + length bs) w (k (ARead r_success bs)) Q) /\
          forall a, (forall bs, a <> ARead r_success bs) -> thr st c w (k a) Q
      | QWrite (S _) iov => forall a, thr st c (w + length (concat iov)) (k a) Q
      | _ => forall a, thr st c w (k a) Q
      end
  end.

Lemma thr_mono {A} (p : io A) : forall st c w (Q Q' : nat -> nat -> nat -> A -> Prop),
  (forall st c w a, Q st c w a -> Q' st c w a) -> thr st c w p Q -> thr st c w p Q'.
Proof.
  induction p as [a|f|q k IH]; intros st c w Q Q' H; cbn [thr]; auto.
  destruct q as [[|h]|h|[|h] n|[|h] iov|h|h| |h| |t|e]; intro T; try (intro a; eapply IH; eauto; fail).
  - destruct T as [T1 T2]. split; [assumption|]. intro a. eapply IH; eauto.
  - destruct T as (T1 & T2 & T3). split; [assumption|]. split; [eapply IH; eauto|]. intros a Ha. eapply IH; eauto.
  - destruct T as (T1 & T2 & T3 & T4). split; [assumption|]. split; [assumption|]. split; [intros bs L|intros a Ha]; eapply IH; eauto.
Qed.

Lemma thr_bind {A B} (p : io A) (f : A -> io B) : forall st c w (Q : nat -> nat -> nat -> B -> Prop),
  thr st c w p (fun st c w a => thr st c w (f a) Q) -> thr st c w (bind p f) Q.
Proof.
  induction p as [a|e|q k IH]; intros st c w Q; cbn [thr bind]; auto.
  destruct q as [[|h]|h|[|h] n|[|h] iov|h|h| |h| |t|e]; intro T; try (intro a; eapply IH; eauto; fail).
  - destruct T as [T1 T2]. split; [assumption|]. intro a. eapply IH; eauto.
  - destruct T as (T1 & T2 & T3). split; [assumption|]. split; [eapply IH; eauto|]. intros a Ha. eapply IH; eauto.
  - destruct T as (T1 & T2 & T3 & T4). split; [assumption|]. split; [assumption|]. split; [intros bs L|intros a Ha]; eapply IH; eauto.
Qed.

(** ** Lockstep *)
Section Lock.
Variable B : nat.
Hypothesis HB : 520 <= B.
Variable D : nat -> dact.
Variable d : bytes.

Definition size (f : dfile) : nat := length (d_content f) + length (match d_fp f with Some b => b | None => [] end).

Lemma firstn_le {A} n (l : list A) : length (firstn n l) <= length l.
Proof. rewrite firstn_length. lia. Qed.

Lemma size_fwrite a content buf b content' buf' ok : c_fwrite a content buf b = (content', buf', ok) ->
  length content' + length buf' <= length content + length buf + length b.
Proof.
  unfold c_fwrite. destruct b as [|x b]; [intro H; injection H as <- <- <-; cbn; lia|].
  intro H. injection H as <- <- <-. rewrite app_length.
  pose proof (firstn_skipn (da_out a) (buf ++ x :: b)) as FS. apply (f_equal (@length _)) in FS. rewrite !app_length in FS.
  destruct (da_ok a); [|pose proof (firstn_le (da_keep a) (skipn (da_out a) (buf ++ x :: b)))]; unfold bytes in *; lia.
Qed.
Lemma size_close f : size (fst (disk_close D f)) <= size f.
Proof.
  unfold disk_close, size. destruct (d_fp f) as [buf|] eqn:E; [|cbn [fst]; rewrite E; lia].
  unfold c_fclose, c_fflush. cbn [fst d_content d_fp length]. rewrite app_length.
  pose proof (firstn_le (da_out (D (d_tick f))) buf). unfold bytes in *. lia.
Qed.
Lemma size_write iov : forall f, size (fst (disk_write D f iov)) <= size f + length (concat iov).
Proof.
  induction iov as [|b iov IH]; intro f; cbn [disk_write].
  - destruct (d_fp f); cbn [fst]; lia.
  - destruct (d_fp f) as [buf|] eqn:E; [|cbn [fst]; lia].
    destruct (c_fwrite (D (d_tick f)) (d_content f) buf b) as [[content' buf'] ok] eqn:EW. apply size_fwrite in EW.
    set (f' := mk_dfile content' (Some buf') (S (d_tick f))).
    assert (S1 : size f' <= size f + length b) by (unfold size; rewrite E; cbn; exact EW).
    cbn [concat]. rewrite app_length. destruct ok; [specialize (IH f'); lia|].
    cbn [fst]. pose proof (size_close f'). lia.
Qed.
Lemma fp_close f : d_fp f = None -> disk_close D f = (f, r_failure).
Proof. intro H. unfold disk_close. rewrite H. reflexivity. Qed.
Lemma fp_write f iov : d_fp f = None -> disk_write D f iov = (f, r_failure).
Proof. intro H. destruct iov; cbn [disk_write]; rewrite H; reflexivity. Qed.

Definition head : bytes := firstn B d.

Record inv (st c w : nat) (s : shared) (f : cfile) : Prop := {
  i_mode : f_write f = false;
  i_data : f_data f = head;
  i_disk : if st <? 2 then d_fp (sh_w s) = None /\ d_content (sh_w s) = d else size (sh_w s) <= w;
  i_strm : match sh_r s, f_fp f with
           | None, None => True
           | Some (off, buf), Some rest =>
               (st < 2 /\ off = 0 /\ buf = [] /\ rest = head /\ c = 0) \/
               (off = length head /\ buf = rest /\ length rest + c <= off /\
                (st < 2 -> length d <= B \/ length rest + c = off))
           | _, _ => False
           end;
  i_none : st = 0 -> sh_r s = None
}.

Definition same_out {A} (o : out A) (o' : out (list cfile * A)) : Prop :=
  match o, o' with
  | Done a, Done (fs, b) => a = b /\ map f_data fs = [head]
  | Stuck e, Stuck e' => e = e'
  | Cut, Cut => True
  | _, _ => False
  end.

Lemma head_eof : length head < B -> head = d.
Proof. unfold head. rewrite firstn_length. intro H. apply firstn_all2. unfold bytes in *. lia. Qed.

(** One read. *)
Lemma inv_read st c w s f n h : inv st c w s f -> w <= c -> (st < 2 -> c + N.to_nat n <= 520) ->
  exists s' f' a, shared_read B s (QRead h n) = (s', a) /\ file_ops f (QRead h n) = (f', a) /\ sh_w s' = sh_w s /\
   ((exists bs, a = ARead r_success bs /\ lenN bs = n /\ inv st (c + length bs) w s' f') \/
    ((forall bs, a <> ARead r_success bs) /\ inv st c w s' f')).
Proof.
  intros [IM ID IK IS IN] WC C5. unfold shared_read, file_ops, file_op_read. rewrite IM.
  destruct (sh_r s) as [[off buf]|] eqn:ER; destruct (f_fp f) as [rest|] eqn:EF; try contradiction.
  2:{ exists s, f, (ARead r_failure []). do 3 (split; [reflexivity|]). right. split; [discriminate|].
      split; auto. rewrite ER, EF. exact I. }
  destruct (n =? 0)%N eqn:En.
  { exists s, f, (ARead r_failure []). do 3 (split; [reflexivity|]). right. split; [discriminate|].
    split; auto; rewrite ?ER, ?EF; assumption. }
  (* what is available for this read *)
  assert (AV : exists off' buf', c_fread B (d_content (sh_w s)) off buf n =
     (if (lenN rest <? n)%N then (off', [], None) else (off', skipn (N.to_nat n) rest, Some (firstn (N.to_nat n) rest))) /\
     off' = length head /\ (((lenN rest <? n)%N = true -> length rest + c = off' -> st < 2 -> length d <= B) /\ length rest + c <= off' /\
     (st < 2 -> length d <= B \/ length rest + c = off')) /\ buf' = rest).
  { exists (length head), rest. unfold c_fread. destruct IS as [(S2 & -> & -> & -> & ->)|(-> & -> & LE & EQ)].
    - rewrite (proj2 (Nat.ltb_lt st 2)) in IK by lia. destruct IK as [_ ->].
      assert (Hn : (lenN (@nil byte) <? n)%N = true) by (unfold lenN; cbn; lia). rewrite Hn.
      cbn [skipn app length]. replace (Nat.max B (N.to_nat n - 0)) with B by (specialize (C5 S2); lia).
      fold head. rewrite Nat.add_0_l. split; [destruct (lenN head <? n)%N; reflexivity|]. split; [reflexivity|]. split; [|reflexivity].
      split; [|split; [lia|intros _; right; lia]]. intros Hs _ _. specialize (C5 S2).
      assert (head = d) as E by (apply head_eof; unfold lenN in Hs; lia). unfold head in E. rewrite <- E, firstn_length. lia.
    - destruct (lenN rest <? n)%N eqn:EL; [|split; [reflexivity|split; [reflexivity|split; [|reflexivity]]]].
      2:{ split; [discriminate|split; [lia|exact EQ]]. }
      assert (SK : skipn (length head) (d_content (sh_w s)) = []).
      { apply skipn_all2. destruct (st <? 2) eqn:E2.
        - destruct IK as [_ ->]. apply Nat.ltb_lt in E2. specialize (C5 E2). specialize (EQ E2).
          destruct EQ as [EQ|EQ]; [unfold head; rewrite firstn_all2 by exact EQ; apply Nat.le_refl|].
          assert (head = d) as -> by (apply head_eof; unfold lenN in EL; lia). apply Nat.le_refl.
        - unfold size in IK. unfold bytes in *. lia. }
      rewrite SK, firstn_nil, app_nil_r, EL, Nat.add_0_r. split; [reflexivity|]. split; [reflexivity|]. split; [|reflexivity].
      split; [|split; [lia|exact EQ]]. intros _ E S2. specialize (C5 S2).
      assert (head = d) as E1 by (apply head_eof; unfold lenN in EL; lia). unfold head in E1. rewrite <- E1, firstn_length. lia. }
  destruct AV as (off' & buf' & AV & Eo & (A1 & A2 & A3) & Eb). rewrite AV.
  destruct (lenN rest <? n)%N eqn:EL.
  - eexists _, _, _. do 3 (split; [reflexivity|]). right. split; [discriminate|]. split; cbn [f_write f_data f_fp sh_r sh_w]; auto.
    + right. split; [assumption|]. split; [reflexivity|]. cbn [length]. split; [lia|]. intro S2. left.
      destruct (A3 S2) as [H|H]; [assumption|apply A1; auto].
    + intro S0. specialize (IN S0). discriminate IN.
  - eexists _, _, _. do 3 (split; [reflexivity|]). left. eexists. split; [reflexivity|].
    assert (Ln : N.to_nat n <= length rest) by (unfold lenN in EL; lia).
    assert (Lf : length (firstn (N.to_nat n) rest) = N.to_nat n) by (rewrite firstn_length; lia).
    split; [unfold lenN; rewrite Lf; lia|]. split; cbn [f_write f_data f_fp sh_r sh_w]; auto.
    + right. split; [assumption|]. split; [reflexivity|]. rewrite Lf, skipn_length. unfold bytes in *. split; [lia|].
      intro S2. destruct (A3 S2); [left; assumption|right; lia].
    + intro S0. specialize (IN S0). discriminate IN.
Qed.

Lemma inv_r st c w s f : inv st c w s f -> (sh_r s = None <-> f_fp f = None).
Proof. intros [_ _ _ IS _]. destruct (sh_r s) as [[off buf]|], (f_fp f); try contradiction; split; congruence. Qed.

Lemma lock {A} (p : io A) Q : forall st c w s f, thr st c w p Q -> inv st c w s f ->
  sh_w (fst (exec (shared_ops B D) s p)) = fst (exec (disk_ops D) (sh_w s) (on_files 0 [f] p)) /\
  same_out (snd (exec (shared_ops B D) s p)) (snd (exec (disk_ops D) (sh_w s) (on_files 0 [f] p))).
Proof.
  induction p as [a|e|q k IH]; intros st c w s f T V.
  - cbn. split; [reflexivity|]. split; [reflexivity|]. cbn. rewrite (i_data _ _ _ _ _ V). reflexivity.
  - cbn. auto.
  - assert (Keep : forall a, thr st c w (k a) Q -> inv st c w s f ->
       sh_w (fst (exec (shared_ops B D) s (k a))) = fst (exec (disk_ops D) (sh_w s) (on_files 0 [f] (k a))) /\
       same_out (snd (exec (shared_ops B D) s (k a))) (snd (exec (disk_ops D) (sh_w s) (on_files 0 [f] (k a)))))
      by (intros a Ta Va; eapply IH; eassumption).
    assert (Es : mk_shared (sh_w s) (sh_r s) = s) by (destruct s; reflexivity).
    destruct q as [[|h]|[|h]|[|h] n|[|h] iov|[|h]|[|h]| |h| |t|e];
      cbn [thr] in T; cbn [exec shared_ops disk_ops on_files file_index handle length Nat.leb Nat.ltb andb Nat.add Nat.sub nth set_nth];
      try (rewrite Es; apply Keep; [apply T|exact V]).
    + (* open the reader *)
      destruct T as [-> T]. pose proof (i_none _ _ _ _ _ V eq_refl) as EN. pose proof (proj1 (inv_r _ _ _ _ _ V) EN) as EF.
      unfold shared_read, file_ops, file_op_open. rewrite EN, EF, (i_mode _ _ _ _ _ V).
      apply (IH (ARes r_success) 1 0 w (mk_shared (sh_w s) (Some (0, []))) (mk_cfile false (f_data f) (Some (f_data f))) (T _)).
      destruct V as [IM ID IK IS IN]. split; cbn [f_write f_data f_fp sh_r sh_w]; auto; try discriminate.
      left. repeat split; auto.
    + (* open the writer *)
      destruct T as (C1 & T2 & T3). unfold disk_open.
      destruct (d_fp (sh_w s)) as [buf|] eqn:EF.
      { rewrite Es. apply Keep; [apply T3; discriminate|exact V]. }
      destruct (da_ok (D (d_tick (sh_w s)))) eqn:EO.
      * apply (IH (ARes r_success) 2 c 0 (mk_shared (mk_dfile [] (Some []) (S (d_tick (sh_w s)))) (sh_r s)) f T2).
        destruct V as [IM ID IK IS IN]. split; cbn [f_write f_data f_fp sh_r sh_w]; auto; try discriminate.
        { unfold size; cbn; lia. }
        destruct (sh_r s) as [[off b]|], (f_fp f) as [rest|]; auto. destruct IS as [(_ & _ & _ & _ & H)|(H1 & H2 & H3 & _)]; [lia|].
        right. split; [assumption|]. split; [assumption|]. split; [assumption|]. intros HH; lia.
      * apply (IH (ARes r_failure) st c w (mk_shared (mk_dfile (d_content (sh_w s)) None (S (d_tick (sh_w s)))) (sh_r s)) f); [apply T3; discriminate|].
        destruct V as [IM ID IK IS IN]. split; auto; cbn [f_write f_data f_fp sh_r sh_w]; auto.
        destruct (st <? 2); [cbn [d_fp d_content]; split; [reflexivity|apply IK]|].
        unfold size in *. cbn [d_fp d_content]. rewrite EF in IK. exact IK.
    + (* close the reader *)
      unfold shared_read, file_ops, file_op_close. pose proof (inv_r _ _ _ _ _ V) as ER.
      destruct (sh_r s) as [[off buf]|] eqn:E1; destruct (f_fp f) as [rest|] eqn:E2.
      * apply (IH (ARes r_success) st c w (mk_shared (sh_w s) None) (mk_cfile (f_write f) (f_data f) None) (T _)).
        destruct V as [IM ID IK IS IN]. split; auto; cbn [f_write f_data f_fp sh_r sh_w]; auto.
      * destruct ER as [_ ER]. discriminate (ER eq_refl).
      * destruct ER as [ER _]. discriminate (ER eq_refl).
      * apply Keep; [apply T|exact V].
    + (* close the writer *)
      destruct (disk_close D (sh_w s)) as [w1 x] eqn:EC.
      apply (IH (ARes x) st c w (mk_shared w1 (sh_r s)) f (T _)).
      destruct V as [IM ID IK IS IN]. split; auto; cbn [f_write f_data f_fp sh_r sh_w]; auto.
      destruct (st <? 2).
      * destruct IK as [H1 H2]. rewrite (fp_close _ H1) in EC. injection EC as <- <-. auto.
      * pose proof (size_close (sh_w s)) as SC. rewrite EC in SC. cbn [fst] in SC. lia.
    + (* read *)
      destruct T as (T1 & T2 & T3 & T4). destruct (inv_read st c w s f n 0 V T1 T2) as (s' & f' & a & E1 & E2 & E3 & [(bs & -> & L & V')|(Na & V')]);
        rewrite E1, E2, <- E3.
      * apply (IH (ARead r_success bs) st (c + length bs) w s' f' (T3 bs L) V').
      * apply (IH a st c w s' f' (T4 a Na) V').
    + (* write to the reader's stream *)
      unfold shared_read, file_ops. pose proof (inv_r _ _ _ _ _ V) as ER. pose proof (i_mode _ _ _ _ _ V) as IM.
      destruct iov as [|b iov]; cbn [file_op_write].
      * destruct (sh_r s) as [[off buf]|] eqn:E1; destruct (f_fp f) as [rest|] eqn:E2.
        -- apply Keep; [apply T|exact V].
        -- destruct ER as [_ ER]. discriminate (ER eq_refl).
        -- destruct ER as [ER _]. discriminate (ER eq_refl).
        -- rewrite Es. apply Keep; [apply T|exact V].
      * destruct (f_fp f) as [rest|] eqn:E2.
        -- rewrite IM. cbn [negb orb]. unfold file_op_close. rewrite E2. cbn [fst].
           apply (IH (ARes r_failure) st c w (mk_shared (sh_w s) None) (mk_cfile (f_write f) (f_data f) None) (T _)).
           destruct V as [_ ID IK IS IN]. split; auto. exact I.
        -- apply proj2 in ER. rewrite <- (ER eq_refl). rewrite Es. apply Keep; [apply T|exact V].
    + (* write to the writer's stream *)
      destruct (disk_write D (sh_w s) iov) as [w1 x] eqn:EC.
      apply (IH (ARes x) st c (w + length (concat iov)) (mk_shared w1 (sh_r s)) f (T _)).
      destruct V as [IM ID IK IS IN]. split; auto; cbn [f_write f_data f_fp sh_r sh_w]; auto.
      destruct (st <? 2).
      * destruct IK as [H1 H2]. rewrite (fp_write _ iov H1) in EC. injection EC as <- <-. auto.
      * pose proof (size_write iov (sh_w s)) as SC. rewrite EC in SC. cbn [fst] in SC. lia.
    + unfold shared_read, file_ops. destruct (sh_r s) as [[off buf]|]; (apply Keep; [apply T|exact V]).
Qed.

Lemma inv_init : inv 0 0 0 (shared_init d) (input head).
Proof. split; cbn; auto. Qed.
End Lock.

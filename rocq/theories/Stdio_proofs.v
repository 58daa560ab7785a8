From Verif Require Import Bytes Spec Bytes_proofs Io Io_proofs SpecTrace SpecStream
  Control Control_proofs Rdwr Rdwr_proofs Writer Api SpecApi SpecDeliver Writer_proofs Writer2_proofs Writer5_proofs Tools4_proofs Reader File Stdio.
Local Open Scope nat_scope.

Lemma prefix_split {A} n (a : list A) : prefix (firstn n a) a.
Proof. exists (skipn n a). symmetry. apply firstn_skipn. Qed.

Lemma prefix_firstn_app {A} n (a b : list A) : prefix b (skipn n a) -> prefix (firstn n a ++ b) a.
Proof. intros P. apply (prefix_app (firstn n a)) in P. rewrite firstn_skipn in P. exact P. Qed.

Lemma fflush_spec d c buf c' buf' ok : c_fflush d c buf = (c', buf', ok) ->
  prefix (c' ++ buf') (c ++ buf) /\ (ok = true -> c' = c ++ buf /\ buf' = []).
Proof.
  unfold c_fflush. intros [= <- <- <-]. split.
  - rewrite <- app_assoc. apply prefix_app. destruct (da_ok d && _) eqn:E.
    + rewrite app_nil_r. apply prefix_split.
    + apply prefix_firstn_app, prefix_split.
  - intros E. rewrite E. apply andb_prop in E. destruct E as [_ E].
    destruct (skipn (da_out d) buf) eqn:K; [|discriminate].
    split; [|reflexivity]. f_equal. rewrite <- (firstn_skipn (da_out d) buf) at 2. rewrite K, app_nil_r. reflexivity.
Qed.

Lemma fclose_spec d c buf c' ok : c_fclose d c buf = (c', ok) -> prefix c' (c ++ buf) /\ (ok = true -> c' = c ++ buf).
Proof.
  unfold c_fclose. destruct (c_fflush d c buf) as [[c1 b1] k] eqn:E. intros [= <- <-].
  destruct (fflush_spec _ _ _ _ _ _ E) as [P Q]. split.
  - eapply prefix_trans; [apply prefix_app_r|exact P].
  - intros K. apply Q, K.
Qed.

Lemma fwrite_spec d c buf b c' buf' ok : c_fwrite d c buf b = (c', buf', ok) ->
  prefix (c' ++ buf') (c ++ buf ++ b) /\ (ok = true -> c' ++ buf' = c ++ buf ++ b).
Proof.
  unfold c_fwrite. destruct b as [|x b].
  - intros [= <- <- <-]. rewrite app_nil_r. split; [apply prefix_refl|discriminate].
  - set (p := buf ++ x :: b). intros [= <- <- <-]. split.
    + rewrite <- app_assoc. apply prefix_app. change (buf ++ x :: b) with p.
      apply prefix_firstn_app. destruct (da_ok d); [apply prefix_refl|apply prefix_split].
    + intros ->. rewrite <- app_assoc, firstn_skipn. reflexivity.
Qed.

Section Disk.
Variable D : nat -> dact.

Lemma close_spec f f' r : disk_close D f = (f', r) ->
  d_fp f' = None /\
  match d_fp f with
  | Some buf => prefix (d_content f') (d_content f ++ buf) /\ (r = r_success -> d_content f' = d_content f ++ buf)
  | None => d_content f' = d_content f /\ r = r_failure
  end.
Proof.
  unfold disk_close. destruct (d_fp f) as [buf|] eqn:E.
  - destruct (c_fclose _ _ _) as [c ok] eqn:F. intros [= <- <-]. destruct (fclose_spec _ _ _ _ _ F) as [P Q].
    split; [reflexivity|]. cbn. split; [exact P|]. intros K. apply Q. destruct ok; [reflexivity|discriminate].
  - intros [= <- <-]. auto.
Qed.

Lemma write_spec iov : forall f f' r buf, d_fp f = Some buf -> disk_write D f iov = (f', r) ->
  (r = r_success /\ exists buf', d_fp f' = Some buf' /\ d_content f' ++ buf' = d_content f ++ buf ++ concat iov) \/
  (r = r_failure /\ d_fp f' = None /\ prefix (d_content f') (d_content f ++ buf ++ concat iov)).
Proof.
  induction iov as [|b iov IH]; intros f f' r buf E; cbn [disk_write]; rewrite E.
  - intros [= <- <-]. left. split; [reflexivity|]. exists buf. cbn. rewrite app_nil_r. auto.
  - destruct (c_fwrite _ _ _ _) as [[c buf1] ok] eqn:F. destruct (fwrite_spec _ _ _ _ _ _ _ F) as [P Q]. destruct ok.
    + specialize (Q eq_refl). intros K. apply (IH _ _ _ buf1) in K; [|reflexivity]. cbn [d_content] in K.
      assert (EQ : c ++ buf1 ++ concat iov = d_content f ++ buf ++ concat (b :: iov)).
      { cbn [concat]. rewrite !app_assoc. rewrite Q, !app_assoc. reflexivity. }
      rewrite EQ in K. exact K.
    + destruct (disk_close D (mk_dfile c (Some buf1) (S (d_tick f)))) as [f2 r2] eqn:C2. cbn [fst].
      intros K. assert (f2 = f') by congruence. assert (r = r_failure) by congruence. subst f2 r.
      right. split; [reflexivity|].
      apply close_spec in C2. cbn in C2. destruct C2 as (C1 & C2 & _). split; [exact C1|].
      eapply prefix_trans; [exact C2|]. eapply prefix_trans; [exact P|]. cbn [concat].
      rewrite (app_assoc (d_content f) buf (b ++ _)), (app_assoc (d_content f) buf b), (app_assoc (_ ++ buf) b).
      apply prefix_app_r.
Qed.

(** What was handed over in the last session, compared with the file. *)
Definition DI (old : bytes) (h : trace) (f : dfile) : Prop :=
  match d_fp f with
  | Some buf => exists ss, attempted h = ss ++ [d_content f ++ buf]
  | None => (attempted h = [] /\ d_content f = old) \/ exists ss cur, attempted h = ss ++ [cur] /\ prefix (d_content f) cur
  end.

Lemma DI_step old h f q a f' : DI old h f -> disk_ops D f q = (f', a) -> DI old (h ++ [(q, a)]) f'.
Proof.
  unfold DI. intros I K. unfold attempted in *. rewrite sessions_snoc. set (att := sessions (fun _ => true) h) in *.
  destruct q; cbn [disk_ops] in K.
  - unfold disk_open in K. destruct (d_fp f) eqn:E.
    + injection K as <- <-. cbn. rewrite E. exact I.
    + destruct (da_ok _); injection K as <- <-; cbn.
      * exists att. reflexivity.
      * exact I.
  - destruct (disk_close D f) as [f1 r] eqn:C. injection K as <- <-. apply close_spec in C. destruct C as [C1 C2]. rewrite C1. cbn.
    destruct (d_fp f) as [buf|] eqn:E.
    + destruct I as (ss & I). right. exists ss, (d_content f ++ buf). split; [exact I|apply C2].
    + destruct C2 as [C2 _]. rewrite C2. exact I.
  - injection K as <- <-. exact I.
  - destruct (disk_write D f iov) as [f1 r] eqn:C. injection K as <- <-. cbn. destruct (d_fp f) as [buf|] eqn:E.
    + destruct I as (ss & I). rewrite I, add_last_snoc, <- app_assoc. apply write_spec with (buf := buf) in C; [|exact E].
      destruct C as [(-> & buf' & C1 & C2)|(-> & C1 & C2)]; rewrite C1.
      * exists ss. rewrite C2. reflexivity.
      * right. exists ss, (d_content f ++ buf ++ concat iov). split; [reflexivity|exact C2].
    + destruct iov; cbn [disk_write] in C; rewrite E in C; injection C as <- <-; rewrite E.
      all: destruct I as [[I1 I2]|(ss & cur & I1 & I2)]; [left; rewrite I1; split; [reflexivity|exact I2]|].
      all: right; rewrite I1, add_last_snoc; do 2 eexists; (split; [reflexivity|]).
      all: eapply prefix_trans; [exact I2|apply prefix_app_r].
  - injection K as <- <-. exact I.
  - injection K as <- <-. exact I.
  - injection K as <- <-. exact I.
  - injection K as <- <-. exact I.
  - injection K as <- <-. exact I.
  - injection K as <- <-. exact I.
  - injection K as <- <-. exact I.
Qed.

Lemma DI_runs old tr : forall h f f', DI old h f -> disk_runs D f tr f' -> DI old (h ++ tr) f'.
Proof.
  induction tr as [|[q a] tr IH]; intros h f f' I R; inversion R; subst.
  - rewrite app_nil_r. exact I.
  - change (h ++ (q, a) :: tr) with (h ++ [(q, a)] ++ tr). rewrite app_assoc.
    eapply IH; [eapply DI_step; eassumption|eassumption].
Qed.

Lemma DI_init old tr f : disk_runs D (disk_init old) tr f -> DI old tr f.
Proof. intros R. apply (DI_runs old tr [] (disk_init old) f); [left; split; reflexivity|exact R]. Qed.

Lemma disk_runs_app tr1 : forall tr2 f f', disk_runs D f (tr1 ++ tr2) f' -> exists f1, disk_runs D f tr1 f1 /\ disk_runs D f1 tr2 f'.
Proof.
  induction tr1 as [|[q a] tr1 IH]; intros tr2 f f' R.
  - exists f. split; [constructor|exact R].
  - cbn in R. inversion R as [|? ? ? f1 ? ? E R1]; subst. destruct (IH _ _ _ R1) as (f2 & R2 & R3).
    exists f2. split; [econstructor; eassumption|exact R3].
Qed.

Lemma closed_whole old tr h f : disk_runs D (disk_init old) (tr ++ [(QClose h, ARes r_success)]) f ->
  d_fp f = None /\ exists ss, attempted tr = ss ++ [d_content f].
Proof.
  intros R. apply disk_runs_app in R. destruct R as (f1 & R1 & R2). apply DI_init in R1.
  inversion R2 as [|? ? ? f2 ? ? E R3]; subst. inversion R3; subst. cbn in E.
  destruct (disk_close D f1) as [f2 r] eqn:C. injection E as -> ->. apply close_spec in C. destruct C as [C1 C2].
  split; [exact C1|]. unfold DI in R1. destruct (d_fp f1) as [buf|]; [|destruct C2; discriminate].
  destruct R1 as (ss & R1). exists ss. rewrite (proj2 C2 eq_refl). exact R1.
Qed.
End Disk.

(** A close that reports success ends with the transport's close. *)
Definition ends_closed (h : trace) (o : out (res * writer)) : Prop :=
  match o with
  | Done (r_success, w') => exists h0 hd, h = h0 ++ [(QClose hd, ARes r_success)]
  | _ => True
  end.

Lemma ec_close rw (w : rdwr -> writer) h : rw_has_close rw = true -> rw_opened rw = true ->
  wp (bind (rdwr_close rw) (fun z => match z with (x, rw) => Ret (x, w rw) end)) ends_closed h.
Proof.
  intros E1 E2. unfold rdwr_close. rewrite E1, E2. cbn. split; [exact I|]. intros [r| | | | |] Ha; cbn; auto.
  destruct r; auto. eauto.
Qed.

Lemma close_ends w h : w_state w = ws_opened -> rw_has_close (w_rdwr w) = true -> rw_has_read (w_rdwr w) = false ->
  wp (writer_close w) ends_closed h.
Proof.
  intros E E1 E2. unfold writer_close. rewrite E. cbv zeta. rewrite write_stop_eq. cbn [set_wstate w_rdwr w_finish]. apply wp_bind_i.
  assert (BAD : forall (x : res) rw h1, x <> r_success ->
    wp (bind (rdwr_close rw) (fun z => match z with (_, rw) => Ret (x, set_wrdwr (set_wstate w ws_closed) rw) end)) ends_closed h1).
  { intros x rw h1 X. unfold rdwr_close. destruct (negb (rw_has_close rw)); [cbn; destruct x; auto; contradiction|].
    destruct (rw_opened rw); cbn; [|destruct x; auto; contradiction].
    split; [exact I|]. intros [] Ha; cbn; auto. destruct x; auto; contradiction. }
  unfold rdwr_write. destruct (rw_opened (w_rdwr w)) eqn:EO; cbn [negb]; [|cbn; apply BAD; discriminate].
  destruct (rw_has_write (w_rdwr w)); cbn [negb]; [|cbn; apply BAD; discriminate].
  cbn [bind ask_res wp]. split; [exact I|]. intros [r| | | | |] Ha; cbn [bind]; try exact I.
  destruct (res_eqb r r_success) eqn:ER; cbn [negb].
  - cbn. rewrite ER. cbn [negb]. rewrite E2. apply (ec_close (w_rdwr w) (fun rw => set_wrdwr (set_wstate w ws_closed) rw)); assumption.
  - apply wp_bind_i. unfold rdwr_close. rewrite E1, EO. cbn. split; [exact I|]. intros [r2| | | | |] Ha2; cbn; try exact I.
    rewrite ER. cbn [negb]. refine (BAD r (set_opened (w_rdwr w) false) _ _). intros ->. discriminate.
Qed.

Section File.
Variables (D : nat -> dact) (old : bytes) (iovm : nat) (cts : list bytes) (h : nat) (w : writer).
Hypotheses (Hi : 0 < iovm) (Hw : writer_init iovm cts (file_writer_rdwr h) = Some w).

Lemma file_fresh : fresh_rdwr (file_writer_rdwr h).
Proof. repeat split. Qed.

Notation okT := (fun _ : res => true).

Lemma closed_file w1 tr1 P tr w' f : PI okT false cts w1 tr1 P -> runs (writer_close w1) tr (Done (r_success, w')) ->
  disk_runs D (disk_init old) (tr1 ++ tr) f ->
  d_fp f = None /\ d_content f = start_frame (hd_error cts) ++ datas P ++ stop_frame.
Proof.
  intros PI1 R DR.
  assert (ST : w_state w1 = ws_opened).
  { destruct (w_state w1) eqn:E; auto; unfold writer_close in R; rewrite E in R; inversion R. }
  pose proof (wp_sound _ _ _ _ _ (pi_close okT eq_refl _ _ _ _ _ PI1) R) as K. cbn in K.
  destruct K as [_ K]. destruct (K eq_refl) as (ss & ct & E & SC & _). unfold start_choice in SC. subst ct.
  assert (WO : wok false cts w1) by apply PI1.
  pose proof (wp_sound _ _ _ _ _ (close_ends w1 tr1 ST (ok_close _ _ _ WO) (ok_read _ _ _ WO)) R) as C. cbn in C.
  destruct C as (h0 & hd & C). rewrite C in DR, E. apply closed_whole in DR. destruct DR as (F & ss' & A).
  split; [exact F|]. rewrite sessions_snoc in E. cbn in E. unfold attempted in A. rewrite A in E.
  apply app_inj_tail in E. apply E.
Qed.

Lemma runs_wcalls_length cs : forall w0 tr rs w', runs (do_wcalls w0 cs) tr (Done (rs, w')) -> length rs = length cs.
Proof.
  induction cs as [|c1 cs IH]; intros w0 tr rs w' R; cbn [do_wcalls] in R; [inversion R; reflexivity|].
  apply runs_bind_i in R; destruct R as [([y w1] & t1 & t2 & R1 & R2 & ->)|[[_ R]|(? & _ & R)]]; try discriminate R.
  apply runs_bind_i in R2; destruct R2 as [([ys w2] & t3 & t4 & R2 & R3 & ->)|[[_ R]|(? & _ & R)]]; try discriminate R.
  inversion R3; subst. cbn. f_equal. exact (IH _ _ _ _ R2).
Qed.

Lemma do_wcalls_last cs c : forall w0 tr rs x w', runs (do_wcalls w0 (cs ++ [c])) tr (Done (rs ++ [x], w')) ->
  exists tr1 tr2 w1, tr = tr1 ++ tr2 /\ runs (do_wcalls w0 cs) tr1 (Done (rs, w1)) /\ runs (do_wcall w1 c) tr2 (Done (x, w')).
Proof.
  induction cs as [|c1 cs IH]; intros w0 tr rs x w' R; cbn [app do_wcalls] in R.
  all: apply runs_bind_i in R; destruct R as [([y w1] & t1 & t2 & R1 & R2 & ->)|[[_ R]|(? & _ & R)]]; try discriminate R.
  all: apply runs_bind_i in R2; destruct R2 as [([ys w2] & t3 & t4 & R2 & R3 & ->)|[[_ R]|(? & _ & R)]]; try discriminate R.
  all: assert (y :: ys = rs ++ [x] /\ w2 = w' /\ t4 = []) as (E & -> & ->) by (inversion R3; auto).
  - assert (ys = [] /\ w1 = w' /\ t3 = []) as (-> & -> & ->) by (inversion R2; auto).
    change [y] with ([] ++ [y]) in E. apply app_inj_tail in E. destruct E as [<- ->].
    exists [], t1, w0. rewrite app_nil_r. split; [reflexivity|]. split; [constructor|exact R1].
  - destruct rs as [|r0 rs].
    { exfalso. assert (ys = []) as -> by (cbn in E; congruence). apply runs_wcalls_length in R2. rewrite app_length in R2. cbn in R2. lia. }
    cbn in E. assert (y = r0) as -> by congruence. assert (ys = rs ++ [x]) as -> by congruence.
    destruct (IH _ _ _ _ _ R2) as (s1 & s2 & w3 & -> & Q1 & Q2).
    exists (t1 ++ s1), s2, w3. rewrite app_nil_r, app_assoc. split; [reflexivity|]. split; [|exact Q2].
    cbn [do_wcalls]. eapply runs_bind_d; [exact R1|]. cbn. rewrite <- (app_nil_r s1). eapply runs_bind_d; [exact Q1|]. constructor.
Qed.

(** A close that reports success: the whole stream is in the file. *)
Lemma close_on_disk cs tr rs w' f : Forall wcall_ok cs -> runs (do_wcalls w (cs ++ [WClose])) tr (Done (rs ++ [r_success], w')) ->
  disk_runs D (disk_init old) tr f ->
  d_fp f = None /\ d_content f = start_frame (hd_error cts) ++ datas (since_close [] cs rs) ++ stop_frame.
Proof.
  intros Hok R DR. apply do_wcalls_last in R. destruct R as (t1 & t2 & w1 & -> & R1 & R2).
  pose proof (wp_runs _ _ (pi_calls okT eq_refl false cts cs w [] [] (pi_init okT _ _ _ _ _ file_fresh eq_refl Hi Hw) Hok) _ _ R1) as [_ K].
  exact (closed_file _ _ _ _ _ _ K R2 DR).
Qed.

Lemma destroy_on_disk cs tr rs f : Forall wcall_ok cs -> runs (writer_life w cs) tr (Done (rs, r_success)) ->
  disk_runs D (disk_init old) tr f ->
  d_fp f = None /\ d_content f = start_frame (hd_error cts) ++ datas (since_close [] cs rs) ++ stop_frame.
Proof.
  intros Hok R DR. unfold writer_life in R.
  apply runs_bind_i in R; destruct R as [([ys w1] & t1 & t2 & R1 & R2 & ->)|[[_ R]|(? & _ & R)]]; try discriminate R.
  pose proof (wp_runs _ _ (pi_calls okT eq_refl false cts cs w [] [] (pi_init okT _ _ _ _ _ file_fresh eq_refl Hi Hw) Hok) _ _ R1) as [_ K].
  apply runs_bind_i in R2; destruct R2 as [(y & t3 & t4 & R2 & R3 & ->)|[[_ R]|(? & _ & R)]]; try discriminate R.
  assert (t4 = [] /\ ys = rs /\ y = r_success) as (-> & -> & ->) by (inversion R3; auto). rewrite app_nil_r in DR.
  unfold writer_destroy in R2.
  apply runs_bind_i in R2; destruct R2 as [([y w2] & t5 & t6 & R2 & R4 & ->)|[[_ R]|(? & _ & R)]]; try discriminate R.
  apply runs_bind_i in R4; destruct R4 as [(y2 & t7 & t8 & R4 & R5 & ->)|[[_ R]|(? & _ & R)]]; try discriminate R.
  assert (t8 = [] /\ y = r_success) as (-> & ->) by (inversion R5; auto). rewrite app_nil_r in DR.
  destruct (w_state w1) eqn:ST; try (inversion R2; fail).
  rewrite app_assoc in DR. apply disk_runs_app in DR. destruct DR as (f1 & D1 & D2).
  destruct (closed_file _ _ _ _ _ _ K R2 D1) as [F1 F2].
  assert (f = f1).
  { unfold rdwr_destroy in R4. destruct (rw_has_destroy _); inversion R4; subst.
    - cbn in *. destruct a; try contradiction. match goal with H : runs _ _ _ |- _ => inversion H; subst end.
      inversion D2; subst. match goal with H : disk_runs _ _ [] _ |- _ => inversion H; subst end. cbn in *. congruence.
    - inversion D2; subst. reflexivity. }
  subst f. split; assumption.
Qed.

(** Whatever fails and whenever the program dies. *)
Lemma prefix_on_disk cs tr o f : Forall wcall_ok cs -> runs (writer_life w cs) tr o -> disk_runs D (disk_init old) tr f ->
  (attempted tr = [] /\ d_content f = old) \/
  exists rs σs before ds full, explained cs rs σs /\ concat σs = before ++ ds /\ writer_session false cts full ds /\ prefix (d_content f) full.
Proof.
  intros Hok R DR.
  destruct (writer_life_spec okT eq_refl iovm cts (file_writer_rdwr h) w cs tr o) as (L & rs & σs & dss & H1 & H2 & H3 & _); auto.
  { exact file_fresh. }
  apply DI_init in DR. unfold DI in DR.
  assert (K : (attempted tr = [] /\ d_content f = old) \/ exists ss cur, attempted tr = ss ++ [cur] /\ prefix (d_content f) cur).
  { destruct (d_fp f) as [buf|]; [|exact DR]. destruct DR as (ss & E). right. exists ss, (d_content f ++ buf). split; [exact E|apply prefix_app_r]. }
  destruct K as [K|(ss & cur & E & P)]; [left; exact K|]. right.
  unfold attempted in E. rewrite E in H2. apply Forall2_app_inv_l in H2. destruct H2 as (d1 & d2 & F1 & F2 & ->).
  inversion F2 as [|? ds ? ? S F3]; subst. inversion F3; subst.
  exists rs, σs, (concat d1), ds, cur. split; [exact H1|]. split; [|split; [exact S|exact P]].
  rewrite <- H3, concat_app. cbn. rewrite app_nil_r. reflexivity.
Qed.
End File.

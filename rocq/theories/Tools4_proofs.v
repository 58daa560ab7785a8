(** What copying puts on the output. *)
From Verif Require Import Bytes Spec Bytes_proofs Io Io_proofs SpecTrace SpecStream
  Control Control_proofs Rdwr Rdwr_proofs Reader Writer Api SpecApi SpecReader SpecFile File
  Misc Tools SpecTools Writer_proofs Writer2_proofs Reader_source_proofs Reader_proofs Reader3_proofs File_proofs
  Tools_proofs Tools2_proofs Tools3_proofs.
Local Open Scope N_scope.

(** ** A copy is a history of writer calls *)
Definition copy_calls (ds : list bytes) : list wcall := WOpen :: map WWrite ds ++ [WClose].

Lemma runs_bind_i {A B} (p : io A) (k : A -> io B) : forall tr o, runs (bind p k) tr o ->
  (exists a tr1 tr2, runs p tr1 (Done a) /\ runs (k a) tr2 o /\ tr = tr1 ++ tr2) \/
  (runs p tr Cut /\ o = Cut) \/ (exists f, runs p tr (Stuck f) /\ o = Stuck f).
Proof.
  induction p as [a|f|q k0 IH]; intros tr o R; cbn in R.
  - left. exists a, [], tr. repeat split; [constructor|exact R].
  - right. right. inversion R; subst. exists f. split; [constructor|reflexivity].
  - inversion R; subst.
    + right. left. split; [constructor|reflexivity].
    + destruct (IH _ _ _ ltac:(eassumption)) as [(a0 & t1 & t2 & R1 & R2 & ->)|[[R1 ->]|(f & R1 & ->)]].
      * left. exists a0, ((q, a) :: t1), t2. repeat split; [constructor; assumption|assumption].
      * right. left. split; [constructor; assumption|reflexivity].
      * right. right. exists f. split; [constructor; assumption|reflexivity].
Qed.
Lemma runs_bind_d {A B} (p : io A) (k : A -> io B) tr1 a tr2 o : runs p tr1 (Done a) -> runs (k a) tr2 o -> runs (bind p k) (tr1 ++ tr2) o.
Proof.
  revert tr1. induction p as [x|f|q k0 IH]; intros tr1 R1 R2; inversion R1; subst; cbn; [exact R2|]. constructor; eauto.
Qed.
Lemma runs_bind_c {A B} (p : io A) (k : A -> io B) tr : runs p tr Cut -> runs (bind p k) tr Cut.
Proof. revert tr. induction p as [x|f|q k0 IH]; intros tr R1; inversion R1; subst; cbn; constructor; eauto. Qed.
Lemma runs_bind_s {A B} (p : io A) (k : A -> io B) tr f : runs p tr (Stuck f) -> runs (bind p k) tr (Stuck f).
Proof. revert tr. induction p as [x|g|q k0 IH]; intros tr R1; inversion R1; subst; cbn; constructor; eauto. Qed.

Definition same_out {A B} (x : out A) (y : out B) : Prop :=
  match x, y with Done _, Done _ => True | Cut, Cut => True | Stuck f, Stuck g => f = g | _, _ => False end.

(** The writes made so far, and what the interrupted one leaves to do. *)
Lemma each_runs ds : forall w tr o cs, runs (write_each w ds) tr o ->
  match o with
  | Done (n, ok, w1) => (n <= length ds)%nat /\ (ok = true -> n = length ds) /\
      exists xs, runs (do_wcalls w (map WWrite (firstn n ds))) tr (Done (xs, w1)) /\ (ok = true -> Forall (eq r_success) xs)
  | _ => exists cs1 o1, (Forall wcall_ok cs1 /\ prefix (concat (map wpayloads cs1)) ds) /\ runs (do_wcalls w (cs1 ++ cs)) tr o1 /\ same_out o o1
  end.
Proof.
  induction ds as [|d ds IH]; intros w tr o cs R; cbn [write_each] in R.
  { inversion R; subst. split; [cbn; lia|]. split; [reflexivity|]. exists []. split; [constructor|constructor]. }
  assert (IN : forall tr o, o = Cut \/ (exists f, o = Stuck f) -> runs (writer_write w d) tr o ->
     forall (o' : out (nat * bool * writer)), same_out o o' -> match o' with Done (n, ok, w1) => False | _ => exists cs1 o1, (Forall wcall_ok cs1 /\ prefix (concat (map wpayloads cs1)) (d :: ds)) /\ runs (do_wcalls w (cs1 ++ cs)) tr o1 /\ same_out o' o1 end).
  { intros tr0 o0 H R0 o' SO. destruct H as [->|(f & ->)]; destruct o' as [[[? ?] ?]| |]; cbn in SO; try contradiction.
    - exists [WWrite d], Cut. split; [split; [repeat constructor; reflexivity|exists ds; reflexivity]|]. split; [|exact I]. cbn [app do_wcalls do_wcall]. apply runs_bind_c. exact R0.
    - subst. eexists [WWrite d], (Stuck _). split; [split; [repeat constructor; reflexivity|exists ds; reflexivity]|]. split; [|reflexivity]. cbn [app do_wcalls do_wcall]. apply runs_bind_s. exact R0. }
  apply runs_bind_i in R. destruct R as [([x w1] & t1 & t2 & R1 & R2 & ->)|[[R1 ->]|(f & R1 & ->)]].
  2:{ exact (IN _ _ (or_introl eq_refl) R1 Cut I). }
  2:{ exact (IN _ _ (or_intror (ex_intro _ f eq_refl)) R1 (Stuck f) eq_refl). }
  destruct (res_eqb x r_success) eqn:EX; cbn [negb] in R2.
  2:{ inversion R2; subst. split; [cbn; lia|]. split; [discriminate|]. exists [x]. split; [|discriminate].
      cbn [firstn map do_wcalls do_wcall]. eapply runs_bind_d; [exact R1|]. cbn. constructor. }
  apply res_eqb_true in EX. subst x.
  apply runs_bind_i in R2. destruct R2 as [([[n ok] w2] & t3 & t4 & R3 & R4 & ->)|[[R3 ->]|(f & R3 & ->)]].
  - inversion R4; subst. destruct (IH w1 t3 _ cs R3) as (H1 & H2 & xs & H3 & H4).
    split; [cbn; lia|]. split; [intro; cbn; f_equal; auto|]. exists (r_success :: xs). split; [|intro; constructor; auto].
    cbn [firstn map do_wcalls do_wcall]. eapply runs_bind_d; [exact R1|]. cbn beta iota. eapply runs_bind_d; [exact H3|]. constructor.
  - destruct (IH w1 t2 _ cs R3) as (cs1 & o1 & K & H1 & H2). destruct o1 as [|?|]; try contradiction. exists (WWrite d :: cs1), Cut. split; [split; [constructor; [reflexivity|apply K]|destruct K as [_ [l ->]]; exists l; reflexivity]|]. split; [|exact I].
    cbn [app do_wcalls do_wcall]. eapply runs_bind_d; [exact R1|]. cbn beta iota. apply runs_bind_c. exact H1.
  - destruct (IH w1 t2 _ cs R3) as (cs1 & o1 & K & H1 & H2). destruct o1 as [|g|]; try contradiction. cbn in H2. subst g. exists (WWrite d :: cs1), (Stuck f). split; [split; [constructor; [reflexivity|apply K]|destruct K as [_ [l ->]]; exists l; reflexivity]|]. split; [|reflexivity].
    cbn [app do_wcalls do_wcall]. eapply runs_bind_d; [exact R1|]. cbn beta iota. apply runs_bind_s. exact H1.
Qed.

Lemma do_wcalls_snoc cs c : forall w tr xs w1 tr2 o, runs (do_wcalls w cs) tr (Done (xs, w1)) ->
  runs (bind (do_wcall w1 c) (fun z => match z with (x, w) => Ret (xs ++ [x], w) end)) tr2 o -> runs (do_wcalls w (cs ++ [c])) (tr ++ tr2) o.
Proof.
  induction cs as [|c0 cs IH]; intros w tr xs w1 tr2 o R1 R2; cbn [do_wcalls app] in *.
  - inversion R1; subst. cbn [app] in R2 |- *. apply runs_bind_i in R2. destruct R2 as [([x w2] & t1 & t2 & R3 & R4 & ->)|[[R3 ->]|(f & R3 & ->)]].
    + eapply runs_bind_d; [exact R3|]. exact R4.
    + apply runs_bind_c. exact R3.
    + apply runs_bind_s. exact R3.
  - apply runs_bind_i in R1. destruct R1 as [([x w2] & t1 & t2 & R3 & R4 & ->)|[[_ E]|(f & _ & E)]]; try discriminate E.
    apply runs_bind_i in R4. destruct R4 as [([xs2 w3] & t3 & t4 & R5 & R6 & ->)|[[_ E]|(f & _ & E)]]; try discriminate E.
    inversion R6; subst. rewrite app_nil_r, <- app_assoc. eapply runs_bind_d; [exact R3|]. cbn beta iota.
    apply runs_bind_i in R2. destruct R2 as [([y w4] & t5 & t6 & R7 & R8 & ->)|[[R7 ->]|(f & R7 & ->)]].
    + inversion R8; subst. cbn [app]. rewrite app_nil_r, <- (app_nil_r (t3 ++ t5)). eapply runs_bind_d.
      { eapply IH; [exact R5|]. rewrite <- (app_nil_r t5). eapply runs_bind_d; [exact R7|]. constructor. }
      constructor.
    + apply runs_bind_c. eapply IH; [exact R5|]. apply runs_bind_c. exact R7.
    + apply runs_bind_s. eapply IH; [exact R5|]. apply runs_bind_s. exact R7.
Qed.

(** Each run of a copy is a run of some history of calls followed by destroy;
    if it succeeded, of the full one, all of whose calls succeeded. *)
Lemma copy_runs w ds tr o : runs (copy w ds) tr o ->
  (exists cs o1, (Forall wcall_ok cs /\ prefix (concat (map wpayloads cs)) ds) /\ runs (writer_life w cs) tr o1 /\ same_out o o1) /\
  forall n, o = Done (n, true) -> n = length ds /\ exists xs x tr1 tr2 w1, tr = tr1 ++ tr2 /\
    runs (do_wcalls w (copy_calls ds)) tr1 (Done (xs, w1)) /\ runs (writer_destroy w1) tr2 (Done x) /\ Forall (eq r_success) xs.
Proof.
  intro R. unfold copy in R. unfold writer_life.
  apply runs_bind_i in R. destruct R as [([x w1] & t1 & t2 & R1 & R2 & ->)|[[R1 ->]|(f & R1 & ->)]].
  2:{ split; [|discriminate]. exists [WOpen], Cut. split; [split; [repeat constructor; reflexivity|exists ds; reflexivity]|]. split; [|exact I].
      apply runs_bind_c. cbn [do_wcalls do_wcall]. apply runs_bind_c. exact R1. }
  2:{ split; [|discriminate]. exists [WOpen], (Stuck f). split; [split; [repeat constructor; reflexivity|exists ds; reflexivity]|]. split; [|reflexivity].
      apply runs_bind_s. cbn [do_wcalls do_wcall]. apply runs_bind_s. exact R1. }
  assert (RO : runs (do_wcalls w [WOpen]) t1 (Done ([x], w1))).
  { cbn [do_wcalls do_wcall]. rewrite <- (app_nil_r t1). eapply runs_bind_d; [exact R1|]. cbn. constructor. }
  destruct (res_eqb x r_success) eqn:EX; cbn [negb] in R2.
  2:{ split.
      - exists [WOpen]. apply runs_bind_i in R2. destruct R2 as [(y & t3 & t4 & R3 & R4 & ->)|[[R3 ->]|(f & R3 & ->)]].
        + inversion R4; subst. eexists (Done _). split; [split; [repeat constructor; reflexivity|exists ds; reflexivity]|]. split; [|exact I].
          eapply runs_bind_d; [exact RO|]. cbn beta iota. eapply runs_bind_d; [exact R3|]. constructor.
        + exists Cut. split; [split; [repeat constructor; reflexivity|exists ds; reflexivity]|]. split; [|exact I].
          eapply runs_bind_d; [exact RO|]. cbn beta iota. apply runs_bind_c. exact R3.
        + exists (Stuck f). split; [split; [repeat constructor; reflexivity|exists ds; reflexivity]|]. split; [|reflexivity].
          eapply runs_bind_d; [exact RO|]. cbn beta iota. apply runs_bind_s. exact R3.
      - intros n ->. apply runs_bind_i in R2. destruct R2 as [(y & t3 & t4 & R3 & R4 & ->)|[[R3 E]|(f & R3 & E)]]; try discriminate E.
        inversion R4. }
  apply res_eqb_true in EX. subst x.
  apply runs_bind_i in R2. destruct R2 as [([[n ok] w2] & t3 & t4 & R3 & R4 & ->)|[[R3 ->]|(f & R3 & ->)]].
  2:{ split; [|discriminate]. destruct (each_runs ds w1 t2 Cut [] R3) as (cs1 & o1 & K & H1 & H2). destruct o1; try contradiction.
      exists (WOpen :: cs1 ++ []), Cut. rewrite app_nil_r in H1 |- *. split; [split; [constructor; [reflexivity|apply K]|apply K]|]. split; [|exact I].
      apply runs_bind_c. cbn [do_wcalls do_wcall]. eapply runs_bind_d; [exact R1|]. cbn beta iota. apply runs_bind_c. exact H1. }
  2:{ split; [|discriminate]. destruct (each_runs ds w1 t2 (Stuck f) [] R3) as (cs1 & o1 & K & H1 & H2). destruct o1 as [|g|]; try contradiction. cbn in H2. subst g.
      exists (WOpen :: cs1 ++ []), (Stuck f). rewrite app_nil_r in H1 |- *. split; [split; [constructor; [reflexivity|apply K]|apply K]|]. split; [|reflexivity].
      apply runs_bind_s. cbn [do_wcalls do_wcall]. eapply runs_bind_d; [exact R1|]. cbn beta iota. apply runs_bind_s. exact H1. }
  destruct (each_runs ds w1 t3 _ [] R3) as (L & LN & xs & RW & OKs).
  assert (RP : runs (do_wcalls w (WOpen :: map WWrite (firstn n ds))) (t1 ++ t3) (Done (r_success :: xs, w2))).
  { cbn [do_wcalls do_wcall]. eapply runs_bind_d; [exact R1|]. cbn beta iota. rewrite <- (app_nil_r t3). eapply runs_bind_d; [exact RW|]. constructor. }
  assert (KC : Forall wcall_ok ((WOpen :: map WWrite (firstn n ds)) ++ [WClose]) /\
     prefix (concat (map wpayloads ((WOpen :: map WWrite (firstn n ds)) ++ [WClose]))) ds).
  { split.
    2:{ exists (skipn n ds). cbn [app map concat wpayloads]. rewrite map_app, concat_app, map_map. cbn [map concat wpayloads app].
        rewrite app_nil_r. rewrite <- (firstn_skipn n ds) at 1. f_equal. generalize (firstn n ds). intro l. induction l; cbn; congruence. }
    apply Forall_app. split; [|repeat constructor; reflexivity]. constructor; [reflexivity|]. apply Forall_forall. intros c H. apply in_map_iff in H. destruct H as (p & <- & _). reflexivity. }
  apply runs_bind_i in R4. destruct R4 as [([x w3] & t5 & t6 & R5 & R6 & ->)|[[R5 ->]|(f & R5 & ->)]].
  2:{ split; [|discriminate]. exists ((WOpen :: map WWrite (firstn n ds)) ++ [WClose]), Cut. split; [exact KC|]. split; [|exact I].
      apply runs_bind_c. rewrite app_assoc. eapply do_wcalls_snoc; [exact RP|]. apply runs_bind_c. exact R5. }
  2:{ split; [|discriminate]. exists ((WOpen :: map WWrite (firstn n ds)) ++ [WClose]), (Stuck f). split; [exact KC|]. split; [|reflexivity].
      apply runs_bind_s. rewrite app_assoc. eapply do_wcalls_snoc; [exact RP|]. apply runs_bind_s. exact R5. }
  assert (RC : runs (do_wcalls w ((WOpen :: map WWrite (firstn n ds)) ++ [WClose])) (t1 ++ t3 ++ t5) (Done ((r_success :: xs) ++ [x], w3))).
  { rewrite app_assoc. eapply do_wcalls_snoc; [exact RP|]. rewrite <- (app_nil_r t5). eapply runs_bind_d; [exact R5|]. constructor. }
  split.
  - exists ((WOpen :: map WWrite (firstn n ds)) ++ [WClose]). rewrite !app_assoc. rewrite <- (app_assoc t1).
    apply runs_bind_i in R6. destruct R6 as [(y & t7 & t8 & R7 & R8 & ->)|[[R7 ->]|(f & R7 & ->)]].
    + inversion R8; subst. eexists (Done _). split; [exact KC|]. split; [|exact I].
      eapply runs_bind_d; [exact RC|]. cbn beta iota. eapply runs_bind_d; [exact R7|]. constructor.
    + exists Cut. split; [exact KC|]. split; [|exact I]. eapply runs_bind_d; [exact RC|]. cbn beta iota. apply runs_bind_c. exact R7.
    + exists (Stuck f). split; [exact KC|]. split; [|reflexivity]. eapply runs_bind_d; [exact RC|]. cbn beta iota. apply runs_bind_s. exact R7.
  - intros n' ->. apply runs_bind_i in R6. destruct R6 as [(y & t7 & t8 & R7 & R8 & ->)|[[_ E]|(f & _ & E)]]; try discriminate E.
    inversion R8; subst. match goal with H : _ && _ = true |- _ => apply andb_true_iff in H; destruct H as [O1 O2] end.
    specialize (LN O1). split; [exact LN|]. apply res_eqb_true in O2. subst x. rewrite LN, firstn_all in RC.
    exists ((r_success :: xs) ++ [r_success]), y, (t1 ++ t3 ++ t5), t7, w3. rewrite app_nil_r, <- !app_assoc.
    split; [reflexivity|]. split; [exact RC|]. split; [exact R7|]. cbn [app]. constructor; [reflexivity|]. apply Forall_app. split; [auto|repeat constructor].
Qed.

(** The same for a deterministic environment. *)
Lemma exec_copy {S} (hd : S -> query -> S * ans) w ds s s' xs x :
  exec hd s (writer_life w (copy_calls ds)) = (s', Done (xs, x)) -> Forall (eq r_success) xs ->
  exec hd s (copy w ds) = (s', Done (length ds, true)).
Proof.
  unfold writer_life, copy, copy_calls. cbn [do_wcalls do_wcall]. rewrite !exec_bind.
  destruct (exec hd s (writer_open w)) as [s1 [[x1 w1]| |]]; try discriminate. rewrite exec_bind.
  assert (G : forall ds w1 s1, match exec hd s1 (do_wcalls w1 (map WWrite ds ++ [WClose])) with
     | (s2, Done (ys, w2)) => Forall (eq r_success) ys -> exists s3 w3, exec hd s1 (write_each w1 ds) = (s3, Done (length ds, true, w3)) /\
         exec hd s3 (writer_close w3) = (s2, Done (r_success, w2))
     | _ => True end).
  { clear. induction ds as [|d ds IH]; intros w1 s1; cbn [map app do_wcalls do_wcall write_each].
    - rewrite exec_bind. destruct (exec hd s1 (writer_close w1)) as [s2 [[y w2]| |]] eqn:E; auto. cbn. intro F. inversion_clear F; subst. exists s1, w1. auto.
    - rewrite !exec_bind. destruct (exec hd s1 (writer_write w1 d)) as [s2 [[y w2]| |]]; auto. rewrite exec_bind.
      specialize (IH w2 s2). destruct (exec hd s2 (do_wcalls w2 (map WWrite ds ++ [WClose]))) as [s3 [[ys w3]| |]]; auto. cbn. intro F.
      inversion_clear F; subst. destruct (IH ltac:(assumption)) as (s4 & w4 & E1 & E2). cbn [res_eqb negb]. rewrite exec_bind, E1. cbn. eauto. }
  specialize (G ds w1 s1). destruct (exec hd s1 (do_wcalls w1 (map WWrite ds ++ [WClose]))) as [s2 [[ys w2]| |]]; try discriminate.
  cbn. rewrite exec_bind. destruct (exec hd s2 (writer_destroy w2)) as [s3 [y| |]] eqn:ED; try discriminate. cbn. intros [= <- <- <-] F.
  inversion_clear F as [|? ? <- F']. cbn [res_eqb negb]. destruct (G F') as (s4 & w4 & E1 & E2).
  rewrite exec_bind, E1, exec_bind, E2, exec_bind, ED. reflexivity.
Qed.

(** ** What a uni-directional copy asks of its transport *)
Definition wcd (q : query) : Prop := match q with QWrite _ _ | QClose _ | QDestroy _ => True | _ => False end.
Definition oneway (rw : rdwr) : Prop := rw_has_read rw = false.
Definition past (w : writer) : Prop := oneway (w_rdwr w) /\ w_state w <> ws_opening.

Lemma u_close_asks rw : oneway rw -> asks wcd (fun z => oneway (snd z)) (rdwr_close rw).
Proof.
  intro H. unfold rdwr_close. destruct (negb _); [exact H|]. destruct (rw_opened rw); [|exact H].
  cbn. split; [exact I|]. intros []; cbn; auto.
Qed.
Lemma u_destroy_asks rw : asks wcd (fun _ => True) (rdwr_destroy rw).
Proof. unfold rdwr_destroy. destruct (rw_has_destroy rw); [|exact I]. cbn. split; [exact I|]. intros []; cbn; auto. Qed.
Lemma u_write_asks rw iov : oneway rw -> asks wcd (fun z => oneway (snd z)) (rdwr_write rw iov).
Proof.
  intro H. unfold rdwr_write. destruct (negb _); [exact H|]. destruct (negb _); [exact H|].
  cbn. split; [exact I|]. intros []; cbn; auto. destruct (negb _); [|exact H].
  eapply asks_bind; [apply u_close_asks; exact H|]. intros [? ?]; auto.
Qed.
Lemma u_wcf_asks rw c : oneway rw -> asks wcd (fun z => oneway (snd z)) (write_control_frame rw c).
Proof.
  intro H. unfold write_control_frame. destruct (control_encoded_size c 1) as [[] [n|]]; try exact H; try exact I.
  eapply asks_bind; [apply asks_lift|]. intros [[x m] l] _. destruct (negb _); [exact H|]. apply u_write_asks; exact H.
Qed.
Lemma u_wc_asks rw t ct : oneway rw -> asks wcd (fun z => oneway (snd z)) (write_control rw t ct).
Proof.
  intro H. unfold write_control. destruct (control_set_type control_init t) as [[] c]; try exact H. apply u_wcf_asks; exact H.
Qed.
Lemma u_iov_asks w iov : past w -> asks wcd (fun z => past (snd z)) (write_iov w iov).
Proof.
  intros [H1 H2]. unfold write_iov. destruct (_ <? _)%nat; [exact I|]. eapply asks_bind; [apply u_write_asks; exact H1|]. intros [x rw] H. split; assumption.
Qed.
Lemma u_stupid_asks fuel chunk : forall w iov, past w -> asks wcd (fun z => past (snd z)) (write_iov_stupid_loop fuel chunk w iov).
Proof.
  induction fuel as [|fuel IH]; intros w iov H; cbn [write_iov_stupid_loop]; (destruct iov as [|b iov]; [exact H|]); [exact I|].
  eapply asks_bind; [apply u_iov_asks; exact H|]. intros [x w1] H1. cbn [snd] in H1.
  destruct (negb _); [exact H1|]. apply IH. exact H1.
Qed.
Lemma u_writev_asks w iov : past w -> asks wcd (fun z => past (snd z)) (writer_writev w iov).
Proof.
  intro H. unfold writer_writev. destruct iov as [|b iov]; [exact H|].
  unfold writer_maybe_open. destruct (w_state w) eqn:ES; try (destruct H as [_ H]; contradiction); cbn [bind]; cbn [negb res_eqb]; rewrite ES; try exact H.
  destruct (_ <=? _); [exact I|]. destruct (_ <=? _)%nat; [apply u_iov_asks; exact H|].
  unfold write_iov_stupid. destruct (_ =? _)%nat; [exact I|]. apply u_stupid_asks. exact H.
Qed.
Lemma u_wclose_asks w : past w -> asks wcd (fun z => past (snd z)) (writer_close w).
Proof.
  intros [H1 H2]. unfold writer_close. destruct (w_state w) eqn:ES; try (split; [exact H1|cbn; rewrite ES; assumption || discriminate]).
  cbv zeta. eapply asks_bind; [apply u_wc_asks; exact H1|]. intros [x rw] H. cbn [snd] in H.
  destruct (negb _).
  - eapply asks_bind; [apply u_close_asks; exact H|]. intros [y rw1] H'. split; [exact H'|discriminate].
  - rewrite H. eapply asks_bind; [apply u_close_asks; exact H|]. intros [y rw1] H'. split; [exact H'|discriminate].
Qed.
Lemma u_wdestroy_asks w : past w -> asks wcd (fun _ => True) (writer_destroy w).
Proof.
  intro H. unfold writer_destroy. apply asks_bind with (I := fun _ => True).
  - destruct (w_state w); try exact I. eapply asks_mono; [|apply u_wclose_asks; exact H]. auto.
  - intros [x w1] _. eapply asks_bind; [apply u_destroy_asks|]. intros; exact I.
Qed.
Lemma u_each_asks ds : forall w, past w -> asks wcd (fun z => past (snd z)) (write_each w ds).
Proof.
  induction ds as [|d ds IH]; intros w H; cbn [write_each]; [exact H|].
  eapply asks_bind; [apply u_writev_asks; exact H|]. intros [x w1] H1. cbn [snd] in H1. destruct (negb _); [exact H1|].
  eapply asks_bind; [apply IH; exact H1|]. intros [[n ok] w2] H2. exact H2.
Qed.

(** Opened once, first. *)
Definition opens_first {A} (p : io A) : Prop :=
  match p with Vis (QOpen _) k => forall a, asks wcd (fun _ => True) (k a) | _ => False end.

Lemma copy_opens w ds : w_state w = ws_opening -> oneway (w_rdwr w) -> rw_has_open (w_rdwr w) = true -> opens_first (copy w ds).
Proof.
  intros ES H HO. unfold copy, writer_open. rewrite ES. unfold rdwr_open. rewrite HO. cbn [negb bind opens_first ask_res].
  assert (F : forall x w1, w_state w1 = ws_opening -> asks wcd (fun _ : nat * bool => True)
     (bind (writer_destroy w1) (fun _ => Ret (x : nat * bool)))).
  { intros x w1 E. unfold writer_destroy. rewrite E. cbn [bind]. apply asks_bind with (I := fun _ => True); [|intros; exact I]. eapply asks_bind; [apply u_destroy_asks|]. intros; exact I. }
  intros []; try exact I. cbn [bind]. destruct (res_eqb r r_success) eqn:ER; cbn [bind].
  2:{ rewrite ER. cbn [negb bind]. rewrite ER. cbn [negb]. apply F. exact ES. }
  rewrite ER. cbn [negb]. change (rw_has_read (w_rdwr (set_wrdwr w (set_opened (w_rdwr w) true)))) with (rw_has_read (w_rdwr w)). rewrite H.
  apply asks_bind with (I := fun z => match z with (x, w1) => oneway (w_rdwr w1) /\ (x = r_success -> w_state w1 = ws_opened) /\ (x <> r_success -> w_state w1 = ws_opening) end).
  - apply asks_bind with (I := fun z => oneway (w_rdwr (snd z)) /\ w_state (snd z) = ws_opening).
    + unfold writer_open_unidirectional. assert (G : forall v ct, oneway (w_rdwr v) -> w_state v = ws_opening -> asks wcd (fun z => oneway (w_rdwr (snd z)) /\ w_state (snd z) = ws_opening) (writer_send_start v ct)).
      { clear. intros v ct HV EV. unfold writer_send_start. destruct (control_set_type _ _) as [[] c]; try (split; assumption).
        cbv zeta. eapply asks_bind; [apply u_wcf_asks; exact HV|]. intros [x rw] H1. destruct (negb _); (split; [exact H1|exact EV]). }
      apply G; [exact H|exact ES].
    + intros [x w1] [H1 H2]. cbn [snd] in H1, H2. destruct (res_eqb x r_success) eqn:EX; cbn [negb].
      * split; [exact H1|]. split; [reflexivity|congruence].
      * split; [exact H1|]. split; [intros ->; discriminate EX|auto].
  - intros [x w1] (H1 & H2 & H3). destruct (res_eqb x r_success) eqn:EX; cbn [negb].
    2:{ apply F. apply H3. intros ->. discriminate EX. }
    apply res_eqb_true in EX. assert (P1 : past w1) by (split; [exact H1|rewrite (H2 EX); discriminate]).
    eapply asks_bind; [apply u_each_asks; exact P1|]. intros [[n ok] w2] P2.
    eapply asks_bind; [apply u_wclose_asks; exact P2|]. intros [y w3] P3.
    eapply asks_bind; [apply u_wdestroy_asks; exact P3|]. intros; exact I.
Qed.

(** ** The bytes that reach the output *)
Inductive gives : list bytes -> trace -> list bytes -> Prop :=
| gv_nil ss : gives ss [] ss
| gv_fail ss h iov r b tr ss' : r <> r_success -> prefix b (concat iov) -> gives (add_last ss b) tr ss' ->
    gives ss ((QWrite h iov, ARes r) :: tr) ss'
| gv_other ss e tr ss' : (forall h iov r, e = (QWrite h iov, ARes r) -> r = r_success) ->
    gives (sess_step (fun _ => true) ss e) tr ss' -> gives ss (e :: tr) ss'.

Lemma gives_app ss tr1 ss1 : gives ss tr1 ss1 -> forall tr2 ss2, gives ss1 tr2 ss2 -> gives ss (tr1 ++ tr2) ss2.
Proof. induction 1; intros tr2 ss2 G; cbn; [exact G|eapply gv_fail; eauto|apply gv_other; eauto]. Qed.
Lemma emits_gives tr ss : emits tr ss -> gives [] tr ss.
Proof.
  induction 1; [constructor|..]; (eapply gives_app; [eassumption|]).
  - eapply gv_fail; eauto. constructor.
  - apply gv_other; [assumption|constructor].
Qed.
Lemma gives_emits0 ss0 tr ss : gives ss0 tr ss -> forall tr0, emits tr0 ss0 -> emits (tr0 ++ tr) ss.
Proof.
  induction 1; intros tr0 E.
  - rewrite app_nil_r. exact E.
  - change ((QWrite h iov, ARes r) :: tr) with ([(QWrite h iov, ARes r)] ++ tr). rewrite app_assoc. apply IHgives. apply em_fail; assumption.
  - change (e :: tr) with ([e] ++ tr). rewrite app_assoc. apply IHgives. apply em_other; assumption.
Qed.

Lemma asks_trace {A} P (R : A -> Prop) p : asks P R p -> forall tr o, runs p tr o -> Forall (fun e => P (fst e)) tr.
Proof.
  induction p as [a|f|q k IH]; intros HA tr o R0; inversion R0; subst; constructor.
  - exact (proj1 HA).
  - eapply IH; [exact (proj2 HA a)|eassumption].
Qed.

(** Once the transport is not open, nothing more is written. *)
Lemma silent tr : Forall (fun e => wcd (fst e)) tr -> forall s, s <> TOpen -> tsteps s tr <> None ->
  forall ss ss', gives ss tr ss' -> ss' = ss.
Proof.
  induction 1 as [|[q a] tr HW F IH]; intros s NE L ss ss' G.
  { inversion G; reflexivity. }
  cbn [tsteps] in L. destruct (tstep s (q, a)) as [s1|] eqn:ET; [|contradiction].
  assert (N1 : s1 <> TOpen).
  { destruct q; cbn in HW; try contradiction; cbn in ET; destruct a, s; try discriminate ET; injection ET as <-; congruence. }
  inversion G; subst.
  - cbn in ET. destruct s; try discriminate ET; contradiction.
  - rewrite (IH s1 N1 L _ _ ltac:(eassumption)). destruct q; cbn in HW; try contradiction; try reflexivity.
    destruct a; try reflexivity. cbn in ET. destruct s; try discriminate ET; contradiction.
Qed.

Lemma sink_grows {A} (p : io A) : asks wcd (fun _ => True) p -> forall s0, exists t x, exec sink [s0] p = ([s0 ++ t], x).
Proof.
  induction p as [a|f|q k IH]; intros H s0; cbn [exec].
  1,2: exists []; rewrite app_nil_r; eexists; reflexivity.
  destruct H as [HW H]. destruct q; cbn in HW; try contradiction; cbn [sink].
  - apply IH. apply H.
  - destruct (IH (ARes r_success) (H _) (s0 ++ concat iov)) as (t & x & E). exists (concat iov ++ t), x. rewrite app_assoc. exact E.
  - apply IH. apply H.
Qed.

Lemma tail_prefix {A} (p : io A) : asks wcd (fun _ => True) p -> forall tr o s0 ss,
  runs p tr o -> tsteps TOpen tr <> None -> gives [s0] tr ss ->
  exists s1 s2, ss = [s1] /\ fst (exec sink [s0] p) = [s2] /\ prefix s1 s2.
Proof.
  induction p as [a|f|q k IH]; intros H tr o s0 ss R L G.
  1,2: inversion R; subst; inversion G; subst; cbn; exists s0, s0; repeat split; exists []; symmetry; apply app_nil_r.
  pose proof (asks_trace _ _ _ H _ _ R) as FT.
  destruct (sink_grows _ H s0) as (t & x & E).
  inversion R; subst.
  { inversion G; subst. rewrite E. cbn. eexists _, _. repeat split. exists t. reflexivity. }
  inversion_clear FT as [|? ? HW FT'].
  match goal with HR : runs (k a) _ _ |- _ => rename HR into RK end. match goal with HO : ans_ok _ _ |- _ => rename HO into OKA end. destruct H as [_ H].
  cbn [tsteps] in L. destruct (tstep TOpen (q, a)) as [s1|] eqn:ET; [|contradiction].
  inversion G; subst.
  - cbn in ET. destruct (res_eqb r r_success) eqn:ER; [apply res_eqb_true in ER; contradiction|]. injection ET as <-.
    match goal with HG : gives _ tr0 ss |- _ => pose proof (silent _ FT' TBroken ltac:(discriminate) L _ _ HG) as -> end.
    change (add_last [s0] b) with ([s0 ++ b]).
    destruct (sink_grows _ (H (ARes r_success)) (s0 ++ concat iov)) as (t' & x' & E'). change (exec sink [s0] (Vis (QWrite h iov) k) = ([(s0 ++ concat iov) ++ t'], x')) in E'. rewrite E'. cbn [fst].
    eexists _, _. split; [reflexivity|]. split; [reflexivity|]. match goal with HP : prefix b _ |- _ => destruct HP as (c & ->) end.
    exists (c ++ t'). rewrite <- !app_assoc. reflexivity.
  - match goal with HG : gives _ tr0 ss |- _ => rename HG into G1 end.
    destruct q; cbn in HW; try contradiction.
    + cbn in ET. injection ET as <-. pose proof (silent _ FT' TClosed ltac:(discriminate) L _ _ G1) as ->.
      rewrite E. cbn [fst sess_step]. eexists _, _. repeat split. exists t. reflexivity.
    + destruct a; try (cbn in OKA; contradiction). cbn in ET. destruct (res_eqb r r_success) eqn:ER.
      * apply res_eqb_true in ER. subst r. injection ET as <-. cbn [sess_step] in G1. change (add_last [s0] (concat iov)) with ([s0 ++ concat iov]) in G1.
        exact (IH (ARes r_success) (H _) _ _ _ _ RK L G1).
      * exfalso. match goal with HH : forall h iov r, _ -> _ |- _ => specialize (HH _ _ _ eq_refl) end. subst r. discriminate ER.
    + cbn in ET. injection ET as <-. pose proof (silent _ FT' TDestroyed ltac:(discriminate) L _ _ G1) as ->.
      rewrite E. cbn [fst sess_step]. eexists _, _. repeat split. exists t. reflexivity.
Qed.

(** A run all of whose calls succeeded. *)
Lemma sink_follow {A} (p : io A) : forall tr a ss, runs p tr (Done a) -> Forall ev_ok tr ->
  Forall (fun e => wcd (fst e) \/ exists h, fst e = QOpen h) tr ->
  exec sink ss p = (fold_left (sess_step (fun r => res_eqb r r_success)) tr ss, Done a).
Proof.
  induction p as [a|f|q k IH]; intros tr a0 ss R F1 F2; inversion R; subst; [reflexivity|].
  inversion_clear F1 as [|? ? O1 F1']. inversion_clear F2 as [|? ? O2 F2']. cbn [exec fold_left].
  destruct q; cbn in O2; try (destruct O2 as [[]|[? O2]]; discriminate O2);
    match goal with H : ans_ok _ ?x |- _ => destruct x; try (cbn in H; contradiction) end;
    cbn in O1; subst; cbn [sink sess_step res_eqb]; apply IH; assumption.
Qed.

Definition whole (ct : option bytes) (ds : list bytes) : bytes := start_frame ct ++ datas ds ++ stop_frame.

Lemma u_writes cts ds : forall s, u_steps cts U_open [s] (map WWrite ds ++ [WClose]) =
  (repeat r_success (length ds + 1), U_closed, [s ++ datas ds ++ stop_frame]).
Proof.
  induction ds as [|d ds IH]; intro s; [reflexivity|].
  cbn [map app u_steps]. change (u_step cts U_open [s] (WWrite d)) with (r_success, U_open, [s ++ data_frame d ++ []]).
  cbv iota beta. rewrite IH. cbn [length repeat Nat.add]. rewrite app_nil_r. unfold datas. cbn [map concat]. rewrite <- !app_assoc. reflexivity.
Qed.
Lemma u_copy cts ds : u_steps cts U_fresh [] (copy_calls ds) = (repeat r_success (length ds + 2), U_closed, [whole (hd_error cts) ds]).
Proof.
  unfold copy_calls. cbn [u_steps]. change (u_step cts U_fresh [] WOpen) with (r_success, U_open, [start_frame (hd_error cts)]).
  cbv iota beta. rewrite u_writes. rewrite (Nat.add_comm _ 2), (Nat.add_comm _ 1). reflexivity.
Qed.
Lemma copy_calls_ok ds : Forall wcall_ok (copy_calls ds).
Proof.
  unfold copy_calls. constructor; [reflexivity|]. apply Forall_app. split; [|repeat constructor; reflexivity].
  apply Forall_forall. intros c H. apply in_map_iff in H. destruct H as (p & <- & _). reflexivity.
Qed.
Lemma repeat_success n : Forall (eq r_success) (repeat r_success n).
Proof. induction n; cbn; constructor; auto. Qed.

Section Copy.
Variables (iovm : nat) (cts : list bytes) (rw : rdwr) (w : writer).
Hypotheses (FR : fresh_rdwr rw) (HR : rw_has_read rw = false) (HI : (0 < iovm)%nat)
  (HC : Forall (fun ct => lenN ct <= CT_MAX) cts) (HW : writer_init iovm cts rw = Some w).

Lemma copy_sink ds : exec sink [] (copy w ds) = ([whole (hd_error cts) ds], Done (length ds, true)).
Proof.
  pose proof (uni_life iovm cts rw w (copy_calls ds) FR HR HI HC (copy_calls_ok ds) HW) as E. rewrite u_copy in E. cbv beta iota in E.
  eapply exec_copy; [exact E|apply repeat_success].
Qed.

Lemma copy_file ds d0 : Forall (fun p => lenN p <> 0) ds ->
  exec file_ops (mk_cfile true d0 None) (copy w ds) = (mk_cfile true (whole (hd_error cts) ds) None, Done (length ds, true)).
Proof.
  intro NZ. assert (PK : Forall (fun c => Forall (fun p => lenN p <> 0) (wpayloads c)) (copy_calls ds)).
  { unfold copy_calls. constructor; [constructor|]. apply Forall_app. split; [|repeat constructor].
    apply Forall_forall. intros c H. apply in_map_iff in H. destruct H as (p & <- & H). constructor; [|constructor]. exact (proj1 (Forall_forall _ _) NZ p H). }
  pose proof (file_life iovm cts rw w (copy_calls ds) d0 FR HR HI HC (copy_calls_ok ds) PK HW) as E. rewrite u_copy in E. cbv beta iota in E.
  eapply exec_copy; [exact E|apply repeat_success].
Qed.

Lemma init_facts : w_state w = ws_opening /\ oneway (w_rdwr w) /\ rw_has_open (w_rdwr w) = true.
Proof.
  unfold writer_init in HW. destruct (rw_has_write rw); [|discriminate]. injection HW as <-. cbn. destruct FR. repeat split; auto.
Qed.

Lemma copy_prefix ds tr o ss : runs (copy w ds) tr o -> emits tr ss ->
  (ss = [] \/ exists s, ss = [s] /\ prefix s (whole (hd_error cts) ds)) /\ (forall f, o <> Stuck f).
Proof.
  intros R E. destruct (copy_runs w ds tr o R) as [(cs & o1 & [OK _] & RL & SO) _].
  destruct (writer_legal iovm cts rw w cs tr o1 FR HI HW OK RL) as [LG LO].
  split.
  2:{ intros f ->. destruct o1; cbn in SO; contradiction. }
  destruct init_facts as (I1 & I2 & I3). pose proof (copy_opens w ds I1 I2 I3) as OP. pose proof (copy_sink ds) as CS.
  apply emits_gives in E. unfold transport_state in LG.
  destruct (copy w ds) as [|f|q k]; try contradiction. destruct q; try contradiction. cbn [opens_first] in OP.
  inversion R; subst.
  { left. inversion E. reflexivity. }
  match goal with HO : ans_ok _ ?x |- _ => destruct x; try (cbn in HO; contradiction) end.
  match goal with HR0 : runs (k _) _ _ |- _ => rename HR0 into RK end.
  inversion E; subst. match goal with HG : gives _ tr0 ss |- _ => rename HG into G end.
  cbn [tsteps tstep] in LG. destruct (res_eqb r r_success) eqn:ER.
  - apply res_eqb_true in ER. subst r. right. destruct (tail_prefix _ (OP (ARes r_success)) _ _ [] _ RK LG G) as (s1 & s2 & -> & E2 & P).
    exists s1. split; [reflexivity|]. assert (E3 : [s2] = [whole (hd_error cts) ds]) by exact (eq_trans (eq_sym E2) (f_equal fst CS)).
    injection E3 as ->. exact P.
  - left. assert (sess_step (fun _ => true) [] (QOpen h, ARes r) = []) as ES by (destruct r; [discriminate ER|reflexivity..]).
    rewrite ES in G. exact (silent _ (asks_trace _ _ _ (OP _) _ _ RK) TClosed ltac:(discriminate) LG _ _ G).
Qed.

Lemma calls_ok cs : forall v tr xs v', runs (do_wcalls v cs) tr (Done (xs, v')) -> Forall (eq r_success) xs -> Forall ev_ok tr.
Proof.
  induction cs as [|c cs IH]; intros v tr xs v' R F; cbn [do_wcalls] in R.
  { inversion R; subst. constructor. }
  apply runs_bind_i in R. destruct R as [([x w1] & t1 & t2 & R1 & R2 & ->)|[[_ E]|(f & _ & E)]]; try discriminate E.
  apply runs_bind_i in R2. destruct R2 as [([ys w2] & t3 & t4 & R3 & R4 & ->)|[[_ E]|(f & _ & E)]]; try discriminate E.
  inversion R4; subst. inversion_clear F; subst. rewrite app_nil_r. apply Forall_app. split; [eapply success_all_ok; exact R1|eapply IH; eassumption].
Qed.

Lemma copy_delivers ds tr n : runs (copy w ds) tr (Done (n, true)) -> n = length ds /\ delivered tr = [whole (hd_error cts) ds].
Proof.
  intro R. destruct (copy_runs w ds tr _ R) as [_ S]. destruct (S n eq_refl) as (-> & xs & x & tr1 & tr2 & w1 & -> & R1 & R2 & F). split; [reflexivity|].
  destruct init_facts as (I1 & I2 & I3). pose proof (copy_opens w ds I1 I2 I3) as OP.
  assert (FT : Forall (fun e => wcd (fst e) \/ exists h, fst e = QOpen h) (tr1 ++ tr2)).
  { destruct (copy w ds) as [|f|q k]; try contradiction. destruct q; try contradiction. inversion R; subst. constructor.
    - right. eexists. reflexivity.
    - eapply Forall_impl; [|eapply asks_trace; [apply OP|eassumption]]. auto. }
  apply Forall_app in FT. destruct FT as [FT1 FT2].
  pose proof (sink_follow _ _ _ [] R1 (calls_ok _ _ _ _ _ R1 F) FT1) as E1.
  assert (U : US cts w U_fresh).
  { unfold writer_init in HW. destruct (rw_has_write rw) eqn:E; [|discriminate]. injection HW as <-. destruct FR. repeat split; auto. }
  assert (PK : Forall (fun c => Forall (fun _ : bytes => True) (wpayloads c)) (copy_calls ds)) by (apply Forall_forall; intros; apply Forall_forall; auto).
  assert (AC : exists w', let '(xs, st', ss') := u_steps cts U_fresh [] (copy_calls ds) in
     exec sink [] (do_wcalls w (copy_calls ds)) = (ss', Done (xs, w')) /\ US cts w' st' /\ sne (fun _ => True) st' ss').
  { apply (acc_calls (list bytes) sink (fun _ ss => ss) (fun _ => True) (fun _ => True) (fun _ => True)) with (st := U_fresh) (ss := []); auto using copy_calls_ok. discriminate. }
  destruct AC as (w' & E2).
  rewrite u_copy in E2. destruct E2 as (E2 & [_ [S1 _]] & _). rewrite E1 in E2. injection E2 as E3 _ <-.
  unfold delivered, sessions. rewrite fold_left_app, E3.
  unfold writer_destroy in R2. rewrite S1 in R2. cbn [bind] in R2. unfold rdwr_destroy in R2. destruct (rw_has_destroy (w_rdwr w1)).
  - cbn in R2. inversion R2; subst. match goal with HO : ans_ok _ ?x |- _ => destruct x; try (cbn in HO; contradiction) end.
    match goal with HR0 : runs _ _ (Done x) |- _ => cbn in HR0; inversion HR0; subst end. reflexivity.
  - inversion R2; subst. reflexivity.
Qed.
End Copy.

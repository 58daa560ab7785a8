(** fstrm_dump writing to a disk that may fail; reading back what a file writer left. *)
From Verif Require Import Bytes Spec Bytes_proofs Io Io_proofs SpecTrace SpecStream
  Control Control_proofs Rdwr Rdwr_proofs Writer Api SpecApi SpecDeliver Writer_proofs Writer2_proofs Writer5_proofs
  SpecReader Reader File Misc Tools SpecTools Tools_proofs Tools2_proofs Tools4_proofs Tools5_proofs System2_proofs Stdio Stdio_proofs.
Local Open Scope nat_scope.

Lemma emits_attempted tr : emits tr (attempted tr).
Proof.
  induction tr as [|[q a] tr IH] using rev_ind; [constructor|].
  unfold attempted. rewrite sessions_snoc. fold (attempted tr).
  destruct q; try (apply em_other; [exact IH|congruence]).
  destruct a as [r| | | | |]; try (apply em_other; [exact IH|congruence]).
  destruct (res_eqb r r_success) eqn:E.
  - apply res_eqb_true in E. subst r. apply em_other; [exact IH|congruence].
  - cbn [sess_step]. apply em_fail; [exact IH|intros ->; discriminate|exists []; rewrite app_nil_r; reflexivity].
Qed.

Section Disk.
Variable D : nat -> dact.

Lemma closed_stays tr : forall f f', d_fp f = None -> Forall (fun e => wcd (fst e)) tr -> disk_runs D f tr f' -> f' = f.
Proof.
  induction tr as [|[q a] tr IH]; intros f f' E F R; inversion R as [|? ? ? f1 ? ? S R1]; subst; [reflexivity|].
  inversion_clear F as [|? ? W F']. cbn [fst] in W.
  assert (f1 = f) as ->; [|exact (IH _ _ E F' R1)].
  destruct q; try contradiction; cbn in S.
  - unfold disk_close in S. rewrite E in S. congruence.
  - destruct iov; cbn [disk_write] in S; rewrite E in S; congruence.
  - congruence.
Qed.

Lemma disk_prefix old tr f : disk_runs D (disk_init old) tr f ->
  (attempted tr = [] /\ d_content f = old) \/ exists ss cur, attempted tr = ss ++ [cur] /\ prefix (d_content f) cur.
Proof.
  intros DR. apply DI_init in DR. unfold DI in DR. destruct (d_fp f) as [buf|]; [|exact DR].
  destruct DR as (ss & E). right. exists ss, (d_content f ++ buf). split; [exact E|exists buf; reflexivity].
Qed.

Lemma since_close_writes ds : forall acc, since_close acc (map WWrite ds) (repeat r_success (length ds)) = acc ++ ds.
Proof.
  induction ds as [|d ds IH]; intros acc; cbn [map length repeat since_close]; [rewrite app_nil_r; reflexivity|].
  rewrite IH, <- app_assoc. reflexivity.
Qed.

Lemma all_success xs : Forall (eq r_success) xs -> xs = repeat r_success (length xs).
Proof. induction 1 as [|x xs <- F IH]; cbn; congruence. Qed.

Lemma destroy_asks w : oneway (w_rdwr w) -> asks wcd (fun _ => True) (writer_destroy w).
Proof.
  intro H. destruct (w_state w) eqn:E; try (apply u_wdestroy_asks; split; [exact H|congruence]).
  unfold writer_destroy. rewrite E. cbn [bind]. eapply asks_bind; [apply u_destroy_asks|]. intros; exact I.
Qed.

Section Copy.
Variables (old : bytes) (iovm : nat) (cts : list bytes) (h : nat) (w : writer).
Hypotheses (Hi : 0 < iovm) (Hw : writer_init iovm cts (file_writer_rdwr h) = Some w).

Lemma copy_on_disk ds tr n f : runs (copy w ds) tr (Done (n, true)) -> disk_runs D (disk_init old) tr f ->
  d_fp f = None /\ d_content f = start_frame (hd_error cts) ++ datas ds ++ stop_frame.
Proof.
  intros R DR. destruct (copy_runs w ds tr _ R) as [_ K]. destruct (K n eq_refl) as (_ & xs & x & t1 & t2 & w1 & -> & R1 & R2 & F).
  apply disk_runs_app in DR. destruct DR as (f1 & D1 & D2).
  pose proof (runs_wcalls_length _ _ _ _ _ R1) as L. apply all_success in F. rewrite L in F.
  unfold copy_calls in *. cbn [length] in F. rewrite app_length, map_length, Nat.add_1_r in F.
  replace (S (S (length ds))) with (S (length ds) + 1) in F by lia. rewrite repeat_app in F. cbn [repeat] in F. subst xs.
  destruct (close_on_disk D old iovm cts h w Hi Hw (WOpen :: map WWrite ds) t1 (r_success :: repeat r_success (length ds)) w1 f1) as [E1 E2].
  { pose proof (copy_calls_ok ds) as O. unfold copy_calls in O. change (WOpen :: map WWrite ds ++ [WClose]) with ((WOpen :: map WWrite ds) ++ [WClose]) in O.
    apply Forall_app in O. apply O. }
  { exact R1. }
  { exact D1. }
  cbn [since_close wpayloads app] in E2. rewrite since_close_writes in E2. cbn [app] in E2.
  assert (OW : oneway (w_rdwr w1)).
  { pose proof (wp_runs _ _ (pi_calls (fun _ => true) eq_refl false cts _ w [] [] (pi_init (fun _ => true) _ _ _ _ _ (file_fresh h) eq_refl Hi Hw) (copy_calls_ok ds)) _ _ R1) as [_ PI1].
    destruct PI1 as [WO _]. exact (ok_read _ _ _ WO). }
  apply closed_stays in D2; [subst f1; auto|exact E1|exact (asks_trace _ _ _ (destroy_asks w1 OW) _ _ R2)].
Qed.
End Copy.
End Disk.

(** ** fstrm_dump *)
Lemma dump_on_disk D old fuel iovm d tr fs out f :
  length d <= fuel -> 0 < iovm -> runs (on_files 0 [input d] (dump_main fuel iovm true)) tr (Done (fs, (true, out))) ->
  disk_runs D (disk_init old) tr f ->
  exists st ds e, stream_file d st ds e /\ (e = E_stop \/ e = E_eof) /\ out = printed ds /\
    d_fp f = None /\ d_content f = ctl_frame T_START st ++ datas ds ++ stop_frame.
Proof.
  intros HF HI R DR. destruct (dump_success fuel iovm d tr fs out HF HI R) as (st & ds & e & SF & EE & EO & _).
  exists st, ds, e. split; [exact SF|]. split; [exact EE|]. split; [exact EO|].
  destruct (dump_writer iovm st) as [w Hw].
  assert (NO : e <> E_oversize) by (destruct EE; subst e; discriminate).
  destruct (sim_runs _ _ _ (dump_sim' fuel iovm d st ds e SF HF w NO Hw) _ _ R) as (o' & R' & M).
  destruct o' as [[n b]| |]; try contradiction. destruct M as [_ M]. cbn [fst snd] in M.
  assert (b = true) as -> by (destruct b; [reflexivity|discriminate M]).
  rewrite <- (st_whole d st ds e SF). exact (copy_on_disk D old iovm st 1 w HI Hw ds tr n f R' DR).
Qed.

Lemma dump_disk_prefix D old fuel iovm d st ds e tr o f :
  stream_file d st ds e -> e <> E_oversize -> length d <= fuel -> 0 < iovm ->
  runs (on_files 0 [input d] (dump_main fuel iovm true)) tr o -> disk_runs D (disk_init old) tr f ->
  d_content f = old \/ prefix (d_content f) (ctl_frame T_START st ++ datas ds ++ stop_frame).
Proof.
  intros SF NO HF HI R DR. destruct (disk_prefix D old tr f DR) as [[_ E]|(ss & cur & E & P)]; [left; exact E|]. right.
  destruct (dump_any fuel iovm d st ds e SF HF HI tr o (attempted tr) NO R (emits_attempted tr)) as [[K|(s & K & PS)] _]; rewrite E in K.
  - destruct ss; discriminate K.
  - change [s] with ([] ++ [s]) in K. apply app_inj_tail in K. destruct K as [_ ->]. eapply prefix_trans; eassumption.
Qed.

(** ** Reading back *)
Lemma since_close_in p cs : forall acc rs, In p (since_close acc cs rs) -> In p acc \/ exists c, In c cs /\ In p (wpayloads c).
Proof.
  induction cs as [|c cs IH]; intros acc rs H; [left; exact H|].
  assert (G : forall a rs', In p (since_close a cs rs') -> (In p a -> In p acc \/ In p (wpayloads c)) ->
    In p acc \/ exists c0, In c0 (c :: cs) /\ In p (wpayloads c0)).
  { intros a rs' H' K. destruct (IH _ _ H') as [H1|(c0 & H1 & H2)].
    - destruct (K H1); [auto|]. right. exists c. split; [left; reflexivity|assumption].
    - right. exists c0. split; [right; exact H1|exact H2]. }
  destruct rs as [|r rs]; [destruct c; left; exact H|].
  destruct c; cbn [since_close] in H; try (destruct r); (eapply G; [exact H|]); intro X; try (apply in_app_iff in X); tauto.
Qed.

Lemma disk_read_back D old iovm cts h w cs tr rs w' f hr o r :
  0 < iovm -> writer_init iovm cts (file_writer_rdwr h) = Some w -> Forall wcall_ok cs ->
  Forall (fun ct => (lenN ct <= CT_MAX)%N) cts ->
  Forall (fun c => Forall (fun p => data_ok p /\ (lenN p <= ro_max o)%N) (wpayloads c)) cs ->
  runs (do_wcalls w (cs ++ [WClose])) tr (Done (rs ++ [r_success], w')) -> disk_runs D (disk_init old) tr f ->
  reader_init o (file_reader_rdwr hr) = Some r ->
  ro_cts o = [] \/ cts = [] \/ (exists c, hd_error cts = Some c /\ In c (ro_cts o)) ->
  reads_as r (d_content f) (since_close [] cs rs).
Proof.
  intros Hi Hw Hok Hct Hp R DR HR AC. destruct (close_on_disk D old iovm cts h w Hi Hw cs tr rs w' f Hok R DR) as [_ ->].
  intros fuel m Hf. apply (file_read_back cts hr o r fuel m _ Hct HR AC); [|exact Hf].
  apply Forall_forall. intros p I. apply since_close_in in I. destruct I as [[]|(c & I1 & I2)].
  rewrite Forall_forall in Hp. specialize (Hp c I1). rewrite Forall_forall in Hp. exact (Hp p I2).
Qed.

(** ** Runs against a given disk, for examples *)
Fixpoint disk_log {A} (D : nat -> dact) (f : dfile) (p : io A) : trace * dfile * out A :=
  match p with
  | Ret a => ([], f, Done a)
  | Fail e => ([], f, Stuck e)
  | Vis q k => let (f1, a) := disk_ops D f q in let '(tr, f2, o) := disk_log D f1 (k a) in ((q, a) :: tr, f2, o)
  end.

Lemma disk_log_ok {A} D (p : io A) : forall f, let '(tr, f', o) := disk_log D f p in
  forallb (fun e => ans_okb (fst e) (snd e)) tr = true -> runs p tr o /\ disk_runs D f tr f'.
Proof.
  induction p as [a|e|q k IH]; intros f; cbn [disk_log].
  - intros _. split; constructor.
  - intros _. split; constructor.
  - destruct (disk_ops D f q) as [f1 a] eqn:E. specialize (IH a f1). destruct (disk_log D f1 (k a)) as [[tr f2] o].
    cbn [forallb fst snd]. intro H. apply andb_true_iff in H. destruct H as [H1 H2]. destruct (IH H2) as [R1 R2].
    split; [constructor; [apply ans_okb_ok; exact H1|exact R1]|econstructor; [exact E|exact R2]].
Qed.

Lemma disk_log_runs {A} D (p : io A) f tr f' o : disk_log D f p = (tr, f', o) ->
  forallb (fun e => ans_okb (fst e) (snd e)) tr = true -> runs p tr o /\ disk_runs D f tr f'.
Proof. intro E. pose proof (disk_log_ok D p f) as K. rewrite E in K. exact K. Qed.

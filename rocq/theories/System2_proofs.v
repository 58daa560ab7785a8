(** From the refinement to the whole library: submission, queues, thread, writer,
    file, reader. *)
From Coq Require Import Permutation.
From Verif Require Import Bytes Bytes_proofs Spec SpecTrace Io Io_proofs SpecStream SpecReader Control Rdwr Writer Reader Api SpecApi
  Queue SpecQueue Queue2_proofs Queue4_proofs Iothr SpecIothr Iothr4_proofs Iothr5_proofs File File_proofs System SpecSystem System_proofs Reader_source_proofs.
Local Open Scope nat_scope.

Lemma at_queue_submitted dec l i : of_queue i (submitted dec l) = map dec (inserted (at_queue i l)).
Proof.
  induction l as [|e l IH]; [reflexivity|]. change (submitted dec (e :: l)) with (submitted_at dec e ++ submitted dec l).
  change (e :: l) with ([e] ++ l). rewrite at_queue_app, inserted_app, map_app, <- IH. unfold of_queue. rewrite filter_app, map_app. f_equal.
  destruct e as [j x| |c]; try reflexivity. destruct x; cbn; destruct (Nat.eqb j i); reflexivity.
Qed.
Lemma subseq_map {A B} (f : A -> B) l1 l2 : subseq l1 l2 -> subseq (map f l1) (map f l2).
Proof. induction 1; cbn; constructor; assumption. Qed.

Section Sys2.
Variables (num : N) (sz : nat) (dec : bytes -> entry) (enc : entry -> bytes) (todo : nat -> list entry).
Hypothesis ST : sys_setting num sz dec enc todo.
Variables (sch : list cact) (s : csys).
Hypothesis RUN : c_run (c_init num sz (fun i => map enc (todo i))) sch = Some s.
Let cap := N.to_nat num - 1.
Let l := c_trace s.

Lemma sizes i : Forall (fun x => length x = sz) (map enc (todo i)).
Proof. destruct ST as (_ & _ & _ & T). apply Forall_map. eapply Forall_impl; [|exact (T i)]. cbn. tauto. Qed.

Lemma abstract : exists H a, sys_run cap sys_init H = Some a /\ thread_of H = calls dec l /\ accepted H = submitted dec l /\
  (forall i, s_pending a i = map dec (skipn (published (at_queue i l)) (inserted (at_queue i l)))) /\ shut_at num dec l H.
Proof.
  destruct ST as (A & B & C & _). destruct (refines num sz dec _ A B C sizes sch s RUN) as (H & a & []). exists H, a. auto 10.
Qed.

Lemma from_todo i : subseq (of_queue i (submitted dec l)) (todo i).
Proof.
  destruct ST as (A & B & C & T). pose proof (run_CI num sz dec _ A B C sizes sch _ _ RUN (init_CI _ _ _ _)) as [RE PR _ _ _].
  rewrite at_queue_submitted. unfold l. rewrite PR. destruct (RE i) as (sc & ->).
  destruct (spsc_fifo num sz (map enc (todo i)) B A C (sizes i) sc) as (_ & S & _). cbn zeta in S. apply (subseq_map dec) in S.
  rewrite map_map in S. rewrite (map_ext_in _ (fun x => x)), map_id in S; [exact S|]. intros e I. specialize (T i). rewrite Forall_forall in T. apply T, I.
Qed.

(** Histories of the whole are histories of the system of SpecIothr.v. *)
Lemma is_system fuel dfuel t o : runs (iothr_life fuel dfuel t) (calls dec l) o -> o <> Stuck FFuel -> (forall i, queues t <= i -> todo i = []) ->
  exists H a, system cap fuel dfuel t H a o /\ thread_of H = calls dec l /\ accepted H = submitted dec l /\ shut_at num dec l H /\
  (forall i, s_pending a i = map dec (skipn (published (at_queue i l)) (inserted (at_queue i l)))).
Proof.
  intros R N Q. destruct abstract as (H & a & RH & TH & AH & PH & SH). exists H, a. split; [|auto]. split; [exact RH|]. rewrite TH. split; [exact R|]. split; [exact N|].
  rewrite AH. apply Forall_forall. intros [i e] I. cbn. destruct (Nat.lt_ge_cases i (queues t)) as [|L]; [assumption|exfalso].
  pose proof (from_todo i) as S. rewrite (Q i L) in S. assert (J : In e (of_queue i (submitted dec l))).
  { unfold of_queue. apply (in_map snd _ (i, e)). apply filter_In. split; [exact I|apply Nat.eqb_refl]. }
  inversion S as [E| |]. rewrite <- E in J. contradiction.
Qed.
End Sys2.

(** ** The file holds the last session *)
Lemma file_write_ok : forall iov f f', file_op_write f iov = (f', r_success) -> f_fp f <> None ->
  f_data f' = f_data f ++ concat iov /\ f_write f' = f_write f /\ f_fp f' <> None.
Proof.
  induction iov as [|b iov IH]; intros [wr d [rest|]] f' E N; try (exfalso; apply N; reflexivity); cbn in E.
  - injection E as <-. cbn. rewrite app_nil_r. repeat split; discriminate.
  - destruct (negb wr || (lenN b =? 0)%N)%bool eqn:EB; [discriminate|]. apply Bool.orb_false_iff in EB. destruct EB as [EB _]. apply Bool.negb_false_iff in EB. subst wr.
    apply IH in E; [|discriminate]. cbn in E. cbn. rewrite app_assoc. exact E.
Qed.
Lemma file_write_closed iov f f' : file_op_write f iov = (f', r_success) -> f_fp f <> None.
Proof. destruct f as [wr d [rest|]]; [discriminate|]. destruct iov; cbn; discriminate. Qed.
Lemma add_last_snoc pre x b : add_last (pre ++ [x]) b = pre ++ [x ++ b].
Proof. unfold add_last. rewrite rev_unit, rev_involutive. reflexivity. Qed.

Lemma file_delivered_from : forall tr f f', on_medium file_ops f tr f' -> Forall SpecApi.ev_ok tr -> f_write f = true -> forall ss,
  (f_fp f <> None -> ss <> []) -> (ss <> [] -> last ss [] = f_data f) ->
  let ss' := fold_left (sess_step (fun r => res_eqb r r_success)) tr ss in ss' <> [] -> last ss' [] = f_data f'.
Proof.
  induction 1 as [f|f q f1 a tr f2 T E O IH|f e tr f2 T O IH]; intros OK W ss I1 I2.
  - exact I2.
  - inversion OK as [|x y K1 K2]; subst x y. cbn [fold_left]. destruct q; try discriminate T; cbn [file_ops] in E.
    + destruct (file_op_open f) as [g r] eqn:EO. injection E as <- <-. cbn in K1. subst r. apply IH; [assumption| | |].
      * unfold file_op_open in EO. destruct (f_fp f); [discriminate|]. rewrite W in EO. injection EO as <-. reflexivity.
      * intros _. cbn. destruct ss; discriminate.
      * intros _. cbn. rewrite last_last. unfold file_op_open in EO. destruct (f_fp f); [discriminate|]. rewrite W in EO. injection EO as <-. reflexivity.
    + destruct (file_op_close f) as [g r] eqn:EO. injection E as <- <-. cbn in K1. subst r. unfold file_op_close in EO. destruct (f_fp f) eqn:EF; [|discriminate].
      injection EO as <-. apply IH; [assumption|exact W| |]; cbn; [congruence|exact I2].
    + destruct (file_op_read f count) as [[g r] b] eqn:EO. injection E as <- <-. cbn in K1. subst r. unfold file_op_read in EO. rewrite W in EO. destruct (f_fp f); discriminate.
    + destruct (file_op_write f iov) as [g r] eqn:EO. injection E as <- <-. cbn in K1. subst r. pose proof (file_write_closed _ _ _ EO) as NF. destruct (file_write_ok _ _ _ EO NF) as (D & W' & F').
      specialize (I1 NF). specialize (I2 I1). destruct ss as [|b ss _] using rev_ind; [congruence|]. rewrite last_last in I2. subst b. cbn [sess_step]. change (res_eqb r_success r_success) with true. cbn iota.
      rewrite add_last_snoc. apply IH; [assumption|congruence| |].
      * intros _. destruct ss; discriminate.
      * intros _. rewrite last_last, D. reflexivity.
    + injection E as <- <-. apply IH; assumption.
  - inversion OK as [|x y K1 K2]; subst x y. cbn [fold_left]. assert (X : sess_step (fun r => res_eqb r r_success) ss e = ss) by (destruct e as [[] [[]| | | | | ]]; try discriminate T; reflexivity).
    rewrite X. apply IH; assumption.
Qed.
Lemma file_delivered tr d0 f : on_medium file_ops (mk_cfile true d0 None) tr f -> Forall SpecApi.ev_ok tr -> forall ss b, delivered tr = ss ++ [b] -> f_data f = b.
Proof.
  intros O K ss b E. pose proof (file_delivered_from _ _ _ O K eq_refl [] ltac:(cbn; congruence) ltac:(congruence)) as X. cbn zeta in X.
  change (fold_left _ tr []) with (delivered tr) in X. rewrite E in X. rewrite last_last in X. symmetry. apply X. destruct ss; discriminate.
Qed.

(** ** Reading a finished file *)
Lemma file_read_back cts hr o r fuel m ds : Forall (fun ct => (lenN ct <= CT_MAX)%N) cts ->
  reader_init o (file_reader_rdwr hr) = Some r -> ro_cts o = [] \/ cts = [] \/ (exists c, hd_error cts = Some c /\ In c (ro_cts o)) ->
  Forall (fun p => data_ok p /\ (lenN p <= ro_max o)%N) ds ->
  let fd := start_frame (hd_error cts) ++ datas ds ++ stop_frame in length fd <= fuel ->
  exec file_ops (mk_cfile false fd None) (reader_life fuel r (repeat RRead (length ds + 1 + m))) =
  (mk_cfile false fd None, Done (map (fun d => (r_success, Some d)) ds ++ (r_stop, None) :: repeat (r_failure, None) m, r_success)).
Proof.
  intros F HR AC P fd FU.
  destruct (file_stream o hr r fd (optl (hd_error cts)) (datas ds ++ stop_frame) ds E_stop [] m fuel HR eq_refl) as (r' & X & En & Es & So).
  - apply start_ok. destruct cts as [|c l]; cbn; auto. inversion_clear F. assumption.
  - apply start_accepted_hd. exact AC.
  - apply parse_stop. exact P.
  - unfold fd in FU. rewrite app_length in FU. unfold start_frame, ctl_frame in FU. rewrite app_length, length_be32 in FU. lia.
  - destruct En as (E1 & E2 & E3). pose proof E3 as (E4 & _). rewrite E4 in X. unfold reader_life.
    replace (length ds + 1 + m) with (S (length ds + m)) in * by lia. cbn [repeat] in *.
    rewrite exec_bind, (implicit_open _ _ _ _ _ _ _ _) with (2 := X), exec_bind.
    + rewrite (file_destroy hr) by assumption. reflexivity.
    + unfold reader_init in HR. destruct (negb _); [discriminate|]. injection HR as <-. reflexivity.
Qed.

(** ** What users get *)
Section Users.
Variables (num : N) (sz : nat) (dec : bytes -> entry) (enc : entry -> bytes) (todo : nat -> list entry).
Hypothesis ST : sys_setting num sz dec enc todo.
Variables (sch : list cact) (s : csys).
Hypothesis RUN : c_run (c_init num sz (fun i => map enc (todo i))) sch = Some s.
Let l := c_trace s.
Variables (iov_max : N) (cts : list bytes) (rw : rdwr) (t : iothr) (fuel dfuel : nat).
Hypothesis CR : created iov_max cts rw t.
Hypothesis TQ : forall i, queues t <= i -> todo i = [].

Lemma users_order o ss : runs (iothr_life fuel dfuel t) (calls dec l) o -> o <> Stuck FFuel -> emits (calls dec l) ss ->
  exists W full dss, Forall2 prefix ss full /\ Forall2 (writer_session (rw_has_read rw) cts) full dss /\
    concat dss = map (fun x => e_data (snd x)) W /\
    (forall i, subseq (of_queue i W) (of_queue i (submitted dec l))) /\ exists rest, Permutation (submitted dec l) (W ++ rest).
Proof.
  intros R N E. destruct (is_system num sz dec enc todo ST sch s RUN fuel dfuel t o R N TQ) as (H & a & S & TH & AH & _).
  fold l in TH, AH. rewrite <- TH in E. rewrite <- AH. exact (life_order _ _ _ _ _ _ _ _ _ _ CR S _ E).
Qed.

Lemma settled_pend lA : settled lA -> forall i, pend dec lA i = [].
Proof. intros S i. unfold pend. rewrite (S i), skipn_all. reflexivity. Qed.

Lemma users_released lA lB : runs (iothr_life fuel dfuel t) (calls dec l) (Done tt) ->
  l = lA ++ KE_shutdown :: lB -> ~ In KE_shutdown lA -> settled lA -> submitted dec lB = [] ->
  Permutation (owed (map snd (submitted dec l))) (freed (calls dec l)).
Proof.
  intros R E N SE SB. destruct (is_system num sz dec enc todo ST sch s RUN fuel dfuel t (Done tt) R ltac:(discriminate) TQ) as (H & a & S & TH & AH & SH & _).
  fold l in TH, AH, SH. destruct (SH _ _ E) as (HA & HB & aA & EH & AA & RA & PA & NA).
  rewrite <- TH, <- AH. apply (life_released_empty _ _ _ _ _ _ _ _ _ _ CR S eq_refl).
  apply (life_quiet _ _ _ _ _ _ _ _ _ _ CR S eq_refl). exists HA, HB, aA. split; [exact EH|]. split; [exact RA|]. split.
  - intro i. rewrite PA. apply settled_pend, SE.
  - split; [|exact (NA N)]. assert (X : accepted HA ++ accepted HB = submitted dec lA ++ submitted dec lB).
    { change (accepted HB) with (accepted (S_shutdown :: HB)). rewrite <- accepted_app, <- EH, AH, E. unfold submitted. rewrite flat_map_app. reflexivity. }
    rewrite AA, SB in X. apply app_inv_head in X. exact X.
Qed.

Lemma users_terminate lA lB o : l = lA ++ KE_shutdown :: lB -> runs (iothr_life fuel dfuel t) (calls dec l) o ->
  length (calls dec l) < fuel -> length (submitted dec l) < dfuel -> forall f, o <> Stuck f.
Proof.
  clear TQ. intros E R F D. destruct (abstract num sz dec enc todo ST sch s RUN) as (H & a & RH & TH & AH & _ & SH). fold l in TH, AH, SH.
  destruct (SH _ _ E) as (HA & HB & aA & EH & AA & RA & PA & NA). rewrite EH in *. rewrite <- TH in R, F. rewrite <- AH in D.
  refine (life_terminates _ _ _ _ _ _ _ _ _ _ _ CR RH R _ D). rewrite thread_app, app_length in F. lia.
Qed.

Lemma users_lossless lA lB : runs (iothr_life fuel dfuel t) (calls dec l) (Done tt) -> healthy (calls dec l) ->
  l = lA ++ KE_shutdown :: lB -> ~ In KE_shutdown lA -> settled lA ->
  exists ss ct W, start_choice (rw_has_read rw) cts ct /\
    delivered (calls dec l) = ss ++ [session_head (rw_has_read rw) cts ct ++ datas (map (fun x => e_data (snd x)) W) ++ stop_frame] /\
    forall i, prefix (of_queue i (submitted dec lA)) (of_queue i W) /\ prefix (of_queue i W) (of_queue i (submitted dec l)).
Proof.
  intros R HE E N SE. destruct (is_system num sz dec enc todo ST sch s RUN fuel dfuel t (Done tt) R ltac:(discriminate) TQ) as (H & a & S & TH & AH & SH & _).
  fold l in TH, AH, SH. destruct (SH _ _ E) as (HA & HB & aA & EH & AA & RA & PA & NA). rewrite <- TH in HE |- *.
  destruct (life_lossless _ _ _ _ _ _ _ _ _ _ CR S eq_refl _ _ _ HE EH (NA N) RA) as (ss & ct & W & SC & D & P).
  - intro i. rewrite PA. apply settled_pend, SE.
  - exists ss, ct, W. rewrite <- AA, <- AH. auto.
Qed.
End Users.

Lemma submit_to_read num sz dec enc todo sch s iov_max cts h t fuel dfuel now tr d0 f lA lB o hr r rfuel m :
  sys_setting num sz dec enc todo -> c_run (c_init num sz (fun i => map enc (todo i))) sch = Some s ->
  created iov_max cts (file_writer_rdwr h) t -> (forall i, queues t <= i -> todo i = []) -> Forall (fun ct => (lenN ct <= CT_MAX)%N) cts ->
  runs (iothr_life fuel dfuel t) (calls dec (c_trace s)) (Done tt) ->
  calls dec (c_trace s) = (QClock, AClock now) :: tr -> (Z.of_N (io_reopen_interval (t_opt t)) <= now)%Z ->
  on_medium file_ops (mk_cfile true d0 None) tr f -> Forall SpecApi.ev_ok tr ->
  c_trace s = lA ++ KE_shutdown :: lB -> ~ In KE_shutdown lA -> settled lA ->
  reader_init o (file_reader_rdwr hr) = Some r -> ro_cts o = [] \/ cts = [] \/ (exists c, hd_error cts = Some c /\ In c (ro_cts o)) ->
  (forall i, Forall (fun e => data_ok (e_data e) /\ (lenN (e_data e) <= ro_max o)%N) (todo i)) -> length (f_data f) <= rfuel ->
  exists W, snd (exec file_ops (mk_cfile false (f_data f) None) (reader_life rfuel r (repeat RRead (length W + 1 + m)))) =
    Done (map (fun x => (r_success, Some (e_data (snd x)))) W ++ (r_stop, None) :: repeat (r_failure, None) m, r_success) /\
    forall i, prefix (of_queue i (submitted dec lA)) (of_queue i W) /\ prefix (of_queue i W) (of_queue i (submitted dec (c_trace s))).
Proof.
  intros ST RUN CR TQ FC R EC NOW OM OK E N SE RI AC PD RF.
  assert (HE : healthy (calls dec (c_trace s))).
  { rewrite EC. rewrite EC in R. exact (uni_start _ _ _ _ _ _ CR eq_refl FC _ _ _ R NOW OK). }
  destruct (users_lossless num sz dec enc todo ST sch s RUN iov_max cts _ t fuel dfuel CR TQ lA lB R HE E N SE) as (ss & ct & W & SC & D & P).
  change (ct = hd_error cts) in SC. subst ct. exists W. split; [|exact P].
  assert (EF : f_data f = start_frame (hd_error cts) ++ datas (map (fun x => e_data (snd x)) W) ++ stop_frame).
  { rewrite EC in D. apply (file_delivered tr d0 f OM OK ss). exact D. }
  rewrite EF. rewrite EF in RF. assert (PW : Forall (fun p => data_ok p /\ (lenN p <= ro_max o)%N) (map (fun x => e_data (snd x)) W)).
  2:{ pose proof (file_read_back cts hr o r rfuel m _ FC RI AC PW RF) as X. cbn zeta in X. rewrite map_length, map_map in X. unfold bytes in *. rewrite X. reflexivity. }
  apply Forall_map, Forall_forall. intros [i e] I. specialize (PD i). rewrite Forall_forall in PD. apply PD.
  assert (J : In e (of_queue i W)) by (unfold of_queue; apply (in_map snd _ (i, e)), filter_In; split; [exact I|apply Nat.eqb_refl]).
  destruct (P i) as [_ [c PC]]. assert (J' : In e (of_queue i (submitted dec (c_trace s)))) by (rewrite PC; apply in_or_app; left; exact J).
  pose proof (from_todo num sz dec enc todo ST sch s RUN i) as S. clear - S J'. induction S; [assumption|right; auto|]. destruct J' as [->|J']; [left; reflexivity|right; auto].
Qed.

(** What users of the I/O thread over locked queues get. *)
From Coq Require Import Permutation.
From Verif Require Import Bytes Bytes_proofs Spec SpecTrace Io Io_proofs SpecStream SpecReader Control Rdwr Writer Reader Api SpecApi
  Queue QueueMutex SpecQueue Iothr SpecIothr Iothr4_proofs Iothr5_proofs File File_proofs SystemMutex SpecSystemMutex SystemMutex_proofs SpecSystem System2_proofs.
Local Open Scope nat_scope.

Section Users.
Variables (num : N) (sz : nat) (dec : bytes -> entry) (enc : entry -> bytes) (rem : nat -> nat) (todo : nat -> list (list entry)).
Hypothesis ST : xsys_setting num sz dec enc todo.
Variables (sch : list xact) (s : xsys).
Hypothesis RUN : x_run (x_init num sz rem (fun i => map (map enc) (todo i))) sch = Some s.
Let cap := N.to_nat num - 1.
Let l := x_trace s.

Lemma xsizes i : Forall (Forall (fun x => length x = sz)) (map (map enc) (todo i)).
Proof.
  destruct ST as (_ & _ & _ & T). apply Forall_map. eapply Forall_impl; [|exact (T i)]. intros td F. apply Forall_map. eapply Forall_impl; [|exact F]. cbn. tauto.
Qed.
Lemma xinv : XI num sz dec rem (fun i => map (map enc) (todo i)) s.
Proof. destruct ST as (A & B & C & _). exact (xrefines num sz dec rem _ A B C xsizes sch s RUN). Qed.

(** Histories of the whole are histories of the system of SpecIothr.v. *)
Lemma xabstract : exists a, sys_run cap sys_init (hist dec l) = Some a /\ thread_of (hist dec l) = xcalls dec l /\ accepted (hist dec l) = xsubmitted dec l /\
  (forall i, s_pending a i = []) /\
  forall lA lB, l = lA ++ XE_shutdown :: lB -> hist dec l = hist dec lA ++ S_shutdown :: hist dec lB /\ accepted (hist dec lA) = xsubmitted dec lA /\
    (exists aA, sys_run cap sys_init (hist dec lA) = Some aA /\ forall i, s_pending aA i = []) /\
    (~ In XE_shutdown lA -> ~ In S_shutdown (hist dec lA)) /\ accepted (hist dec lB) = xsubmitted dec lB.
Proof.
  destruct xinv as [_ _ RO (a & RA & _ & PA & _) AL]. exists a. split; [exact RA|]. split; [exact (hist_thread dec _ RO)|]. split; [exact (hist_accepted dec _ RO)|]. split; [exact PA|].
  intros lA lB E. assert (RO' := RO). change (x_trace s) with l in RO'. rewrite E in RO'. apply Forall_app in RO'. destruct RO' as [RA' RB]. inversion_clear RB as [|? ? _ RB'].
  split; [rewrite E, hist_app; reflexivity|]. split; [exact (hist_accepted dec _ RA')|]. split; [exact (AL _ _ E)|]. split; [|exact (hist_accepted dec _ RB')].
  intros N I. apply N. exact (hist_shutdown dec _ I).
Qed.

Lemma xfrom_todo i j : subseq (of_producer i j (xsub dec l)) (nth j (todo i) []).
Proof.
  destruct ST as (A & B & C & T). pose proof (xproducer num sz dec rem _ A B C xsizes sch s i j RUN) as S. cbn beta in S.
  change (@nil bytes) with (map enc []) in S. rewrite (map_nth (map enc)), map_map in S. rewrite (map_ext_in _ (fun x => x)), map_id in S; [exact S|].
  intros e I. specialize (T i). rewrite Forall_forall in T. assert (TI : In (nth j (todo i) []) (todo i) \/ nth j (todo i) [] = []).
  { destruct (Nat.lt_ge_cases j (length (todo i))) as [L|L]; [left; apply nth_In, L|right; apply nth_overflow, L]. }
  destruct TI as [TI|TI]; [|rewrite TI in I; destruct I]. specialize (T _ TI). rewrite Forall_forall in T. apply T, I.
Qed.
Lemma subseq_in {A} (a b : list A) x : subseq a b -> In x a -> In x b.
Proof. induction 1; intro I; [exact I|right; auto|]. destruct I as [->|I]; [left; reflexivity|right; auto]. Qed.
Lemma xmade i e : In (i, e) (xsubmitted dec l) -> exists td, In td (todo i) /\ In e td.
Proof.
  unfold xsubmitted. intro I. apply in_map_iff in I. destruct I as ([[i' j] e'] & X & I). cbn in X. injection X as -> ->.
  assert (J : In e (of_producer i j (xsub dec l))).
  { unfold of_producer. apply (in_map snd _ (i, j, e)). apply filter_In. split; [exact I|]. cbn. rewrite !Nat.eqb_refl. reflexivity. }
  apply (subseq_in _ _ _ (xfrom_todo i j)) in J. exists (nth j (todo i) []). split; [|exact J].
  destruct (Nat.lt_ge_cases j (length (todo i))) as [L|L]; [apply nth_In, L|]. rewrite nth_overflow in J by exact L. destruct J.
Qed.

Variables (iov_max : N) (cts : list bytes) (rw : rdwr) (t : iothr) (fuel dfuel : nat).
Hypothesis CR : created iov_max cts rw t.
Hypothesis TQ : forall i, queues t <= i -> todo i = [].

Lemma x_system o : runs (iothr_life fuel dfuel t) (xcalls dec l) o -> o <> Stuck FFuel -> exists a, system cap fuel dfuel t (hist dec l) a o.
Proof.
  intros R N. destruct xabstract as (a & RA & TH & AH & _). exists a. split; [exact RA|]. rewrite TH. split; [exact R|]. split; [exact N|].
  rewrite AH. apply Forall_forall. intros [i e] I. cbn. destruct (Nat.lt_ge_cases i (queues t)) as [|L]; [assumption|exfalso].
  destruct (xmade i e I) as (td & J & _). rewrite (TQ i L) in J. destruct J.
Qed.

Lemma xusers_order o ss : runs (iothr_life fuel dfuel t) (xcalls dec l) o -> o <> Stuck FFuel -> emits (xcalls dec l) ss ->
  exists W full dss, Forall2 prefix ss full /\ Forall2 (writer_session (rw_has_read rw) cts) full dss /\
    concat dss = map (fun x => e_data (snd x)) W /\
    (forall i, subseq (of_queue i W) (of_queue i (xsubmitted dec l))) /\ exists rest, Permutation (xsubmitted dec l) (W ++ rest).
Proof.
  intros R N E. destruct (x_system o R N) as (a & S). destruct xabstract as (_ & _ & TH & AH & _).
  rewrite <- TH in E. rewrite <- AH. exact (life_order _ _ _ _ _ _ _ _ _ _ CR S _ E).
Qed.

Lemma xusers_released lA lB : runs (iothr_life fuel dfuel t) (xcalls dec l) (Done tt) ->
  l = lA ++ XE_shutdown :: lB -> ~ In XE_shutdown lA -> xsub dec lB = [] ->
  Permutation (owed (map snd (xsubmitted dec l))) (freed (xcalls dec l)).
Proof.
  intros R E N SB. destruct (x_system _ R ltac:(discriminate)) as (a & S). destruct xabstract as (_ & _ & TH & AH & _ & SH).
  destruct (SH _ _ E) as (EH & AA & (aA & RA & PA) & NA & AB).
  rewrite <- TH, <- AH. apply (life_released_empty _ _ _ _ _ _ _ _ _ _ CR S eq_refl).
  apply (life_quiet _ _ _ _ _ _ _ _ _ _ CR S eq_refl). exists (hist dec lA), (hist dec lB), aA. split; [exact EH|]. split; [exact RA|]. split; [exact PA|].
  split; [|exact (NA N)]. rewrite AB. unfold xsubmitted. rewrite SB. reflexivity.
Qed.

Lemma xusers_terminate lA lB o : l = lA ++ XE_shutdown :: lB -> runs (iothr_life fuel dfuel t) (xcalls dec l) o ->
  length (xcalls dec l) < fuel -> length (xsubmitted dec l) < dfuel -> forall f, o <> Stuck f.
Proof.
  clear TQ. intros E R F D. destruct xabstract as (a & RH & TH & AH & _ & SH).
  destruct (SH _ _ E) as (EH & _). rewrite <- TH in R, F. rewrite <- AH in D. rewrite EH in *.
  refine (life_terminates _ _ _ _ _ _ _ _ _ _ _ CR RH R _ D). rewrite thread_app, app_length in F. lia.
Qed.

Lemma xusers_lossless lA lB : runs (iothr_life fuel dfuel t) (xcalls dec l) (Done tt) -> healthy (xcalls dec l) ->
  l = lA ++ XE_shutdown :: lB -> ~ In XE_shutdown lA ->
  exists ss ct W, start_choice (rw_has_read rw) cts ct /\
    delivered (xcalls dec l) = ss ++ [session_head (rw_has_read rw) cts ct ++ datas (map (fun x => e_data (snd x)) W) ++ stop_frame] /\
    forall i, prefix (of_queue i (xsubmitted dec lA)) (of_queue i W) /\ prefix (of_queue i W) (of_queue i (xsubmitted dec l)).
Proof.
  intros R HE E N. destruct (x_system _ R ltac:(discriminate)) as (a & S). destruct xabstract as (_ & _ & TH & AH & _ & SH).
  destruct (SH _ _ E) as (EH & AA & (aA & RA & PA) & NA & AB). rewrite <- TH in HE |- *.
  destruct (life_lossless _ _ _ _ _ _ _ _ _ _ CR S eq_refl _ _ _ HE EH (NA N) RA PA) as (ss & ct & W & SC & D & P).
  exists ss, ct, W. rewrite <- AA, <- AH. auto.
Qed.
End Users.

Lemma xsubmit_to_read num sz dec enc rem todo sch s iov_max cts h t fuel dfuel now tr d0 f lA lB o hr r rfuel m :
  xsys_setting num sz dec enc todo -> x_run (x_init num sz rem (fun i => map (map enc) (todo i))) sch = Some s ->
  created iov_max cts (file_writer_rdwr h) t -> (forall i, queues t <= i -> todo i = []) -> Forall (fun ct => (lenN ct <= CT_MAX)%N) cts ->
  runs (iothr_life fuel dfuel t) (xcalls dec (x_trace s)) (Done tt) ->
  xcalls dec (x_trace s) = (QClock, AClock now) :: tr -> (Z.of_N (io_reopen_interval (t_opt t)) <= now)%Z ->
  on_medium file_ops (mk_cfile true d0 None) tr f -> Forall SpecApi.ev_ok tr ->
  x_trace s = lA ++ XE_shutdown :: lB -> ~ In XE_shutdown lA ->
  reader_init o (file_reader_rdwr hr) = Some r -> ro_cts o = [] \/ cts = [] \/ (exists c, hd_error cts = Some c /\ In c (ro_cts o)) ->
  (forall i, Forall (Forall (fun e => data_ok (e_data e) /\ (lenN (e_data e) <= ro_max o)%N)) (todo i)) -> length (f_data f) <= rfuel ->
  exists W, snd (exec file_ops (mk_cfile false (f_data f) None) (reader_life rfuel r (repeat RRead (length W + 1 + m)))) =
    Done (map (fun x => (r_success, Some (e_data (snd x)))) W ++ (r_stop, None) :: repeat (r_failure, None) m, r_success) /\
    forall i, prefix (of_queue i (xsubmitted dec lA)) (of_queue i W) /\ prefix (of_queue i W) (of_queue i (xsubmitted dec (x_trace s))).
Proof.
  intros ST RUN CR TQ FC R EC NOW OM OK E N RI AC PD RF.
  assert (HE : healthy (xcalls dec (x_trace s))).
  { rewrite EC. rewrite EC in R. exact (uni_start _ _ _ _ _ _ CR eq_refl FC _ _ _ R NOW OK). }
  destruct (xusers_lossless num sz dec enc rem todo ST sch s RUN iov_max cts _ t fuel dfuel CR TQ lA lB R HE E N) as (ss & ct & W & SC & D & P).
  change (ct = hd_error cts) in SC. subst ct. exists W. split; [|exact P].
  assert (EF : f_data f = start_frame (hd_error cts) ++ datas (map (fun x => e_data (snd x)) W) ++ stop_frame).
  { rewrite EC in D. apply (file_delivered tr d0 f OM OK ss). exact D. }
  rewrite EF. rewrite EF in RF. assert (PW : Forall (fun p => data_ok p /\ (lenN p <= ro_max o)%N) (map (fun x => e_data (snd x)) W)).
  2:{ pose proof (file_read_back cts hr o r rfuel m _ FC RI AC PW RF) as X. cbn zeta in X. rewrite map_length, map_map in X. unfold bytes in *. rewrite X. reflexivity. }
  apply Forall_map, Forall_forall. intros [i e] I. 
  assert (J : In e (of_queue i W)) by (unfold of_queue; apply (in_map snd _ (i, e)), filter_In; split; [exact I|apply Nat.eqb_refl]).
  destruct (P i) as [_ [c PC]]. assert (J' : In e (of_queue i (xsubmitted dec (x_trace s)))) by (rewrite PC; apply in_or_app; left; exact J).
  unfold of_queue in J'. apply in_map_iff in J'. destruct J' as ([i' e'] & X & J'). cbn in X. subst e'. apply filter_In in J'. destruct J' as [J' K]. cbn in K. apply Nat.eqb_eq in K. subst i'.
  destruct (xmade num sz dec enc rem todo ST sch s RUN i e J') as (td & T1 & T2). specialize (PD i). rewrite Forall_forall in PD. specialize (PD _ T1). rewrite Forall_forall in PD. apply PD, T2.
Qed.

(** Healthy starts, options, submit and hand-out; runs used as counterexamples. *)
From Coq Require Import Permutation.
From Verif Require SpecQueue Queue_proofs.
From Verif Require Import Bytes Bytes_proofs Spec SpecTrace Io Io_proofs SpecStream Control Control_proofs Rdwr Rdwr_proofs Writer Api SpecApi Queue Writer_proofs Writer2_proofs
  Iothr SpecIothr Iothr_proofs Iothr2_proofs Iothr3_proofs Iothr4_proofs.
Local Open Scope nat_scope.

Lemma runs_vis_inv {A} q (k : ans -> io A) tr o : runs (Vis q k) tr o -> tr <> [] -> exists a tr', ans_ok q a /\ tr = (q, a) :: tr' /\ runs (k a) tr' o.
Proof. intros R N. inversion R; subst; [contradiction|]. eauto 6. Qed.
Lemma runs_bind {A B} (p : io A) (f : A -> io B) tr1 a tr2 o : runs p tr1 (Done a) -> runs (f a) tr2 o -> runs (bind p f) (tr1 ++ tr2) o.
Proof.
  intros R1 R2. remember (Done a) as oa eqn:E. revert E. induction R1 as [b|g|q k|q k b tr o1 Ha R IH]; intro E; try discriminate.
  - injection E as <-. exact R2.
  - cbn [bind app]. constructor; auto.
Qed.

(** A uni-directional writer whose transport works and whose clock is past the
    first interval starts its stream before looking at the queues. *)
Lemma uni_start iov_max cts rw t fuel dfuel : created iov_max cts rw t -> rw_has_read rw = false ->
  Forall (fun ct => (lenN ct <= CT_MAX)%N) cts -> forall now tr u,
  runs (iothr_life fuel dfuel t) ((QClock, AClock now) :: tr) (Done u) -> (Z.of_N (io_reopen_interval (t_opt t)) <= now)%Z ->
  Forall ev_ok tr -> healthy ((QClock, AClock now) :: tr).
Proof.
  intros (FR & IM & iovm & w & oopt & Hi & Hw & OO & HI) HU HC now tr u R Hn OK.
  split; [constructor; [exact I|assumption]|].
  unfold writer_init in Hw. destruct (rw_has_write rw) eqn:EW; cbn [negb] in Hw; [|discriminate]. injection Hw as <-.
  unfold iothr_init in HI. cbv zeta in HI. cbn [negb] in HI. destruct (_ && _)%bool; [discriminate|]. injection HI as <-. cbn [t_opt] in *.
  match type of Hn with context [io_reopen_interval ?o] => set (opt := o) in * end.
  unfold iothr_life, iothr_thr, maybe_open in R. cbn [t_opened ask_clock bind] in R.
  apply runs_vis_inv in R; [|discriminate]. destruct R as (a & tr' & Ha & E & R). injection E as <- <-. cbn [bind] in R.
  unfold t_last_open at 1 in R. unfold t_opt at 1 in R. rewrite Z.sub_0_r in R.
  destruct (Z.ltb_spec now (Z.of_N (io_reopen_interval opt))) as [Hlt|_]; [lia|].
  unfold iothr_open, writer_open in R. cbn [t_writer t_set_last w_state w_rdwr] in R.
  unfold rdwr_open in R. rewrite (fr_open _ FR) in R. cbn [negb ask_res bind] in R.
  apply runs_vis_inv in R.
  2:{ intro E. subst tr. inversion R. }
  destruct R as (a & tr1 & Ha1 & -> & R). destruct a; try contradiction. apply Forall_cons_iff in OK. destruct OK as [OK1 OK]. cbn in OK1. subst r.
  cbn [bind res_eqb negb set_wrdwr w_rdwr rw_has_read set_opened] in R. rewrite HU in R.
  unfold writer_open_unidirectional, writer_send_start, reset_or_init in R. cbn [w_start w_cts set_wrdwr] in R.
  unfold control_set_type in R. change (type_known FSTRM_CONTROL_START) with true in R. cbv iota zeta in R.
  rewrite write_control_frame_eq in R.
  match type of R with context [encodable true (c_type ?c) _] => assert (Ec : c = start_ctl (hd_error cts)) by (destruct cts; reflexivity); rewrite Ec in R end.
  cbn [start_ctl c_type c_cts] in R. rewrite start_encodable in R by assumption. unfold rdwr_write in R.
  cbn [set_wstart set_wrdwr w_rdwr set_opened rw_opened rw_has_write negb] in R. rewrite EW in R. cbn [negb ask_res bind] in R.
  apply runs_vis_inv in R.
  2:{ intro E. subst tr1. inversion R. }
  destruct R as (a & tr2 & Ha2 & -> & R). destruct a; try contradiction. apply Forall_cons_iff in OK. destruct OK as [OK2 _]. cbn in OK2. subst r.
  replace (visible T_START (optl (hd_error cts))) with (optl (hd_error cts)) by (destruct cts; reflexivity).
  eexists [_; _], _, (hd_error cts), tr2. split; [reflexivity|]. intros i a [X|[X|[]]]; discriminate.
Qed.

(** ** Options *)
Definition even_rule (c : oset) : Prop := match c with O_input_queue_size v => N.odd v = true \/ exists k, v = (2 ^ k)%N | _ => True end.
Lemma setters iov_max o c : even_rule c ->
  let '(r, o') := do_oset iov_max o c in let '(k, v) := oset_args c in
  (r = r_success <-> documented iov_max c) /\ (r = r_success \/ r = r_failure /\ o' = o) /\ (r = r_success -> oval k o' = v) /\
  forall k', k' <> k -> oval k' o' = oval k' o.
Proof.
  intro E.
  assert (F : forall P k v, (~ P) -> (r_failure = r_success <-> P) /\ (r_failure = r_success \/ r_failure = r_failure /\ o = o) /\ (r_failure = r_success -> oval k o = v) /\
    (forall k' : okey, k' <> k -> oval k' o = oval k' o)).
  { intros P k v N. split; [split; [discriminate|contradiction]|]. split; [auto|]. split; [discriminate|reflexivity]. }
  assert (T : forall (P : Prop) k v o', P -> oval k o' = v -> (forall k', k' <> k -> oval k' o' = oval k' o) ->
    (r_success = r_success <-> P) /\ (r_success = r_success \/ r_success = r_failure /\ o' = o) /\ (r_success = r_success -> oval k o' = v) /\ (forall k' : okey, k' <> k -> oval k' o' = oval k' o)).
  { intros P k v o' HP H1 H2. split; [split; auto|]. auto. }
  destruct c as [v|v|v|v|v|v|v|v]; cbn [do_oset oset_args documented].
  - unfold set_buffer_hint. destruct (N.ltb_spec v 1024); cbn [orb]; [apply F; lia|]. destruct (N.ltb_spec 65536 v); [apply F; lia|]. apply T; [lia|reflexivity|]. intros [] Hk; try reflexivity. congruence.
  - unfold set_flush_timeout. destruct (N.ltb_spec v 1); cbn [orb]; [apply F; lia|]. destruct (N.ltb_spec 600 v); [apply F; lia|]. apply T; [lia|reflexivity|]. intros [] Hk; try reflexivity. congruence.
  - unfold set_input_queue_size. destruct (N.ltb_spec v 2); cbn [orb]; [apply F; lia|]. destruct (N.ltb_spec 16384 v); cbn [orb]; [apply F; lia|]. destruct (N.odd v) eqn:EO.
    + apply F. intros [_ (k & ->)]. destruct (N.eq_dec k 0) as [->|N0]; [cbn in *; lia|]. rewrite N.odd_pow in EO by assumption. discriminate.
    + destruct E as [E|E]; [congruence|]. apply T; [auto|reflexivity|]. intros [] Hk; try reflexivity. congruence.
  - unfold set_num_input_queues. destruct (N.ltb_spec v 1); [apply F; lia|]. apply T; [lia|reflexivity|]. intros [] Hk; try reflexivity. congruence.
  - unfold set_output_queue_size. destruct (N.ltb_spec v 2); cbn [orb]; [apply F; lia|]. destruct (N.ltb_spec iov_max v); [apply F; lia|]. apply T; [lia|reflexivity|]. intros [] Hk; try reflexivity. congruence.
  - unfold set_queue_model. destruct v; [apply T; auto|apply T; auto|apply F; intros [X|X]; discriminate]; intros [] Hk; try reflexivity; congruence.
  - unfold set_notify_threshold. destruct (N.ltb_spec v 1); [apply F; lia|]. apply T; [lia|reflexivity|]. intros [] Hk; try reflexivity. congruence.
  - unfold set_reopen_interval. destruct (N.ltb_spec v 1); cbn [orb]; [apply F; lia|]. destruct (N.ltb_spec 600 v); [apply F; lia|]. apply T; [lia|reflexivity|]. intros [] Hk; try reflexivity. congruence.
Qed.

(** With documented values creation succeeds. *)
Lemma pow2_inq iov_max cs : Forall (documented iov_max) cs -> queue_init_ok (io_input_queue_size (configured iov_max cs)) = true.
Proof.
  intro F. assert (G : forall o, (io_input_queue_size o < 2 ^ 32)%N /\ SpecQueue.queue_size (io_input_queue_size o) ->
     (io_input_queue_size (fold_left (fun o c => snd (do_oset iov_max o c)) cs o) < 2 ^ 32)%N /\ SpecQueue.queue_size (io_input_queue_size (fold_left (fun o c => snd (do_oset iov_max o c)) cs o))).
  { induction F as [|c cs D F IH]; intros o I; [exact I|]. cbn [fold_left]. apply IH. clear IH. destruct c; cbn [do_oset].
    - unfold set_buffer_hint. destruct (_ || _)%bool; exact I.
    - unfold set_flush_timeout. destruct (_ || _)%bool; exact I.
    - unfold set_input_queue_size. destruct (_ || _ || _)%bool; [exact I|]. destruct D as [B (k & ->)]. cbn. split; [change (2 ^ 32)%N with 4294967296%N; lia|]. exists k. split; [|reflexivity].
      destruct (N.eq_dec k 0) as [->|N0]; [cbn in *; lia|]. split; [lia|]. destruct (N.le_gt_cases k 31); [assumption|]. pose proof (N.pow_le_mono_r 2 32 k). change (2 ^ 32)%N with 4294967296%N in *. lia.
    - unfold set_num_input_queues. destruct (_ <? _)%N; exact I.
    - unfold set_output_queue_size. destruct (_ || _)%bool; exact I.
    - unfold set_queue_model. destruct v; exact I.
    - unfold set_notify_threshold. destruct (_ <? _)%N; exact I.
    - unfold set_reopen_interval. destruct (_ || _)%bool; exact I. }
  destruct (G iothr_options_default) as [A B]; [split; [reflexivity|exists 9%N; split; [lia|reflexivity]]|]. apply Queue_proofs.queue_init_spec; assumption.
Qed.
Lemma init_documented iov_max cs w : Forall (documented iov_max) cs -> exists t, iothr_init iov_max true (Some (configured iov_max cs)) w = Ok t.
Proof.
  intro F. unfold iothr_init. cbv zeta. cbn [negb].
  assert (E : forall o : iothr_options, io_input_queue_size (if (iov_max <? io_output_queue_size o)%N then mk_iopt (io_buffer_hint o) (io_flush_timeout o) (io_input_queue_size o) (io_num_input_queues o) iov_max
      (io_notify_threshold o) (io_reopen_interval o) (io_queue_model o) else o) = io_input_queue_size o) by (intro; destruct (_ <? _)%N; reflexivity).
  rewrite E, pow2_inq by assumption. cbn [negb]. rewrite Bool.andb_false_r. eauto.
Qed.

(** ** Hand-out *)
Definition GI (num : N) (s : gstate) : Prop :=
  let k := length (g_log s) in
  map snd (g_log s) = handed_out_queues num k /\
  (forall i, g_owner s <> Some i -> g_pc s i = G_idle \/ g_pc s i = G_lock) /\
  match g_owner s with
  | None => g_idx s = N.min (N.of_nat k) num
  | Some i => match g_pc s i with
    | G_check => g_idx s = N.min (N.of_nat k) num
    | G_incr q => g_idx s = N.of_nat k /\ q = N.of_nat k /\ (N.of_nat k < num)%N
    | G_unlock (Some q) => g_idx s = (N.of_nat k + 1)%N /\ q = N.of_nat k /\ (N.of_nat k < num)%N
    | G_unlock None => g_idx s = num /\ (num <= N.of_nat k)%N
    | _ => False
    end
  end.
Lemma handed_snoc num k : handed_out_queues num (S k) = handed_out_queues num k ++ [if Nat.ltb k (N.to_nat num) then Some (N.of_nat k) else None].
Proof. unfold handed_out_queues. rewrite seq_S, map_app. reflexivity. Qed.
Lemma goto_same s i p : g_goto s i p i = p.
Proof. unfold g_goto. rewrite Nat.eqb_refl. reflexivity. Qed.
Lemma goto_other s i p j : i <> j -> g_goto s i p j = g_pc s j.
Proof. unfold g_goto. intro. destruct (Nat.eqb_spec i j); [contradiction|reflexivity]. Qed.
Lemma GI_step num s i : GI num s -> GI num (g_step num s i).
Proof.
  intros (L & P & O). unfold g_step.
  assert (EO : forall X, (g_owner s = Some i -> X) -> (g_owner s <> Some i -> X) -> X).
  { intros X A B. destruct (g_owner s) as [j|]; [|apply B; discriminate]. destruct (Nat.eq_dec j i) as [->|N]; [auto|apply B; congruence]. }
  destruct (g_pc s i) as [ | | |q|r] eqn:EP.
  - assert (N : g_owner s <> Some i) by (intro X; rewrite X, EP in O; exact O).
    split; [exact L|]. split; cbn [g_owner g_pc g_log g_idx].
    + intros j Hj. destruct (Nat.eq_dec i j) as [<-|D]; [rewrite goto_same; auto|rewrite goto_other by assumption; auto].
    + destruct (g_owner s) as [j|]; [|exact O]. rewrite goto_other by congruence. exact O.
  - destruct (g_owner s) as [j|] eqn:EW; [split; [exact L|]; rewrite EW; split; assumption|].
    split; [exact L|]. split; cbn [g_owner g_pc g_log g_idx].
    + intros j Hj. rewrite goto_other by congruence. apply P. discriminate.
    + rewrite goto_same. exact O.
  - assert (EW : g_owner s = Some i) by (apply EO; [auto|]; intro N; destruct (P _ N); congruence). rewrite EW in *. rewrite EP in O.
    split; [exact L|]. split; cbn [g_owner g_pc g_log g_idx]; rewrite ?EW.
    + intros j Hj. rewrite goto_other by congruence. apply P. assumption.
    + rewrite goto_same. destruct (N.ltb_spec (g_idx s) num); lia.
  - assert (EW : g_owner s = Some i) by (apply EO; [auto|]; intro N; destruct (P _ N); congruence). rewrite EW in *. rewrite EP in O.
    split; [exact L|]. split; cbn [g_owner g_pc g_log g_idx]; rewrite ?EW.
    + intros j Hj. rewrite goto_other by congruence. apply P. assumption.
    + rewrite goto_same. lia.
  - assert (EW : g_owner s = Some i) by (apply EO; [auto|]; intro N; destruct (P _ N); congruence). rewrite EW in *. rewrite EP in O.
    split; [|split]; cbn [g_owner g_pc g_log g_idx].
    + rewrite app_length, map_app, L. cbn [length]. rewrite Nat.add_1_r, handed_snoc. f_equal. cbn [map snd]. f_equal.
      destruct r as [q|]; destruct (Nat.ltb_spec (length (g_log s)) (N.to_nat num)); try lia; [f_equal; lia|reflexivity].
    + intros j Hj. destruct (Nat.eq_dec i j) as [<-|D]; [rewrite goto_same; auto|]. rewrite goto_other by assumption. apply P. congruence.
    + rewrite app_length. cbn [length]. destruct r as [q|]; lia.
Qed.
Lemma hand_out num sch : map snd (g_log (g_run num sch)) = handed_out_queues num (length (g_log (g_run num sch))).
Proof.
  unfold g_run. assert (I : GI num (mk_g 0 None (fun _ => G_idle) [])).
  { split; [reflexivity|]. split; [auto|]. cbn. lia. }
  revert I. generalize (mk_g 0 None (fun _ => G_idle) []). induction sch as [|i sch IH]; intros s I; [apply I|]. cbn [fold_left]. apply IH, GI_step, I.
Qed.

Lemma hand_pos num sch p b q : nth_error (g_log (g_run num sch)) p = Some (b, Some q) -> q = N.of_nat p /\ (q < num)%N.
Proof.
  intro E. pose proof (f_equal (fun l => nth_error l p) (hand_out num sch)) as X. cbn beta in X. unfold handed_out_queues in X. rewrite !nth_error_map, E in X. cbn [option_map snd] in X.
  destruct (nth_error (seq 0 (length (g_log (g_run num sch)))) p) as [j|] eqn:EJ; [|discriminate]. cbn [option_map] in X.
  assert (L : p < length (g_log (g_run num sch))) by (apply nth_error_Some; congruence).
  apply (nth_error_nth _ _ 0) in EJ. rewrite seq_nth in EJ by assumption. cbn in EJ. subst j.
  destruct (Nat.ltb_spec p (N.to_nat num)); [|discriminate]. injection X as ->. split; [reflexivity|lia].
Qed.
Lemma hand_exclusive num sch a b c q : g_log (g_run num sch) = a ++ (b, Some q) :: c -> (q < num)%N /\ forall i, ~ In (i, Some q) a.
Proof.
  intro E. destruct (hand_pos num sch (length a) b q) as [E1 L]; [rewrite E, nth_error_app2, Nat.sub_diag by lia; reflexivity|].
  split; [assumption|]. intros i Hi. apply In_nth_error in Hi. destruct Hi as (j & Hj). assert (Lj : j < length a) by (apply nth_error_Some; congruence).
  destruct (hand_pos num sch j i q) as [E2 _]; [rewrite E, nth_error_app1 by assumption; exact Hj|]. lia.
Qed.

(** ** Pieces of runs *)
Lemma subseq_length {A} (a b : list A) : subseq a b -> length a <= length b.
Proof. induction 1; cbn; lia. Qed.
Lemma subseq_full {A} (a b : list A) : subseq a b -> length b <= length a -> a = b.
Proof.
  induction 1 as [|x a b S IH|x a b S IH]; intro L; [reflexivity| |].
  - apply subseq_length in S. cbn in L. lia.
  - f_equal. apply IH. cbn in L. lia.
Qed.
Lemma owed_length l : length (owed l) <= length l.
Proof. unfold owed. induction l as [|x l IH]; cbn; [lia|]. destruct (e_free x); cbn; lia. Qed.
Definition append (t : iothr) (e : entry) : iothr := t_set_outq t (t_outq t ++ [e]) (wrap32 (t_nbytes t + (4 + lenN (e_data e)))).
Lemma pq_one t e : t_opened t = true -> io_num_input_queues (t_opt t) = 1%N -> maybe_flush_output t (4 + lenN (e_data e)) = Ret t ->
  (lenN (t_outq t) < io_output_queue_size (t_opt t))%N ->
  runs (process_queues t) [(QRemove 0, AEntry (Some e))] (Done (1%N, append t e)).
Proof.
  intros O Q M L. unfold process_queues. rewrite Q. change (N.to_nat 1) with 1. cbn [process_queues_from ask_entry bind].
  constructor; [exact I|]. cbn [bind]. unfold process_queue_entry. rewrite O. cbv zeta. rewrite M. cbn [bind].
  destruct (N.leb_spec (io_output_queue_size (t_opt t)) (lenN (t_outq t))); [lia|]. cbn [bind]. constructor.
Qed.
Lemma pq_none t : io_num_input_queues (t_opt t) = 1%N -> runs (process_queues t) [(QRemove 0, AEntry None)] (Done (0%N, t)).
Proof. intro Q. unfold process_queues. rewrite Q. change (N.to_nat 1) with 1. cbn [process_queues_from ask_entry bind]. constructor; [exact I|]. cbn [bind]. constructor. Qed.
Lemma loop_some n d t tr1 t' tr2 o : t_opened t = true -> runs (process_queues t) tr1 (Done (1%N, t')) -> runs (thr_loop n d t') tr2 o ->
  runs (thr_loop (S n) d t) ((QShutting, ABool false) :: tr1 ++ tr2) o.
Proof.
  intros O R1 R2. cbn [thr_loop ask_bool bind]. constructor; [exact I|]. cbn [bind]. unfold maybe_open. rewrite O. cbn [bind].
  eapply runs_bind; [exact R1|]. exact R2.
Qed.
Lemma loop_wait n d t now tr2 o : t_opened t = true -> io_num_input_queues (t_opt t) = 1%N -> runs (thr_loop n d t) tr2 o ->
  runs (thr_loop (S n) d t) ([(QShutting, ABool false); (QRemove 0, AEntry None); (QClock, AClock now); (QWait (io_flush_timeout (t_opt t)), ABool false)] ++ tr2) o.
Proof.
  intros O Q R. cbn [thr_loop ask_bool bind app]. constructor; [exact I|]. cbn [bind]. unfold maybe_open. rewrite O. cbn [bind].
  change ((QRemove 0, AEntry None) :: ?r) with ([(QRemove 0, AEntry None)] ++ r).
  eapply runs_bind; [apply pq_none, Q|]. cbn. constructor; [exact I|]. constructor; [exact I|]. exact R.
Qed.

Lemma quiet_cycles d t : t_opened t = true -> io_num_input_queues (t_opt t) = 1%N -> forall k now,
  exists tr, runs (thr_loop (S k) d t) tr Cut /\ removed tr = [] /\ freed tr = [] /\ Forall (fun e => forall hh iov, fst e <> QWrite hh iov) tr /\
    timed_out tr = false /\ length (filter (fun e => match e with (QWait _, _) => true | _ => false end) tr) = k /\
    (k <> 0 -> exists l l2, tr = l ++ (QClock, AClock (now + Z.of_nat k)) :: l2).
Proof.
  intros O Q. induction k as [|k IH]; intro now.
  - exists []. split; [constructor|]. repeat split; auto. congruence.
  - destruct (IH (now + 1)%Z) as (tr & R & A & B & C & D & E & F). eexists. split; [eapply (loop_wait _ _ _ (now + 1)); eassumption|].
    split; [exact A|]. split; [exact B|]. split; [repeat (constructor; [discriminate|]); exact C|]. split; [exact D|]. split; [cbn; congruence|].
    intros _. destruct k as [|k].
    + eexists [_; _], _. cbn. change (Z.pos (Pos.of_succ_nat 0)) with 1%Z. reflexivity.
    + destruct F as (l & l2 & ->); [congruence|]. replace (now + Z.of_nat (S (S k)))%Z with (now + 1 + Z.of_nat (S k))%Z by lia.
      eexists ([_; _; _; _] ++ l), l2. rewrite <- app_assoc. reflexivity.
Qed.

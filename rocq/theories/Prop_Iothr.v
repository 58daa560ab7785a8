(** C35-C44: the I/O thread. *)
From Coq Require Import Permutation.
From Verif Require Import Bytes Bytes_proofs Spec SpecTrace Io Io_proofs SpecStream Control Rdwr Writer Api SpecApi Queue
  Iothr SpecIothr Iothr_proofs Iothr4_proofs Iothr5_proofs Iothr6_proofs.
Local Open Scope nat_scope.

(** ** Concrete objects for the examples *)
Definition ex_rw : rdwr := mk_rdwr 0 true true true false true false.
Definition ex_w : writer := mk_writer ws_opening [[x61]] ex_rw None None None None 1024.
Definition ex_opts : list oset := [O_num_input_queues 2; O_output_queue_size 2; O_buffer_hint 1].
Definition ex_t : iothr := mk_iothr (configured 1024 ex_opts) ex_w false 0 [] 0.
Definition ex_e (i : nat) (b : byte) : entry := mk_entry i [b] true.
(** A history from other threads' actions and answers to the thread's calls. *)
Fixpoint weave {A} (p : io A) (l : list (sysev + ans)) : history :=
  match l with
  | [] => []
  | inl e :: r => e :: weave p r
  | inr a :: r => match p with Vis q k => S_thr (q, a) :: weave (k a) r | _ => [] end
  end.
Definition ins (i : nat) (e : entry) : list (sysev + ans) := [inl (S_insert i e); inl (S_publish i)].
Definition ok1 : sysev + ans := inr (ARes r_success).
Definition fail1 : sysev + ans := inr (ARes r_failure).
Definition got (e : entry) : sysev + ans := inr (AEntry (Some e)).
Definition none1 : sysev + ans := inr (AEntry None).
Definition bool1 (b : bool) : sysev + ans := inr (ABool b).
Definition unit1 : sysev + ans := inr AUnit.
Definition clock1 (z : Z) : sysev + ans := inr (AClock z).

Example ex_created : created 1024 [[x61]] ex_rw ex_t.
Proof.
  split; [repeat split|]. split; [vm_compute; intuition discriminate|]. exists 1024, ex_w, (Some (configured 1024 ex_opts)).
  split; [apply Nat.lt_0_succ|]. split; [reflexivity|]. split; [eexists; reflexivity|]. vm_compute. reflexivity.
Qed.

(** Four submissions on two queues; the third is still in its store buffer when
    the thread first looks; the batch is limited to two entries; shutdown. *)
Definition ex_a := ex_e 1 x01.
Definition ex_b := ex_e 2 x02.
Definition ex_c := ex_e 3 x03.
Definition ex_d := ex_e 4 x04.
Definition ex_H : history := weave (iothr_life 10 10 ex_t)
  (ins 0 ex_a ++ [clock1 10; ok1; ok1] ++ [inl (S_insert 1 ex_b)] ++ [bool1 false; got ex_a; none1] ++ [inl (S_publish 1)] ++ ins 0 ex_c ++ ins 0 ex_d ++
   [inl S_shutdown; bool1 true; got ex_c; got ex_b; ok1; unit1; unit1; got ex_d; none1; none1; none1; ok1; unit1; unit1; ok1; ok1; ok1; none1; none1]).
Definition ex_s : sys := mk_sys (fun _ => []) (fun _ => []) true.
Example ex_system : exists s, system 4 10 10 ex_t ex_H s (Done tt) /\ (forall i, i < 2 -> s_visible s i = [] /\ s_pending s i = []).
Proof.
  eexists. split; [split; [vm_compute; reflexivity|]; split; [|split; [discriminate|]]|].
  - apply (follow_sound (iothr_life 10 10 ex_t) (map snd (thread_of ex_H))). vm_compute. reflexivity.
  - vm_compute. repeat constructor.
  - intros [|[|]] Hi; [split; vm_compute; reflexivity|split; vm_compute; reflexivity|lia].
Qed.
Example ex_trace : delivered (thread_of ex_H) = [start_frame (Some [x61]) ++ datas [[x01]; [x03]; [x02]; [x04]] ++ stop_frame] /\
  freed (thread_of ex_H) = [ex_a; ex_c; ex_b; ex_d] /\ healthy (thread_of ex_H) /\ quiet_shutdown 4 ex_H.
Proof.
  split; [vm_compute; reflexivity|]. split; [vm_compute; reflexivity|]. split.
  - split; [vm_compute; repeat constructor|]. eexists [_; _], 0, (Some [x61]), _. split; [vm_compute; reflexivity|]. intros i a [X|[X|[]]]; discriminate.
  - eexists (firstn 14 ex_H), (skipn 15 ex_H), _. split; [vm_compute; reflexivity|]. split; [vm_compute; reflexivity|]. split; [|split; [vm_compute; reflexivity|]].
    + intros [|[|i]]; reflexivity.
    + vm_compute. intuition discriminate.
Qed.

(** A transport that fails: the first batch is lost, its buffers released; the
    stream is reopened five seconds later. *)
Definition ex_F : history := weave (iothr_life 20 10 ex_t)
  (ins 0 ex_a ++ ins 1 ex_b ++ ins 0 ex_c ++
   [clock1 10; ok1; ok1; bool1 false; got ex_a; got ex_b; bool1 false; got ex_c; fail1; ok1; unit1; unit1; none1; bool1 false; clock1 12; none1; none1; clock1 12; bool1 false] ++
   [bool1 false; clock1 15; ok1; ok1; none1; none1; clock1 15; bool1 true; ok1; unit1]).
Example ex_system_F : exists s, system 4 20 10 ex_t ex_F s Cut.
Proof.
  eexists. split; [vm_compute; reflexivity|]. split; [|split; [discriminate|]].
  - apply (follow_sound (iothr_life 20 10 ex_t) (map snd (thread_of ex_F))). vm_compute. reflexivity.
  - vm_compute. repeat constructor.
Qed.
Example ex_trace_F : delivered (thread_of ex_F) = [start_frame (Some [x61]); start_frame (Some [x61]) ++ datas [[x03]]] /\
  freed (thread_of ex_F) = [ex_a; ex_b; ex_c] /\ open_times (thread_of ex_F) = [Some 15%Z; Some 10%Z].
Proof. vm_compute. repeat split. Qed.

(** ** C35: options *)

(** Refuted: 6 is not a power of two, is accepted, and creation then runs into
    undefined behaviour (joining a thread that was never started). *)
Theorem C35_input_queue_size_refuted : exists v o, ~ documented 1024 (O_input_queue_size v) /\
  do_oset 1024 iothr_options_default (O_input_queue_size v) = (r_success, o) /\
  iothr_init 1024 true (Some o) ex_w = Err (FUb ub_contract).
Proof.
  exists 6%N. eexists. split; [|split; [vm_compute; reflexivity|vm_compute; reflexivity]].
  intros [_ (k & E)]. assert (k <= 2 \/ 3 <= k)%N as [H|H] by lia.
  - assert (k = 0 \/ k = 1 \/ k = 2)%N as [X|[X|X]] by lia; rewrite X in E; discriminate E.
  - pose proof (N.pow_le_mono_r 2 3 k ltac:(lia) H) as P. rewrite <- E in P. vm_compute in P. contradiction P. reflexivity.
Qed.
Print Assumptions C35_input_queue_size_refuted.

(** Every setter with any value, except even queue sizes that are not powers of
    two: success exactly in the documented range; a refused call changes nothing;
    an accepted one sets that option and no other. *)
Theorem C35_setters_partial : forall iov_max o c,
  (forall v, c = O_input_queue_size v -> N.odd v = true \/ exists k, v = (2 ^ k)%N) ->
  let '(r, o') := do_oset iov_max o c in let '(k, v) := oset_args c in
  (r = r_success <-> documented iov_max c) /\ (r = r_success \/ r = r_failure /\ o' = o) /\ (r = r_success -> oval k o' = v) /\
  forall k', k' <> k -> oval k' o' = oval k' o.
Proof. intros iov_max o c H. apply setters. destruct c; try exact I. exact (H _ eq_refl). Qed.
Print Assumptions C35_setters_partial.

(** With documented values, in any order, creation succeeds. *)
Theorem C35_documented_options_work : forall iov_max cs w, Forall (documented iov_max) cs ->
  exists t, iothr_init iov_max true (Some (configured iov_max cs)) w = Ok t.
Proof. exact init_documented. Qed.
Print Assumptions C35_documented_options_work.
Example C35_case : Forall (documented 1024) [O_input_queue_size 8; O_reopen_interval 600; O_queue_model QM_mpsc; O_input_queue_size 4] /\
  map fst [set_flush_timeout iothr_options_default 0; set_flush_timeout iothr_options_default 600; set_flush_timeout iothr_options_default 601] = [r_failure; r_success; r_failure].
Proof.
  split; [|vm_compute; reflexivity]. constructor; [split; [lia|exists 3%N; reflexivity]|]. constructor; [cbn; lia|]. constructor; [right; reflexivity|].
  constructor; [split; [lia|exists 2%N; reflexivity]|]. constructor.
Qed.

(** ** C36: the calls of any number of threads, in the order they release the
    lock, get queues 0, 1, 2, ... and then NULL. *)
Theorem C36_hand_out : forall num sch, let log := g_log (g_run num sch) in
  map snd log = handed_out_queues num (length log).
Proof. exact hand_out. Qed.
Print Assumptions C36_hand_out.
(** Hence no queue is handed out twice. *)
Theorem C36_exclusive : forall num sch a b c q, g_log (g_run num sch) = a ++ (b, Some q) :: c -> (q < num)%N /\
  forall i, ~ In (i, Some q) a.
Proof. exact hand_exclusive. Qed.
Print Assumptions C36_exclusive.
(** By index: exactly below the configured number. *)
Theorem C36_by_index : forall num idx, get_input_queue_idx num idx <> None <-> (idx < num)%N.
Proof. intros num idx. unfold get_input_queue_idx. destruct (N.ltb_spec idx num); split; intro H'; try congruence; lia. Qed.
Print Assumptions C36_by_index.
(** Three threads interleaving on two queues. *)
Example C36_case : g_log (g_run 2 [0; 1; 2; 1; 0; 1; 2; 1; 1; 0; 0; 0; 0; 2; 2; 2; 2]) = [(1, Some 0%N); (0, Some 1%N); (2, None)].
Proof. vm_compute. reflexivity. Qed.

(** ** C37: submit *)
Theorem C37_submit_results : forall opt shutting data len has_free id room,
  let '(r, taken, signal) := iothr_submit opt shutting data len has_free id (slots room) in
  let valid := data <> None /\ (1 <= len < 2 ^ 32 - 1)%N in
  (r = r_failure <-> shutting = true) /\
  (r = r_invalid <-> shutting = false /\ ~ valid) /\
  (r = r_again <-> shutting = false /\ valid /\ room = 0%N) /\
  (r = r_success <-> shutting = false /\ valid /\ room <> 0%N) /\
  (taken <> None <-> r = r_success) /\
  (forall e, taken = Some e -> e_id e = id /\ e_free e = has_free /\ forall d, data = Some d -> e_data e = firstn (N.to_nat len) d) /\
  (signal = true <-> r = r_success /\ (room = io_notify_threshold opt + 1)%N).
Proof.
  intros opt shutting data len hf id room. unfold iothr_submit. destruct shutting.
  { repeat split; try discriminate; intuition discriminate. }
  destruct data as [d|].
  2:{ repeat split; try discriminate; intuition congruence. }
  change (2 ^ 32 - 1)%N with 4294967295%N.
  destruct (N.ltb_spec len 1) as [L|L]; [cbn [orb]; repeat split; try discriminate; try (intros (? & ?); intuition (discriminate || lia)); intros; intuition lia|].
  destruct (N.leb_spec 4294967295 len) as [M|M]; [cbn [orb]; repeat split; try discriminate; try (intros (? & ?); intuition (discriminate || lia)); intros; intuition lia|].
  cbn [orb]. unfold slots. destruct (N.eqb_spec room 0) as [R|R].
  - repeat split; try discriminate; try (intuition (congruence || lia)).
  - repeat split; try discriminate; try (intuition (congruence || lia));
      try (match goal with H : Some _ = Some _ |- _ => injection H as <- end; try reflexivity; intros d' [= <-]; reflexivity).
Qed.
Print Assumptions C37_submit_results.
Example C37_case : map (fun l => fst (fst (iothr_submit iothr_options_default false (Some [x61]) l true 7 (slots 1)))) [0; 1; 4294967294; 4294967295]%N =
  [r_invalid; r_success; r_success; r_invalid].
Proof. lazy. reflexivity. Qed.
Example C37_signals : map (fun room => snd (iothr_submit iothr_options_default false (Some [x61]) 1 true 7 (slots room))) [0; 1; 32; 33; 34]%N =
  [false; false; false; true; false].
Proof. lazy. reflexivity. Qed.

(** ** C38: release *)

(** At every moment: the callbacks run so far are those of accepted buffers, one
    for each at most. *)
Theorem C38_released_at_most_once : forall iov_max cts rw t cap fuel dfuel H s o,
  created iov_max cts rw t -> system cap fuel dfuel t H s o ->
  exists rest, Permutation (owed (map snd (accepted H))) (freed (thread_of H) ++ rest).
Proof. exact life_releases. Qed.
Print Assumptions C38_released_at_most_once.

(** After destroy, if no submission was left behind in a queue: exactly one each. *)
Theorem C38_released_exactly_once : forall iov_max cts rw t cap fuel dfuel H s o,
  created iov_max cts rw t -> system cap fuel dfuel t H s o -> o = Done tt ->
  (forall i, s_visible s i = [] /\ s_pending s i = []) -> Permutation (owed (map snd (accepted H))) (freed (thread_of H)).
Proof. exact life_released_empty. Qed.
Print Assumptions C38_released_exactly_once.
(** Which is so if submissions had ceased when destroy was called. *)
Theorem C38_nothing_left_behind : forall iov_max cts rw t cap fuel dfuel H s o,
  created iov_max cts rw t -> system cap fuel dfuel t H s o -> o = Done tt -> quiet_shutdown cap H ->
  forall i, s_visible s i = [] /\ s_pending s i = [].
Proof. exact life_quiet. Qed.
Print Assumptions C38_nothing_left_behind.

(** Whatever was accepted, and visible, before destroy got as far as destroying the
    transport has been released when destroy returns, even if the thread had
    already ended when it was submitted. *)
Theorem C38_left_over_released : forall iov_max cts rw t cap fuel dfuel, created iov_max cts rw t ->
  forall H s, system cap fuel dfuel t H s (Done tt) ->
  forall hA d a hB sA, H = hA ++ S_thr (QDestroy d, a) :: hB -> sys_run cap sys_init hA = Some sA -> (forall i, s_pending sA i = []) ->
  exists rest, Permutation (freed (thread_of H)) (owed (map snd (accepted hA)) ++ rest).
Proof. exact left_over_released. Qed.
Print Assumptions C38_left_over_released.
(** [ex_c] is submitted when the thread has already found its queue empty for the
    last time: it is never written, and released by destroy. *)
Definition ex_L : history := weave (iothr_life 10 10 ex_t)
  (ins 0 ex_a ++ [clock1 10; ok1; ok1; inl S_shutdown; bool1 true; got ex_a; none1; none1; none1] ++ ins 1 ex_c ++ [ok1; unit1; ok1; ok1; ok1; none1; got ex_c; unit1; none1]).
Example C38_left_over_case : (exists s, system 4 10 10 ex_t ex_L s (Done tt)) /\
  (exists hA d a hB sA, ex_L = hA ++ S_thr (QDestroy d, a) :: hB /\ sys_run 4 sys_init hA = Some sA /\ (forall i, s_pending sA i = []) /\ In (1, ex_c) (accepted hA) /\
    freed (thread_of hA) = [ex_a]) /\
  freed (thread_of ex_L) = [ex_a; ex_c] /\ delivered (thread_of ex_L) = [start_frame (Some [x61]) ++ datas [[x01]] ++ stop_frame].
Proof.
  split; [|split; [|split; vm_compute; reflexivity]].
  - eexists. split; [vm_compute; reflexivity|]. split; [|split; [discriminate|]].
    + apply (follow_sound (iothr_life 10 10 ex_t) (map snd (thread_of ex_L))). vm_compute. reflexivity.
    + vm_compute. repeat constructor.
  - eexists (firstn 17 ex_L), 0, _, (skipn 18 ex_L), _. split; [vm_compute; reflexivity|]. split; [vm_compute; reflexivity|]. split; [intros [|[|i]]; reflexivity|].
    split; vm_compute; auto.
Qed.

(** No buffer is written after its callback ran. *)
Theorem C38_no_use_after_release : forall iov_max cts rw t cap fuel dfuel H s o,
  created iov_max cts rw t -> system cap fuel dfuel t H s o -> NoDup (map (fun x => e_id (snd x)) (accepted H)) ->
  forall l1 hh iov a l2, thread_of H = l1 ++ (QWrite hh iov, a) :: l2 ->
  control_write iov \/
  exists b, iov = frames_of b /\ forall x, In x b -> In x (map snd (accepted H)) /\ ~ In x (freed l1).
Proof. exact life_no_use_after_free. Qed.
Print Assumptions C38_no_use_after_release.
Example C38_case : NoDup (map (fun x => e_id (snd x)) (accepted ex_H)) /\ NoDup (map (fun x => e_id (snd x)) (accepted ex_F)).
Proof. split; vm_compute; repeat constructor; cbn; intuition discriminate. Qed.

(** ** C39: whatever reached the medium, at whatever moment, with whatever
    failures: sessions of the writer, carrying entries [W] that are, queue by
    queue, a subsequence of what was accepted, none of them twice. *)
Theorem C39_order : forall iov_max cts rw t cap fuel dfuel H s o,
  created iov_max cts rw t -> system cap fuel dfuel t H s o -> forall ss, emits (thread_of H) ss ->
  exists W full dss, Forall2 prefix ss full /\ Forall2 (writer_session (rw_has_read rw) cts) full dss /\
    concat dss = map (fun x => e_data (snd x)) W /\
    (forall i, subseq (of_queue i W) (of_queue i (accepted H))) /\ exists rest, Permutation (accepted H) (W ++ rest).
Proof. exact life_order. Qed.
Print Assumptions C39_order.

(** ** C40: no failure and a stream started before the queues were looked at:
    everything accepted before the shutdown is in the stream, in order. *)
Theorem C40_lossless : forall iov_max cts rw t cap fuel dfuel H s o,
  created iov_max cts rw t -> system cap fuel dfuel t H s o -> o = Done tt ->
  forall hA hB sA, healthy (thread_of H) ->
  H = hA ++ S_shutdown :: hB -> ~ In S_shutdown hA -> sys_run cap sys_init hA = Some sA -> (forall i, s_pending sA i = []) ->
  exists ss ct W, start_choice (rw_has_read rw) cts ct /\
    delivered (thread_of H) = ss ++ [session_head (rw_has_read rw) cts ct ++ datas (map (fun x => e_data (snd x)) W) ++ stop_frame] /\
    forall i, prefix (of_queue i (accepted hA)) (of_queue i W) /\ prefix (of_queue i W) (of_queue i (accepted H)).
Proof. exact life_lossless. Qed.
Print Assumptions C40_lossless.

(** A uni-directional transport that never fails is enough, provided the clock
    has passed the reopen interval when the thread starts. *)
Theorem C40_unidirectional_healthy : forall iov_max cts rw t fuel dfuel,
  created iov_max cts rw t -> rw_has_read rw = false -> Forall (fun ct => (lenN ct <= CT_MAX)%N) cts -> forall now tr u,
  runs (iothr_life fuel dfuel t) ((QClock, AClock now) :: tr) (Done u) -> (Z.of_N (io_reopen_interval (t_opt t)) <= now)%Z ->
  Forall ev_ok tr -> healthy ((QClock, AClock now) :: tr).
Proof. exact uni_start. Qed.
Print Assumptions C40_unidirectional_healthy.
(** Without the proviso data is lost although nothing failed: a second after the
    clock's origin the writer is not opened and submissions are thrown away. *)
Theorem C40_early_clock_loss : exists H s, system 4 10 10 ex_t H s (Done tt) /\ Forall ev_ok (thread_of H) /\ quiet_shutdown 4 H /\
  accepted H = [(0, ex_a)] /\ delivered (thread_of H) = [].
Proof.
  pose (H := weave (iothr_life 10 10 ex_t)
    (ins 0 ex_a ++ [clock1 1; bool1 false; clock1 1; got ex_a; unit1; none1; inl S_shutdown; bool1 true; none1; none1; ok1; none1; none1])).
  exists H. eexists. split; [|split; [vm_compute; repeat constructor|split; [|split; vm_compute; reflexivity]]].
  - split; [vm_compute; reflexivity|]. split; [|split; [discriminate|vm_compute; repeat constructor]].
    apply (follow_sound (iothr_life 10 10 ex_t) (map snd (thread_of H))). vm_compute. reflexivity.
  - eexists (firstn 8 H), (skipn 9 H), _. split; [vm_compute; reflexivity|]. split; [vm_compute; reflexivity|]. split; [|split; [vm_compute; reflexivity|]].
    + intros [|i]; reflexivity.
    + vm_compute. intuition discriminate.
Qed.
Print Assumptions C40_early_clock_loss.

(** ** C41: limits of the output batch *)

(** Whenever the thread looks at a queue or waits, it holds at most
    [output_queue_size] entries, and if more than one, less than [buffer_hint]
    bytes, the first frame being counted modulo 4 GiB and the others in full. *)
Theorem C41_batch_exactly : forall iov_max cts rw t cap fuel dfuel H s o,
  created iov_max cts rw t -> system cap fuel dfuel t H s o ->
  forall l1 e l2, thread_of H = l1 ++ e :: l2 -> (exists i, fst e = QRemove i) \/ (exists d, fst e = QWait d) ->
  exists held, unreleased l1 held /\ (lenN held <= io_output_queue_size (t_opt t))%N /\
    (length held <= 1 \/ (counted_bytes held < io_buffer_hint (t_opt t))%N).
Proof.
  intros iov_max cts rw t cap fuel dfuel H s o Hc Hs l1 e l2 E K. pose proof (life_good _ _ _ _ _ _ _ _ _ _ Hc Hs _ _ _ E) as G. unfold good in G.
  destruct K as [(i & X)|(d & X)]; rewrite X in G; destruct G as (held & U & (A & B) & _); exists held; auto.
Qed.
Print Assumptions C41_batch_exactly.

(** So with frames below 4 GiB it holds less than [buffer_hint] bytes.  Missing:
    frames within 4 bytes of 4 GiB. *)
Theorem C41_batch_limits_partial : forall iov_max cts rw t cap fuel dfuel H s o,
  created iov_max cts rw t -> system cap fuel dfuel t H s o ->
  forall l1 e l2, thread_of H = l1 ++ e :: l2 -> (exists i, fst e = QRemove i) \/ (exists d, fst e = QWait d) ->
  exists held, unreleased l1 held /\ (lenN held <= io_output_queue_size (t_opt t))%N /\
    (Forall (fun x => (lenN (e_data (snd x)) < 2 ^ 32 - 4)%N) (removed l1) -> length held <= 1 \/ (batch_bytes held < io_buffer_hint (t_opt t))%N).
Proof.
  intros iov_max cts rw t cap fuel dfuel H s o Hc Hs l1 e l2 E K.
  destruct (C41_batch_exactly _ _ _ _ _ _ _ _ _ _ Hc Hs _ _ _ E K) as (held & U & A & B). exists held. split; [exact U|]. split; [exact A|].
  intro F. destruct B as [B|B]; [auto|]. right. destruct held as [|x r]; [exact B|].
  cbn [counted_bytes] in B. change (batch_bytes (x :: r)) with (4 + lenN (e_data x) + batch_bytes r)%N.
  rewrite N.mod_small in B; [exact B|]. destruct U as [U _]. apply Forall_map with (f := snd) (P := fun x : entry => (lenN (e_data x) < 2 ^ 32 - 4)%N) in F.
  assert (In x (map snd (removed l1))) as J.
  { clear - U. remember (x :: r) as y eqn:Y. induction U; [discriminate|right; auto|injection Y as -> ->; left; reflexivity]. }
  rewrite Forall_forall in F. specialize (F x J). cbv beta in F. lia.
Qed.
Print Assumptions C41_batch_limits_partial.
(** The arrays are never overrun, no assertion fails, nothing is undefined. *)
Theorem C41_no_overrun : forall iov_max cts rw t fuel dfuel tr f,
  created iov_max cts rw t -> runs (iothr_life fuel dfuel t) tr (Stuck f) -> f = FFuel.
Proof. intros iov_max cts rw t fuel dfuel tr f Hc R. exact (proj1 (life_any _ _ _ _ fuel dfuel Hc (fun _ => true) eq_refl _ _ R)). Qed.
Print Assumptions C41_no_overrun.

(** Refuted for longer frames: the byte count wraps to zero. *)
Definition ex_t1 : iothr := mk_iothr iothr_options_default ex_w false 0 [] 0.
Example ex_created1 : created 1024 [[x61]] ex_rw ex_t1.
Proof.
  split; [repeat split|]. split; [vm_compute; intuition discriminate|]. exists 1024, ex_w, None.
  split; [apply Nat.lt_0_succ|]. split; [reflexivity|]. split; [exact I|]. vm_compute. reflexivity.
Qed.
Definition ex_open1 : iothr :=
  mk_iothr iothr_options_default (mk_writer ws_opened [[x61]] (set_opened ex_rw true) None None (Some (mk_control FSTRM_CONTROL_START [[x61]])) None 1024) true 10 [] 0.
Lemma ex_opening : runs (maybe_open ex_t1) [(QClock, AClock 10); (QOpen 0, ARes r_success); (QWrite 0 [start_frame (Some [x61])], ARes r_success)] (Done ex_open1).
Proof. apply (follow_sound (maybe_open ex_t1) [AClock 10; ARes r_success; ARes r_success]). vm_compute. reflexivity. Qed.

Lemma ex_wrap (d : bytes) (L : lenN d = (2 ^ 32 - 4)%N) : exists tr l1 i l2, runs (iothr_life 3 1 ex_t1) tr Cut /\ tr = l1 ++ (QRemove i, AEntry None) :: l2 /\
  forall held, unreleased l1 held -> ~ (length held <= 1 \/ (batch_bytes held < io_buffer_hint (t_opt ex_t1))%N).
Proof.
  set (e1 := mk_entry 1 d true).
  pose (l1 := [(QClock, AClock 10); (QOpen 0, ARes r_success); (QWrite 0 [start_frame (Some [x61])], ARes r_success)] ++
    ((QShutting, ABool false) :: [(QRemove 0, AEntry (Some e1))] ++ (QShutting, ABool false) :: [(QRemove 0, AEntry (Some ex_b))] ++ [(QShutting, ABool false)])).
  exists (l1 ++ [(QRemove 0, AEntry None)]), l1, 0, []. split; [|split; [reflexivity|]].
  - assert (G : runs (iothr_thr 3 1 ex_t1) (l1 ++ [(QRemove 0, AEntry None)]) Cut).
    { unfold iothr_thr, l1. rewrite <- app_assoc. eapply runs_bind; [exact ex_opening|]. cbn [app].
      change ((QRemove 0, AEntry (Some e1)) :: ?r) with ([(QRemove 0, AEntry (Some e1))] ++ r).
      eapply loop_some; [reflexivity|apply pq_one; reflexivity|].
      assert (Z : wrap32 (0 + (4 + lenN (e_data e1))) = 0%N) by (cbn [e_data e1]; rewrite L; reflexivity).
      unfold append. cbn [t_nbytes ex_open1 t_outq app]. rewrite Z.
      change ((QRemove 0, AEntry (Some ex_b)) :: ?r) with ([(QRemove 0, AEntry (Some ex_b))] ++ r).
      eapply loop_some; [reflexivity|apply pq_one; reflexivity|].
      cbn. constructor; [exact I|]. constructor; [exact I|]. constructor. }
    clear - G. unfold iothr_life. revert G. generalize (l1 ++ [(QRemove 0, AEntry None)]). generalize (iothr_thr 3 1 ex_t1). intros p l G.
    remember Cut as o eqn:E. induction G; try discriminate; cbn [bind]; [constructor|]. constructor; auto.
  - intros held (S & P) K. change (map snd (removed l1)) with [e1; ex_b] in *. change (freed l1) with (@nil entry) in P. cbn [owed filter e_free e1 ex_b ex_e app] in P.
    apply Permutation_length in P. assert (E : held = [e1; ex_b]) by (apply subseq_full; [assumption|]; rewrite <- (owed_length held), <- P; apply le_n).
    subst held. destruct K as [K|K]; [cbn in K; lia|]. unfold batch_bytes in K. cbn [fold_right e_data e1] in K. rewrite L in K. vm_compute in K. discriminate.
Qed.
Theorem C41_byte_limit_refuted : exists tr l1 i l2, runs (iothr_life 3 1 ex_t1) tr Cut /\ tr = l1 ++ (QRemove i, AEntry None) :: l2 /\
  forall held, unreleased l1 held -> ~ (length held <= 1 \/ (batch_bytes held < io_buffer_hint (t_opt ex_t1))%N).
Proof. apply (ex_wrap (repeat x61 (N.to_nat (2 ^ 32 - 4)))). unfold lenN. rewrite repeat_length, N2Nat.id. reflexivity. Qed.
Print Assumptions C41_byte_limit_refuted.

(** ** C42: attempts to open are at least [reopen_interval] apart ... *)
Theorem C42_reopen_pacing : forall iov_max cts rw t cap fuel dfuel H s o,
  created iov_max cts rw t -> system cap fuel dfuel t H s o -> spaced (Z.of_N (io_reopen_interval (t_opt t))) (open_times (thread_of H)).
Proof. exact life_spaced. Qed.
Print Assumptions C42_reopen_pacing.
(** ... and while the transport is not open at most one entry is held. *)
Theorem C42_no_accumulation : forall iov_max cts rw t cap fuel dfuel H s o,
  created iov_max cts rw t -> system cap fuel dfuel t H s o ->
  forall l1 e l2, thread_of H = l1 ++ e :: l2 -> (exists i, fst e = QRemove i) \/ (exists d, fst e = QWait d) ->
  transport_state l1 <> Some TOpen -> exists held, unreleased l1 held /\ length held <= 1.
Proof.
  intros iov_max cts rw t cap fuel dfuel H s o Hc Hs l1 e l2 E K N. pose proof (life_good _ _ _ _ _ _ _ _ _ _ Hc Hs _ _ _ E) as G. unfold good in G.
  destruct K as [(i & X)|(d & X)]; rewrite X in G; destruct G as (held & U & _ & B); exists held; auto.
Qed.
Print Assumptions C42_no_accumulation.

(** ** C43: termination.  Enough fuel is: more rounds than calls the thread made
    before the shutdown, more removals than accepted submissions. *)
Theorem C43_shutdown_terminates : forall iov_max cts rw t cap fuel dfuel hA hB s o, created iov_max cts rw t ->
  sys_run cap sys_init (hA ++ S_shutdown :: hB) = Some s -> runs (iothr_life fuel dfuel t) (thread_of (hA ++ S_shutdown :: hB)) o ->
  length (thread_of hA) < fuel -> length (accepted (hA ++ S_shutdown :: hB)) < dfuel -> forall f, o <> Stuck f.
Proof. exact life_terminates. Qed.
Print Assumptions C43_shutdown_terminates.
(** When it is over: every queue was found empty after the shutdown was seen,
    nothing is held any more, the transport is destroyed. *)
Theorem C43_shutdown_drains : forall iov_max cts rw t cap fuel dfuel H s o,
  created iov_max cts rw t -> system cap fuel dfuel t H s o -> o = Done tt ->
  exists tail, drained (queues t) (thread_of H) tail /\ unreleased (thread_of H) [] /\ transport_state (thread_of H) = Some TDestroyed.
Proof. exact life_end. Qed.
Print Assumptions C43_shutdown_drains.

(** ** C44: a wait that timed out is followed by a flush: when the thread next
    looks at the shutdown flag it holds nothing.  Missing: a bound in time. *)
Theorem C44_timeout_flushes_partial : forall iov_max cts rw t cap fuel dfuel H s o,
  created iov_max cts rw t -> system cap fuel dfuel t H s o ->
  forall l1 a l2, thread_of H = l1 ++ (QShutting, a) :: l2 -> timed_out l1 = true -> unreleased l1 [].
Proof. intros iov_max cts rw t cap fuel dfuel H s o Hc Hs l1 a l2 E. exact (life_good _ _ _ _ _ _ _ _ _ _ Hc Hs _ _ _ E). Qed.
Print Assumptions C44_timeout_flushes_partial.

(** Refuted as a bound: wake-ups that are not time-outs start a new wait, so an
    entry taken at second 10 may still be there at second 10 + k, for every k. *)
Theorem C44_flush_deadline_refuted : forall k, exists l1 tr, runs (iothr_life (k + 2) 1 ex_t1) (l1 ++ tr) Cut /\
  removed l1 = [(0, ex_a)] /\ freed (l1 ++ tr) = [] /\ Forall (fun e => forall hh iov, fst e <> QWrite hh iov) tr /\
  (k <> 0 -> exists l l2, tr = l ++ (QClock, AClock (10 + Z.of_nat k)) :: l2).
Proof.
  intro k. set (t2 := append ex_open1 ex_a). destruct (quiet_cycles 1 t2 eq_refl eq_refl k 10) as (tr & R & _ & F & W & _ & _ & C).
  exists ([(QClock, AClock 10); (QOpen 0, ARes r_success); (QWrite 0 [start_frame (Some [x61])], ARes r_success)] ++ (QShutting, ABool false) :: [(QRemove 0, AEntry (Some ex_a))]), tr.
  split; [|split; [reflexivity|split; [rewrite freed_app; exact F|auto]]].
  rewrite <- app_assoc. cbn [app].
  assert (G : runs (iothr_thr (k + 2) 1 ex_t1) ([(QClock, AClock 10); (QOpen 0, ARes r_success); (QWrite 0 [start_frame (Some [x61])], ARes r_success)] ++ (QShutting, ABool false) :: [(QRemove 0, AEntry (Some ex_a))] ++ tr) Cut).
  { unfold iothr_thr. eapply runs_bind; [exact ex_opening|]. replace (k + 2) with (S (S k)) by lia. eapply loop_some; [reflexivity|apply pq_one; reflexivity|]. exact R. }
  cbn [app] in G. clear - G. unfold iothr_life. revert G. match goal with |- runs _ ?l _ -> _ => generalize l end. generalize (iothr_thr (k + 2) 1 ex_t1). intros p l G.
  remember Cut as o eqn:E. induction G; try discriminate; cbn [bind]; [constructor|]. constructor; auto.
Qed.
Print Assumptions C44_flush_deadline_refuted.

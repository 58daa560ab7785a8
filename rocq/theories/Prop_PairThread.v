(** C96: an I/O thread and a capture server together. *)
From Coq Require Import ZArith Lia Permutation.
From Verif Require Import Bytes Bytes_proofs Spec SpecTrace SpecStream Io Rdwr Writer Api SpecApi Queue Iothr SpecIothr SpecClient
  Capture SpecCapture SpecDeliver SpecPair Pair PairBounded Deliver_proofs
  PairThread SpecPairThread PairThread3_proofs PairThread4_proofs Prop_Capture Prop_Pair Prop_Iothr.
Import ListNotations.
Local Open Scope N_scope.

(** Whatever users, network, server and other clients do meanwhile: the thread
    runs into no error, undefined behaviour included, and what it did together
    with its users is an execution as in C35-C44, all of whose properties it
    therefore has. *)
Theorem C96_works : forall iov_max cts rw t e a m cap qcap up H c fuel dfuel x,
  thread_met iov_max cts rw t e a m up H c ->
  t_run e a m cap qcap (queues t) up (t_meet fuel dfuel t H c) x ->
  (forall f, tj_prog x = Fail f -> f = FFuel) /\
  (tj_prog x <> Fail FFuel -> system qcap fuel dfuel t (tj_hist x) (tj_sys x) (thread_out x)).
Proof.
  intros iov_max cts rw t e a m cap qcap up H c fuel dfuel x TM R.
  destruct (thread_system _ _ _ _ _ _ _ cap qcap _ _ _ fuel dfuel TM x R) as (A & _ & B). auto.
Qed.
Print Assumptions C96_works.

(** When the thread has ended, the server has stored everything that users had
    submitted before they asked for the end, each queue in its order, once, but
    for payloads too large for the server's buffer. *)
Theorem C96_stored : forall iov_max cts rw t e a m cap qcap up H c fuel dfuel x before after s,
  thread_met iov_max cts rw t e a m up H c ->
  t_run e a m cap qcap (queues t) up (t_meet fuel dfuel t H c) x -> tj_prog x = Ret tt ->
  tj_hist x = before ++ S_shutdown :: after -> ~ In S_shutdown before ->
  sys_run qcap sys_init before = Some s -> (forall i, s_pending s i = []) ->
  exists written i, in_queue_order (SpecIothr.accepted before) written (SpecIothr.accepted (tj_hist x)) /\
    In i (map fst (j_past (b_joint (tj_net x)))) /\
    SpecCapture.received i (j_hist (b_joint (tj_net x))) =
      ready_frame cts ++ start_frame (hd_error cts) ++ datas (payloads written) ++ stop_frame /\
    stores (acts_of i (x_log (j_srv (b_joint (tj_net x))))) = map data_frame (fit a (payloads written)).
Proof.
  intros iov_max cts rw t e a m cap qcap up H c fuel dfuel x before after s TM.
  exact (thread_stores _ _ _ _ _ _ _ cap qcap _ _ _ fuel dfuel TM x before after s).
Qed.
Print Assumptions C96_stored.

(** And when the server has then been shut down they are in its files. *)
Theorem C96_in_files : forall iov_max cts rw t e a m cap qcap up H c fuel dfuel x before after s c',
  thread_met iov_max cts rw t e a m up H c ->
  t_run e a m cap qcap (queues t) up (t_meet fuel dfuel t H c) x -> tj_prog x = Ret tt ->
  tj_hist x = before ++ S_shutdown :: after -> ~ In S_shutdown before ->
  sys_run qcap sys_init before = Some s -> (forall i, s_pending s i = []) ->
  shutdown e (j_srv (b_joint (tj_net x))) = Go c' ->
  exists written files, in_queue_order (SpecIothr.accepted before) written (SpecIothr.accepted (tj_hist x)) /\
    map snd (x_outs c') = map (fun bs => start_frame (Some (a_ctype a)) ++ concat bs ++ stop_frame) files /\
    subseq (map data_frame (fit a (payloads written))) (concat files).
Proof.
  intros iov_max cts rw t e a m cap qcap up H c fuel dfuel x before after s c' TM.
  exact (thread_in_files _ _ _ _ _ _ _ cap qcap _ _ _ fuel dfuel TM x before after s c').
Qed.
Print Assumptions C96_in_files.

(** At any time, before the end too: what the server has stored from the thread is
    the beginning of what users submitted, in the order the thread took it: each
    queue in its order, nothing twice, nothing else. *)
Theorem C96_at_any_time : forall iov_max cts rw t e a m cap qcap up H c fuel dfuel x i,
  thread_met iov_max cts rw t e a m up H c ->
  t_run e a m cap qcap (queues t) up (t_meet fuel dfuel t H c) x ->
  (S (length (thread_of (tj_hist x))) < fuel)%nat -> (length (SpecIothr.accepted (tj_hist x)) < dfuel)%nat ->
  its_conn x = Some i ->
  exists written, (forall k, subseq (of_queue k written) (of_queue k (SpecIothr.accepted (tj_hist x)))) /\
    (exists rest, Permutation (SpecIothr.accepted (tj_hist x)) (written ++ rest)) /\
    prefix (stores (acts_of i (x_log (j_srv (b_joint (tj_net x)))))) (map data_frame (fit a (payloads written))).
Proof.
  intros iov_max cts rw t e a m cap qcap up H c fuel dfuel x i TM.
  exact (thread_anytime _ _ _ _ _ _ _ cap qcap _ _ _ fuel dfuel TM x i).
Qed.
Print Assumptions C96_at_any_time.

(** Before it has ended, it or the server for it can go on without anybody else,
    unless the server is serving as many others as it may. *)
Theorem C96_never_stuck : forall iov_max cts rw t e a m cap qcap up H c fuel dfuel x,
  thread_met iov_max cts rw t e a m up H c -> output_works e -> 1 <= m -> m + 7 < capture_highwater a -> 1 <= cap ->
  t_run e a m cap qcap (queues t) up (t_meet fuel dfuel t H c) x ->
  tj_prog x = Ret tt \/ tj_prog x = Fail FFuel \/ (exists x', t_thread qcap cap up x x') \/
  (exists v x', its_own (b_joint (tj_net x)) v /\ t_server e a m v x x') \/
  (exists i, j_id (b_joint (tj_net x)) = Some i /\ ~ SpecCapture.accepted i (j_hist (b_joint (tj_net x))) /\
     (0 < a_conns a)%Z /\ (a_conns a <= Z.of_nat (length (x_conns (j_srv (b_joint (tj_net x))))))%Z).
Proof.
  intros iov_max cts rw t e a m cap qcap up H c fuel dfuel x TM.
  exact (thread_progress _ _ _ _ _ _ _ cap qcap _ _ _ fuel dfuel TM x).
Qed.
Print Assumptions C96_never_stuck.

(** From wherever they are once the end has been asked for, the thread and the
    server can finish by themselves, however small the network's buffer; the
    bounds on its loops are never met. *)
Theorem C96_can_finish : forall iov_max cts rw t e a m cap qcap up H c fuel dfuel x before after,
  thread_met iov_max cts rw t e a m up H c -> output_works e -> 1 <= m -> m + 7 < capture_highwater a -> 1 <= cap -> (a_conns a <= 0)%Z ->
  t_run e a m cap qcap (queues t) up (t_meet fuel dfuel t H c) x ->
  tj_hist x = before ++ S_shutdown :: after ->
  (length (thread_of before) < fuel)%nat -> (length (SpecIothr.accepted (tj_hist x)) < dfuel)%nat ->
  exists x', t_left e a m cap qcap up x x' /\ tj_prog x' = Ret tt.
Proof.
  intros iov_max cts rw t e a m cap qcap up H c fuel dfuel x before after TM.
  exact (thread_finishes _ _ _ _ _ _ _ cap qcap _ _ _ fuel dfuel TM x before after).
Qed.
Print Assumptions C96_can_finish.

(** They do finish: whatever others do, as long as they go on at all, in whichever
    of the possible ways, they get to the end. *)
Theorem C96_ends : forall iov_max cts rw t e a m cap qcap up H c fuel dfuel x before after,
  thread_met iov_max cts rw t e a m up H c -> output_works e -> 1 <= m -> m + 7 < capture_highwater a -> 1 <= cap -> (a_conns a <= 0)%Z ->
  t_run e a m cap qcap (queues t) up (t_meet fuel dfuel t H c) x ->
  tj_hist x = before ++ S_shutdown :: after ->
  (length (thread_of before) < fuel)%nat -> (length (SpecIothr.accepted (tj_hist x)) < dfuel)%nat ->
  t_ends e a m cap qcap (queues t) up x.
Proof.
  intros iov_max cts rw t e a m cap qcap up H c fuel dfuel x before after TM.
  exact (thread_ends _ _ _ _ _ _ _ cap qcap _ _ _ fuel dfuel TM x before after).
Qed.
Print Assumptions C96_ends.

(** A case: a thread with two queues, whose users submit three payloads and ask
    for the end before it has done anything, and a server that another client has
    connected to, over a network that holds one byte. *)
Definition th_w : writer := mk_writer ws_opening [ex_ct; [x61]] pr_rw None None None None 1024.
Definition th_t : iothr := mk_iothr (configured 1024 ex_opts) th_w false 0 [] 0.
Definition th_users : history :=
  [S_insert 0 ex_a; S_publish 0; S_insert 1 ex_b; S_insert 0 ex_c; S_publish 0; S_publish 1].
Example C96_hypotheses :
  thread_met 1024 [ex_ct; [x61]] pr_rw th_t ex_env ex_args6 4096 100 pr_H (pr_c ex_args6) /\
  output_works ex_env /\ 4096 + 7 < capture_highwater ex_args6 /\ (a_conns ex_args6 <= 0)%Z /\ queues th_t = 2%nat.
Proof.
  destruct C75_hypotheses as ([] & OW & M & CL & _). split; [|auto]. split; auto; try (vm_compute; discriminate).
  split; [repeat split|]. split; [vm_compute; intuition discriminate|]. exists 1024%nat, th_w, (Some (configured 1024 ex_opts)).
  split; [apply Nat.lt_0_succ|]. split; [reflexivity|]. split; [eexists; reflexivity|]. vm_compute. reflexivity.
Qed.
Fixpoint th_play (qcap : nat) (s : sys) (l : history) : option sys :=
  match l with [] => Some s | u :: r => match sys_step qcap s u with Some s' => th_play qcap s' r | None => None end end.
Lemma th_play_runs e a m cap qcap n up x0 b l : forall h s s',
  Forall (user_event n) l -> th_play qcap s l = Some s' -> t_run e a m cap qcap n up x0 (mk_tjoint b h s) ->
  t_run e a m cap qcap n up x0 (mk_tjoint b (h ++ l) s').
Proof.
  induction l as [|u r IH]; intros h s s' F P R.
  - injection P as <-. rewrite app_nil_r. exact R.
  - inversion F; subst. cbn [th_play] in P. destruct (sys_step qcap s u) as [s1|] eqn:E; [|discriminate].
    change (h ++ u :: r) with (h ++ [u] ++ r). rewrite app_assoc. eapply IH; [assumption|exact P|].
    eapply tr_users; [exact R|]. econstructor; eassumption.
Qed.
Example C96_run : exists x written i,
  t_run ex_env ex_args6 4096 1 8 2 100 (t_meet 50 50 th_t pr_H (pr_c ex_args6)) x /\
  tj_prog x = Ret tt /\ SpecIothr.accepted (tj_hist x) = [(0%nat, ex_a); (1%nat, ex_b); (0%nat, ex_c)] /\
  in_queue_order (SpecIothr.accepted (tj_hist x)) written (SpecIothr.accepted (tj_hist x)) /\
  stores (acts_of i (x_log (j_srv (b_joint (tj_net x))))) = map data_frame (fit ex_args6 (payloads written)).
Proof.
  destruct C96_hypotheses as (TM & OW & M & CL & EQ).
  assert (R0 : exists s, t_run ex_env ex_args6 4096 1 8 2 100 (t_meet 50 50 th_t pr_H (pr_c ex_args6))
    (mk_tjoint (tj_net (t_meet 50 50 th_t pr_H (pr_c ex_args6))) (th_users ++ [S_shutdown]) s)).
  { eexists. eapply (th_play_runs _ _ _ _ _ _ _ _ _ (th_users ++ [S_shutdown]) []); [| |apply tr_start].
    - repeat constructor; vm_compute; intuition (lia || discriminate).
    - reflexivity. }
  destruct R0 as (s & R0).
  destruct (C96_can_finish _ _ _ _ _ _ _ 1 8 _ _ _ 50 50 _ th_users [] TM OW ltac:(lia) M ltac:(lia) CL R0 eq_refl ltac:(vm_compute; lia) ltac:(vm_compute; lia)) as (x & L & E).
  destruct (left_hist _ _ _ _ _ _ _ _ L) as (l & EH). cbn [tj_hist] in EH.
  assert (R : t_run ex_env ex_args6 4096 1 8 (queues th_t) 100 (t_meet 50 50 th_t pr_H (pr_c ex_args6)) x) by (eapply left_run; [exact L|exact R0]).
  destruct (sys_run 8 sys_init th_users) as [s1|] eqn:ES; [|discriminate].
  assert (P : forall i, s_pending s1 i = []) by (intro i; injection ES as <-; destruct i as [|[|i]]; reflexivity).
  rewrite <- app_assoc in EH. cbn [app] in EH.
  destruct (C96_stored _ _ _ _ _ _ _ _ _ _ _ _ _ _ _ th_users (map S_thr l) s1 TM R E EH ltac:(vm_compute; intuition discriminate) ES P) as (W & i & O & _ & _ & S).
  exists x, W, i. assert (A : SpecIothr.accepted (tj_hist x) = [(0%nat, ex_a); (1%nat, ex_b); (0%nat, ex_c)]).
  { rewrite EH. change (th_users ++ S_shutdown :: map S_thr l) with ((th_users ++ [S_shutdown]) ++ map S_thr l). rewrite PairThread2_proofs.accepted_thr. reflexivity. }
  split; [exact R|]. split; [exact E|]. split; [exact A|]. split; [rewrite A at 1; exact O|exact S].
Qed.

(** A state in the middle: the thread has opened its connection, has passed one
    byte on, and the server has accepted the connection and read it. *)
Example C96_middle : exists x,
  t_run ex_env ex_args6 4096 1 8 2 100 (t_meet 50 50 th_t pr_H (pr_c ex_args6)) x /\
  (S (length (thread_of (tj_hist x))) < 50)%nat /\ (length (SpecIothr.accepted (tj_hist x)) < 50)%nat /\
  its_conn x = Some 1%nat /\ SpecIothr.accepted (tj_hist x) = [(0%nat, ex_a)] /\
  SpecCapture.received 1 (j_hist (b_joint (tj_net x))) = [x00].
Proof.
  eexists. split; [|split; [|split; [|split; [|split]]]].
  - eapply tr_server with (v := E_data 1 [x00]).
    + eapply tr_server with (v := E_accept 1).
      * eapply tr_thread.
        -- eapply tr_thread.
           ++ eapply tr_thread.
              ** eapply tr_users; [apply tr_start|]. eapply (tu_step _ _ _ _ _ (S_insert 0 ex_a)); [split; [lia|split; vm_compute; (reflexivity || discriminate)]|reflexivity].
              ** eapply (tt_own _ _ _ _ _ _ QClock _ (AClock 100)); [reflexivity|reflexivity|exact I|cbn; lia|reflexivity].
           ++ eapply (tt_call _ _ _ _ _ _ _ [(QOpen _, ARes r_success)]).
              ** eapply bw_other; [discriminate|]. eapply (wm_open _ _ _ 1%nat); [reflexivity| |intros []]. intros [X|[X|[]]]; discriminate.
              ** reflexivity.
        -- eapply (tt_call _ _ _ _ _ _ _ []).
           ++ eapply bw_put with (chunk := [x00]); [reflexivity|reflexivity|discriminate|eexists; vm_compute; reflexivity|vm_compute; discriminate].
           ++ rewrite app_nil_r. reflexivity.
      * constructor. constructor; [split; [vm_compute; reflexivity|]|exact I|vm_compute; reflexivity]. intros [X|[X|[]]]; discriminate.
    + constructor. constructor; [split; [discriminate|eexists; split; [vm_compute; reflexivity|vm_compute; discriminate]]| |vm_compute; reflexivity].
      split; [vm_compute; discriminate|]. split; [intros _; eexists; vm_compute; reflexivity|intros s []].
  - apply Nat.ltb_lt. vm_compute. reflexivity.
  - apply Nat.ltb_lt. vm_compute. reflexivity.
  - reflexivity.
  - reflexivity.
  - reflexivity.
Qed.

(** C75: a writer and a capture server that agree on the content type get along. *)
From Coq Require Import ZArith Lia.
From Verif Require Import Bytes Spec SpecTrace SpecStream Io Rdwr Writer Api SpecApi Capture SpecCapture SpecDeliver SpecPair Pair
  Capture5_proofs Deliver_proofs Pair3_proofs Prop_Capture.
Import ListNotations.
Local Open Scope N_scope.

(** Whatever else the server does, for whatever other clients, and however the
    network cuts and delays the two streams: the writer's calls have exactly the
    results they should have, and none is undefined. *)
Theorem C75_results : forall iovm cts rw w cs e a m H c n j,
  well_met iovm cts rw w cs e a m H c -> joint_run e a m (meet w cs H c) n j ->
  match j_prog j with
  | Ret (rs, _) => rs = stage_results U_fresh cs
  | Fail _ => False
  | Vis _ _ => True
  end.
Proof.
  intros until j. intros WM R. pose proof (pair_results _ _ _ _ _ _ _ _ _ _ WM n j R) as P. destruct (j_prog j) as [[rs w']| |]; exact P.
Qed.
Print Assumptions C75_results.

(** They are never both waiting for each other: until the calls are done, the
    writer can go on, or the server can accept its connection or read more of
    what it sent, unless the server is serving as many connections as it may
    and has not got to this one. *)
Theorem C75_never_stuck : forall iovm cts rw w cs e a m H c n j,
  well_met iovm cts rw w cs e a m H c -> output_works e -> 1 <= m -> m + 7 < capture_highwater a ->
  joint_run e a m (meet w cs H c) n j ->
  (exists r, j_prog j = Ret r) \/ (exists j', writer_moves j j') \/
  (exists x j', its_own j x /\ server_moves e a m j x j') \/
  (exists i, j_id j = Some i /\ ~ accepted i (j_hist j) /\
     (0 < a_conns a)%Z /\ (a_conns a <= Z.of_nat (length (x_conns (j_srv j))))%Z).
Proof. intros until j. intros WM. apply (pair_progress iovm cts rw); exact WM. Qed.
Print Assumptions C75_never_stuck.

(** The number of these moves is bounded, and the bound depends on the writer
    and its calls only, not on the server's other business or its past. *)
Theorem C75_bounded : forall iovm cts rw w cs ct, exists bound,
  forall e a m H c n j, a_ctype a = ct -> well_met iovm cts rw w cs e a m H c ->
  joint_run e a m (meet w cs H c) n j -> (n <= bound)%nat.
Proof.
  intros. exists (weight ct (do_wcalls w cs) []). intros e a m H c n j <- WM. exact (pair_bound iovm cts rw w cs e a m H c WM n j).
Qed.
Print Assumptions C75_bounded.

(** So from any point they reach, the calls can be completed. *)
Theorem C75_can_finish : forall iovm cts rw w cs e a m H c n j,
  well_met iovm cts rw w cs e a m H c -> output_works e -> 1 <= m -> m + 7 < capture_highwater a -> (a_conns a <= 0)%Z ->
  joint_run e a m (meet w cs H c) n j ->
  exists n' j' r, joint_run e a m j n' j' /\ j_prog j' = Ret r.
Proof. exact pair_finishes. Qed.
Print Assumptions C75_can_finish.

(** And when the last call was a successful close, the server has stored all
    payloads of the session that fit its buffer. *)
Theorem C75_delivered : forall iovm cts rw w cs e a m H c n j rs w',
  well_met iovm cts rw w (cs ++ [WClose]) e a m H c ->
  joint_run e a m (meet w (cs ++ [WClose]) H c) n j -> j_prog j = Ret (rs ++ [r_success], w') ->
  exists i, confirmed (j_hist j) (j_srv j) i cs rs /\
    stores (acts_of i (x_log (j_srv j))) = map data_frame (fit a (since_close [] cs rs)).
Proof. exact pair_delivered. Qed.
Print Assumptions C75_delivered.

(** ** A case *)
Definition pr_rw : rdwr := mk_rdwr 0 true true true true true false.
Definition pr_w : writer := mk_writer ws_opening [ex_ct; [x61]] pr_rw None None None None 1024.
Definition pr_cs : list wcall := [WWrite [x01]; WWritev [ex_big; [x02; x03]]; WClose; WWrite [x04]; WOpen; WWrite [x05]].
(** Another client has connected and sent half its session. *)
Definition pr_H : list ev := [E_accept 7; E_data 7 (firstn 40 ex_s2)].
Definition pr_c (a : args) : ctx := match play0 ex_env a pr_H with Some c => c | None => mk_ctx [] false 0 0 0 false [] [] [] end.

Lemma pr_met (a : args) cs : a_ctype a = ex_ct -> capture_highwater a = 262144 -> Forall wcall_ok cs ->
  Forall (fun x => Forall ordinary (wpayloads x)) cs -> play0 ex_env a pr_H = Some (pr_c a) ->
  well_met 1024 [ex_ct; [x61]] pr_rw pr_w cs ex_env a 4096 pr_H (pr_c a).
Proof.
  intros E1 E2 F1 F2 P. split; rewrite ?E1, ?E2; auto; try reflexivity.
  - split; reflexivity.
  - lia.
  - right. reflexivity.
  - repeat constructor; vm_compute; discriminate.
  - vm_compute. discriminate.
  - vm_compute. discriminate.
  - intro n. reflexivity.
  - apply play0_sound, P.
  - intros id chunk [X|[X|[]]]; [discriminate|]. injection X as <- <-. vm_compute. discriminate.
Qed.
Example C75_hypotheses : well_met 1024 [ex_ct; [x61]] pr_rw pr_w (pr_cs ++ [WClose]) ex_env ex_args6 4096 pr_H (pr_c ex_args6) /\
  output_works ex_env /\ 4096 + 7 < capture_highwater ex_args6 /\ (a_conns ex_args6 <= 0)%Z /\
  stage_results U_fresh (pr_cs ++ [WClose]) = [r_success; r_success; r_success; r_failure; r_success; r_success; r_success].
Proof.
  split; [|split; [|split; [vm_compute; reflexivity|split; [vm_compute; discriminate|reflexivity]]]].
  - apply pr_met; [reflexivity|reflexivity| | |vm_compute; reflexivity]; repeat constructor; vm_compute; congruence.
  - split; [reflexivity|]. split; [reflexivity|]. discriminate.
Qed.
(** So there is a run to the end, its results are these, and the last session
    has been stored. *)
Example C75_run : exists n j w' i,
  joint_run ex_env ex_args6 4096 (meet pr_w (pr_cs ++ [WClose]) pr_H (pr_c ex_args6)) n j /\
  j_prog j = Ret (stage_results U_fresh (pr_cs ++ [WClose]), w') /\
  stores (acts_of i (x_log (j_srv j))) = [data_frame [x05]].
Proof.
  destruct C75_hypotheses as (WM & OW & M & CL & _).
  destruct (C75_can_finish _ _ _ _ _ _ _ _ _ _ _ _ WM OW ltac:(lia) M CL (jr_start _ _ _ _)) as (n & j & [rs w'] & R & E).
  pose proof (C75_results _ _ _ _ _ _ _ _ _ _ _ _ WM R) as X. rewrite E in X. subst rs.
  destruct (C75_delivered _ _ _ _ pr_cs _ _ _ _ _ _ _ [r_success; r_success; r_success; r_failure; r_success; r_success] w' WM R E) as (i & _ & S).
  exists n, j, w', i. split; [exact R|]. split; [exact E|]. rewrite S. vm_compute. reflexivity.
Qed.

(** The exception in [C75_never_stuck] is needed: a server with --maxconns 1 that
    is serving another client leaves the writer waiting, and if that client
    stays, for ever. *)
Definition pr_args1 : args := mk_args ex_ct [x66] 0 1 0 false false.
Example C75_limit : exists n j, joint_run ex_env pr_args1 4096 (meet pr_w [WOpen] pr_H (pr_c pr_args1)) n j /\
  (forall r, j_prog j <> Ret r) /\ (forall j', ~ writer_moves j j') /\
  (forall x j', its_own j x -> ~ server_moves ex_env pr_args1 4096 j x j').
Proof.
  eexists. eexists. split.
  { eapply jr_writer; [eapply jr_writer; [apply jr_start|]|].
    - eapply (wm_open _ _ _ 1%nat); [reflexivity| |intros []]. intros [X|[X|[]]]; discriminate.
    - eapply wm_write; reflexivity. }
  split; [discriminate|]. split.
  - intros j' M.
    assert (NA : ~ accepted 1 pr_H) by (intros [X|[X|[]]]; discriminate).
    match type of M with writer_moves ?x _ => remember x as j0 eqn:Ej end.
    assert (EI : j_id j0 = Some 1%nat) by (rewrite Ej; reflexivity).
    assert (EH : j_hist j0 = pr_H) by (rewrite Ej; reflexivity).
    assert (EA : answers (acts_of 1 (x_log (j_srv j0))) = []) by (rewrite Ej; vm_compute; reflexivity).
    assert (EQ : match j_prog j0 with Vis (QRead _ n) _ => n = 4 | _ => False end) by (rewrite Ej; reflexivity).
    clear Ej. destruct M as [j h k i E NA' NP|j h iov k i E EI'|j h iov k i r E EI' D|j h n k i bs E EI' L P|j h n k i r bs E EI' D NS L|j h k i E EI'|j h k E EI'];
      rewrite E in EQ; try contradiction.
    + rewrite EI in EI'. injection EI' as <-. destruct P as [u P]. rewrite EA in P. cbn [concat] in P. symmetry in P.
      apply app_eq_nil in P as [P _]. apply app_eq_nil in P as [_ P]. rewrite P, EQ in L. discriminate L.
    + rewrite EI in EI'. injection EI' as <-. destruct D as [D _]. rewrite EH in D. exact (NA D).
  - intros x j' O [c' L NW S]. destruct x as [i|i b|i|i| |]; cbn in O; try contradiction; injection O as <-.
    + destruct L as [L _]. vm_compute in L. discriminate.
    + destruct L as (_ & k & L & _). vm_compute in L. discriminate.
Qed.

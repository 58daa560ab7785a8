(** C94: a writer and a capture server get along over a network that holds only
    a few bytes, down to one. *)
From Coq Require Import ZArith Lia.
From Verif Require Import Bytes Bytes_proofs Spec SpecTrace SpecStream Io Rdwr Writer Api SpecApi Capture SpecCapture SpecDeliver SpecPair Pair PairBounded
  Capture5_proofs Deliver_proofs Pair3_proofs PairBounded_proofs Prop_Capture Prop_Pair.
Import ListNotations.
Local Open Scope N_scope.

(** The network never holds more than [cap] bytes of the writer's connection. *)
Theorem C94_capacity : forall iovm cts rw w cs e a m cap H c n b i,
  well_met iovm cts rw w cs e a m H c -> b_run e a m cap (b_meet w cs H c) n b -> j_id (b_joint b) = Some i ->
  lenN (passed b) <= lenN (SpecCapture.received i (j_hist (b_joint b))) + cap.
Proof. intros until i. intros WM. apply (bpair_cap iovm cts rw w cs e a m cap H c WM). Qed.
Print Assumptions C94_capacity.

(** However writes are cut in pieces, and whenever the server reads what has
    been passed on of a write that is still going on: the writer's calls have
    exactly the results they should have. *)
Theorem C94_results : forall iovm cts rw w cs e a m cap H c n b,
  well_met iovm cts rw w cs e a m H c -> b_run e a m cap (b_meet w cs H c) n b ->
  match j_prog (b_joint b) with
  | Ret (rs, _) => rs = stage_results U_fresh cs
  | Fail _ => False
  | Vis _ _ => True
  end.
Proof.
  intros until b. intros WM R. pose proof (bpair_results _ _ _ _ _ _ _ _ _ _ _ WM n b R) as P. destruct (j_prog (b_joint b)) as [[rs w']| |]; exact P.
Qed.
Print Assumptions C94_results.

(** There is no deadlock: if the writer waits for room the server can read, and
    if it waits for an answer the server can read until it gives one. *)
Theorem C94_never_stuck : forall iovm cts rw w cs e a m cap H c n b,
  well_met iovm cts rw w cs e a m H c -> output_works e -> 1 <= m -> m + 7 < capture_highwater a -> 1 <= cap ->
  b_run e a m cap (b_meet w cs H c) n b ->
  (exists r, j_prog (b_joint b) = Ret r) \/ (exists b', b_writer cap b b') \/
  (exists x b', its_own (b_joint b) x /\ b_server e a m b x b') \/
  (exists i, j_id (b_joint b) = Some i /\ ~ accepted i (j_hist (b_joint b)) /\
     (0 < a_conns a)%Z /\ (a_conns a <= Z.of_nat (length (x_conns (j_srv (b_joint b)))))%Z).
Proof. intros until b. intros WM. apply (bpair_progress iovm cts rw); exact WM. Qed.
Print Assumptions C94_never_stuck.

(** The number of moves is bounded, by a number that depends neither on the
    network's capacity nor on the server's other business. *)
Theorem C94_bounded : forall iovm cts rw w cs ct, exists bound,
  forall e a m cap H c n b, a_ctype a = ct -> well_met iovm cts rw w cs e a m H c ->
  b_run e a m cap (b_meet w cs H c) n b -> (n <= bound)%nat.
Proof.
  intros. exists (2 * weight ct (do_wcalls w cs) [])%nat. intros e a m cap H c n b <- WM. exact (bpair_bound iovm cts rw w cs e a m cap H c WM n b).
Qed.
Print Assumptions C94_bounded.

(** So from any point they reach, the calls can be completed. *)
Theorem C94_can_finish : forall iovm cts rw w cs e a m cap H c n b,
  well_met iovm cts rw w cs e a m H c -> output_works e -> 1 <= m -> m + 7 < capture_highwater a -> 1 <= cap -> (a_conns a <= 0)%Z ->
  b_run e a m cap (b_meet w cs H c) n b ->
  exists n' b' r, b_run e a m cap b n' b' /\ j_prog (b_joint b') = Ret r.
Proof. exact bpair_finishes. Qed.
Print Assumptions C94_can_finish.

(** And when the last call was a successful close, the server has stored all
    payloads of the session that fit its buffer. *)
Theorem C94_delivered : forall iovm cts rw w cs e a m cap H c n b rs w',
  well_met iovm cts rw w (cs ++ [WClose]) e a m H c ->
  b_run e a m cap (b_meet w (cs ++ [WClose]) H c) n b -> j_prog (b_joint b) = Ret (rs ++ [r_success], w') ->
  exists i, confirmed (j_hist (b_joint b)) (j_srv (b_joint b)) i cs rs /\
    stores (acts_of i (x_log (j_srv (b_joint b)))) = map data_frame (fit a (since_close [] cs rs)).
Proof. exact bpair_delivered. Qed.
Print Assumptions C94_delivered.

(** A case: the calls of [C75_run], over a network that holds one byte. *)
Example C94_run : exists n b w' i,
  b_run ex_env ex_args6 4096 1 (b_meet pr_w (pr_cs ++ [WClose]) pr_H (pr_c ex_args6)) n b /\
  j_prog (b_joint b) = Ret (stage_results U_fresh (pr_cs ++ [WClose]), w') /\
  stores (acts_of i (x_log (j_srv (b_joint b)))) = [data_frame [x05]].
Proof.
  destruct C75_hypotheses as (WM & OW & M & CL & _).
  destruct (C94_can_finish _ _ _ _ _ _ _ _ 1 _ _ _ _ WM OW ltac:(lia) M ltac:(lia) CL (br_start _ _ _ _ _)) as (n & b & [rs w'] & R & E).
  pose proof (C94_results _ _ _ _ _ _ _ _ _ _ _ _ _ WM R) as X. rewrite E in X. subst rs.
  destruct (C94_delivered _ _ _ _ pr_cs _ _ _ _ _ _ _ _ [r_success; r_success; r_success; r_failure; r_success; r_success] w' WM R E) as (i & _ & S).
  exists n, b, w', i. split; [exact R|]. split; [exact E|]. rewrite S. vm_compute. reflexivity.
Qed.

(** A state in the middle: four bytes of the READY frame have been passed on, the
    server has accepted the connection and read three of them. *)
Example C94_middle : exists b,
  b_run ex_env ex_args6 4096 2 (b_meet pr_w [WOpen] pr_H (pr_c ex_args6)) 6 b /\
  j_id (b_joint b) = Some 1%nat /\ passed b = [x00; x00; x00; x00] /\
  SpecCapture.received 1 (j_hist (b_joint b)) = [x00; x00; x00].
Proof.
  eexists. split; [|split; [|split]].
  - eapply br_own with (x := E_data 1 [x00]).
    + eapply br_writer.
      * eapply br_own with (x := E_data 1 [x00; x00]).
        -- eapply br_own with (x := E_accept 1).
           ++ eapply br_writer.
              ** eapply br_writer; [apply br_start|]. eapply bw_other; [discriminate|].
                 eapply (wm_open _ _ _ 1%nat); [reflexivity| |intros []]. intros [X|[X|[]]]; discriminate.
              ** eapply bw_put with (chunk := [x00; x00]); [reflexivity|reflexivity|discriminate|eexists; vm_compute; reflexivity|vm_compute; discriminate].
           ++ reflexivity.
           ++ constructor; [split; [vm_compute; reflexivity|]|exact I|vm_compute; reflexivity]. intros [X|[X|[]]]; discriminate.
        -- reflexivity.
        -- constructor; [split; [discriminate|eexists; split; [vm_compute; reflexivity|vm_compute; discriminate]]| |vm_compute; reflexivity].
           split; [vm_compute; discriminate|]. split; [intros _; eexists; vm_compute; reflexivity|intros s []].
      * eapply bw_put with (chunk := [x00; x00]); [reflexivity|reflexivity|discriminate|eexists; vm_compute; reflexivity|vm_compute; discriminate].
    + reflexivity.
    + constructor; [split; [discriminate|eexists; split; [vm_compute; reflexivity|vm_compute; discriminate]]| |vm_compute; reflexivity].
      split; [vm_compute; discriminate|]. split; [intros _; eexists; vm_compute; reflexivity|intros s []].
  - reflexivity.
  - reflexivity.
  - reflexivity.
Qed.

(** A network that holds nothing at all would leave the writer waiting. *)
Example C94_no_room : exists b,
  b_run ex_env ex_args6 4096 0 (b_meet pr_w [WOpen] pr_H (pr_c ex_args6)) 1 b /\ forall b', ~ b_writer 0 b b'.
Proof.
  eexists. split.
  - eapply br_writer; [apply br_start|]. eapply bw_other; [discriminate|].
    eapply (wm_open _ _ _ 1%nat); [reflexivity| |intros []]. intros [X|[X|[]]]; discriminate.
  - intros b' M. remember (mk_bjoint _ []) as b eqn:Eb in M.
    assert (E1 : match j_prog (b_joint b) with Vis (QWrite _ (_ :: _)) _ => True | _ => False end) by (rewrite Eb; exact I).
    assert (E2 : b_in b = []) by (rewrite Eb; reflexivity). assert (E3 : j_id (b_joint b) = Some 1%nat) by (rewrite Eb; reflexivity).
    assert (E4 : ~ accepted 1 (j_hist (b_joint b))) by (rewrite Eb; intros [X|[X|[]]]; discriminate).
    assert (E5 : SpecCapture.received 1 (j_hist (b_joint b)) = []) by (rewrite Eb; reflexivity).
    assert (E6 : match j_prog (b_joint b) with Vis (QWrite _ iov) _ => concat iov <> [] | _ => True end) by (rewrite Eb; vm_compute; discriminate).
    clear Eb. destruct M as [j j' NW M|j bs h iov k i chunk E EI NE P L|j h iov k i E EI|j bs h iov k i r E EI D NR NE]; cbn [b_joint b_in] in *.
    + destruct (j_prog j) as [| |[] k]; try contradiction. eapply NW. reflexivity.
    + rewrite EI in E3. injection E3 as ->. rewrite E5, !lenN_app in L. destruct chunk as [|v chunk]; [contradiction|].
      unfold lenN in L. cbn [length] in L. lia.
    + rewrite E in E6. exact (E6 E2).
    + rewrite EI in E3. injection E3 as ->. exact (E4 (proj1 D)).
Qed.

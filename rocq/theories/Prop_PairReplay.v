(** C95: replaying files to a capture server copies them. *)
From Coq Require Import ZArith Lia.
From Verif Require Import Bytes Bytes_proofs Spec SpecTrace SpecStream SpecReader Io Rdwr Writer Api SpecApi File Capture SpecCapture SpecDeliver SpecPair Pair PairBounded
  Tools SpecTools SpecPairReplay Capture5_proofs Deliver_proofs Pair3_proofs PairBounded_proofs PairPlay_proofs PairReplay_proofs Prop_Capture Prop_Pair.
Import ListNotations.
Local Open Scope N_scope.

(** Whatever the network does with the bytes between them, and whatever other
    clients do meanwhile: when fstrm_replay exits, its status says success, its
    files are as they were, and the server has received and stored the payloads
    of all the files, in order, but for those too large for its buffer; and
    fstrm_replay runs into no error on the way. *)
Theorem C95_stored : forall fuel iovm files dss e a m cap H c n b,
  replay_met fuel iovm files dss e a m H c -> b_run e a m cap (replaying fuel iovm (a_ctype a) files H c) n b ->
  match j_prog (b_joint b) with
  | Ret (fs, ok) => ok = true /\ map f_data fs = files /\
      exists i, In i (map fst (j_past (b_joint b))) /\
        SpecCapture.received i (j_hist (b_joint b)) =
          ready_frame [a_ctype a] ++ start_frame (Some (a_ctype a)) ++ datas (concat dss) ++ stop_frame /\
        stores (acts_of i (x_log (j_srv (b_joint b)))) = map data_frame (fit a (concat dss))
  | Fail _ => False
  | Vis _ _ => True
  end.
Proof. intros fuel iovm files dss e a m cap H c n b RM. exact (replay_end _ _ _ _ _ _ _ cap _ _ RM n b). Qed.
Print Assumptions C95_stored.

(** Before that one of the two can go on without anybody else, unless the server
    is serving as many others as it may. *)
Theorem C95_never_stuck : forall fuel iovm files dss e a m cap H c n b,
  replay_met fuel iovm files dss e a m H c -> output_works e -> 1 <= m -> m + 7 < capture_highwater a -> 1 <= cap ->
  b_run e a m cap (replaying fuel iovm (a_ctype a) files H c) n b ->
  (exists r, j_prog (b_joint b) = Ret r) \/ (exists b', b_writer cap b b') \/
  (exists x b', its_own (b_joint b) x /\ b_server e a m b x b') \/
  (exists i, j_id (b_joint b) = Some i /\ ~ accepted i (j_hist (b_joint b)) /\
     (0 < a_conns a)%Z /\ (a_conns a <= Z.of_nat (length (x_conns (j_srv (b_joint b)))))%Z).
Proof. intros fuel iovm files dss e a m cap H c n b RM. exact (replay_progress _ _ _ _ _ _ _ cap _ _ RM n b). Qed.
Print Assumptions C95_never_stuck.

(** The steps of fstrm_replay and of the server for it are bounded, by a number
    that depends neither on the server nor on the network. *)
Theorem C95_bounded : forall fuel iovm ct files, exists bound, forall dss e a m cap H c n b,
  a_ctype a = ct -> replay_met fuel iovm files dss e a m H c ->
  b_run e a m cap (replaying fuel iovm (a_ctype a) files H c) n b -> (n <= bound)%nat.
Proof.
  intros fuel iovm ct files.
  exists (2 * weight ct (on_files 1 (map input files) (replay_main fuel iovm ct (length files))) [])%nat. intros dss e a m cap H c n b <- RM R. exact (replay_bound _ _ _ _ _ _ _ cap _ _ RM n b R).
Qed.
Print Assumptions C95_bounded.

(** So from wherever they have got to they can finish by themselves. *)
Theorem C95_can_finish : forall fuel iovm files dss e a m cap H c n b,
  replay_met fuel iovm files dss e a m H c -> output_works e -> 1 <= m -> m + 7 < capture_highwater a -> 1 <= cap -> (a_conns a <= 0)%Z ->
  b_run e a m cap (replaying fuel iovm (a_ctype a) files H c) n b ->
  exists n' b' r, b_run e a m cap b n' b' /\ j_prog (b_joint b') = Ret r.
Proof. exact replay_finishes. Qed.
Print Assumptions C95_can_finish.

(** A server that has heard from nobody else and has written one file has put into
    it, when it has been shut down, the start of a stream, the payloads and the
    end. *)
Theorem C95_copy : forall fuel iovm files dss e a m cap H c n b r,
  replay_met fuel iovm files dss e a m H c -> b_run e a m cap (replaying fuel iovm (a_ctype a) files H c) n b ->
  j_prog (b_joint b) = Ret r ->
  exists i, In i (map fst (j_past (b_joint b))) /\
    ((forall u, u <> i -> SpecCapture.received u (j_hist (b_joint b)) = []) ->
     forall c' name out, shutdown e (j_srv (b_joint b)) = Go c' -> x_outs c' = [(name, out)] ->
       out = start_frame (Some (a_ctype a)) ++ datas (fit a (concat dss)) ++ stop_frame).
Proof. exact replay_copied. Qed.
Print Assumptions C95_copy.

(** So a complete file, written by a capture server with the same settings, say,
    is copied byte by byte. *)
Theorem C95_identical : forall fuel iovm ds d e a m cap H c n b r,
  d = start_frame (Some (a_ctype a)) ++ datas ds ++ stop_frame ->
  Forall (fun p => 1 <= lenN p /\ lenN p <= DEFAULT_MAX /\ lenN (data_frame p) <= capture_highwater a) ds ->
  (length d <= fuel)%nat -> (0 < iovm)%nat -> lenN (a_ctype a) <= CT_MAX -> 512 <= capture_highwater a ->
  sends e -> reach e a H c -> reads_below m H ->
  b_run e a m cap (replaying fuel iovm (a_ctype a) [d] H c) n b -> j_prog (b_joint b) = Ret r ->
  exists i, In i (map fst (j_past (b_joint b))) /\
    ((forall u, u <> i -> SpecCapture.received u (j_hist (b_joint b)) = []) ->
     forall c' name out, shutdown e (j_srv (b_joint b)) = Go c' -> x_outs c' = [(name, out)] -> out = d).
Proof. exact replay_identical. Qed.
Print Assumptions C95_identical.

(** A case: two files and one that is no stream, to a server that another client
    has connected to, over a network that holds one byte. *)
Definition rp_file (ds : list bytes) : bytes := start_frame (Some ex_ct) ++ datas ds ++ stop_frame.
Definition rp_files : list bytes := [rp_file [[x01]; [x02; x03]]; [x2a]; rp_file [[x04]]].
Example C95_hypotheses : replay_met 200 16 rp_files [[[x01]; [x02; x03]]; []; [[x04]]] ex_env ex_args6 4096 pr_H (pr_c ex_args6) /\
  output_works ex_env /\ 4096 + 7 < capture_highwater ex_args6 /\ (a_conns ex_args6 <= 0)%Z.
Proof.
  destruct C75_hypotheses as ([] & OW & M & CL & _). split; [|auto]. split; auto.
  - constructor; [|constructor; [|constructor; [|constructor]]].
    + apply (complete_offers ex_args6); [vm_compute; discriminate|]. repeat constructor; vm_compute; discriminate.
    + apply of_none. intros st inp _ E. apply (f_equal (@lenN byte)) in E. unfold ctl_frame in E.
      rewrite !lenN_app, !lenN_be32 in E. change (lenN [x2a]) with 1 in E. lia.
    + apply (complete_offers ex_args6); [vm_compute; discriminate|]. repeat constructor; vm_compute; discriminate.
  - repeat constructor; vm_compute; lia.
  - lia.
Qed.
Example C95_run : exists n b r i,
  b_run ex_env ex_args6 4096 1 (replaying 200 16 (a_ctype ex_args6) rp_files pr_H (pr_c ex_args6)) n b /\
  j_prog (b_joint b) = Ret r /\ snd r = true /\
  stores (acts_of i (x_log (j_srv (b_joint b)))) = [data_frame [x01]; data_frame [x02; x03]; data_frame [x04]].
Proof.
  destruct C95_hypotheses as (RM & OW & M & CL).
  destruct (C95_can_finish _ _ _ _ _ _ _ 1 _ _ _ _ RM OW ltac:(lia) M ltac:(lia) CL (br_start _ _ _ _ _)) as (n & b & r & R & E).
  pose proof (C95_stored _ _ _ _ _ _ _ _ _ _ _ _ RM R) as X. rewrite E in X. destruct r as [fs ok]. destruct X as (X1 & _ & i & _ & _ & S).
  exists n, b, (fs, ok), i. split; [exact R|]. split; [exact E|]. split; [exact X1|]. rewrite S. vm_compute. reflexivity.
Qed.

(** A case of [C95_copy] and [C95_identical]: a server that has only just begun. *)
Definition rp_c : ctx := match boot ex_env ex_args6 with Go c => c | _ => mk_ctx [] false 0 0 0 false [] [] [] end.
Definition rp_d : bytes := rp_file [[x01]; [x02; x03]].
Definition rp_end : bjoint := plays ex_env ex_args6 4096 20 400 3 (replaying 200 16 (a_ctype ex_args6) [rp_d] [] rp_c).
Example C95_identical_case :
  rp_d = start_frame (Some (a_ctype ex_args6)) ++ datas [[x01]; [x02; x03]] ++ stop_frame /\
  reach ex_env ex_args6 [] rp_c /\
  (exists n, b_run ex_env ex_args6 4096 20 (replaying 200 16 (a_ctype ex_args6) [rp_d] [] rp_c) n rp_end) /\
  (exists r, j_prog (b_joint rp_end) = Ret r) /\
  (forall u, ~ In u (map fst (j_past (b_joint rp_end))) -> SpecCapture.received u (j_hist (b_joint rp_end)) = []) /\
  map fst (j_past (b_joint rp_end)) = [3%nat] /\
  exists c' name, shutdown ex_env (j_srv (b_joint rp_end)) = Go c' /\ x_outs c' = [(name, rp_d)].
Proof.
  split; [reflexivity|]. split; [constructor; vm_compute; reflexivity|].
  split; [eapply plays_ok, br_start|].
  split; [|split; [|split]].
  - remember rp_end as b eqn:E. assert (X : match j_prog (b_joint b) with Ret _ => True | _ => False end) by (rewrite E; vm_compute; exact Logic.I).
    destruct (j_prog (b_joint b)) as [r| |]; try contradiction. eauto.
  - replace (map fst (j_past (b_joint rp_end))) with [3%nat] by (vm_compute; reflexivity).
    assert (X : Forall (fun x => match x with E_data i _ => i = 3%nat | _ => True end) (j_hist (b_joint rp_end))) by (vm_compute; repeat constructor).
    revert X. generalize (j_hist (b_joint rp_end)). clear. intros H X u NI.
    assert (N3 : u <> 3%nat) by (intros ->; apply NI; left; reflexivity). clear NI. unfold SpecCapture.received.
    induction X as [|x H E X IH]; [reflexivity|]. cbn [map concat]. rewrite IH, app_nil_r. destruct x; try reflexivity. subst id.
    destruct (Nat.eqb_spec 3 u); [congruence|reflexivity].
  - vm_compute. reflexivity.
  - eexists. eexists. split; [vm_compute; reflexivity|reflexivity].
Qed.

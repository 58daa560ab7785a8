(** C88: fstrm_replay with any list of names, "-" any number of times. *)
From Verif Require Import Bytes Spec Io Io_proofs SpecTrace SpecStream Control Rdwr Reader Writer Socket SpecReader SpecFile File
  Misc Tools SpecTools Prop_Tools StdinNames SpecStdinNames StdinNames_proofs SpecStdinAny StdinAny_proofs.
Local Open Scope N_scope.

(** Each "-" replays what the ones before have left of stdin.  If all of them find
    stdin open, replay does on the connection what a program does that writes the
    frames of all names one by one; if one finds it closed, it is undefined
    behaviour once the frames of the names before have been accepted. *)
Theorem C88_any : forall ct d names dss b fuel iovm w,
  replays_all ct (Some d) names dss b ->
  (length d <= fuel)%nat -> (forall c, In (Some c) names -> (length c <= fuel)%nat) ->
  lenN ct <= CT_MAX -> writer_init iovm [ct] (socket_rdwr 0) = Some w ->
  sim (fun x y => snd x = y)
    (on_names 1 (mk_std d false) (map named names) (replay_main fuel iovm ct (length names)))
    (if b then hasty_then_ub w (concat dss) else hasty_copy w (concat dss)).
Proof. exact replay_names_any. Qed.
Print Assumptions C88_any.

(** stdin with READY before the stream, and an empty frame behind the first frame:
    the first "-" drops READY, the second replays one frame and closes stdin. *)
Example C88_any_nonvacuous :
  replays_all [x61] (Some (ctl_frame T_READY [[x61]] ++ ctl_frame T_START [[x61]] ++ data_frame [x01] ++ be32 0 ++ be32 0 ++ [x02]))
    [None; Some ex_in; None; None] [[]; [[x01; x02]; [x0a]]; [[x01]]] true.
Proof.
  assert (A : start_accepted [[x61]] [[x61]]) by (right; right; exists [x61]; split; [left; reflexivity|reflexivity]).
  assert (KR : ctl_ok T_READY [[x61]]).
  { split; [unfold known_type; tauto|repeat constructor; vm_compute; discriminate|vm_compute; discriminate|intro H; discriminate H|intros [H|H]; discriminate H]. }
  assert (KS : ctl_ok T_START [[x61]]).
  { split; [unfold known_type; tauto|repeat constructor; vm_compute; discriminate|vm_compute; discriminate|intros _; cbn; lia|intros [H|H]; discriminate H]. }
  eapply ra_stdin; [apply rp_none, rf_other; [exact KR|discriminate]|].
  eapply ra_file; [eapply rp_end; [exact ex_in_stream|exact A|left; reflexivity]|].
  eapply ra_stdin; [apply rp_bad; [exact KS|exact A|]|apply ra_closed].
  apply bs_data; [vm_compute; split; [discriminate|reflexivity]|vm_compute; discriminate|]. apply bs_bad, bf_empty.
Qed.

(** Behind a broken control frame that is not empty stdin stays open: the second "-"
    reads what follows as a stream of its own. *)
Example C88_any_resumes :
  replays_all [x61] (Some (ctl_frame T_START [[x61]] ++ data_frame [x01] ++ be32 0 ++ (be32 1 ++ [x09] ++ ex_in)))
    [None; None] [[[x01]]; [[x01; x02]; [x0a]]] false.
Proof.
  assert (A : start_accepted [[x61]] [[x61]]) by (right; right; exists [x61]; split; [left; reflexivity|reflexivity]).
  assert (KS : ctl_ok T_START [[x61]]).
  { split; [unfold known_type; tauto|repeat constructor; vm_compute; discriminate|vm_compute; discriminate|intros _; cbn; lia|intros [H|H]; discriminate H]. }
  eapply ra_stdin; [apply rp_bad; [exact KS|exact A|]|].
  - apply bs_data; [vm_compute; split; [discriminate|reflexivity]|vm_compute; discriminate|]. apply bs_bad.
    exact (bf_bad [x09] ex_in ltac:(discriminate) ltac:(vm_compute; discriminate) ltac:(intros t cts _ E; apply (f_equal (@length _)) in E; unfold ctl_payload in E; rewrite app_length in E; rewrite Bytes_proofs.length_be32 in E; cbn [length] in E; lia)).
  - eapply ra_stdin; [eapply rp_end; [exact ex_in_stream|exact A|left; reflexivity]|constructor].
Qed.

(** The description covers every input without frames above the maximum. *)
Theorem C88_any_covers : forall ct d names,
  (forall c, In (Some c) names -> ~ oversized ct c) -> (forall a d', d = a ++ d' -> ~ oversized ct d') ->
  exists dss b, replays_all ct (Some d) names dss b.
Proof. intros ct d names Nc Nd. apply replays_all_total; [exact Nc|]. intros d0 a d' [= <-]. apply Nd. Qed.
Print Assumptions C88_any_covers.

Example C88_any_covers_nonvacuous : forall a d', ex_in = a ++ d' -> ~ oversized [x61] d'.
Proof.
  intros a d' E (st & ds & SF & _). destruct a as [|x a].
  - cbn [app] in E. subst d'. destruct (Messages3_proofs.stream_det _ _ _ _ _ _ _ ex_in_stream SF) as (_ & _ & X). discriminate X.
  - destruct SF as (K & inp & rest & -> & P).
    assert (Y : forallb (fun k => negb (bytes_eqb (firstn 4 (skipn k ex_in)) (be32 0) && bytes_eqb (firstn 4 (skipn (8 + k) ex_in)) (be32 2)))
      (seq 1 (length ex_in)) = true) by (vm_compute; reflexivity).
    rewrite forallb_forall in Y. specialize (Y (length (x :: a))).
    assert (Z : In (length (x :: a)) (seq 1 (length ex_in))) by (apply in_seq; rewrite E, app_length; cbn [length]; lia). specialize (Y Z).
    assert (S0 : forall n l, skipn (n + length (x :: a)) ((x :: a) ++ l) = skipn n l).
    { intros n l. rewrite skipn_app, skipn_all2 by lia. replace (n + length (x :: a) - length (x :: a))%nat with n by lia. reflexivity. }
    rewrite E in Y. rewrite (S0 8%nat), (S0 0%nat) in Y. unfold ctl_frame, ctl_payload in Y. rewrite <- !app_assoc in Y.
    assert (B : forall n l, firstn 4 (be32 n ++ l) = be32 n) by (intros n l; reflexivity).
    assert (S8 : forall n m l, skipn 8 (be32 n ++ be32 m ++ l) = l) by (intros n m l; reflexivity).
    rewrite S8, (skipn_O (be32 0 ++ _)), !B, !Bytes_proofs.bytes_eqb_refl in Y. discriminate Y.
Qed.

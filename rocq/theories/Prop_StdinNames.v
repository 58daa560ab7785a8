(** C88: fstrm_replay with the name "-". *)
From Verif Require Import Bytes Spec Io Io_proofs SpecTrace SpecStream Control Rdwr Reader Writer Socket SpecReader SpecFile File
  Misc Tools SpecTools Prop_Tools StdinNames SpecStdinNames StdinNames_proofs.
Local Open Scope N_scope.
Local Notation ok1 := (ARes r_success).

(** One "-" anywhere among the names: stdin is replayed like a file with the same
    contents.  Whatever the connection does, replay does on it what a program
    does that opens the writer, writes the offered frames one by one, gives up
    at the first that is refused, and otherwise closes and succeeds. *)
Theorem C88_once : forall ct d names dss fuel iovm w,
  Forall2 (fun n ds => offers ct (means d n) ds /\ (length (means d n) <= fuel)%nat) names dss ->
  ~ twice names -> lenN ct <= CT_MAX -> writer_init iovm [ct] (socket_rdwr 0) = Some w ->
  sim (fun x y => snd x = y)
    (on_names 1 (mk_std d false) (map named names) (replay_main fuel iovm ct (length names))) (hasty_copy w (concat dss)).
Proof. exact replay_names_once. Qed.
Print Assumptions C88_once.

Example C88_once_nonvacuous : (exists w, writer_init 1024 [[x61]] (socket_rdwr 0) = Some w) /\
  ~ twice [Some ex_in; None; Some ex_cut] /\
  Forall2 (fun n ds => offers [x61] (means ex_other n) ds /\ (length (means ex_other n) <= 100)%nat)
    [Some ex_in; None; Some ex_cut] [[[x01; x02]; [x0a]]; []; [[x01; x02]]].
Proof.
  split; [eexists; reflexivity|]. split.
  - intros (a & b & c & E). destruct a as [|x a]; [discriminate E|]. injection E as _ E. destruct a as [|y a].
    + injection E as E. destruct b as [|z b]; [discriminate E|]. injection E as _ E. destruct b; discriminate E.
    + injection E as _ E. destruct a as [|z a]; [discriminate E|]. injection E as _ E. destruct a; discriminate E.
  - pose proof ex_offers as O. inversion O as [|? ? ? ? O1 O']; subst. inversion O' as [|? ? ? ? O2 O'']; subst. inversion O'' as [|? ? ? ? O3 _]; subst.
    constructor; [split; [exact O1|vm_compute; lia]|]. constructor; [split; [exact O2|vm_compute; lia]|].
    constructor; [split; [exact O3|vm_compute; lia]|constructor].
Qed.

(** Two, and the first closes stdin: everything up to the second is replayed, and
    then the program uses stdin after fclose(stdin), unless a frame was refused
    before. *)
Theorem C88_twice_exactly : forall ct d a b c ass ds0 bss fuel iovm w,
  Forall2 (fun n ds => offers ct (means d n) ds /\ (length (means d n) <= fuel)%nat) a ass ->
  offers ct d ds0 -> ends_shut ct d -> (length d <= fuel)%nat ->
  Forall2 (fun n ds => offers ct (means d n) ds /\ (length (means d n) <= fuel)%nat) b bss ->
  ~ In None a -> ~ In None b -> lenN ct <= CT_MAX ->
  writer_init iovm [ct] (socket_rdwr 0) = Some w ->
  let names := a ++ None :: b ++ None :: c in
  sim (fun x y => snd x = y)
    (on_names 1 (mk_std d false) (map named names) (replay_main fuel iovm ct (length names)))
    (hasty_then_ub w (concat (ass ++ ds0 :: bss))).
Proof. exact replay_names_twice. Qed.
Print Assumptions C88_twice_exactly.

Example C88_ends : ends_shut [x61] ex_in /\ ends_shut [x61] ex_cut /\ ends_shut [x61] ex_other.
Proof.
  assert (A : start_accepted [[x61]] [[x61]]) by (right; right; exists [x61]; split; [left; reflexivity|reflexivity]).
  split; [|split].
  - eapply es_match; [exact ex_in_stream|exact A|left; reflexivity].
  - eapply es_match; [exact ex_cut_stream|exact A|right; reflexivity].
  - apply es_mismatch with (st := [[x62]]) (ds := [[x05]]) (e := E_stop).
    + split; [split; [unfold known_type; tauto|repeat constructor; vm_compute; discriminate|vm_compute; discriminate|intros _; cbn; lia|intros [H|H]; discriminate H]|].
      eexists _, []. split; [reflexivity|]. apply p_data; [vm_compute; split; [discriminate|reflexivity]|vm_compute; discriminate|].
      rewrite <- (app_nil_r stop_frame). apply p_stop.
    + intros [H|[H|(c & [<-|[]] & I)]]; [discriminate H..|discriminate I].
Qed.

(** So naming stdin twice never ends with success, and with a connection that
    takes everything it is undefined behaviour. *)
Theorem C88_twice_refuted :
  (forall ct d a b c ass ds0 bss fuel iovm w tr o,
    Forall2 (fun n ds => offers ct (means d n) ds /\ (length (means d n) <= fuel)%nat) a ass ->
    offers ct d ds0 -> ends_shut ct d -> (length d <= fuel)%nat ->
    Forall2 (fun n ds => offers ct (means d n) ds /\ (length (means d n) <= fuel)%nat) b bss ->
    ~ In None a -> ~ In None b -> lenN ct <= CT_MAX -> writer_init iovm [ct] (socket_rdwr 0) = Some w ->
    let names := a ++ None :: b ++ None :: c in
    runs (on_names 1 (mk_std d false) (map named names) (replay_main fuel iovm ct (length names))) tr o ->
    forall x, o <> Done (x, true)) /\
  exists tr, runs (on_names 1 (mk_std ex_in false) (map named [None; Some ex_other; None]) (replay_main 100 1024 [x61] 3)) tr
      (Stuck (FUb ub_uaf)) /\
    delivered tr = [ready_frame [[x61]] ++ start_frame (Some [x61]) ++ datas [[x01; x02]; [x0a]]].
Proof.
  split.
  - intros ct d a b c ass ds0 bss fuel iovm w tr o FA O Es L FB Na Nb Lc Hw names R x ->.
    exact (names_never _ _ _ _ _ _ _ _ _ _ _ _ _ FA O Es L FB Na Nb Lc Hw R).
  - pose (acc := ctl_frame T_ACCEPT [[x61]]). eexists. split.
    + apply follow_sound with (l := [ok1; ok1; ARead r_success (be32 0); ARead r_success (be32 (lenN acc - 8));
       ARead r_success (skipn 8 acc); ok1; ok1; ok1]). vm_compute. reflexivity.
    + vm_compute. reflexivity.
Qed.
Print Assumptions C88_twice_refuted.

(** Not closed: something before the stream that is not a START frame is dropped
    by the first "-", and the second goes on behind it. *)
Example C88_goes_on : exists tr x,
  runs (on_names 1 (mk_std (ctl_frame T_READY [[x61]] ++ ex_in) false) (map named [None; None]) (replay_main 100 1024 [x61] 2)) tr (Done (x, true)) /\
  delivered tr = [ready_frame [[x61]] ++ start_frame (Some [x61]) ++ datas [[x01; x02]; [x0a]] ++ stop_frame].
Proof.
  pose (acc := ctl_frame T_ACCEPT [[x61]]). pose (fin := ctl_frame T_FINISH []). eexists _, _. split.
  - apply follow_sound with (l := [ok1; ok1; ARead r_success (be32 0); ARead r_success (be32 (lenN acc - 8));
       ARead r_success (skipn 8 acc); ok1; ok1; ok1; ok1; ARead r_success (be32 0); ARead r_success (be32 (lenN fin - 8));
       ARead r_success (skipn 8 fin); ok1; ok1]). vm_compute. reflexivity.
  - vm_compute. reflexivity.
Qed.

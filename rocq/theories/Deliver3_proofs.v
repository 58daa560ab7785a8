(** From the producers of an I/O thread to the files of a capture server. *)
From Verif Require Import Bytes Spec Bytes_proofs Io Io_proofs SpecTrace SpecStream SpecReader Control Control_proofs Rdwr Rdwr_proofs Writer Reader Api SpecApi
  Writer_proofs File Iothr SpecIothr System SpecSystem SystemMutex SpecSystemMutex Capture SpecCapture SpecDeliver SpecClient
  Capture_proofs Capture2_proofs Capture3_proofs Capture4_proofs Capture5_proofs Capture6_proofs Capture7_proofs Capture8_proofs Deliver_proofs
  Iothr4_proofs Iothr7_proofs Deliver2_proofs System2_proofs SystemMutex2_proofs.
Local Open Scope N_scope.

Lemma part_sess okb tr : sessions okb (writer_part tr) = sessions okb tr.
Proof.
  unfold sessions. generalize (@nil bytes). induction tr as [|[q a] tr IH]; intro ss; [reflexivity|].
  unfold writer_part. cbn [filter]. destruct q; cbn [of_writer fst fold_left]; fold (writer_part tr); rewrite IH; reflexivity.
Qed.
Lemma part_received tr : SpecTrace.received (writer_part tr) = SpecTrace.received tr.
Proof.
  unfold SpecTrace.received. generalize (@nil byte). induction tr as [|[q a] tr IH]; intro ss; [reflexivity|].
  unfold writer_part. cbn [filter]. destruct q; cbn [of_writer fst fold_left]; fold (writer_part tr); rewrite IH; reflexivity.
Qed.
Lemma part_ok tr : Forall SpecApi.ev_ok tr -> Forall SpecApi.ev_ok (writer_part tr).
Proof. intro F. apply Forall_forall. intros e J. apply filter_In in J as [J _]. rewrite Forall_forall in F. auto. Qed.
Lemma ok_all tr : Forall SpecApi.ev_ok tr -> attempted tr = delivered tr.
Proof.
  unfold attempted, delivered, sessions. intro F. generalize (@nil bytes). induction F as [|[q a] tr E F IH]; intro ss; [reflexivity|].
  cbn [fold_left]. rewrite IH. f_equal. destruct q, a; cbn in *; try reflexivity. subst. reflexivity.
Qed.

(** More than the answer ACCEPT was received, so FINISH was sent. *)
Lemma finish_answered e a H c id acts more :
  reach e a H c -> ctl_ok T_ACCEPT acts -> 0 < lenN more ->
  prefix (ctl_frame T_ACCEPT acts ++ more) (concat (answers (acts_of id (x_log c)))) ->
  In finish_frame (answers (acts_of id (x_log c))).
Proof.
  intros R K L P. destruct (any_answers e a H c id R) as [r E].
  destruct (answers (acts_of id (x_log c))) as [|x [|y [|z l]]] eqn:EA.
  - exfalso. destruct P as [s P]. cbn in P. discriminate P.
  - exfalso. cbn [app] in E. injection E as E _. destruct P as [s P]. cbn [concat] in P. rewrite <- E in P.
    destruct (reach_inv _ _ _ _ R) as [_ (Hct & _)].
    change (ctl_frame T_ACCEPT [a_ctype a]) with (wire1 (F_ctl (ctl_payload T_ACCEPT [a_ctype a]))) in P.
    change (ctl_frame T_ACCEPT acts) with (wire1 (F_ctl (ctl_payload T_ACCEPT acts))) in P.
    rewrite <- app_assoc in P. apply wire1_inj in P as [_ P].
    + destruct more; [cbn in L; lia|discriminate P].
    + apply plain_ctl. unfold ctl_payload, ct_field, CTL_MAX. cbn [map concat]. rewrite !lenN_app, !lenN_be32, lenN_nil. lia.
    + apply plain_ctl, K.
  - injection E as _ E _. right. left. symmetry. exact E.
  - discriminate E.
Qed.

Lemma thread_stored e a K c id iov_max cts rw t fuel dfuel tr ss ct ds :
  reach e a K c -> created iov_max cts rw t -> rw_has_read rw = true -> runs (iothr_life fuel dfuel t) tr (Done tt) ->
  Forall SpecApi.ev_ok tr -> start_choice true cts ct ->
  delivered tr = ss ++ [session_head true cts ct ++ datas ds ++ stop_frame] ->
  connected tr id K c -> Forall ordinary ds ->
  stores (acts_of id (x_log c)) = map data_frame (fit a ds).
Proof.
  intros RE CR HR RU OK SC ED [(before & sent & ES & PO) PIn] OD.
  rewrite (ok_all _ OK), ED in ES. apply app_inj_tail in ES as [_ ES]. 
  destruct (thread_is_client _ _ _ _ _ _ _ _ CR RU) as (iovm & w & cs & o' & Hi & Hw & Hok & RW & DN).
  destruct (DN eq_refl) as (rs & x & ->).
  pose proof (life_rests (fun r => res_eqb r r_success) eq_refl _ _ _ _ _ _ _ _ (proj1 CR) HR Hi Hw Hok RW (part_ok _ OK)) as R.
  unfold rest in R. rewrite part_sess, part_received in R. change (sessions _ tr) with (delivered tr) in R.
  assert (G : exists acts more, fits true T_READY cts /\ ctl_ok T_ACCEPT acts /\ SpecTrace.received tr = ctl_frame T_ACCEPT acts ++ more /\ 4 <= lenN more).
  { destruct R as [R|[(ss' & s & HP & R)|R]]; [|exfalso|exact R].
    - rewrite ED in R. destruct ss; discriminate R.
    - rewrite ED in R. apply app_inj_tail in R as [_ R]. apply (f_equal lenN) in R. unfold session_head in R. rewrite !lenN_app in R.
      change (lenN stop_frame) with 12 in R. destruct HP as [-> | ->]; [rewrite lenN_nil in R|]; lia. }
  destruct G as (acts & more & FT & KA & ER & L4). rewrite ER in PIn.
  assert (FIN : In finish_frame (answers (acts_of id (x_log c)))) by (eapply finish_answered; eauto; lia).
  rewrite <- ES in PO. unfold session_head in PO. rewrite <- app_assoc in PO.
  eapply finished_stored; eauto.
  - apply fits_payload, FT.
  - eapply fits_start; eassumption.
Qed.

Lemma posted_session K c id before all : posted K c id before all ->
  exists iov_max cts rw t fuel dfuel tr ss ct W, created iov_max cts rw t /\ rw_has_read rw = true /\
    runs (iothr_life fuel dfuel t) tr (Done tt) /\ Forall SpecApi.ev_ok tr /\ start_choice true cts ct /\
    delivered tr = ss ++ [session_head true cts ct ++ datas (payloads W) ++ stop_frame] /\ connected tr id K c /\ in_queue_order before W all.
Proof.
  intros [iov_max cts rw t cap fuel dfuel H s hA hB sA CR HR SY HE E N RA PA CN
    |num sz dec enc todo sch s iov_max cts rw t fuel dfuel lA lB ST RUN CR HR TQ RU HE E N SE CN
    |num sz dec enc rem todo sch s iov_max cts rw t fuel dfuel lA lB ST RUN CR HR TQ RU HE E N CN].
  - destruct (life_lossless _ _ _ _ _ _ _ _ _ _ CR SY eq_refl _ _ _ HE E N RA PA) as (ss & ct & W & SC & D & P).
    rewrite HR in *. exists iov_max, cts, rw, t, fuel, dfuel, (thread_of H), ss, ct, W. repeat (split; [first [assumption|apply SY|apply HE]|]). exact P.
  - destruct (users_lossless num sz dec enc todo ST sch s RUN iov_max cts rw t fuel dfuel CR TQ lA lB RU HE E N SE) as (ss & ct & W & SC & D & P).
    rewrite HR in *. exists iov_max, cts, rw, t, fuel, dfuel, (calls dec (c_trace s)), ss, ct, W. repeat (split; [first [assumption|apply HE]|]). exact P.
  - destruct (xusers_lossless num sz dec enc rem todo ST sch s RUN iov_max cts rw t fuel dfuel CR TQ lA lB RU HE E N) as (ss & ct & W & SC & D & P).
    rewrite HR in *. exists iov_max, cts, rw, t, fuel, dfuel, (xcalls dec (x_trace s)), ss, ct, W. repeat (split; [first [assumption|apply HE]|]). exact P.
Qed.

Lemma of_queue_in i x l : In x (of_queue i l) <-> In (i, x) l.
Proof.
  unfold of_queue. rewrite in_map_iff. split.
  - intros ([j y] & E & J). apply filter_In in J as [J Q]. cbn in *. apply Nat.eqb_eq in Q. congruence.
  - intro J. exists (i, x). split; [reflexivity|]. apply filter_In. split; [exact J|]. apply Nat.eqb_refl.
Qed.
Lemma order_in before W all x : in_queue_order before W all -> In x W -> In x all.
Proof.
  destruct x as [i x]. intros O J. apply of_queue_in in J. destruct (O i) as [_ [r P]]. apply of_queue_in. rewrite P. apply in_or_app. auto.
Qed.

Lemma posted_stored e a K c id before all :
  reach e a K c -> posted K c id before all -> Forall ordinary (payloads all) ->
  exists W, in_queue_order before W all /\ stores (acts_of id (x_log c)) = map data_frame (fit a (payloads W)).
Proof.
  intros RE PO OD. destruct (posted_session _ _ _ _ _ PO) as (iov_max & cts & rw & t & fuel & dfuel & tr & ss & ct & W & CR & HR & RU & OK & SC & D & CN & Q).
  exists W. split; [exact Q|]. eapply thread_stored; eauto. unfold payloads in *. rewrite Forall_map in *. apply Forall_forall. intros x J.
  rewrite Forall_forall in OD. apply OD. eapply order_in; eassumption.
Qed.

Lemma posted_in_files e a K c id before all c' :
  reach e a K c -> posted K c id before all -> Forall ordinary (payloads all) -> shutdown e c = Go c' ->
  exists W files, in_queue_order before W all /\
    map snd (x_outs c') = map (fun bs => start_frame (Some (a_ctype a)) ++ concat bs ++ stop_frame) files /\
    subseq (map data_frame (fit a (payloads W))) (concat files).
Proof.
  intros RE PO OD SH. destruct (posted_stored _ _ _ _ _ _ _ RE PO OD) as (W & Q & S).
  destruct (any_files _ _ _ _ _ RE SH) as (files & E1 & E2 & _). exists W, files. split; [exact Q|]. split; [exact E1|].
  rewrite E2, <- S. apply stores_stored.
Qed.

Lemma posted_read_back e a K c c' o hr r :
  reach e a K c -> (forall id, tame (SpecCapture.received id K)) -> shutdown e c = Go c' ->
  reader_init o (file_reader_rdwr hr) = Some r -> ro_cts o = [] \/ In (a_ctype a) (ro_cts o) ->
  capture_highwater a <= ro_max o + 4 ->
  exists files, Forall2 (fun out ds => reads_as r (snd out) ds) (x_outs c') files /\
    forall id before all, posted K c id before all -> Forall ordinary (payloads all) ->
      exists W, in_queue_order before W all /\ subseq (fit a (payloads W)) (concat files).
Proof.
  intros RE T SH RI AC HW. destruct (stored_read_back _ _ _ _ _ _ _ _ RE T SH RI AC HW) as (files & F & G). exists files. split; [exact F|].
  intros id before all PO OD. destruct (posted_stored _ _ _ _ _ _ _ RE PO OD) as (W & Q & S). exists W. split; [exact Q|]. apply (G id). exact S.
Qed.

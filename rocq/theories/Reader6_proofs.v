(** Every write of a reader: the ACCEPT that answers the READY just received,
    or FINISH. *)
From Verif Require Import Bytes Spec Bytes_proofs Io Io_proofs SpecTrace SpecStream
  Control Control_proofs Rdwr Rdwr_proofs Reader Api SpecApi SpecReader
  Reader_source_proofs Reader_proofs.
Local Open Scope N_scope.

Lemma answer_filter rdy wanted : ctl_ok T_READY rdy ->
  answer rdy wanted (filter (ready_accepts (mk_control T_READY rdy)) wanted).
Proof.
  intro K. pose proof (visible_of_ok _ _ K) as V.
  assert (M : forall ct, ready_accepts (mk_control T_READY rdy) ct = true <-> offered rdy ct).
  { intro ct. unfold ready_accepts, offered.
    destruct (control_match_spec (mk_control T_READY rdy) (Some ct)) as [_ H]. cbn [c_type c_cts] in H. rewrite V in H.
    split.
    - intro E. apply res_eqb_true in E. apply H in E. destruct E as (_ & _ & [->|(s & [= <-] & I)]); auto.
    - intro O. assert (E : control_match (mk_control T_READY rdy) (Some ct) = r_success).
      { apply H. split; [discriminate|split; [discriminate|]]. destruct O; eauto. }
      rewrite E. reflexivity. }
  induction wanted as [|ct wanted IH]; cbn; [constructor|].
  destruct (ready_accepts _ ct) eqn:E; constructor; try assumption.
  - apply M. exact E.
  - intro O. apply M in O. congruence.
Qed.

Section Writes.
Variable wanted : list bytes.

Definition wok (h : trace) : Prop := forall tr1 hd iov a tr2,
  h = tr1 ++ (QWrite hd iov, a) :: tr2 -> reader_write_ok wanted (received tr1) (concat iov).
Definition write_fits (h : trace) (q : query) : Prop :=
  match q with QWrite _ iov => reader_write_ok wanted (received h) (concat iov) | _ => True end.

Lemma wok_snoc h q a : wok h -> write_fits h q -> wok (h ++ [(q, a)]).
Proof.
  intros W F tr1 hd iov a1 tr2 E. destruct tr2 as [|e tr2 _] using rev_ind.
  - apply app_inj_tail in E. destruct E as [<- [= -> _]]. exact F.
  - change (tr1 ++ (QWrite hd iov, a1) :: tr2 ++ [e]) with (tr1 ++ ((QWrite hd iov, a1) :: tr2) ++ [e]) in E.
    rewrite app_assoc in E. apply app_inj_tail in E. destruct E as [E _]. eapply W. exact E.
Qed.

Definition nwp {A} (p : io A) : Prop := forall h, wok h -> wp p (fun h' _ => wok h') h.

Lemma nwp_ret {A} (a : A) : nwp (Ret a).
Proof. intros h G. exact G. Qed.
Lemma nwp_fail {A} f : nwp (@Fail A f).
Proof. intros h G. exact G. Qed.
Lemma nwp_bind {A B} (p : io A) (k : A -> io B) : nwp p -> (forall a, nwp (k a)) -> nwp (bind p k).
Proof.
  intros P K h G. apply wp_bind_i. eapply wp_mono; [|apply P; exact G].
  intros h' [a|f|] G'; cbn; auto. apply K; assumption.
Qed.
Lemma nwp_vis {A} q (k : ans -> io A) : (forall h, write_fits h q) -> (forall a, nwp (k a)) -> nwp (Vis q k).
Proof. intros F K h G. cbn. split; [assumption|]. intros a Ha. apply K. apply wok_snoc; auto. Qed.
Lemma nwp_if {A} (b : bool) (p q : io A) : nwp p -> nwp q -> nwp (if b then p else q).
Proof. destruct b; auto. Qed.

Ltac nwp_step := first
  [ apply nwp_ret | apply nwp_fail | apply nwp_if | apply nwp_bind
  | (apply nwp_vis; [intro; exact I|])
  | match goal with
    | |- forall _, _ => intro
    | |- nwp (match ?x with _ => _ end) => destruct x
    | |- nwp (let '(_, _) := ?x in _) => destruct x
    end ].

Lemma nwp_lift {A} (m : outc A) : nwp (lift m).
Proof. destruct m; cbn; repeat nwp_step. Qed.
Lemma nwp_rdclose rw : nwp (rdwr_close rw).
Proof. unfold rdwr_close, ask_res. repeat nwp_step. Qed.
Lemma nwp_rdopen rw : nwp (rdwr_open rw).
Proof. unfold rdwr_open, ask_res. repeat nwp_step. Qed.
Lemma nwp_rdestroy rw : nwp (rdwr_destroy rw).
Proof. unfold rdwr_destroy, ask_res. repeat nwp_step. Qed.
Lemma nwp_rdread rw n : nwp (rdwr_read rw n).
Proof. unfold rdwr_read, ask_read. repeat first [apply nwp_rdclose | nwp_step]. Qed.
Lemma nwp_finish rw : nwp (rdwr_write rw [finish_frame]).
Proof.
  unfold rdwr_write, ask_res. repeat first [apply nwp_rdclose | (apply nwp_vis; [intro; right; reflexivity|]) | nwp_step].
Qed.
Lemma nwp_tail rw c : nwp (read_control_frame_tail rw c).
Proof. unfold read_control_frame_tail, ask_unit. repeat first [apply nwp_rdread | apply nwp_lift | nwp_step]. Qed.
Lemma nwp_rcf rw c b : nwp (read_control_frame rw c b).
Proof. unfold read_control_frame. repeat first [apply nwp_tail | apply nwp_rdread | nwp_step]. Qed.
Lemma nwp_read_control rw oc t : nwp (read_control rw oc t).
Proof. unfold read_control. apply nwp_bind; [apply nwp_rcf|]. repeat nwp_step. Qed.
Lemma nwp_open_uni r : nwp (reader_open_unidirectional r).
Proof. unfold reader_open_unidirectional. cbv zeta. repeat first [apply nwp_read_control | nwp_step]. Qed.
Lemma nwp_next fuel : forall r, nwp (reader_next_data fuel r).
Proof.
  induction fuel as [|fuel IH]; intro r; [apply nwp_fail|]. cbn [reader_next_data]. unfold reader_read_be32. cbv zeta.
  repeat first [apply IH | apply nwp_rdread | apply nwp_rcf | nwp_step].
Qed.
Lemma nwp_close r : nwp (reader_close r).
Proof.
  unfold reader_close. cbv zeta. rewrite write_finish_eq.
  repeat first [apply nwp_finish | apply nwp_rdclose | nwp_step].
Qed.
Lemma nwp_destroy r : nwp (reader_destroy r).
Proof. unfold reader_destroy. repeat first [apply nwp_close | apply nwp_rdestroy | nwp_step]. Qed.

(** ** Opening *)
Lemma wok_write rw iov h : wok h -> write_fits h (QWrite (rw_h rw) iov) -> wp (rdwr_write rw iov) (fun h' _ => wok h') h.
Proof.
  intros G F. unfold rdwr_write. destruct (negb _); [exact G|]. destruct (negb _); [exact G|]. cbn. split; [exact G|].
  intros a Ha. assert (G' : wok (h ++ [(QWrite (rw_h rw) iov, a)])) by (apply wok_snoc; assumption).
  revert G'. generalize (h ++ [(QWrite (rw_h rw) iov, a)]). intros h' G'.
  destruct a; try contradiction. cbn. revert h' G'.
  change (nwp (if negb (res_eqb r r_success) then bind (rdwr_close rw) (fun z => match z with (_, rw') => Ret (r, rw') end) else Ret (r, rw))).
  repeat first [apply nwp_rdclose | nwp_step].
Qed.

Let okb : res -> bool := fun _ => true.

Lemma wok_open bi max r h ph : RI okb bi wanted max r h ph -> wok h -> wp (reader_open r) (fun h' _ => wok h') h.
Proof.
  intros RIr G. pose proof (ri_ok _ _ _ _ _ _ _ RIr) as R. pose proof (proj1 (ri_sess _ _ _ _ _ _ _ RIr)) as HI.
  unfold reader_open. cbv zeta.
  assert (GO : wp (bind (rdwr_open (r_rdwr r)) (fun z => match z with (x, rw) =>
      if negb (res_eqb x r_success) then Ret (x, set_rrdwr r rw)
      else bind (if rw_has_write (r_rdwr (set_rrdwr r rw)) then reader_open_bidirectional (set_rrdwr r rw)
                 else reader_open_unidirectional (set_rrdwr r rw))
             (fun z => match z with (x, r) => if negb (res_eqb x r_success) then Ret (x, r)
                                              else Ret (r_success, set_rstate r rs_opened) end) end))
    (fun h' _ => wok h') h).
  2:{ destruct (r_state r); try exact GO. exact G. }
  apply wp_bind_i. apply (wp_rdwr_open okb); try apply R; auto.
  2:{ intros h' x -> Hx _ _ _. unfold bind_post. rewrite Writer2_proofs.ne_eqb by assumption. cbn. apply wok_snoc; [assumption|exact I]. }
  intros h1 E1 HI1 _ Rc1. assert (G1 : wok h1) by (rewrite E1; apply wok_snoc; [assumption|exact I]). clear E1.
  unfold bind_post. cbn [res_eqb negb]. apply wp_bind_i.
  cut (wp (if rw_has_write (r_rdwr (set_rrdwr r (set_opened (r_rdwr r) true)))
       then reader_open_bidirectional (set_rrdwr r (set_opened (r_rdwr r) true))
       else reader_open_unidirectional (set_rrdwr r (set_opened (r_rdwr r) true))) (fun h' _ => wok h') h1).
  { apply wp_mono. intros h' [[x r']|f|] G'; cbn; auto. destruct (negb _); exact G'. }
  destruct (rw_has_write _); [|apply nwp_open_uni; exact G1].
  unfold reader_open_bidirectional. cbv zeta. apply wp_bind_i.
  eapply wp_mono; [|apply wp_and; [|apply (nwp_read_control _ _ _ h1 G1)]].
  2:{ apply (wp_read_control okb) with (Q := fun h' o => match o with
        | Done (x, c, rw) => x = r_success -> exists cts, c = Some (mk_control T_READY cts) /\ ctl_ok T_READY cts /\ received h' = ctl_frame T_READY cts
        | _ => True end); cbn [set_rrdwr r_rdwr set_opened rw_has_close rw_has_read]; try apply R; auto.
      - intros h' cts _ _ _ K E _. rewrite Rc1 in E. eauto.
      - intros h' x c' rw' Hx _ _ _ E. contradiction. }
  intros h2 [[[x c] rw2]|f|] [H2 G2]; cbn [bind_post]; auto.
  destruct (res_eqb x r_success) eqn:Ex; cbn [negb]; [|exact G2].
  apply res_eqb_true in Ex. destruct (H2 Ex) as (cts & -> & K & Rc2). clear H2.
  cbn [set_rready set_rrdwr r_accept].
  set (acc0 := match r_accept r with Some a => control_reset a | None => control_init end).
  assert (E0 : acc0 = mk_control 0 []) by (unfold acc0; destruct (r_accept r); reflexivity).
  rewrite E0. unfold control_set_type. change (type_known FSTRM_CONTROL_ACCEPT) with true. cbn iota.
  rewrite accept_loop_eq. cbn [c_type c_cts app]. cbn [set_raccept set_rready set_rrdwr r_cts r_rdwr].
  rewrite (ro_want _ _ _ _ R). apply wp_bind_i. rewrite write_control_frame_eq. cbn [c_type c_cts].
  cut (wp (rdwr_write rw2 [ctl_frame FSTRM_CONTROL_ACCEPT (visible FSTRM_CONTROL_ACCEPT
          (filter (ready_accepts (mk_control T_READY cts)) wanted))]) (fun h' _ => wok h') h2).
  { intro WR. destruct (encodable _ _ _); [|exact G2].
    eapply wp_mono; [|exact WR]. intros h3 [[y rw3]|f|] G3; cbn [bind_post]; auto.
    destruct (negb _); [exact G3|]. apply nwp_open_uni. exact G3. }
  apply wok_write; [exact G2|]. left. exists cts, (filter (ready_accepts (mk_control T_READY cts)) wanted).
  split; [exact K|]. split; [exact Rc2|]. split; [apply answer_filter; exact K|].
  cbn [concat]. rewrite app_nil_r. reflexivity.
Qed.

Lemma wok_maybe bi max r h ph : RI okb bi wanted max r h ph -> wok h -> wp (reader_maybe_open r) (fun h' _ => wok h') h.
Proof.
  intros RIr G. unfold reader_maybe_open. destruct (r_state r); try exact G.
  apply wp_bind_i. eapply wp_mono; [|eapply wok_open; eassumption].
  intros h' [[x r']|f|] G'; cbn; auto. destruct (negb _); exact G'.
Qed.

Lemma wok_rcall bi max fuel r c h ph : RI okb bi wanted max r h ph -> wok h -> wp (do_rcall fuel r c) (fun h' _ => wok h') h.
Proof.
  intros RIr G. destruct c; cbn [do_rcall].
  - apply wp_bind_i. eapply wp_mono; [|eapply wok_open; eassumption]. intros h' [[x r']|f|] G'; exact G'.
  - unfold reader_read. apply wp_bind_i. eapply wp_mono; [|eapply wok_maybe; eassumption].
    intros h' [[x r']|f|] G'; cbn [bind_post]; auto. revert h' G'.
    match goal with |- forall h', _ -> wp ?p _ _ => change (nwp p) end. repeat first [apply nwp_next | nwp_step].
  - apply wp_bind_i. eapply wp_mono; [|apply (nwp_close r h G)]. intros h' [[x r']|f|] G'; exact G'.
  - unfold reader_get_control. apply wp_bind_i, wp_bind_i. eapply wp_mono; [|eapply wok_maybe; eassumption].
    intros h' [[x r']|f|] G'; cbn [bind_post]; auto.
    repeat match goal with |- context [if ?b then _ else _] => destruct b end; exact G'.
Qed.

Lemma wok_rcalls bi max fuel cs : forall r h ph, RI okb bi wanted max r h ph -> wok h ->
  wp (do_rcalls fuel r cs) (fun h' _ => wok h') h.
Proof.
  induction cs as [|c cs IH]; intros r h ph RIr G; [exact G|].
  cbn [do_rcalls]. apply wp_bind_i.
  eapply wp_mono; [|apply wp_and; [|eapply (wok_rcall _ _ fuel _ c); eassumption]].
  2:{ eapply wp_rcall with (okb := okb) (Q := fun h' o => match o with Done (_, r') => exists ph', RI okb bi wanted max r' h' ph' | _ => True end);
        try eassumption; auto. intros h' x r' ph' I' _. destruct x. exists ph'. exact I'. }
  intros h' [[[x d] r']|f|] [H G']; cbn [bind_post]; auto. destruct H as (ph' & I').
  apply wp_bind_i. eapply wp_mono; [|eapply IH; eassumption].
  intros h2 [[xs r2]|f|] G2; exact G2.
Qed.

End Writes.

Lemma reader_writes o rw r fuel cs tr out : fresh_rdwr rw -> reader_init o rw = Some r ->
  runs (reader_life fuel r cs) tr out -> wok (ro_cts o) tr.
Proof.
  intros F H R. revert tr out R. apply wp_runs. unfold reader_life. apply wp_bind_i.
  eapply wp_mono; [|eapply wok_rcalls; [eapply RI_init; eassumption|]].
  2:{ intros tr1 hd iov a tr2 E. destruct tr1; discriminate. }
  intros h' [[xs r']|f|] G; cbn [bind_post]; auto. apply wp_bind_i.
  eapply wp_mono; [|apply (nwp_destroy _ r' h' G)]. intros h2 [x|f|] G2; exact G2.
Qed.

(** fstrm_dump never has written more than it has read when it reads. *)
From Verif Require Import Bytes Spec Bytes_proofs Io Io_proofs SpecTrace SpecStream Control Control_proofs Rdwr Rdwr_proofs Reader Writer File
  Misc Tools SpecTools Messages SpecMessages Stdio InPlace Tools_proofs Tools2_proofs Messages_proofs InPlace_proofs.
Ltac Zify.zify_post_hook ::= Z.div_mod_to_equations.
Local Open Scope nat_scope.

Definition rd0 (rw : rdwr) : Prop := same_ops (file_reader_rdwr 0) rw.
Definition wr1 (rw : rdwr) : Prop := same_ops (file_writer_rdwr 1) rw.
Lemma rd0_set rw b : rd0 rw -> rd0 (set_opened rw b).
Proof. intros [x ->]. exists b. reflexivity. Qed.
Lemma wr1_set rw b : wr1 rw -> wr1 (set_opened rw b).
Proof. intros [x ->]. exists b. reflexivity. Qed.

(** Calls that neither read, write nor open. *)
Lemma thr_rclose rw st c w (Q : nat -> nat -> nat -> res * rdwr -> Prop) : rd0 rw -> (forall x rw', rd0 rw' -> Q st c w (x, rw')) -> thr st c w (rdwr_close rw) Q.
Proof.
  intros [b ->] H. unfold rdwr_close. cbn [set_opened file_reader_rdwr rw_has_close negb rw_opened].
  destruct b; cbn [bind thr ask_res rw_h]; [|apply H; eexists; reflexivity].
  intros []; cbn [bind thr]; try exact I. apply H. eexists; reflexivity.
Qed.
Lemma thr_wclose rw st c w (Q : nat -> nat -> nat -> res * rdwr -> Prop) : wr1 rw -> (forall x rw', wr1 rw' -> Q st c w (x, rw')) -> thr st c w (rdwr_close rw) Q.
Proof.
  intros [b ->] H. unfold rdwr_close. cbn [set_opened file_writer_rdwr rw_has_close negb rw_opened].
  destruct b; cbn [bind thr ask_res rw_h]; [|apply H; eexists; reflexivity].
  intros []; cbn [bind thr]; try exact I. apply H. eexists; reflexivity.
Qed.
Lemma thr_destroy rw st c w (Q : nat -> nat -> nat -> res -> Prop) : (forall x, Q st c w x) -> thr st c w (rdwr_destroy rw) Q.
Proof.
  intro H. unfold rdwr_destroy. destruct (rw_has_destroy rw); [|apply H]. cbn [thr ask_res bind].
  intros []; cbn [thr]; auto.
Qed.

Lemma thr_read rw n st c w (Q : nat -> nat -> nat -> res * bytes * rdwr -> Prop) : rd0 rw -> w <= c -> (st < 2 -> c + N.to_nat n <= 520) ->
  (forall bs, lenN bs = n -> Q st (c + length bs) w (r_success, bs, rw)) ->
  (forall x rw', x <> r_success -> rd0 rw' -> Q st c w (x, [], rw')) -> thr st c w (rdwr_read rw n) Q.
Proof.
  intros R WC C5 HS HF. assert (R' := R). destruct R' as [b ->]. unfold rdwr_read. cbn [set_opened file_reader_rdwr rw_opened rw_has_read negb].
  destruct b; cbn [negb]; [|apply HF; [discriminate|eexists; reflexivity]].
  cbn [thr bind ask_read rw_h]. split; [exact WC|]. split; [exact C5|]. split.
  - intros bs L. cbn [bind thr res_eqb negb]. apply (HS bs L).
  - intros [r|r bs|t|e|bo|] Ha; cbn [bind thr]; try exact I. destruct (res_eqb r r_success) eqn:E; cbn [negb].
    + apply res_eqb_true in E. subst. exfalso. exact (Ha bs eq_refl).
    + apply thr_bind, thr_rclose; [exact R|]. intros x rw' R'. cbn [thr]. apply HF; [intros ->; discriminate E|exact R'].
Qed.

Lemma thr_write rw iov st c w (Q : nat -> nat -> nat -> res * rdwr -> Prop) : wr1 rw ->
  (forall x rw' w', wr1 rw' -> w' <= w + length (concat iov) -> Q st c w' (x, rw')) -> thr st c w (rdwr_write rw iov) Q.
Proof.
  intros R H. assert (R' := R). destruct R' as [b ->]. unfold rdwr_write. cbn [set_opened file_writer_rdwr rw_opened rw_has_write negb].
  destruct b; cbn [negb]; [|apply H; [eexists; reflexivity|lia]].
  cbn [thr bind ask_res rw_h]. intros [r|r bs|t|e|bo|]; cbn [bind thr]; try exact I.
  destruct (negb _); [|apply H; [exact R|lia]].
  apply thr_bind, thr_wclose; [exact R|]. intros x rw' R'. cbn [thr]. apply H; [exact R'|lia].
Qed.

(** ** Control frames *)
Definition csize (x : control) : nat := length (ctl_frame (c_type x) (c_cts x)).

Lemma len_frame t cts : length (ctl_frame t cts) = 8 + length (ctl_payload t cts).
Proof. unfold ctl_frame. rewrite !app_length, !length_be32. lia. Qed.

Lemma thr_tail rw ctl st c w (Q : nat -> nat -> nat -> _ -> Prop) : rd0 rw -> w <= c -> (st < 2 -> c <= 4) ->
  (forall c' t x rw', rd0 rw' -> ctl_ok (c_type x) (c_cts x) -> c' = c - 4 + csize x -> 4 <= c -> t = Some (c_type x) ->
     Q st c' w (r_success, t, x, rw')) ->
  (forall r c' t x rw', r <> r_success -> rd0 rw' -> c <= c' -> Q st c' w (r, t, x, rw')) ->
  4 <= c -> thr st c w (read_control_frame_tail rw ctl) Q.
Proof.
  intros R WC C4 HS HF C0. unfold read_control_frame_tail. apply thr_bind, thr_read; auto; [lia| |].
  2:{ intros x rw' NE R'. destruct (res_eqb x r_success) eqn:E; [apply res_eqb_true in E; contradiction|]. cbn [negb thr]. apply HF; auto. }
  intros b Lb. cbn [res_eqb negb]. assert (Lb4 : length b = 4) by (unfold lenN in Lb; lia). rewrite Lb4.
  destruct (FSTRM_CONTROL_FRAME_LENGTH_MAX <? ntohl_bytes b)%N eqn:EL; [cbn [thr]; apply HF; auto; [discriminate|lia]|].
  unfold FSTRM_CONTROL_FRAME_LENGTH_MAX in EL.
  assert (G : thr st (c + 4) w (bind (rdwr_read rw (ntohl_bytes b)) (fun z => match z with (r, frame, rw) =>
    if negb (res_eqb r r_success) then Ret (r, None, ctl, rw)
    else bind (lift (control_decode ctl frame (ntohl_bytes b) 0)) (fun z => match z with (r, c') =>
      if negb (res_eqb r r_success) then Ret (r, None, c', rw)
      else match control_get_type c' with
           | (r_success, t) => Ret (r_success, t, c', rw)
           | (r, t) => Ret (r, t, c', rw) end end) end)) Q).
  { apply thr_bind, thr_read; [exact R|lia| | |].
    - intro S2. specialize (C4 S2). lia.
    - intros fr Lf. cbn [res_eqb negb]. rewrite <- Lf.
      destruct (decode_noheader ctl fr) as (r & c' & E & [->| ->] & OK); rewrite E; cbn [lift bind res_eqb negb].
      + destruct (OK eq_refl) as [K EF]. rewrite (get_type_ok _ (ok_type _ _ K)). cbn [thr]. apply HS; auto.
        unfold csize. rewrite len_frame, <- EF. lia.
      + cbn [thr]. apply HF; auto; [discriminate|lia].
    - intros x rw' NE R'. destruct (res_eqb x r_success) eqn:E; [apply res_eqb_true in E; contradiction|]. cbn [negb thr]. apply HF; auto. lia. }
  destruct (ntohl_bytes b =? 0)%N; [|exact G].
  cbn [thr bind ask_unit]. destruct R as [bb ->]. cbn [set_opened file_reader_rdwr rw_h] in *. intros []; cbn [thr bind]; try exact I. exact G.
Qed.

Lemma thr_control rw oc t w (Q : nat -> nat -> nat -> _ -> Prop) : rd0 rw -> w = 0 ->
  (forall x rw', rd0 rw' -> ctl_ok t (c_cts x) -> c_type x = t -> Q 1 (csize x) w (r_success, Some x, rw')) ->
  (forall r c' x rw', r <> r_success -> rd0 rw' -> Q 1 c' w (r, x, rw')) ->
  thr 1 0 w (read_control rw oc t) Q.
Proof.
  intros R W0 HS HF. unfold read_control, read_control_frame. apply thr_bind, thr_bind, thr_read; [exact R|lia|cbn; lia| |].
  2:{ intros x rw' NE R'. destruct (res_eqb x r_success) eqn:E; [apply res_eqb_true in E; contradiction|]. cbn [negb thr].
      rewrite E. cbn [negb thr]. apply HF; auto. }
  intros b Lb. cbn [res_eqb negb]. assert (Lb4 : length b = 4) by (unfold lenN in Lb; lia). rewrite Lb4.
  destruct (negb _); [cbn [thr res_eqb negb]; apply HF; auto; discriminate|].
  apply thr_tail; auto; try lia.
  - intros c' t' x rw' R' K EC _ ->. cbn [res_eqb negb]. destruct (negb _) eqn:E; cbn [thr].
    + apply HF; auto. discriminate.
    + apply Bool.negb_false_iff, N.eqb_eq in E. rewrite EC. apply HS; auto. rewrite <- E. exact K.
  - intros r c' t' x rw' NE R' _. destruct (res_eqb r r_success) eqn:E; [apply res_eqb_true in E; contradiction|]. cbn [negb thr]. apply HF; auto.
Qed.

(** ** The reader *)
Record rok (r : reader) : Prop := { ro_ops : rd0 (r_rdwr r); ro_cts0 : r_cts r = [] }.

Lemma thr_ropen r (Q : nat -> nat -> nat -> res * reader -> Prop) : rok r -> r_state r = rs_opening ->
  (forall x r', rok r' -> ctl_ok T_START (c_cts x) -> c_type x = T_START -> r_state r' = rs_opened -> r_start r' = Some x ->
     Q 1 (csize x) 0 (r_success, r')) ->
  (forall y c' r', y <> r_success -> rok r' -> Q 1 c' 0 (y, r')) ->
  thr 0 0 0 (reader_open r) Q.
Proof.
  intros [R C] S HS HF. unfold reader_open. rewrite S. unfold rdwr_open.
  assert (R' := R). destruct R' as [b E]. rewrite E. cbn [set_opened file_reader_rdwr rw_has_open negb rw_h]. rewrite <- E.
  unfold ask_res. cbn [bind thr]. split; [reflexivity|]. intros [y|? ?|?|?|?|]; cbn [bind thr]; try exact I.
  destruct (res_eqb y r_success) eqn:Ey; cbn [bind].
  2:{ rewrite Ey. cbn [negb thr]. apply HF; [intros ->; discriminate Ey|]. split; [exact R|exact C]. }
  rewrite Ey. cbn [negb]. unfold set_rrdwr. cbn [r_rdwr]. assert (R1 := rd0_set _ true R). assert (R2 := R1). destruct R2 as [b2 E2].
  cbn [set_opened file_reader_rdwr rw_has_write] in *. rewrite E. cbn [set_opened file_reader_rdwr rw_has_write].
  apply thr_bind. unfold reader_open_unidirectional. cbn [r_rdwr r_start r_cts].
  apply thr_bind, thr_control; auto.
  - eexists. reflexivity.
  - intros x rw' R3 K T. cbn [res_eqb negb set_rstart set_rrdwr r_cts]. rewrite C. cbn [start_match_loop negb thr res_eqb].
    apply HS; auto. split; [exact R3|cbn; auto].
  - intros z c' x rw' NE R3. destruct (res_eqb z r_success) eqn:Ez; [apply res_eqb_true in Ez; contradiction|]. cbn [negb thr]. rewrite Ez. cbn [negb thr].
    apply HF; [exact NE|]. split; [exact R3|cbn; auto].
Qed.

Lemma thr_next fuel : forall r st c w (Q : nat -> nat -> nat -> _ -> Prop), rok r -> w <= c -> 2 <= st ->
  (forall c' data r', rok r' -> c + 4 + length data <= c' -> r_state r' = r_state r -> Q st c' w (r_success, Some data, r')) ->
  (forall x c' d r', x <> r_success \/ d = None -> rok r' -> r_state r' <> rs_opening -> c <= c' -> Q st c' w (x, d, r')) ->
  thr st c w (reader_next_data fuel r) Q.
Proof.
  induction fuel as [|fuel IH]; intros r st c w Q R WC S2 HS HF; cbn [reader_next_data]; [exact I|].
  unfold reader_read_be32. apply thr_bind, thr_bind, thr_read; [apply R|exact WC|lia| |].
  2:{ intros x rw' NE R'. destruct (res_eqb x r_success) eqn:E; [apply res_eqb_true in E; contradiction|].
      cbn [negb thr ]. rewrite E. cbn [negb thr]. apply HF; [auto|split; [exact R'|apply R]|discriminate|lia]. }
  intros b Lb. assert (Lb4 : length b = 4) by (unfold lenN in Lb; lia). cbn [thr res_eqb negb]. rewrite Lb4.
  set (r1 := set_rrdwr r (r_rdwr r)). assert (R1 : rok r1) by (split; apply R).
  destruct (negb (ntohl_bytes b =? 0)%N).
  - destruct (_ <? _)%N; [cbn [thr]; apply HF; [auto|split; apply R|discriminate|lia]|].
    destruct (reserve_loop _ _ _) as [al|]; [|exact I]. destruct (al <? _)%N; [exact I|].
    apply thr_bind, thr_read; [apply R1|lia|lia| |].
    + intros dt Ld. cbn [thr res_eqb negb]. apply HS; [split; apply R|lia|reflexivity].
    + intros x rw' NE R'. destruct (res_eqb x r_success) eqn:E; [apply res_eqb_true in E; contradiction|]. cbn [negb thr].
      apply HF; [auto|split; [exact R'|apply R]|discriminate|lia].
  - apply thr_bind. unfold read_control_frame. apply thr_tail; [apply R1|lia|lia| | |lia].
    + intros c' t x rw' R' K EC _ ->. cbn [res_eqb negb].
      destruct (_ =? _)%N.
      * cbn [thr]. apply HF; [left; discriminate|split; [exact R'|apply R]|discriminate|unfold csize in EC; rewrite len_frame in EC; lia].
      * assert (c <= c') by (unfold csize in EC; rewrite len_frame in EC; lia).
        apply IH; [split; [exact R'|apply R]|lia|lia| |].
        -- intros c2 dt r' R2 L2 Es. apply HS; [exact R2|lia|exact Es].
        -- intros y c2 dd r' O R2 S3 L2. apply HF; [exact O|exact R2|exact S3|lia].
    + intros y c' t x rw' NE R' L. destruct (res_eqb y r_success) eqn:E; [apply res_eqb_true in E; contradiction|]. cbn [negb thr].
      apply HF; [auto|split; [exact R'|apply R]|discriminate|lia].
Qed.

Lemma thr_rread fuel r st c w (Q : nat -> nat -> nat -> _ -> Prop) : rok r -> w <= c -> 2 <= st -> r_state r <> rs_opening ->
  (forall c' data r', rok r' -> c + 4 + length data <= c' -> r_state r' = r_state r -> Q st c' w (r_success, Some data, r')) ->
  (forall x c' d r', x <> r_success \/ d = None -> rok r' -> r_state r' <> rs_opening -> c <= c' -> Q st c' w (x, d, r')) ->
  thr st c w (reader_read fuel r) Q.
Proof.
  intros R WC S2 NO HS HF. unfold reader_read, reader_maybe_open. destruct (r_state r) eqn:ES; try contradiction; cbn [bind res_eqb negb thr]; rewrite ?ES; cbn [thr].
  - apply thr_next; auto. rewrite ES. exact HS.
  - apply HF; auto; try (left; discriminate); rewrite ES; discriminate.
  - apply HF; auto; try (left; discriminate); rewrite ES; discriminate.
  - apply HF; auto; try (left; discriminate); rewrite ES; discriminate.
Qed.

Lemma thr_rdestroy r st c w (Q : nat -> nat -> nat -> res -> Prop) : rok r -> (forall x, Q st c w x) -> thr st c w (reader_destroy r) Q.
Proof.
  intros R H. unfold reader_destroy. apply thr_bind.
  assert (Fin : forall x r', thr st c w (bind (rdwr_destroy (r_rdwr r')) (fun _ => Ret x)) Q).
  { intros x r'. apply thr_bind, thr_destroy. intro y. apply H. }
  assert (Cl : thr st c w (reader_close r) (fun st c w a => thr st c w (let (x, r) := a in bind (rdwr_destroy (r_rdwr r)) (fun _ => Ret x)) Q)).
  { unfold reader_close. destruct (r_state r); try (cbn [thr]; apply Fin).
    - cbn [set_rstate r_rdwr]. assert (R' := ro_ops _ R). destruct R' as [b E]. rewrite E. cbn [set_opened file_reader_rdwr rw_has_write].
      apply thr_bind, thr_rclose; [eexists; reflexivity|]. intros x rw' _. cbn [thr]. apply Fin.
    - cbn [set_rstate r_rdwr]. assert (R' := ro_ops _ R). destruct R' as [b E]. rewrite E. cbn [set_opened file_reader_rdwr rw_has_write].
      apply thr_bind, thr_rclose; [eexists; reflexivity|]. intros x rw' _. cbn [thr]. apply Fin. }
  destruct (r_state r); try exact Cl; cbn [thr]; apply Fin.
Qed.

(** ** The writer *)
Lemma thr_wcf rw x st c w (Q : nat -> nat -> nat -> res * rdwr -> Prop) : wr1 rw ->
  (forall y rw' w', wr1 rw' -> w' <= w + length (ctl_frame (c_type x) (visible (c_type x) (c_cts x))) -> Q st c w' (y, rw')) ->
  thr st c w (write_control_frame rw x) Q.
Proof.
  intros R H. rewrite write_control_frame_eq. destruct (encodable _ _ _); [|cbn [thr]; apply H; [exact R|lia]].
  apply thr_write; [exact R|]. intros y rw' w' R' L. cbn [concat] in L. rewrite app_nil_r in L. apply H; assumption.
Qed.

Lemma thr_wopen w0 st c w k (Q : nat -> nat -> nat -> res * writer -> Prop) : wr1 (w_rdwr w0) -> w_state w0 = ws_opening -> w_start w0 = None ->
  1 <= c -> length (ctl_frame T_START (firstn 1 (w_cts w0))) <= k ->
  (forall w' wr', wr1 (w_rdwr wr') -> w_state wr' = ws_opened -> w' <= k -> Q 2 c w' (r_success, wr')) ->
  (forall x st' w' wr', x <> r_success -> wr1 (w_rdwr wr') -> w_state wr' = ws_opening -> Q st' c w' (x, wr')) ->
  thr st c w (writer_open w0) Q.
Proof.
  intros R S N0 C1 LK HS HF. unfold writer_open. rewrite S. unfold rdwr_open.
  assert (R' := R). destruct R' as [b E]. rewrite E. cbn [set_opened file_writer_rdwr rw_has_open negb rw_h]. rewrite <- E.
  unfold ask_res. cbn [bind thr]. split; [exact C1|].
  assert (R1 : wr1 (set_opened (w_rdwr w0) true)) by (apply wr1_set; exact R).
  split.
  - cbn [res_eqb bind negb set_wrdwr w_rdwr]. assert (R2 := R1). destruct R2 as [b2 E2]. rewrite E2. cbn [set_opened file_writer_rdwr rw_has_read]. rewrite <- E2.
    apply thr_bind. unfold writer_open_unidirectional, writer_send_start. cbn [w_start w_cts w_rdwr set_wrdwr]. rewrite N0.
    change (control_set_type (reset_or_init None) FSTRM_CONTROL_START) with (r_success, mk_control T_START []). cbn [set_wstart w_rdwr].
    apply thr_bind, thr_wcf; [exact R1|]. intros y rw' w' R3 L.
    assert (L' : w' <= k).
    { destruct (w_cts w0) as [|ct cts]; exact (Nat.le_trans _ _ _ L LK). }
    destruct (res_eqb y r_success) eqn:Ey; cbn [negb thr]; rewrite ?Ey; cbn [res_eqb negb thr].
    + apply HS; auto.
    + apply HF; auto. intros ->. discriminate Ey.
  - intros [y|? ?|?|?|?|] NA; cbn [bind thr]; try exact I. destruct (res_eqb y r_success) eqn:Ey.
    + apply res_eqb_true in Ey. subst. congruence.
    + cbn [bind]. rewrite Ey. cbn [negb thr]. apply HF; [intros ->; discriminate Ey|exact R|exact S].
Qed.

Lemma thr_wwrite w0 data st c w (Q : nat -> nat -> nat -> res * writer -> Prop) : wr1 (w_rdwr w0) -> w_state w0 = ws_opened ->
  (forall x w' wr', wr1 (w_rdwr wr') -> w_state wr' = ws_opened -> w' <= w + 4 + length data -> Q st c w' (x, wr')) ->
  thr st c w (writer_write w0 data) Q.
Proof.
  intros R S H. unfold writer_write, writer_writev, writer_maybe_open. rewrite S. cbn [bind res_eqb negb]. rewrite S.
  change (2 ^ 31 <=? 2 * lenN [data])%N with false. change (2 * length [data] <=? FSTRM__WRITER_IOVEC_SIZE) with true. cbv iota.
  unfold write_iov. change (FSTRM__WRITER_IOVEC_SIZE <? 2 * length [data]) with false. cbv iota.
  apply thr_bind, thr_write; [exact R|]. intros x rw' w' R' L. cbn [thr]. apply H; [exact R'|exact S|].
  cbn [frame_iovecs concat] in L. rewrite app_nil_r, app_length in L. change (length (htonl_bytes (lenN data))) with 4 in L. unfold bytes in *. lia.
Qed.

Lemma thr_wclosew w0 st c w (Q : nat -> nat -> nat -> res * writer -> Prop) : wr1 (w_rdwr w0) ->
  (forall x w' wr', wr1 (w_rdwr wr') -> Q st c w' (x, wr')) -> thr st c w (writer_close w0) Q.
Proof.
  intros R H. unfold writer_close. destruct (w_state w0); try (cbn [thr]; apply H; exact R).
  unfold write_control. cbn [set_wstate w_rdwr].
  change (control_set_type control_init FSTRM_CONTROL_STOP) with (r_success, mk_control T_STOP []). cbv iota.
  apply thr_bind, thr_wcf; [exact R|]. intros y rw' w' R' _. destruct (negb _).
  - apply thr_bind, thr_wclose; [exact R'|]. intros x rw2 R2. cbn [thr]. apply H. exact R2.
  - assert (R3 := R'). destruct R3 as [b E]. rewrite E. cbn [set_opened file_writer_rdwr rw_has_read]. 
    apply thr_bind, thr_wclose; [eexists; reflexivity|]. intros x rw2 R2. cbn [thr]. apply H. exact R2.
Qed.
Lemma thr_wdestroy w0 st c w (Q : nat -> nat -> nat -> res -> Prop) : wr1 (w_rdwr w0) -> (forall x w', Q st c w' x) -> thr st c w (writer_destroy w0) Q.
Proof.
  intros R H. unfold writer_destroy. apply thr_bind.
  assert (Fin : forall x w' wr', thr st c w' (bind (rdwr_destroy (w_rdwr wr')) (fun _ => Ret x)) Q).
  { intros x w' r'. apply thr_bind, thr_destroy. intro y. apply H. }
  destruct (w_state w0); try (cbn [thr]; apply Fin). apply thr_wclosew; [exact R|]. intros. apply Fin.
Qed.

(** ** fstrm_dump *)
Definition any {A} : nat -> nat -> nat -> A -> Prop := fun _ _ _ _ => True.

Lemma thr_cleanup rv r w0 log st c w : rok r -> (forall x, w0 = Some x -> wr1 (w_rdwr x)) -> thr st c w (dump_say_cleanup rv r w0 log) any.
Proof.
  intros R W. unfold dump_say_cleanup. apply thr_bind, thr_rdestroy; [exact R|]. intros _. destruct w0 as [x|]; [|exact I].
  apply thr_bind, thr_wclosew; [apply W; reflexivity|]. intros y w' wr' W'. apply thr_bind, thr_wdestroy; [exact W'|]. intros z w2.
  destruct (negb _); exact I.
Qed.

Lemma thr_loop fuel rfuel : forall r w0 log c w, rok r -> r_state r = rs_opened -> wr1 (w_rdwr w0) -> w_state w0 = ws_opened -> w <= c ->
  thr 2 c w (dump_say_loop fuel rfuel r (Some w0) log)
    (fun _ _ _ z => match z with (_, _, r, w0) => rok r /\ forall x, w0 = Some x -> wr1 (w_rdwr x) end).
Proof.
  induction fuel as [|fuel IH]; intros r w0 log c w R RS W WS LE; cbn [dump_say_loop]; [exact I|].
  apply thr_bind, thr_rread; [exact R|exact LE|lia|rewrite RS; discriminate| |].
  - intros c' data r' R' L ES. cbv zeta. apply thr_bind, thr_wwrite; [exact W|exact WS|].
    intros x w' wr' W' WS' LW. destruct (negb _).
    + cbn [thr]. split; [exact R'|]. intros ? [= <-]. exact W'.
    + apply IH; auto; [congruence|lia].
  - intros x c' dt r' O R' NO L.
    assert (Fin : forall (b : bool) (l : list said) r2, rok r2 -> thr 2 c' w (Ret (b, l, r2, Some w0)) (fun _ _ _ z => match z with (_, _, r, w0) => rok r /\ forall x, w0 = Some x -> wr1 (w_rdwr x) end)).
    { intros b l r2 R2. cbn [thr]. split; [exact R2|]. intros ? [= <-]. exact W. }
    destruct x; try (apply Fin; exact R').
    + destruct dt; [|exact I]. destruct O as [O|O]; congruence.
    + unfold say_stop_frame. apply thr_bind, thr_bind. unfold reader_get_control, reader_maybe_open.
      destruct (r_state r'); try contradiction; cbn [bind res_eqb negb thr N.eqb]; apply Fin; exact R'.
Qed.

Lemma thr_dump fuel iovm : thr 0 0 0 (dump_say fuel iovm true) any.
Proof.
  unfold dump_say. destruct (reader_init reader_options_default (file_reader_rdwr 0)) as [r|] eqn:EI; [|exact I].
  injection EI as <-. apply thr_bind, thr_ropen; [split; [eexists; reflexivity|reflexivity]|reflexivity| |].
  2:{ intros y c' r' NE R. destruct (res_eqb y r_success) eqn:E; [apply res_eqb_true in E; contradiction|]. cbn [negb].
      apply thr_cleanup; [exact R|discriminate]. }
  intros x r' R K T RS X. cbn [res_eqb negb].
  assert (C1 : 1 <= csize x) by (unfold csize; rewrite len_frame; lia).
  destruct x as [t st]. cbn [c_type c_cts] in *. subst t.
  assert (ST : say_start_frame r' (Some []) = Ret (r_success, Some st, r', say_start st)).
  { unfold say_start_frame, reader_get_control, reader_maybe_open. rewrite RS. cbn [bind res_eqb negb].
    change (FSTRM_CONTROL_START =? FSTRM_CONTROL_START)%N with true. cbn [bind]. rewrite X. cbn [res_eqb negb].
    pose proof (ok_start _ _ K eq_refl) as L. pose proof (ok_len _ _ K) as CT.
    destruct st as [|ct [|? ?]]; cbn [length] in L; try lia; [reflexivity|].
    apply Forall_inv in CT.
    change (control_get_num (mk_control T_START [ct])) with (r_success, 1). cbn [res_eqb negb].
    change (0 <? 1) with true. cbn iota. change (control_get_field (mk_control T_START [ct]) 0) with (r_success, Some ct).
    cbn [res_eqb negb]. unfold writer_options_add_content_type.
    unfold CT_MAX, FSTRM_CONTROL_FIELD_CONTENT_TYPE_LENGTH_MAX in *. destruct (256 <? lenN ct)%N eqn:E1; [lia|]. reflexivity. }
  rewrite ST. cbn [bind res_eqb negb].
  destruct (writer_init iovm st (file_writer_rdwr 1)) as [w0|] eqn:EW; [|apply thr_cleanup; [exact R|discriminate]].
  injection EW as <-. unfold csize in *. cbn [c_type c_cts] in *.
  apply thr_bind, thr_wopen with (k := length (ctl_frame T_START st)); cbn [w_rdwr w_state w_start w_cts]; auto.
  - eexists. reflexivity.
  - pose proof (ok_start _ _ K eq_refl) as L. rewrite firstn_all2 by exact L. lia.
  - intros w' wr' W' WS L. cbn [res_eqb negb]. apply thr_bind. eapply thr_mono; [|apply thr_loop; auto].
    intros st' c' w2 [[[rv log] r2] w3] [R2 W3]. cbn beta iota. apply thr_cleanup; assumption.
  - intros y st' w' wr' NE W' WS. destruct (res_eqb y r_success) eqn:E; [apply res_eqb_true in E; contradiction|]. cbn [negb].
    apply thr_bind, thr_wdestroy; [exact W'|]. intros _ w2. apply thr_cleanup; [exact R|discriminate].
Qed.

(** ** The file afterwards *)
Lemma dump_in_place B D d fuel iovm : 520 <= B ->
  let (s, o) := exec (shared_ops B D) (shared_init d) (dump_say fuel iovm true) in
  let (f, o') := exec (disk_ops D) (disk_init d) (on_files 0 [input (firstn B d)] (dump_say fuel iovm true)) in
  sh_w s = f /\ same_out B d o o'.
Proof.
  intro HB. pose proof (lock B HB D d (dump_say fuel iovm true) any 0 0 0 (shared_init d) (input (head B d)) (thr_dump fuel iovm) (inv_init B d)) as L.
  change (sh_w (shared_init d)) with (disk_init d) in L. unfold head in L.
  destruct (exec (shared_ops B D) (shared_init d) (dump_say fuel iovm true)) as [s o].
  destruct (exec (disk_ops D) (disk_init d) (on_files 0 [input (firstn B d)] (dump_say fuel iovm true))) as [f o']. exact L.
Qed.

From Verif Require Import Bytes Spec Bytes_proofs Io Io_proofs SpecTrace SpecStream
  Control Control_proofs Rdwr Rdwr_proofs Writer Api SpecApi Writer_proofs Writer2_proofs SpecDeliver SpecPair Pair.
From Coq Require Import Lia.
Local Open Scope N_scope.

Definition link_step (b : bool) (e : event) : bool :=
  match e with (QOpen _, ARes r_success) => true | (QClose _, _) => false | _ => b end.
Definition linked (h : trace) : bool := fold_left link_step h false.

Record At (h : trace) (s r : bytes) (l : bool) : Prop := {
  at_s : sent h = s; at_r : received h = r; at_l : linked h = l; at_a : l = true -> attempted h <> [] }.

Lemma att_snoc h e : attempted (h ++ [e]) = sess_step (fun _ => true) (attempted h) e.
Proof. apply sessions_snoc. Qed.
Lemma rec_snoc h e : received (h ++ [e]) = in_step (received h) e.
Proof. apply received_snoc. Qed.
Lemma link_snoc h e : linked (h ++ [e]) = link_step (linked h) e.
Proof. unfold linked. rewrite fold_left_app. reflexivity. Qed.

Lemma at_open h s r n : At h s r false -> At (h ++ [(QOpen n, ARes r_success)]) [] [] true.
Proof.
  intros [_ _ _ _]. split.
  - unfold sent. rewrite att_snoc. apply last_last.
  - rewrite rec_snoc. reflexivity.
  - rewrite link_snoc. reflexivity.
  - intros _. rewrite att_snoc. cbn. intro E. apply app_eq_nil in E as [_ E]. discriminate E.
Qed.
Lemma at_write h s r n iov : At h s r true -> At (h ++ [(QWrite n iov, ARes r_success)]) (s ++ concat iov) r true.
Proof.
  intros [A B C D]. specialize (D eq_refl). destruct (exists_last D) as (ss & x & E). split.
  - unfold sent in *. rewrite att_snoc. cbn [sess_step]. rewrite E in *. rewrite last_last in A.
    rewrite add_last_snoc, last_last, A. reflexivity.
  - rewrite rec_snoc. exact B.
  - rewrite link_snoc. exact C.
  - intros _. rewrite att_snoc. cbn [sess_step]. rewrite E, add_last_snoc. intro E2. apply app_eq_nil in E2 as [_ E2]. discriminate E2.
Qed.
Lemma at_read h s r n k bs : At h s r true -> At (h ++ [(QRead n k, ARead r_success bs)]) s (r ++ bs) true.
Proof.
  intros [A B C D]. split.
  - unfold sent in *. rewrite att_snoc. exact A.
  - rewrite rec_snoc. cbn. rewrite B. reflexivity.
  - rewrite link_snoc. exact C.
  - intros _. rewrite att_snoc. apply D. reflexivity.
Qed.
Lemma at_close h s r n : At h s r true -> At (h ++ [(QClose n, ARes r_success)]) s r false.
Proof.
  intros [A B C D]. split.
  - unfold sent in *. rewrite att_snoc. exact A.
  - rewrite rec_snoc. exact B.
  - rewrite link_snoc. reflexivity.
  - discriminate.
Qed.

Lemma at_destroy h s r n : At h s r false -> At (h ++ [(QDestroy n, ARes r_success)]) s r false.
Proof.
  intros [A B C D]. split.
  - unfold sent in *. rewrite att_snoc. exact A.
  - rewrite rec_snoc. exact B.
  - rewrite link_snoc. exact C.
  - discriminate.
Qed.

Section Q.
Variables (cts : list bytes) (sct : bytes).
Definition HEAD : bytes := ready_frame cts ++ start_frame (hd_error cts).
Definition ACC : bytes := ctl_frame T_ACCEPT [sct].
Definition SCRIPT : bytes := ACC ++ finish_frame.

Definition going (s : bytes) : Prop :=
  s = [] \/ s = ready_frame cts \/ exists ds, Forall ordinary ds /\ s = HEAD ++ datas ds.
Definition talk (s : bytes) : Prop :=
  going s \/ exists ds, Forall ordinary ds /\ s = HEAD ++ datas ds ++ stop_frame.
Definition readable (s : bytes) (n : N) : Prop :=
  (s = ready_frame cts /\ n <= lenN ACC) \/
  (exists ds, Forall ordinary ds /\ s = HEAD ++ datas ds ++ stop_frame /\ n <= lenN SCRIPT).

Definition G (h : trace) (q : query) : Prop :=
  match q with
  | QOpen _ => linked h = false
  | QClose _ => linked h = true
  | QWrite _ iov => linked h = true /\ going (sent h) /\ talk (sent h ++ concat iov)
  | QRead _ n => linked h = true /\ readable (sent h) (lenN (received h) + n)
  | QDestroy _ => linked h = false
  | _ => False
  end.
Definition ans_of (h : trace) (q : query) : ans :=
  match q with
  | QRead _ n => ARead r_success (firstn (N.to_nat n) (skipn (length (received h)) SCRIPT))
  | _ => ARes r_success
  end.

Fixpoint wpq {A} (p : io A) (Q : trace -> A -> Prop) (h : trace) : Prop :=
  match p with
  | Ret a => Q h a
  | Fail _ => False
  | Vis q k => G h q /\ wpq (k (ans_of h q)) Q (h ++ [(q, ans_of h q)])
  end.

Lemma wpq_bind {A B} (p : io A) (f : A -> io B) Q : forall h,
  wpq p (fun h' a => wpq (f a) Q h') h -> wpq (bind p f) Q h.
Proof. induction p as [a|e|q k IH]; intros h W; cbn in *; auto. destruct W as [W1 W2]. split; auto. Qed.
Lemma wpq_mono {A} (p : io A) (Q Q' : trace -> A -> Prop) : (forall h a, Q h a -> Q' h a) -> forall h, wpq p Q h -> wpq p Q' h.
Proof. intro M. induction p as [a|e|q k IH]; intros h W; cbn in *; auto. destruct W as [W1 W2]. split; auto. Qed.

Lemma q_rdwr_open rw (Q : trace -> _ -> Prop) h s r : rw_has_open rw = true -> At h s r false ->
  (forall h', At h' [] [] true -> Q h' (r_success, set_opened rw true)) -> wpq (rdwr_open rw) Q h.
Proof.
  intros HO HA K. unfold rdwr_open. rewrite HO. cbn. split; [apply HA|]. apply K. eapply at_open, HA.
Qed.
Lemma q_rdwr_close rw (Q : trace -> _ -> Prop) h s r : rw_has_close rw = true -> rw_opened rw = true -> At h s r true ->
  (forall h', At h' s r false -> Q h' (r_success, set_opened rw false)) -> wpq (rdwr_close rw) Q h.
Proof.
  intros HO OP HA K. unfold rdwr_close. rewrite HO, OP. cbn. split; [apply HA|]. apply K. apply at_close, HA.
Qed.
Lemma q_rdwr_write rw iov (Q : trace -> _ -> Prop) h s r : rw_has_write rw = true -> rw_opened rw = true -> At h s r true -> going s -> talk (s ++ concat iov) ->
  (forall h', At h' (s ++ concat iov) r true -> Q h' (r_success, rw)) -> wpq (rdwr_write rw iov) Q h.
Proof.
  intros HO OP HA HG HT K. unfold rdwr_write. rewrite HO, OP. cbn. split.
  - split; [apply HA|]. rewrite (at_s _ _ _ _ HA). split; [exact HG|exact HT].
  - apply K. apply at_write, HA.
Qed.
Lemma q_rdwr_read rw n (Q : trace -> _ -> Prop) h s r b more : rw_has_read rw = true -> rw_opened rw = true -> At h s r true ->
  SCRIPT = r ++ b ++ more -> lenN b = n -> readable s (lenN r + n) ->
  (forall h', At h' s (r ++ b) true -> Q h' (r_success, b, rw)) -> wpq (rdwr_read rw n) Q h.
Proof.
  intros HO OP HA ES EL HG K. unfold rdwr_read. rewrite HO, OP. cbn. split.
  - split; [apply HA|]. rewrite (at_s _ _ _ _ HA), (at_r _ _ _ _ HA). exact HG.
  - assert (E : firstn (N.to_nat n) (skipn (length (received h)) SCRIPT) = b).
    { rewrite (at_r _ _ _ _ HA), ES, skipn_app, skipn_all, Nat.sub_diag. cbn [app skipn].
      subst n. unfold lenN. rewrite Nnat.Nat2N.id, firstn_app, firstn_all, Nat.sub_diag. cbn. apply app_nil_r. }
    rewrite E. apply K. apply at_read, HA.
Qed.

Lemma q_write_frame rw c (Q : trace -> _ -> Prop) h s r : rw_has_write rw = true -> rw_opened rw = true -> At h s r true -> going s ->
  encodable true (c_type c) (c_cts c) = true -> talk (s ++ ctl_frame (c_type c) (visible (c_type c) (c_cts c))) ->
  (forall h', At h' (s ++ ctl_frame (c_type c) (visible (c_type c) (c_cts c))) r true -> Q h' (r_success, rw)) ->
  wpq (write_control_frame rw c) Q h.
Proof.
  intros HO OP HA HG E HT K. rewrite write_control_frame_eq, E. eapply q_rdwr_write; eauto; cbn [concat]; rewrite app_nil_r; [exact HT|exact K].
Qed.

Lemma readable_less s n m : n <= m -> readable s m -> readable s n.
Proof. intros L [[E R]|(ds & F & E & R)]; [left|right; exists ds]; repeat split; auto; lia. Qed.

Lemma q_read_control rw oc t acts more (Q : trace -> _ -> Prop) h s r : rw_has_read rw = true -> rw_opened rw = true -> At h s r true ->
  SCRIPT = r ++ ctl_frame t acts ++ more -> ctl_ok t acts -> readable s (lenN r + lenN (ctl_frame t acts)) ->
  (forall h', At h' s (r ++ ctl_frame t acts) true -> Q h' (r_success, Some (mk_control t acts), rw)) ->
  wpq (read_control rw oc t) Q h.
Proof.
  intros HO OP HA ES K HG Kont. unfold read_control. apply wpq_bind.
  set (c := match oc with Some c => c | None => control_init end). unfold read_control_frame.
  assert (LP : lenN (ctl_payload t acts) <= 512) by apply K.
  assert (LF : lenN (ctl_frame t acts) = 8 + lenN (ctl_payload t acts)).
  { unfold ctl_frame. rewrite !lenN_app, !lenN_be32. lia. }
  unfold ctl_frame in ES. rewrite <- !app_assoc in ES.
  apply wpq_bind. eapply q_rdwr_read; eauto; [eapply readable_less; [|exact HG]; lia|].
  intros h1 A1. cbn [res_eqb negb]. change (ntohl_bytes (be32 0) =? 0) with true. cbn [negb].
  rewrite (app_assoc r) in ES. unfold read_control_frame_tail. apply wpq_bind.
  eapply q_rdwr_read; eauto; [eapply readable_less; [|exact HG]; rewrite lenN_app, lenN_be32; lia|].
  intros h2 A2. cbn [res_eqb negb]. replace (ntohl_bytes (be32 (lenN (ctl_payload t acts)))) with (lenN (ctl_payload t acts)) by (rewrite <- (app_nil_r (be32 _)), ntohl_be32_small by lia; reflexivity).
  destruct (FSTRM_CONTROL_FRAME_LENGTH_MAX <? _) eqn:EL; [apply N.ltb_lt in EL; unfold FSTRM_CONTROL_FRAME_LENGTH_MAX in EL; lia|].
  assert (P4 : 4 <= lenN (ctl_payload t acts)) by (unfold ctl_payload; rewrite lenN_app, lenN_be32; lia).
  destruct (lenN (ctl_payload t acts) =? 0) eqn:E0; [apply N.eqb_eq in E0; lia|]. cbn [bind].
  rewrite (app_assoc (r ++ _)) in ES. apply wpq_bind.
  eapply q_rdwr_read; eauto; [eapply readable_less; [|exact HG]; rewrite !lenN_app, !lenN_be32; lia|].
  intros h3 A3. cbn [res_eqb negb].
  pose proof (control_decode_complete c t acts 0 [] K) as ED. change (N.odd 0) with false in ED. cbn [ctl_wire] in ED.
  rewrite app_nil_r in ED. rewrite ED. cbn [lift bind res_eqb negb].
  rewrite (get_type_ok (mk_control t acts) (ok_type _ _ K)). cbn. rewrite N.eqb_refl. cbn. apply Kont.
  unfold ctl_frame. rewrite !app_assoc. exact A3.
Qed.

Hypothesis agreed : agree cts sct.
Hypothesis ready_ok : fits true T_READY cts.
Hypothesis sct_ok : lenN sct <= CT_MAX.

Lemma accept_ctl_ok : ctl_ok T_ACCEPT [sct].
Proof.
  split; try discriminate; try (intros [?|?]; discriminate).
  - left. reflexivity.
  - repeat constructor. exact sct_ok.
  - unfold ctl_payload, ct_field, CTL_MAX, CT_MAX in *. cbn [map concat]. rewrite !lenN_app, !lenN_be32, lenN_nil. lia.
Qed.
Lemma finish_ctl_ok : ctl_ok T_FINISH [].
Proof. split; auto; try discriminate. unfold known_type. intuition. Qed.

Lemma q_send_start w (Q : trace -> _ -> Prop) h r : rw_has_write (w_rdwr w) = true -> rw_opened (w_rdwr w) = true ->
  At h (ready_frame cts) r true ->
  (forall h' c, At h' HEAD r true -> Q h' (r_success, set_wstart w (Some c))) ->
  wpq (writer_send_start w (hd_error cts)) Q h.
Proof.
  intros HO OP HA K. unfold writer_send_start. rewrite reset_or_init_eq.
  unfold control_set_type. change (type_known FSTRM_CONTROL_START) with true. cbv zeta iota beta.
  match goal with |- context [set_wstart w (Some ?x)] => set (c' := x) end.
  assert (Ec : c' = start_ctl (hd_error cts)) by (unfold c', start_ctl; destruct (hd_error cts); reflexivity).
  clearbody c'. subst c'. apply wpq_bind.
  eapply q_write_frame; cbn [w_rdwr set_wstart start_ctl c_type c_cts]; eauto.
  - right. left. reflexivity.
  - apply start_encodable. apply ready_ok.
  - left. right. right. exists []. split; [constructor|]. change (datas []) with (@nil byte). rewrite app_nil_r. unfold HEAD, start_frame.
    assert (V : visible T_START (optl (hd_error cts)) = optl (hd_error cts)) by (destruct (hd_error cts); reflexivity). rewrite V. reflexivity.
  - intros h' A'. cbn. replace (mk_writer _ _ _ _ _ _ _ _) with (set_wstart w (Some (start_ctl (hd_error cts)))) by (destruct w; reflexivity).
    apply K. assert (V : visible T_START (optl (hd_error cts)) = optl (hd_error cts)) by (destruct (hd_error cts); reflexivity).
    rewrite V in A'. exact A'.
Qed.

(** The writer at a stage. *)
Record LW (w : writer) (h : trace) (st : ustate) : Prop := {
  lw_ok : wok true cts w;
  lw_st : match st with
          | U_fresh => w_state w = ws_opening /\ rw_opened (w_rdwr w) = false /\ exists s r, At h s r false
          | U_open => w_state w = ws_opened /\ rw_opened (w_rdwr w) = true /\
              exists ds, Forall ordinary ds /\ At h (HEAD ++ datas ds) ACC true
          | U_closed => w_state w = ws_closed /\ rw_opened (w_rdwr w) = false /\ exists s r, At h s r false
          end }.

Lemma accept_loop : accept_match_loop (mk_control T_ACCEPT [sct]) cts true = (true, hd_error cts).
Proof.
  destruct agreed as [->|E]; [reflexivity|]. destruct cts as [|x l]; [discriminate|]. injection E as ->. cbn [accept_match_loop hd_error].
  assert (M : control_match (mk_control T_ACCEPT [sct]) (Some sct) = r_success).
  { apply match_iff. cbn. split; [discriminate|]. split; [discriminate|]. right. exists sct. split; [reflexivity|now left]. }
  rewrite M. reflexivity.
Qed.

Lemma q_open_bi w (Q : trace -> _ -> Prop) h : wok true cts w -> rw_opened (w_rdwr w) = true -> At h [] [] true ->
  (forall h' w', wok true cts w' -> rw_opened (w_rdwr w') = true -> At h' HEAD ACC true -> Q h' (r_success, w')) ->
  wpq (writer_open_bidirectional w) Q h.
Proof.
  intros [O1 O2 O3 O4 O5 O6 O7] OP HA K. unfold writer_open_bidirectional. rewrite reset_or_init_eq.
  unfold control_set_type. change (type_known FSTRM_CONTROL_READY) with true. cbv zeta iota beta.
  rewrite add_all_eq. cbn [c_type c_cts app]. rewrite O6. apply wpq_bind.
  eapply q_write_frame; cbn [set_wready w_rdwr c_type c_cts]; eauto; [left; reflexivity|apply encodable_fits; exact ready_ok|left; right; left; reflexivity|].
  change (visible FSTRM_CONTROL_READY cts) with cts. cbn [app]. intros h1 A1. cbn [res_eqb negb].
  apply wpq_bind. cbn [set_wrdwr set_wready w_rdwr w_accept].
  eapply (q_read_control _ _ T_ACCEPT [sct] finish_frame); eauto; [exact accept_ctl_ok|left; split; [reflexivity|apply N.le_refl]|].
  intros h2 A2. cbn [res_eqb negb set_waccept w_cts set_wrdwr set_wready]. rewrite O6, accept_loop. cbn [negb].
  eapply q_send_start; cbn [w_rdwr]; eauto.
  intros h3 c A3. apply K; [split; assumption|exact OP|exact A3].
Qed.


Lemma q_open w (Q : trace -> _ -> Prop) h st : LW w h st ->
  (forall h' w', LW w' h' U_open -> Q h' (r_success, w')) -> wpq (writer_open w) Q h.
Proof.
  intros [OK ST] K. unfold writer_open. destruct st.
  2:{ destruct ST as (E & R). rewrite E. apply K. split; [exact OK|]. exact (conj E R). }
  all: destruct ST as (E & EO & s & r & HA); rewrite E; destruct OK as [O1 O2 O3 O4 O5 O6 O7]; apply wpq_bind;
    eapply q_rdwr_open; eauto; intros h1 A1; cbn [res_eqb negb set_wrdwr w_rdwr set_opened rw_has_read]; rewrite O5;
    apply wpq_bind; apply q_open_bi; [split; assumption|reflexivity|exact A1|];
    intros h2 w2 W2 OP2 A2; cbn [res_eqb negb]; apply K; split; [destruct W2; split; assumption|];
    (split; [reflexivity|]); (split; [exact OP2|]); exists []; (split; [constructor|]); cbn; rewrite app_nil_r; exact A2.
Qed.

Lemma q_maybe w (Q : trace -> _ -> Prop) h st : LW w h st ->
  (forall h' w', LW w' h' (match st with U_fresh => U_open | _ => st end) -> Q h' (r_success, w')) -> wpq (writer_maybe_open w) Q h.
Proof.
  intros L K. unfold writer_maybe_open. destruct st; pose proof (lw_st _ _ _ L) as (E & _); rewrite E.
  - apply wpq_bind. eapply q_open; [exact L|]. intros h' w' L'. cbn. apply K. exact L'.
  - apply K. exact L.
  - apply K. exact L.
Qed.

Lemma q_write_iov w ps (Q : trace -> _ -> Prop) h : LW w h U_open -> (2 * length ps <= 256)%nat -> Forall ordinary ps ->
  (forall h' w', LW w' h' U_open -> Q h' (r_success, w')) -> wpq (write_iov w ps) Q h.
Proof.
  intros [OK (E & EO & ds & F & HA)] L FP K. unfold write_iov.
  destruct (FSTRM__WRITER_IOVEC_SIZE <? 2 * length ps)%nat eqn:EL; [apply Nat.ltb_lt in EL; unfold FSTRM__WRITER_IOVEC_SIZE in EL; lia|].
  destruct OK as [O1 O2 O3 O4 O5 O6 O7]. apply wpq_bind. eapply q_rdwr_write; eauto; [right; right; exists ds; auto| |].
  { left. right. right. exists (ds ++ ps). split; [apply Forall_app; auto|]. rewrite datas_app, frame_iovecs_datas, <- app_assoc. reflexivity. }
  intros h1 A1. cbn. apply K. split; [split; assumption|]. split; [exact E|]. split; [exact EO|].
  exists (ds ++ ps). split; [apply Forall_app; auto|]. rewrite datas_app. rewrite frame_iovecs_datas, <- app_assoc in A1. exact A1.
Qed.

Lemma q_stupid_loop chunk : (0 < chunk)%nat -> (2 * chunk <= 256)%nat -> forall fuel w ps (Q : trace -> _ -> Prop) h, (length ps <= fuel)%nat ->
  LW w h U_open -> Forall ordinary ps ->
  (forall h' w', LW w' h' U_open -> Q h' (r_success, w')) -> wpq (write_iov_stupid_loop fuel chunk w ps) Q h.
Proof.
  intros C1 C2. induction fuel as [|fuel IH]; intros w ps Q h LE L FP K; (destruct ps as [|p ps]; [apply K; exact L|]); [cbn in LE; lia|].
  cbn [write_iov_stupid_loop]. remember (p :: ps) as l eqn:El. apply wpq_bind.
  assert (F2 : Forall ordinary (firstn chunk l) /\ Forall ordinary (skipn chunk l)).
  { rewrite <- (firstn_skipn chunk l) in FP. apply Forall_app in FP. exact FP. }
  destruct F2 as [F1 F2].
  apply q_write_iov; auto; [rewrite firstn_length; lia|].
  intros h1 w1 L1. cbn [res_eqb negb]. apply IH; auto. rewrite skipn_length. subst l. cbn [length] in *. lia.
Qed.

Lemma q_writev w ps (Q : trace -> _ -> Prop) h st : LW w h st -> Forall ordinary ps -> lenN ps < 2 ^ 30 ->
  (forall h' w', LW w' h' (match ps with [] => st | _ => match st with U_fresh => U_open | _ => st end end) ->
     Q h' (match ps, st with _ :: _, U_closed => r_failure | _, _ => r_success end, w')) ->
  wpq (writer_writev w ps) Q h.
Proof.
  intros L FP LN K. unfold writer_writev. destruct ps as [|p ps]; [apply K; exact L|]. remember (p :: ps) as l eqn:El.
  apply wpq_bind. eapply q_maybe; [exact L|]. intros h1 w1 L1. cbn [res_eqb negb].
  destruct st; cbv iota in L1; pose proof (lw_st _ _ _ L1) as (E & _); rewrite E.
  3:{ subst l. apply K. exact L1. }
  all: destruct (2 ^ 31 <=? 2 * lenN l) eqn:EB; [apply N.leb_le in EB; lia|];
    destruct (2 * length l <=? FSTRM__WRITER_IOVEC_SIZE)%nat eqn:EL;
    [apply q_write_iov; [exact L1|apply Nat.leb_le in EL; exact EL|exact FP|subst l; exact K]|];
    unfold write_iov_stupid; pose proof (ok_iov _ _ _ (lw_ok _ _ _ L1)) as PI;
    change (FSTRM__WRITER_IOVEC_SIZE / 2)%nat with 128%nat;
    (destruct (Nat.min 128 (w_iov_max w1) =? 0)%nat eqn:EM; [apply Nat.eqb_eq in EM; lia|]);
    (apply q_stupid_loop; [lia|lia|lia|exact L1|exact FP|subst l; exact K]).
Qed.

Lemma q_close w (Q : trace -> _ -> Prop) h st : LW w h st ->
  (forall h' w', LW w' h' (stage_after st WClose) -> Q h' (stage_result st WClose, w')) -> wpq (writer_close w) Q h.
Proof.
  intros L K. destruct st; [pose proof (lw_st _ _ _ L) as (E & _); unfold writer_close; rewrite E; apply K; exact L| |
    pose proof (lw_st _ _ _ L) as (E & _); unfold writer_close; rewrite E; apply K; exact L].
  destruct L as [[O1 O2 O3 O4 O5 O6 O7] (E & EO & ds & F & HA)]. unfold writer_close. rewrite E.
  cbv zeta. cbn [set_wstate w_rdwr w_finish]. apply wpq_bind. rewrite write_control_eq by reflexivity. cbv zeta.
  change (encodable true FSTRM_CONTROL_STOP []) with true. cbv iota.
  eapply q_rdwr_write; eauto; [right; right; exists ds; auto| |].
  { right. exists ds. split; [exact F|]. cbn [concat]. rewrite app_nil_r, <- app_assoc. reflexivity. }
  cbn [concat]. rewrite app_nil_r. intros h1 A1. cbn [res_eqb negb]. rewrite O5. apply wpq_bind.
  eapply (q_read_control _ _ T_FINISH [] []); eauto.
  { exact finish_ctl_ok. }
  { right. exists ds. split; [exact F|]. split; [rewrite <- app_assoc; reflexivity|]. unfold SCRIPT. rewrite lenN_app. apply N.le_refl. }
  intros h2 A2. cbn [res_eqb negb]. apply wpq_bind. eapply q_rdwr_close; eauto.
  intros h3 A3. cbn. apply K. split; [split; assumption|]. split; [reflexivity|]. split; [reflexivity|]. eauto.
Qed.

Lemma q_call w c (Q : trace -> _ -> Prop) h st : LW w h st -> wcall_ok c -> Forall ordinary (wpayloads c) ->
  (forall h' w', LW w' h' (stage_after st c) -> Q h' (stage_result st c, w')) -> wpq (do_wcall w c) Q h.
Proof.
  intros L OK FP K. destruct c as [|p|ps| |t]; cbn [do_wcall].
  - eapply q_open; [exact L|]. intros h' w' L'. specialize (K h' w'). destruct st; apply K; exact L'.
  - eapply q_writev; [exact L|exact FP|reflexivity|]. intros h' w' L'. specialize (K h' w'). destruct st; apply K; exact L'.
  - eapply q_writev; [exact L|exact FP|unfold wcall_ok in OK; exact OK|]. intros h' w' L'. specialize (K h' w').
    cbn [stage_after stage_result wpayloads] in K. destruct ps, st; apply K; exact L'.
  - eapply q_close; eauto.
  - apply wpq_bind. unfold writer_get_control. apply wpq_bind. eapply q_maybe; [exact L|].
    intros h' w' L'. specialize (K h' w'). cbn [res_eqb negb].
    assert (K' : Q h' (stage_result st (WGetControl t), w')) by (destruct st; apply K; exact L').
    cbn [stage_result] in K'.
    change FSTRM_CONTROL_ACCEPT with 1. change FSTRM_CONTROL_FINISH with 5. change FSTRM_CONTROL_READY with 4. change FSTRM_CONTROL_START with 2.
    destruct (t =? 1), (t =? 2), (t =? 4), (t =? 5); cbn [orb wpq] in *; exact K'.
Qed.

Lemma q_calls cs : forall w h st, LW w h st -> Forall wcall_ok cs -> Forall (fun c => Forall ordinary (wpayloads c)) cs ->
  wpq (do_wcalls w cs) (fun h' a => fst a = stage_results st cs /\ exists st', LW (snd a) h' st') h.
Proof.
  induction cs as [|c cs IH]; intros w h st L FC FP; cbn [do_wcalls].
  - cbn. split; [reflexivity|]. exists st. exact L.
  - inversion FC; subst. inversion FP; subst. apply wpq_bind. eapply q_call; eauto. intros h1 w1 L1.
    apply wpq_bind. eapply wpq_mono; [|apply (IH w1 h1 _ L1); assumption].
    intros h2 [xs w2] [E1 E2]. cbn in *. subst xs. auto.
Qed.
End Q.

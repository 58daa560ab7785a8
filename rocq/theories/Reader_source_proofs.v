(** The reader over a transport delivering a fixed byte string. *)
From Verif Require Import Bytes Spec Bytes_proofs Io Io_proofs SpecTrace SpecStream
  Control Control_proofs Rdwr Rdwr_proofs Reader Api SpecReader.
Ltac Zify.zify_post_hook ::= Z.div_mod_to_equations.
Local Open Scope N_scope.

Lemma reserve_loop_ok fuel : forall alloc n, 1 <= alloc -> n <= alloc * 2 ^ N.of_nat fuel ->
  exists a, reserve_loop fuel alloc n = Some a /\ n <= a /\ alloc <= a.
Proof.
  induction fuel as [|fuel IH]; intros alloc n H1 H2; cbn [reserve_loop].
  - change (N.of_nat 0) with 0 in H2. rewrite N.pow_0_r in H2. destruct (alloc <? n) eqn:E; [apply N.ltb_lt in E; lia|]. exists alloc. repeat split; lia.
  - destruct (alloc <? n) eqn:E; [|exists alloc; repeat split; lia].
    destruct (IH (alloc * 2) n) as (a & -> & Ha & Hb); [lia| |exists a; repeat split; lia].
    rewrite Nat2N.inj_succ, N.pow_succ_r' in H2. lia.
Qed.

Lemma reserve_64 alloc n : 1 <= alloc -> n < 2 ^ 32 ->
  exists a, reserve_loop 64 alloc n = Some a /\ n <= a /\ alloc <= a.
Proof.
  intros H1 H2. apply reserve_loop_ok; [assumption|].
  change (2 ^ N.of_nat 64) with 18446744073709551616. change (2 ^ 32) with 4294967296 in H2. lia.
Qed.

(** Every byte string parses. *)
Lemma parse_total max : forall n inp, (length inp <= n)%nat -> exists ds e rest, parse max inp ds e rest.
Proof.
  induction n as [|n IH]; intros inp L.
  { destruct inp; [|cbn in L; lia]. exists [], E_eof, []. apply p_eof_len. vm_compute. reflexivity. }
  destruct (N.lt_ge_cases (lenN inp) 4) as [L4|L4].
  { exists [], E_eof, []. apply p_eof_len. assumption. }
  destruct (split_at inp 4) as (h & b & -> & Lh); [unfold lenN in L4; lia|].
  assert (Eh : h = be32 (ntohl_bytes h)) by (rewrite be32_ntohl by lia; symmetry; apply firstn_all2; lia).
  pose proof (ntohl_lt h) as Hlt. rewrite Eh. set (len := ntohl_bytes h) in *. clearbody len.
  rewrite app_length in L.
  destruct (N.eq_dec len 0) as [->|Hne].
  - destruct (N.lt_ge_cases (lenN b) 4) as [B4|B4].
    { exists [], E_eof, []. apply p_eof_ctl_len. assumption. }
    destruct (split_at b 4) as (h2 & b2 & -> & Lh2); [unfold lenN in B4; lia|].
    assert (Eh2 : h2 = be32 (ntohl_bytes h2)) by (rewrite be32_ntohl by lia; symmetry; apply firstn_all2; lia).
    pose proof (ntohl_lt h2) as Hlt2. rewrite Eh2. set (cl := ntohl_bytes h2) in *. clearbody cl.
    destruct (N.lt_ge_cases CTL_MAX cl) as [C1|C1].
    { exists [], E_badctl, b2. apply p_ctl_long; assumption. }
    destruct (N.lt_ge_cases (lenN b2) cl) as [C2|C2].
    { exists [], E_eof, []. apply p_eof_ctl; assumption. }
    destruct (split_at b2 (N.to_nat cl)) as (p & b3 & -> & Lp); [unfold lenN in C2; lia|].
    assert (Hp : cl = lenN p) by (unfold lenN; lia). subst cl.
    destruct (decode_noheader control_init p) as (r & c' & D & Hr & Hs).
    destruct Hr as [-> | ->].
    + destruct (Hs eq_refl) as [K ->]. destruct c' as [t cts]. cbn [c_type c_cts] in *.
      destruct (N.eq_dec t T_STOP) as [->|Nt].
      * pose proof (ok_stop _ _ K (or_introl eq_refl)) as ->. exists [], E_stop, b3.
        pose proof (p_stop max b3) as PS. unfold stop_frame, ctl_frame in PS. rewrite <- !app_assoc in PS. exact PS.
      * destruct (IH b3) as (ds & e & rest & P).
        { rewrite !app_length in L. lia. }
        exists ds, e, rest. pose proof (p_skip max t cts b3 ds e rest K Nt P) as PS.
        unfold ctl_frame in PS. rewrite <- !app_assoc in PS. exact PS.
    + exists [], E_badctl, b3. apply p_ctl_bad; [assumption|].
      intros t cts K ->. pose proof (control_decode_complete control_init t cts 0 [] K) as D'.
      change (N.odd 0) with false in D'. cbn [ctl_wire] in D'. rewrite app_nil_r in D'. congruence.
  - destruct (N.lt_ge_cases max len) as [M|M].
    { exists [], E_oversize, b. apply p_over; auto; lia. }
    destruct (N.lt_ge_cases (lenN b) len) as [C2|C2].
    { exists [], E_eof, []. apply p_eof_data; auto; lia. }
    destruct (split_at b (N.to_nat len)) as (p & b3 & -> & Lp); [unfold lenN in C2; lia|].
    assert (Hp : len = lenN p) by (unfold lenN; lia). subst len.
    destruct (IH b3) as (ds & e & rest & P).
    { rewrite app_length in L. lia. }
    exists (p :: ds), e, rest. rewrite app_assoc. fold (data_frame p). apply p_data; auto. split; lia.
Qed.

Section Src.
Variables (eofr : res) (zok : bool).
Hypothesis eof_ne : eofr <> r_success.
(** Any transport that behaves like a byte source: [rep b s] is its state when
    open ([b]) with [s] left to deliver. *)
Variables (T : Type) (src : T -> query -> T * ans) (rep : bool -> bytes -> T).
Hypothesis H_read : forall h n s, 1 <= n -> n <= lenN s -> src (rep true s) (QRead h n) =
  (rep true (skipn (N.to_nat n) s), ARead r_success (firstn (N.to_nat n) s)).
(** Only needed for inputs that end early. *)
Variable eofok : Prop.
Hypothesis H_short : eofok -> forall h n s, lenN s < n -> src (rep true s) (QRead h n) =
  (rep true [], ARead eofr []).
Hypothesis H_read0 : forall h s, src (rep true s) (QRead h 0) =
  (rep true s, ARead (if zok then r_success else r_failure) []).
Hypothesis H_close : forall h s, src (rep true s) (QClose h) = (rep false s, ARes r_success).
Hypothesis H_iso : forall h s, src (rep true s) (QIsoUb h) = (rep true s, AUnit).

Lemma eof_eqb : res_eqb eofr r_success = false.
Proof. destruct (res_eqb eofr r_success) eqn:E; [apply res_eqb_true in E; contradiction|reflexivity]. Qed.

(** An rdwr that is open and can read. *)
Definition canread (rw : rdwr) : Prop :=
  rw_opened rw = true /\ rw_has_read rw = true /\ rw_has_close rw = true.

Lemma src_read rw a s : canread rw -> 1 <= lenN a ->
  exec src (rep true (a ++ s)) (rdwr_read rw (lenN a)) = (rep true s, Done (r_success, a, rw)).
Proof.
  intros (H1 & H2 & H3) Hn. unfold rdwr_read. rewrite H1, H2. cbn [negb].
  cbn [ask_read bind exec]. rewrite H_read by (rewrite ?lenN_app; lia).
  cbn [bind res_eqb negb exec].
  rewrite skipn_app_exact, firstn_app_exact by apply lenN_length. reflexivity.
Qed.

Lemma src_read_n rw n a s : canread rw -> 1 <= n -> lenN a = n ->
  exec src (rep true (a ++ s)) (rdwr_read rw n) = (rep true s, Done (r_success, a, rw)).
Proof. intros H1 H2 <-. apply src_read; assumption. Qed.

Lemma src_short rw n s : eofok -> canread rw -> lenN s < n ->
  exec src (rep true s) (rdwr_read rw n) = (rep false [], Done (eofr, [], set_opened rw false)).
Proof.
  intros EK (H1 & H2 & H3) Hn. unfold rdwr_read. rewrite H1, H2. cbn [negb].
  cbn [ask_read bind exec]. rewrite (H_short EK) by assumption.
  cbn [bind]. rewrite eof_eqb. cbn [negb]. unfold rdwr_close. rewrite H3, H1.
  cbn [negb bind ask_res exec]. rewrite H_close. reflexivity.
Qed.

Lemma src_read0 rw s : canread rw ->
  exec src (rep true s) (rdwr_read rw 0) =
  (rep zok s, Done (if zok then (r_success, [], rw) else (r_failure, [], set_opened rw false))).
Proof.
  intros (H1 & H2 & H3). unfold rdwr_read. rewrite H1, H2. cbn [negb].
  cbn [ask_read bind exec]. rewrite H_read0.
  destruct zok; cbn [bind res_eqb negb exec]; [reflexivity|].
  unfold rdwr_close. rewrite H3, H1. cbn [negb bind ask_res exec]. rewrite H_close. reflexivity.
Qed.

Definition ctail t cts := be32 (lenN (ctl_payload t cts)) ++ ctl_payload t cts.

Lemma payload_pos t cts : 4 <= lenN (ctl_payload t cts).
Proof. rewrite lenN_ctl_payload. lia. Qed.

Lemma src_tail_ok rw c t cts s : canread rw -> ctl_ok t cts ->
  exec src (rep true (ctail t cts ++ s)) (read_control_frame_tail rw c) =
  (rep true s, Done (r_success, Some t, mk_control t cts, rw)).
Proof.
  intros C K. pose proof (ok_total _ _ K) as KL. unfold CTL_MAX in KL. pose proof (payload_pos t cts) as KP.
  unfold read_control_frame_tail, ctail. rewrite exec_bind, <- app_assoc.
  rewrite (src_read_n rw 4) by (assumption || reflexivity || lia).
  cbn [res_eqb negb]. rewrite <- (app_nil_r (be32 _)), ntohl_be32_small by (change (2^32) with 4294967296; lia).
  cbv zeta. set (len := lenN (ctl_payload t cts)) in *. unfold FSTRM_CONTROL_FRAME_LENGTH_MAX.
  destruct (512 <? len) eqn:E; [lia|]. destruct (len =? 0) eqn:E0; [lia|]. cbn [bind].
  rewrite exec_bind, (src_read_n rw len) by (assumption || reflexivity || lia).
  cbn [res_eqb negb].
  pose proof (control_decode_complete c t cts 0 [] K) as D. change (N.odd 0) with false in D.
  cbn [ctl_wire] in D. rewrite app_nil_r in D. fold len in D. rewrite D.
  cbn [lift bind res_eqb negb]. rewrite get_type_ok by apply K. reflexivity.
Qed.

Lemma src_tail_eof1 rw c s : eofok -> canread rw -> lenN s < 4 ->
  exec src (rep true s) (read_control_frame_tail rw c) = (rep false [], Done (eofr, None, c, set_opened rw false)).
Proof.
  intros EK C L. unfold read_control_frame_tail. rewrite exec_bind, src_short by assumption.
  rewrite eof_eqb. reflexivity.
Qed.

Lemma src_tail_eof2 rw c n s : eofok -> canread rw -> n <= CTL_MAX -> lenN s < n ->
  exec src (rep true (be32 n ++ s)) (read_control_frame_tail rw c) = (rep false [], Done (eofr, None, c, set_opened rw false)).
Proof.
  intros EK C Hn L. unfold CTL_MAX in Hn. unfold read_control_frame_tail. rewrite exec_bind.
  rewrite (src_read_n rw 4) by (assumption || reflexivity || lia).
  cbn [res_eqb negb]. rewrite <- (app_nil_r (be32 _)), ntohl_be32_small by (change (2^32) with 4294967296; lia).
  unfold FSTRM_CONTROL_FRAME_LENGTH_MAX. destruct (512 <? n) eqn:E; [lia|]. destruct (n =? 0) eqn:E0; [lia|].
  cbn [bind]. rewrite exec_bind, src_short by assumption. rewrite eof_eqb. reflexivity.
Qed.

Lemma src_tail_long rw c n s : canread rw -> CTL_MAX < n -> n < 2 ^ 32 ->
  exec src (rep true (be32 n ++ s)) (read_control_frame_tail rw c) = (rep true s, Done (r_failure, None, c, rw)).
Proof.
  intros C Hn L. unfold CTL_MAX in Hn. unfold read_control_frame_tail. rewrite exec_bind.
  rewrite (src_read_n rw 4) by (assumption || reflexivity || lia).
  cbn [res_eqb negb]. rewrite <- (app_nil_r (be32 _)), ntohl_be32_small by assumption.
  unfold FSTRM_CONTROL_FRAME_LENGTH_MAX. destruct (512 <? n) eqn:E; [|lia]. reflexivity.
Qed.

Lemma bad_decode c p : (forall t cts, ctl_ok t cts -> p <> ctl_payload t cts) ->
  exists c', control_decode c p (lenN p) 0 = Ok (r_failure, c').
Proof.
  intro B. destruct (decode_noheader c p) as (r & c' & D & [-> | ->] & H).
  - destruct (H eq_refl) as [K E]. destruct (B _ _ K E).
  - eauto.
Qed.

Lemma src_tail_bad rw c p s : canread rw -> lenN p <= CTL_MAX ->
  (forall t cts, ctl_ok t cts -> p <> ctl_payload t cts) ->
  exists c' rw', exec src (rep true (be32 (lenN p) ++ p ++ s)) (read_control_frame_tail rw c) =
    (rep (rw_opened rw') s, Done (r_failure, None, c', rw')) /\ same_ops rw rw'.
Proof.
  intros C Hn B. unfold CTL_MAX in Hn. unfold read_control_frame_tail. rewrite exec_bind.
  rewrite (src_read_n rw 4) by (assumption || reflexivity || lia).
  cbn [res_eqb negb]. rewrite <- (app_nil_r (be32 _)), ntohl_be32_small by (change (2^32) with 4294967296; lia).
  cbv zeta. unfold FSTRM_CONTROL_FRAME_LENGTH_MAX. destruct (512 <? lenN p) eqn:E; [lia|].
  destruct (bad_decode c p B) as [c' D].
  destruct (lenN p =? 0) eqn:E0.
  - assert (p = []) by (apply lenN_0; lia). subst p. cbn [ask_unit bind exec app lenN]. rewrite H_iso. cbn [bind].
    rewrite exec_bind. change (lenN []) with 0. rewrite src_read0 by assumption.
    destruct zok; cbn [res_eqb negb].
    + change (lenN []) with 0 in D. rewrite D. cbn [lift bind res_eqb negb exec].
      exists c', rw. rewrite (proj1 C). split; [reflexivity|apply same_ops_refl].
    + exists c, (set_opened rw false). split; [reflexivity|apply same_ops_set].
  - cbn [bind]. rewrite exec_bind, (src_read_n rw (lenN p)) by (assumption || reflexivity || lia).
    cbn [res_eqb negb]. rewrite D. cbn [lift bind res_eqb negb exec].
    exists c', rw. rewrite (proj1 C). split; [reflexivity|apply same_ops_refl].
Qed.

(** A reader in the middle of a stream. *)
Record reading (max : N) (r : reader) : Prop := {
  rd_state : r_state r = rs_opened;
  rd_can : canread (r_rdwr r);
  rd_max : r_max r = max;
  rd_alloc : 1 <= r_alloc r
}.

(** Same configuration. *)
Record same_r (r r' : reader) : Prop := {
  sr_cts : r_cts r' = r_cts r;
  sr_max : r_max r' = r_max r;
  sr_rw : same_ops (r_rdwr r) (r_rdwr r');
  sr_start : r_start r' = r_start r;
  sr_ready : r_ready r' = r_ready r;
  sr_accept : r_accept r' = r_accept r;
  sr_alloc : r_alloc r <= r_alloc r'
}.

Lemma same_r_refl r : same_r r r.
Proof. split; auto; [apply same_ops_refl|lia]. Qed.
Lemma same_r_trans a b c : same_r a b -> same_r b c -> same_r a c.
Proof. intros [] []. split; try congruence; [eapply same_ops_trans; eassumption|lia]. Qed.

Definition ended (e : ending) (r' : reader) : Prop :=
  match e with
  | E_stop => r_state r' = rs_closing /\ r_stop_c r' = Some (mk_control T_STOP []) /\ canread (r_rdwr r')
  | E_oversize => r_state r' = rs_failed /\ canread (r_rdwr r')
  | _ => r_state r' = rs_failed
  end.

Definition next_result (max : N) (inp : bytes) (r : reader) (fuel : nat) (ds : list bytes) (e : ending) (rest : bytes) : Prop :=
  match ds with
  | d :: ds' => exists r' inp', exec src (rep true inp) (reader_next_data fuel r) = (rep true inp', Done (r_success, Some d, r')) /\
      parse max inp' ds' e rest /\ (length inp' < length inp)%nat /\ reading max r' /\ same_r r r'
  | [] => exists r', exec src (rep true inp) (reader_next_data fuel r) = (rep (rw_opened (r_rdwr r')) rest, Done (ending_result eofr e, None, r')) /\
      ended e r' /\ same_r r r'
  end.

Lemma next_step fuel r : r_state r = rs_opened -> canread (r_rdwr r) -> forall n s,
  n < 2 ^ 32 ->
  exec src (rep true (be32 n ++ s)) (reader_next_data (S fuel) r) =
  exec src (rep true s) (
      if negb (n =? 0) then
        if r_max r <? n then Ret (r_success, None, set_rstate r rs_failed)
        else
          match reserve_loop 64 (r_alloc r) n with
          | None => Fail FFuel
          | Some alloc =>
              let r := set_ralloc r alloc in
              if alloc <? n then Fail (FUb ub_store_oob)
              else
                bind (rdwr_read (r_rdwr r) n) (fun z => match z with (x, data, rw) =>
                let r := set_rrdwr r rw in
                if negb (res_eqb x r_success) then Ret (x, None, set_rstate r rs_failed)
                else Ret (r_success, Some data, r) end)
          end
      else
        let c := match r_tmp r with None => control_init | Some c => c end in
        bind (read_control_frame_tail (r_rdwr r) c) (fun z => match z with (x, t, c, rw) =>
        let r := set_rtmp (set_rrdwr r rw) (Some c) in
        if negb (res_eqb x r_success) then Ret (x, None, set_rstate r rs_failed)
        else match t with
             | None => Fail (FUb ub_uninit)
             | Some t =>
                 if t =? FSTRM_CONTROL_STOP then
                   Ret (r_stop, None,
                        set_rtmp (set_rstop (set_rstate r rs_closing) (Some c)) None)
                 else reader_next_data fuel r
             end end)).
Proof.
  intros S C n s Hn. cbn [reader_next_data]. unfold reader_read_be32, read_control_frame. rewrite exec_bind, exec_bind.
  rewrite (src_read_n (r_rdwr r) 4) by (assumption || reflexivity || lia).
  cbn [exec]. rewrite <- (app_nil_r (be32 n)), ntohl_be32_small by assumption.
  cbn [res_eqb negb].
  assert (E : set_rrdwr r (r_rdwr r) = r) by (destruct r; reflexivity). rewrite E. reflexivity.
Qed.

Lemma fin_eq b (x : res) rest r' : b = rw_opened (r_rdwr r') ->
  (rep b rest, Done (x, @None bytes, r')) = (rep (rw_opened (r_rdwr r')) rest, Done (x, None, r')).
Proof. intros ->. reflexivity. Qed.

Lemma parse_next max inp ds e rest : parse max inp ds e rest -> (e = E_eof -> eofok) ->
  forall r fuel, reading max r -> (length inp < fuel)%nat -> next_result max inp r fuel ds e rest.
Proof.
  induction 1 as [p inp ds e rest K Hm P IH|t cts inp ds e rest K Ht P IH|rest|inp L|n b H1 H2 H3 L|b L|n b Hn L|n rest Hm H1 H2|n rest Hn H2|p rest Hn B];
    intros EK r fuel R F; destruct R as [RS RC RM RA]; destruct fuel as [|fuel]; try lia.
  - destruct K as [K1 K2]. cbn [next_result]. unfold data_frame. rewrite <- app_assoc.
    rewrite next_step by assumption. destruct (lenN p =? 0) eqn:E0; [lia|]. cbn [negb].
    rewrite RM. destruct (max <? lenN p) eqn:E1; [lia|].
    destruct (reserve_64 (r_alloc r) (lenN p)) as (a & -> & A1 & A2); [assumption..|]. cbv zeta.
    destruct (a <? lenN p) eqn:E2; [lia|]. rewrite exec_bind. cbn [set_ralloc r_rdwr].
    rewrite src_read by (assumption || lia). cbn [res_eqb negb exec].
    eexists _, inp. split; [reflexivity|]. split; [assumption|]. split.
    { rewrite !app_length, length_be32. lia. }
    split; split; cbn; auto; try lia. apply same_ops_refl.
  - assert (IH' : forall r', reading max r' -> next_result max inp r' fuel ds e rest).
    { intros r' R'. apply IH; auto. unfold ctl_frame in F. rewrite !app_length, !length_be32 in F. lia. }
    unfold ctl_frame. rewrite <- !app_assoc.
    assert (Step : forall c rw', c = mk_control t cts -> rw' = r_rdwr r ->
      exec src (rep true (be32 0 ++ be32 (lenN (ctl_payload t cts)) ++ ctl_payload t cts ++ inp)) (reader_next_data (S fuel) r) =
      exec src (rep true inp) (reader_next_data fuel (set_rtmp (set_rrdwr r rw') (Some c)))).
    { intros c rw' -> ->. rewrite next_step by (assumption || reflexivity). change (0 =? 0) with true. cbn [negb]. cbv zeta.
      rewrite exec_bind. rewrite app_assoc. fold (ctail t cts). rewrite src_tail_ok by assumption.
      cbn [res_eqb negb]. unfold FSTRM_CONTROL_STOP. destruct (t =? 3) eqn:E; [apply N.eqb_eq in E; contradiction|reflexivity]. }
    specialize (Step _ _ eq_refl eq_refl).
    set (r1 := set_rtmp _ _) in Step.
    assert (R1 : reading max r1) by (split; auto). specialize (IH' r1 R1).
    assert (S1 : same_r r r1) by (split; cbn; auto; [apply same_ops_refl|lia]).
    unfold next_result in *. destruct ds as [|d ds].
    + destruct IH' as (r' & E & En & Sm). exists r'. rewrite Step. split; [assumption|]. split; [assumption|]. eapply same_r_trans; eassumption.
    + destruct IH' as (r' & inp' & E & En & Ln & Rd & Sm). exists r', inp'. rewrite Step. repeat (split; [assumption|]).
      split; [|split; [assumption|eapply same_r_trans; eassumption]]. rewrite !app_length. lia.
  - cbn [next_result]. assert (K : ctl_ok T_STOP []).
    { split; auto; try (unfold known_type; tauto); try discriminate; try (vm_compute; discriminate). }
    unfold stop_frame, ctl_frame. rewrite <- !app_assoc. rewrite next_step by (assumption || reflexivity).
    change (0 =? 0) with true. cbn [negb]. cbv zeta.
    rewrite exec_bind, app_assoc. fold (ctail T_STOP []). rewrite src_tail_ok by assumption.
    cbn [res_eqb negb]. change (T_STOP =? FSTRM_CONTROL_STOP) with true. cbn iota.
    eexists. split; [apply fin_eq; cbn; try reflexivity; symmetry; apply RC|]. split; [cbn; auto|]. split; cbn; auto; [apply same_ops_refl|lia].
  - cbn [next_result]. cbn [reader_next_data]. unfold reader_read_be32. rewrite !exec_bind, src_short by (assumption || exact (EK eq_refl)).
    cbn [exec]. rewrite eof_eqb. cbn [negb exec].
    eexists. split; [apply fin_eq; cbn; try reflexivity; symmetry; apply RC|]. split; [reflexivity|]. split; cbn; auto; [apply same_ops_set|lia].
  - cbn [next_result]. rewrite next_step by assumption. destruct (n =? 0) eqn:E0; [lia|]. cbn [negb].
    rewrite RM. destruct (max <? n) eqn:E1; [lia|].
    destruct (reserve_64 (r_alloc r) n) as (a & -> & A1 & A2); [assumption..|]. cbv zeta.
    destruct (a <? n) eqn:E2; [lia|]. rewrite exec_bind. cbn [set_ralloc r_rdwr].
    rewrite src_short by (assumption || exact (EK eq_refl)). rewrite eof_eqb. cbn [negb exec].
    eexists. split; [apply fin_eq; cbn; try reflexivity; symmetry; apply RC|]. split; [reflexivity|]. split; cbn; auto; try lia. apply same_ops_set.
  - cbn [next_result]. rewrite next_step by (assumption || reflexivity). change (0 =? 0) with true. cbn [negb]. cbv zeta.
    rewrite exec_bind, src_tail_eof1 by (assumption || exact (EK eq_refl)). rewrite eof_eqb. cbn [negb exec].
    eexists. split; [apply fin_eq; cbn; try reflexivity; symmetry; apply RC|]. split; [reflexivity|]. split; cbn; auto; try lia. apply same_ops_set.
  - cbn [next_result]. rewrite next_step by (assumption || reflexivity). change (0 =? 0) with true. cbn [negb]. cbv zeta.
    rewrite exec_bind, src_tail_eof2 by (assumption || exact (EK eq_refl)). rewrite eof_eqb. cbn [negb exec].
    eexists. split; [apply fin_eq; cbn; try reflexivity; symmetry; apply RC|]. split; [reflexivity|]. split; cbn; auto; try lia. apply same_ops_set.
  - cbn [next_result]. rewrite next_step by assumption. destruct (n =? 0) eqn:E0; [lia|]. cbn [negb].
    rewrite RM. destruct (max <? n) eqn:E1; [|lia]. cbn [exec].
    eexists. split; [apply fin_eq; cbn; try reflexivity; symmetry; apply RC|]. split; [split; [reflexivity|assumption]|]. split; cbn; auto; try lia. apply same_ops_refl.
  - cbn [next_result]. rewrite next_step by (assumption || reflexivity). change (0 =? 0) with true. cbn [negb]. cbv zeta.
    rewrite exec_bind, src_tail_long by assumption. cbn [res_eqb negb exec].
    eexists. split; [apply fin_eq; cbn; try reflexivity; symmetry; apply RC|]. split; [reflexivity|]. split; cbn; auto; try lia. apply same_ops_refl.
  - cbn [next_result]. rewrite next_step by (assumption || reflexivity). change (0 =? 0) with true. cbn [negb]. cbv zeta.
    destruct (src_tail_bad (r_rdwr r) (match r_tmp r with Some c => c | None => control_init end) p rest RC Hn B) as (c' & rw' & E & So).
    rewrite exec_bind, E. cbn [res_eqb negb exec].
    eexists. split; [apply fin_eq; cbn; try reflexivity; symmetry; apply RC|]. split; [reflexivity|]. split; cbn; auto; try lia.
Qed.


(** ** Reading to the end *)
Definition dead (r : reader) : Prop := r_state r = rs_failed \/ r_state r = rs_closing.

Lemma dead_reads fuel r s m : dead r ->
  exec src s (do_rcalls fuel r (repeat RRead m)) = (s, Done (repeat (r_failure, None) m, r)).
Proof.
  intros D. induction m as [|m IH]; [reflexivity|]. cbn [repeat do_rcalls do_rcall].
  rewrite exec_bind. unfold reader_read, reader_maybe_open.
  destruct D as [E|E]; rewrite E; cbn [bind res_eqb negb]; rewrite E; cbn [exec]; rewrite exec_bind, IH; reflexivity.
Qed.

Lemma ended_dead e r : ended e r -> dead r.
Proof. unfold dead. destruct e; cbn; tauto. Qed.

Lemma read_opened fuel r : r_state r = rs_opened -> reader_read fuel r = reader_next_data fuel r.
Proof.
  intro E. unfold reader_read, reader_maybe_open. rewrite E. cbn [bind res_eqb negb]. rewrite E. reflexivity.
Qed.

Definition read_results (ds : list bytes) (e : ending) (m : nat) : list (res * option bytes) :=
  map (fun d => (r_success, Some d)) ds ++ (ending_result eofr e, None) :: repeat (r_failure, None) m.

Lemma reads_spec max m ds : forall inp e rest r fuel,
  parse max inp ds e rest -> (e = E_eof -> eofok) -> reading max r -> (length inp < fuel)%nat ->
  exists r', exec src (rep true inp) (do_rcalls fuel r (repeat RRead (length ds + 1 + m))) =
    (rep (rw_opened (r_rdwr r')) rest, Done (read_results ds e m, r')) /\ ended e r' /\ same_r r r'.
Proof.
  induction ds as [|d ds IH]; intros inp e rest r fuel P EK R F;
    pose proof (parse_next _ _ _ _ _ P EK r fuel R F) as N; cbn [next_result] in N.
  - destruct N as (r' & E & En & Sm). exists r'. split; [|auto].
    cbn [length Nat.add repeat do_rcalls do_rcall]. rewrite exec_bind, read_opened, E by apply R.
    rewrite exec_bind, dead_reads by (eapply ended_dead; eassumption). reflexivity.
  - destruct N as (r' & inp' & E & P' & L & R' & Sm).
    destruct (IH inp' e rest r' fuel P' EK R') as (r2 & E2 & En2 & Sm2); [lia|].
    exists r2. split; [|split; [assumption|eapply same_r_trans; eassumption]].
    cbn [length Nat.add repeat do_rcalls do_rcall]. rewrite exec_bind, read_opened, E by apply R.
    rewrite exec_bind, E2. reflexivity.
Qed.

End Src.

(** Why a reader leaves its transport open. *)
From Verif Require Import Bytes Spec Bytes_proofs Io Io_proofs SpecTrace SpecStream
  Control Control_proofs Rdwr Rdwr_proofs Reader Api SpecApi SpecReader
  Writer_proofs Writer2_proofs Reader_source_proofs Reader_proofs Reader2_proofs Reader3_proofs Reader6_proofs Capture2_proofs.
Local Open Scope N_scope.

(** ** Bytes that are not the beginning of a control frame *)
Definition bad_tail (x : bytes) : Prop :=
  (exists n, CTL_MAX < n /\ n < 2 ^ 32 /\ x = be32 n) \/
  (exists p, lenN p <= CTL_MAX /\ (forall t cts, ctl_ok t cts -> p <> ctl_payload t cts) /\ x = be32 (lenN p) ++ p).

Definition never (ok : list bytes -> Prop) (t : N) (x : bytes) : Prop :=
  forall cts rest more, ctl_ok t cts -> ok cts -> ctl_frame t cts ++ more <> x ++ rest.

Lemma be32_head a b x y : a < 2 ^ 32 -> b < 2 ^ 32 -> be32 a ++ x = be32 b ++ y -> a = b /\ x = y.
Proof.
  intros A B E. apply app_eq_len in E as [E ->]; [|rewrite !length_be32; reflexivity].
  split; [apply be32_inj; assumption|reflexivity].
Qed.

Lemma ctl_len32 t cts : ctl_ok t cts -> lenN (ctl_payload t cts) < 2 ^ 32.
Proof. intro K. pose proof (ok_total _ _ K). unfold CTL_MAX in *. change (2 ^ 32) with 4294967296. lia. Qed.

Lemma ctl_head t cts n x y : ctl_ok t cts -> n < 2 ^ 32 -> ctl_frame t cts ++ x = be32 0 ++ be32 n ++ y ->
  n = lenN (ctl_payload t cts) /\ ctl_payload t cts ++ x = y.
Proof.
  intros K L E. unfold ctl_frame in E. rewrite <- !app_assoc in E.
  apply be32_head in E as [_ E]; [|reflexivity|reflexivity].
  apply be32_head in E as [-> E]; auto. apply ctl_len32. assumption.
Qed.

Lemma bad_tail_never ok t x : bad_tail x -> never ok t (be32 0 ++ x).
Proof.
  intros [(n & A & B & ->)|(p & A & B & ->)] cts rest more K _ E; rewrite <- ?app_assoc in E.
  - apply ctl_head in E as [-> _]; auto. pose proof (ok_total _ _ K). lia.
  - apply ctl_head in E as [EL E]; auto.
    + apply app_eq_len in E as [E _]; [|unfold lenN in EL; lia]. apply (B _ _ K). symmetry. exact E.
    + unfold CTL_MAX in A. change (2 ^ 32) with 4294967296. lia.
Qed.

Lemma nonzero_never ok t n : n < 2 ^ 32 -> n <> 0 -> never ok t (be32 n).
Proof.
  intros L N0 cts rest more K _ E. unfold ctl_frame in E. rewrite <- !app_assoc in E.
  apply be32_head in E as [E _]; [congruence|reflexivity|exact L].
Qed.

Lemma ctl_frame_head t cts t' cts' x y : ctl_ok t cts -> ctl_ok t' cts' ->
  ctl_frame t cts ++ x = ctl_frame t' cts' ++ y -> t = t' /\ cts = cts' /\ x = y.
Proof.
  intros K K' E. unfold ctl_frame in E at 2. rewrite <- !app_assoc in E.
  apply ctl_head in E as [EL E]; auto; [|apply ctl_len32; assumption].
  apply app_eq_len in E as [E ->]; [|unfold lenN in EL; lia].
  destruct (ctl_payload_inj _ _ _ _ K K' E) as [-> ->]. auto.
Qed.

Lemma other_never (ok : list bytes -> Prop) t t' cts' : ctl_ok t' cts' -> (t = t' -> ~ ok cts') -> never ok t (ctl_frame t' cts').
Proof.
  intros K' N cts rest more K O E. apply ctl_frame_head in E as (-> & -> & _); auto. apply N; auto.
Qed.

(** ** One control frame *)
Lemma tail_open rw c (Q : post _) h :
  rw_has_close rw = true -> rw_has_read rw = true -> RWI rw h ->
  (forall h', Q h' Cut) ->
  (forall h' c', RWI rw h' -> ctl_ok (c_type c') (c_cts c') ->
     received h' = received h ++ be32 (lenN (ctl_payload (c_type c') (c_cts c'))) ++ ctl_payload (c_type c') (c_cts c') ->
     Q h' (Done (r_success, Some (c_type c'), c', rw))) ->
  (forall h' r t c' rw', r <> r_success -> same_ops rw rw' -> RWI rw' h' ->
     rw_opened rw' = false \/ (exists x, bad_tail x /\ received h' = received h ++ x) -> Q h' (Done (r, t, c', rw'))) ->
  wp (read_control_frame_tail rw c) Q h.
Proof.
  intros HC HR HI Hcut HS HF. unfold read_control_frame_tail. apply wp_bind_i.
  apply (wp_rdwr_read okS); auto; unfold bind_post; try (intros; apply Hcut).
  2:{ intros h1 r Hr HI1 HQ1 _ _. rewrite Writer2_proofs.ne_eqb by assumption.
      cbn. apply HF; auto. apply same_ops_set. }
  intros h1 b Hop Lb HI1 HQ1 HR1. cbn [res_eqb negb].
  set (len := ntohl_bytes b).
  assert (Eb : b = be32 len).
  { unfold len. rewrite be32_ntohl by (unfold lenN in Lb; lia). symmetry. apply firstn_all2. unfold lenN in Lb. lia. }
  assert (Hlen : len < 2 ^ 32) by apply ntohl_lt.
  unfold FSTRM_CONTROL_FRAME_LENGTH_MAX. destruct (512 <? len) eqn:EL.
  { cbn. apply HF; auto; try discriminate; [apply same_ops_refl|]. right. exists b. split; [|exact HR1].
    left. exists len. apply N.ltb_lt in EL. unfold CTL_MAX. auto. }
  assert (Cont : forall h2, RWI rw h2 -> received h2 = received h1 ->
    wp (bind (rdwr_read rw len) (fun z => match z with (r, frame, rw) =>
      if negb (res_eqb r r_success) then Ret (r, None, c, rw)
      else bind (lift (control_decode c frame len 0)) (fun z => match z with (r, c') =>
        if negb (res_eqb r r_success) then Ret (r, None, c', rw)
        else match control_get_type c' with
             | (r_success, t) => Ret (r_success, t, c', rw)
             | (r, t) => Ret (r, t, c', rw)
             end end) end)) Q h2).
  { intros h2 HI2 HR2. apply wp_bind_i. apply (wp_rdwr_read okS); auto; unfold bind_post; try (intros; apply Hcut).
    - intros h3 frame _ Lf HI3 HQ3 HR3. cbn [res_eqb negb]. rewrite <- Lf.
      destruct (decode_noheader c frame) as (r & c' & D & Hr & Hs).
      rewrite D. cbn [lift bind].
      destruct Hr as [-> | ->].
      + destruct (Hs eq_refl) as [K ->]. cbn [res_eqb negb].
        rewrite (get_type_ok _ (ok_type _ _ K)). cbn. apply HS; auto.
        rewrite HR3, HR2, HR1, <- app_assoc, Eb, Lf. reflexivity.
      + cbn. apply HF; auto; try discriminate; [apply same_ops_refl|]. right. exists (be32 (lenN frame) ++ frame).
        split; [|rewrite HR3, HR2, HR1, <- app_assoc, Eb, Lf; reflexivity].
        right. exists frame. split; [unfold CTL_MAX; lia|]. split; [|reflexivity].
        intros t cts K E. rewrite E in D.
        pose proof (control_decode_complete c t cts 0 [] K) as D'.
        change (N.odd 0) with false in D'. cbn [ctl_wire] in D'. rewrite app_nil_r in D'. congruence.
    - intros h3 r Hr HI3 HQ3 _ _. rewrite Writer2_proofs.ne_eqb by assumption.
      cbn. apply HF; auto. apply same_ops_set. }
  destruct (len =? 0).
  - cbn [ask_unit bind wp]. split; [apply Hcut|].
    intros a Ha. destruct a; try contradiction. cbn [bind].
    apply Cont.
    + unfold RWI in *. rewrite transport_state_snoc, HI1. reflexivity.
    + rewrite received_snoc. reflexivity.
  - cbn [bind]. apply Cont; auto.
Qed.

Lemma control_open rw oc t (Q : post _) h :
  rw_has_close rw = true -> rw_has_read rw = true -> RWI rw h ->
  (forall h', Q h' Cut) ->
  (forall h' cts, RWI rw h' -> ctl_ok t cts -> received h' = received h ++ ctl_frame t cts ->
     Q h' (Done (r_success, Some (mk_control t cts), rw))) ->
  (forall h' r c' rw', r <> r_success -> same_ops rw rw' -> RWI rw' h' ->
     rw_opened rw' = false \/ (exists x, (forall ok, never ok t x) /\ received h' = received h ++ x) ->
     Q h' (Done (r, Some c', rw'))) ->
  wp (read_control rw oc t) Q h.
Proof.
  intros HC HR HI Hcut HS HF. unfold read_control. apply wp_bind_i.
  set (c := match oc with Some c => c | None => control_init end).
  unfold read_control_frame; cbv iota. apply wp_bind_i. apply (wp_rdwr_read okS); auto; unfold bind_post; try (intros; apply Hcut).
  2:{ intros h1 r Hr HI1 HQ1 _ _. pose proof (Writer2_proofs.ne_eqb r Hr) as E. rewrite E. cbn. rewrite E. cbn. apply HF; auto. apply same_ops_set. }
  intros h1 b Hop Lb HI1 HQ1 HR1. cbn [res_eqb negb].
  assert (Eb : b = be32 (ntohl_bytes b)).
  { rewrite be32_ntohl by (unfold lenN in Lb; lia). symmetry. apply firstn_all2. unfold lenN in Lb. lia. }
  pose proof (ntohl_lt b) as Hlen.
  destruct (ntohl_bytes b =? 0) eqn:E0; cbn [negb].
  2:{ apply N.eqb_neq in E0. cbn. apply HF; auto; try discriminate; [apply same_ops_refl|]. right.
      exists b. split; [|exact HR1]. intro ok. rewrite Eb. apply nonzero_never; assumption. }
  apply N.eqb_eq in E0. rewrite E0 in Eb.
  apply tail_open; auto.
  - intros h2 c' HI2 K HR2. cbn [res_eqb negb].
    assert (R2 : received h2 = received h ++ ctl_frame (c_type c') (c_cts c')).
    { rewrite HR2, HR1, Eb, <- app_assoc. reflexivity. }
    destruct (c_type c' =? t) eqn:EW; cbn.
    + apply N.eqb_eq in EW. subst t. destruct c' as [t cts]. apply HS; auto.
    + apply N.eqb_neq in EW. apply HF; auto; try discriminate; [apply same_ops_refl|]. right. eexists. split; [|exact R2].
      intro ok. apply other_never; [exact K|congruence].
  - intros h2 r t' c' rw' Hr Hso HI2 W. rewrite Writer2_proofs.ne_eqb by assumption.
    cbn. apply HF; auto. destruct W as [W|(x & B & E)]; [left; exact W|right].
    exists (be32 0 ++ x). split; [intro ok; apply bad_tail_never; assumption|]. rewrite E, HR1, Eb, <- app_assoc. reflexivity.
Qed.

(** ** Opening *)
Lemma uni_open bi wanted max r (Q : post _) h :
  rok bi wanted max r -> RWI (r_rdwr r) h ->
  (forall h', Q h' Cut) ->
  (forall h' r', Q h' (Done (r_success, r'))) ->
  (forall h' x r', x <> r_success -> r_state r' = r_state r ->
     rw_opened (r_rdwr r') = false \/ (exists y, never (start_accepted wanted) T_START y /\ received h' = received h ++ y) ->
     Q h' (Done (x, r'))) ->
  wp (reader_open_unidirectional r) Q h.
Proof.
  intros R HI Hcut HS HF. unfold reader_open_unidirectional. apply wp_bind_i.
  apply control_open; try apply R; auto; unfold bind_post; try (intros; apply Hcut).
  - intros h' st HI' K Hr. cbn [res_eqb negb]. cbv zeta. cbn [set_rstart set_rrdwr r_cts].
    pose proof (start_loop_accepted st wanted K) as SL. rewrite (ro_want _ _ _ _ R).
    destruct (start_match_loop (mk_control FSTRM_CONTROL_START st) wanted true) eqn:E; cbn [negb].
    + apply HS.
    + apply HF; cbn; auto; try discriminate. right. eexists. split; [|exact Hr].
      apply other_never; auto. intros _ A. apply SL in A. change T_START with FSTRM_CONTROL_START in A. congruence.
  - intros h' x c' rw' Hx So HI' W. cbv zeta. rewrite Writer2_proofs.ne_eqb by assumption. cbn [negb].
    apply HF; cbn; auto. destruct W as [W|(y & N & E)]; eauto.
Qed.

(** The two ways bytes can be refused. *)
Lemma never_refused_uni wanted max b : never (start_accepted wanted) T_START b -> refused false wanted max b.
Proof.
  intros N rest (hd & b' & ds & (rdy & st & _ & KS & A & ->) & _ & E). cbn [app] in E.
  destruct E as [E|E]; symmetry in E; exact (N st _ _ KS A E).
Qed.

Lemma never_refused_ready wanted max b : (forall ok, never ok T_READY b) -> refused true wanted max b.
Proof.
  intros N rest (hd & b' & ds & (rdy & st & KR & KS & A & ->) & _ & E). rewrite <- !app_assoc in E.
  destruct E as [E|E]; symmetry in E; exact (N (fun _ => True) rdy _ _ KR I E).
Qed.

Lemma never_refused_start wanted max rdy b : ctl_ok T_READY rdy -> never (start_accepted wanted) T_START b ->
  refused true wanted max (ctl_frame T_READY rdy ++ b).
Proof.
  intros K N rest (hd & b' & ds & (rdy' & st & KR & KS & A & ->) & _ & E). rewrite <- !app_assoc in E.
  destruct E as [E|E]; symmetry in E; apply ctl_frame_head in E as (_ & _ & E); auto; exact (N st _ _ KS A E).
Qed.

Definition why (bi : bool) (wanted : list bytes) (max : N) (b : bytes) : Prop :=
  refused bi wanted max b \/ (bi = true /\ unanswerable wanted b).

Lemma open_open bi wanted max r (Q : post _) h :
  rok bi wanted max r -> RWI (r_rdwr r) h ->
  (forall h', Q h' Cut) ->
  (forall h' r', r_state r' = rs_opened -> Q h' (Done (r_success, r'))) ->
  (forall h' x r', x <> r_success -> r_state r' = r_state r ->
     rw_opened (r_rdwr r') = false \/ why bi wanted max (received h') \/ (r_rdwr r' = r_rdwr r /\ received h' = received h) ->
     Q h' (Done (x, r'))) ->
  wp (reader_open r) Q h.
Proof.
  intros R HI Hcut HS HF. unfold reader_open.
  assert (Go : wp (bind (rdwr_open (r_rdwr r)) (fun z => match z with (x, rw) =>
      let r := set_rrdwr r rw in
      if negb (res_eqb x r_success) then Ret (x, r)
      else bind (if rw_has_write (r_rdwr r) then reader_open_bidirectional r
                     else reader_open_unidirectional r) (fun z => match z with (x, r) =>
        if negb (res_eqb x r_success) then Ret (x, r)
        else Ret (r_success, set_rstate r rs_opened) end) end)) Q h).
  2:{ destruct (r_state r) eqn:E; try exact Go. apply HF; auto. discriminate. }
  apply wp_bind_i.
  apply (wp_rdwr_open okS); try apply R; auto; unfold bind_post; try (intros; apply Hcut).
  2:{ intros h1 x _ Hx HI1 _ Hr1. cbv zeta. rewrite Writer2_proofs.ne_eqb by assumption. cbn. apply HF; cbn; auto. }
  intros h1 _ HI1 _ Hr1. cbn [res_eqb negb]. cbv zeta. cbn [set_rrdwr r_rdwr set_opened rw_has_write].
  rewrite (ro_write _ _ _ _ R). apply wp_bind_i.
  set (r1 := set_rrdwr r (set_opened (r_rdwr r) true)).
  assert (SD1 : same_rd r r1) by (split; cbn; auto; try apply same_ops_set; lia).
  assert (R1 : rok bi wanted max r1) by (eapply rok_same; eassumption).
  destruct bi.
  2:{ apply (uni_open false wanted max); auto; unfold bind_post; try (intros; apply Hcut).
      - intros h2 r2. cbn. apply HS. reflexivity.
      - intros h2 x r2 Hx St W. rewrite Writer2_proofs.ne_eqb by assumption. cbn. apply HF; auto.
        destruct W as [W|(y & N & E)]; [auto|]. right. left. left. rewrite E, Hr1. apply never_refused_uni. exact N. }
  unfold reader_open_bidirectional. apply wp_bind_i.
  apply control_open; try apply R1; auto; unfold bind_post; try (intros; apply Hcut).
  2:{ intros h2 x c' rw' Hx So HI2 W. cbv zeta. rewrite Writer2_proofs.ne_eqb by assumption. cbn [negb]. cbn. rewrite Writer2_proofs.ne_eqb by assumption. cbn.
      apply HF; cbn; auto. destruct W as [W|(y & N & E)]; [auto|]. right. left. left. rewrite E, Hr1. apply never_refused_ready. exact N. }
  intros h2 rdy HI2 K2 Hr2. rewrite Hr1 in Hr2. cbn [app] in Hr2. cbn [res_eqb negb]. cbv zeta.
  set (rd2 := mk_control FSTRM_CONTROL_READY rdy) in *.
  set (acc0 := match r_accept _ with Some a => control_reset a | None => control_init end).
  assert (E0 : acc0 = mk_control 0 []) by (unfold acc0; destruct (r_accept _); reflexivity).
  rewrite E0. unfold control_set_type. change (type_known FSTRM_CONTROL_ACCEPT) with true. cbn iota.
  rewrite accept_loop_eq. cbn [c_type c_cts app set_rready set_rrdwr r_cts]. change (r_cts r1) with (r_cts r).
  rewrite (ro_want _ _ _ _ R).
  set (acts := filter (ready_accepts rd2) wanted).
  apply wp_bind_i. rewrite write_control_frame_eq. cbn [c_type c_cts].
  destruct (encodable true FSTRM_CONTROL_ACCEPT acts) eqn:EN.
  2:{ unfold bind_post. cbn. apply HF; auto; try discriminate. right. left. right. split; [reflexivity|].
      exists rdy, acts. split; [exact K2|]. split; [exact Hr2|]. split; [apply answer_filter; exact K2|].
      intro F. change acts with (visible FSTRM_CONTROL_ACCEPT acts) in F. apply encodable_fits in F. congruence. }
  apply (wp_rdwr_write okS eq_refl); cbn [set_raccept set_rready set_rrdwr r_rdwr c_type c_cts]; try apply R1; auto; try (intros; apply Hcut).
  - intros h3 _ HI3 _ Hr3. unfold bind_post. cbn [res_eqb negb]. cbv zeta.
    set (r2 := set_rrdwr (set_raccept _ _) _).
    assert (SD2 : same_rd r r2) by (split; cbn; auto; try apply same_ops_set; lia).
    assert (R2 : rok true wanted max r2) by exact (rok_same _ _ _ _ _ R SD2).
    apply (uni_open true wanted max); auto; unfold bind_post; try (intros; apply Hcut).
    + intros h4 r4. cbn. apply HS. reflexivity.
    + intros h4 x r4 Hx St W. rewrite Writer2_proofs.ne_eqb by assumption. cbn. apply HF; auto.
      destruct W as [W|(y & N & E)]; [auto|]. right. left. left. rewrite E, Hr3, Hr2. apply never_refused_start; assumption.
  - intros h3 x Hx _ _ _ _. unfold bind_post. rewrite Writer2_proofs.ne_eqb by assumption. cbn [negb]. cbv zeta. cbn.
    rewrite Writer2_proofs.ne_eqb by assumption. cbn. apply HF; cbn; auto.
Qed.

(** ** Reading *)
Lemma carries_parse max b ds : carries max b ds -> forall inp ds' e rest, parse max inp ds' e rest ->
  parse max (b ++ inp) (ds ++ ds') e rest.
Proof.
  induction 1 as [|b ds p C IH K L|b ds t cts C IH K N]; intros inp ds' e rest P; [exact P| |].
  - rewrite <- !app_assoc. apply IH. cbn [app]. apply p_data; assumption.
  - rewrite <- !app_assoc. apply IH. apply p_skip; assumption.
Qed.

Definition bad_body (max : N) (x : bytes) : Prop :=
  (exists n, max < n /\ 1 <= n /\ n < 2 ^ 32 /\ x = be32 n) \/ (exists y, bad_tail y /\ x = be32 0 ++ y).

Lemma bad_body_parse max x rest : bad_body max x -> exists e, parse max (x ++ rest) [] e rest /\ (e = E_badctl \/ e = E_oversize).
Proof.
  intros [(n & A & B & C & ->)|(y & [(n & A & B & ->)|(p & A & B & ->)] & ->)].
  - exists E_oversize. split; [apply p_over; assumption|auto].
  - exists E_badctl. rewrite <- app_assoc. split; [apply p_ctl_long; assumption|auto].
  - exists E_badctl. rewrite <- !app_assoc. split; [apply p_ctl_bad; assumption|auto].
Qed.

Lemma head_head bi wanted hd hd' x y : reader_head bi wanted hd -> reader_head bi wanted hd' ->
  hd ++ x = hd' ++ y -> x = y.
Proof.
  intros (rdy & st & KR & KS & _ & ->) (rdy' & st' & KR' & KS' & _ & ->) E. destruct bi; rewrite <- !app_assoc in E.
  - apply ctl_frame_head in E as (_ & _ & E); auto. apply ctl_frame_head in E as (_ & _ & E); auto.
  - apply ctl_frame_head in E as (_ & _ & E); auto.
Qed.

Lemma bad_body_refused bi wanted max hd b ds x : reader_head bi wanted hd -> carries max b ds -> bad_body max x ->
  refused bi wanted max (hd ++ b ++ x).
Proof.
  intros H C B rest (hd' & b' & ds' & H' & C' & E). rewrite <- !app_assoc in E.
  destruct (bad_body_parse max x rest B) as (e & P & He).
  pose proof (carries_parse _ _ _ C _ _ _ _ P) as P1.
  assert (P2 : exists e' r', parse max (b ++ x ++ rest) (ds' ++ []) e' r' /\ (e' = E_eof \/ e' = E_stop)).
  { destruct E as [E|E]; apply (head_head _ _ _ _ _ _ H H') in E; rewrite E.
    - exists E_eof, []. rewrite <- (app_nil_r b'). split; [|auto]. apply (carries_parse _ _ _ C'). apply p_eof_len. reflexivity.
    - exists E_stop, []. split; [|auto]. apply (carries_parse _ _ _ C'). rewrite <- (app_nil_r stop_frame). apply p_stop. }
  destruct P2 as (e' & r' & P2 & He'). destruct (parse_det _ _ _ _ _ _ _ _ P1 P2) as (_ & EE & _).
  destruct He as [-> | ->], He' as [-> | ->]; discriminate.
Qed.

Lemma next_open bi wanted max (Q : post _) hd : forall fuel r h b ds,
  rok bi wanted max r -> RWI (r_rdwr r) h -> r_state r = rs_opened ->
  reader_head bi wanted hd -> carries max b ds -> received h = hd ++ b ->
  (forall h', Q h' Cut) -> (forall h' f, Q h' (Stuck f)) ->
  (forall h' x d r', r_state r' = rs_opened \/ r_state r' = rs_closing \/ rw_opened (r_rdwr r') = false \/ refused bi wanted max (received h') ->
     Q h' (Done (x, d, r'))) ->
  wp (reader_next_data fuel r) Q h.
Proof.
  induction fuel as [|fuel IH]; intros r h b ds R HI St HH CA Hr Hcut Hst HD; [apply Hst|].
  cbn [reader_next_data]. unfold reader_read_be32. apply wp_bind_i, wp_bind_i.
  apply (wp_rdwr_read okS); try apply R; auto; try (intros; apply Hcut).
  2:{ intros h1 x Hx HI1 _ _ _. unfold bind_post. cbn [wp]. rewrite Writer2_proofs.ne_eqb by assumption. cbn [negb wp]. apply HD; cbn; auto. }
  intros h1 bs _ Lb HI1 _ Hr1. unfold bind_post. cbn [wp res_eqb negb].
  set (len := ntohl_bytes bs).
  assert (Eb : bs = be32 len).
  { unfold len. rewrite be32_ntohl by (unfold lenN in Lb; lia). symmetry. apply firstn_all2. unfold lenN in Lb. lia. }
  assert (Hlen : len < 2 ^ 32) by apply ntohl_lt.
  assert (E1 : set_rrdwr r (r_rdwr r) = r) by (destruct r; reflexivity). rewrite E1.
  destruct (len =? 0) eqn:E0; cbn [negb].
  - apply N.eqb_eq in E0. set (c := match r_tmp r with Some c => c | None => control_init end).
    unfold read_control_frame. apply wp_bind_i. apply tail_open; try apply R; auto; try (intros; apply Hcut).
    + intros h2 c' HI2 K Hr2. unfold bind_post. cbn [res_eqb negb]. cbv zeta.
      assert (Hr2' : received h2 = hd ++ b ++ ctl_frame (c_type c') (c_cts c')).
      { rewrite Hr2, Hr1, Hr, Eb, E0. unfold ctl_frame. rewrite <- !app_assoc. reflexivity. }
      destruct (c_type c' =? FSTRM_CONTROL_STOP) eqn:ES; [cbn [wp]; apply HD; cbn; auto|].
      apply N.eqb_neq in ES. set (r2 := set_rtmp _ _).
      assert (SD : same_rd r r2) by (split; cbn; auto; try apply same_ops_refl; lia).
      apply (IH r2 h2 (b ++ ctl_frame (c_type c') (c_cts c')) ds); auto.
      * exact (rok_same _ _ _ _ _ R SD).
      * apply c_ctl; auto.
    + intros h2 x t c' rw' Hx So HI2 W. unfold bind_post. cbv zeta. rewrite Writer2_proofs.ne_eqb by assumption. cbn [negb wp].
      apply HD; cbn. destruct W as [W|(y & B & E)]; [auto|]. do 3 right.
      assert (ER : received h2 = hd ++ b ++ be32 0 ++ y) by (rewrite E, Hr1, Hr, Eb, E0, <- !app_assoc; reflexivity).
      rewrite ER. eapply bad_body_refused; try eassumption. right. exists y. auto.
  - apply N.eqb_neq in E0. rewrite (ro_maxf _ _ _ _ R). destruct (max <? len) eqn:EM.
    { apply N.ltb_lt in EM. cbn [wp]. apply HD; cbn. do 3 right. rewrite Hr1, Hr, <- app_assoc.
      eapply bad_body_refused; try eassumption. left. exists len. repeat split; auto. lia. }
    destruct (reserve_64 (r_alloc r) len) as (a & Ea & A1 & A2); [apply R|assumption|]. rewrite Ea. cbv zeta.
    destruct (a <? len) eqn:E2; [apply Hst|]. apply wp_bind_i. cbn [set_ralloc r_rdwr].
    apply (wp_rdwr_read okS); try apply R; auto; try (intros; apply Hcut).
    + intros h2 data _ Ld HI2 _ Hr2. unfold bind_post. cbn [res_eqb negb wp]. apply HD; cbn; auto.
    + intros h2 x Hx HI2 _ _ _. unfold bind_post. rewrite Writer2_proofs.ne_eqb by assumption. cbn [negb wp]. apply HD; cbn; auto.
Qed.

(** ** Histories *)
Definition J (bi : bool) (wanted : list bytes) (max : N) (r : reader) (h : trace) : Prop :=
  rw_opened (r_rdwr r) = true -> r_state r = rs_opened \/ r_state r = rs_closing \/ why bi wanted max (received h).

Section Hist.
Variables (bi : bool) (wanted : list bytes) (max : N).
Local Notation RI := (RI okS bi wanted max).
Local Notation J := (J bi wanted max).

Definition keeps {A} (pr : A -> reader) (p : io A) (h : trace) : Prop :=
  wp p (fun h' o => match o with Done a => J (pr a) h' | _ => True end) h.

Lemma J_open r h ph : RI r h ph -> J r h -> keeps snd (reader_open r) h.
Proof.
  intros I0 H. unfold keeps. apply (open_open bi wanted max); try apply I0; auto.
  - intros h' r' St. intros _. auto.
  - intros h' x r' _ St W Ho. cbn [snd] in *. destruct W as [W|[W|[E1 E2]]]; [congruence|auto|].
    rewrite St, E2. apply H. congruence.
Qed.

(** Opening when needed leaves a reader as described by one of the phases. *)
Lemma J_maybe r h ph : RI r h ph -> J r h ->
  wp (reader_maybe_open r) (fun h' o => match o with Done (x, r') => J r' h' /\ exists ph', RI r' h' ph' | _ => True end) h.
Proof.
  intros I0 H. unfold reader_maybe_open.
  assert (O : wp (bind (reader_open r) (fun z => match z with (x, r) => if negb (res_eqb x r_success) then Ret (x, r) else Ret (r_success, r) end))
     (fun h' o => match o with Done (x, r') => r_state r <> rs_opening \/ (J r' h' /\ exists ph', RI r' h' ph') | _ => True end) h).
  { destruct (match r_state r with rs_opening => true | _ => false end) eqn:E.
    2:{ eapply wp_mono; [|apply wp_true]. intros h' [[x r']|f|] _; auto. left. destruct (r_state r); congruence. }
    assert (ES : r_state r = rs_opening) by (destruct (r_state r); congruence).
    assert (NR : forall ds, ph <> P_reading ds) by (intros ds ->; rewrite (ri_state _ _ _ _ _ _ _ I0) in ES; discriminate).
    apply wp_bind_i. eapply wp_mono; [|apply wp_and; [apply (J_open _ _ _ I0 H)|]].
    2:{ apply (wp_open_RI okS eq_refl bi wanted max r (fun h' o => match o with Done (_, r') => exists ph', RI r' h' ph' | _ => True end) h ph I0 NR); eauto. }
    intros h' [[x r']|f|] [J1 R1]; cbn [bind_post]; auto. destruct (negb _); cbn; right; split; auto. }
  destruct (r_state r) eqn:E; try (cbn; split; [assumption|eauto]).
  eapply wp_mono; [|exact O]. intros h' [[x r']|f|] W; auto. destruct W as [W|W]; [congruence|exact W].
Qed.

Lemma J_next fuel r h ph : RI r h ph -> r_state r = rs_opened -> keeps snd (reader_next_data fuel r) h.
Proof.
  intros I0 St. pose proof (ri_state _ _ _ _ _ _ _ I0) as E. rewrite St in E. destruct ph; try discriminate.
  destruct (ri_recv _ _ _ _ _ _ _ I0) as (hd & b & H1 & H2 & H3). unfold keeps.
  eapply (next_open bi wanted max _ hd fuel r h b ds); try apply I0; auto.
  intros h' x d r' W Ho. cbn [snd] in *. destruct W as [W|[W|[W|W]]]; auto; [congruence|]. right. right. left. exact W.
Qed.

Lemma J_close r h ph : RI r h ph -> J r h -> keeps snd (reader_close r) h.
Proof.
  intros I0 H. unfold keeps.
  assert (CL : (r_state r = rs_opened \/ r_state r = rs_closing) ->
    wp (reader_close r) (fun h' o => match o with Done a => J (snd a) h' | _ => True end) h).
  { intro S. apply (wp_close_r okS eq_refl bi wanted max); try apply I0; auto.
    intros h' x r' _ _ Ho _ _ O. cbn [snd] in *. congruence. }
  destruct (r_state r) eqn:E; try (apply CL; auto; fail); unfold reader_close; rewrite E; cbn; exact H.
Qed.

Lemma J_rcall fuel r c h ph : RI r h ph -> J r h -> keeps snd (do_rcall fuel r c) h.
Proof.
  intros I0 H. unfold keeps. destruct c; cbn [do_rcall].
  - apply wp_bind_i. eapply wp_mono; [|apply (J_open _ _ _ I0 H)]. intros h' [[x r']|f|] G; exact G.
  - unfold reader_read. apply wp_bind_i. eapply wp_mono; [|apply (J_maybe _ _ _ I0 H)].
    intros h' [[x r']|f|] G; cbn [bind_post]; auto. destruct G as [G [ph' I']]. destruct (negb _); [exact G|].
    destruct (r_state r') eqn:E; try exact G. apply (J_next fuel _ _ _ I' E).
  - apply wp_bind_i. eapply wp_mono; [|apply (J_close _ _ _ I0 H)]. intros h' [[x r']|f|] G; exact G.
  - unfold reader_get_control. apply wp_bind_i, wp_bind_i. eapply wp_mono; [|apply (J_maybe _ _ _ I0 H)].
    intros h' [[x r']|f|] G; cbn [bind_post]; auto. destruct G as [G _].
    repeat match goal with |- context [if ?b then _ else _] => destruct b end; exact G.
Qed.

Lemma J_rcalls fuel cs : forall r h ph, RI r h ph -> J r h ->
  wp (do_rcalls fuel r cs) (fun h' o => match o with Done (_, r') => J r' h' /\ exists ph', RI r' h' ph' | _ => True end) h.
Proof.
  induction cs as [|c cs IH]; intros r h ph I0 H; [cbn; eauto|].
  cbn [do_rcalls]. apply wp_bind_i.
  eapply wp_mono; [|apply wp_and; [|apply (J_rcall fuel r c _ _ I0 H)]].
  2:{ eapply wp_rcall with (okb := okS) (Q := fun h' o => match o with Done (_, r') => exists ph', RI r' h' ph' | _ => True end);
        try eassumption; auto. intros h' x r' ph' I' _. destruct x. exists ph'. exact I'. }
  intros h' [[[x d] r']|f|] [G J']; cbn [bind_post]; auto. destruct G as (ph' & I').
  apply wp_bind_i. eapply wp_mono; [|eapply IH; [exact I'|exact J']].
  intros h2 [[xs r2]|f|] G2; exact G2.
Qed.

Lemma destroy_why r h ph : RI r h ph -> J r h ->
  wp (reader_destroy r) (fun h' o => match o with Done _ => left_open h' -> why bi wanted max (received h') | _ => True end) h.
Proof.
  intros I0 H. unfold reader_destroy.
  assert (DEST : forall h1 rw1 x, rw_has_destroy rw1 = true -> RWI rw1 h1 -> (rw_opened rw1 = true -> why bi wanted max (received h1)) ->
     wp (bind (rdwr_destroy rw1) (fun _ => Ret x)) (fun h' (o : out res) => match o with Done _ => left_open h' -> why bi wanted max (received h') | _ => True end) h1).
  { intros h1 rw1 x D S1 W. unfold rdwr_destroy. rewrite D. cbn. split; [trivial|]. intros a Ha. destruct a; try contradiction. cbn.
    intros (tr' & hh & a & E & TO). apply app_inj_tail in E. destruct E as [<- _].
    rewrite received_snoc. cbn [in_step]. apply W. unfold RWI in S1. rewrite S1 in TO. destruct (rw_opened rw1); [reflexivity|discriminate]. }
  assert (CL : (r_state r = rs_opened \/ r_state r = rs_closing) ->
    wp (bind (reader_close r) (fun z => match z with (x, r) => bind (rdwr_destroy (r_rdwr r)) (fun _ => Ret x) end))
      (fun h' (o : out res) => match o with Done _ => left_open h' -> why bi wanted max (received h') | _ => True end) h).
  { intro Sc. apply wp_bind_i. apply (wp_close_r okS eq_refl bi wanted max); try apply I0; auto.
    { intros h' _. exact I. }
    intros h' x r' SD St Ho SRR SC. unfold bind_post.
    apply DEST; [exact (ro_destroy _ _ _ _ (rok_same _ _ _ _ _ (ri_ok _ _ _ _ _ _ _ I0) SD))|apply SRR|congruence]. }
  destruct (r_state r) eqn:E; try (apply CL; auto; fail); cbn [bind];
    (apply DEST; [apply I0|apply I0|]; intro Ho; destruct (H Ho) as [W|[W|W]]; [congruence|congruence|exact W]).
Qed.

End Hist.

Lemma reader_left_open_why o rw r fuel cs tr xs x :
  fresh_rdwr rw -> reader_init o rw = Some r ->
  runs (reader_life fuel r cs) tr (Done (xs, x)) -> left_open tr ->
  refused (rw_has_write rw) (ro_cts o) (ro_max o) (received tr) \/
  (rw_has_write rw = true /\ unanswerable (ro_cts o) (received tr)).
Proof.
  intros F H R.
  assert (W : wp (reader_life fuel r cs) (fun h out => match out with Done _ => left_open h -> why (rw_has_write rw) (ro_cts o) (ro_max o) (received h) | _ => True end) []).
  { unfold reader_life. apply wp_bind_i.
    eapply wp_mono; [|apply (J_rcalls (rw_has_write rw) (ro_cts o) (ro_max o) fuel cs r [] P_fresh)].
    - intros h1 [[xs1 r1]|f|] G; cbn [bind_post]; auto. destruct G as [J1 (ph1 & I1)]. apply wp_bind_i.
      eapply wp_mono; [|eapply destroy_why; eassumption]. intros h2 [y|f|] G2; exact G2.
    - apply RI_init; assumption.
    - intro Ho. destruct F as [F1 F2 F3 F4]. unfold reader_init in H. destruct (negb _); [discriminate|]. injection H as <-. cbn in Ho. congruence. }
  exact (wp_runs _ _ W _ _ R).
Qed.

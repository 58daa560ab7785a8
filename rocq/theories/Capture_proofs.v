(** Proofs about the model of fstrm_capture: encoding, output files, and the
    frames of the input buffer. *)
From Coq Require Import ZArith Lia.
From Verif Require Import Bytes Spec SpecTrace SpecStream Control Bytes_proofs Control_proofs Capture SpecCapture.
Import ListNotations.
Local Open Scope N_scope.

(** ** Control frames *)
Lemma encode_frame_eq k :
  encode_frame k =
  Ok (if encodable true (c_type k) (c_cts k)
      then Some (ctl_frame (c_type k) (visible (c_type k) (c_cts k))) else None).
Proof.
  unfold encode_frame. rewrite control_encode_eq.
  2:{ unfold lenN. rewrite repeat_length. reflexivity. }
  change (N.odd 1) with true. cbn [ctl_wire].
  destruct (encodable true (c_type k) (c_cts k)) eqn:E; cbn [andb]; [|reflexivity].
  unfold encodable in E. cbn [ctl_wire] in E. apply andb_true_iff in E as [_ E].
  unfold CTL_MAX in E. unfold FSTRM_CONTROL_FRAME_LENGTH_MAX. rewrite E.
  rewrite firstn_app_exact by apply lenN_length. reflexivity.
Qed.

Lemma lenN_ctl_payload1 t ct : lenN (ctl_payload t [ct]) = 12 + lenN ct.
Proof.
  unfold ctl_payload. cbn [map concat]. unfold ct_field.
  rewrite !lenN_app, !lenN_be32, lenN_nil. lia.
Qed.
Lemma lenN_ctl_frame t cts : lenN (ctl_frame t cts) = 8 + lenN (ctl_payload t cts).
Proof. unfold ctl_frame. rewrite !lenN_app, !lenN_be32. lia. Qed.

Lemma encodable1 t ct : t = T_START \/ t = T_ACCEPT ->
  encodable true t [ct] = (lenN ct <=? 256).
Proof.
  intro Ht. unfold encodable.
  replace (visible t [ct]) with [ct] by (destruct Ht; subst t; reflexivity).
  cbn [ctl_wire forallb]. rewrite lenN_ctl_frame, lenN_ctl_payload1. unfold CT_MAX, CTL_MAX.
  destruct (lenN ct <=? 256) eqn:E; cbn [andb]; [|reflexivity]. lia.
Qed.

Lemma close_write_stop_eq e c : close_write_stop e c = Go (fwrite e stop_frame c).
Proof.
  unfold close_write_stop. cbn [control_set_type].
  change (control_set_type control_init FSTRM_CONTROL_STOP) with (r_success, mk_control T_STOP []).
  cbv iota. rewrite encode_frame_eq. cbn [c_type c_cts].
  change (encodable true T_STOP []) with true. cbv iota. reflexivity.
Qed.

Lemma open_write_start_eq e a c :
  open_write_start e a c =
  if lenN (a_ctype a) <=? 256 then Go (flushed (fwrite e (start_frame (Some (a_ctype a))) c)) else Go (false, c).
Proof.
  unfold open_write_start.
  change (control_set_type control_init FSTRM_CONTROL_START) with (r_success, mk_control T_START []).
  cbv iota. unfold control_add_field. cbn [c_type c_cts app]. rewrite encode_frame_eq. cbn [c_type c_cts].
  rewrite encodable1 by auto. destruct (lenN (a_ctype a) <=? 256); reflexivity.
Qed.

Lemma write_control_frame_finish e id c :
  write_control_frame e id (mk_control T_FINISH []) c = Go (send_frame e id finish_frame c).
Proof.
  unfold write_control_frame. rewrite encode_frame_eq. cbn [c_type c_cts].
  change (encodable true T_FINISH []) with true. reflexivity.
Qed.

Lemma write_control_frame_accept e id ct c :
  write_control_frame e id (mk_control T_ACCEPT [ct]) c =
  if lenN ct <=? 256 then Go (send_frame e id (ctl_frame T_ACCEPT [ct]) c) else Go (false, c).
Proof.
  unfold write_control_frame. rewrite encode_frame_eq. cbn [c_type c_cts].
  rewrite encodable1 by auto. destruct (lenN ct <=? 256); reflexivity.
Qed.

(** ** Output files *)
Definition body (ct : bytes) (fs : list bytes) : bytes := start_frame (Some ct) ++ concat fs.

(** The current file is open and holds START and whole stored items; the ones
    before it are finished; together they hold everything stored. *)
Definition files_open (a : args) (c : ctx) : Prop :=
  lenN (a_ctype a) <= 256 /\ x_open c = true /\
  exists fss cur,
    map snd (x_outs c) = map (fun fs => body (a_ctype a) fs ++ stop_frame) fss ++ [body (a_ctype a) cur] /\
    concat fss ++ cur = stored (x_log c).

(** No file is open, all are finished. *)
Definition files_shut (a : args) (o : list (bytes * bytes)) (st : list bytes) : Prop :=
  exists fss,
    map snd o = map (fun fs => body (a_ctype a) fs ++ stop_frame) fss /\
    concat fss = st.

Lemma append_last_snoc o n d b : append_last (o ++ [(n, d)]) b = o ++ [(n, d ++ b)].
Proof.
  induction o as [|[n0 d0] o IH]; [reflexivity|].
  cbn [app append_last]. rewrite IH. destruct o; reflexivity.
Qed.

Lemma map_snd_snoc (o : list (bytes * bytes)) l d : map snd o = l ++ [d] ->
  exists o' n, o = o' ++ [(n, d)] /\ map snd o' = l.
Proof.
  intro H. destruct (exists_last (l := o)) as (o' & [n d'] & ->).
  { intros ->. destruct l; discriminate. }
  rewrite map_app in H. cbn in H. apply app_inj_tail in H as [H1 ->]. eauto.
Qed.

Lemma append_last_map o b l d : map snd o = l ++ [d] -> map snd (append_last o b) = l ++ [d ++ b].
Proof.
  intro H. apply map_snd_snoc in H as (o' & n & -> & <-).
  rewrite append_last_snoc, map_app. reflexivity.
Qed.

Lemma append_last_names o b : map fst (append_last o b) = map fst o.
Proof.
  induction o as [|[n d] o IH]; [reflexivity|]. cbn [append_last map fst] in *.
  destruct o; [reflexivity|]. cbn [map fst]. now rewrite IH.
Qed.

Lemma stored_snoc l id x : stored (l ++ [(id, x)]) = stored l ++ match x with Store b => [b] | _ => [] end.
Proof. unfold stored. rewrite map_app, concat_app. cbn [map concat snd]. now rewrite app_nil_r. Qed.

(** The part of the state that writing to files does not touch. *)
Definition same_conns (c c' : ctx) : Prop :=
  x_remaining c' = x_remaining c /\ x_listen c' = x_listen c /\ x_conns c' = x_conns c.
Lemma same_conns_refl c : same_conns c c.
Proof. repeat split. Qed.
Lemma same_conns_trans a b c : same_conns a b -> same_conns b c -> same_conns a c.
Proof. intros (?&?&?) (?&?&?). repeat split; congruence. Qed.

Lemma fwrite_inv e b c ok c' : fwrite e b c = (ok, c') ->
  same_conns c c' /\ x_log c' = x_log c /\ x_open c' = x_open c /\ x_ts c' = x_ts c /\
  x_outs c' = (if ok then append_last (x_outs c) b else x_outs c).
Proof. unfold fwrite. destruct (e_fwrite e (x_tick c)); intros [= <- <-]; repeat split. Qed.

Lemma close_write_file_inv e a c ok c' :
  files_open a c -> close_write_file e c = Go (ok, c') ->
  same_conns c c' /\ x_log c' = x_log c /\ x_ts c' = x_ts c /\
  (ok = true -> x_open c' = false /\ files_shut a (x_outs c') (stored (x_log c')) /\
                map fst (x_outs c') = map fst (x_outs c)).
Proof.
  intros (Hct & Ho & fss & cur & Hf & Hs) H. unfold close_write_file in H. rewrite Ho in H.
  rewrite close_write_stop_eq in H. cbn [rbind] in H.
  destruct (fwrite e stop_frame c) as [ok1 c1] eqn:W. apply fwrite_inv in W as (W1 & W2 & W3 & W4 & W5).
  destruct ok1; injection H as <- <-.
  - repeat split; try apply W1; try assumption; cbn [x_outs x_log set_outs note_io].
    + rewrite W5, W2. exists (fss ++ [cur]). split.
      * rewrite map_app. cbn [map]. now rewrite (append_last_map _ _ _ _ Hf).
      * rewrite concat_app. cbn [concat]. now rewrite app_nil_r.
    + rewrite W5. apply append_last_names.
  - repeat split; try apply W1; try assumption; discriminate.
Qed.

Lemma close_write_file_defined e c : exists ok c', close_write_file e c = Go (ok, c').
Proof.
  unfold close_write_file. destruct (x_open c); [|eauto]. rewrite close_write_stop_eq. cbn [rbind].
  destruct (fwrite e stop_frame c) as [[|] c1]; eauto.
Qed.

(** The name the next file gets, and the timestamp. *)
Definition next_name (e : env) (a : args) (c : ctx) : option bytes :=
  if is_stdout a then Some (a_fname a)
  else if has_calendar a then e_strftime e (e_time e (x_tick c)) else Some (a_fname a).
Definition next_ts (e : env) (a : args) (c : ctx) : Z :=
  if is_stdout a then x_ts c else if has_calendar a then e_time e (x_tick c) else x_ts c.

Lemma open_write_file_inv e a c ok c' :
  files_shut a (x_outs c) (stored (x_log c)) ->
  open_write_file e a c = Go (ok, c') ->
  same_conns c c' /\ x_log c' = x_log c /\
  (ok = true -> files_open a c' /\ x_ts c' = next_ts e a c /\
     exists name, next_name e a c = Some name /\ map fst (x_outs c') = map fst (x_outs c) ++ [name]).
Proof.
  intros (fss & Hf & Hs) H.
  assert (B : forall name c1 ok c', x_outs c1 = x_outs c -> x_log c1 = x_log c ->
    same_conns c c1 ->
    (' (ok, c2) <~ open_write_start e a (note_io (set_outs c1 (x_outs c1 ++ [(name, [])]) true) IoOpen) ;;
      if ok then Go (true, c2) else Go (false, note_io (set_outs c2 (x_outs c2) false) IoClose)) = Go (ok, c') ->
    same_conns c c' /\ x_log c' = x_log c /\
    (ok = true -> files_open a c' /\ x_ts c' = x_ts c1 /\ map fst (x_outs c') = map fst (x_outs c) ++ [name])).
  { clear H ok c'. intros name c1 ok c' E1 E2 E3 H. rewrite open_write_start_eq in H.
    destruct (lenN (a_ctype a) <=? 256) eqn:L; cbn [rbind] in H.
    2:{ injection H as <- <-. repeat split; try apply E3; try assumption; discriminate. }
    destruct (fwrite e _ _) as [ok1 c2] eqn:W. apply fwrite_inv in W as (W1 & W2 & W3 & W4 & W5).
    cbn [x_outs x_log x_open x_ts set_outs note_io] in *.
    destruct ok1; cbn [flushed rbind] in H; injection H as <- <-; unfold files_open; cbn [x_outs x_log x_open x_ts set_outs note_io].
    - split; [|split; [|split; [|split]]].
      + eapply same_conns_trans; [exact E3|]. exact W1.
      + congruence.
      + split; [lia|]. split; [assumption|]. exists fss, []. rewrite W5, append_last_snoc, map_app, E1, Hf.
        split; [cbn [map snd app]; unfold body; cbn [concat]; now rewrite !app_nil_r|].
        rewrite app_nil_r. congruence.
      + assumption.
      + rewrite W5, append_last_names, map_app, E1. reflexivity.
    - split; [|split; [|discriminate]].
      + eapply same_conns_trans; [exact E3|]. exact W1.
      + cbn. congruence. }
  unfold open_write_file in H. unfold next_name, next_ts.
  destruct (is_stdout a).
  { destruct (B _ c _ _ eq_refl eq_refl (same_conns_refl c) H) as (R1 & R2 & R3).
    repeat (split; [assumption|]). intro K. destruct (R3 K) as (R4 & R5 & R6). eauto. }
  destruct (has_calendar a).
  - unfold update_output_fname in H. cbv zeta in H.
    destruct (e_strftime e (e_time e (x_tick c))) as [name|].
    2:{ injection H as <- <-. repeat split; discriminate. }
    destruct (e_open e _).
    2:{ injection H as <- <-. repeat split; discriminate. }
    destruct (B _ (tick (set_ts (tick c) (e_time e (x_tick c)))) _ _ eq_refl eq_refl (same_conns_refl c) H) as (R1 & R2 & R3).
    repeat (split; [assumption|]). intro K. destruct (R3 K) as (R4 & R5 & R6). eauto.
  - destruct (e_open e _).
    2:{ injection H as <- <-. repeat split; discriminate. }
    destruct (B _ (tick c) _ _ eq_refl eq_refl (same_conns_refl c) H) as (R1 & R2 & R3).
    repeat (split; [assumption|]). intro K. destruct (R3 K) as (R4 & R5 & R6). eauto.
Qed.

Lemma open_write_file_defined e a c : exists ok c', open_write_file e a c = Go (ok, c').
Proof.
  assert (B : forall c1, exists ok c',
    (' (ok, c2) <~ open_write_start e a c1 ;;
      if ok then Go (true, c2) else Go (false, note_io (set_outs c2 (x_outs c2) false) IoClose)) = Go (ok, c')).
  { intros c1. rewrite open_write_start_eq. destruct (lenN (a_ctype a) <=? 256); cbn [rbind]; [|eauto].
    destruct (fwrite e _ _) as [[|] ?]; cbn [flushed]; eauto. }
  unfold open_write_file, update_output_fname. cbv zeta.
  destruct (is_stdout a); [apply B|].
  destruct (has_calendar a); [destruct (e_strftime e _); [|eauto]|]; (destruct (e_open e _); [apply B|eauto]).
Qed.

Lemma rotate_output_inv e a c c' :
  files_open a c -> rotate_output e a c = Go c' ->
  same_conns c c' /\ x_log c' = x_log c /\ files_open a c' /\
  (is_stdout a = true -> c' = c) /\
  (is_stdout a = false -> exists c1 name, x_tick c1 = S (x_tick c) /\ x_ts c1 = x_ts c /\
     x_ts c' = next_ts e a c1 /\ next_name e a c1 = Some name /\
     map fst (x_outs c') = map fst (x_outs c) ++ [name]).
Proof.
  intros Hf H. unfold rotate_output in H. destruct (is_stdout a) eqn:S0.
  { injection H as <-. split; [apply same_conns_refl|]. repeat split; try apply Hf. discriminate. }
  destruct (close_write_file e c) as [[[|] c1]|?| |?] eqn:C; cbn [rbind] in H; try discriminate.
  pose proof (close_write_file_inv _ _ _ _ _ Hf C) as (A1 & A2 & A3 & A4).
  destruct (A4 eq_refl) as (A5 & A6 & A7).
  assert (T : x_tick c1 = S (x_tick c)).
  { unfold close_write_file in C. destruct Hf as (_ & Ho & _). rewrite Ho, close_write_stop_eq in C.
    cbn [rbind] in C. unfold fwrite in C. destruct (e_fwrite e (x_tick c)); [|discriminate].
    injection C as <-. reflexivity. }
  destruct (open_write_file e a c1) as [[[|] c2]|?| |?] eqn:O; cbn [rbind] in H; try discriminate.
  injection H as <-.
  pose proof (open_write_file_inv _ _ _ _ _ A6 O) as (B1 & B2 & B3).
  destruct (B3 eq_refl) as (B4 & B5 & name & B6 & B7).
  split; [eapply same_conns_trans; eassumption|]. split; [congruence|]. split; [assumption|].
  split; [discriminate|]. intros _. exists c1, name. repeat split; try assumption. congruence.
Qed.

Lemma rotate_output_defined e a c : (exists c', rotate_output e a c = Go c') \/ (exists c', rotate_output e a c = Exit c').
Proof.
  unfold rotate_output. destruct (is_stdout a); [eauto|].
  destruct (close_write_file_defined e c) as ([|] & c1 & ->); cbn [rbind]; [|eauto].
  destruct (open_write_file_defined e a c1) as ([|] & c2 & ->); cbn [rbind]; eauto.
Qed.

Lemma maybe_rotate_inv e a c c' :
  files_open a c -> maybe_rotate_output e a c = Go c' ->
  same_conns c c' /\ x_log c' = x_log c /\ files_open a c'.
Proof.
  intros Hf H. unfold maybe_rotate_output in H. cbv zeta in H.
  destruct (0 <? a_split a)%Z; [|injection H as <-; auto using same_conns_refl].
  destruct (_ <=? _)%Z.
  - apply rotate_output_inv in H; [|exact Hf]. destruct H as (H1 & H2 & H3 & _).
    split; [exact H1|]. split; [exact H2|exact H3].
  - injection H as <-. split; [repeat split|]. split; [reflexivity|exact Hf].
Qed.

Lemma maybe_rotate_defined e a c :
  (exists c', maybe_rotate_output e a c = Go c') \/ (exists c', maybe_rotate_output e a c = Exit c').
Proof.
  unfold maybe_rotate_output. cbv zeta. destruct (0 <? a_split a)%Z; [|eauto].
  destruct (_ <=? _)%Z; [apply rotate_output_defined|eauto].
Qed.

Lemma process_data_inv e a id k c k' c' :
  files_open a c -> process_data_frame e id k c = Go (k', c') ->
  let b := firstn (N.to_nat (k_total k)) (k_buf k) in
  same_conns c c' /\ x_log c' = x_log c ++ [(id, Store b)] /\ files_open a c' /\ k' = drain k (k_total k).
Proof.
  intros (Hct & Ho & fss & cur & Hf & Hs) H b. unfold process_data_frame in H. fold b in H.
  destruct (fwrite e b c) as [[|] c1] eqn:W; [|discriminate]. injection H as <- <-.
  apply fwrite_inv in W as (W1 & W2 & W3 & W4 & W5).
  split; [exact W1|]. cbn [x_log note]. split; [congruence|]. split; [|reflexivity].
  split; [assumption|]. cbn [x_open note x_outs x_log]. split; [congruence|].
  exists fss, (cur ++ [b]). split.
  - rewrite W5, (append_last_map _ _ _ _ Hf). unfold body. rewrite concat_app. cbn [concat].
    now rewrite app_nil_r, <- !app_assoc.
  - rewrite stored_snoc, W2, <- Hs. now rewrite app_assoc.
Qed.

(** ** The frames at the head of a buffer *)
Definition total_of (bs : bytes) : option N :=
  if lenN bs <? 4 then None
  else let v := ntohl_bytes bs in
  if v =? 0 then
    if lenN bs <? 8 then None
    else let n := ntohl_bytes (skipn 4 bs) in
    if (n <? 4) || (512 <? n) then None else Some (8 + n)
  else Some (4 + v).

Lemma ntohl_app b more : 4 <= lenN b -> ntohl_bytes (b ++ more) = ntohl_bytes b.
Proof.
  unfold lenN. intro H. destruct b as [|b0 [|b1 [|b2 [|b3 b]]]]; cbn [length] in H; try lia. reflexivity.
Qed.

Lemma be32_skipn b : 4 <= lenN b -> b = be32 (ntohl_bytes b) ++ skipn 4 b.
Proof.
  intro H. rewrite be32_ntohl by (unfold lenN in H; lia). symmetry. apply firstn_skipn.
Qed.

Lemma skipn_app_le {A} n (a b : list A) : (n <= length a)%nat -> skipn n (a ++ b) = skipn n a ++ b.
Proof. intro H. rewrite skipn_app. replace (n - length a)%nat with 0%nat by lia. reflexivity. Qed.

Lemma total_of_app bs more T : total_of bs = Some T -> total_of (bs ++ more) = Some T.
Proof.
  unfold total_of. rewrite lenN_app. cbv zeta.
  destruct (lenN bs <? 4) eqn:E4; [discriminate|].
  replace (lenN bs + lenN more <? 4) with false by lia. rewrite ntohl_app by lia.
  destruct (ntohl_bytes bs =? 0); [|auto].
  destruct (lenN bs <? 8) eqn:E8; [discriminate|].
  replace (lenN bs + lenN more <? 8) with false by lia.
  rewrite skipn_app_le by (unfold lenN in *; lia).
  rewrite ntohl_app; [auto|]. rewrite lenN_skipn. lia.
Qed.

Lemma lenN_data_frame p : lenN (data_frame p) = 4 + lenN p.
Proof. unfold data_frame. rewrite lenN_app, lenN_be32. reflexivity. Qed.
Lemma lenN_wire1_ctl p : lenN (wire1 (F_ctl p)) = 8 + lenN p.
Proof. cbn [wire1]. rewrite !lenN_app, !lenN_be32. lia. Qed.

Lemma total_of_frame f more : frame_ok f -> total_of (wire1 f ++ more) = Some (lenN (wire1 f)).
Proof.
  intro K. apply total_of_app. unfold total_of. destruct f as [p|p].
  - destruct K as [K1 K2]. cbn [wire1]. rewrite lenN_data_frame. replace (4 + lenN p <? 4) with false by lia.
    unfold data_frame. rewrite ntohl_be32_small by assumption. cbv zeta.
    replace (lenN p =? 0) with false by lia. reflexivity.
  - cbn in K. unfold CTL_MAX in K. rewrite lenN_wire1_ctl. cbn [wire1].
    replace (8 + lenN p <? 4) with false by lia.
    rewrite ntohl_be32_small by reflexivity. cbv zeta. cbn [N.eqb].
    replace (8 + lenN p <? 8) with false by lia.
    rewrite skipn_app_exact by reflexivity. rewrite ntohl_be32_small by lia.
    replace ((lenN p <? 4) || (512 <? lenN p)) with false by lia. reflexivity.
Qed.

Lemma some_eq {A} (x y : A) : Some x = Some y -> x = y.
Proof. congruence. Qed.

Lemma total_of_split bs T : total_of bs = Some T -> T <= lenN bs ->
  exists f more, frame_ok f /\ bs = wire1 f ++ more /\ lenN (wire1 f) = T /\
    (ntohl_bytes bs = 0 <-> exists p, f = F_ctl p).
Proof.
  unfold total_of. cbv zeta. destruct (lenN bs <? 4) eqn:E4; [discriminate|].
  pose proof (be32_skipn bs ltac:(lia)) as B. pose proof (ntohl_lt bs) as L.
  destruct (ntohl_bytes bs =? 0) eqn:E0.
  - destruct (lenN bs <? 8) eqn:E8; [discriminate|].
    set (n := ntohl_bytes (skipn 4 bs)).
    destruct ((n <? 4) || (512 <? n)) eqn:En; [discriminate|]. intros HT Hl. apply some_eq in HT. subst T.
    pose proof (be32_skipn (skipn 4 bs) ltac:(rewrite lenN_skipn; lia)) as B2. fold n in B2.
    set (r := skipn 4 (skipn 4 bs)) in *.
    assert (Lr : lenN r = lenN bs - 8) by (unfold r; rewrite !lenN_skipn; lia).
    exists (F_ctl (firstn (N.to_nat n) r)), (skipn (N.to_nat n) r).
    assert (Lf : lenN (firstn (N.to_nat n) r) = n) by (rewrite lenN_firstn; lia).
    split; [cbn [frame_ok]; rewrite Lf; unfold CTL_MAX; lia|]. split.
    + cbn [wire1]. rewrite Lf, <- !app_assoc, firstn_skipn, <- B2.
      replace 0 with (ntohl_bytes bs) by lia. exact B.
    + split; [rewrite lenN_wire1_ctl, Lf; reflexivity|]. split; [eauto|lia].
  - intros HT Hl. apply some_eq in HT. subst T. set (v := ntohl_bytes bs) in *. set (r := skipn 4 bs) in *.
    assert (Lr : lenN r = lenN bs - 4) by (unfold r; rewrite !lenN_skipn; lia).
    exists (F_data (firstn (N.to_nat v) r)), (skipn (N.to_nat v) r).
    assert (Lf : lenN (firstn (N.to_nat v) r) = v) by (rewrite lenN_firstn; lia).
    split; [cbn [frame_ok]; split; rewrite Lf; lia|]. split.
    + cbn [wire1]. unfold data_frame. rewrite Lf, <- !app_assoc, firstn_skipn. exact B.
    + cbn [wire1]. rewrite lenN_data_frame, Lf. split; [reflexivity|]. split; [lia|]. intros [p [=]].
Qed.

Lemma bad_header_total bs : bad_header bs -> total_of bs = None.
Proof.
  intros (n & more & -> & Hn & H). unfold total_of, CTL_MAX in *.
  rewrite !lenN_app, !lenN_be32. replace (4 + (4 + lenN more) <? 4) with false by lia.
  rewrite ntohl_be32_small by reflexivity. cbv zeta. cbn [N.eqb].
  replace (4 + (4 + lenN more) <? 8) with false by lia.
  rewrite skipn_app_exact by reflexivity. rewrite ntohl_be32_small by lia.
  replace ((n <? 4) || (512 <? n)) with true by lia. reflexivity.
Qed.

Lemma bad_header_intro bs : 8 <= lenN bs -> ntohl_bytes bs = 0 ->
  ntohl_bytes (skipn 4 bs) < 4 \/ 512 < ntohl_bytes (skipn 4 bs) -> bad_header bs.
Proof.
  intros L Z H. exists (ntohl_bytes (skipn 4 bs)), (skipn 4 (skipn 4 bs)).
  split; [|split; [apply ntohl_lt|exact H]].
  rewrite <- be32_skipn by (rewrite lenN_skipn; lia). rewrite <- Z. apply be32_skipn. lia.
Qed.

Lemma bad_header_app bs more : bad_header bs -> bad_header (bs ++ more).
Proof. intros (n & m & -> & H). exists n, (m ++ more). now rewrite <- !app_assoc. Qed.

Lemma bad_header_inv bs : bad_header bs ->
  8 <= lenN bs /\ ntohl_bytes bs = 0 /\
  (ntohl_bytes (skipn 4 bs) < 4 \/ 512 < ntohl_bytes (skipn 4 bs)).
Proof.
  intros (n & m & -> & Hn & H). rewrite !lenN_app, !lenN_be32, ntohl_be32_small by reflexivity.
  rewrite skipn_app_exact by reflexivity. rewrite ntohl_be32_small by assumption.
  unfold CTL_MAX in H. repeat split; [lia|assumption].
Qed.

Lemma incomplete_iff bs :
  incomplete bs <-> ~ bad_header bs /\ match total_of bs with Some T => lenN bs < T | None => True end.
Proof.
  split.
  - intros [H1 H2]. split; [assumption|]. destruct (total_of bs) as [T|] eqn:E; [|trivial].
    destruct (N.lt_ge_cases (lenN bs) T) as [|G]; [assumption|].
    destruct (total_of_split _ _ E G) as (f & more & K & B & _). exfalso. exact (H1 _ _ K B).
  - intros [H1 H2]. split; [|assumption]. intros f more K ->.
    rewrite total_of_frame, lenN_app in H2 by assumption. lia.
Qed.

Lemma wire1_inj f g a b : frame_ok f -> frame_ok g -> wire1 f ++ a = wire1 g ++ b -> f = g /\ a = b.
Proof.
  intros Kf Kg E. pose proof (total_of_frame f a Kf) as T1. pose proof (total_of_frame g b Kg) as T2.
  rewrite E, T2 in T1. injection T1 as T1.
  apply app_eq_len in E as [E1 E2]; [|unfold lenN in T1; lia]. split; [|assumption].
  assert (N1 : forall p, frame_ok (F_data p) -> forall q, frame_ok (F_ctl q) -> wire1 (F_data p) <> wire1 (F_ctl q)).
  { intros p [K1 K2] q _ W. cbn [wire1] in W. unfold data_frame in W.
    apply (f_equal ntohl_bytes) in W. rewrite !ntohl_be32_small in W; [lia|reflexivity|assumption]. }
  destruct f as [p|p], g as [q|q].
  - cbn [wire1] in E1. unfold data_frame in E1. apply app_eq_len in E1 as [_ ->]; [reflexivity|].
    rewrite !length_be32. reflexivity.
  - exfalso. eapply N1; eassumption.
  - exfalso. eapply N1; [exact Kg|exact Kf|now symmetry].
  - cbn [wire1] in E1. apply app_eq_len in E1 as [_ E1]; [|reflexivity].
    apply app_eq_len in E1 as [_ ->]; [reflexivity|]. rewrite !length_be32. reflexivity.
Qed.

(** ** The reaction is determined, and grows with the stream *)
Lemma advance_fun ct ph p x1 q1 x2 q2 :
  advance ct ph p x1 q1 -> advance ct ph p x2 q2 -> x1 = x2 /\ q1 = q2.
Proof. intros H1 H2. destruct ph; inversion H1; inversion H2; subst; auto. Qed.

Lemma frame_not_bad f more : frame_ok f -> ~ bad_header (wire1 f ++ more).
Proof. intros K B. apply bad_header_total in B. rewrite total_of_frame in B by assumption. discriminate. Qed.

Lemma data_ok_frame p : data_ok p -> frame_ok (F_data p).
Proof. auto. Qed.

(** What the first frame does. *)
Definition react1 hw ct ph f bs a q : Prop :=
  (hw < lenN (wire1 f) /\ reacts hw ct ph bs a q) \/
  (lenN (wire1 f) <= hw /\ exists p a', f = F_data p /\ a = Store (data_frame p) :: a' /\ reacts hw ct ph bs a' q) \/
  (lenN (wire1 f) <= hw /\ lenN (wire1 f) < 512 /\ exists p x ph' a', f = F_ctl p /\ advance ct ph p x ph' /\ a = x ++ a' /\ reacts hw ct ph' bs a' q) \/
  (lenN (wire1 f) <= hw /\ exists p, f = F_ctl p /\ (lenN (wire1 f) < 512 -> ~ exists x ph', advance ct ph p x ph') /\ a = [Hangup] /\ q = None).

Lemma reacts_cases hw ct ph bs a q : reacts hw ct ph bs a q ->
  (incomplete bs /\ a = [] /\ q = Some ph) \/
  (exists f bs', frame_ok f /\ bs = wire1 f ++ bs' /\ react1 hw ct ph f bs' a q) \/
  (bad_header bs /\ a = [Hangup] /\ q = None).
Proof.
  unfold react1. destruct 1 as [ph bs I | ph f bs a q K L R | ph p bs a q K L R
    | ph p x ph' bs a q K L L2 A R | ph p bs K L N | ph bs B].
  - left. auto.
  - right. left. exists f, bs. split; [exact K|]. split; [reflexivity|]. left. auto.
  - right. left. exists (F_data p), bs. split; [exact K|]. split; [reflexivity|]. right. left. split; [exact L|]. exists p, a. auto.
  - right. left. exists (F_ctl p), bs. split; [exact K|]. split; [reflexivity|]. right. right. left.
    split; [assumption|]. split; [assumption|]. exists p, x, ph', a. auto.
  - right. left. exists (F_ctl p), bs. split; [exact K|]. split; [reflexivity|]. right. right. right. split; [exact L|]. exists p. auto.
  - right. right. auto.
Qed.

Lemma reacts_frame hw ct ph f bs a q : frame_ok f ->
  reacts hw ct ph (wire1 f ++ bs) a q -> react1 hw ct ph f bs a q.
Proof.
  intros K R. destruct (reacts_cases _ _ _ _ _ _ R) as [(I & _)|[(g & bs' & Kg & E & R1)|(B & _)]].
  - exfalso. eapply (proj1 I); [exact K|reflexivity].
  - apply wire1_inj in E as [-> ->]; assumption.
  - exfalso. eapply frame_not_bad; eassumption.
Qed.

Lemma reacts_bad hw ct ph bs a q : bad_header bs -> reacts hw ct ph bs a q -> a = [Hangup] /\ q = None.
Proof.
  intros B R. destruct (reacts_cases _ _ _ _ _ _ R) as [(I & _)|[(g & bs' & Kg & -> & R1)|(_ & R1)]].
  - exfalso. exact (proj2 I B).
  - exfalso. eapply frame_not_bad; eassumption.
  - assumption.
Qed.

Lemma reacts_incomplete hw ct ph bs a q : incomplete bs -> reacts hw ct ph bs a q -> a = [] /\ q = Some ph.
Proof.
  intros [I1 I2] R. destruct (reacts_cases _ _ _ _ _ _ R) as [(_ & R1)|[(g & bs' & Kg & -> & R1)|(B & _)]].
  - assumption.
  - exfalso. eapply I1; [eassumption|reflexivity].
  - contradiction.
Qed.

(** Growing: the longer stream provokes at least the same. *)
Lemma reacts_grow hw ct ph bs a q : reacts hw ct ph bs a q ->
  forall more a' q', reacts hw ct ph (bs ++ more) a' q' ->
  exists b, a' = a ++ b /\ (q = None -> b = [] /\ q' = None) /\ (more = [] -> b = [] /\ q' = q).
Proof.
  induction 1 as [ph bs I | ph f bs a q K L R IH | ph p bs a q K L R IH
    | ph p x ph' bs a q K L L2 A R IH | ph p bs K L N | ph bs B]; intros more a' q' R'.
  - exists a'. split; [reflexivity|]. split; [discriminate|]. intros ->. rewrite app_nil_r in R'.
    eapply reacts_incomplete; eassumption.
  - rewrite <- app_assoc in R'. apply reacts_frame in R'; [|assumption].
    destruct R' as [(_ & R')|[(L' & _)|[(L' & _)|(L' & _)]]]; [exact (IH _ _ _ R')| | |]; lia.
  - change (data_frame p) with (wire1 (F_data p)) in L, R'. rewrite <- app_assoc in R'. apply reacts_frame in R'; [|exact K].
    destruct R' as [(L' & _)|[(_ & p' & a1 & [= <-] & -> & R')|[(_ & _ & p' & x & ph' & a1 & [=] & _)|(_ & p' & [=] & _)]]]; [lia|].
    destruct (IH _ _ _ R') as (b & -> & Hb). exists b. split; [reflexivity|assumption].
  - rewrite <- app_assoc in R'. apply reacts_frame in R'; [|exact K].
    destruct R' as [(L' & _)|[(_ & p' & a1 & [=] & _)|[(_ & _ & p' & x' & ph1 & a1 & [= <-] & A' & -> & R')|(_ & p' & [= <-] & N & _)]]]; [lia| |exfalso; apply (N L2); eauto].
    destruct (advance_fun _ _ _ _ _ _ _ A A') as [<- <-].
    destruct (IH _ _ _ R') as (b & -> & Hb). exists b. split; [apply app_assoc|assumption].
  - rewrite <- app_assoc in R'. apply reacts_frame in R'; [|exact K].
    destruct R' as [(L' & _)|[(_ & p' & a1 & [=] & _)|[(_ & L2 & p' & x' & ph1 & a1 & [= <-] & A' & -> & R')|(_ & p' & [= <-] & _ & -> & ->)]]]; [lia| |].
    + exfalso. apply (N L2). eauto.
    + exists []. auto.
  - destruct (reacts_bad _ _ _ _ _ _ (bad_header_app _ more B) R') as [-> ->]. exists []. auto.
Qed.

Lemma reacts_fun hw ct ph bs a q a' q' :
  reacts hw ct ph bs a q -> reacts hw ct ph bs a' q' -> a' = a /\ q' = q.
Proof.
  intros R R'. rewrite <- (app_nil_r bs) in R'. destruct (reacts_grow _ _ _ _ _ _ R _ _ _ R') as (b & -> & _ & H).
  destruct (H eq_refl) as [-> ->]. now rewrite app_nil_r.
Qed.

(** Proofs for C89: the messages of fstrm_capture. *)
From Coq Require Import ZArith Lia.
From Verif Require Import Bytes Spec SpecTrace SpecStream Control Bytes_proofs Control_proofs Capture SpecCapture
  Capture_proofs Capture2_proofs Capture3_proofs Capture4_proofs CaptureSay SpecCaptureSay.
Import ListNotations.
Local Open Scope N_scope.

(** ** The same program *)
Lemma plain_bind {A B} (x : sres A) (f : A -> tally -> sres B) (g : A -> ores B) :
  (forall v t, plain (f v t) = g v) -> plain (sbind x f) = rbind (plain x) g.
Proof. intro H. destruct x; cbn; auto. Qed.
Lemma plain_mute {A} (x : ores A) t : plain (mute x t) = x.
Proof. destruct x; reflexivity. Qed.

Section Plain.
Variables (e : env) (a : args) (debug : Z).

Lemma plain_stop c t : plain (say_stop e c t) = close_write_stop e c.
Proof.
  unfold say_stop, close_write_stop. destruct (control_set_type _ _) as [[] k]; try reflexivity.
  destruct (encode_frame k) as [[b|]|]; try reflexivity. destruct (fwrite e b c). reflexivity.
Qed.
Lemma plain_start c t : plain (say_start e a c t) = open_write_start e a c.
Proof.
  unfold say_start, open_write_start. destruct (control_set_type _ _) as [[] k]; try reflexivity.
  destruct (control_add_field _ _) as [[] k']; try reflexivity.
  destruct (encode_frame k') as [[b|]|]; try reflexivity. destruct (flushed _). reflexivity.
Qed.
Lemma plain_open c t : plain (say_open_file e a c t) = open_write_file e a c.
Proof.
  unfold say_open_file, open_write_file.
  assert (B : forall name c1 t, plain (' (ok, c2) @ t <~ say_start e a (note_io (set_outs c1 (x_outs c1 ++ [(name, [])]) true) IoOpen) (no_counts t) ;;
      if ok then SGo (true, c2) (say t (Opened name))
      else SGo (false, note_io (set_outs c2 (x_outs c2) false) IoClose) (say t (Bad_start name))) =
    (' (ok, c2) <~ open_write_start e a (note_io (set_outs c1 (x_outs c1 ++ [(name, [])]) true) IoOpen) ;;
      if ok then Go (true, c2) else Go (false, note_io (set_outs c2 (x_outs c2) false) IoClose))).
  { intros name c1 t0. rewrite <- (plain_start _ (no_counts t0)). apply plain_bind. intros [ok c2] t1. destruct ok; reflexivity. }
  destruct (is_stdout a); [apply B|]. destruct (has_calendar a).
  - unfold say_update. destruct (update_output_fname e c) as [[name|] c1]; [|reflexivity].
    destruct (e_open e _); [apply B|reflexivity].
  - destruct (e_open e _); [apply B|reflexivity].
Qed.
Lemma plain_close c t : plain (say_close_file e a c t) = close_write_file e c.
Proof.
  unfold say_close_file, close_write_file. destruct (x_open c); [|reflexivity].
  rewrite <- (plain_stop c t). apply plain_bind. intros [[|] c1] t1; reflexivity.
Qed.
Lemma plain_rotate c t : plain (say_rotate e a c t) = rotate_output e a c.
Proof.
  unfold say_rotate, rotate_output. destruct (is_stdout a); [reflexivity|].
  rewrite <- (plain_close c t). apply plain_bind. intros [[|] c1] t1; [|reflexivity].
  rewrite <- (plain_open c1 t1). apply plain_bind. intros [[|] c2] t2; reflexivity.
Qed.
Lemma plain_maybe c t : plain (say_maybe_rotate e a c t) = maybe_rotate_output e a c.
Proof.
  unfold say_maybe_rotate, maybe_rotate_output. cbv zeta. destruct (0 <? a_split a)%Z; [|reflexivity].
  destruct (_ <=? _)%Z; [apply plain_rotate|reflexivity].
Qed.
Lemma plain_data id k c t : plain (say_data e id k c t) = process_data_frame e id k c.
Proof.
  unfold say_data, process_data_frame. cbv zeta. destruct (fwrite e _ c) as [[|] c1]; [|reflexivity].
  destruct (find_count id (t_conns t)). reflexivity.
Qed.
Lemma fst_close_conn id c t : fst (say_close_conn debug id c t) = cb_close_conn id c.
Proof. unfold say_close_conn. destruct (find_count id (t_conns t)). reflexivity. Qed.
Lemma plain_hangup id c t : plain (let (c1, t) := say_close_conn debug id c t in SGo (None (A := conn), c1) t) = Go (None, cb_close_conn id c).
Proof. rewrite <- (fst_close_conn id c t). destruct (say_close_conn debug id c t). reflexivity. Qed.

Lemma plain_loop fuel : forall id k c t, plain (say_loop e a debug fuel id k c t) = read_loop e a fuel id k c.
Proof.
  induction fuel as [|fuel IH]; intros id k c t; [reflexivity|]. cbn [say_loop read_loop].
  destruct (lenN (k_buf k) =? 0); [reflexivity|]. destruct (k_skip k =? 0); [|apply IH].
  destruct (can_read_full_frame a k) as [|k1|k1].
  - apply plain_hangup.
  - reflexivity.
  - destruct (0 <? k_payload k1).
    + rewrite <- (plain_data id k1 c t). apply plain_bind. intros [k2 c1] t1.
      rewrite <- (plain_maybe c1 t1). apply plain_bind. intros c2 t2. apply IH.
    + destruct (load_control_frame k1) as [[[|] k2]|f]; [|apply plain_hangup|reflexivity].
      rewrite <- (plain_mute (process_control_frame e a id k2 c) t) at 2. apply plain_bind. intros [[ok k3] c1] t1.
      destruct ok; [apply IH|apply plain_hangup].
Qed.
Lemma plain_read id k c t : plain (say_read e a debug id k c t) = cb_read e a id k c.
Proof.
  unfold say_read, cb_read. rewrite <- (plain_loop _ id k c t). apply plain_bind. intros [[k1|] c1] t1; reflexivity.
Qed.
Lemma plain_step x c t : plain (say_step e a debug x c t) = step e a x c.
Proof.
  destruct x as [id|id chunk|id|id| |]; cbn [say_step step].
  - reflexivity.
  - destruct (find_conn id (x_conns c)); [apply plain_read|reflexivity].
  - destruct (find_conn id (x_conns c)) as [k|]; [|reflexivity]. unfold say_write, cb_write.
    destruct (k_state k); try reflexivity. rewrite <- (fst_close_conn id c t). destruct (say_close_conn debug id c t). reflexivity.
  - destruct (find_conn id (x_conns c)) as [k|]; [|reflexivity].
    rewrite <- (fst_close_conn id c t). destruct (say_close_conn debug id c t). reflexivity.
  - destruct (x_open c); [apply plain_rotate|reflexivity].
  - destruct (x_open c); reflexivity.
Qed.
Lemma plain_boot : plain (say_boot e a) = boot e a.
Proof.
  unfold say_boot, boot. erewrite <- plain_open. apply plain_bind. intros [[|] c] t; reflexivity.
Qed.
Lemma plain_shutdown c t : plain (say_shutdown e a c t) = shutdown e c.
Proof.
  unfold say_shutdown, shutdown. rewrite <- (plain_close c (say t Going_down)). apply plain_bind. intros [[|] c1] t1; reflexivity.
Qed.

Lemma speaks_reach H c t : speaks e a debug H c t -> reach e a H c.
Proof.
  induction 1 as [c t B|H c t x c' t' _ IH L S].
  - apply reach_boot. rewrite <- plain_boot, B. reflexivity.
  - eapply reach_step; [exact IH|exact L|]. rewrite <- (plain_step x c t), S. reflexivity.
Qed.
Lemma reach_speaks H c : reach e a H c -> exists t, speaks e a debug H c t.
Proof.
  induction 1 as [c B|H c x c' _ [t IH] L S].
  - rewrite <- plain_boot in B. destruct (say_boot e a) as [v t| | |] eqn:E; try discriminate. injection B as ->.
    exists t. now apply speaks_boot.
  - rewrite <- (plain_step x c t) in S. destruct (say_step e a debug x c t) as [v t'| | |] eqn:E; try discriminate. injection S as ->.
    exists t'. eapply speaks_step; eassumption.
Qed.
Lemma same_runs H c : reach e a H c <-> exists t, speaks e a debug H c t.
Proof. split; [apply reach_speaks|]. intros [t S]. eapply speaks_reach, S. Qed.
End Plain.

(** ** Numbers *)
Lemma zd_shown n : zd (n mod 2 ^ 64) = shown n.
Proof.
  unfold zd, shown. pose proof (N.mod_upper_bound n (2 ^ 64) ltac:(discriminate)) as U.
  assert (E : (Z.of_N (n mod 2 ^ 64) = Z.of_N n mod 2 ^ 64)%Z) by (rewrite N2Z.inj_mod; reflexivity).
  assert (D : exists q, (Z.of_N n = 2 ^ 64 * q + Z.of_N (n mod 2 ^ 64))%Z).
  { exists (Z.of_N n / 2 ^ 64)%Z. rewrite E. apply Z.div_mod. discriminate. }
  destruct D as [q D]. rewrite D. clear D E. revert U. generalize (n mod 2 ^ 64). intros m U.
  destruct (m <? 2 ^ 63) eqn:L.
  - replace (2 ^ 64 * q + Z.of_N m + 2 ^ 63)%Z with ((Z.of_N m + 2 ^ 63) + q * 2 ^ 64)%Z by ring.
    rewrite Z.mod_add by discriminate. rewrite Z.mod_small; lia.
  - replace (2 ^ 64 * q + Z.of_N m + 2 ^ 63)%Z with ((Z.of_N m + 2 ^ 63 - 2 ^ 64) + (q + 1) * 2 ^ 64)%Z by ring.
    rewrite Z.mod_add by discriminate. rewrite Z.mod_small; lia.
Qed.
Lemma shown_small n : n < 2 ^ 63 -> shown n = Z.of_N n.
Proof. intro L. unfold shown. rewrite Z.mod_small; lia. Qed.
Lemma zadd_mod n m : zadd (n mod 2 ^ 64) m = (n + m) mod 2 ^ 64.
Proof. unfold zadd. now rewrite N.add_mod_idemp_l by discriminate. Qed.

Lemma files_said_app l l' : files_said (l ++ l') = files_said l ++ files_said l'.
Proof. unfold files_said. rewrite map_app. apply concat_app. Qed.
Lemma names_said_app l l' : names_said (l ++ l') = names_said l ++ names_said l'.
Proof. unfold names_said. rewrite map_app. apply concat_app. Qed.
Lemma conns_said_app id l l' : conns_said id (l ++ l') = conns_said id l ++ conns_said id l'.
Proof. unfold conns_said. rewrite map_app. apply concat_app. Qed.

(** ** Postconditions *)
Definition wp {A} (P : A -> tally -> Prop) (Q : ctx -> tally -> Prop) (x : sres A) : Prop :=
  match x with
  | SGo v t => P v t
  | SExit c t => Q c t
  | _ => True
  end.
Lemma wp_bind {A B} (P : A -> tally -> Prop) (P' : B -> tally -> Prop) Q x (f : A -> tally -> sres B) :
  wp P Q x -> (forall v t, P v t -> wp P' Q (f v t)) -> wp P' Q (sbind x f).
Proof. intros H K. destruct x; cbn in *; auto. Qed.
Lemma wp_weaken {A} (P P' : A -> tally -> Prop) (Q Q' : ctx -> tally -> Prop) x :
  wp P Q x -> (forall v t, P v t -> P' v t) -> (forall c t, Q c t -> Q' c t) -> wp P' Q' x.
Proof. destruct x; cbn; auto. Qed.

Lemma say_stop_eq e c t : say_stop e c t =
  let (ok, c1) := fwrite e stop_frame c in SGo (ok, c1) (if ok then wrote t (lenN stop_frame) else t).
Proof.
  unfold say_stop. change (control_set_type control_init FSTRM_CONTROL_STOP) with (r_success, mk_control T_STOP []).
  cbv iota. rewrite encode_frame_eq. cbn [c_type c_cts]. change (encodable true T_STOP []) with true. cbv iota. reflexivity.
Qed.
Lemma say_start_eq e a c t : say_start e a c t =
  if lenN (a_ctype a) <=? 256 then
    let (ok, c1) := flushed (fwrite e (start_frame (Some (a_ctype a))) c) in
    SGo (ok, c1) (if ok then wrote t (lenN (start_frame (Some (a_ctype a)))) else t)
  else SGo (false, c) t.
Proof.
  unfold say_start. change (control_set_type control_init FSTRM_CONTROL_START) with (r_success, mk_control T_START []).
  cbv iota. unfold control_add_field. cbn [c_type c_cts app]. rewrite encode_frame_eq. cbn [c_type c_cts].
  rewrite encodable1 by auto. destruct (lenN (a_ctype a) <=? 256); reflexivity.
Qed.

(** ** The files *)
Section Files.
Variables (e : env) (a : args) (debug : Z).
Notation ct := (a_ctype a).

Definition outs_of (done : list (bytes * list bytes)) : list (bytes * bytes) := map (fun f => (fst f, whole ct (snd f))) done.
Definition plain_name (t : tally) : Prop := is_stdout a = true \/ has_calendar a = false -> t_fname t = None.
Definition name_of (t : tally) : bytes := match t_fname t with Some n => n | None => a_fname a end.

Record shut (done : list (bytes * list bytes)) (c : ctx) (t : tally) : Prop := {
  sh_outs : x_outs c = outs_of done;
  sh_items : concat (map snd done) = stored (x_log c);
  sh_said : files_said (t_said t) = map (due ct) done;
  sh_names : names_said (t_said t) = map fst done;
  sh_plain : plain_name t }.

Record inuse (done : list (bytes * list bytes)) (name : bytes) (cur : list bytes) (c : ctx) (t : tally) : Prop := {
  us_open : x_open c = true;
  us_outs : x_outs c = outs_of done ++ [(name, body ct cur)];
  us_items : concat (map snd done) ++ cur = stored (x_log c);
  us_said : files_said (t_said t) = map (due ct) done;
  us_names : names_said (t_said t) = map fst done ++ [name];
  us_plain : plain_name t;
  us_name : name_of t = name;
  us_frames : t_frames t = (1 + lenN cur) mod 2 ^ 64;
  us_bytes : t_bytes t = lenN (body ct cur) mod 2 ^ 64 }.
Definition good (c : ctx) (t : tally) : Prop := exists done name cur, inuse done name cur c t.

(** What a message that is about something else changes. *)
Definition aside (m : saying) : Prop := files_said [m] = [] /\ names_said [m] = [].
Lemma aside_said t m : aside m -> files_said (t_said (say t m)) = files_said (t_said t) /\ names_said (t_said (say t m)) = names_said (t_said t).
Proof.
  intros [A B]. cbn [say t_said]. rewrite files_said_app, names_said_app, A, B, !app_nil_r. split; reflexivity.
Qed.
Lemma using_aside done name cur c t m : aside m -> inuse done name cur c t -> inuse done name cur c (say t m).
Proof. intros A [? ? ? ? ? ? ? ? ?]. destruct (aside_said t m A) as [E1 E2]. split; try assumption; congruence. Qed.
Lemma good_aside c t m : aside m -> good c t -> good c (say t m).
Proof. intros A (d & n & u & G). exists d, n, u. now apply using_aside. Qed.
Lemma shut_aside done c t m : aside m -> shut done c t -> shut done c (say t m).
Proof. intros A [? ? ? ? ?]. destruct (aside_said t m A) as [E1 E2]. split; try assumption; congruence. Qed.

(** The file part of the state is all that matters. *)
Lemma good_ctx c c' t : x_open c' = x_open c -> x_outs c' = x_outs c -> stored (x_log c') = stored (x_log c) -> good c t -> good c' t.
Proof. intros A B C (d & n & u & [? ? ? ? ? ? ? ? ?]). exists d, n, u. split; try assumption; congruence. Qed.
Lemma good_tally c t t' : t_frames t' = t_frames t -> t_bytes t' = t_bytes t -> t_fname t' = t_fname t -> t_said t' = t_said t ->
  good c t -> good c t'.
Proof.
  intros A B C D (d & n & u & [? ? ? ? ? P M ? ?]). exists d, n, u. unfold plain_name, name_of in *.
  split; unfold plain_name, name_of; rewrite ?A, ?B, ?C, ?D; assumption.
Qed.

Lemma close_says done name cur c t : inuse done name cur c t ->
  wp (fun v t' => if fst v : bool then shut (done ++ [(name, cur)]) (snd v) t' /\ x_open (snd v) = false else t' = t) (fun _ _ => False)
    (say_close_file e a c t).
Proof.
  intros [U1 U2 U3 U4 U5 U6 U7 U8 U9]. unfold say_close_file. rewrite U1, say_stop_eq.
  destruct (fwrite e stop_frame c) as [ok c1] eqn:W. apply fwrite_inv in W as (W1 & W2 & W3 & W4 & W5). cbn [sbind].
  destruct ok; cbn [wp fst snd]; [|reflexivity]. split; [|reflexivity].
  assert (D : due ct (name, cur) = (name_of t, (zd (t_frames (wrote t (lenN stop_frame))), zd (t_bytes (wrote t (lenN stop_frame)))))).
  { cbn [wrote t_frames t_bytes]. rewrite U8, U9, !zadd_mod, !zd_shown, U7. unfold due. cbn [fst snd]. f_equal. f_equal; f_equal; [lia|].
    unfold whole, body. rewrite <- lenN_app. now rewrite app_assoc. }
  split; cbn [x_outs x_log note_io set_outs say_closed say t_said wrote t_fname t_frames t_bytes].
  - rewrite W5, U2, append_last_snoc. unfold outs_of. rewrite map_app. cbn [map fst snd]. unfold whole, body. now rewrite app_assoc.
  - rewrite map_app, concat_app. cbn [map snd concat]. rewrite app_nil_r, W2. exact U3.
  - rewrite files_said_app, map_app, U4. cbn [map]. rewrite D. reflexivity.
  - rewrite names_said_app, map_app, U5. cbn. now rewrite app_nil_r.
  - exact U6.
Qed.

Lemma open_says done c t : shut done c t ->
  wp (fun v t' => if fst v : bool then good (snd v) t' else exists m, complaint m /\ exists l, t_said t' = l ++ [m]) (fun _ _ => False)
    (say_open_file e a c t).
Proof.
  intros [S1 S2 S3 S4 S5]. unfold say_open_file.
  assert (B : forall name c1 t1, x_outs c1 = x_outs c -> x_log c1 = x_log c -> t_said t1 = t_said t -> plain_name t1 -> name_of t1 = name ->
    wp (fun v t' => if fst v : bool then good (snd v) t' else exists m, complaint m /\ exists l, t_said t' = l ++ [m]) (fun _ _ => False)
     (' (ok, c2) @ t <~ say_start e a (note_io (set_outs c1 (x_outs c1 ++ [(name, [])]) true) IoOpen) (no_counts t1) ;;
      if ok then SGo (true, c2) (say t (Opened name))
      else SGo (false, note_io (set_outs c2 (x_outs c2) false) IoClose) (say t (Bad_start name)))).
  { intros name c1 t1 E1 E2 E3 E4 E5. rewrite say_start_eq. destruct (lenN ct <=? 256).
    2:{ cbn [sbind wp fst snd]. eexists. split; [|eexists; reflexivity]. exact I. }
    destruct (fwrite e _ _) as [ok c2] eqn:W. apply fwrite_inv in W as (W1 & W2 & W3 & W4 & W5).
    cbn [x_outs x_log x_open set_outs note_io] in W2, W3, W5.
    destruct ok; cbn [flushed sbind wp fst snd].
    2:{ eexists. split; [|eexists; reflexivity]. exact I. }
    exists done, name, []. split; cbn [x_open x_outs x_log note_io say t_said t_fname t_frames t_bytes wrote no_counts].
    - exact W3.
    - rewrite W5, append_last_snoc, E1, S1. unfold body. cbn [concat app]. now rewrite app_nil_r.
    - rewrite app_nil_r, W2, E2. exact S2.
    - rewrite files_said_app, E3, S3. cbn. now rewrite app_nil_r.
    - rewrite names_said_app, E3, S4. reflexivity.
    - exact E4.
    - exact E5.
    - reflexivity.
    - unfold body. cbn [concat]. rewrite app_nil_r. unfold zadd. f_equal. }
  destruct (is_stdout a) eqn:ES.
  - apply B; try reflexivity; [exact S5|]. unfold name_of. rewrite S5; [reflexivity|left; exact ES].
  - destruct (has_calendar a) eqn:EC.
    + unfold say_update, update_output_fname. cbv zeta. destruct (e_strftime e _) as [name|].
      * destruct (e_open e _).
        -- apply B; try reflexivity. intros [X|X]; congruence.
        -- cbn [wp fst]. eexists. split; [|eexists; reflexivity]. exact I.
      * cbn [wp fst]. eexists. split; [|eexists; reflexivity]. exact I.
    + destruct (e_open e _).
      * apply B; try reflexivity; [exact S5|]. unfold name_of. rewrite S5; [reflexivity|right; exact EC].
      * cbn [wp fst]. eexists. split; [|eexists; reflexivity]. exact I.
Qed.

Definition moan (_ : ctx) (t : tally) : Prop := exists m, complaint m /\ exists l, t_said t = l ++ [m].

Lemma rotate_says c t : good c t -> wp good moan (say_rotate e a c t).
Proof.
  intros (done & name & cur & U). unfold say_rotate. destruct (is_stdout a).
  { cbn [wp]. apply good_aside; [split; reflexivity|]. exists done, name, cur. exact U. }
  eapply wp_bind; [eapply wp_weaken; [exact (close_says _ _ _ _ _ U)|intros v t' X; exact X|intros ? ? []]|].
  intros [[|] c1] t1 X; cbn [fst snd] in X.
  2:{ exists Bad_close. split; [exact I|]. eexists. reflexivity. }
  destruct X as [X _]. eapply wp_bind; [eapply wp_weaken; [exact (open_says _ _ _ X)|intros v t' Y; exact Y|intros ? ? []]|].
  intros [[|] c2] t2 Y; cbn [fst snd] in Y; [exact Y|].
  exists Bad_reopen. split; [exact I|]. eexists. reflexivity.
Qed.
Lemma maybe_says c t : good c t -> wp good moan (say_maybe_rotate e a c t).
Proof.
  intro G. unfold say_maybe_rotate. cbv zeta. destruct (0 <? a_split a)%Z; [|exact G].
  destruct (_ <=? _)%Z; [apply rotate_says|]; eapply good_ctx; try exact G; reflexivity.
Qed.
Lemma data_says id k c t : k_total k <= lenN (k_buf k) -> good c t -> wp (fun v t' => good (snd v) t') moan (say_data e id k c t).
Proof.
  intros L (done & name & cur & [U1 U2 U3 U4 U5 U6 U7 U8 U9]). unfold say_data. cbv zeta.
  set (b := firstn (N.to_nat (k_total k)) (k_buf k)).
  assert (Lb : lenN b = k_total k) by (subst b; unfold lenN in *; rewrite firstn_length; lia).
  destruct (fwrite e b c) as [ok c1] eqn:W. apply fwrite_inv in W as (W1 & W2 & W3 & W4 & W5).
  destruct ok. 2:{ exists Bad_fwrite. split; [exact I|]. eexists. reflexivity. }
  destruct (find_count id (t_conns t)) as [n m]. cbn [wp snd]. exists done, name, (cur ++ [b]).
  split; cbn [x_open x_outs x_log note t_said t_fname t_frames t_bytes wrote set_counts]; try assumption.
  - congruence.
  - rewrite W5, U2, append_last_snoc. unfold body. rewrite concat_app. cbn [concat]. now rewrite app_nil_r, <- !app_assoc.
  - rewrite stored_snoc, W2, <- U3. now rewrite app_assoc.
  - rewrite U8, zadd_mod. f_equal. rewrite lenN_app. change (lenN [b]) with 1. lia.
  - rewrite U9, zadd_mod. f_equal. unfold body. rewrite concat_app. cbn [concat]. rewrite app_nil_r, !lenN_app, Lb. lia.
Qed.
Lemma close_conn_says id c t : good c t -> good (fst (say_close_conn debug id c t)) (snd (say_close_conn debug id c t)).
Proof.
  intro G. unfold say_close_conn. destruct (find_count id (t_conns t)) as [n m]. cbn [fst snd].
  apply good_ctx with (c := c); try reflexivity. eapply good_tally with (t := if (3 <=? debug)%Z then say t (Closing id (zd n) (zd m)) else t); try reflexivity.
  destruct (3 <=? debug)%Z; [|exact G]. apply good_aside; [split; reflexivity|exact G].
Qed.
End Files.

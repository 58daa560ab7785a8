(** Proofs for C89: frames too large to be stored. *)
From Coq Require Import ZArith Lia.
From Verif Require Import Bytes Spec SpecTrace SpecStream Control Bytes_proofs Control_proofs Capture SpecCapture
  Capture_proofs Capture2_proofs Capture3_proofs Capture4_proofs Capture5_proofs Capture7_proofs Capture8_proofs
  CaptureSay SpecCaptureSay CaptureSay_proofs CaptureSay2_proofs.
Import ListNotations.
Local Open Scope N_scope.

Lemma skips_said_app id l l' : skips_said id (l ++ l') = skips_said id l ++ skips_said id l'.
Proof. unfold skips_said. rewrite map_app. apply concat_app. Qed.

(** ** Announced lengths *)
Lemma be_value_ntohl b : 4 <= lenN b -> be_value (firstn 4 b) = ntohl_bytes b.
Proof.
  intro L. rewrite <- ntohl_be_value by (rewrite firstn_length; unfold lenN in L; lia).
  rewrite <- (firstn_skipn 4 b) at 2. symmetry. apply ntohl_app. unfold lenN in *. rewrite firstn_length. lia.
Qed.
Lemma announced_eq bs : calm bs -> announced bs = total_of bs.
Proof.
  intro C. unfold announced, total_of. destruct (lenN bs <? 4) eqn:E4; [reflexivity|]. cbv zeta.
  rewrite be_value_ntohl by lia. pose proof (calm_head bs C ltac:(lia)) as H.
  replace (2 ^ 32 - 4 <=? ntohl_bytes bs) with false by lia.
  destruct (ntohl_bytes bs =? 0) eqn:E0.
  - replace (0 <? ntohl_bytes bs) with false by lia. destruct (lenN bs <? 8) eqn:E8; [reflexivity|].
    rewrite be_value_ntohl by (rewrite lenN_skipn; lia). unfold CTL_MAX.
    set (n := ntohl_bytes (skipn 4 bs)).
    destruct (n <? 4) eqn:A, (512 <? n) eqn:B; cbn [orb];
      [replace ((4 <=? n) && (n <=? 512)) with false by lia ..|replace ((4 <=? n) && (n <=? 512)) with true by lia]; reflexivity.
  - replace (0 <? ntohl_bytes bs) with true by lia. reflexivity.
Qed.
Lemma begun_some hw bs T : calm bs -> total_of bs = Some T -> hw < T -> begun hw bs = [T].
Proof. intros C E L. unfold begun. rewrite announced_eq, E by exact C. now replace (hw <? T) with true by lia. Qed.
Lemma begun_none hw bs : calm bs -> match total_of bs with Some T => T <= hw | None => True end -> begun hw bs = [].
Proof. intros C L. unfold begun. rewrite announced_eq by exact C. destruct (total_of bs) as [T|]; [|reflexivity]. now replace (hw <? T) with false by lia. Qed.

Lemma wait_said a k k1 : calm (k_buf k) -> can_read_full_frame a k = CR_wait k1 ->
  (if (lenN (k_buf k1) <? k_total k1) && (capture_highwater a <? k_total k1) then [k_total k1] else []) = begun (capture_highwater a) (k_buf k).
Proof.
  intros C. set (hw := capture_highwater a).
  assert (HF : forall p T s, total_of (k_buf k) = Some T -> have_frame a (set_sizes k p T s) = CR_wait k1 ->
    (if (lenN (k_buf k1) <? k_total k1) && (hw <? k_total k1) then [k_total k1] else []) = begun hw (k_buf k)).
  { intros p T s ET. unfold have_frame. cbn [set_sizes k_buf k_total k_payload]. fold hw. destruct (lenN (k_buf k) <? T) eqn:EL; [|discriminate].
    destruct (hw <? T) eqn:EH; intros [= <-]; cbn [set_sizes k_buf k_total]; rewrite EL, EH; cbn [andb].
    - symmetry. apply begun_some; [exact C|exact ET|lia].
    - symmetry. apply begun_none; [exact C|]. rewrite ET. lia. }
  unfold can_read_full_frame. destruct (lenN (k_buf k) <? 4) eqn:E4.
  { intro X; apply (f_equal (fun r => match r with CR_wait x => x | _ => k end)) in X; cbv beta iota in X; subst k1. cbn [set_sizes k_buf k_total]. replace (lenN (k_buf k) <? 0) with false by lia. cbn [andb].
    symmetry. apply begun_none; [exact C|]. unfold total_of. now rewrite E4. }
  pose proof (calm_head _ C ltac:(lia)) as H. cbv zeta. set (v := ntohl_bytes (k_buf k)) in *.
  rewrite (N.mod_small (4 + v)) by lia. destruct (v =? 0) eqn:Ev.
  - destruct (lenN (k_buf k) <? 8) eqn:E8.
    { intro X; apply (f_equal (fun r => match r with CR_wait x => x | _ => k end)) in X; cbv beta iota in X; subst k1. cbn [set_sizes k_buf k_total]. replace (lenN (k_buf k) <? 4 + v) with false by lia. cbn [andb].
      symmetry. apply begun_none; [exact C|]. unfold total_of. rewrite E4. cbv zeta. fold v. now rewrite Ev, E8. }
    unfold FSTRM_CONTROL_FRAME_LENGTH_MAX. set (n := ntohl_bytes (skipn 4 (k_buf k))).
    destruct ((n <? 4) || (512 <? n)) eqn:En; [discriminate|].
    replace (((4 + v + 4) mod 2 ^ 32 + n) mod 2 ^ 32) with (8 + n).
    2:{ apply orb_false_iff in En as [En1 En2]. rewrite (N.mod_small (4 + v + 4)) by lia. rewrite N.mod_small by lia. lia. }
    apply (HF v (8 + n) (k_skip k)). unfold total_of. rewrite E4. cbv zeta. fold v. rewrite Ev, E8. fold n. now rewrite En.
  - apply (HF v (4 + v) (k_skip k)). unfold total_of. rewrite E4. cbv zeta. fold v. now rewrite Ev.
Qed.

Lemma control_keeps_skip e a id k c ok k' c' : process_control_frame e a id k c = Go (ok, k', c') -> k_skip k' = k_skip k.
Proof.
  unfold process_control_frame. destruct (control_get_type (k_ctl k)) as [[] [t|]]; try solve [intros [= <- <- <-]; reflexivity].
  destruct (k_state k); [| | |intros [= <- <- <-]; reflexivity].
  - destruct (t =? FSTRM_CONTROL_READY); cbn [negb]; [|intros [= <- <- <-]; reflexivity]. unfold process_control_frame_ready.
    destruct (control_get_num (k_ctl k)) as [[] n]; try solve [intros [= <- <- <-]; reflexivity].
    destruct (match_content_type a k); [|intros [= <- <- <-]; reflexivity].
    destruct (control_set_type _ _) as [[] k1]; try solve [intros [= <- <- <-]; reflexivity].
    destruct (control_add_field _ _) as [[] k2]; try solve [intros [= <- <- <-]; reflexivity].
    destruct (write_control_frame e id k2 c) as [[[|] c1]| | |]; cbn [rbind]; intros [= <- <- <-]; reflexivity.
  - destruct (t =? FSTRM_CONTROL_START); cbn [negb]; [|intros [= <- <- <-]; reflexivity]. unfold process_control_frame_start.
    destruct (match_content_type a k); intros [= <- <- <-]; reflexivity.
  - destruct (t =? FSTRM_CONTROL_STOP); cbn [negb]; [|intros [= <- <- <-]; reflexivity]. unfold process_control_frame_stop.
    destruct (control_set_type _ _) as [[] k1]; try solve [intros [= <- <- <-]; reflexivity].
    destruct (write_control_frame e id k1 c) as [[[|] c1]| | |]; cbn [rbind]; intros [= <- <- <-]; reflexivity.
Qed.

Section Skips.
Variables (e : env) (a : args) (debug : Z).
Notation hw := (capture_highwater a).

(** ** What the files say is about something else *)
Definition quiet (c c' : ctx) (t t' : tally) : Prop :=
  x_conns c' = x_conns c /\ x_log c' = x_log c /\ forall id, skips_said id (t_said t') = skips_said id (t_said t).
Lemma quiet_refl c t : quiet c c t t.
Proof. repeat split. Qed.
Lemma quiet_trans c1 c2 c3 t1 t2 t3 : quiet c1 c2 t1 t2 -> quiet c2 c3 t2 t3 -> quiet c1 c3 t1 t3.
Proof. intros (A1 & A2 & A3) (B1 & B2 & B3). split; [congruence|split; [congruence|]]. intro id. rewrite B3. apply A3. Qed.
Lemma quiet_say c c' t m : x_conns c' = x_conns c -> x_log c' = x_log c -> (forall id, skips_said id [m] = []) -> quiet c c' t (say t m).
Proof. intros A B C. split; [exact A|split; [exact B|]]. intro id. cbn [say t_said]. rewrite skips_said_app, C. apply app_nil_r. Qed.
Lemma fwrite_quiet b c ok c' t : fwrite e b c = (ok, c') -> quiet c c' t t.
Proof. intro W. apply fwrite_inv in W as ((_ & _ & W1) & W2 & _). repeat split; assumption. Qed.
Lemma close_quiet c t : wp (fun v t' => quiet c (snd v) t t') (fun _ _ => False) (say_close_file e a c t).
Proof.
  unfold say_close_file. destruct (x_open c). 2:{ apply quiet_say; reflexivity. }
  rewrite say_stop_eq. destruct (fwrite e stop_frame c) as [ok c1] eqn:W. apply (fwrite_quiet _ _ _ _ t) in W.
  destruct ok; cbn [sbind wp snd]; [|exact W]. eapply quiet_trans; [exact W|].
  eapply quiet_trans; [|apply quiet_say]; try reflexivity. repeat split.
Qed.
Lemma open_quiet c t : wp (fun v t' => quiet c (snd v) t t') (fun _ _ => False) (say_open_file e a c t).
Proof.
  unfold say_open_file.
  assert (B : forall name c1 t1, quiet c c1 t t1 ->
    wp (fun v t' => quiet c (snd v) t t') (fun _ _ => False)
     (' (ok, c2) @ t <~ say_start e a (note_io (set_outs c1 (x_outs c1 ++ [(name, [])]) true) IoOpen) (no_counts t1) ;;
      if ok then SGo (true, c2) (say t (Opened name))
      else SGo (false, note_io (set_outs c2 (x_outs c2) false) IoClose) (say t (Bad_start name)))).
  { intros name c1 t1 E. rewrite say_start_eq. destruct (lenN (a_ctype a) <=? 256).
    2:{ cbn [sbind wp snd]. eapply quiet_trans; [exact E|]. eapply quiet_trans; [|apply quiet_say]; try reflexivity. repeat split. }
    destruct (fwrite e _ _) as [ok c2] eqn:W. apply (fwrite_quiet _ _ _ _ (no_counts t1)) in W.
    destruct ok; cbn [flushed sbind wp snd];
      (eapply quiet_trans; [exact E|]; eapply quiet_trans with (t2 := no_counts t1); [|eapply quiet_trans; [exact W|eapply quiet_trans; [|apply quiet_say]]]; try reflexivity; repeat split). }
  destruct (is_stdout a); [apply B, quiet_refl|]. destruct (has_calendar a).
  - unfold say_update, update_output_fname. cbv zeta. destruct (e_strftime e _) as [name|].
    + destruct (e_open e _); [apply B; repeat split|]. cbn [wp snd]. eapply quiet_trans; [|apply quiet_say]; try reflexivity. repeat split.
    + cbn [wp snd]. eapply quiet_trans; [|apply quiet_say]; try reflexivity. repeat split.
  - destruct (e_open e _); [apply B; repeat split|]. cbn [wp snd]. apply quiet_say; reflexivity.
Qed.
Lemma rotate_quiet c t : wp (fun c' t' => quiet c c' t t') (fun _ _ => True) (say_rotate e a c t).
Proof.
  unfold say_rotate. destruct (is_stdout a); [apply quiet_say; reflexivity|].
  eapply wp_bind; [eapply wp_weaken; [apply close_quiet|intros v t' X; exact X|intros ? ? []]|].
  intros [[|] c1] t1 X; cbn [snd] in X; [|exact I].
  eapply wp_bind; [eapply wp_weaken; [apply open_quiet|intros v t' Y; exact Y|intros ? ? []]|].
  intros [[|] c2] t2 Y; cbn [snd] in Y; [|exact I]. cbn [wp]. eapply quiet_trans; eassumption.
Qed.
Lemma maybe_quiet c t : wp (fun c' t' => quiet c c' t t') (fun _ _ => True) (say_maybe_rotate e a c t).
Proof.
  unfold say_maybe_rotate. cbv zeta. destruct (0 <? a_split a)%Z; [|apply quiet_refl].
  destruct (_ <=? _)%Z; [|repeat split]. eapply wp_weaken; [apply rotate_quiet| |auto].
  intros c' t' X. eapply quiet_trans; [|exact X]. repeat split.
Qed.
Lemma data_effect id k c t :
  wp (fun v t' => fst v = drain k (k_total k) /\ x_conns (snd v) = x_conns c /\
      x_log (snd v) = x_log c ++ [(id, Store (firstn (N.to_nat (k_total k)) (k_buf k)))] /\
      forall i, skips_said i (t_said t') = skips_said i (t_said t)) (fun _ _ => True) (say_data e id k c t).
Proof.
  unfold say_data. cbv zeta. destruct (fwrite e _ c) as [[|] c1] eqn:W; [|exact I].
  apply fwrite_inv in W as ((_ & _ & W1) & W2 & _). destruct (find_count id (t_conns t)) as [n m]. cbn [wp fst snd].
  split; [reflexivity|]. split; [exact W1|]. split; [cbn [note x_log]; now rewrite W2|]. reflexivity.
Qed.
Lemma close_conn_effect id c t : fst (say_close_conn debug id c t) = cb_close_conn id c /\
  forall i, skips_said i (t_said (snd (say_close_conn debug id c t))) = skips_said i (t_said t).
Proof.
  split; [apply fst_close_conn|]. intro i. unfold say_close_conn. destruct (find_count id (t_conns t)). cbn [snd set_counts t_said].
  destruct (3 <=? debug)%Z; [|reflexivity]. cbn [say t_said]. rewrite skips_said_app. apply app_nil_r.
Qed.

(** ** Serving one connection *)
Section One.
Variables (id : nat) (rec : bytes) (conns : list (nat * conn)).

Definition told (ps : list piece) (more : list N) : list N :=
  if (2 <=? debug)%Z then map (fun p => lenN (piece_bytes p)) (filter (too_large hw) ps) ++ more else [].
Definition upto (ps : list piece) (pend : bytes) (c : ctx) : Prop :=
  Forall piece_ok ps /\ rec = pieces ps ++ pend /\
  stores (acts_of id (x_log c)) = map piece_bytes (filter (kept_piece hw) ps) /\ x_conns c = conns.

Lemma pieces_snoc ps p : pieces (ps ++ [p]) = pieces ps ++ piece_bytes p.
Proof. unfold pieces. rewrite map_app, concat_app. cbn [map concat]. now rewrite app_nil_r. Qed.
Lemma told_snoc ps p more : told (ps ++ [p]) more = told ps ((if too_large hw p then [lenN (piece_bytes p)] else []) ++ more).
Proof.
  unfold told. destruct (2 <=? debug)%Z; [|reflexivity]. rewrite filter_app, map_app, <- app_assoc. cbn [filter].
  destruct (too_large hw p); reflexivity.
Qed.
Lemma upto_next ps pend c c' p pend' : upto ps pend c -> piece_ok p -> pend = piece_bytes p ++ pend' -> x_conns c' = conns ->
  stores (acts_of id (x_log c')) = stores (acts_of id (x_log c)) ++ (if kept_piece hw p then [piece_bytes p] else []) ->
  upto (ps ++ [p]) pend' c'.
Proof.
  intros (U1 & U2 & U3 & U4) K -> C E. split; [apply Forall_app; split; [exact U1|constructor; [exact K|constructor]]|].
  split; [rewrite U2, pieces_snoc; now rewrite app_assoc|]. split; [|exact C].
  rewrite E, U3, filter_app, map_app. cbn [filter]. destruct (kept_piece hw p); reflexivity.
Qed.
Lemma upto_same ps pend c c' : upto ps pend c -> x_conns c' = conns -> stores (acts_of id (x_log c')) = stores (acts_of id (x_log c)) -> upto ps pend c'.
Proof. intros (U1 & U2 & U3 & U4) C E. repeat split; try assumption. now rewrite E. Qed.

Definition after (v : option conn * ctx) (t' : tally) : Prop :=
  exists ps pend c0, upto ps pend c0 /\ skips_said id (t_said t') = told ps (begun hw pend) /\
    match fst v with
    | Some k' => snd v = c0 /\ at_ hw k' pend /\ calm pend /\ settled hw k' pend /\ lenN (k_buf k') <= hw
    | None => refused hw pend /\ snd v = cb_close_conn id c0
    end.

Lemma hang_up ps pend c t : refused hw pend -> upto ps pend c -> skips_said id (t_said t) = told ps (begun hw pend) ->
  wp after (fun _ _ => True) (let (c1, t) := say_close_conn debug id (note c id Hangup) t in SGo (None (A := conn), c1) t).
Proof.
  intros Rf U S. destruct (close_conn_effect id (note c id Hangup) t) as [A B].
  destruct (say_close_conn debug id (note c id Hangup) t) as [c1 t1]. cbn [fst snd] in A, B. cbn [wp].
  exists ps, pend, (note c id Hangup). split; [|split; [now rewrite B|exact (conj Rf A)]].
  apply upto_same with (c := c); [exact U|apply U|]. cbn [x_log note]. rewrite acts_note, stores_app, Nat.eqb_refl. apply app_nil_r.
Qed.

Lemma loop_skips : forall fuel k c t pend ps, (length (k_buf k) < fuel)%nat ->
  at_ hw k pend -> (0 < k_skip k -> calm pend) -> lenN (k_buf k) <= hw ->
  (k_skip k = 0 \/ incomplete pend \/ 0 < lenN (k_buf k)) ->
  upto ps pend c -> skips_said id (t_said t) = told ps (if k_skip k =? 0 then [] else begun hw pend) ->
  wp after (fun _ _ => True) (say_loop e a debug fuel id k c t).
Proof.
  induction fuel as [|fuel IH]; intros k c t pend ps Hfu Hat Ht Hb Hx U Sd; [lia|].
  cbn [say_loop]. destruct (lenN (k_buf k) =? 0) eqn:E0.
  { apply N.eqb_eq in E0. pose proof (lenN_0 _ E0) as B0. cbn [wp]. exists ps, pend, c.
    destruct Hat as [[Hs <-]|(gone & T & Hp & HT & HH & HL & Hs)].
    - rewrite Hs in Sd. change (0 =? 0) with true in Sd. cbv iota in Sd.
      split; [exact U|]. split; [rewrite Sd, B0; reflexivity|]. cbn [fst snd]. split; [reflexivity|].
      split; [left; auto|]. rewrite B0. split; [apply calm_nil|]. split; [|exact (N.le_0_l _)].
      split; [apply incomplete_nil|split; [intros _; exact I|auto]].
    - replace (k_skip k =? 0) with false in Sd by lia. split; [exact U|]. split; [exact Sd|]. cbn [fst snd]. split; [reflexivity|].
      split; [right; exists gone, T; auto|]. split; [auto|]. split; [|exact Hb].
      split; [|split; [lia|auto]]. destruct Hx as [Hx|[Hx|Hx]]; [lia|assumption|lia]. }
  assert (Hlen : 0 < lenN (k_buf k)) by lia.
  destruct (k_skip k =? 0) eqn:Es.
  - apply N.eqb_eq in Es. destruct Hat as [[_ Hp]|(gone & T & _ & _ & _ & _ & Hs)]; [|lia]. subst pend.
    destruct (calm_or_huge (k_buf k)) as [Cm|(n & Hg)].
    2:{ destruct (can_read_huge a k n Hg) as (k1 & CR & C1 & C2 & C3 & C4 & C5).
      pose proof (proj1 (huge_iff _ _) Hg) as (L4 & Ln & Bn). destruct Hg as ([_ Bn2] & more & B).
      set (r := N.to_nat (n - (2 ^ 32 - 4))) in *.
      assert (En : n = 2 ^ 32 - 4 + N.of_nat r) by (unfold r; lia).
      assert (Hr4 : (r < 4)%nat) by (unfold r; lia).
      destruct (Nat.eq_dec r 0) as [E00|Hr0].
      { assert (En0 : n = 2 ^ 32 - 4) by lia. rewrite En0 in Ln.
        assert (X : forall x, plain x = Hang \/ (exists c', plain x = Exit c') -> wp after (fun _ _ => True) x).
        { intros [v t0|c0 t0| |f]; cbn [plain wp]; try exact (fun _ => I). intros [X|(c' & X)]; discriminate X. }
        pose proof (plain_loop e a debug (S fuel) id k c t) as PL.
        cbn [say_loop] in PL. rewrite E0 in PL. replace (k_skip k =? 0) with true in PL by lia.
        apply X. rewrite PL. apply (loop_zero e a id (S fuel) k c Es L4 Ln). }
      rewrite CR. replace (0 <? k_payload k1) with true by lia.
      eapply wp_bind; [apply data_effect|]. intros [k2 c1] t1 (P4 & P1 & P2 & P3). cbn [fst snd] in *.
      eapply wp_bind; [apply maybe_quiet|]. intros c2 t2 (M1 & M2 & M3).
      assert (Tr : N.to_nat (k_total k1) = r) by (rewrite C4; reflexivity).
      assert (L32 : length (be32 n) = 4%nat) by reflexivity.
      rewrite Tr, C1, B, firstn_app, L32 in P2. replace (r - 4)%nat with 0%nat in P2 by lia. rewrite app_nil_r in P2.
      set (more2 := skipn r (be32 n) ++ more).
      assert (Bk : k_buf k2 = more2).
      { rewrite P4. unfold drain. cbn [k_buf]. rewrite Tr, C1, B, skipn_app, L32.
        replace (r - 4)%nat with 0%nat by lia. reflexivity. }
      assert (Lm : (length more2 + r = length (k_buf k))%nat).
      { unfold more2. rewrite B, !app_length, skipn_length, L32. lia. }
      assert (Sk : k_skip k2 = 0) by (rewrite P4; cbn [drain k_skip]; lia).
      apply (IH k2 c2 t2 more2 (ps ++ [P_frag r])).
      { rewrite Bk. unfold bytes in *. lia. } { left; auto. } { lia. } { rewrite Bk. unfold lenN in *; unfold bytes in *; lia. } { auto. }
      { eapply upto_next; [exact U|cbn [piece_ok]; lia| | |].
        - cbn [piece_bytes]. rewrite B. exact (frag_split n r more En ltac:(lia)).
        - rewrite M1, P1. apply U.
        - cbn [kept_piece piece_bytes]. rewrite M2, P2, acts_note, stores_app, Nat.eqb_refl.
          rewrite <- (frag_bytes n r En ltac:(lia)). reflexivity. }
      rewrite M3, P3, Sd, Sk. change (0 =? 0) with true. cbv iota. rewrite told_snoc. reflexivity. }
    pose proof (can_read_spec0 a k (calm_head _ Cm) Es Hlen) as CR. pose proof (wait_said a k) as WS.
    destruct (can_read_full_frame a k) as [|k1|k1].
    + apply (hang_up ps (k_buf k)); [left; exact CR|exact U|]. rewrite Sd, begun_none; [reflexivity|exact Cm|].
      apply bad_header_total in CR. now rewrite CR.
    + destruct CR as (C1 & C2 & C3 & C4 & C5). cbn [wp]. exists ps, (k_buf k), c. split; [exact U|].
      split; [|cbn [fst snd]; split; [reflexivity|]; split; [exact C4|]; split; [exact Cm|]; split; [exact C5|rewrite C1; exact Hb]].
      rewrite <- (WS k1 Cm eq_refl). unfold say_wait. unfold told in *. destruct (2 <=? debug)%Z.
      * rewrite andb_true_r. destruct (_ && _); [|exact Sd]. cbn [say t_said]. rewrite skips_said_app, Sd, app_nil_r.
        unfold skips_said. cbn [map concat]. rewrite Nat.eqb_refl. reflexivity.
      * rewrite andb_false_r. exact Sd.
    + destruct CR as (C1 & C2 & C3 & C4 & f & more & K & B & L & Hp).
      pose proof (wire1_4 f) as Lw.
      assert (Hm : lenN (k_buf k) = lenN (wire1 f) + lenN more) by (rewrite B; apply lenN_app).
      destruct f as [p|p].
      * replace (0 <? k_payload k1) with true by lia.
        eapply wp_bind; [apply data_effect|]. intros [k2 c1] t1 (P4 & P1 & P2 & P3). cbn [fst snd] in *.
        eapply wp_bind; [apply maybe_quiet|]. intros c2 t2 (M1 & M2 & M3).
        assert (Bf : firstn (N.to_nat (k_total k1)) (k_buf k1) = data_frame p).
        { rewrite C1, B, L, lenN_length. apply firstn_app_exact. reflexivity. }
        rewrite Bf in P2.
        assert (Bk : k_buf k2 = more).
        { rewrite P4. unfold drain. cbn [k_buf]. rewrite C1, B, L, lenN_length. apply skipn_app_exact. reflexivity. }
        assert (Sk : k_skip k2 = 0) by (rewrite P4; exact C4).
        apply (IH k2 c2 t2 more (ps ++ [P_frame (F_data p)])).
        { rewrite Bk. unfold lenN in *. lia. } { left; auto. } { lia. } { rewrite Bk. lia. } { auto. }
        { eapply upto_next; [exact U|exact K|exact B| |].
          - rewrite M1, P1. apply U.
          - cbn [kept_piece kept piece_bytes wire1]. cbn [wire1] in Hm. replace (lenN (data_frame p) <=? hw) with true by lia.
            rewrite M2, P2, acts_note, stores_app, Nat.eqb_refl. reflexivity. }
        rewrite M3, P3, Sd, Sk. change (0 =? 0) with true. cbv iota. rewrite told_snoc. cbn [too_large].
        replace (hw <? lenN (wire1 (F_data p))) with false by lia. reflexivity.
      * replace (0 <? k_payload k1) with false by lia.
        destruct (load_control_frame_spec k1 p more K ltac:(rewrite C1; exact B) L) as (ok & k2 & LC & LT & LF).
        rewrite LC.
        assert (No : begun hw (k_buf k) = []).
        { apply begun_none; [exact Cm|]. rewrite B, total_of_frame by exact K. lia. }
        assert (Rf : refused hw (k_buf k)).
        { right. exists p, more. split; [exact K|]. split; [lia|exact B]. }
        destruct ok. 2:{ apply (hang_up ps (k_buf k)); [exact Rf|exact U|]. now rewrite Sd, No. }
        destruct (LT eq_refl) as (L5 & ty & cts & K' & Ep & Ek). clear LT LF.
        pose proof (control_no_exit e a id k2 c) as NE.
        destruct (process_control_frame e a id k2 c) as [[[ok k3] c1]|c1| |f] eqn:PC; cbn [mute sbind wp]; try exact I.
        assert (Uc : x_conns c1 = conns /\ stores (acts_of id (x_log c1)) = stores (acts_of id (x_log c))).
        { refine (process_control_keeps e a id (fun c1 => x_conns c1 = conns /\ stores (acts_of id (x_log c1)) = stores (acts_of id (x_log c))) _ _ _ _ _ _ _ PC).
          - intros c0 b [Y1 Y2]. unfold send_frame. destruct (e_send e (x_tick c0)); cbn [snd]; [|split; assumption].
            split; [exact Y1|]. cbn [x_log note tick]. rewrite acts_of_app, stores_app, Y2. cbn. now rewrite Nat.eqb_refl, app_nil_r.
          - split; [apply U|reflexivity]. }
        destruct Uc as [Uc Ul].
        destruct ok.
        2:{ apply (hang_up ps (k_buf k)); [exact Rf|eapply upto_same; eassumption|]. now rewrite Sd, No. }
        assert (Bk : k_buf k3 = more) by (rewrite (control_keeps_buf _ _ _ _ _ _ _ _ PC), Ek; reflexivity).
        assert (Sk : k_skip k3 = 0) by (rewrite (control_keeps_skip _ _ _ _ _ _ _ _ PC), Ek; exact C4).
        apply (IH k3 c1 t more (ps ++ [P_frame (F_ctl p)])).
        { rewrite Bk. unfold lenN in *. lia. } { left; auto. } { lia. } { rewrite Bk. lia. } { auto. }
        { eapply upto_next; [exact U|exact K|exact B|exact Uc|]. cbn [kept_piece kept]. rewrite app_nil_r. exact Ul. }
        rewrite Sd, Sk. change (0 =? 0) with true. cbv iota. rewrite told_snoc. cbn [too_large].
        replace (hw <? lenN (wire1 (F_ctl p))) with false by lia. reflexivity.
  - destruct Hat as [[Hs _]|(gone & T & Hp & HT & HH & HL & Hs)]; [lia|].
    set (skip := N.min (k_skip k) (lenN (k_buf k))). cbv zeta.
    set (k1 := set_sizes (drain k skip) (k_payload k) (k_total k) (k_skip k - skip)).
    assert (Hsk : 0 < skip) by (unfold skip; lia).
    assert (Bk : k_buf k1 = skipn (N.to_nat skip) (k_buf k)) by reflexivity.
    assert (Lk : lenN (k_buf k1) = lenN (k_buf k) - skip) by (rewrite Bk, lenN_skipn; lia).
    assert (Lp : lenN pend = lenN gone + lenN (k_buf k)) by (rewrite Hp; apply lenN_app).
    assert (Cp : calm pend) by (apply Ht; exact Hs).
    destruct (N.le_gt_cases (k_skip k) (lenN (k_buf k))) as [G|G].
    + assert (Esk : skip = k_skip k) by (unfold skip; lia).
      destruct (total_of_split pend T HT) as (f & more & K & B & L & _); [lia|].
      assert (Em : k_buf k1 = more).
      { rewrite Bk, Esk. rewrite Hp in B. rewrite <- (firstn_skipn (N.to_nat (k_skip k)) (k_buf k)) in B.
        rewrite app_assoc in B. apply app_eq_len in B as [_ B]; [exact B|].
        rewrite app_length, firstn_length. unfold lenN in *. lia. }
      assert (Sk : k_skip k1 = 0) by (unfold k1; cbn [k_skip set_sizes]; lia).
      apply (IH k1 c t more (ps ++ [P_frame f])).
      { unfold lenN in *. rewrite Em in Lk |- *. lia. } { left. auto. } { lia. } { lia. } { auto. }
      { eapply upto_next; [exact U|exact K|exact B|apply U|]. cbn [kept_piece]. replace (kept hw f) with false; [now rewrite app_nil_r|].
        destruct f as [p|p]; cbn [kept wire1] in *; [lia|reflexivity]. }
      rewrite Sk. change (0 =? 0) with true. cbv iota. rewrite told_snoc, Sd, (begun_some hw pend T Cp HT HH). cbn [too_large piece_bytes].
      replace (hw <? lenN (wire1 f)) with true by lia. rewrite L. reflexivity.
    + assert (Esk : skip = lenN (k_buf k)) by (unfold skip; lia).
      assert (Em : k_buf k1 = []) by (apply lenN_0; lia).
      assert (Sk : 0 < k_skip k1) by (unfold k1; cbn [k_skip set_sizes]; lia).
      assert (I : incomplete pend).
      { apply incomplete_iff. rewrite HT. split; [|lia]. intro Bd. apply bad_header_total in Bd. congruence. }
      apply (IH k1 c t pend ps).
      { rewrite Em. cbn [length]. unfold lenN in *. lia. }
      { right. exists pend, T. rewrite Em, app_nil_r. split; [reflexivity|]. split; [assumption|]. split; [assumption|].
        split; [|exact Sk]. unfold k1. cbn [k_skip set_sizes]. lia. }
      { auto. } { rewrite Em, lenN_nil. lia. } { auto. } { exact U. }
      replace (k_skip k1 =? 0) with false by lia. exact Sd.
Qed.
End One.

(** ** Whole runs *)
Definition skipped (H : list ev) (id : nat) (c : ctx) (t : tally) : Prop :=
  exists ps pend, upto id (received id H) (x_conns c) ps pend c /\ skips_said id (t_said t) = told ps (begun hw pend) /\ (incomplete pend \/ refused hw pend) /\
    forall k, find_conn id (x_conns c) = Some k -> at_ hw k pend /\ calm pend /\ settled hw k pend /\ lenN (k_buf k) <= hw.

Lemma skipped_quiet H id c c' t t' : quiet c c' t t' -> skipped H id c t -> skipped H id c' t'.
Proof.
  intros (A1 & A2 & A3) (ps & pend & (U1 & U2 & U3 & U4) & S & J & K). exists ps, pend. rewrite A1, A3.
  split; [|split; [|split]; assumption]. repeat split; try assumption. now rewrite A2.
Qed.
Lemma skipped_more H x id c t : (forall b, x <> E_data id b) -> skipped H id c t -> skipped (H ++ [x]) id c t.
Proof.
  intros N (ps & pend & U & S & J & K). exists ps, pend. split; [|split; [|split]; assumption]. rewrite received_snoc.
  replace (match x with E_data i b => if Nat.eqb i id then b else [] | _ => [] end) with (@nil byte); [now rewrite app_nil_r|].
  destruct x as [| i b| | | |]; try reflexivity. destruct (Nat.eqb_spec i id) as [->|]; [destruct (N b eq_refl)|reflexivity].
Qed.
Lemma skipped_close H i id c t : NoDup (map fst (x_conns c)) -> skipped H id c t ->
  skipped H id (fst (say_close_conn debug i c t)) (snd (say_close_conn debug i c t)).
Proof.
  intros ND (ps & pend & (U1 & U2 & U3 & U4) & S & J & K). destruct (close_conn_effect i c t) as [-> B]. exists ps, pend.
  split; [repeat split; assumption|]. split; [now rewrite B|]. split; [exact J|]. intros k. cbn [cb_close_conn x_conns set_conns]. rewrite find_remove by exact ND.
  destruct (Nat.eqb id i); [discriminate|apply K].
Qed.

Lemma unheard id H c : reach e a H c -> ~ accepted id H -> received id H = [].
Proof.
  induction 1 as [c B|H c x c' R IH Lg S]; intro L; [reflexivity|]. rewrite received_snoc, IH by (intro A; apply L; unfold accepted; apply in_or_app; now left).
  destruct x as [i|i chunk|i|i| |]; try reflexivity. cbn [legal] in Lg. destruct Lg as (_ & k & Fk & _).
  destruct (Nat.eqb_spec i id) as [->|]; [exfalso|reflexivity]. apply L. unfold accepted. apply in_or_app. left.
  destruct (reach_inv _ _ _ _ R) as [C _]. apply (cn_acc _ _ _ C). eapply find_some_in. exact Fk.
Qed.

Lemma step_skips H x c t id : reach e a H c -> legal a H c x -> skipped H id c t ->
  wp (fun c' t' => skipped (H ++ [x]) id c' t') (fun _ _ => True) (say_step e a debug x c t).
Proof.
  intros R L G. destruct (reach_inv _ _ _ _ R) as [C _]. pose proof (cn_nodup _ _ _ C) as ND.
  destruct x as [i|i chunk|i|i| |]; cbn [say_step legal] in *.
  - destruct L as [_ L]. unfold say_accept. cbn [wp].
    apply (skipped_more H (E_accept i) id c t ltac:(discriminate)) in G. destruct G as (ps & pend & (U1 & U2 & U3 & U4) & S & J & K).
    assert (Ss : skips_said id (t_said (if (3 <=? debug)%Z then say (set_counts t ((i, (0, 0)) :: t_conns t)) (Accepted i) else set_counts t ((i, (0, 0)) :: t_conns t))) = skips_said id (t_said t)).
    { destruct (3 <=? debug)%Z; [|reflexivity]. cbn [say t_said set_counts]. rewrite skips_said_app. apply app_nil_r. }
    destruct (Nat.eq_dec i id) as [->|Ne].
    + assert (R0 : received id (H ++ [E_accept id]) = []).
      { rewrite received_snoc, app_nil_r. eapply unheard; eassumption. }
      rewrite R0 in *. assert (ps = [] /\ pend = []) as [-> ->].
      { destruct ps as [|p ps]; [cbn in U2; auto|]. exfalso. inversion U1 as [|? ? Kp]; subst. rewrite pieces_cons in U2.
        destruct p as [f|r]; cbn [piece_bytes piece_ok] in *.
        - pose proof (wire1_4 f). apply (f_equal lenN) in U2. rewrite !lenN_app, lenN_nil in U2. lia.
        - apply (f_equal (@length _)) in U2. rewrite !app_length, repeat_length in U2. cbn [length] in U2. lia. }
      exists [], []. split; [repeat split; assumption|]. split; [now rewrite Ss|]. split; [exact J|].
      intros k. cbn [cb_accept_conn x_conns set_conns find_conn]. rewrite Nat.eqb_refl. intros [= <-].
      split; [left; split; reflexivity|]. split; [apply calm_nil|]. split; [|cbn; lia].
      split; [apply incomplete_nil|]. split; [intros _; exact I|]. cbn. lia.
    + exists ps, pend. split; [repeat split; assumption|]. split; [now rewrite Ss|]. split; [exact J|].
      intros k. cbn [cb_accept_conn x_conns set_conns find_conn]. replace (Nat.eqb i id) with false by (symmetry; now apply Nat.eqb_neq). apply K.
  - destruct L as (Lne & k & Fk & Lb). rewrite Fk. unfold say_read.
    destruct (Nat.eq_dec i id) as [->|Ne].
    + destruct G as (ps & pend & (U1 & U2 & U3 & U4) & S & J & K). destruct (K k Fk) as (A1 & A2 & A3 & A4).
      set (k1 := mk_conn _ _ _ _ _ (k_buf k ++ chunk)).
      assert (Lc : 0 < lenN chunk) by (destruct chunk; [contradiction|unfold lenN; cbn [length]; lia]).
      eapply wp_bind.
      { apply (loop_skips id (received id (H ++ [E_data id chunk])) (x_conns c) (Datatypes.S (length (k_buf k1))) k1 c t (pend ++ chunk) ps).
        - lia.
        - apply (at_more hw k pend chunk A1).
        - intro Hk. apply (at_calm _ _ _ _ A1 A2 Hk).
        - exact Lb.
        - right. right. unfold k1. cbn [k_buf]. rewrite lenN_app. lia.
        - rewrite received_snoc, Nat.eqb_refl, U2, <- app_assoc. repeat split; assumption.
        - rewrite S. f_equal. change (k_skip k1) with (k_skip k). destruct A3 as (A31 & A32 & A33).
          destruct A1 as [[B1 B2]|(gone & T & B1 & B2 & B3 & B4 & B5)].
          + rewrite B1. change (0 =? 0) with true. cbv iota. apply begun_none; [exact A2|exact (A32 B1)].
          + replace (k_skip k =? 0) with false by lia. rewrite (begun_some _ _ T A2 B2 B3).
            symmetry. apply begun_some; [|now apply total_of_app|exact B3]. apply calm_app; [exact A2|eapply total_of_4; exact B2]. }
      intros [[k'|] c1] t1 (ps' & pend' & c0 & U' & S' & Q); cbn [fst snd] in Q; cbn [wp].
      * destruct Q as (-> & Q1 & Q2 & Q3 & Q4). exists ps', pend'. destruct U' as (V1 & V2 & V3 & V4).
        split; [repeat split; assumption|]. split; [exact S'|]. split; [left; apply Q3|]. intros k0. cbn [x_conns set_conns]. rewrite V4.
        rewrite find_update, Nat.eqb_refl, Fk by exact ND. intros [= <-]. repeat (split; [assumption|]). assumption.
      * destruct Q as [Rf ->]. exists ps', pend'. destruct U' as (V1 & V2 & V3 & V4).
        split; [repeat split; assumption|]. split; [exact S'|]. split; [right; exact Rf|]. intros k0. cbn [cb_close_conn x_conns set_conns]. rewrite V4.
        rewrite find_remove, Nat.eqb_refl by exact ND. discriminate.
    + assert (Ei : forall j, E_data i chunk = E_data id j -> False) by (intros j [= X _]; contradiction).
      apply (skipped_more H (E_data i chunk) id c t Ei) in G.
      eapply wp_bind.
      { apply (say_loop_keeps e a debug i (fun c0 t0 => quiet c c0 t t0 \/ 
          (x_conns c0 = x_conns c /\ acts_of id (x_log c0) = acts_of id (x_log c) /\ skips_said id (t_said t0) = skips_said id (t_said t))) (fun _ _ => True)).
        - intros k0 c0 t0 _ P. eapply wp_weaken; [apply data_effect| |auto]. intros [k2 c1] t1 (P4 & P1 & P2 & P3). cbn [snd] in *. right.
          rewrite P1, P2, P3, acts_note. replace (Nat.eqb i id) with false by (symmetry; now apply Nat.eqb_neq). rewrite app_nil_r.
          destruct P as [(Y1 & Y2 & Y3)|P]; [rewrite Y1, Y2, Y3; auto|exact P].
        - intros c0 t0 P. eapply wp_weaken; [apply maybe_quiet| |auto]. intros c1 t1 (M1 & M2 & M3). right. rewrite M1, M2, M3.
          destruct P as [(Y1 & Y2 & Y3)|P]; [rewrite Y1, Y2, Y3; auto|exact P].
        - intros c0 b t0 P. right. assert (P' : x_conns c0 = x_conns c /\ acts_of id (x_log c0) = acts_of id (x_log c) /\ skips_said id (t_said t0) = skips_said id (t_said t)).
          { destruct P as [(Y1 & Y2 & Y3)|P]; [rewrite Y1, Y2, Y3; auto|exact P]. }
          unfold send_frame. destruct (e_send e (x_tick c0)); cbn [snd]; [|exact P'].
          cbn [x_conns x_log note tick]. rewrite acts_of_app. replace (acts_of id [(i, Answer b)]) with (@nil act).
          2:{ unfold acts_of. cbn [map concat fst]. replace (Nat.eqb i id) with false by (symmetry; now apply Nat.eqb_neq). reflexivity. }
          rewrite app_nil_r. exact P'.
        - intros c0 t0 P. right. assert (P' : x_conns c0 = x_conns c /\ acts_of id (x_log c0) = acts_of id (x_log c) /\ skips_said id (t_said t0) = skips_said id (t_said t)).
          { destruct P as [(Y1 & Y2 & Y3)|P]; [rewrite Y1, Y2, Y3; auto|exact P]. }
          cbn [x_conns x_log note]. rewrite acts_note. replace (Nat.eqb i id) with false by (symmetry; now apply Nat.eqb_neq).
          rewrite app_nil_r. exact P'.
        - intros k0 c0 t0 P. right. assert (P' : x_conns c0 = x_conns c /\ acts_of id (x_log c0) = acts_of id (x_log c) /\ skips_said id (t_said t0) = skips_said id (t_said t)).
          { destruct P as [(Y1 & Y2 & Y3)|P]; [rewrite Y1, Y2, Y3; auto|exact P]. }
          unfold say_wait. destruct (_ && _); [|exact P']. cbn [say t_said]. rewrite skips_said_app. unfold skips_said at 2. cbn [map concat].
          replace (Nat.eqb i id) with false by (symmetry; now apply Nat.eqb_neq). rewrite app_nil_r. exact P'.
        - left. apply quiet_refl. }
      assert (Fin : forall c0 t0, quiet c c0 t t0 \/ (x_conns c0 = x_conns c /\ acts_of id (x_log c0) = acts_of id (x_log c) /\ skips_said id (t_said t0) = skips_said id (t_said t)) ->
        skipped (H ++ [E_data i chunk]) id c0 t0 /\ x_conns c0 = x_conns c).
      { intros c0 t0 [Q|(Q1 & Q2 & Q3)]; [split; [eapply skipped_quiet; eassumption|apply Q]|]. split; [|exact Q1].
        destruct G as (ps & pend & (U1 & U2 & U3 & U4) & S & J & K). exists ps, pend. rewrite Q1, Q3. split; [|split; [|split]; assumption].
        repeat split; try assumption. now rewrite Q2. }
      intros [[k'|] c1] t1 Q; cbn [fst snd] in Q; cbn [wp].
      * destruct (Fin _ _ Q) as [(ps & pend & (U1 & U2 & U3 & U4) & S & J & K) E]. exists ps, pend.
        split; [repeat split; assumption|]. split; [exact S|]. split; [exact J|]. intros k0. cbn [x_conns set_conns]. rewrite E, find_update by exact ND.
        replace (Nat.eqb id i) with false by (symmetry; apply Nat.eqb_neq; congruence). rewrite <- E. apply K.
      * destruct Q as (c0 & t0 & Q & Q2). destruct (Fin _ _ Q) as [F E].
        apply (skipped_close _ i) in F; [|rewrite E; exact ND]. rewrite <- Q2 in F. exact F.
  - destruct (find_conn i (x_conns c)) as [k|] eqn:Fk; [|exact I].
    apply (skipped_more H (E_written i) id c t ltac:(discriminate)) in G.
    unfold say_write. destruct (k_state k); try exact G.
    apply (skipped_close _ i) in G; [|exact ND]. destruct (say_close_conn debug i c t). exact G.
  - destruct (find_conn i (x_conns c)) as [k|] eqn:Fk; [|exact I].
    apply (skipped_more H (E_gone i) id c t ltac:(discriminate)) in G.
    apply (skipped_close _ i) in G; [|exact ND]. destruct (say_close_conn debug i c t). exact G.
  - apply (skipped_more H E_sigusr1 id c t ltac:(discriminate)) in G. destruct (x_open c); [|exact G].
    eapply wp_weaken; [apply rotate_quiet| |auto]. intros c' t' Q. eapply skipped_quiet; [|exact G].
    eapply quiet_trans; [apply (quiet_say c c t Got_usr1); reflexivity|exact Q].
  - apply (skipped_more H E_sighup id c t ltac:(discriminate)) in G. destruct (x_open c); [|exact G]. cbn [wp].
    eapply skipped_quiet; [apply (quiet_say c (note_io c IoFlush) t Got_hup); reflexivity|exact G].
Qed.

Lemma speaks_skips H c t id : speaks e a debug H c t -> skipped H id c t.
Proof.
  induction 1 as [c t B|H c t x c' t' Sp IH L S].
  - unfold say_boot in B. set (c0 := mk_ctx _ _ _ _ _ _ _ _ _) in B. set (t0 := mk_tally _ _ _ _ _) in B.
    pose proof (open_quiet c0 t0) as W. destruct (say_open_file e a c0 t0) as [[[|] c1] t1| | |]; cbn [sbind wp snd] in *; try discriminate.
    injection B as <- <-. eapply skipped_quiet; [exact W|]. exists [], []. split; [repeat split; constructor|].
    split; [unfold told; destruct (2 <=? debug)%Z; reflexivity|]. split; [left; apply incomplete_nil|discriminate].
  - pose proof (step_skips H x c t id (speaks_reach _ _ _ _ _ _ Sp) L IH) as W. rewrite S in W. exact W.
Qed.

Lemma skips_reported H c t id : speaks e a debug H c t ->
  exists ps rest, Forall piece_ok ps /\ received id H = pieces ps ++ rest /\
    stores (acts_of id (x_log c)) = map piece_bytes (filter (kept_piece hw) ps) /\
    (incomplete rest \/ find_conn id (x_conns c) = None /\ refused hw rest) /\
    skips_said id (t_said t) =
      if (2 <=? debug)%Z then map (fun p => lenN (piece_bytes p)) (filter (too_large hw) ps) ++ begun hw rest else [].
Proof.
  intro S. destruct (speaks_skips _ _ _ id S) as (ps & pend & (U1 & U2 & U3 & U4) & Sd & J & K). exists ps, pend.
  repeat (split; [assumption|]). split; [|exact Sd].
  destruct (find_conn id (x_conns c)) as [k|]; [left; apply (K k eq_refl)|]. destruct J as [J|J]; auto.
Qed.
End Skips.

(** Proofs for C89: connections, and whole runs. *)
From Coq Require Import ZArith Lia.
From Verif Require Import Bytes Spec SpecTrace SpecStream Control Bytes_proofs Control_proofs Capture SpecCapture
  Capture_proofs Capture2_proofs Capture3_proofs Capture4_proofs Capture5_proofs CaptureSay SpecCaptureSay CaptureSay_proofs.
Import ListNotations.
Local Open Scope N_scope.

(** ** The loop *)
Lemma control_no_exit e a id k c c' : process_control_frame e a id k c <> Exit c'.
Proof.
  assert (W : forall ctl c, (exists v, write_control_frame e id ctl c = Go v) \/ exists f, write_control_frame e id ctl c = Broke f).
  { intros ctl c0. unfold write_control_frame. destruct (encode_frame ctl) as [[b|]|f]; eauto. }
  unfold process_control_frame. destruct (control_get_type (k_ctl k)) as [[] [t|]]; try discriminate.
  destruct (k_state k); [| | |discriminate].
  - destruct (negb _); [discriminate|]. unfold process_control_frame_ready.
    destruct (control_get_num (k_ctl k)) as [[] n]; try discriminate.
    destruct (match_content_type a k); [|discriminate].
    destruct (control_set_type _ _) as [[] k1]; try discriminate.
    destruct (control_add_field _ _) as [[] k2]; try discriminate.
    destruct (W k2 c) as [[[ok c1] ->]|[f ->]]; cbn [rbind]; [destruct ok|]; discriminate.
  - destruct (negb _); [discriminate|]. unfold process_control_frame_start. destruct (match_content_type a k); discriminate.
  - destruct (negb _); [discriminate|]. unfold process_control_frame_stop.
    destruct (control_set_type _ _) as [[] k1]; try discriminate.
    destruct (W k1 c) as [[[ok c1] ->]|[f ->]]; cbn [rbind]; [destruct ok|]; discriminate.
Qed.

Lemma say_loop_keeps e a debug id (P Q : ctx -> tally -> Prop)
  (HD : forall k c t, k_total k <= lenN (k_buf k) -> P c t -> wp (fun v t' => P (snd v) t') Q (say_data e id k c t))
  (HR : forall c t, P c t -> wp P Q (say_maybe_rotate e a c t))
  (HS : forall c b t, P c t -> P (snd (send_frame e id b c)) t)
  (HH : forall c t, P c t -> P (note c id Hangup) t)
  (HW : forall k c t, P c t -> P c (say_wait a debug id k t)) :
  forall fuel k c t, P c t ->
  wp (fun v t' => match fst v with
                  | Some _ => P (snd v) t'
                  | None => exists c0 t0, P c0 t0 /\ (snd v, t') = say_close_conn debug id c0 t0 end) Q
    (say_loop e a debug fuel id k c t).
Proof.
  assert (HC : forall c t, P c t ->
    wp (fun v t' => match fst v with
                  | Some _ => P (snd v) t'
                  | None => exists c0 t0, P c0 t0 /\ (snd v, t') = say_close_conn debug id c0 t0 end) Q
     (let (c1, t) := say_close_conn debug id (note c id Hangup) t in SGo (None (A := conn), c1) t)).
  { intros c t G. pose proof (HH c t G) as G'. destruct (say_close_conn debug id (note c id Hangup) t) as [c1 t1] eqn:E. cbn [wp fst snd].
    exists (note c id Hangup), t. split; [exact G'|now rewrite E]. }
  induction fuel as [|fuel IH]; intros k c t G; [exact I|]. cbn [say_loop].
  destruct (lenN (k_buf k) =? 0); [exact G|]. destruct (k_skip k =? 0); [|apply IH, G].
  pose proof (can_read_buf a k) as T.
  destruct (can_read_full_frame a k) as [|k1|k1].
  - apply HC, G.
  - cbn [wp fst snd]. apply HW, G.
  - destruct T as [T1 T2]. destruct (0 <? k_payload k1).
    + eapply wp_bind; [apply HD; [rewrite T1; exact T2|exact G]|]. intros [k2 c1] t1 G1. cbn [snd] in G1.
      eapply wp_bind; [apply HR, G1|]. intros c2 t2 G2. apply IH, G2.
    + destruct (load_control_frame k1) as [[[|] k2]|f]; [|apply HC, G|exact I].
      pose proof (control_no_exit e a id k2 c) as NE.
      destruct (process_control_frame e a id k2 c) as [[[ok k3] c1]|c1| |f] eqn:PC; cbn [mute sbind wp]; try exact I; [|exfalso; eapply NE; reflexivity].
      pose proof (process_control_keeps e a id (fun c => P c t) _ _ _ _ _ (fun c b H => HS c b t H) G PC) as G1.
      destruct ok; [apply IH, G1|apply HC, G1].
Qed.

(** ** Connections *)
Section Conns.
Variables (e : env) (a : args) (debug : Z).

Definition count_of (id : nat) (c : ctx) : N * N :=
  (lenN (stores (acts_of id (x_log c))) mod 2 ^ 64, lenN (concat (stores (acts_of id (x_log c)))) mod 2 ^ 64).
Definition final_of (id : nat) (c : ctx) : Z * Z :=
  (shown (lenN (stores (acts_of id (x_log c)))), shown (lenN (concat (stores (acts_of id (x_log c)))))).

Record tallied (H : list ev) (c : ctx) (t : tally) : Prop := {
  ta_ids : map fst (t_conns t) = map fst (x_conns c);
  ta_nodup : NoDup (map fst (x_conns c));
  ta_acc : forall id, In id (map fst (x_conns c)) -> accepted id H;
  ta_live : forall id, In id (map fst (x_conns c)) -> find_count id (t_conns t) = count_of id c;
  ta_none : forall id, In id (map fst (x_conns c)) \/ ~ accepted id H -> conns_said id (t_said t) = [];
  ta_gone : forall id, accepted id H -> ~ In id (map fst (x_conns c)) ->
    conns_said id (t_said t) = if (3 <=? debug)%Z then [final_of id c] else [];
  ta_log : forall id, ~ accepted id H -> acts_of id (x_log c) = [] }.

(** Connection [id] is being served, its number does not change; [H], the other
    connections and the messages about connections are fixed. *)
Definition serves (H : list ev) (id : nat) (ids : list nat) (c : ctx) (t : tally) : Prop :=
  tallied H c t /\ map fst (x_conns c) = ids /\ In id ids.

Definition silent (c c' : ctx) (t t' : tally) : Prop :=
  x_conns c' = x_conns c /\ x_log c' = x_log c /\ t_conns t' = t_conns t /\
  forall id, conns_said id (t_said t') = conns_said id (t_said t).
Lemma silent_refl c t : silent c c t t.
Proof. repeat split. Qed.
Lemma silent_trans c1 c2 c3 t1 t2 t3 : silent c1 c2 t1 t2 -> silent c2 c3 t2 t3 -> silent c1 c3 t1 t3.
Proof. intros (A1 & A2 & A3 & A4) (B1 & B2 & B3 & B4). split; [congruence|split; [congruence|split; [congruence|]]]. intro id. rewrite B4. apply A4. Qed.
Lemma silent_say c c' t m : x_conns c' = x_conns c -> x_log c' = x_log c -> (forall id, conns_said id [m] = []) -> silent c c' t (say t m).
Proof. intros A B C. split; [exact A|split; [exact B|split; [reflexivity|]]]. intro id. cbn [say t_said]. rewrite conns_said_app, C. apply app_nil_r. Qed.
Lemma tallied_silent H c c' t t' : silent c c' t t' -> tallied H c t -> tallied H c' t'.
Proof.
  intros (A1 & A2 & A3 & A4) [B1 B2 B3 B4 B5 B6 B7]. unfold count_of, final_of in *.
  split; unfold count_of, final_of; try intro id; rewrite ?A1, ?A2, ?A3, ?A4; auto.
Qed.

Lemma fwrite_silent b c ok c' t : fwrite e b c = (ok, c') -> silent c c' t t.
Proof. intro W. apply fwrite_inv in W as ((_ & _ & W1) & W2 & _). repeat split; assumption. Qed.
Lemma close_silent c t : wp (fun v t' => silent c (snd v) t t') (fun _ _ => False) (say_close_file e a c t).
Proof.
  unfold say_close_file. destruct (x_open c). 2:{ apply silent_say; reflexivity. }
  rewrite say_stop_eq. destruct (fwrite e stop_frame c) as [ok c1] eqn:W. apply (fwrite_silent _ _ _ _ t) in W.
  destruct ok; cbn [sbind wp snd]; [|exact W]. eapply silent_trans; [exact W|].
  eapply silent_trans; [|apply silent_say]; try reflexivity. repeat split.
Qed.
Lemma open_silent c t : wp (fun v t' => silent c (snd v) t t') (fun _ _ => False) (say_open_file e a c t).
Proof.
  unfold say_open_file.
  assert (B : forall name c1 t1, silent c c1 t t1 ->
    wp (fun v t' => silent c (snd v) t t') (fun _ _ => False)
     (' (ok, c2) @ t <~ say_start e a (note_io (set_outs c1 (x_outs c1 ++ [(name, [])]) true) IoOpen) (no_counts t1) ;;
      if ok then SGo (true, c2) (say t (Opened name))
      else SGo (false, note_io (set_outs c2 (x_outs c2) false) IoClose) (say t (Bad_start name)))).
  { intros name c1 t1 E. rewrite say_start_eq. destruct (lenN (a_ctype a) <=? 256).
    2:{ cbn [sbind wp snd]. eapply silent_trans; [exact E|]. eapply silent_trans; [|apply silent_say]; try reflexivity. repeat split. }
    destruct (fwrite e _ _) as [ok c2] eqn:W. apply (fwrite_silent _ _ _ _ (no_counts t1)) in W.
    destruct ok; cbn [flushed sbind wp snd];
      (eapply silent_trans; [exact E|]; eapply silent_trans with (t2 := no_counts t1); [|eapply silent_trans; [exact W|eapply silent_trans; [|apply silent_say]]]; try reflexivity; repeat split). }
  destruct (is_stdout a); [apply B, silent_refl|]. destruct (has_calendar a).
  - unfold say_update, update_output_fname. cbv zeta. destruct (e_strftime e _) as [name|].
    + destruct (e_open e _); [apply B; repeat split|]. cbn [wp snd]. eapply silent_trans; [|apply silent_say]; try reflexivity. repeat split.
    + cbn [wp snd]. eapply silent_trans; [|apply silent_say]; try reflexivity. repeat split.
  - destruct (e_open e _); [apply B; repeat split|]. cbn [wp snd]. apply silent_say; reflexivity.
Qed.
Lemma rotate_silent c t : wp (fun c' t' => silent c c' t t') (fun _ _ => True) (say_rotate e a c t).
Proof.
  unfold say_rotate. destruct (is_stdout a); [apply silent_say; reflexivity|].
  eapply wp_bind; [eapply wp_weaken; [apply close_silent|intros v t' X; exact X|intros ? ? []]|].
  intros [[|] c1] t1 X; cbn [snd] in X; [|exact I].
  eapply wp_bind; [eapply wp_weaken; [apply open_silent|intros v t' Y; exact Y|intros ? ? []]|].
  intros [[|] c2] t2 Y; cbn [snd] in Y; [|exact I]. cbn [wp]. eapply silent_trans; eassumption.
Qed.
Lemma maybe_silent c t : wp (fun c' t' => silent c c' t t') (fun _ _ => True) (say_maybe_rotate e a c t).
Proof.
  unfold say_maybe_rotate. cbv zeta. destruct (0 <? a_split a)%Z; [|apply silent_refl].
  destruct (_ <=? _)%Z; [|repeat split]. eapply wp_weaken; [apply rotate_silent| |auto].
  intros c' t' X. eapply silent_trans; [|exact X]. repeat split.
Qed.

Lemma find_count_update id n ks i : In id (map fst ks) -> find_count i (update_count id n ks) = if Nat.eqb id i then n else find_count i ks.
Proof.
  induction ks as [|[j m] ks IH]; intro I; [destruct I|]. cbn [update_count find_count].
  destruct (Nat.eqb j id) eqn:E; cbn [find_count].
  - apply Nat.eqb_eq in E as ->. destruct (Nat.eqb id i); reflexivity.
  - destruct I as [I|I]; [cbn in I; apply Nat.eqb_neq in E; contradiction|]. rewrite (IH I).
    destruct (Nat.eqb j i) eqn:E2; [|reflexivity]. destruct (Nat.eqb id i) eqn:E3; [|reflexivity].
    apply Nat.eqb_eq in E2, E3. apply Nat.eqb_neq in E. congruence.
Qed.
Lemma update_count_ids id n ks : map fst (update_count id n ks) = map fst ks.
Proof. induction ks as [|[j m] ks IH]; [reflexivity|]. cbn [update_count map]. destruct (Nat.eqb j id) eqn:E; cbn [map fst]; [apply Nat.eqb_eq in E as ->; reflexivity|now rewrite IH]. Qed.
Lemma remove_count_ids id (ks : list (nat * (N * N))) (ls : list (nat * conn)) : map fst ks = map fst ls -> map fst (remove_count id ks) = map fst (remove_conn id ls).
Proof.
  revert ls. induction ks as [|[j m] ks IH]; intros [|[j' k] ls] E; try discriminate; [reflexivity|].
  cbn [map fst] in E. injection E as -> E. cbn [remove_count remove_conn]. destruct (Nat.eqb j' id); [exact E|]. cbn [map fst]. f_equal. apply IH, E.
Qed.
Lemma remove_conn_iff id ks i : NoDup (map fst ks) -> (In i (map fst (remove_conn id ks)) <-> In i (map fst ks) /\ i <> id).
Proof.
  induction ks as [|[j k] ks IH]; intro ND; [cbn; tauto|]. cbn [map fst] in ND. inversion ND as [|? ? NI ND']; subst. cbn [remove_conn].
  destruct (Nat.eqb j id) eqn:E.
  - apply Nat.eqb_eq in E as ->. cbn [map fst In]. split; [|intros [[<-|X] Y]; [contradiction|exact X]].
    intro X. split; [right; exact X|]. intros ->. contradiction.
  - apply Nat.eqb_neq in E. cbn [map fst In]. rewrite (IH ND'). split; [intros [<-|[X Y]]; auto|intros [[<-|X] Y]; auto].
Qed.
Lemma find_count_remove id ks i : i <> id -> find_count i (remove_count id ks) = find_count i ks.
Proof.
  intro N. induction ks as [|[j m] ks IH]; [reflexivity|]. cbn [remove_count find_count].
  destruct (Nat.eqb j id) eqn:E; cbn [find_count].
  - apply Nat.eqb_eq in E as ->. destruct (Nat.eqb id i) eqn:E2; [|reflexivity]. apply Nat.eqb_eq in E2. congruence.
  - now rewrite IH.
Qed.

Lemma acts_note id c i x : acts_of id (x_log c ++ [(i, x)]) = acts_of id (x_log c) ++ (if Nat.eqb i id then [x] else []).
Proof. rewrite acts_of_app. unfold acts_of at 2. cbn [map concat fst snd]. now rewrite app_nil_r. Qed.
Lemma stores_app l l' : stores (l ++ l') = stores l ++ stores l'.
Proof. unfold stores. rewrite map_app. apply concat_app. Qed.

Lemma serves_silent H id ids c c' t t' : silent c c' t t' -> serves H id ids c t -> serves H id ids c' t'.
Proof. intros S (T & E & Ii). split; [eapply tallied_silent; eassumption|]. split; [|exact Ii]. destruct S as (-> & _). exact E. Qed.

(** Log entries that are not stores change no count. *)
Lemma serves_note H id ids c t x : (forall b, x <> Store b) -> serves H id ids c t -> serves H id ids (note c id x) t.
Proof.
  intros NS ([B1 B2 B3 B4 B5 B6 B7] & E & Ii). split; [|split; [exact E|exact Ii]].
  assert (Q : forall i, stores (acts_of i (x_log (note c id x))) = stores (acts_of i (x_log c))).
  { intro i. cbn [x_log note]. rewrite acts_note, stores_app. destruct (Nat.eqb id i); [|apply app_nil_r].
    unfold stores at 2. cbn [map concat]. destruct x; [destruct (NS b eq_refl)|apply app_nil_r..]. }
  unfold count_of, final_of in *. split; unfold count_of, final_of; try intro i; rewrite ?Q; auto.
  cbn [x_log note]. intro NA. rewrite acts_note, (B7 i NA). destruct (Nat.eqb id i) eqn:EQ; [|reflexivity].
  apply Nat.eqb_eq in EQ as <-. exfalso. apply NA, B3. rewrite E. exact Ii.
Qed.

Lemma data_serves H id ids k c t : k_total k <= lenN (k_buf k) -> serves H id ids c t ->
  wp (fun v t' => serves H id ids (snd v) t') (fun _ _ => True) (say_data e id k c t).
Proof.
  intros L S. unfold say_data. cbv zeta. set (b := firstn (N.to_nat (k_total k)) (k_buf k)).
  assert (Lb : lenN b = k_total k) by (subst b; unfold lenN in *; rewrite firstn_length; lia).
  destruct (fwrite e b c) as [ok c1] eqn:W. destruct ok; [|exact I].
  apply (fwrite_silent _ _ _ _ t) in W. apply (serves_silent _ _ _ _ _ _ _ W) in S. clear W c.
  destruct (find_count id (t_conns t)) as [n m] eqn:F. cbn [wp snd].
  destruct S as ([B1 B2 B3 B4 B5 B6 B7] & E & Ii).
  assert (Ic : In id (map fst (t_conns t))) by (rewrite B1, E; exact Ii).
  split; [|split; [exact E|exact Ii]].
  split; cbn [t_conns t_said wrote set_counts x_conns note].
  - rewrite update_count_ids. exact B1.
  - exact B2.
  - exact B3.
  - intros i Hi. rewrite (find_count_update _ _ _ _ Ic). pose proof (B4 i Hi) as X. unfold count_of in *. cbn [x_log note]. rewrite acts_note.
    destruct (Nat.eqb id i) eqn:EQ.
    + apply Nat.eqb_eq in EQ as <-. rewrite F in X. injection X as -> ->. rewrite stores_app, concat_app.
      change (stores [Store b]) with [b]. cbn [concat]. rewrite app_nil_r, !lenN_app, !zadd_mod, Lb. reflexivity.
    + rewrite app_nil_r. exact X.
  - exact B5.
  - intros i Ai Ni. rewrite (B6 i Ai Ni). unfold final_of. cbn [x_log note]. rewrite acts_note.
    destruct (Nat.eqb id i) eqn:EQ; [|now rewrite app_nil_r]. apply Nat.eqb_eq in EQ as <-. exfalso. apply Ni. rewrite E. exact Ii.
  - cbn [x_log note]. intros i NA. rewrite acts_note, (B7 i NA). destruct (Nat.eqb id i) eqn:EQ; [|reflexivity].
    apply Nat.eqb_eq in EQ as <-. exfalso. apply NA, B3. rewrite E. exact Ii.
Qed.

Lemma close_tallied H c t id : In id (map fst (x_conns c)) -> tallied H c t ->
  tallied H (fst (say_close_conn debug id c t)) (snd (say_close_conn debug id c t)).
Proof.
  intros Ii [B1 B2 B3 B4 B5 B6 B7]. unfold say_close_conn. pose proof (B4 id Ii) as F. unfold count_of in F.
  rewrite F. cbn [fst snd]. rewrite !zd_shown. fold (final_of id c).
  set (t1 := if (3 <=? debug)%Z then say t (Closing id (shown _) (shown _)) else t).
  assert (Tc : t_conns t1 = t_conns t) by (subst t1; destruct (3 <=? debug)%Z; reflexivity).
  assert (Ts : forall i, conns_said i (t_said t1) = conns_said i (t_said t) ++ (if Nat.eqb id i then if (3 <=? debug)%Z then [final_of id c] else [] else [])).
  { intro i. subst t1. destruct (3 <=? debug)%Z.
    - cbn [say t_said]. rewrite conns_said_app. f_equal. unfold conns_said. cbn [map concat]. apply app_nil_r.
    - destruct (Nat.eqb id i); now rewrite app_nil_r. }
  split; cbn [cb_close_conn x_conns set_conns set_counts t_conns t_said].
  - rewrite Tc. apply remove_count_ids, B1.
  - now apply remove_nodup.
  - intros i X. apply (remove_conn_iff _ _ _ B2) in X. apply B3, X.
  - intros i X. apply (remove_conn_iff _ _ _ B2) in X as [X Y]. rewrite Tc, find_count_remove by exact Y. exact (B4 i X).
  - intros i X. rewrite Ts, B5.
    + destruct (Nat.eqb id i) eqn:E; [|reflexivity]. apply Nat.eqb_eq in E as <-. exfalso. destruct X as [X|X].
      * apply (remove_conn_iff _ _ _ B2) in X. tauto.
      * apply X, B3, Ii.
    + destruct X as [X|X]; [|auto]. apply (remove_conn_iff _ _ _ B2) in X. tauto.
  - intros i X Y. rewrite Ts. destruct (Nat.eqb id i) eqn:E.
    + apply Nat.eqb_eq in E as <-. rewrite B5 by auto. reflexivity.
    + apply Nat.eqb_neq in E. rewrite app_nil_r. apply B6; [exact X|]. intro Z. apply Y, (remove_conn_iff _ _ _ B2). split; [exact Z|congruence].
  - exact B7.
Qed.

(** ** Whole runs *)
Definition kept_all (H : list ev) (c : ctx) (t : tally) : Prop := good a c t /\ tallied H c t.

Lemma accepted_more id H x : accepted id H -> accepted id (H ++ [x]).
Proof. intro A. apply in_or_app. left. exact A. Qed.
Lemma tallied_more H x c t : (forall id, x <> E_accept id) -> tallied H c t -> tallied (H ++ [x]) c t.
Proof.
  intros NA [B1 B2 B3 B4 B5 B6 B7].
  assert (Q : forall id, accepted id (H ++ [x]) -> accepted id H).
  { intros id A. apply in_app_or in A as [A|[A|[]]]; [exact A|]. destruct (NA id A). }
  split; auto using accepted_more.
  intros id [X|X]; [auto|]. apply B5. right. intro A. apply X, accepted_more, A.
Qed.
Lemma tallied_accept H id c t : ~ accepted id H -> tallied H c t ->
  tallied (H ++ [E_accept id]) (fst (say_accept debug id c t)) (snd (say_accept debug id c t)).
Proof.
  intros NA [B1 B2 B3 B4 B5 B6 B7]. unfold say_accept. cbn [fst snd].
  assert (Q : forall i, accepted i (H ++ [E_accept id]) <-> accepted i H \/ i = id).
  { intro i. unfold accepted. rewrite in_app_iff. cbn [In]. split; (intros [A|A]; [auto|]); [destruct A as [A|[]]; injection A; auto|subst; auto]. }
  set (t1 := if (3 <=? debug)%Z then _ else _).
  assert (Tc : t_conns t1 = (id, (0, 0)) :: t_conns t) by (subst t1; destruct (3 <=? debug)%Z; reflexivity).
  assert (Ts : forall i, conns_said i (t_said t1) = conns_said i (t_said t)).
  { intro i. subst t1. destruct (3 <=? debug)%Z; [|reflexivity]. cbn [say t_said set_counts]. rewrite conns_said_app. cbn. apply app_nil_r. }
  split; cbn [cb_accept_conn x_conns set_conns map fst]; try rewrite Tc.
  - cbn [map fst]. now rewrite B1.
  - constructor; [|exact B2]. intro X. apply NA, B3, X.
  - intros i [<-|X]; apply Q; auto.
  - intros i [<-|X]; cbn [find_count].
    + rewrite Nat.eqb_refl. unfold count_of. cbn [x_log cb_accept_conn set_conns]. rewrite (B7 id NA). reflexivity.
    + destruct (Nat.eqb id i) eqn:E; [apply Nat.eqb_eq in E as <-; exfalso; apply NA, B3, X|]. exact (B4 i X).
  - intros i X. rewrite Ts. apply B5. destruct X as [[<-|X]|X]; [right; exact NA|left; exact X|right]. intro A. apply X, Q. auto.
  - intros i X Y. rewrite Ts. apply Q in X as [X|X]; [|exfalso; apply Y; left; auto]. apply B6; [exact X|]. intro Z. apply Y. right. exact Z.
  - intros i X. apply B7. intro A. apply X, Q. auto.
Qed.

Lemma wp_both {A} (P P' : A -> tally -> Prop) (Q Q' : ctx -> tally -> Prop) x : wp P Q x -> wp P' Q' x ->
  wp (fun v t => P v t /\ P' v t) (fun c t => Q c t /\ Q' c t) x.
Proof. destruct x; cbn; auto. Qed.

Lemma step_says H x c t : legal a H c x -> kept_all H c t ->
  wp (kept_all (H ++ [x])) (moan) (say_step e a debug x c t).
Proof.
  intros L [G T]. destruct x as [id|id chunk|id|id| |]; cbn [say_step legal] in *.
  - destruct L as [_ L]. pose proof (tallied_accept H id c t L T) as T'. unfold say_accept in *. cbn [fst snd] in T'. cbn [wp]. split; [|exact T'].
    apply good_ctx with (c := c); try reflexivity.
    destruct (3 <=? debug)%Z; [apply good_aside; [split; reflexivity|]|]; (eapply good_tally; [..|exact G]; reflexivity).
  - destruct L as (_ & k & Fk & _). rewrite Fk. unfold say_read.
    assert (Ii : In id (map fst (x_conns c))) by (eapply find_some_in; exact Fk).
    assert (NE : forall i, E_data id chunk <> E_accept i) by discriminate.
    eapply wp_bind.
    { apply (say_loop_keeps e a debug id (fun c0 t0 => good a c0 t0 /\ serves H id (map fst (x_conns c)) c0 t0) moan).
      - intros k0 c0 t0 Lk [G0 S0]. eapply wp_weaken; [apply wp_both; [exact (data_says e a id k0 c0 t0 Lk G0)|exact (data_serves _ _ _ _ _ _ Lk S0)]|intros v t1 X; exact X|intros ? ? [X _]; exact X].
      - intros c0 t0 [G0 S0]. eapply wp_weaken; [apply wp_both; [exact (maybe_says e a c0 t0 G0)|exact (maybe_silent c0 t0)]| |intros ? ? [X _]; exact X].
        intros v t' [X Y]. split; [exact X|]. eapply serves_silent; eassumption.
      - intros c0 b t0 [G0 S0]. unfold send_frame. destruct (e_send e (x_tick c0)); cbn [snd].
        + split; [|apply serves_note; [discriminate|eapply serves_silent; [|exact S0]; repeat split]].
          eapply good_ctx; [..|exact G0]; try reflexivity. cbn [x_log note tick]. rewrite stored_snoc. apply app_nil_r.
        + split; [eapply good_ctx; [..|exact G0]; reflexivity|eapply serves_silent; [|exact S0]; repeat split].
      - intros c0 t0 [G0 S0]. split; [|apply serves_note; [discriminate|exact S0]].
        eapply good_ctx; [..|exact G0]; try reflexivity. cbn [x_log note]. rewrite stored_snoc. apply app_nil_r.
      - intros k0 c0 t0 [G0 S0]. unfold say_wait. destruct (_ && _); [|split; assumption].
        split; [apply good_aside; [split; reflexivity|exact G0]|]. eapply serves_silent; [apply silent_say; reflexivity|exact S0].
      - split; [exact G|]. split; [exact T|]. split; [reflexivity|exact Ii]. }
    intros [[k1|] c1] t1 X; cbn [fst snd] in X; cbn [wp].
    + destruct X as [G1 (T1 & E1 & _)]. split; [eapply good_ctx; [..|exact G1]; reflexivity|]. apply (tallied_more _ _ _ _ NE).
      destruct T1 as [B1 B2 B3 B4 B5 B6 B7]. split; cbn [x_conns set_conns]; rewrite ?update_ids; assumption.
    + destruct X as (c0 & t0 & [G0 (T0 & E0 & _)] & X). apply (tallied_more H (E_data id chunk) _ _ NE) in T0.
      pose proof (close_conn_says a debug id c0 t0 G0) as G'. pose proof (close_tallied _ c0 t0 id ltac:(rewrite E0; exact Ii) T0) as T'.
      rewrite <- X in G', T'. split; assumption.
  - destruct (find_conn id (x_conns c)) as [k|] eqn:Fk; [|exact I].
    assert (Ii : In id (map fst (x_conns c))) by (eapply find_some_in; exact Fk).
    apply (tallied_more H (E_written id) _ _ ltac:(discriminate)) in T.
    unfold say_write. destruct (k_state k); try (split; assumption).
    pose proof (close_conn_says a debug id c t G) as G'. pose proof (close_tallied _ c t id Ii T) as T'.
    destruct (say_close_conn debug id c t). split; assumption.
  - destruct (find_conn id (x_conns c)) as [k|] eqn:Fk; [|exact I].
    assert (Ii : In id (map fst (x_conns c))) by (eapply find_some_in; exact Fk).
    apply (tallied_more H (E_gone id) _ _ ltac:(discriminate)) in T.
    pose proof (close_conn_says a debug id c t G) as G'. pose proof (close_tallied _ c t id Ii T) as T'.
    destruct (say_close_conn debug id c t). split; assumption.
  - apply (tallied_more H E_sigusr1 _ _ ltac:(discriminate)) in T.
    destruct (x_open c); [|split; assumption].
    assert (G1 : good a c (say t Got_usr1)) by (apply good_aside; [split; reflexivity|exact G]).
    eapply wp_weaken; [apply wp_both; [exact (rotate_says e a c _ G1)|exact (rotate_silent c (say t Got_usr1))]| |intros ? ? [X _]; exact X].
    intros c' t' [X Y]. split; [exact X|]. eapply tallied_silent; [|exact T]. eapply silent_trans; [apply (silent_say c c t Got_usr1); reflexivity|exact Y].
  - apply (tallied_more H E_sighup _ _ ltac:(discriminate)) in T.
    destruct (x_open c); [|split; assumption]. cbn [wp]. split.
    + apply good_aside; [split; reflexivity|]. eapply good_ctx; [..|exact G]; reflexivity.
    + eapply tallied_silent; [apply (silent_say c (note_io c IoFlush) t Got_hup); reflexivity|exact T].
Qed.

Lemma boot_says : wp (kept_all []) moan (say_boot e a).
Proof.
  unfold say_boot.
  set (c0 := mk_ctx _ _ _ _ _ _ _ _ _). set (t0 := mk_tally _ _ _ _ _).
  assert (Sh : shut a [] c0 t0) by (split; try reflexivity; intros _; reflexivity).
  eapply wp_bind; [eapply wp_weaken; [apply wp_both; [exact (open_says e a [] c0 t0 Sh)|exact (open_silent c0 t0)]|intros v t' X; exact X|intros ? ? [[] _]]|].
  intros [[|] c] t [X Y]; cbn [fst snd] in *; cbn [wp]; [|exact X]. split; [exact X|].
  eapply tallied_silent; [exact Y|]. split; try reflexivity; try (intros id []); try constructor.
Qed.

Lemma speaks_kept H c t : speaks e a debug H c t -> kept_all H c t.
Proof.
  induction 1 as [c t B|H c t x c' t' _ IH L S].
  - pose proof boot_says as W. rewrite B in W. exact W.
  - pose proof (step_says H x c t L IH) as W. rewrite S in W. exact W.
Qed.

(** ** The statements *)
Lemma files_reported H c t : speaks e a debug H c t ->
  exists done name cur,
    x_outs c = map (fun f => (fst f, whole (a_ctype a) (snd f))) done ++ [(name, start_frame (Some (a_ctype a)) ++ concat cur)] /\
    concat (map snd done) ++ cur = stored (x_log c) /\
    files_said (t_said t) = map (due (a_ctype a)) done /\ names_said (t_said t) = map fst done ++ [name].
Proof.
  intro S. destruct (speaks_kept _ _ _ S) as [(done & name & cur & [U1 U2 U3 U4 U5 U6 U7 U8 U9]) _].
  exists done, name, cur. repeat split; assumption.
Qed.
Lemma shutdown_reported H c t c' t' : speaks e a debug H c t -> say_shutdown e a c t = SGo c' t' ->
  exists files,
    x_outs c' = map (fun f => (fst f, whole (a_ctype a) (snd f))) files /\
    concat (map snd files) = stored (x_log c) /\
    files_said (t_said t') = map (due (a_ctype a)) files /\ names_said (t_said t') = map fst files.
Proof.
  intros S E. destruct (speaks_kept _ _ _ S) as [(done & name & cur & U) _].
  pose proof (using_aside _ _ _ _ _ _ Going_down ltac:(split; reflexivity) U) as U1.
  pose proof (close_says e a _ _ _ _ _ U1) as W. pose proof (close_silent c (say t Going_down)) as Y. unfold say_shutdown in E.
  destruct (say_close_file e a c (say t Going_down)) as [[[|] c1] t1| | |]; cbn [sbind wp fst snd] in *; try discriminate.
  injection E as <- <-. destruct W as [[S1 S2 S3 S4 S5] _]. destruct Y as (_ & Y & _). rewrite Y in S2.
  exists (done ++ [(name, cur)]). repeat split; assumption.
Qed.
Lemma shutdown_mute H c t c' t' : speaks e a debug H c t -> say_shutdown e a c t = SExit c' t' ->
  t_said t' = t_said t ++ [Going_down].
Proof.
  intros S E. destruct (speaks_kept _ _ _ S) as [(done & name & cur & U) _].
  pose proof (using_aside _ _ _ _ _ _ Going_down ltac:(split; reflexivity) U) as U1.
  pose proof (close_says e a _ _ _ _ _ U1) as W. unfold say_shutdown in E.
  destruct (say_close_file e a c (say t Going_down)) as [[[|] c1] t1|c1 t1| |]; cbn [sbind wp fst snd] in *; try discriminate; [|destruct W].
  injection E as <- <-. subst t1. reflexivity.
Qed.
Lemma conns_reported H c t : speaks e a debug H c t -> forall id,
  conns_said id (t_said t) =
  if (3 <=? debug)%Z && existsb (fun x => match x with E_accept i => Nat.eqb i id | _ => false end) H &&
     match find_conn id (x_conns c) with None => true | _ => false end
  then [(shown (lenN (stores (acts_of id (x_log c)))), shown (lenN (concat (stores (acts_of id (x_log c))))))] else [].
Proof.
  intros S id. destruct (speaks_kept _ _ _ S) as [_ [B1 B2 B3 B4 B5 B6 B7]].
  assert (A : existsb (fun x => match x with E_accept i => Nat.eqb i id | _ => false end) H = true <-> accepted id H).
  { rewrite existsb_exists. unfold accepted. split.
    - intros (x & X & Y). destruct x; try discriminate. apply Nat.eqb_eq in Y as ->. exact X.
    - intro X. exists (E_accept id). split; [exact X|apply Nat.eqb_refl]. }
  destruct (find_conn id (x_conns c)) as [k|] eqn:F.
  - rewrite andb_false_r. apply B5. left. eapply find_some_in. exact F.
  - rewrite andb_true_r. apply find_none in F. destruct (existsb _ H).
    + rewrite andb_true_r. rewrite (B6 id (proj1 A eq_refl) F). reflexivity.
    + rewrite andb_false_r. apply B5. right. intro X. apply A in X. discriminate.
Qed.
Lemma exit_explained H c t x c' t' : speaks e a debug H c t -> legal a H c x -> say_step e a debug x c t = SExit c' t' ->
  exists l m, t_said t' = l ++ [m] /\ complaint m.
Proof.
  intros S L E. pose proof (step_says H x c t L (speaks_kept _ _ _ S)) as W. rewrite E in W. destruct W as (m & M & l & Q). eauto.
Qed.
Lemma boot_explained c' t' : say_boot e a = SExit c' t' -> exists l m, t_said t' = l ++ [m] /\ complaint m.
Proof. intro E. pose proof boot_says as W. rewrite E in W. destruct W as (m & M & l & Q). eauto. Qed.
End Conns.

(** Computing what is said in a run. *)
Definition tell (e : env) (a : args) (debug : Z) (H : list ev) : sres ctx :=
  fold_left (fun r x => sbind r (fun c t => say_step e a debug x c t)) H (say_boot e a).
Lemma tell_sound e a debug H c : reach e a H c -> exists t, tell e a debug H = SGo c t /\ speaks e a debug H c t.
Proof.
  induction 1 as [c B|H c x c' _ (t & IH & S) L St].
  - rewrite <- plain_boot in B. destruct (say_boot e a) as [v t| | |] eqn:E; try discriminate. injection B as ->.
    exists t. split; [exact E|now apply speaks_boot].
  - rewrite <- (plain_step e a debug x c t) in St. destruct (say_step e a debug x c t) as [v t'| | |] eqn:E; try discriminate. injection St as ->.
    exists t'. split; [|eapply speaks_step; eassumption]. unfold tell in *. rewrite fold_left_app, IH. cbn [fold_left sbind]. exact E.
Qed.

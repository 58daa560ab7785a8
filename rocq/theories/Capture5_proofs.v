(** Proofs about the model of fstrm_capture: consequences for whole runs. *)
From Coq Require Import ZArith Lia Permutation.
From Verif Require Import Bytes Spec SpecTrace SpecStream Control Bytes_proofs Control_proofs Capture SpecCapture
  Capture_proofs Capture2_proofs Capture3_proofs Capture4_proofs.
Import ListNotations.
Local Open Scope N_scope.

(** ** Reactions *)
Lemma run_reacts e a H c id : sends e -> reach e a H c -> tame (received id H) ->
  exists q, reacts (capture_highwater a) (a_ctype a) Ph_ready (received id H) (acts_of id (x_log c)) q /\
    forall k, find_conn id (x_conns c) = Some k -> q = Some (phase_of (k_state k)).
Proof.
  intros S R T. pose proof (reach_explained e a id S H c R T) as E.
  destruct (find_conn id (x_conns c)) as [k|] eqn:F.
  - exists (Some (phase_of (k_state k))). split; [eapply explained_none_of_some; eassumption|]. intros k' [= <-]. reflexivity.
  - unfold explained in E. rewrite F in E. destruct E as [q E]. exists q. split; [exact E|discriminate].
Qed.

Lemma runs_agree e a H c id e' H' c' id' more :
  sends e -> sends e' -> reach e a H c -> reach e' a H' c' ->
  received id' H' = received id H ++ more -> tame (received id' H') ->
  exists later, acts_of id' (x_log c') = acts_of id (x_log c) ++ later /\ (more = [] -> later = []).
Proof.
  intros S S' R R' E T.
  assert (T0 : tame (received id H)) by (rewrite E in T; eapply tame_prefix; exact T).
  destruct (run_reacts _ _ _ _ _ S R T0) as (q & Q & _).
  destruct (run_reacts _ _ _ _ _ S' R' T) as (q' & Q' & _). rewrite E in Q'.
  destruct (reacts_grow _ _ _ _ _ _ Q _ _ _ Q') as (b & B1 & _ & B2). exists b. split; [exact B1|].
  intro M. apply B2 in M. tauto.
Qed.

Lemma stores_app a b : stores (a ++ b) = stores a ++ stores b.
Proof. unfold stores. now rewrite map_app, concat_app. Qed.
Lemma answers_app a b : answers (a ++ b) = answers a ++ answers b.
Proof. unfold answers. now rewrite map_app, concat_app. Qed.

Lemma advance_stores ct ph p x ph' : advance ct ph p x ph' -> stores x = [].
Proof. destruct 1; reflexivity. Qed.

Lemma reacts_stores hw ct ph bs a q : reacts hw ct ph bs a q ->
  exists fs rest, Forall frame_ok fs /\ bs = wire fs ++ rest /\
    stores a = map wire1 (filter (kept hw) fs) /\ (q <> None -> incomplete rest).
Proof.
  induction 1 as [ph bs I | ph f bs a q K L R IH | ph p bs a q K L R IH
    | ph p x ph' bs a q K L L2 A R IH | ph p bs K L N | ph bs B].
  - exists [], bs. auto.
  - destruct IH as (fs & rest & F1 & -> & F3 & F4). exists (f :: fs), rest.
    split; [constructor; assumption|]. rewrite wire_cons, app_assoc. split; [reflexivity|]. split; [|assumption].
    cbn [filter]. replace (kept hw f) with false; [assumption|].
    destruct f as [p|p]; cbn [kept wire1] in *; [lia|reflexivity].
  - destruct IH as (fs & rest & F1 & -> & F3 & F4). exists (F_data p :: fs), rest.
    split; [constructor; assumption|]. rewrite wire_cons, app_assoc. split; [reflexivity|]. split; [|assumption].
    cbn [filter kept]. replace (lenN (data_frame p) <=? hw) with true by lia. cbn [map wire1].
    rewrite <- F3. reflexivity.
  - destruct IH as (fs & rest & F1 & -> & F3 & F4). exists (F_ctl p :: fs), rest.
    split; [constructor; assumption|]. rewrite wire_cons, app_assoc. split; [reflexivity|]. split; [|assumption].
    cbn [filter kept]. rewrite stores_app, (advance_stores _ _ _ _ _ A). exact F3.
  - exists [F_ctl p], bs. split; [constructor; [assumption|constructor]|].
    split; [unfold wire; cbn [map concat]; now rewrite app_nil_r|]. split; [reflexivity|congruence].
  - exists [], bs. split; [constructor|]. split; [reflexivity|]. split; [reflexivity|congruence].
Qed.

Lemma stored_in_acts id b l : In (id, Store b) l -> In (Store b) (acts_of id l).
Proof.
  induction l as [|[i x] l IH]; [contradiction|]. intros [[= -> ->]|I].
  - unfold acts_of. cbn [map concat fst snd]. rewrite Nat.eqb_refl. now left.
  - unfold acts_of. cbn [map concat fst snd]. apply in_or_app. right. exact (IH I).
Qed.

Lemma in_stored b l : In b (stored l) -> exists id, In (id, Store b) l.
Proof.
  unfold stored. rewrite in_concat. intros (x & I & B). apply in_map_iff in I as ([id y] & <- & I).
  cbn [snd] in B. destruct y; cbn [In] in B; try contradiction. destruct B as [->|[]]. eauto.
Qed.

Lemma in_stores b l : In (Store b) l -> In b (stores l).
Proof.
  intro I. unfold stores. rewrite in_concat. exists [b]. split; [|now left].
  apply in_map_iff. exists (Store b). auto.
Qed.

Lemma stored_whole e a H c : sends e -> reach e a H c -> (forall id, tame (received id H)) ->
  forall b, In b (stored (x_log c)) -> exists p, data_ok p /\ lenN (data_frame p) <= capture_highwater a /\ b = data_frame p.
Proof.
  intros S R T b I. apply in_stored in I as (id & I). apply stored_in_acts, in_stores in I.
  destruct (run_reacts _ _ _ _ id S R (T id)) as (q & Q & _).
  apply reacts_stores in Q as (fs & rest & F1 & _ & F3 & _). rewrite F3 in I.
  apply in_map_iff in I as (f & <- & I). apply filter_In in I as [I K].
  rewrite Forall_forall in F1. specialize (F1 _ I).
  destruct f as [p|p]; cbn [kept] in K; [|discriminate]. exists p. split; [exact F1|]. split; [lia|reflexivity].
Qed.

Lemma frames_exist bs : (forall b, In b bs -> exists p, data_ok p /\ b = data_frame p) ->
  exists ds, bs = map data_frame ds /\ Forall data_ok ds.
Proof.
  induction bs as [|b bs IH]; intro H; [exists []; auto|].
  destruct IH as (ds & -> & F); [intros; apply H; now right|].
  destruct (H b (or_introl eq_refl)) as (p & K & ->). exists (p :: ds). split; [reflexivity|]. now constructor.
Qed.

Lemma files_exist fss : (forall b, In b (concat fss) -> exists p, data_ok p /\ b = data_frame p) ->
  exists dss, fss = map (map data_frame) dss /\ Forall data_ok (concat dss).
Proof.
  induction fss as [|fs fss IH]; intro H; [exists []; split; [reflexivity|constructor]|].
  cbn [concat] in H. destruct IH as (dss & -> & F); [intros; apply H, in_or_app; now right|].
  destruct (frames_exist fs) as (ds & -> & F2); [intros; apply H, in_or_app; now left|].
  exists (ds :: dss). split; [reflexivity|]. cbn [concat]. now apply Forall_app.
Qed.

Lemma concat_map_map {A B} (f : A -> B) l : concat (map (map f) l) = map f (concat l).
Proof. induction l as [|x l IH]; [reflexivity|]. cbn [map concat]. now rewrite map_app, IH. Qed.

(** The files while running. *)
Lemma run_files e a H c : sends e -> reach e a H c -> (forall id, tame (received id H)) ->
  exists dss cur,
    map snd (x_outs c) = map (capture_file (a_ctype a)) dss ++ [start_frame (Some (a_ctype a)) ++ datas cur] /\
    stored (x_log c) = map data_frame (concat dss ++ cur) /\ Forall data_ok (concat dss ++ cur).
Proof.
  intros S R T. destruct (reach_inv _ _ _ _ R) as [_ (Hct & Ho & fss & cur & Hf & Hs)].
  assert (W : forall b, In b (concat fss ++ cur) -> exists p, data_ok p /\ b = data_frame p).
  { intros b I. rewrite Hs in I. destruct (stored_whole _ _ _ _ S R T _ I) as (p & K & _ & E). eauto. }
  destruct (files_exist fss) as (dss & -> & F1); [intros; apply W, in_or_app; now left|].
  destruct (frames_exist cur) as (ds & -> & F2); [intros; apply W, in_or_app; now right|].
  exists dss, ds. split; [|split].
  - rewrite Hf, map_map. unfold body, capture_file. f_equal. apply map_ext. intro x.
    unfold datas. now rewrite <- app_assoc.
  - rewrite <- Hs, concat_map_map, map_app. reflexivity.
  - now apply Forall_app.
Qed.

(** ... and after the shutdown. *)
Lemma shut_files e a H c c' : sends e -> reach e a H c -> (forall id, tame (received id H)) ->
  shutdown e c = Go c' ->
  exists dss, map snd (x_outs c') = map (capture_file (a_ctype a)) dss /\
    stored (x_log c') = map data_frame (concat dss) /\ Forall data_ok (concat dss) /\
    map fst (x_outs c') = map fst (x_outs c) /\ x_log c' = x_log c.
Proof.
  intros S R T Hs. destruct (reach_inv _ _ _ _ R) as [_ F]. unfold shutdown in Hs.
  destruct (close_write_file e c) as [[[|] c1]| | |] eqn:C; cbn [rbind] in Hs; try discriminate. injection Hs as <-.
  destruct (close_write_file_inv _ _ _ _ _ F C) as (_ & C1 & _ & C2).
  destruct (C2 eq_refl) as (_ & (fss & C3 & C4) & C5).
  assert (W : forall b, In b (concat fss) -> exists p, data_ok p /\ b = data_frame p).
  { intros b I. rewrite C4, C1 in I. destruct (stored_whole _ _ _ _ S R T _ I) as (p & K & _ & E). eauto. }
  destruct (files_exist fss W) as (dss & -> & F1). exists dss. split; [|split; [|split; [|split]]]; try assumption.
  - rewrite C3, map_map. apply map_ext. intro x. unfold body, capture_file, datas. now rewrite <- app_assoc.
  - rewrite <- C4, concat_map_map. reflexivity.
Qed.

(** ** The handshake *)
Lemma reacts_answers hw ct ph bs a q : reacts hw ct ph bs a q -> prefix (answers a) (replies ct ph).
Proof.
  induction 1 as [ph bs I | ph f bs a q K L R IH | ph p bs a q K L R IH
    | ph p x ph' bs a q K L L2 A R IH | ph p bs K L N | ph bs B].
  - exists (replies ct ph). reflexivity.
  - assumption.
  - exact IH.
  - destruct IH as [r IH]. exists r. rewrite answers_app. destruct A; cbn [replies app] in *; rewrite IH; reflexivity.
  - exists (replies ct ph). reflexivity.
  - exists (replies ct ph). reflexivity.
Qed.

Lemma reacts_stay hw ct ph bs a q : reacts hw ct ph bs a q -> ph = Ph_data -> q = Some Ph_data ->
  exists fs rest, Forall (idle hw) fs /\ bs = wire fs ++ rest /\ incomplete rest.
Proof.
  induction 1 as [ph bs I | ph f bs a q K L R IH | ph p bs a q K L R IH
    | ph p x ph' bs a q K L L2 A R IH | ph p bs K L N | ph bs B]; intros Ep Eq; subst; try discriminate.
  - exists [], bs. auto.
  - destruct (IH eq_refl eq_refl) as (fs & rest & F & -> & Ir). exists (f :: fs), rest.
    split; [|split; [rewrite wire_cons; now rewrite app_assoc|assumption]]. constructor; [|assumption].
    split; [assumption|]. destruct f; [exact I|assumption].
  - destruct (IH eq_refl eq_refl) as (fs & rest & F & -> & Ir). exists (F_data p :: fs), rest.
    split; [|split; [rewrite wire_cons; now rewrite app_assoc|assumption]]. constructor; [|assumption].
    split; [assumption|exact I].
  - exfalso. apply advance_inv in A. destruct A as (_ & _ & ->). clear - R.
    assert (N : forall ph bs a q, reacts hw ct ph bs a q -> ph = Ph_stop -> q <> Some Ph_data).
    { clear. induction 1 as [ph bs I | ph f bs a q K L R IH | ph p bs a q K L R IH
        | ph p x ph' bs a q K L L2 A R IH | ph p bs K L N | ph bs B]; intros ->; try congruence; auto.
      apply advance_inv in A. contradiction. }
    exact (N _ _ _ _ R eq_refl eq_refl).
Qed.

Lemma reacts_started hw ct ph bs a q : reacts hw ct ph bs a q -> ph = Ph_start -> q = Some Ph_data ->
  exists fs cts bs', Forall (idle hw) fs /\ ctl_ok T_START cts /\ (cts = [] \/ In ct cts) /\
    bs = wire fs ++ ctl_frame T_START cts ++ bs' /\
    exists fs' rest, Forall (idle hw) fs' /\ bs' = wire fs' ++ rest /\ incomplete rest.
Proof.
  induction 1 as [ph bs I | ph f bs a q K L R IH | ph p bs a q K L R IH
    | ph p x ph' bs a q K L L2 A R IH | ph p bs K L N | ph bs B]; intros Ep Eq; subst; try discriminate.
  - destruct (IH eq_refl eq_refl) as (fs & cts & bs' & F & F2 & F3 & -> & F4). exists (f :: fs), cts, bs'.
    split; [|split; [assumption|split; [assumption|split; [rewrite wire_cons; now rewrite <- app_assoc|assumption]]]].
    constructor; [|assumption]. split; [assumption|]. destruct f; [exact I|assumption].
  - destruct (IH eq_refl eq_refl) as (fs & cts & bs' & F & F2 & F3 & -> & F4). exists (F_data p :: fs), cts, bs'.
    split; [|split; [assumption|split; [assumption|split; [rewrite wire_cons; now rewrite <- app_assoc|assumption]]]].
    constructor; [|assumption]. split; [assumption|exact I].
  - apply advance_inv in A. destruct A as (cts & A1 & A2 & -> & -> & ->).
    exists [], cts, bs. split; [constructor|]. split; [assumption|]. split; [assumption|]. split; [reflexivity|].
    eapply reacts_stay; [exact R|reflexivity|reflexivity].
Qed.

Lemma reacts_negotiated hw ct ph bs a q : reacts hw ct ph bs a q -> ph = Ph_ready -> q = Some Ph_data ->
  exists fs1 cts1 fs2 cts2 fs3 rest,
    bs = wire fs1 ++ ctl_frame T_READY cts1 ++ wire fs2 ++ ctl_frame T_START cts2 ++ wire fs3 ++ rest /\
    ctl_ok T_READY cts1 /\ (cts1 = [] \/ In ct cts1) /\
    ctl_ok T_START cts2 /\ (cts2 = [] \/ In ct cts2) /\
    Forall (idle hw) (fs1 ++ fs2 ++ fs3) /\ incomplete rest.
Proof.
  induction 1 as [ph bs I | ph f bs a q K L R IH | ph p bs a q K L R IH
    | ph p x ph' bs a q K L L2 A R IH | ph p bs K L N | ph bs B]; intros Ep Eq; subst; try discriminate.
  - destruct (IH eq_refl eq_refl) as (fs1 & c1 & fs2 & c2 & fs3 & rest & -> & F). exists (f :: fs1), c1, fs2, c2, fs3, rest.
    split; [rewrite wire_cons; now rewrite <- app_assoc|]. destruct F as (F1 & F2 & F3 & F4 & F5 & F6).
    repeat (split; [assumption|]). split; [|assumption]. cbn [app]. constructor; [|assumption].
    split; [assumption|]. destruct f; [exact I|assumption].
  - destruct (IH eq_refl eq_refl) as (fs1 & c1 & fs2 & c2 & fs3 & rest & -> & F). exists (F_data p :: fs1), c1, fs2, c2, fs3, rest.
    split; [rewrite wire_cons; now rewrite <- app_assoc|]. destruct F as (F1 & F2 & F3 & F4 & F5 & F6).
    repeat (split; [assumption|]). split; [|assumption]. cbn [app]. constructor; [|assumption]. split; [assumption|exact I].
  - apply advance_inv in A. destruct A as (cts & A1 & A2 & -> & -> & ->).
    destruct (reacts_started _ _ _ _ _ _ R eq_refl eq_refl) as (fs & cts2 & bs' & F1 & F2 & F3 & -> & fs' & rest & F4 & -> & F5).
    exists [], cts, fs, cts2, fs', rest. split; [reflexivity|]. repeat (split; [assumption|]).
    split; [|assumption]. cbn [app]. now apply Forall_app.
Qed.

(** ** Oversized frames *)
Lemma reacts_drop hw ct f fs : Forall frame_ok fs -> frame_ok f -> hw < lenN (wire1 f) ->
  forall ph rest a q, reacts hw ct ph (wire fs ++ wire1 f ++ rest) a q -> reacts hw ct ph (wire fs ++ rest) a q.
Proof.
  intros F K L. induction F as [|g fs Kg F IH]; intros ph rest a q R.
  - apply reacts_frame in R; [|assumption]. destruct R as [(_ & R)|[(L' & _)|[(L' & _)|(L' & _)]]]; [exact R| | |]; lia.
  - rewrite wire_cons, <- app_assoc in *. apply reacts_frame in R; [|assumption].
    destruct R as [(L' & R)|[(L' & p & a' & -> & -> & R)|[(L' & L5 & p & x & ph' & a' & -> & A & -> & R)|(L' & p & -> & N & -> & ->)]]].
    + apply re_skip; auto.
    + cbn [wire1] in *. apply re_data; auto.
    + eapply re_ctl; eauto.
    + apply re_refuse; auto.
Qed.

(** ** The input buffer *)
Lemma control_keeps_buf e a id k c ok k' c' : process_control_frame e a id k c = Go (ok, k', c') -> k_buf k' = k_buf k.
Proof.
  unfold process_control_frame. destruct (control_get_type (k_ctl k)) as [[] [t|]]; try solve [intros [= <- <- <-]; reflexivity].
  destruct (k_state k); [| | |intros [= <- <- <-]; reflexivity].
  - destruct (t =? FSTRM_CONTROL_READY); cbn [negb]; [|intros [= <- <- <-]; reflexivity]. unfold process_control_frame_ready.
    destruct (control_get_num (k_ctl k)) as [[] n]; try solve [intros [= <- <- <-]; reflexivity].
    destruct (match_content_type a k); [|intros [= <- <- <-]; reflexivity].
    destruct (control_set_type _ _) as [[] k1]; try solve [intros [= <- <- <-]; reflexivity].
    destruct (control_add_field _ _) as [[] k2]; try solve [intros [= <- <- <-]; reflexivity].
    destruct (write_control_frame e id k2 c) as [[[|] c1]| | |]; cbn [rbind]; intros [= <- <- <-]; reflexivity.
  - destruct (t =? FSTRM_CONTROL_START); cbn [negb]; [|intros [= <- <- <-]; reflexivity]. unfold process_control_frame_start.
    destruct (match_content_type a k); intros [= <- <- <-]; reflexivity.
  - destruct (t =? FSTRM_CONTROL_STOP); cbn [negb]; [|intros [= <- <- <-]; reflexivity]. unfold process_control_frame_stop.
    destruct (control_set_type _ _) as [[] k1]; try solve [intros [= <- <- <-]; reflexivity].
    destruct (write_control_frame e id k1 c) as [[[|] c1]| | |]; cbn [rbind]; intros [= <- <- <-]; reflexivity.
Qed.

Lemma can_read_buf a k : match can_read_full_frame a k with
  | CR_closed => True | CR_wait k1 => k_buf k1 = k_buf k
  | CR_full k1 => k_buf k1 = k_buf k /\ k_total k1 <= lenN (k_buf k) end.
Proof.
  assert (H : forall p t s, match have_frame a (set_sizes k p t s) with
    | CR_closed => True | CR_wait k1 => k_buf k1 = k_buf k
    | CR_full k1 => k_buf k1 = k_buf k /\ k_total k1 <= lenN (k_buf k) end).
  { intros p t s. unfold have_frame. cbn [set_sizes k_buf k_total].
    destruct (lenN (k_buf k) <? t) eqn:E; [destruct (capture_highwater a <? t); cbn; exact eq_refl|]. split; [reflexivity|].
    cbn [set_sizes k_total]. lia. }
  unfold can_read_full_frame. cbv zeta. destruct (lenN (k_buf k) <? 4); [reflexivity|].
  destruct (ntohl_bytes (k_buf k) =? 0); [|apply H].
  destruct (lenN (k_buf k) <? 8); [reflexivity|]. destruct (_ || _); [exact I|]. apply H.
Qed.

Lemma load_buf k ok k' : load_control_frame k = Ok (ok, k') -> lenN (k_buf k') <= lenN (k_buf k).
Proof.
  unfold load_control_frame. destruct (_ <=? k_total k); [intros [= <- <-]; lia|].
  destruct (control_decode _ _ _ _) as [[[] ctl]|]; cbn [obind]; try discriminate; intros [= <- <-]; cbn [k_buf set_state drain]; rewrite ?lenN_skipn; lia.
Qed.

Lemma read_loop_buf e a id : forall fuel k c k' c', read_loop e a fuel id k c = Go (Some k', c') ->
  lenN (k_buf k') <= lenN (k_buf k).
Proof.
  induction fuel as [|fuel IH]; intros k c k' c' H; [discriminate|]. cbn [read_loop] in H.
  destruct (lenN (k_buf k) =? 0). { injection H as <- <-. lia. }
  destruct (k_skip k =? 0).
  - pose proof (can_read_buf a k) as B. destruct (can_read_full_frame a k) as [|k1|k1].
    + discriminate.
    + injection H as <- <-. rewrite B. lia.
    + destruct B as [B _]. destruct (0 <? k_payload k1).
      * destruct (process_data_frame e id k1 c) as [[k2 c1]| | |] eqn:PD; cbn [rbind] in H; try discriminate.
        destruct (maybe_rotate_output e a c1) as [c2| | |]; cbn [rbind] in H; try discriminate.
        apply IH in H. unfold process_data_frame in PD. destruct (fwrite e _ c) as [[|] c3]; [|discriminate].
        injection PD as <- <-. cbn [k_buf drain] in H. rewrite lenN_skipn, B in H. lia.
      * destruct (load_control_frame k1) as [[[|] k2]|] eqn:LC; try discriminate.
        destruct (process_control_frame e a id k2 c) as [[[ok k3] c1]| | |] eqn:PC; cbn [rbind] in H; try discriminate.
        destruct ok; [|discriminate]. apply IH in H. apply load_buf in LC. apply control_keeps_buf in PC.
        rewrite PC in H. rewrite B in LC. lia.
  - apply IH in H. cbn [k_buf set_sizes drain] in H. rewrite lenN_skipn in H. lia.
Qed.

Lemma run_buffer e a H c : reach e a H c -> forall id k, find_conn id (x_conns c) = Some k ->
  lenN (k_buf k) <= capture_highwater a.
Proof.
  induction 1 as [c B|H c x c' R IH L S]; intros id k Fk.
  { apply boot_inv in B. destruct B as (_ & _ & B & _). rewrite B in Fk. discriminate. }
  destruct (reach_inv _ _ _ _ R) as [C F].
  assert (Rm : forall i, find_conn id (remove_conn i (x_conns c)) = Some k -> find_conn id (x_conns c) = Some k).
  { intros i. rewrite find_remove by apply (cn_nodup _ _ _ C). destruct (Nat.eqb id i); [discriminate|auto]. }
  assert (Rc : forall i, find_conn id (x_conns (cb_close_conn i c)) = Some k -> find_conn id (x_conns c) = Some k) by exact Rm.
  destruct x as [i|i chunk|i|i| |]; cbn [step legal] in *.
  - injection S as <-. cbn [cb_accept_conn x_conns set_conns find_conn] in Fk.
    destruct (Nat.eqb i id); [injection Fk as <-; cbn; lia|eauto].
  - destruct L as (_ & k0 & F0 & Lb). rewrite F0 in S. unfold cb_read in S.
    destruct (read_loop e a _ i _ c) as [[r c1]| | |] eqn:RL; cbn [rbind] in S; try discriminate.
    destruct r as [k1|].
    + pose proof (read_loop_buf _ _ _ _ _ _ _ _ RL) as B. cbn [k_buf] in B.
      apply read_loop_evolves in RL; [|assumption]. destruct RL as [((_ & _ & E1) & _) _].
      injection S as <-. cbn [x_conns set_conns] in Fk. rewrite E1, find_update in Fk by apply (cn_nodup _ _ _ C).
      destruct (Nat.eqb id i); [|eauto]. rewrite F0 in Fk. injection Fk as <-. lia.
    + apply read_loop_evolves in RL; [|assumption]. destruct RL as (c0 & [((_ & _ & E1) & _) _] & ->).
      injection S as <-. cbn [x_conns cb_close_conn set_conns] in Fk. rewrite E1 in Fk. eauto.
  - destruct (find_conn i (x_conns c)); [|discriminate]. injection S as <-. unfold cb_write in Fk.
    destruct (k_state c0); eauto.
  - destruct (find_conn i (x_conns c)); [|discriminate]. injection S as <-. eauto.
  - destruct (x_open c); [|injection S as <-; eauto].
    apply rotate_output_inv in S; [|exact F]. destruct S as ((_ & _ & S1) & _). rewrite S1 in Fk. eauto.
  - destruct (x_open c); injection S as <-; eauto.
Qed.

(** With reads of at most [m] bytes, [m + 7] below the buffer size, the buffer
    is never full after a callback, so reading can go on. *)
Lemma short_of_header bs : incomplete bs -> total_of bs = None -> lenN bs < 8.
Proof.
  intros [_ I] T. destruct (N.lt_ge_cases (lenN bs) 8) as [|G]; [assumption|]. exfalso.
  unfold total_of in T. replace (lenN bs <? 4) with false in T by lia. cbv zeta in T.
  destruct (ntohl_bytes bs =? 0) eqn:E; [|discriminate]. replace (lenN bs <? 8) with false in T by lia.
  destruct ((ntohl_bytes (skipn 4 bs) <? 4) || (512 <? ntohl_bytes (skipn 4 bs))) eqn:E2; [|discriminate].
  apply I. apply bad_header_intro; lia.
Qed.

Lemma run_not_full e a id m : sends e -> m + 7 < capture_highwater a ->
  forall H c, reach e a H c -> reads_below m H -> tame (received id H) ->
  forall k, find_conn id (x_conns c) = Some k -> lenN (k_buf k) < capture_highwater a.
Proof.
  intros Hsend Hm H c R. induction R as [c B|H c x c' R IH L S]; intros Rb T k Fk.
  { apply boot_inv in B. destruct B as (_ & _ & B & _). rewrite B in Fk. discriminate. }
  assert (Rb' : reads_below m H) by (intros i ch I; eapply Rb, in_or_app; left; exact I).
  pose proof T as T1. rewrite received_snoc in T1. apply tame_prefix in T1. specialize (IH Rb' T1).
  destruct (reach_inv _ _ _ _ R) as [C F].
  assert (Rm : forall i, find_conn id (remove_conn i (x_conns c)) = Some k -> find_conn id (x_conns c) = Some k).
  { intros i. rewrite find_remove by apply (cn_nodup _ _ _ C). destruct (Nat.eqb id i); [discriminate|auto]. }
  assert (Rc : forall i, find_conn id (x_conns (cb_close_conn i c)) = Some k -> find_conn id (x_conns c) = Some k) by exact Rm.
  destruct x as [i|i chunk|i|i| |]; cbn [step legal] in *.
  - injection S as <-. cbn [cb_accept_conn x_conns set_conns find_conn] in Fk.
    destruct (Nat.eqb i id); [injection Fk as <-; cbn; lia|eauto].
  - destruct L as (Lne & k0 & F0 & Lb). rewrite F0 in S. unfold cb_read in S.
    set (k1 := mk_conn _ _ _ _ _ (k_buf k0 ++ chunk)) in *.
    destruct (read_loop e a _ i k1 c) as [[r c1]| | |] eqn:RL; cbn [rbind] in S; try discriminate.
    destruct (Nat.eq_dec i id) as [->|Hne].
    2:{ assert (N2 : Nat.eqb id i = false) by (apply Nat.eqb_neq; congruence).
        apply read_loop_evolves in RL; [|assumption]. destruct r as [k2|].
        - destruct RL as [((_ & _ & E1) & _) _]. injection S as <-. cbn [x_conns set_conns] in Fk.
          rewrite E1, find_update, N2 in Fk by apply (cn_nodup _ _ _ C). eauto.
        - destruct RL as (c0 & [((_ & _ & E1) & _) _] & ->). injection S as <-.
          cbn [x_conns cb_close_conn set_conns] in Fk. rewrite E1 in Fk. eauto. }
    pose proof (reach_explained e a id Hsend H c R T1) as E. unfold explained in E. rewrite F0 in E.
    destruct E as (pend & fs & A1 & A2 & A3 & A4 & A5 & A6).
    rewrite received_snoc, Nat.eqb_refl in T.
    assert (Ht : tame (pend ++ chunk)) by (rewrite A5, <- app_assoc in T; eapply tame_wire; eassumption).
    assert (Lc : 0 < lenN chunk) by (destruct chunk; [contradiction|unfold lenN; cbn [length]; lia]).
    destruct (read_loop_spec e a id Hsend (Datatypes.S (length (k_buf k1))) k1 c (pend ++ chunk)) as [(c2 & R2)|(r2 & c2 & R2 & Post)].
    { lia. } { exact F. } { now apply at_more. } { exact Ht. } { exact Lb. }
    { right. right. unfold k1. cbn [k_buf]. rewrite lenN_app. lia. }
    { rewrite RL in R2. discriminate. }
    rewrite RL in R2. injection R2 as <- <-. destruct Post as (c0 & acts & P1 & P2 & P3 & P4).
    destruct r as [k'|].
    2:{ destruct P4 as (-> & _). injection S as <-. cbn [x_conns cb_close_conn set_conns] in Fk.
        destruct P1 as (_ & _ & P1). rewrite P1, find_remove, Nat.eqb_refl in Fk by apply (cn_nodup _ _ _ C). discriminate. }
    destruct P4 as (-> & pend' & fs' & Q1 & Q2 & Q3 & Q4 & Q5 & Q6). injection S as <-. cbn [x_conns set_conns] in Fk.
    destruct P1 as (_ & _ & P1). rewrite P1, find_update, Nat.eqb_refl, F0 in Fk by apply (cn_nodup _ _ _ C).
    injection Fk as <-. clear Q6 A6.
    set (hw := capture_highwater a) in *.
    destruct Q2 as (I' & S0 & S1). destruct (N.eq_dec (k_skip k') 0) as [Z|Z].
    + (* not skipping: the frame in progress fits *)
      destruct Q1 as [[_ Q1]|(g & T' & _ & _ & _ & _ & Z')]; [|lia]. rewrite Q1. specialize (S0 Z).
      destruct (total_of pend') as [T'|] eqn:ET.
      * apply incomplete_iff in I' as [_ I']. rewrite ET in I'. lia.
      * pose proof (short_of_header _ I' ET). lia.
    + destruct (S1 ltac:(lia)) as [S2|S2]; [rewrite S2, lenN_nil; lia|].
      (* the header of a large frame was just found *)
      rewrite S2. destruct Q1 as [[Q1 _]|(g & T' & G1 & G2 & G3 & _ & _)]; [lia|].
      assert (Lm : lenN chunk <= m) by (eapply Rb, in_or_app; right; left; reflexivity).
      destruct A2 as (I0 & S3 & S4).
      destruct fs' as [|f fs'].
      * cbn [wire map concat app] in Q5. rewrite <- Q5, lenN_app.
        destruct (total_of pend) as [T0|] eqn:E0.
        { pose proof (total_of_app _ chunk _ E0) as E1. rewrite Q5, G2 in E1. injection E1 as <-.
          assert (Zs : 0 < k_skip k0).
          { destruct (N.eq_dec (k_skip k0) 0) as [Z0|]; [|lia]. specialize (S3 Z0). cbn in S3. lia. }
          (* already skipping that frame: the loop dropped the new bytes *)
          exfalso.
          destruct A1 as [[A1 _]|(g0 & T1' & B1 & B2 & B3 & B4 & B5)]; [lia|]. rewrite E0 in B2. injection B2 as <-.
          cbn [read_loop] in RL. cbn [k_buf] in RL.
          replace (lenN (k_buf k1) =? 0) with false in RL by (unfold k1; cbn [k_buf]; rewrite lenN_app; lia).
          assert (Zk : (k_skip k1 =? 0) = false) by (unfold k1; cbn [k_skip]; lia). rewrite Zk in RL.
          apply read_loop_buf in RL. cbn [k_buf set_sizes drain] in RL. rewrite lenN_skipn in RL.
          apply (f_equal lenN) in S2. rewrite <- Q5, lenN_app in S2.
          assert (Lk1 : lenN (k_buf k1) = lenN (k_buf k0) + lenN chunk) by (unfold k1; cbn [k_buf]; apply lenN_app).
          assert (Lpend : lenN pend = lenN g0 + lenN (k_buf k0)) by (rewrite B1; apply lenN_app).
          change (k_skip k1) with (k_skip k0) in RL. lia. }
        { pose proof (short_of_header _ I0 E0). lia. }
      * (* the frame starts in the new bytes *)
        inversion Q4 as [|f' l' Kf Ffs]; subst f' l'. rewrite wire_cons, <- app_assoc in Q5.
        assert (G : lenN pend < lenN (wire1 f)).
        { destruct (N.lt_ge_cases (lenN pend) (lenN (wire1 f))) as [|G]; [assumption|]. exfalso.
          rewrite <- (firstn_skipn (length (wire1 f)) pend), <- app_assoc in Q5.
          apply app_eq_len in Q5 as [Q5 _].
          2:{ rewrite firstn_length. unfold lenN in G. lia. }
          apply (proj1 I0 f (skipn (length (wire1 f)) pend) Kf). rewrite <- Q5 at 1. now rewrite firstn_skipn. }
        apply (f_equal lenN) in Q5. rewrite !lenN_app in Q5. lia.
  - destruct (find_conn i (x_conns c)) as [k2|]; [|discriminate]. injection S as <-. unfold cb_write in Fk.
    destruct (k_state k2); eauto.
  - destruct (find_conn i (x_conns c)); [|discriminate]. injection S as <-. eauto.
  - destruct (x_open c); [|injection S as <-; eauto].
    apply rotate_output_inv in S; [|exact F]. destruct S as ((_ & _ & S1) & _). rewrite S1 in Fk. eauto.
  - destruct (x_open c); injection S as <-; eauto.
Qed.

(** ** The server keeps running *)
Lemma write_control_frame_defined e id ctl c : exists ok c', write_control_frame e id ctl c = Go (ok, c').
Proof.
  unfold write_control_frame. rewrite encode_frame_eq. destruct (encodable _ _ _); [|eauto].
  destruct (send_frame e id _ c) as [ok c']. eauto.
Qed.

Lemma process_control_defined e a id k c : exists ok k' c', process_control_frame e a id k c = Go (ok, k', c').
Proof.
  unfold process_control_frame. destruct (control_get_type (k_ctl k)) as [[] [t|]]; eauto.
  destruct (k_state k); [| | |eauto].
  - destruct (t =? FSTRM_CONTROL_READY); cbn [negb]; [|eauto]. unfold process_control_frame_ready.
    destruct (control_get_num (k_ctl k)) as [[] n]; eauto. destruct (match_content_type a k); [|eauto].
    destruct (control_set_type _ _) as [[] k1]; eauto. destruct (control_add_field _ _) as [[] k2]; eauto.
    destruct (write_control_frame_defined e id k2 c) as ([|] & c1 & ->); cbn [rbind]; eauto.
  - destruct (t =? FSTRM_CONTROL_START); cbn [negb]; [|eauto]. unfold process_control_frame_start.
    destruct (match_content_type a k); eauto.
  - destruct (t =? FSTRM_CONTROL_STOP); cbn [negb]; [|eauto]. unfold process_control_frame_stop.
    destruct (control_set_type _ _) as [[] k1]; eauto.
    destruct (write_control_frame_defined e id k1 c) as ([|] & c1 & ->); cbn [rbind]; eauto.
Qed.

Definition not_broke {A} (r : ores A) : Prop := forall f, r <> Broke f.

Lemma read_loop_not_broke e a id : forall fuel k c, not_broke (read_loop e a fuel id k c).
Proof.
  induction fuel as [|fuel IH]; intros k c; [intros f; discriminate|]. cbn [read_loop].
  destruct (lenN (k_buf k) =? 0); [discriminate|]. destruct (k_skip k =? 0); [|apply IH].
  pose proof (can_read_buf a k) as B. destruct (can_read_full_frame a k) as [|k1|k1]; [discriminate|discriminate|].
  destruct (0 <? k_payload k1).
  - unfold process_data_frame. destruct (fwrite e _ c) as [[|] c1]; cbn [rbind]; [|discriminate].
    destruct (maybe_rotate_defined e a (note c1 id (Store (firstn (N.to_nat (k_total k1)) (k_buf k1))))) as [[c2 ->]|[c2 ->]];
      cbn [rbind]; [apply IH|discriminate].
  - destruct B as [B1 B2]. unfold load_control_frame. destruct (_ <=? k_total k1); [discriminate|].
    destruct (control_decode_total (k_ctl k1) (k_buf k1) (k_total k1) 1) as (r & ctl & D & Hr & _); [rewrite B1; exact B2|].
    rewrite D. cbn [obind]. destruct Hr as [-> | ->]; [|discriminate].
    destruct (process_control_defined e a id (drain (set_state k1 (k_state k1) ctl) (k_total k1)) c) as ([|] & k3 & c1 & ->);
      cbn [rbind]; [apply IH|discriminate].
Qed.

Lemma step_not_broke e a H c x : reach e a H c -> legal a H c x -> not_broke (step e a x c).
Proof.
  intros R L. destruct x as [i|i chunk|i|i| |]; cbn [step legal] in *; try (intros f; discriminate).
  - destruct L as (_ & k & -> & _). unfold cb_read. set (k1 := mk_conn _ _ _ _ _ _).
    pose proof (read_loop_not_broke e a i (S (length (k_buf k1))) k1 c) as N.
    destruct (read_loop e a _ i k1 c) as [[[k2|] c1]| | |f]; cbn [rbind]; intros f'; try discriminate.
    exfalso. exact (N _ eq_refl).
  - destruct (find_conn i (x_conns c)); [discriminate|contradiction].
  - destruct (find_conn i (x_conns c)); [discriminate|contradiction].
  - destruct (x_open c); [|discriminate]. destruct (rotate_output_defined e a c) as [[c' ->]|[c' ->]]; discriminate.
Qed.

Lemma fwrite_works e b c : output_works e -> exists c', fwrite e b c = (true, c').
Proof. intros (W & _). unfold fwrite. rewrite W. eauto. Qed.

Lemma close_works e c : output_works e -> exists c', close_write_file e c = Go (true, c').
Proof.
  intro W. unfold close_write_file. destruct (x_open c); [|eauto]. rewrite close_write_stop_eq. cbn [rbind].
  destruct (fwrite_works e stop_frame c W) as [c1 ->]. eauto.
Qed.

Lemma open_works e a c : output_works e -> lenN (a_ctype a) <= 256 -> exists c', open_write_file e a c = Go (true, c').
Proof.
  intros W Hct.
  assert (B : forall c1, exists c',
    (' (ok, c2) <~ open_write_start e a c1 ;;
      if ok then Go (true, c2) else Go (false, note_io (set_outs c2 (x_outs c2) false) IoClose)) = Go (true, c')).
  { intros c1. rewrite open_write_start_eq. replace (lenN (a_ctype a) <=? 256) with true by lia. cbn [rbind].
    destruct (fwrite_works e (start_frame (Some (a_ctype a))) c1 W) as [c2 ->]. cbn [flushed]. eauto. }
  destruct W as (_ & W2 & W3). unfold open_write_file, update_output_fname. cbv zeta.
  destruct (is_stdout a); [apply B|].
  destruct (has_calendar a).
  - specialize (W3 (e_time e (x_tick c))). destruct (e_strftime e _); [|contradiction]. rewrite W2. apply B.
  - rewrite W2. apply B.
Qed.

Lemma rotate_works e a c : output_works e -> lenN (a_ctype a) <= 256 -> exists c', rotate_output e a c = Go c'.
Proof.
  intros W Hct. unfold rotate_output. destruct (is_stdout a); [eauto|].
  destruct (close_works e c W) as [c1 ->]. cbn [rbind]. destruct (open_works e a c1 W Hct) as [c2 ->]. cbn [rbind]. eauto.
Qed.

Lemma maybe_rotate_works e a c : output_works e -> lenN (a_ctype a) <= 256 -> exists c', maybe_rotate_output e a c = Go c'.
Proof.
  intros W Hct. unfold maybe_rotate_output. cbv zeta. destruct (0 <? a_split a)%Z; [|eauto].
  destruct (_ <=? _)%Z; [now apply rotate_works|eauto].
Qed.

Lemma read_loop_no_exit e a id : output_works e -> lenN (a_ctype a) <= 256 ->
  forall fuel k c c', read_loop e a fuel id k c <> Exit c'.
Proof.
  intros W Hct. induction fuel as [|fuel IH]; intros k c c'; [discriminate|]. cbn [read_loop].
  destruct (lenN (k_buf k) =? 0); [discriminate|]. destruct (k_skip k =? 0); [|apply IH].
  destruct (can_read_full_frame a k) as [|k1|k1]; [discriminate|discriminate|].
  destruct (0 <? k_payload k1).
  - unfold process_data_frame. destruct (fwrite_works e (firstn (N.to_nat (k_total k1)) (k_buf k1)) c W) as [c1 ->].
    cbn [rbind]. destruct (maybe_rotate_works e a (note c1 id (Store (firstn (N.to_nat (k_total k1)) (k_buf k1)))) W Hct) as [c2 ->].
    cbn [rbind]. apply IH.
  - destruct (load_control_frame k1) as [[[|] k2]|]; [|discriminate|discriminate].
    destruct (process_control_defined e a id k2 c) as ([|] & k3 & c1 & ->); cbn [rbind]; [apply IH|discriminate].
Qed.

Lemma step_runs e a H c x : sends e -> output_works e -> reach e a H c -> legal a H c x ->
  (forall id, tame (received id (H ++ [x]))) -> exists c', step e a x c = Go c'.
Proof.
  intros Hsend W R L T. destruct (reach_inv _ _ _ _ R) as [C F]. pose proof (proj1 F) as Hct.
  destruct x as [i|i chunk|i|i| |]; cbn [step legal] in *; try solve [eauto].
  - destruct L as (Lne & k0 & F0 & Lb). rewrite F0. unfold cb_read. specialize (T i).
    rewrite received_snoc, Nat.eqb_refl in T. pose proof (tame_prefix _ _ T) as T1.
    pose proof (reach_explained e a i Hsend H c R T1) as E. unfold explained in E. rewrite F0 in E.
    destruct E as (pend & fs & A1 & A2 & A3 & A4 & A5 & A6).
    set (k1 := mk_conn _ _ _ _ _ (k_buf k0 ++ chunk)) in *.
    assert (Ht : tame (pend ++ chunk)) by (rewrite A5, <- app_assoc in T; eapply tame_wire; eassumption).
    assert (Lc : 0 < lenN chunk) by (destruct chunk; [contradiction|unfold lenN; cbn [length]; lia]).
    destruct (read_loop_spec e a i Hsend (Datatypes.S (length (k_buf k1))) k1 c (pend ++ chunk)) as [(c2 & R2)|(r2 & c2 & R2 & _)].
    { lia. } { exact F. } { now apply at_more. } { exact Ht. } { exact Lb. }
    { right. right. unfold k1. cbn [k_buf]. rewrite lenN_app. lia. }
    { exfalso. eapply read_loop_no_exit; eassumption. }
    rewrite R2. cbn [rbind]. destruct r2; eauto.
  - destruct (find_conn i (x_conns c)); [eauto|contradiction].
  - destruct (find_conn i (x_conns c)); [eauto|contradiction].
  - destruct (x_open c); [now apply rotate_works|eauto].
Qed.

(** ** Names *)
Lemma on_disk_none name o : ~ In name (map fst o) -> on_disk name o = None.
Proof.
  induction o as [|[n d] o IH]; [reflexivity|]. cbn [map fst In on_disk]. intro N.
  rewrite IH by tauto. rewrite (proj2 (bytes_eqb_neq n name)); [reflexivity|]. tauto.
Qed.

Lemma on_disk_kept o name d : NoDup (map fst o) -> In (name, d) o -> on_disk name o = Some d.
Proof.
  induction o as [|[n d0] o IH]; intros N I; [contradiction|]. cbn [map fst] in N. inversion N as [|? ? N1 N2]; subst.
  cbn [on_disk]. destruct I as [[= -> ->]|I].
  - rewrite on_disk_none by assumption. rewrite bytes_eqb_refl. reflexivity.
  - rewrite (IH N2 I). reflexivity.
Qed.

(** Distinct opening times, the current one the latest and already past. *)
Definition names_inv (e : env) (a : args) (c : ctx) : Prop :=
  files_open a c /\
  exists older, map Some (map fst (x_outs c)) = map (e_strftime e) (older ++ [x_ts c]) /\
    NoDup older /\ Forall (fun t => (t < x_ts c)%Z /\ exists n, t = e_time e n) older /\
    exists n, (n < x_tick c)%nat /\ x_ts c = e_time e n.

Lemma names_quiet e a c c' : names_inv e a c -> files_open a c' -> map fst (x_outs c') = map fst (x_outs c) ->
  x_ts c' = x_ts c -> (x_tick c <= x_tick c')%nat -> names_inv e a c'.
Proof.
  intros (F & older & A1 & A2 & A3 & n & A4 & A5) F' E1 E2 L. split; [exact F'|]. exists older.
  rewrite E1, E2. repeat (split; [assumption|]). exists n. split; [lia|assumption].
Qed.

Lemma open_tick e a c c' : is_stdout a = false -> has_calendar a = true ->
  open_write_file e a c = Go (true, c') -> (x_tick c < x_tick c')%nat.
Proof.
  intros Ns Cal H. unfold open_write_file in H. rewrite Ns, Cal in H. unfold update_output_fname in H. cbv zeta in H.
  destruct (e_strftime e _); [|discriminate]. destruct (e_open e _); [|discriminate].
  rewrite open_write_start_eq in H. destruct (_ <=? _); cbn [rbind] in H; [|discriminate].
  unfold fwrite in H. destruct (e_fwrite e _); [|discriminate]. injection H as <-. cbn. lia.
Qed.

Lemma rotate_tick e a c c' : files_open a c -> is_stdout a = false -> has_calendar a = true ->
  rotate_output e a c = Go c' -> (S (x_tick c) < x_tick c')%nat.
Proof.
  intros F Ns Cal H. unfold rotate_output in H. rewrite Ns in H. unfold close_write_file in H.
  destruct F as (_ & Ho & _). rewrite Ho, close_write_stop_eq in H. cbn [rbind] in H.
  unfold fwrite in H. destruct (e_fwrite e (x_tick c)); cbn [rbind] in H; [|discriminate].
  destruct (open_write_file e a _) as [[[|] c2]| | |] eqn:O; cbn [rbind] in H; try discriminate. injection H as <-.
  apply open_tick in O; [|assumption|assumption]. exact O.
Qed.

Lemma NoDup_snoc {A} (l : list A) x : NoDup l -> ~ In x l -> NoDup (l ++ [x]).
Proof.
  intros N I. apply (Permutation_NoDup (Permutation_cons_append l x)). now constructor.
Qed.

Lemma names_rotate e a c c' : steady e -> is_stdout a = false -> has_calendar a = true ->
  names_inv e a c -> maybe_rotate_output e a c = Go c' -> names_inv e a c'.
Proof.
  intros St Ns Cal I H. unfold maybe_rotate_output in H. cbv zeta in H.
  destruct (0 <? a_split a)%Z eqn:Sp; [|injection H as <-; exact I].
  destruct (_ <=? _)%Z eqn:Due.
  2:{ injection H as <-. apply (names_quiet _ _ _ _ I); [exact (proj1 I)|reflexivity|reflexivity|cbn; lia]. }
  assert (Hr := H). destruct I as (F & older & A1 & A2 & A3 & n & A4 & A5).
  apply rotate_output_inv in H; [|exact F]. destruct H as (_ & _ & F' & _ & R).
  destruct (R Ns) as (c1 & name & R1 & R2 & R3 & R4 & R5). split; [exact F'|].
  unfold next_ts in R3. unfold next_name in R4. rewrite Ns, Cal in R3, R4. cbn [tick x_tick x_ts x_outs] in *.
  assert (Lt : (x_ts c < x_ts c')%Z).
  { rewrite R3. pose proof (St (x_tick c) (x_tick c1) ltac:(lia)). lia. }
  exists (older ++ [x_ts c]). split; [|split; [|split]].
  - rewrite R5, !map_app, A1, R3. cbn [map]. rewrite R4, map_app. reflexivity.
  - apply NoDup_snoc; [exact A2|]. rewrite Forall_forall in A3. intro I. specialize (A3 _ I). lia.
  - apply Forall_app. split; [|constructor; [split; [exact Lt|eauto]|constructor]].
    eapply Forall_impl; [|exact A3]. cbn. intros t [T1 T2]. split; [lia|exact T2].
  - exists (x_tick c1). split; [|exact R3].
    rewrite R1. exact (rotate_tick e a (tick c) c' F Ns Cal Hr).
Qed.

Lemma append_last_names o b : map fst (append_last o b) = map fst o.
Proof. induction o as [|[n d] [|x o] IH]; [reflexivity|reflexivity|]. cbn [append_last map] in *. now rewrite IH. Qed.

Lemma names_data e a id k c k' c' : names_inv e a c -> process_data_frame e id k c = Go (k', c') -> names_inv e a c'.
Proof.
  intros I H. destruct (process_data_inv _ a _ _ _ _ _ (proj1 I) H) as (_ & _ & F & _).
  unfold process_data_frame, fwrite in H. destruct (e_fwrite e _); [|discriminate]. injection H as _ <-.
  apply (names_quiet _ _ _ _ I); [exact F| |reflexivity|cbn; lia]. cbn. apply append_last_names.
Qed.

Lemma names_send e a id b c : names_inv e a c -> names_inv e a (snd (send_frame e id b c)).
Proof.
  intros I. assert (F : files_open a (snd (send_frame e id b c))).
  { destruct I as (F & _). unfold send_frame. destruct (e_send e _); cbn [snd]; [|exact F].
    destruct F as (F1 & F2 & fss & cur & F3 & F4). split; [exact F1|]. split; [exact F2|].
    exists fss, cur. split; [exact F3|]. rewrite F4. unfold stored. cbn [x_log note tick].
    rewrite map_app, concat_app. cbn [map concat snd app]. now rewrite !app_nil_r. }
  apply (names_quiet _ _ _ _ I F); unfold send_frame; destruct (e_send e _); cbn; try reflexivity; lia.
Qed.

Lemma names_hangup e a id c : names_inv e a c -> names_inv e a (note c id Hangup).
Proof.
  intros I. assert (F : files_open a (note c id Hangup)).
  { destruct I as (F & _). destruct F as (F1 & F2 & fss & cur & F3 & F4). split; [exact F1|]. split; [exact F2|].
    exists fss, cur. split; [exact F3|]. rewrite F4. unfold stored. cbn [x_log note].
    rewrite map_app, concat_app. cbn [map concat snd app]. now rewrite !app_nil_r. }
  apply (names_quiet _ _ _ _ I F); cbn; try reflexivity; lia.
Qed.

Lemma run_names e a H c : steady e -> is_stdout a = false -> has_calendar a = true ->
  reach e a H c -> ~ In E_sigusr1 H -> names_inv e a c.
Proof.
  intros St Ns Cal R. induction R as [c B|H c x c' R IH L S]; intro Nu.
  - unfold boot in B. set (c0 := mk_ctx [] false 0 0 (remaining0 a) true [] [] []) in B.
    destruct (open_write_file e a c0) as [[[|] c1]| | |] eqn:O; cbn [rbind] in B; try discriminate.
    injection B as <-. pose proof (open_tick _ _ _ _ Ns Cal O) as Tk.
    apply open_write_file_inv in O; [|exists []; split; reflexivity].
    destruct O as (_ & _ & O3). destruct (O3 eq_refl) as (F & T & name & Nm & Fs). split; [exact F|].
    unfold next_ts in T. unfold next_name in Nm. rewrite Ns, Cal in T, Nm.
    exists []. rewrite Fs, T. cbn [map app x_outs c0]. rewrite Nm. split; [reflexivity|]. split; [constructor|].
    split; [constructor|]. exists (x_tick c0). split; [exact Tk|reflexivity].
  - assert (I : names_inv e a c) by (apply IH; intro; apply Nu, in_or_app; now left). clear IH.
    assert (Cl : forall i c0, names_inv e a c0 -> names_inv e a (cb_close_conn i c0)).
    { intros i c0 I0. apply (names_quiet _ _ _ _ I0); [exact (proj1 I0)|reflexivity|reflexivity|cbn; lia]. }
    destruct x as [i|i chunk|i|i| |]; cbn [step legal] in *.
    + injection S as <-. apply (names_quiet _ _ _ _ I); [exact (proj1 I)|reflexivity|reflexivity|cbn; lia].
    + destruct L as (_ & k0 & F0 & _). rewrite F0 in S. unfold cb_read in S.
      destruct (read_loop e a _ i _ c) as [[r c1]| | |] eqn:RL; cbn [rbind] in S; try discriminate.
      apply (read_loop_keeps e a i (names_inv e a)) in RL; [| | | | |exact I].
      * destruct r as [k1|].
        -- injection S as <-. apply (names_quiet _ _ _ _ RL); [exact (proj1 RL)|reflexivity|reflexivity|cbn; lia].
        -- destruct RL as (c0 & I0 & ->). injection S as <-. now apply Cl.
      * intros. eapply names_data; eassumption.
      * intros. eapply names_rotate; eassumption.
      * intros. now apply names_send.
      * intros. now apply names_hangup.
    + destruct (find_conn i (x_conns c)) as [k|]; [|discriminate]. injection S as <-. unfold cb_write.
      destruct (k_state k); auto.
    + destruct (find_conn i (x_conns c)); [|discriminate]. injection S as <-. auto.
    + exfalso. apply Nu, in_or_app. right. now left.
    + destruct (x_open c); injection S as <-; [|exact I].
      apply (names_quiet _ _ _ _ I); [exact (proj1 I)|reflexivity|reflexivity|cbn; lia].
Qed.

Lemma run_names_distinct e a H c : steady e -> telling e ->
  is_stdout a = false -> has_calendar a = true -> reach e a H c -> ~ In E_sigusr1 H -> NoDup (map fst (x_outs c)).
Proof.
  intros St Inj Ns Cal R Nu. destruct (run_names _ _ _ _ St Ns Cal R Nu) as (_ & older & A1 & A2 & A3 & n & _ & A5).
  assert (N : NoDup (older ++ [x_ts c])).
  { apply NoDup_snoc; [exact A2|]. rewrite Forall_forall in A3. intro I. specialize (A3 _ I). lia. }
  assert (E : Forall (fun t => exists n, t = e_time e n) (older ++ [x_ts c])).
  { apply Forall_app. split; [|constructor; [eauto|constructor]]. eapply Forall_impl; [|exact A3]. cbn. tauto. }
  apply (NoDup_map_inv Some). rewrite A1. clear - N E Inj. induction N as [|x l N1 N2 IH]; [constructor|].
  inversion E as [|? ? [n E1] E2]; subst. cbn [map]. constructor; [|auto]. intro I. apply in_map_iff in I as (y & Ey & I).
  rewrite Forall_forall in E2. destruct (E2 _ I) as [m ->]. apply Inj in Ey. rewrite Ey in I. contradiction.
Qed.

(** ** Recognising tame streams, computing runs *)
Definition moderate (f : frame) : Prop :=
  frame_ok f /\ match f with F_data p => lenN p < 2 ^ 32 - 4 | F_ctl _ => True end.

Lemma moderate_head f b : moderate f -> be_value (firstn 4 (wire1 f ++ b)) < 2 ^ 32 - 4.
Proof.
  intros [K M]. destruct f as [p|p]; cbn [wire1]; unfold data_frame; rewrite <- !app_assoc.
  - rewrite firstn_app_exact by reflexivity. rewrite <- ntohl_be_value by reflexivity.
    rewrite <- (app_nil_r (be32 _)), ntohl_be32_small by lia. exact M.
  - rewrite firstn_app_exact by reflexivity. reflexivity.
Qed.

Lemma tame_cons f b : moderate f -> tame b -> tame (wire1 f ++ b).
Proof.
  intros M T fs rest F E L. destruct F as [|g fs Kg F].
  - cbn [wire map concat app] in E. subst rest. now apply moderate_head.
  - rewrite wire_cons, <- app_assoc in E. apply wire1_inj in E as [-> E]; [|apply M|assumption]. eapply T; eassumption.
Qed.

Lemma tame_end b : incomplete b -> (4 <= lenN b -> be_value (firstn 4 b) < 2 ^ 32 - 4) -> tame b.
Proof.
  intros I B fs rest F E L. destruct F as [|g fs Kg F].
  - cbn [wire map concat app] in E. subst rest. auto.
  - exfalso. rewrite wire_cons, <- app_assoc in E. exact (proj1 I _ _ Kg E).
Qed.

Lemma tame_all fs b : Forall moderate fs -> tame b -> tame (wire fs ++ b).
Proof.
  induction 1 as [|f fs M F IH]; [auto|]. intro T. rewrite wire_cons, <- app_assoc. apply tame_cons; auto.
Qed.

Lemma tame_nil : tame [].
Proof. apply tame_end; [apply incomplete_nil|]. rewrite lenN_nil. lia. Qed.

Definition legalb (a : args) (H : list ev) (c : ctx) (x : ev) : bool :=
  match x with
  | E_accept id => x_listen c && negb (existsb (fun y => match y with E_accept i => Nat.eqb i id | _ => false end) H)
  | E_data id chunk =>
      negb (lenN chunk =? 0) &&
      match find_conn id (x_conns c) with
      | Some k => lenN (k_buf k ++ chunk) <=? capture_highwater a
      | None => false
      end
  | E_written id | E_gone id => match find_conn id (x_conns c) with Some _ => true | None => false end
  | E_sigusr1 | E_sighup => true
  end.

Lemma legalb_sound a H c x : legalb a H c x = true -> legal a H c x.
Proof.
  destruct x as [i|i b|i|i| |]; cbn [legalb legal]; try solve [trivial];
    try solve [destruct (find_conn i (x_conns c)); discriminate].
  - rewrite Bool.andb_true_iff, Bool.negb_true_iff. intros [-> E]. split; [reflexivity|]. intro I.
    rewrite <- Bool.not_true_iff_false in E. apply E, existsb_exists. exists (E_accept i). split; [exact I|apply Nat.eqb_refl].
  - rewrite Bool.andb_true_iff, Bool.negb_true_iff. intros [E1 E2]. split.
    + intros ->. discriminate.
    + destruct (find_conn i (x_conns c)) as [k|]; [|discriminate]. exists k. split; [reflexivity|lia].
Qed.

Fixpoint play (e : env) (a : args) (H : list ev) (c : ctx) (xs : list ev) : option (ctx) :=
  match xs with
  | [] => Some c
  | x :: xs' =>
      if legalb a H c x then
        match step e a x c with Go c' => play e a (H ++ [x]) c' xs' | _ => None end
      else None
  end.
Definition play0 (e : env) (a : args) (xs : list ev) : option ctx :=
  match boot e a with Go c => play e a [] c xs | _ => None end.

Lemma play_sound e a xs : forall H c c', reach e a H c -> play e a H c xs = Some c' -> reach e a (H ++ xs) c'.
Proof.
  induction xs as [|x xs IH]; intros H c c' R P; cbn [play] in P.
  - injection P as <-. now rewrite app_nil_r.
  - destruct (legalb a H c x) eqn:L; [|discriminate]. destruct (step e a x c) as [c1| | |] eqn:S; try discriminate.
    replace (H ++ x :: xs) with ((H ++ [x]) ++ xs) by now rewrite <- app_assoc.
    eapply IH; [|exact P]. eapply reach_step; [exact R|now apply legalb_sound|exact S].
Qed.

Lemma play0_sound e a xs c : play0 e a xs = Some c -> reach e a xs c.
Proof.
  unfold play0. destruct (boot e a) as [c0| | |] eqn:B; try discriminate. intro P.
  apply (play_sound _ _ _ [] c0); [now constructor|exact P].
Qed.

(** ** A complete session *)
Lemma reacts_datas hw ct ph ds bs a q : Forall data_ok ds -> Forall (fun d => lenN (data_frame d) <= hw) ds ->
  reacts hw ct ph bs a q -> reacts hw ct ph (datas ds ++ bs) (map Store (map data_frame ds) ++ a) q.
Proof.
  intros F1 F2 R. induction F1 as [|d ds K F1 IH]; [exact R|]. inversion F2; subst.
  unfold datas. cbn [map concat app]. rewrite <- app_assoc. apply re_data; auto.
Qed.

Lemma ctl_len_bounds t cts : lenN (wire1 (F_ctl (ctl_payload t cts))) = 8 + lenN (ctl_payload t cts).
Proof. cbn [wire1]. rewrite !lenN_app, !lenN_be32. lia. Qed.

Lemma payload_ge4 t cts : 4 <= lenN (ctl_payload t cts).
Proof. unfold ctl_payload. rewrite lenN_app, lenN_be32. lia. Qed.

Lemma reacts_session hw ct cts st ds :
  ctl_ok T_READY cts -> ctl_ok T_START (optl st) -> cts = [] \/ In ct cts -> st = None \/ st = Some ct ->
  lenN (ready_frame cts) < 512 -> 512 <= hw -> lenN ct <= 256 ->
  Forall data_ok ds -> Forall (fun d => lenN (data_frame d) <= hw) ds ->
  reacts hw ct Ph_ready (ready_frame cts ++ start_frame st ++ datas ds ++ stop_frame)
    (Answer (ctl_frame T_ACCEPT [ct]) :: map Store (map data_frame ds) ++ [Answer finish_frame]) (Some Ph_stop).
Proof.
  intros K1 K2 M1 M2 L Hw Lct F1 F2.
  assert (Lr := ctl_len_bounds T_READY cts). change (wire1 (F_ctl (ctl_payload T_READY cts))) with (ready_frame cts) in Lr.
  change (ready_frame cts) with (wire1 (F_ctl (ctl_payload T_READY cts))).
  change (Answer (ctl_frame T_ACCEPT [ct]) :: ?x) with ([Answer (ctl_frame T_ACCEPT [ct])] ++ x).
  apply re_ctl with (ph' := Ph_start).
  { split; [apply payload_ge4|unfold CTL_MAX; lia]. } { rewrite ctl_len_bounds. lia. } { rewrite ctl_len_bounds. lia. }
  { now constructor. }
  assert (Ls : lenN (ctl_payload T_START (optl st)) <= 4 + 8 + 256).
  { destruct M2 as [-> | ->]; cbn [optl]; unfold ctl_payload, ct_field; cbn [map concat]; rewrite ?lenN_app, ?lenN_be32, ?lenN_nil; lia. }
  change (start_frame st) with (wire1 (F_ctl (ctl_payload T_START (optl st)))).
  change (map Store (map data_frame ds) ++ [Answer finish_frame]) with ([] ++ (map Store (map data_frame ds) ++ [Answer finish_frame])).
  apply re_ctl with (ph' := Ph_data).
  { split; [apply payload_ge4|unfold CTL_MAX; lia]. } { rewrite ctl_len_bounds. lia. } { rewrite ctl_len_bounds. lia. }
  { constructor; [exact K2|]. destruct M2 as [-> | ->]; [now left|right; now left]. }
  apply reacts_datas; [exact F1|exact F2|].
  change stop_frame with (wire1 (F_ctl (ctl_payload T_STOP []))).
  rewrite <- (app_nil_r (wire1 _)).
  change [Answer finish_frame] with ([Answer finish_frame] ++ []).
  apply re_ctl with (ph' := Ph_stop).
  { split; vm_compute; discriminate. } { change (12 <= hw). lia. } { reflexivity. }
  { constructor. } { constructor. apply incomplete_nil. }
Qed.

Lemma session_tame cts st ds more : Forall (fun d => data_ok d /\ lenN d < 2 ^ 32 - 4) ds ->
  lenN (ready_frame cts) < 512 -> lenN (start_frame st) < 512 -> tame more ->
  tame (ready_frame cts ++ start_frame st ++ datas ds ++ stop_frame ++ more).
Proof.
  intros F L1 L2 T.
  assert (Lr := ctl_len_bounds T_READY cts). change (wire1 (F_ctl (ctl_payload T_READY cts))) with (ready_frame cts) in Lr.
  assert (Ls := ctl_len_bounds T_START (optl st)). change (wire1 (F_ctl (ctl_payload T_START (optl st)))) with (start_frame st) in Ls.
  replace (ready_frame cts ++ start_frame st ++ datas ds ++ stop_frame ++ more)
    with (wire ([F_ctl (ctl_payload T_READY cts); F_ctl (ctl_payload T_START (optl st))] ++ map F_data ds ++ [F_ctl (ctl_payload T_STOP [])]) ++ more).
  - apply tame_all; [|exact T]. apply Forall_app. split; [|apply Forall_app; split].
    + pose proof (payload_ge4 T_READY cts). pose proof (payload_ge4 T_START (optl st)).
      repeat constructor; cbn; unfold CTL_MAX; lia.
    + rewrite Forall_map. eapply Forall_impl; [|exact F]. intros d [K M]. split; assumption.
    + repeat constructor; vm_compute; discriminate.
  - unfold wire. rewrite !map_app, !concat_app, map_map. cbn [map concat wire1]. unfold datas.
    rewrite !app_nil_r, <- !app_assoc. reflexivity.
Qed.

Lemma session_captured e a H c id cts st ds :
  sends e -> reach e a H c ->
  received id H = ready_frame cts ++ start_frame st ++ datas ds ++ stop_frame ->
  ctl_ok T_READY cts -> ctl_ok T_START (optl st) ->
  cts = [] \/ In (a_ctype a) cts -> st = None \/ st = Some (a_ctype a) ->
  lenN (ready_frame cts) < 512 -> 512 <= capture_highwater a ->
  Forall (fun d => data_ok d /\ lenN d < 2 ^ 32 - 4 /\ lenN (data_frame d) <= capture_highwater a) ds ->
  acts_of id (x_log c) =
    Answer (ctl_frame T_ACCEPT [a_ctype a]) :: map Store (map data_frame ds) ++ [Answer finish_frame].
Proof.
  intros S R E K1 K2 M1 M2 L Hw F. destruct (reach_inv _ _ _ _ R) as [_ (Hct & _)].
  assert (Ls : lenN (start_frame st) < 512).
  { destruct M2 as [-> | ->]; unfold start_frame, ctl_frame, ctl_payload, ct_field; cbn [optl map concat];
      rewrite ?lenN_app, ?lenN_be32, ?lenN_nil; lia. }
  assert (T : tame (received id H)).
  { rewrite E, <- (app_nil_r stop_frame). apply session_tame; [|assumption|assumption|apply tame_nil].
    eapply Forall_impl; [|exact F]. cbn. tauto. }
  destruct (run_reacts _ _ _ _ _ S R T) as (q & Q & _). rewrite E in Q.
  refine (eq_sym (proj1 (reacts_fun _ _ _ _ _ _ _ _ Q (reacts_session _ _ cts st ds K1 K2 M1 M2 L Hw Hct _ _))));
    (eapply Forall_impl; [|exact F]); cbn; tauto.
Qed.

(** The counter never goes below zero with a limit. *)
Lemma run_limit e a H c : reach e a H c -> (0 < a_conns a)%Z -> (Z.of_nat (length (x_conns c)) <= a_conns a)%Z.
Proof.
  intros R Pos. induction R as [c B|H c x c' R IH L S].
  { apply boot_inv in B. destruct B as (_ & _ & -> & _). cbn. lia. }
  destruct (reach_inv _ _ _ _ R) as [[C1 C2 C3 C4] F].
  assert (Sh : forall c1 i, x_conns c1 = x_conns c -> (length (x_conns (cb_close_conn i c1)) <= length (x_conns c))%nat).
  { intros c1 i E. cbn [x_conns cb_close_conn set_conns]. rewrite E. clear. induction (x_conns c) as [|[j k] l IH]; [cbn; lia|].
    cbn [remove_conn]. destruct (Nat.eqb j i); cbn [length]; lia. }
  destruct x as [i|i chunk|i|i| |]; cbn [step legal] in *.
  - injection S as <-. destruct L as [L _]. cbn [cb_accept_conn x_conns set_conns length].
    rewrite L in C4. replace (0 <? a_conns a)%Z with true in C4 by lia.
    unfold remaining0 in C3. replace (0 <? a_conns a)%Z with true in C3 by lia. lia.
  - destruct L as (_ & k0 & F0 & _). rewrite F0 in S. unfold cb_read in S.
    destruct (read_loop e a _ i _ c) as [[r c1]| | |] eqn:RL; cbn [rbind] in S; try discriminate.
    apply read_loop_evolves in RL; [|exact F]. destruct r as [k1|].
    + destruct RL as [((_ & _ & E1) & _) _]. injection S as <-. cbn [x_conns set_conns]. rewrite update_length, E1. exact IH.
    + destruct RL as (c0 & [((_ & _ & E1) & _) _] & ->). injection S as <-. specialize (Sh c0 i E1). lia.
  - destruct (find_conn i (x_conns c)) as [k|]; [|discriminate]. injection S as <-. unfold cb_write.
    specialize (Sh c i eq_refl). destruct (k_state k); lia.
  - destruct (find_conn i (x_conns c)); [|discriminate]. injection S as <-. specialize (Sh c i eq_refl). lia.
  - destruct (x_open c); [|injection S as <-; exact IH].
    apply rotate_output_inv in S; [|exact F]. destruct S as ((_ & _ & S1) & _). rewrite S1. exact IH.
  - destruct (x_open c); injection S as <-; exact IH.
Qed.

(** A frame whose size wraps to 0 is processed for ever. *)
Lemma zero_frame_hangs e a id st p t ctl c fuel r c' : output_works e -> a_split a = 0%Z ->
  read_loop e a fuel id (mk_conn st p t 0 ctl (be32 (2 ^ 32 - 4))) c <> Go (r, c').
Proof.
  intros W Sp. revert p t c. induction fuel as [|fuel IH]; intros p t c; [discriminate|]. cbn [read_loop k_buf k_skip].
  change (lenN (be32 (2 ^ 32 - 4)) =? 0) with false. cbv iota. change (0 =? 0) with true. cbv iota.
  change (can_read_full_frame a (mk_conn st p t 0 ctl (be32 (2 ^ 32 - 4))))
    with (CR_full (mk_conn st (2 ^ 32 - 4) 0 0 ctl (be32 (2 ^ 32 - 4)))).
  cbv iota. cbn [k_payload]. change (0 <? 2 ^ 32 - 4) with true. cbv iota.
  unfold process_data_frame. cbn [k_total k_buf]. destruct (fwrite_works e (firstn (N.to_nat 0) (be32 (2 ^ 32 - 4))) c W) as [c1 ->].
  cbn [rbind]. unfold maybe_rotate_output. rewrite Sp. change (0 <? 0)%Z with false. cbv iota. cbn [rbind]. apply IH.
Qed.

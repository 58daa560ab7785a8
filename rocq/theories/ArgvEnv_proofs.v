(** Proofs about the environment of the command line parser: words, names, settings. *)
From Coq Require Import ZArith String Lia.
From Verif Require Import Bytes Bytes_proofs Control Misc Misc_proofs Capture Startup Argv SpecArgv Argv_proofs Argv2_proofs Argv4_proofs ArgvEnv SpecArgvEnv.
Import ListNotations.
Local Open Scope N_scope.

(** ** Words *)
Section Words.
Variable sep : byte -> bool.
Variable Sep : byte -> Prop.
Hypothesis R : forall b, sep b = true <-> Sep b.

Lemma vec_sep b r : Sep b -> vectorize sep (b :: r) = vectorize sep r.
Proof using R. intro H. apply R in H. unfold vectorize. cbn [tokens]. rewrite H. reflexivity. Qed.
Lemma vec_seps seps r : Forall Sep seps -> vectorize sep (seps ++ r) = vectorize sep r.
Proof using R. induction 1 as [|b l H _ IH]; [reflexivity|]. cbn [app]. rewrite vec_sep by exact H. exact IH. Qed.
Lemma tok_word w : Forall (fun b => ~ Sep b) w -> forall cur r, tokens sep cur (w ++ r) = tokens sep (rev w ++ cur) r.
Proof using R.
  induction 1 as [|b l H _ IH]; intros cur r; [reflexivity|]. cbn [app tokens rev].
  destruct (sep b) eqn:E; [exfalso; apply H, R, E|]. rewrite IH, <- app_assoc. reflexivity.
Qed.
Lemma spelled_vec ws s : spelled Sep ws s -> ws = vectorize sep s.
Proof using R.
  induction 1 as [seps F|seps w rest ws F NE NS B _ IH].
  - rewrite <- (app_nil_r seps), vec_seps by exact F. reflexivity.
  - rewrite vec_seps by exact F. unfold vectorize. rewrite tok_word, app_nil_r by exact NS.
    destruct B as [->|(b & r & -> & SB)].
    + cbn [tokens filter]. rewrite rev_involutive. destruct w; [congruence|]. subst ws. reflexivity.
    + rewrite vec_sep in IH by exact SB. cbn [tokens]. rewrite (proj2 (R b) SB), rev_involutive. cbn [filter].
      destruct w; [congruence|]. subst ws. reflexivity.
Qed.
Lemma spelled_cons b ws s : Sep b -> spelled Sep ws s -> spelled Sep ws (b :: s).
Proof.
  intros H SP. destruct SP as [seps F|seps w rest ws F NE NS B SP].
  - constructor. constructor; assumption.
  - change (b :: seps ++ w ++ rest) with ((b :: seps) ++ w ++ rest). constructor; try assumption. constructor; assumption.
Qed.
Lemma spelled_from : forall s cur, Forall (fun b => ~ Sep b) cur -> exists ws, spelled Sep ws (rev cur ++ s).
Proof using R.
  assert (W : forall cur s ws, Forall (fun b => ~ Sep b) cur -> (s = [] \/ exists b r, s = b :: r /\ Sep b) -> spelled Sep ws s ->
              exists ws, spelled Sep ws (rev cur ++ s)).
  { intros cur s ws F B SP. destruct cur as [|c cur]; [exists ws; exact SP|]. exists (rev (c :: cur) :: ws).
    apply (Sp_word Sep [] (rev (c :: cur)) s ws); try assumption; [constructor| |apply Forall_rev; exact F].
    intro E. apply (f_equal (@List.length byte)) in E. rewrite rev_length in E. discriminate. }
  induction s as [|b s IH]; intros cur F.
  - apply (W cur [] []); [exact F|left; reflexivity|constructor; constructor].
  - destruct (sep b) eqn:E.
    + apply R in E. destruct (IH [] (Forall_nil _)) as [ws SP]. apply (W cur (b :: s) ws); [exact F|right; eauto|].
      apply spelled_cons; [exact E|exact SP].
    + destruct (IH (b :: cur)) as [ws SP].
      * constructor; [|exact F]. intro X. apply R in X. congruence.
      * exists ws. cbn [rev] in SP. rewrite <- app_assoc in SP. exact SP.
Qed.
Lemma spelled_ex s : exists ws, spelled Sep ws s.
Proof using R. exact (spelled_from s [] (Forall_nil _)). Qed.
End Words.

Lemma blank_sep b : blank b = true <-> space_or_tab b.
Proof. unfold blank, space_or_tab. destruct b; vm_compute; split; intro H; try discriminate; try reflexivity; repeat (destruct H as [H|H]; try discriminate); try contradiction; tauto. Qed.
Lemma global_sep_sep b : global_sep b = true <-> list_sep b.
Proof. unfold global_sep, list_sep. destruct b; vm_compute; split; intro H; try discriminate; try reflexivity; repeat (destruct H as [H|H]; try discriminate); try contradiction; tauto. Qed.

Lemma words_unique (b : bool) t : exists! ws, spelled (if b then space_or_tab else list_sep) ws t.
Proof.
  destruct b.
  - destruct (spelled_ex blank space_or_tab blank_sep t) as [ws H]. exists ws. split; [exact H|]. intros ws' H'.
    rewrite (spelled_vec _ _ blank_sep _ _ H), (spelled_vec _ _ blank_sep _ _ H'). reflexivity.
  - destruct (spelled_ex global_sep list_sep global_sep_sep t) as [ws H]. exists ws. split; [exact H|]. intros ws' H'.
    rewrite (spelled_vec _ _ global_sep_sep _ _ H), (spelled_vec _ _ global_sep_sep _ _ H'). reflexivity.
Qed.

(** ** The name of the variable *)
Lemma prog_none : forall s cand, ~ In x2f s -> prog_from cand s = cand.
Proof.
  induction s as [|b s IH]; intros cand H; [reflexivity|]. cbn [prog_from]. destruct (byte_eqb b x2f) eqn:E.
  - apply byte_eqb_eq in E. subst b. exfalso. apply H. left. reflexivity.
  - apply IH. intro X. apply H. right. exact X.
Qed.
Lemma prog_dir name : ~ In x2f name -> forall dir cand, prog_from cand (dir ++ x2f :: name) = name.
Proof.
  intros H. induction dir as [|b dir IH]; intro cand; cbn [app prog_from].
  - cbn [byte_eqb]. rewrite (proj2 (byte_eqb_eq x2f x2f) eq_refl). apply prog_none. exact H.
  - destruct (byte_eqb b x2f); apply IH.
Qed.
Lemma called_prog p name : called p name -> prog_from p p = name.
Proof. intros [H [->|[dir ->]]]; [apply prog_none; exact H|apply prog_dir; exact H]. Qed.
Lemma called_ex p : exists name, called p name.
Proof.
  induction p as [|b p [name [H D]]]; [exists []; split; [tauto|left; reflexivity]|].
  destruct D as [<-|[dir ->]].
  - destruct (byte_eqb b x2f) eqn:E; [apply byte_eqb_eq in E; subst b; exists p; split; [exact H|right; exists []; reflexivity]|].
    exists (b :: p). split; [|left; reflexivity]. intros [X|X]; [|exact (H X)]. subst b. discriminate.
  - exists name. split; [exact H|right]. exists (b :: dir). reflexivity.
Qed.
Lemma upper_in b c : ((exists i, nth_error lower i = Some b /\ nth_error capital i = Some c) \/ (~ In b lower /\ c = b)) <-> c = upper b.
Proof.
  split.
  - intros [(i & B & C)|[N ->]].
    + do 26 (destruct i as [|i]; [cbn in B, C; injection B as <-; injection C as <-; reflexivity|]). destruct i; discriminate.
    + destruct b; first [reflexivity|exfalso; apply N; vm_compute; tauto].
  - intros ->. destruct (existsb (byte_eqb b) lower) eqn:E.
    + left. apply existsb_exists in E as (x & I & E). apply byte_eqb_eq in E. subst x.
      apply In_nth_error in I as [i E]. exists i. split; [exact E|].
      do 26 (destruct i as [|i]; [cbn in E; injection E as <-; reflexivity|]). destruct i; discriminate.
    + right. split.
      * intro I. assert (X : existsb (byte_eqb b) lower = true) by (apply existsb_exists; exists b; split; [exact I|apply byte_eqb_eq; reflexivity]). congruence.
      * destruct b; first [reflexivity|discriminate E].
Qed.
Lemma in_capitals_map s t : in_capitals s t <-> t = map upper s.
Proof.
  split.
  - induction 1 as [|b c s t H _ IH]; [reflexivity|]. cbn [map]. apply upper_in in H. congruence.
  - intros ->. induction s as [|b s IH]; constructor; [apply upper_in; reflexivity|exact IH].
Qed.
Lemma variable_name p n : variable_of p n -> env_name p = n.
Proof.
  intros (name & up & C & L & U & ->). unfold env_name, program. rewrite (called_prog p name C).
  apply in_capitals_map in U. subst up. unfold PROGRAM_NAME. rewrite (firstn_all2 name) by exact L.
  rewrite firstn_all2.
  2:{ rewrite app_length. replace (List.length (txt "ARGV_")) with 5%nat by reflexivity. apply Nat.leb_le.
      apply Nat.leb_le. apply (Nat.le_trans _ (5 + 256)); [lia|]. apply Nat.leb_le. vm_compute. reflexivity. }
  rewrite map_app. reflexivity.
Qed.
Lemma supplies_words getenv p ws : supplies getenv p ws -> env_words getenv p = ws.
Proof.
  intros (n & V & H). unfold env_words. rewrite (variable_name p n V). destruct (getenv n); cbn [says] in H; [|symmetry; exact H].
  symmetry. exact (spelled_vec _ _ blank_sep _ _ H).
Qed.

(** ** What GLOBAL_ARGV chooses *)
Definition choice_of (c : settings) : choice :=
  mk_choice (se_close c) (se_toggle c) (se_multi c) (if se_env c then (if se_after c then After else Before) else Nowhere).
Definition sane (c : settings) : Prop := se_env c = false -> se_after c = false.

Definition say {A} (tab : list (bytes * A)) (d : A) (w : bytes) : A := match look tab w with Some v => v | None => d end.
Lemma strip_spec p s : match strip p s with Some v => s = p ++ v | None => forall v, s <> p ++ v end.
Proof.
  unfold strip. destruct (is_prefix p s) eqn:E.
  - apply is_prefix_spec in E as [r ->]. rewrite skipn_app, Nat.sub_diag, skipn_all. reflexivity.
  - intros v ->. rewrite (proj2 (is_prefix_spec p (p ++ v))) in E by eauto. discriminate.
Qed.
Lemma bytes_eqb_app p v w : bytes_eqb (p ++ v) (p ++ w) = bytes_eqb v w.
Proof.
  destruct (bytes_eqb v w) eqn:E.
  - apply bytes_eqb_eq in E. subst w. apply bytes_eqb_eq. reflexivity.
  - apply bytes_eqb_neq. apply bytes_eqb_neq in E. intro X. apply app_inv_head in X. exact (E X).
Qed.
Definition under {A} (p : bytes) (tab : list (bytes * A)) : list (bytes * A) := map (fun x => (p ++ fst x, snd x)) tab.
Lemma look_under {A} p (tab : list (bytes * A)) t : look (under p tab) t = match strip p t with Some v => look tab v | None => None end.
Proof.
  pose proof (strip_spec p t) as H. destruct (strip p t) as [v|].
  - subst t. induction tab as [|[k x] tab IH]; [reflexivity|]. cbn [under map look fst snd]. rewrite bytes_eqb_app.
    destruct (bytes_eqb v k); [reflexivity|exact IH].
  - induction tab as [|[k x] tab IH]; [reflexivity|]. cbn [under map look fst snd].
    replace (bytes_eqb t (p ++ k)) with false by (symmetry; apply bytes_eqb_neq, H). exact IH.
Qed.
Definition onoff : list (bytes * bool) :=
  [ (txt "disable", false); (txt "off", false); (txt "no", false); (txt "0", false); (txt "enable", true); (txt "on", true); (txt "yes", true); (txt "1", true) ].
Lemma look_onoff v : look onoff v = if is_off v then Some false else if is_on v then Some true else None.
Proof.
  unfold onoff, is_off, is_on. cbn [look].
  destruct (bytes_eqb v (txt "disable")); [reflexivity|]. destruct (bytes_eqb v (txt "off")); [reflexivity|].
  destruct (bytes_eqb v (txt "no")); [reflexivity|]. destruct (bytes_eqb v (txt "0")); [reflexivity|].
  destruct (bytes_eqb v (txt "enable")); [reflexivity|]. destruct (bytes_eqb v (txt "on")); [reflexivity|].
  destruct (bytes_eqb v (txt "yes")); [reflexivity|]. destruct (bytes_eqb v (txt "1")); reflexivity.
Qed.
Lemma set_word_choice c w : sane c ->
  sane (set_word c w) /\
  choice_of (set_word c w) = mk_choice (say close_words (se_close c) w) (say toggle_words (se_toggle c) w) (say multi_words (se_multi c) w)
    (say env_place_words (ch_place (choice_of c)) w).
Proof.
  intro SA. unfold say.
  change close_words with (under (txt "close=") onoff). change toggle_words with (under (txt "lasttog=") onoff).
  change multi_words with (under (txt "multi=") [(txt "reject", false); (txt "accept", true)]).
  change env_place_words with (under (txt "env=") [(txt "none", Nowhere); (txt "before", Before); (txt "after", After)]).
  rewrite !look_under. unfold set_word.
  pose proof (strip_spec (txt "close=") w) as H1. destruct (strip (txt "close=") w) as [v|].
  { subst w. replace (strip (txt "lasttog=") (txt "close=" ++ v)) with (@None bytes) by reflexivity.
    replace (strip (txt "multi=") (txt "close=" ++ v)) with (@None bytes) by reflexivity.
    replace (strip (txt "env=") (txt "close=" ++ v)) with (@None bytes) by reflexivity.
    rewrite look_onoff. destruct (is_off v); [split; [exact SA|reflexivity]|]. destruct (is_on v); (split; [exact SA|reflexivity]). }
  pose proof (strip_spec (txt "lasttog=") w) as H2. destruct (strip (txt "lasttog=") w) as [v|].
  { subst w. replace (strip (txt "multi=") (txt "lasttog=" ++ v)) with (@None bytes) by reflexivity.
    replace (strip (txt "env=") (txt "lasttog=" ++ v)) with (@None bytes) by reflexivity.
    rewrite look_onoff. destruct (is_off v); [split; [exact SA|reflexivity]|]. destruct (is_on v); (split; [exact SA|reflexivity]). }
  pose proof (strip_spec (txt "env=") w) as H3. destruct (strip (txt "env=") w) as [v|].
  { subst w. replace (strip (txt "multi=") (txt "env=" ++ v)) with (@None bytes) by reflexivity. cbn [look].
    destruct (bytes_eqb v (txt "none")); [split; [intro; reflexivity|reflexivity]|].
    destruct (bytes_eqb v (txt "before")); [split; [discriminate|reflexivity]|].
    destruct (bytes_eqb v (txt "after")); (split; [first [exact SA|discriminate]|reflexivity]). }
  destruct (strip (txt "multi=") w) as [v|]; [|split; [exact SA|reflexivity]]. cbn [look].
  destruct (bytes_eqb v (txt "reject")); [split; [exact SA|reflexivity]|].
  destruct (bytes_eqb v (txt "accept")); (split; [exact SA|reflexivity]).
Qed.
Lemma words_choice : forall ws c, sane c ->
  sane (fold_left set_word ws c) /\
  choice_of (fold_left set_word ws c) = mk_choice (last_said close_words (se_close c) ws) (last_said toggle_words (se_toggle c) ws)
    (last_said multi_words (se_multi c) ws) (last_said env_place_words (ch_place (choice_of c)) ws).
Proof.
  induction ws as [|w ws IH]; intros c SA; [split; [exact SA|reflexivity]|]. cbn [fold_left last_said].
  destruct (set_word_choice c w SA) as [SA' E]. destruct (IH (set_word c w) SA') as [SB F]. split; [exact SB|]. rewrite F.
  unfold say in E. apply (f_equal (fun x => (ch_eq x, ch_resume x, ch_again x, ch_place x))) in E. cbn [ch_eq ch_resume ch_again ch_place] in E.
  injection E as E1 E2 E3 E4. cbn [choice_of ch_eq ch_resume ch_again] in E1, E2, E3. rewrite E1, E2, E3. f_equal. f_equal. exact E4.
Qed.
Lemma chooses_settings getenv c : chooses getenv c -> let s := process_env (getenv (txt "GLOBAL_ARGV")) in sane s /\ choice_of s = c.
Proof.
  intros (ws & S0 & ->). unfold process_env. destruct (getenv (txt "GLOBAL_ARGV")) as [t|]; cbn [says] in S0.
  - rewrite <- (spelled_vec _ _ global_sep_sep _ _ S0). destruct (words_choice ws default_settings) as [A B]; [discriminate|].
    split; [exact A|]. rewrite B. reflexivity.
  - subst ws. split; [discriminate|reflexivity].
Qed.
Lemma chooses_ex getenv : exists c, chooses getenv c.
Proof.
  unfold chooses. destruct (getenv (txt "GLOBAL_ARGV")) as [t|].
  - destruct (spelled_ex global_sep list_sep global_sep_sep t) as [ws H]. exists (chosen ws), ws. split; [exact H|reflexivity].
  - exists (chosen []), []. split; reflexivity.
Qed.

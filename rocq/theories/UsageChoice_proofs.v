(** Proofs about what the option parser displays. *)
From Coq Require Import ZArith String Lia.
From Verif Require Import Bytes Bytes_proofs Argv Argv_proofs ArgvEnv SpecArgvEnv ArgvEnv_proofs Usage SpecUsage Usage_proofs UsageChoice SpecUsageChoice.
Import ListNotations.

(** ** GLOBAL_ARGV *)
Definition uwords : list (bytes * style) := [ (txt "short", U_short); (txt "shortrem", U_short_rem); (txt "long", U_long); (txt "all", U_all) ].
Definition ewords : list (bytes * style) := (txt "none", U_none) :: (txt "see", U_see) :: uwords.

Lemma style_word_say c w : style_word c w = mk_styles (say usage_words (st_usage c) w) (say error_words (st_error c) w).
Proof.
  unfold say. change usage_words with (under (txt "usage=") uwords). change error_words with (under (txt "error=") ewords).
  rewrite !look_under. unfold style_word. pose proof (strip_spec (txt "error=") w) as H. destruct (strip (txt "error=") w) as [v|].
  - subst w. replace (strip (txt "usage=") (txt "error=" ++ v)) with (@None bytes) by reflexivity. unfold ewords, uwords. cbn [look].
    repeat match goal with |- context [bytes_eqb v ?k] => destruct (bytes_eqb v k); [reflexivity|] end. destruct c; reflexivity.
  - destruct (strip (txt "usage=") w) as [v|]; [|destruct c; reflexivity]. unfold uwords. cbn [look].
    repeat match goal with |- context [bytes_eqb v ?k] => destruct (bytes_eqb v k); [reflexivity|] end. destruct c; reflexivity.
Qed.
Lemma style_words ws : forall c,
  fold_left style_word ws c = mk_styles (last_said usage_words (st_usage c) ws) (last_said error_words (st_error c) ws).
Proof.
  induction ws as [|w ws IH]; intro c; [destruct c; reflexivity|]. cbn [fold_left last_said]. rewrite IH, style_word_say. reflexivity.
Qed.
Lemma styles_said v ws : says list_sep v ws ->
  styles_of v = mk_styles (last_said usage_words U_long ws) (last_said error_words U_long ws).
Proof.
  destruct v as [t|]; cbn [says].
  - intro S0. unfold styles_of. rewrite <- (spelled_vec global_sep list_sep global_sep_sep ws t S0). apply style_words.
  - intros ->. reflexivity.
Qed.

(** ** The texts *)
Lemma long_lists prog t l b : rows t l -> lists l (usage_long prog t ++ b).
Proof.
  intro R. rewrite (long_shows prog t l R). exists (txt "Usage: " ++ prog), b. rewrite !app_assoc. reflexivity.
Qed.
Lemma shown_more t s b e : shown_short t s e -> shown_short t (s ++ b) e.
Proof.
  unfold shown_short. destruct (is_flag (u_opt e)).
  - intros (a & m & l & r & -> & F). exists a, m, l, (r ++ b). split; [|exact F]. rewrite !app_assoc. reflexivity.
  - intros (a & g & r & -> & F). exists a, g, (r ++ b). split; [|exact F]. rewrite !app_assoc. reflexivity.
Qed.
Lemma usage_tells prog t l f : rows t l -> tells t l f (do_usage prog t f).
Proof.
  intro R. destruct f; cbn [tells do_usage].
  - reflexivity.
  - exists (spaces (lenZ USAGE_LABEL) ++ txt "Use the '"), (txt "' argument for assistance." ++ [nl]). reflexivity.
  - intros e I1 I2 I3. exact (short_shows prog t e I1 I2 I3).
  - intros e I1 I2 I3. apply shown_more. exact (short_shows prog t e I1 I2 I3).
  - rewrite <- (app_nil_r (usage_long prog t)). exact (long_lists prog t l [] R).
  - exact (long_lists prog t l _ R).
Qed.

(** ** Which text *)
Lemma abbr_prefix n full name : abbreviates n full name -> is_prefix name (txt full) = true.
Proof. intros [_ [r E]]. apply is_prefix_spec. exists r. exact E. Qed.

(** The abbreviations of a name, as a list. *)
Definition abbrs (n : nat) (full : bytes) : list bytes := map (fun k => firstn k full) (seq (S n) (List.length full - n)).
Lemma abbrs_in n full name : abbreviates n full name -> In name (abbrs n (txt full)).
Proof.
  intros [L [r E]]. unfold abbrs. apply in_map_iff. exists (List.length name). rewrite E. split.
  - rewrite firstn_app, Nat.sub_diag, firstn_all, firstn_O, app_nil_r. reflexivity.
  - apply in_seq. rewrite app_length. lia.
Qed.

Section Own.
Variables (prog : bytes) (t : list entry) (help version : option bytes) (st : styles).
Ltac own A := apply abbrs_in in A; vm_compute in A; repeat (destruct A as [<-|A]; [reflexivity|]); destruct A.
Lemma own_usage name : abbreviates 0 "usage" name \/ abbreviates 0 "help" name ->
  own_option prog t help version st name = Some (Text (do_usage prog t (st_usage st))).
Proof. intros [A|A]; own A. Qed.
Lemma own_short name : abbreviates 5 "usage-short" name -> own_option prog t help version st name = Some (Text (do_usage prog t U_short)).
Proof. intro A; own A. Qed.
Lemma own_long name : abbreviates 6 "usage-long" name -> own_option prog t help version st name = Some (Text (do_usage prog t U_long)).
Proof. intro A; own A. Qed.
Lemma own_all name : abbreviates 6 "usage-all" name -> own_option prog t help version st name = Some (Text (do_usage prog t U_all)).
Proof. intro A; own A. Qed.
Lemma own_version name v : version = Some v -> abbreviates 0 "version" name ->
  own_option prog t help version st name = Some (Text (prog ++ txt ": " ++ v ++ [nl])).
Proof. intros -> A; own A. Qed.
Lemma own_no_help h name : own_option prog t h version st name = own_option prog t help version st name.
Proof. unfold own_option. destruct (is_prefix name (txt "usage")); [reflexivity|]. destruct (is_prefix name (txt "help")); reflexivity. Qed.

Lemma own_special name : special name = true <-> exists d, own_option prog t help version st name = Some d.
Proof.
  unfold special, own_option.
  destruct (is_prefix name (txt "usage")); [split; intros; [eexists; reflexivity|reflexivity]|]. destruct (is_prefix name (txt "help")); [split; intros; [eexists; reflexivity|reflexivity]|]. cbn [orb].
  destruct (is_prefix name (txt "usage-short")); [split; intros; [eexists; reflexivity|reflexivity]|]. destruct (is_prefix name (txt "usage-long")); [split; intros; [eexists; reflexivity|reflexivity]|].
  destruct (is_prefix name (txt "usage-all")); [split; intros; [eexists; reflexivity|reflexivity]|]. destruct (is_prefix name (txt "version")); [split; intros; [eexists; reflexivity|reflexivity]|].
  destruct (is_prefix name (txt "argv-display")); [split; intros; [eexists; reflexivity|reflexivity]|]. split; [discriminate|intros [d E]; discriminate E].
Qed.
Lemma own_exits g cap fa name close s : name <> [] -> long_matches g 0 name = [] -> is_prefix name (txt "argv-file") = false ->
  (long_option g cap fa name close s = A_exit 0 <-> exists d, own_option prog t help version st name = Some d).
Proof.
  intros N M F. rewrite <- own_special. unfold long_option. destruct name as [|b name]; [congruence|]. rewrite M, F.
  destruct (special (b :: name)); split; congruence.
Qed.
End Own.

(** ** Lines *)
Lemma narrow_nil w : narrow w [].
Proof. intros a l b E _. symmetry in E. apply app_eq_nil in E as [_ E]. apply app_eq_nil in E as [-> _]. cbn. lia. Qed.
Lemma narrow_part w a s b : narrow w (a ++ s ++ b) -> narrow w s.
Proof. intros H x l y E N. apply (H (a ++ x) l (y ++ b)); [|exact N]. rewrite E, !app_assoc. reflexivity. Qed.
Lemma narrow_lines w t u : narrow w t -> narrow w u -> narrow w (t ++ [nl] ++ u).
Proof.
  intros T U a l b E N. symmetry in E. apply app_eq_app in E as [z [[Ea Eb]|[Ea Eb]]].
  - destruct z as [|c z].
    + destruct l as [|c l]; [cbn; lia|]. injection Eb as <- _. exfalso. apply N. left. reflexivity.
    + injection Eb as _ Eb. exact (U z l b Eb N).
  - apply app_eq_app in Eb as [y [[El Eb]|[El Eb]]].
    + destruct y as [|c y]; [|injection Eb as <- _; exfalso; apply N; rewrite El; apply in_or_app; right; left; reflexivity].
      rewrite app_nil_r in El. subst z. apply (T a l []); [rewrite app_nil_r; exact Ea|exact N].
    + subst z. exact (T a l y Ea N).
Qed.
Lemma narrow_b s j : cols 0 s = Some j -> narrow 79 s.
Proof. apply cols_narrow. Qed.

Lemma usage_narrow prog t f : ~ In nl prog -> (List.length prog <= 72)%nat ->
  Forall (fun e => one_line e /\ ~ too_long e /\ (List.length (label_of e) <= 71)%nat) t -> narrow 79 (do_usage prog t f).
Proof.
  intros P L F.
  assert (FL : narrow 79 (usage_long prog t)).
  { apply long_fits; [exact P|exact L|]. eapply Forall_impl; [|exact F]. intros e (H1 & H2 & _) _. split; assumption. }
  assert (FS : narrow 79 (usage_short prog t)).
  { apply short_fits; [exact P|exact L|]. eapply Forall_impl; [|exact F]. intros e (H1 & _ & H3). split; assumption. }
  destruct f; cbn [do_usage].
  - apply narrow_nil.
  - eapply narrow_b. vm_compute. reflexivity.
  - exact FS.
  - assert (B : exists s, usage_short prog t = s ++ [nl]).
    { unfold usage_short. destruct (short_flags t (lenZ USAGE_LABEL + lenZ prog) false) as [[s1 col] mark].
      destruct (if mark then (txt "]", (col + 1)%Z) else ([], col)) as [s2 col2].
      exists (USAGE_LABEL ++ prog ++ s1 ++ s2 ++ short_args t col2). rewrite <- !app_assoc. reflexivity. }
    destruct B as [s B]. rewrite B in *. rewrite <- app_assoc. apply narrow_lines.
    + apply (narrow_part 79 [] s [nl]). exact FS.
    + eapply narrow_b. vm_compute. reflexivity.
  - exact FL.
  - apply narrow_lines; [exact FL|]. eapply narrow_b. vm_compute. reflexivity.
Qed.

(** Proofs for C71 and C72: arguments from files, and the options that only show
    something. *)
From Coq Require Import ZArith String Lia.
From Verif Require Import Bytes Control Misc Capture Startup Argv SpecArgv Argv_proofs Argv2_proofs Argv4_proofs Argv6_proofs Bytes_proofs.
From Verif Require Misc_proofs.
Import ListNotations.
Local Open Scope N_scope.

(** ** Lines *)
Lemma until_nul_id l : ~ In x00 l -> until_nul l = l.
Proof.
  induction l as [|b l IH]; intro H; [reflexivity|]. cbn [until_nul].
  rewrite (proj2 (byte_eqb_neq b x00)) by (intro E; apply H; left; exact E). f_equal. apply IH. intro X. apply H. right. exact X.
Qed.
Lemma pieces_line : forall l cur c, ~ In x0a l -> lenN cur + lenN l < FILE_LINE_SIZE ->
  pieces cur (l ++ x0a :: c) = (rev cur ++ l) :: pieces [] c.
Proof.
  induction l as [|b l IH]; intros cur c H L; cbn [app pieces].
  - rewrite byte_eqb_refl, app_nil_r. reflexivity.
  - rewrite lenN_cons in L.
    rewrite (proj2 (byte_eqb_neq b x0a)) by (intro E; apply H; left; exact E).
    rewrite (proj2 (N.eqb_neq _ _)) by lia. rewrite IH.
    + cbn [rev]. rewrite <- app_assoc. reflexivity.
    + intro X. apply H. right. exact X.
    + rewrite lenN_cons. lia.
Qed.
Lemma pieces_last : forall l cur, ~ In x0a l -> lenN cur + lenN l < FILE_LINE_SIZE -> pieces cur l = [rev cur ++ l].
Proof.
  induction l as [|b l IH]; intros cur H L; cbn [app pieces]; [rewrite app_nil_r; reflexivity|]. rewrite lenN_cons in L.
  rewrite (proj2 (byte_eqb_neq b x0a)) by (intro E; apply H; left; exact E).
  rewrite (proj2 (N.eqb_neq _ _)) by lia. rewrite IH.
  - cbn [rev]. rewrite <- app_assoc. reflexivity.
  - intro X. apply H. right. exact X.
  - rewrite lenN_cons. lia.
Qed.
Lemma pieces_cut : forall l cur c, ~ In x0a l -> lenN cur + lenN l = FILE_LINE_SIZE - 1 -> c <> [] -> (forall r, c <> x0a :: r) ->
  pieces cur (l ++ c) = (rev cur ++ l) :: pieces [] c.
Proof.
  induction l as [|b l IH]; intros cur c H L NE NN; cbn [app pieces].
  - destruct c as [|b c]; [congruence|]. rewrite app_nil_r. cbn [pieces].
    rewrite (proj2 (byte_eqb_neq b x0a)) by (intros ->; exact (NN c eq_refl)).
    change (lenN []) with 0 in L. rewrite N.add_0_r in L. rewrite (proj2 (N.eqb_eq _ _) L). reflexivity.
  - rewrite lenN_cons in L.
    rewrite (proj2 (byte_eqb_neq b x0a)) by (intro E; apply H; left; exact E).
    rewrite (proj2 (N.eqb_neq _ _)) by lia. rewrite IH; try assumption.
    + cbn [rev]. rewrite <- app_assoc. reflexivity.
    + intro X. apply H. right. exact X.
    + rewrite lenN_cons. lia.
Qed.
Definition sight (l : bytes) : list bytes := match until_nul l with [] => [] | w => [w] end.
Lemma file_lines_pieces c : file_lines c = flat_map sight (pieces [] c).
Proof.
  unfold file_lines. induction (pieces [] c) as [|l ls IH]; [reflexivity|]. cbn [map filter flat_map].
  unfold sight at 1. destruct (until_nul l); cbn [app]; [exact IH|]. f_equal. exact IH.
Qed.
Lemma until_nul_stop w r : ~ In x00 w -> until_nul (w ++ x00 :: r) = w.
Proof.
  induction w as [|b w IH]; intro H; [reflexivity|]. cbn [app until_nul].
  rewrite (proj2 (byte_eqb_neq b x00)) by (intro E; apply H; left; exact E). f_equal. apply IH. intro X. apply H. right. exact X.
Qed.
Lemma sight_seen l ws : seen l ws -> sight l = ws.
Proof.
  unfold sight. destruct 1 as [l [->|(r & ->)]|w r NE NZ [->|(r' & ->)]]; [reflexivity|reflexivity| |].
  - rewrite app_nil_r, until_nul_id by assumption. destruct w; [congruence|reflexivity].
  - rewrite until_nul_stop by assumption. destruct w; [congruence|reflexivity].
Qed.
Lemma seen_sight l : seen l (sight l).
Proof.
  unfold sight. assert (E : ~ In x00 (until_nul l) /\ exists r, l = until_nul l ++ r /\ (r = [] \/ exists r', r = x00 :: r')).
  { induction l as [|b l (IH & r & E & R)]; [split; [intros []|exists []; auto]|]. cbn [until_nul].
    destruct (byte_eqb b x00) eqn:B.
    - apply Misc_proofs.byte_eqb_eq in B as ->. split; [intros []|]. eexists. split; [reflexivity|]. eauto.
    - apply byte_eqb_neq in B. split; [intros [X|X]; auto|]. exists r. cbn [app]. rewrite <- E. auto. }
  destruct E as (NZ & r & E & R). destruct (until_nul l) as [|b w]; [apply seen_none; rewrite E; exact R|].
  rewrite E. apply seen_word; [discriminate|assumption|assumption].
Qed.
Lemma file_lines_text ls c : text_of ls c -> file_lines c = ls.
Proof.
  assert (Z : lenN (@nil byte) = 0) by reflexivity.
  intro H. rewrite file_lines_pieces.
  induction H as [l ws (NL & LN) S|l ws ls c (NL & LN) S T IH|l ws ls c (NL & LN) L S T IH].
  - rewrite pieces_last by (assumption || (rewrite Z; exact LN)). cbn [rev app flat_map]. rewrite app_nil_r. apply sight_seen, S.
  - rewrite pieces_line by (assumption || (rewrite Z; exact LN)). cbn [rev app flat_map]. rewrite IH, (sight_seen _ _ S). reflexivity.
  - destruct c as [|b c].
    + cbn [pieces rev flat_map app] in IH. subst ls. rewrite !app_nil_r.
      rewrite pieces_last by (assumption || (rewrite Z; exact LN)). cbn [rev app flat_map]. rewrite app_nil_r. apply sight_seen, S.
    + destruct (byte_eqb b x0a) eqn:B.
      * apply Misc_proofs.byte_eqb_eq in B as ->. rewrite pieces_line by (assumption || (rewrite Z; exact LN)).
        cbn [pieces] in IH. rewrite byte_eqb_refl in IH. cbn [rev flat_map app] in IH |- *. change (sight []) with (@nil bytes) in IH. cbn [app] in IH.
        rewrite IH, (sight_seen _ _ S). reflexivity.
      * apply byte_eqb_neq in B. rewrite pieces_cut; [|assumption|rewrite Z, L; reflexivity|discriminate|intros r [= E _]; contradiction].
        cbn [rev app flat_map]. rewrite IH, (sight_seen _ _ S). reflexivity.
Qed.
(** Every file is such a text. *)
Lemma text_total : forall n c, (length c <= n)%nat -> exists ls, text_of ls c.
Proof.
  induction n as [|n IH]; intros c L.
  { destruct c; [|cbn in L; lia]. exists []. apply text_last; [split; [intros []|reflexivity]|apply seen_none; auto]. }
  (* the first newline *)
  assert (E : ~ In x0a c \/ exists l r, c = l ++ x0a :: r /\ ~ In x0a l).
  { clear. induction c as [|b c [IH|(l & r & -> & IH)]]; [left; intros []| |].
    - destruct (byte_eqb b x0a) eqn:B; [apply Misc_proofs.byte_eqb_eq in B as ->; right; exists [], c; split; [reflexivity|intros []]|].
      apply byte_eqb_neq in B. left. intros [X|X]; auto.
    - right. destruct (byte_eqb b x0a) eqn:B; [apply Misc_proofs.byte_eqb_eq in B as ->; eexists [], _; split; [reflexivity|intros []]|].
      apply byte_eqb_neq in B. exists (b :: l), r. split; [reflexivity|]. intros [X|X]; auto. }
  assert (Cut : forall l r, c = l ++ r -> ~ In x0a l -> 1024 <= lenN l -> exists ls, text_of ls c).
  { intros l r -> NL LL. rewrite <- (firstn_skipn 1023 l), <- app_assoc.
    assert (L1 : length (firstn 1023 l) = 1023%nat) by (rewrite firstn_length; unfold lenN in LL; lia).
    destruct (IH (skipn 1023 l ++ r)) as (ls & T).
    { rewrite app_length, skipn_length. rewrite app_length in L. unfold lenN in LL. lia. }
    eexists. apply text_cut; [|unfold lenN; rewrite L1; reflexivity|apply seen_sight|exact T].
    split; [|unfold lenN; rewrite L1; reflexivity]. intro X. apply NL. rewrite <- (firstn_skipn 1023 l). apply in_or_app. left. exact X. }
  destruct E as [NL|(l & r & E & NL)].
  - destruct (N.lt_ge_cases (lenN c) 1024) as [S|S]; [|apply (Cut c []); [now rewrite app_nil_r|assumption|assumption]].
    eexists. apply text_last; [split; assumption|apply seen_sight].
  - destruct (N.lt_ge_cases (lenN l) 1024) as [S|S]; [|apply (Cut l (x0a :: r)); assumption].
    destruct (IH r) as (ls & T); [rewrite E, app_length in L; cbn [length] in L; lia|].
    exists (sight l ++ ls). rewrite E. apply text_line; [split; assumption|apply seen_sight|exact T].
Qed.
Lemma text_compute c ls : file_lines c = ls -> text_of ls c.
Proof. intros <-. destruct (text_total (length c) c (le_n _)) as (ls & T). rewrite (file_lines_text _ _ T). exact T. Qed.
Lemma text_unique c ls ls' : text_of ls c -> text_of ls' c -> ls = ls'.
Proof. intros A B. rewrite <- (file_lines_text _ _ A), <- (file_lines_text _ _ B). reflexivity. Qed.

(** ** The arguments of one way to give options *)
Section Moved.
Variable g : grid.

Definition moved (l : list (nat * option bytes)) (n : nat) (s s' : astate) : Prop :=
  s_queue s' = [] /\ s_head s' = (s_head s + n)%nat /\ norm s' = fold_left (fun s x => give g x s) l (norm s).
Lemma moved_refl s : s_queue s = [] -> moved [] 0 s s.
Proof. intro Q. split; [exact Q|]. split; [lia|reflexivity]. Qed.
Lemma moved_trans l1 l2 n1 n2 s1 s2 s3 : moved l1 n1 s1 s2 -> moved l2 n2 s2 s3 -> moved (l1 ++ l2) (n1 + n2) s1 s3.
Proof. intros (Q1 & H1 & E1) (Q2 & H2 & E2). split; [exact Q2|]. split; [lia|]. rewrite fold_left_app, <- E1, E2. reflexivity. Qed.
Lemma give_moved x s : s_queue s = [] -> moved [x] 0 s (give g x s).
Proof.
  intro Q. unfold moved, give. destruct (store_fields g (fst x) (snd x) (mark g (fst x) s)) as (-> & -> & _ & _).
  split; [exact Q|]. split; [cbn; lia|]. rewrite norm_store, norm_mark. reflexivity.
Qed.
Lemma wait_moved i v s : moved [(i, Some v)] 1 s
  (store g i (Some v) (mk_astate (s_vals (mark g i s)) (s_used (mark g i s)) [] (S (s_head s)) (s_ok (mark g i s)) (s_past (mark g i s)))).
Proof.
  unfold moved. destruct (store_fields g i (Some v) (mk_astate (s_vals (mark g i s)) (s_used (mark g i s)) [] (S (s_head s)) (s_ok (mark g i s)) (s_past (mark g i s)))) as (-> & -> & _ & _).
  split; [reflexivity|]. split; [cbn; lia|]. rewrite norm_store. cbn [fold_left]. unfold give. cbn [fst snd]. rewrite <- norm_mark. reflexivity.
Qed.
End Moved.

Section Exact.
Variable g : grid.
Variable cap : nat.
Variable fa : bytes -> astate -> ares.
Hypothesis G : good_grid g.

Lemma short_moved whole fl : Forall (fun i => is_flag g i /\ has_letter g i) fl -> forall first tl s, s_queue s = [] ->
  exists s' first', short_chars g cap whole first (map (letter g) fl ++ tl) None s = short_chars g cap whole first' tl None s' /\
    moved g (map (fun i => (i, None)) fl) 0 s s'.
Proof.
  induction 1 as [|i fl [F L] _ IH]; intros first tl s Q.
  - exists s, first. split; [reflexivity|apply moved_refl; exact Q].
  - cbn [map app short_chars]. rewrite (find_short_letter g i G L), (do_arg_flag g cap i s F).
    pose proof (give_moved g (i, None) s Q) as S1.
    destruct (IH false tl (give g (i, None) s) (proj1 S1)) as (s' & f' & E & S2).
    exists s', f'. split; [exact E|]. exact (moved_trans g [(i, None)] _ 0 0 _ _ _ S1 S2).
Qed.
Lemma do_arg_full i s : is_valued g i -> s_head s = cap -> do_arg g cap i None s = A_ub UB_queue.
Proof.
  intros (o & N & K) H. unfold do_arg. rewrite N.
  replace (has_arg (o_kind o)) with true by (destruct K as [-> | ->]; reflexivity).
  unfold enqueue. change (s_head (mark g i s)) with (s_head s). rewrite H, Nat.ltb_irrefl. reflexivity.
Qed.

(** What follows [r], unless there is no room. *)
Definition then_ (l : list (nat * option bytes)) (n : nat) (s : astate) (r : list bytes) (x : ares) : Prop :=
  if (s_head s + n <=? cap)%nat
  then exists s', x = do_list_with g cap fa false r s' /\ moved g l n s s'
  else x = A_ub UB_queue.

Lemma words_exact x r s : proper g x -> s_queue s = [] -> (s_head s <= cap)%nat ->
  then_ (sets x) (own_value x) s r (do_list_with g cap fa false (words g x ++ r) s).
Proof.
  assert (Z : forall l s r x, (s_head s <= cap)%nat -> (exists s', x = do_list_with g cap fa false r s' /\ moved g l 0 s s') -> then_ l 0 s r x).
  { intros l s0 r0 x0 H X. unfold then_. rewrite Nat.add_0_r, (proj2 (Nat.leb_le _ _) H). exact X. }
  intros P Q H. destruct x as [fl | fl i v | i v | i p | i p v | i p v]; cbn [proper words sets app own_value] in *.
  - apply Z; [exact H|]. destruct P as [NE F]. destruct fl as [|i fl]; [congruence|]. cbn [map].
    pose proof (Forall_inv F) as [_ L]. destruct (letter_ok g G i L) as [_ NE2].
    rewrite do_list_cons by congruence. rewrite (arg1_short g cap fa _ _ s NE2).
    rewrite (split_eq_none (x2d :: letter g i :: map (letter g) fl)).
    2:{ intros [E|I]; [discriminate|]. exact (letters_no_eq g G (i :: fl) F I). }
    cbn [skipn]. change (letter g i :: map (letter g) fl) with (map (letter g) (i :: fl)).
    destruct (short_moved (x2d :: map (letter g) (i :: fl)) (i :: fl) F true [] s Q) as (s' & f' & E & ST).
    exists s'. rewrite app_nil_r in E. cbn [map app] in E |- *. rewrite E. cbn [short_chars]. split; [reflexivity|]. exact ST.
  - destruct P as (F & V & L & VA). destruct (letter_ok g G i L) as [NE1 NE2].
    assert (X : exists c cs, map (letter g) fl ++ [letter g i] = c :: cs /\ c <> x2d).
    { destruct fl as [|j fl]; [exists (letter g i), []; split; [reflexivity|exact NE2]|].
      exists (letter g j), (map (letter g) fl ++ [letter g i]). split; [reflexivity|].
      apply (letter_ok g G j). apply (Forall_inv F). }
    destruct X as (c & cs & X & C). assert (NOEQ : ~ In x3d (map (letter g) fl ++ [letter g i])).
    { intro I. apply in_app_or in I as [I|[E|[]]]; [exact (letters_no_eq g G fl F I)|exact (NE1 E)]. }
    rewrite X. rewrite do_list_cons by congruence. rewrite (arg1_short g cap fa c cs s C).
    rewrite (split_eq_none (x2d :: c :: cs)) by (rewrite <- X; intros [E|I]; [discriminate|exact (NOEQ I)]).
    cbn [skipn]. rewrite <- X.
    destruct (short_moved (x2d :: map (letter g) fl ++ [letter g i]) fl F true [letter g i] s Q) as (s1 & f1 & E & S1).
    replace (match map (letter g) fl ++ [letter g i] with [] => A_go (bad s) | _ :: _ =>
               short_chars g cap (x2d :: map (letter g) fl ++ [letter g i]) true (map (letter g) fl ++ [letter g i]) None s end)
      with (short_chars g cap (x2d :: map (letter g) fl ++ [letter g i]) true (map (letter g) fl ++ [letter g i]) None s)
      by (rewrite X; reflexivity).
    rewrite E. cbn [short_chars]. rewrite (find_short_letter g i G L).
    pose proof S1 as (Q1 & H1 & E1). unfold then_. destruct (s_head s + 1 <=? cap)%nat eqn:LE.
    + apply Nat.leb_le in LE. rewrite (do_arg_valued g cap i s1 V Q1) by lia.
      rewrite do_list_cons by (apply value_not_last; exact VA). rewrite (arg1_plain g cap fa v _ VA), plain_wait.
      eexists. split; [reflexivity|]. apply (moved_trans g _ _ 0 1 _ _ _ S1 (wait_moved g i v s1)).
    + apply Nat.leb_gt in LE. rewrite (do_arg_full i s1 V) by lia. reflexivity.
  - apply Z; [exact H|]. destruct P as (V & L). destruct (letter_ok g G i L) as [NE1 NE2].
    rewrite do_list_cons by congruence. rewrite (arg1_short g cap fa (letter g i) (x3d :: v) s NE2).
    change (x2d :: letter g i :: x3d :: v) with ([x2d; letter g i] ++ x3d :: v).
    rewrite split_eq_some by (cbn; intros [E|[E|[]]]; [discriminate|congruence]).
    cbn [skipn short_chars]. rewrite (find_short_letter g i G L). rewrite do_arg_close.
    exists (give g (i, Some v) s). split; [reflexivity|]. apply give_moved. exact Q.
  - apply Z; [exact H|]. destruct P as (F & N). pose proof (proj1 N) as NE. rewrite do_list_cons by (intro E; injection E as E; congruence).
    rewrite arg1_long.
    rewrite (split_eq_none (x2d :: x2d :: p)) by (intros [E|[E|I]]; [discriminate..|exact (prefix_no_eq g G i p N I)]).
    cbn [skipn]. rewrite (long_option_names g cap fa i p None s N), (do_arg_flag g cap i s F).
    exists (give g (i, None) s). split; [reflexivity|]. apply give_moved. exact Q.
  - destruct P as (V & N & VA). pose proof (proj1 N) as NE. rewrite do_list_cons by (intro E; injection E as E; congruence).
    rewrite arg1_long.
    rewrite (split_eq_none (x2d :: x2d :: p)) by (intros [E|[E|I]]; [discriminate..|exact (prefix_no_eq g G i p N I)]).
    cbn [skipn]. rewrite (long_option_names g cap fa i p None s N). unfold then_. destruct (s_head s + 1 <=? cap)%nat eqn:LE.
    + apply Nat.leb_le in LE. rewrite (do_arg_valued g cap i s V Q) by lia.
      rewrite do_list_cons by (apply value_not_last; exact VA). rewrite (arg1_plain g cap fa v _ VA), plain_wait.
      eexists. split; [reflexivity|]. apply wait_moved.
    + apply Nat.leb_gt in LE. rewrite (do_arg_full i s V) by lia. reflexivity.
  - apply Z; [exact H|]. destruct P as (V & N). pose proof (proj1 N) as NE.
    rewrite do_list_cons by (intro E; destruct p; [congruence|discriminate]).
    rewrite arg1_long.
    change (x2d :: x2d :: p ++ x3d :: v) with ((x2d :: x2d :: p) ++ x3d :: v).
    rewrite split_eq_some by (intros [E|[E|I]]; [discriminate..|exact (prefix_no_eq g G i p N I)]).
    cbn [skipn]. change (@Some (list byte) v) with (@Some bytes v). rewrite (long_option_names g cap fa i p (Some v) s N), do_arg_close.
    exists (give g (i, Some v) s). split; [reflexivity|]. apply give_moved. exact Q.
Qed.

(** ** Names of the parser's own *)
Lemma own_no_match p n : own_name g p n -> p <> [] /\ long_matches g 0 p = [].
Proof.
  intros (NE & _ & NB & _). split; [exact NE|]. destruct (long_matches g 0 p) as [|i l] eqn:E; [reflexivity|].
  exfalso. apply (NB i). apply long_matches_begins. rewrite E. left. reflexivity.
Qed.
Lemma arg1_file_eq p path s : file_name g p -> arg1 g cap fa (x2d :: x2d :: p ++ x3d :: path) s = fa path s.
Proof.
  intro F. destruct (own_no_match _ _ F) as [NE M]. destruct F as (_ & NQ & _ & r & E).
  rewrite arg1_long. change (x2d :: x2d :: p ++ x3d :: path) with ((x2d :: x2d :: p) ++ x3d :: path).
  rewrite split_eq_some by (intros [X|[X|I]]; [discriminate..|exact (NQ I)]). cbn [skipn]. unfold long_option. rewrite M.
  destruct p; [congruence|]. rewrite (proj2 (is_prefix_spec _ _) (ex_intro _ r E)). reflexivity.
Qed.
Lemma arg1_file_val p s : file_name g p -> arg1 g cap fa (x2d :: x2d :: p) s = enqueue cap None s.
Proof.
  intro F. destruct (own_no_match _ _ F) as [NE M]. destruct F as (_ & NQ & _ & r & E).
  rewrite arg1_long. rewrite split_eq_none by (intros [X|[X|I]]; [discriminate..|exact (NQ I)]). cbn [skipn]. unfold long_option. rewrite M.
  destruct p; [congruence|]. rewrite (proj2 (is_prefix_spec _ _) (ex_intro _ r E)). reflexivity.
Qed.
Lemma ending_special p n r : In n ending_names -> n = p ++ r -> special p = true.
Proof.
  intros I E. pose proof (proj2 (is_prefix_spec p n) (ex_intro _ r E)) as X. unfold special. unfold ending_names in I.
  cbn [In] in I. destruct I as [<-|[<-|[<-|[<-|[<-|[<-|[<-|[]]]]]]]]; rewrite X; rewrite ?Bool.orb_true_r; reflexivity.
Qed.
Lemma arg1_ending p n t s : own_name g p n -> In n ending_names -> (forall r, txt "argv-file" <> p ++ r) -> tail_ok t ->
  arg1 g cap fa (x2d :: x2d :: p ++ t) s = A_exit 0.
Proof.
  intros F I NF T. destruct (own_no_match _ _ F) as [NE M]. destruct F as (_ & NQ & _ & r & E).
  rewrite arg1_long. change (x2d :: x2d :: p ++ t) with ((x2d :: x2d :: p) ++ t).
  assert (NQ2 : ~ In x3d (x2d :: x2d :: p)) by (intros [X|[X|J]]; [discriminate..|exact (NQ J)]).
  destruct (split_tail (x2d :: x2d :: p) t NQ2 T) as (c & ->). cbn [skipn]. unfold long_option. rewrite M.
  destruct p as [|b p]; [congruence|]. rewrite (ending_special _ n r I E).
  destruct (is_prefix (b :: p) (txt "argv-file")) eqn:PF; [|reflexivity].
  apply is_prefix_spec in PF as (r' & PF). exfalso. exact (NF r' PF).
Qed.
End Exact.

(** ** Files of arguments *)
Lemma says_run g cap files : good_grid g -> forall d n ws l, says g files d n ws l ->
  forall fuel r s, (d <= fuel)%nat -> s_queue s = [] -> (s_head s <= cap)%nat ->
  then_ g cap (fa_of g cap files fuel) (all_sets l) n s r (do_list_with g cap (fa_of g cap files fuel) false (ws ++ r) s).
Proof.
  intro G. unfold then_.
  (* a file read from a state without waiting options *)
  assert (FILE : forall d m n path c ls inner ws l fuel r s,
    files path = Some c -> text_of ls c -> (S d <= fuel)%nat -> s_queue s = [] -> (s_head s <= cap)%nat ->
    (forall fuel r s, (d <= fuel)%nat -> s_queue s = [] -> (s_head s <= cap)%nat ->
      if (s_head s + m <=? cap)%nat
      then exists s', do_list_with g cap (fa_of g cap files fuel) false (ls ++ r) s = do_list_with g cap (fa_of g cap files fuel) false r s' /\ moved g (all_sets inner) m s s'
      else do_list_with g cap (fa_of g cap files fuel) false (ls ++ r) s = A_ub UB_queue) ->
    (forall fuel r s, (S d <= fuel)%nat -> s_queue s = [] -> (s_head s <= cap)%nat ->
      if (s_head s + n <=? cap)%nat
      then exists s', do_list_with g cap (fa_of g cap files fuel) false (ws ++ r) s = do_list_with g cap (fa_of g cap files fuel) false r s' /\ moved g (all_sets l) n s s'
      else do_list_with g cap (fa_of g cap files fuel) false (ws ++ r) s = A_ub UB_queue) ->
    let x := match fa_of g cap files fuel path s with A_go s' => do_list_with g cap (fa_of g cap files fuel) false (ws ++ r) s' | y => y end in
    if (s_head s + (m + n) <=? cap)%nat
    then exists s', x = do_list_with g cap (fa_of g cap files fuel) false r s' /\ moved g (all_sets (inner ++ l)) (m + n) s s'
    else x = A_ub UB_queue).
  { intros d m n path c ls inner ws l fuel r s FP T D Q H IN OUT. cbn zeta. destruct fuel as [|f]; [lia|].
    cbn [fa_of]. rewrite FP, (file_lines_text ls c T), do_list_fa.
    pose proof (IN f [] s ltac:(lia) Q H) as I1. rewrite app_nil_r in I1.
    destruct (s_head s + m <=? cap)%nat eqn:L1.
    - destruct I1 as (s1 & E1 & M1). rewrite E1. cbn [do_list_with]. pose proof M1 as (Q1 & H1 & _). apply Nat.leb_le in L1.
      pose proof (OUT (S f) r s1 D Q1 ltac:(lia)) as O1. rewrite H1, <- Nat.add_assoc in O1.
      destruct (s_head s + (m + n) <=? cap)%nat eqn:L2; [|exact O1]. destruct O1 as (s2 & E2 & M2).
      exists s2. split; [exact E2|]. unfold all_sets. rewrite flat_map_app. apply (moved_trans g _ _ m n s s1 s2 M1 M2).
    - rewrite I1. apply Nat.leb_gt in L1. rewrite (proj2 (Nat.leb_gt _ _)) by lia. reflexivity. }
  induction 1 as [d|d n x ws l P SA IH|d m n p path c ls inner ws l F FP T _ IHi _ IHo|d m n p path c ls inner ws l F VA FP T _ IHi _ IHo];
    intros fuel r s D Q H.
  - rewrite Nat.add_0_r, (proj2 (Nat.leb_le _ _) H). exists s. split; [reflexivity|]. apply moved_refl. exact Q.
  - rewrite <- app_assoc. pose proof (words_exact g cap (fa_of g cap files fuel) G x (ws ++ r) s P Q H) as W. unfold then_ in W.
    destruct (s_head s + own_value x <=? cap)%nat eqn:L1.
    + destruct W as (s1 & E1 & M1). rewrite E1. pose proof M1 as (Q1 & H1 & _). apply Nat.leb_le in L1.
      pose proof (IH fuel r s1 D Q1 ltac:(lia)) as O1. rewrite H1, <- Nat.add_assoc in O1.
      destruct (s_head s + (own_value x + n) <=? cap)%nat eqn:L2; [|exact O1]. destruct O1 as (s2 & E2 & M2).
      exists s2. split; [exact E2|]. unfold all_sets. cbn [flat_map]. apply (moved_trans g _ _ _ n s s1 s2 M1 M2).
    + rewrite W. apply Nat.leb_gt in L1. rewrite (proj2 (Nat.leb_gt _ _)) by lia. reflexivity.
  - cbn [app]. rewrite do_list_cons by (intro E; destruct p; [destruct F as (NE & _); congruence|discriminate]).
    rewrite arg1_file_eq by exact F. exact (FILE d m n path c ls inner ws l fuel r s FP T D Q H IHi IHo).
  - cbn [app]. rewrite do_list_cons by (intro E; injection E as E; destruct F as (NE & _); congruence).
    rewrite arg1_file_val by exact F. unfold enqueue. destruct (s_head s <? cap)%nat eqn:L0.
    + apply Nat.ltb_lt in L0. rewrite do_list_cons by (apply value_not_last; exact VA). rewrite arg1_plain by exact VA.
      unfold plain_arg. cbn [s_queue app]. rewrite Q. cbn [app s_vals s_used s_head s_ok s_past].
      set (s0 := mk_astate (s_vals s) (s_used s) [] (S (s_head s)) (s_ok s) (s_past s)).
      assert (H0 : s_head s0 = S (s_head s)) by reflexivity.
      pose proof (FILE d m n path c ls inner ws l fuel r s0 FP T D eq_refl ltac:(lia) IHi IHo) as X. cbn zeta in X.
      rewrite H0 in X. replace (S (s_head s) + (m + n))%nat with (s_head s + (S m + n))%nat in X by lia.
      destruct (s_head s + (S m + n) <=? cap)%nat; [|exact X]. destruct X as (s' & E & Q' & H' & N'). exists s'. split; [exact E|].
      split; [exact Q'|]. split; [rewrite H', H0; lia|exact N'].
    + apply Nat.ltb_ge in L0. rewrite (proj2 (Nat.leb_gt _ _)) by lia. reflexivity.
Qed.

(** ** The whole *)
Definition room (env args : list bytes) : nat := (1 + List.length args + List.length env)%nat.
Lemma process_says g files fuel d ne na es gs env args : good_grid g ->
  says g files d ne env es -> says g files d na args gs -> (d <= fuel)%nat ->
  argv_process g files fuel env args =
  if (ne + na <=? room env args)%nat
  then argv_process g files fuel (flat_map (words g) es) (flat_map (words g) gs)
  else Undef UB_queue.
Proof.
  intros G SE SA D.
  assert (PR : forall d n ws l, says g files d n ws l -> Forall (proper g) l).
  { induction 1; [constructor|constructor; assumption|apply Forall_app; split; assumption..]. }
  rewrite (process_line g files fuel es gs G (PR _ _ _ _ SE) (PR _ _ _ _ SA)).
  unfold argv_process. rewrite do_list_fa. fold (room env args). set (cap := room env args).
  pose proof (says_run g cap files G _ _ _ _ SE fuel [] (start g) D eq_refl (Nat.le_0_l _)) as E. unfold then_ in E.
  rewrite app_nil_r in E. cbn [s_head start] in E. rewrite Nat.add_0_l in E.
  destruct (ne <=? cap)%nat eqn:L1.
  2:{ rewrite E. apply Nat.leb_gt in L1. rewrite (proj2 (Nat.leb_gt _ _)) by lia. reflexivity. }
  destruct E as (s1 & E1 & Q1 & H1 & N1). rewrite E1. cbn [do_list_with]. rewrite do_list_fa. cbn [s_head start] in H1.
  apply Nat.leb_le in L1.
  pose proof (says_run g cap files G _ _ _ _ SA fuel [] s1 D Q1 ltac:(lia)) as A. unfold then_ in A.
  rewrite app_nil_r in A. replace (s_head s1) with ne in A by (rewrite H1; reflexivity).
  destruct (ne + na <=? cap)%nat eqn:L2; [|rewrite A; reflexivity].
  destruct A as (s2 & E2 & Q2 & H2 & N2). rewrite E2. cbn [do_list_with]. rewrite Q2.
  set (l := all_sets (es ++ gs)). set (s := line g l).
  assert (NS : norm s2 = s).
  { unfold s, l, line, all_sets. rewrite N2, N1, flat_map_app, fold_left_app. reflexivity. }
  assert (T : Forall (typed g) l) by (apply all_typed; apply Forall_app; split; [exact (PR _ _ _ _ SE)|exact (PR _ _ _ _ SA)]).
  destruct (line_vals g l T) as [V U].
  replace (s_ok s2) with (s_ok s) by (rewrite <- NS; reflexivity).
  replace (s_used s2) with (used_list g l) by (rewrite <- U; fold s; rewrite <- NS; reflexivity).
  replace (s_vals s2) with (meaning g (es ++ gs)) by (unfold meaning; fold l; rewrite <- V; fold s; rewrite <- NS; reflexivity).
  replace (s_past s2) with (s_past s) by (rewrite <- NS; reflexivity).
  rewrite Bool.andb_true_r. reflexivity.
Qed.

(** An argument that ends the program, after others that are in order. *)
Lemma process_ends g files fuel d ne na es gs env args a rest x : good_grid g ->
  says g files d ne env es -> says g files d na args gs -> (d <= fuel)%nat -> (ne + na <= room env (args ++ a :: rest))%nat ->
  a <> txt "--" -> (forall cap s, arg1 g cap (fa_of g cap files fuel) a s = A_exit x) ->
  argv_process g files fuel env (args ++ a :: rest) = Exited x.
Proof.
  intros G SE SA D R ND X. unfold argv_process. rewrite do_list_fa. fold (room env (args ++ a :: rest)). set (cap := room env (args ++ a :: rest)) in *.
  pose proof (says_run g cap files G _ _ _ _ SE fuel [] (start g) D eq_refl (Nat.le_0_l _)) as E. unfold then_ in E.
  rewrite app_nil_r in E. cbn [s_head start] in E. rewrite Nat.add_0_l, (proj2 (Nat.leb_le _ _)) in E by lia.
  destruct E as (s1 & E1 & Q1 & H1 & N1). rewrite E1. cbn [do_list_with]. rewrite do_list_fa. cbn [s_head start] in H1.
  pose proof (says_run g cap files G _ _ _ _ SA fuel (a :: rest) s1 D Q1 ltac:(lia)) as A. unfold then_ in A.
  rewrite (proj2 (Nat.leb_le _ _)) in A by lia. destruct A as (s2 & E2 & _). rewrite E2.
  rewrite do_list_cons by exact ND. rewrite X. reflexivity.
Qed.
Lemma process_ending g files fuel d ne na es gs env args p n t rest : good_grid g ->
  says g files d ne env es -> says g files d na args gs -> (d <= fuel)%nat ->
  (ne + na <= 2 + List.length env + List.length args + List.length rest)%nat ->
  own_name g p n -> In n ending_names -> (forall r, txt "argv-file" <> p ++ r) -> tail_ok t ->
  argv_process g files fuel env (args ++ (x2d :: x2d :: p ++ t) :: rest) = Exited 0.
Proof.
  intros G SE SA D R O I NF T. apply (process_ends g files fuel d ne na es gs); try assumption.
  - unfold room. rewrite app_length. cbn [List.length]. unfold bytes in *. lia.
  - intro E. destruct O as (NE & _). destruct p; [congruence|discriminate E].
  - intros cap s. exact (arg1_ending g cap _ p n t s O I NF T).
Qed.
Lemma process_no_file g files fuel d ne na es gs env args p path rest : good_grid g ->
  says g files d ne env es -> says g files d na args gs -> (d <= fuel)%nat -> (0 < fuel)%nat ->
  (ne + na <= 2 + List.length env + List.length args + List.length rest)%nat ->
  file_name g p -> files path = None ->
  argv_process g files fuel env (args ++ (x2d :: x2d :: p ++ x3d :: path) :: rest) = Exited 1.
Proof.
  intros G SE SA D D0 R O F. apply (process_ends g files fuel d ne na es gs); try assumption.
  - unfold room. rewrite app_length. cbn [List.length]. unfold bytes in *. lia.
  - intro E. destruct O as (NE & _). destruct p; [congruence|discriminate E].
  - intros cap s. rewrite arg1_file_eq by exact O. unfold fa_of. destruct fuel; [lia|]. rewrite F. reflexivity.
Qed.

(** Proofs about the usage texts. *)
From Coq Require Import ZArith String Lia.
From Verif Require Import Bytes Bytes_proofs Argv Usage SpecUsage.
Import ListNotations.
Local Open Scope Z_scope.

(** ** Columns *)
Fixpoint cols (k : nat) (t : bytes) : option nat :=
  match t with
  | [] => Some k
  | c :: t => if byte_eqb c nl then cols 0 t else if (k <? 79)%nat then cols (S k) t else None
  end.

Lemma byte_eqb_eq a b : byte_eqb a b = true <-> a = b.
Proof.
  unfold byte_eqb. rewrite N.eqb_eq. split; [|intros ->; reflexivity]. intro H.
  apply (f_equal Byte.of_N) in H. rewrite !Byte.of_to_N in H. injection H as H. exact H.
Qed.

Lemma cols_app t u : forall k, cols k (t ++ u) = match cols k t with Some j => cols j u | None => None end.
Proof. induction t as [|c t IH]; intro k; [reflexivity|]. cbn [app cols]. destruct (byte_eqb c nl); [apply IH|]. destruct (k <? 79)%nat; [apply IH|reflexivity]. Qed.
Lemma cols_plain s : ~ In nl s -> forall k, (k + List.length s <= 79)%nat -> cols k s = Some (k + List.length s)%nat.
Proof.
  induction s as [|c s IH]; intros N k L; cbn [cols List.length]; [f_equal; lia|].
  destruct (byte_eqb c nl) eqn:E; [apply byte_eqb_eq in E; subst c; destruct N; left; reflexivity|].
  cbn [List.length] in L. destruct (Nat.ltb_spec k 79); [|lia]. rewrite IH; [f_equal; lia|intro H1; apply N; right; exact H1|lia].
Qed.
Lemma cols_width s : ~ In nl s -> forall k j, (k <= 79)%nat -> cols k s = Some j -> (k + List.length s <= 79)%nat /\ j = (k + List.length s)%nat.
Proof.
  induction s as [|c s IH]; intros N k j K H; cbn [cols List.length] in *; [injection H as <-; lia|].
  destruct (byte_eqb c nl) eqn:E; [apply byte_eqb_eq in E; subst c; destruct N; left; reflexivity|].
  destruct (Nat.ltb_spec k 79); [|discriminate]. apply IH in H; [lia|intro H1; apply N; right; exact H1|lia].
Qed.
Lemma cols_le t : forall k j, (k <= 79)%nat -> cols k t = Some j -> (j <= 79)%nat.
Proof.
  induction t as [|c t IH]; intros k j K H; cbn [cols] in H; [injection H as <-; exact K|].
  destruct (byte_eqb c nl); [eapply IH; [|exact H]; lia|]. destruct (Nat.ltb_spec k 79); [|discriminate]. eapply IH; [|exact H]; lia.
Qed.
Lemma cols_narrow t j : cols 0 t = Some j -> narrow 79 t.
Proof.
  intros H a l b -> N. rewrite cols_app in H. destruct (cols 0 a) as [k|] eqn:E; [|discriminate]. rewrite cols_app in H.
  destruct (cols k l) as [m|] eqn:E2; [|discriminate]. assert (K : (k <= 79)%nat) by (eapply cols_le; [|exact E]; lia).
  destruct (cols_width l N k m K E2). lia.
Qed.
Lemma cols_nl k : cols k [nl] = Some O. Proof. reflexivity. Qed.

(** ** Pieces *)
Lemma cut_in len s x : In x (cut len s) -> In x s.
Proof. unfold cut. destruct (len <? 0); [auto|]. rewrite <- (firstn_skipn (Z.to_nat len) s) at 2. intro H. apply in_or_app. left. exact H. Qed.
Lemma cut_len len s : 0 <= len -> lenZ (cut len s) = Z.min len (lenZ s).
Proof. intro H. unfold cut, lenZ. destruct (Z.ltb_spec len 0); [lia|]. rewrite firstn_length. lia. Qed.
Lemma cut_all len s : lenZ s <= len -> cut len s = s.
Proof. intro H. unfold cut, lenZ in *. destruct (Z.ltb_spec len 0); [reflexivity|]. apply firstn_all2. lia. Qed.
Lemma lenZ_app a b : lenZ (a ++ b) = lenZ a + lenZ b. Proof. unfold lenZ. rewrite app_length. lia. Qed.
Lemma lenZ_spaces n : 0 <= n -> lenZ (spaces n) = n.
Proof. intro H. unfold lenZ, spaces. rewrite repeat_length. lia. Qed.
Lemma spaces_in n x : In x (spaces n) -> x = sp. Proof. intro H. apply repeat_spec in H. exact H. Qed.
Lemma lenZ_pos s : 0 <= lenZ s. Proof. unfold lenZ. lia. Qed.

Definition plain (s : bytes) : Prop := ~ In nl s.
Lemma plain_app a b : plain a -> plain b -> plain (a ++ b).
Proof. intros A B H. apply in_app_or in H as [H|H]; contradiction. Qed.
Lemma plain_cut len s : plain s -> plain (cut len s).
Proof. intros A H. apply A. eapply cut_in. exact H. Qed.
Lemma plain_spaces n : plain (spaces n).
Proof. intro H. apply spaces_in in H. discriminate H. Qed.
Lemma plain_b s : forallb (fun c => negb (byte_eqb c nl)) s = true -> plain s.
Proof. intros H I. rewrite forallb_forall in H. apply H in I. rewrite (proj2 (byte_eqb_eq nl nl) eq_refl) in I. discriminate I. Qed.

(** ** The long text *)
Lemma arg_fits e max col : one_line e -> (o_kind (u_opt e) = K_str \/ o_kind (u_opt e) = K_int -> 0 <= max - col) ->
  forall s col', display_arg e max col = (s, col') -> plain s /\ col' = col + lenZ s /\ (0 <= max - col -> col' <= max).
Proof.
  intros (_ & _ & PL & _) M s col' H. unfold display_arg in H.
  set (l := match u_label e with Some l => l | None => UNKNOWN_ARG end) in H.
  assert (P : plain l) by (subst l; destruct (u_label e); [exact PL|apply plain_b; reflexivity]). clearbody l.
  destruct (o_kind (u_opt e)); injection H as <- <-; try (split; [intros []|split; [cbn; lia|lia]]).
  all: split; [apply plain_cut, P|]; rewrite cut_len by auto; lia.
Qed.

Lemma long_line_fits e : one_line e -> ~ too_long e -> exists s, long_line e = s ++ [nl] /\ plain s /\ lenZ s <= 79.
Proof.
  intros O NT. pose proof O as (PS & PN & PL & PC). unfold long_line. cbv zeta. fold (bare e).
  assert (F : exists first col, (if bare e then (txt "[", 1) else let (s, col) := display_option e 0 in
      if col <? LONG_COLUMN then (s ++ spaces (LONG_COLUMN - col), LONG_COLUMN) else (s, col)) = (first, col) /\ plain first /\ lenZ first = col /\
      (if bare e then col = 1 else col = 18)).
  { destruct (bare e); [exists (txt "["), 1; split; [reflexivity|]; split; [apply plain_b; reflexivity|split; reflexivity]|].
    unfold display_option. cbv zeta. change (0 + 1 + (lenZ SHORT_PREFIX + 1)) with 3.
    destruct (if has_arg (u_opt e) then ([sp], 3 + 1) else ([], 3)) as [gap c1] eqn:EG.
    assert (G : plain gap /\ c1 = 3 + lenZ gap /\ lenZ gap <= 1) by (destruct (has_arg (u_opt e)); injection EG as <- <-; (split; [apply plain_b; reflexivity|split; reflexivity || (cbn; lia)])).
    destruct (display_arg e (LONG_COLUMN - 1) c1) as [arg c2] eqn:EA.
    destruct (arg_fits e (LONG_COLUMN - 1) c1 O ltac:(unfold LONG_COLUMN; lia) arg c2 EA) as (A1 & A2 & A3). unfold LONG_COLUMN in *.
    assert (H : plain (txt "[" ++ SHORT_PREFIX ++ [o_short (u_opt e)])).
    { repeat apply plain_app; try (apply plain_b; reflexivity). intros [H|[]]. apply PS. exact H. }
    assert (PP : plain ((txt "[" ++ SHORT_PREFIX ++ [o_short (u_opt e)]) ++ gap ++ arg ++ txt "]")).
    { apply plain_app; [exact H|]. apply plain_app; [tauto|]. apply plain_app; [exact A1|apply plain_b; reflexivity]. }
    assert (LL : lenZ ((txt "[" ++ SHORT_PREFIX ++ [o_short (u_opt e)]) ++ gap ++ arg ++ txt "]") = c2 + 1).
    { rewrite !lenZ_app. change (lenZ (txt "[")) with 1. change (lenZ SHORT_PREFIX) with 1. change (lenZ [o_short (u_opt e)]) with 1. change (lenZ (txt "]")) with 1. lia. }
    set (h := (txt "[" ++ SHORT_PREFIX ++ [o_short (u_opt e)]) ++ gap ++ arg ++ txt "]") in *. clearbody h.
    destruct (Z.ltb_spec (c2 + 1) 18).
    - eexists _, _. split; [reflexivity|]. split; [apply plain_app; [exact PP|apply plain_spaces]|]. split; [|reflexivity]. rewrite lenZ_app, lenZ_spaces by lia. lia.
    - eexists _, _. split; [reflexivity|]. split; [exact PP|]. split; [exact LL|]. lia. }
  destruct F as (first & col & -> & P1 & L1 & C1).
  assert (Nm : exists name c, match o_long (u_opt e) with None => ([], col) | Some n =>
        let '(lab, col, len) := if bare e then ([], col, COMMENT_COLUMN - col - (lenZ LONG_PREFIX + 1))
          else (LONG_LABEL, col + lenZ LONG_LABEL, COMMENT_COLUMN - col - (lenZ LONG_PREFIX + 1) - lenZ LONG_LABEL) in
        (lab ++ LONG_PREFIX ++ cut len n, col + lenZ LONG_PREFIX + Z.min len (lenZ n)) end = (name, c) /\ plain name /\ c = col + lenZ name /\ c <= 33 /\
      (bare e = true -> lenZ (opt_text (o_long (u_opt e))) <= 29 -> c <= 32)).
  { destruct (o_long (u_opt e)) as [n|]; [|exists [], col; split; [reflexivity|]; split; [intros []|]; split; [cbn; lia|]; destruct (bare e); split; intros; lia].
    change (lenZ LONG_PREFIX) with 2. change (lenZ LONG_LABEL) with 3. unfold COMMENT_COLUMN. cbv zeta. cbn [opt_text] in *. pose proof (lenZ_pos n).
    destruct (bare e); subst col; eexists _, _; (split; [reflexivity|]); rewrite !lenZ_app, cut_len by lia.
    - change (lenZ LONG_PREFIX) with 2. change (lenZ []) with 0. split; [repeat apply plain_app; [intros []|apply plain_b; reflexivity|apply plain_cut, PN]|]. rewrite C1. split; [lia|]. split; [lia|]. intros; lia.
    - change (lenZ LONG_PREFIX) with 2. change (lenZ LONG_LABEL) with 3. split; [repeat apply plain_app; [apply plain_b; reflexivity..|apply plain_cut, PN]|]. rewrite C1. split; [lia|]. split; [lia|]. intros; discriminate. }
  destruct Nm as (name & c & -> & P2 & L2 & C2 & C2b).
  assert (Vl : exists v c', (if bare e then let '(gap, col) := if has_arg (u_opt e) then ([sp], c + 1) else ([], c) in
      let (arg, col) := display_arg e (COMMENT_COLUMN - 1) col in (gap ++ arg ++ txt "]", col + 1) else ([], c)) = (v, c') /\ plain v /\ c' = c + lenZ v /\
      c' <= 36).
  { destruct (bare e) eqn:EB; [|exists [], c; split; [reflexivity|]; split; [intros []|]; split; [cbn; lia|lia]].
    unfold has_arg. destruct (o_kind (u_opt e)) eqn:EK.
    1,2: unfold display_arg; rewrite EK; eexists _, _; (split; [reflexivity|]); (split; [apply plain_b; reflexivity|]); split; cbn; lia.
    3: unfold display_arg; rewrite EK; eexists _, _; (split; [reflexivity|]); (split; [apply plain_b; reflexivity|]); split; cbn; lia.
    all: destruct (display_arg e (COMMENT_COLUMN - 1) (c + 1)) as [arg c3] eqn:EA;
      assert (c <= 32) by (apply C2b; [reflexivity|]; destruct (Nat.le_gt_cases 30 (List.length (opt_text (o_long (u_opt e))))) as [G|G];
        [exfalso; apply NT; split; [apply byte_eqb_eq, EB|split; [rewrite EK; tauto|exact G]]|unfold lenZ; lia]);
      destruct (arg_fits e (COMMENT_COLUMN - 1) (c + 1) O ltac:(unfold COMMENT_COLUMN; lia) arg c3 EA) as (A1 & A2 & A3); unfold COMMENT_COLUMN in *;
      eexists _, _; (split; [reflexivity|]); (split; [repeat apply plain_app; [apply plain_b; reflexivity|exact A1|apply plain_b; reflexivity]|]);
      rewrite !lenZ_app; change (lenZ [sp]) with 1; change (lenZ (txt "]")) with 1; split; lia. }
  destruct Vl as (v & c' & -> & P3 & L3 & C3).
  assert (Cm : exists cm, match u_comment e with None => [] | Some cc =>
        let '(gap, col) := if c' <? COMMENT_COLUMN then (spaces (COMMENT_COLUMN - c'), COMMENT_COLUMN) else ([], c') in
        gap ++ cut (SCREEN_WIDTH - col) cc end = cm /\ plain cm /\ c' + lenZ cm <= 79).
  { eexists. split; [reflexivity|]. destruct (u_comment e) as [cc|]; [|split; [intros []|cbn; lia]]. cbn [opt_text] in PC. unfold COMMENT_COLUMN, SCREEN_WIDTH in *.
    destruct (Z.ltb_spec c' 34); (split; [apply plain_app; [apply plain_spaces || intros []|apply plain_cut, PC]|]); rewrite lenZ_app, cut_len, ?lenZ_spaces by lia; [lia|change (lenZ []) with 0; lia]. }
  destruct Cm as (cm & -> & P4 & L4).
  exists (first ++ name ++ v ++ cm). split; [rewrite <- !app_assoc; reflexivity|]. split; [repeat apply plain_app; assumption|]. rewrite !lenZ_app. lia.
Qed.

Lemma long_fits prog t : plain prog -> (List.length prog <= 72)%nat -> Forall (fun e => is_sep (u_opt e) = false -> one_line e /\ ~ too_long e) t ->
  narrow 79 (usage_long prog t).
Proof.
  intros PP LP F. apply cols_narrow with (j := O). unfold usage_long. rewrite app_assoc, cols_app.
  rewrite cols_plain; [|apply plain_app; [apply plain_b; reflexivity|exact PP]|rewrite app_length; change (List.length USAGE_LABEL) with 7%nat; lia].
  rewrite cols_app. change (cols (0 + List.length (USAGE_LABEL ++ prog)) [nl]) with (Some O). cbn iota.
  induction F as [|e t H _ IH]; [reflexivity|]. cbn [map concat]. rewrite cols_app.
  match goal with |- match cols 0 ?x with _ => _ end = _ => assert (E : cols 0 x = Some O); [|rewrite E; exact IH] end.
  destruct (is_sep (u_opt e)); [reflexivity|]. destruct (H eq_refl) as [O NT]. destruct (long_line_fits e O NT) as (s & -> & P & L).
  rewrite cols_app, cols_plain; [reflexivity|exact P|unfold lenZ in L; lia].
Qed.

(** ** What the long text shows *)
Lemma shows_option e : (is_flag (u_opt e) = true \/ o_kind (u_opt e) <> K_none) -> (List.length (value_text e) <= 14)%nat ->
  display_option e 0 = (txt "[-" ++ [o_short (u_opt e)] ++ value_text e ++ txt "]", 4 + lenZ (value_text e)).
Proof.
  unfold value_text, is_flag, display_option, has_arg, display_arg. intros NK L. destruct (o_kind (u_opt e)); try reflexivity.
  1,2: fold UNKNOWN_ARG in *; destruct (u_label e) as [l|]; [|set (l := UNKNOWN_ARG) in *]; cbn [List.length] in L;
    change (0 + 1 + (lenZ SHORT_PREFIX + 1) + 1) with 4; change (LONG_COLUMN - 1 - 4) with 13;
    (rewrite cut_all by (unfold lenZ; lia)); f_equal; unfold lenZ; cbn [List.length]; lia.
  - destruct NK as [H|H]; [discriminate H|congruence].
Qed.

Lemma spaces_pad n s z : 0 <= z -> (n = List.length s + Z.to_nat z)%nat -> s ++ spaces z = pad n s.
Proof. intros Z0 ->. unfold pad, spaces. f_equal. f_equal. lia. Qed.
Lemma pad_none n s : (n = List.length s)%nat -> pad n s = s.
Proof. intros ->. unfold pad. rewrite Nat.sub_diag. cbn [repeat]. apply app_nil_r. Qed.

Lemma long_line_row e name comment : roomy e name comment -> long_line e = row e name comment ++ [nl].
Proof.
  intros (EN & EC & LC & NK & R). unfold long_line, row. cbv zeta. fold (bare e). rewrite EN, EC.
  pose proof (lenZ_pos name). pose proof (lenZ_pos (value_text e)).
  destruct (bare e) eqn:EB.
  - change (COMMENT_COLUMN - 1 - (lenZ LONG_PREFIX + 1)) with 30. rewrite (cut_all 30) by (unfold lenZ; lia).
    rewrite Z.min_r by (unfold lenZ; lia). change (1 + lenZ LONG_PREFIX + lenZ name) with (3 + lenZ name).
    assert (V : exists c, (let '(gap, col) := if has_arg (u_opt e) then ([sp], 3 + lenZ name + 1) else ([], 3 + lenZ name) in
      let (arg, col0) := display_arg e (COMMENT_COLUMN - 1) col in (gap ++ arg ++ txt "]", col0 + 1)) = (value_text e ++ txt "]", c) /\
      c = 3 + lenZ name + lenZ (value_text e) + 1).
    { unfold value_text, is_flag, has_arg, display_arg in *. destruct (o_kind (u_opt e)); try (eexists; split; [reflexivity|cbn; lia]); [| |congruence].
      all: fold UNKNOWN_ARG in *; destruct (u_label e) as [l|]; [|set (l := UNKNOWN_ARG) in *]; cbn [List.length] in R; unfold COMMENT_COLUMN;
        (rewrite cut_all by (unfold lenZ; lia)); eexists; (split; [reflexivity|]); unfold lenZ; cbn [List.length]; lia. }
    destruct V as (c & -> & Ec). unfold COMMENT_COLUMN, SCREEN_WIDTH in *.
    set (h := txt "[--" ++ name ++ value_text e ++ txt "]"). assert (Lh : lenZ h = c).
    { subst h. rewrite !lenZ_app. change (lenZ (txt "[--")) with 3. change (lenZ (txt "]")) with 1. lia. }
    assert (Eh : txt "[" ++ ([] ++ LONG_PREFIX ++ name) ++ (value_text e ++ txt "]") = h) by (subst h; cbn [app]; rewrite <- !app_assoc; reflexivity).
    assert (c <= 34) by (unfold lenZ in *; lia). unfold lenZ in Lh.
    destruct (Z.ltb_spec c 34).
    + change (79 - 34) with 45. rewrite cut_all by (unfold lenZ; lia). rewrite <- (spaces_pad 34 h (34 - c)) by (lia || (pose proof (lenZ_pos h); unfold lenZ in *; lia)).
      rewrite <- Eh, <- !app_assoc. reflexivity.
    + replace (79 - c) with 45 by lia. rewrite cut_all by (unfold lenZ; lia). rewrite (pad_none 34 h) by lia. rewrite <- Eh, <- !app_assoc. reflexivity.
  - rewrite (shows_option e) by (auto || lia). destruct R as [R1 R2].
    set (h := txt "[-" ++ [o_short (u_opt e)] ++ value_text e ++ txt "]").
    assert (Lh : lenZ h = 4 + lenZ (value_text e)).
    { subst h. rewrite !lenZ_app. change (lenZ (txt "[-")) with 2. change (lenZ (txt "]")) with 1. change (lenZ [o_short (u_opt e)]) with 1. lia. }
    match goal with |- context [?t] => match t with (if _ <? LONG_COLUMN then _ else _) => assert (F : t = (pad 18 h, 18)) end end.
    { unfold LONG_COLUMN. destruct (Z.ltb_spec (4 + lenZ (value_text e)) 18).
      - rewrite (spaces_pad 18 h) by (lia || (unfold lenZ in *; lia)). reflexivity.
      - assert (lenZ (value_text e) = 14) by (unfold lenZ in *; lia). rewrite pad_none by (unfold lenZ in *; lia). f_equal. lia. }
    rewrite F. clear F. change (COMMENT_COLUMN - 18 - (lenZ LONG_PREFIX + 1) - lenZ LONG_LABEL) with 10. rewrite (cut_all 10) by (unfold lenZ; lia).
    rewrite Z.min_r by (unfold lenZ; lia). change (18 + lenZ LONG_LABEL + lenZ LONG_PREFIX) with 23. unfold COMMENT_COLUMN, SCREEN_WIDTH.
    destruct (Z.ltb_spec (23 + lenZ name) 34); [|unfold lenZ in *; lia]. change (79 - 34) with 45. rewrite cut_all by (unfold lenZ; lia).
    set (n := txt "or --" ++ name). assert (En : LONG_LABEL ++ LONG_PREFIX ++ name = n) by reflexivity. rewrite En.
    rewrite <- (spaces_pad 16 n (34 - (23 + lenZ name))).
    + rewrite <- !app_assoc. reflexivity.
    + lia.
    + subst n. rewrite app_length. change (List.length (txt "or --")) with 5%nat. unfold lenZ in *. lia.
Qed.

Lemma long_shows prog t l : rows t l -> usage_long prog t = txt "Usage: " ++ prog ++ [nl] ++ concat (map (fun r => r ++ [nl]) l).
Proof.
  intro R. unfold usage_long. do 3 f_equal. induction R as [|e t l S _ IH|e name comment t l S R _ IH]; [reflexivity|..]; cbn [map concat]; rewrite S; [exact IH|].
  rewrite (long_line_row e name comment R), IH. reflexivity.
Qed.

(** ** The short text *)
Lemma cols_z s col : plain s -> 0 <= col -> col + lenZ s <= 79 -> cols (Z.to_nat col) s = Some (Z.to_nat (col + lenZ s)).
Proof. intros P C L. rewrite cols_plain; [f_equal; unfold lenZ; lia|exact P|unfold lenZ in L; lia]. Qed.
Lemma cols_new k : cols k new_line = Some 7%nat. Proof. reflexivity. Qed.
Lemma plain_1 c : c <> nl -> plain [c]. Proof. intros H [E|[]]. congruence. Qed.

Lemma flags_fit t : Forall one_line t -> forall col mark s c m, short_flags t col mark = (s, c, m) -> 0 <= col <= (if mark then 78 else 79) ->
  cols (Z.to_nat col) s = Some (Z.to_nat c) /\ 0 <= c <= (if m then 78 else 79).
Proof.
  induction 1 as [|e t O _ IH]; intros col mark s c m H C; cbn [short_flags] in H; [injection H as <- <- <-; split; [reflexivity|exact C]|].
  destruct (is_sep (u_opt e) || has_arg (u_opt e) || byte_eqb (o_short (u_opt e)) x00); [apply IH in H; auto|]. cbv zeta in H.
  match type of H with context [if mark then ?a else ?b] => destruct (if mark then a else b) as [s0 c0] eqn:E0 end.
  assert (A0 : cols (Z.to_nat col) s0 = Some (Z.to_nat c0) /\ 0 <= c0 <= 78).
  { change (2 + lenZ SHORT_PREFIX) with 3 in E0. change (lenZ USAGE_LABEL + (1 + lenZ SHORT_PREFIX)) with 9 in E0. unfold SCREEN_WIDTH in E0. destruct mark.
    - injection E0 as <- <-. split; [reflexivity|lia].
    - destruct (Z.ltb_spec (79 - 2) (col + 3)); injection E0 as <- <-; [|split; [|lia]].
      + split; [reflexivity|lia].
      + change 3 with (lenZ (txt " [" ++ SHORT_PREFIX)). apply cols_z; [apply plain_b; reflexivity|lia|cbn; lia]. }
  destruct (SCREEN_WIDTH - 1 <? c0 + 1) eqn:E1.
  - destruct (short_flags t _ true) as [[s2 c2] m2] eqn:E2. injection H as <- <- <-.
    change (lenZ USAGE_LABEL + 1 + lenZ SHORT_PREFIX + 1) with 10 in E2. apply IH in E2; [|lia]. destruct E2 as [E2 B2]. split; [|exact B2].
    rewrite cols_app, (proj1 A0).
    match goal with |- cols _ ?l = _ => change l with (txt "]" ++ new_line ++ txt "[-" ++ [o_short (u_opt e)] ++ s2) end.
    rewrite cols_app, (cols_z (txt "]")) by (try (apply plain_b; reflexivity); cbn; lia).
    rewrite cols_app, cols_new, cols_app. change (cols 7 (txt "[-")) with (Some 9%nat). cbn iota.
    rewrite cols_app, (cols_plain [_]) by (try apply plain_1; try apply O; cbn; lia). exact E2.
  - destruct (short_flags t _ true) as [[s2 c2] m2] eqn:E2. injection H as <- <- <-. unfold SCREEN_WIDTH in E1. apply Z.ltb_ge in E1.
    apply IH in E2; [|lia]. destruct E2 as [E2 B2]. split; [|exact B2]. cbn [app].
    rewrite cols_app, (proj1 A0). change (o_short (u_opt e) :: s2) with ([o_short (u_opt e)] ++ s2).
    rewrite cols_app, (cols_z [_]) by (try apply plain_1; try apply O; cbn; lia). exact E2.
Qed.

Definition label_of (e : entry) : bytes := match u_label e with Some l => l | None => UNKNOWN_ARG end.
Lemma plain_label e : one_line e -> plain (label_of e).
Proof. intros (_ & _ & P & _). unfold label_of. destruct (u_label e); [exact P|apply plain_b; reflexivity]. Qed.

Lemma args_fit t : Forall (fun e => one_line e /\ (List.length (label_of e) <= 71)%nat) t -> forall col, 0 <= col <= 79 ->
  exists j, cols (Z.to_nat col) (short_args t col) = Some j.
Proof.
  induction 1 as [|e t [O LL] _ IH]; intros col C; cbn [short_args]; [eexists; reflexivity|].
  destruct (is_sep (u_opt e) || negb (has_arg (u_opt e))); [apply IH; exact C|]. cbv zeta.
  change (match u_label e with Some l => l | None => UNKNOWN_ARG end) with (label_of e). pose proof (plain_label e O) as PL.
  change (2 + lenZ SHORT_PREFIX + 1) with 4. change (lenZ USAGE_LABEL) with 7. unfold SCREEN_WIDTH.
  match goal with |- context [if 79 <? col + 4 then ?a else ?b] => destruct (if 79 <? col + 4 then a else b) as [s0 c0] eqn:E0 end.
  assert (A0 : exists k, cols (Z.to_nat col) s0 = Some k /\ (k + 2 = Z.to_nat c0)%nat /\ 0 <= c0 <= 79).
  { destruct (Z.ltb_spec 79 (col + 4)); injection E0 as <- <-.
    - exists 8%nat. split; [reflexivity|]. split; reflexivity || lia.
    - exists (Z.to_nat (col + lenZ (txt " ["))). split; [apply cols_z; [apply plain_b; reflexivity|lia|cbn; lia]|]. change (lenZ (txt " [")) with 2. lia. }
  destruct A0 as (k & A1 & A2 & A3).
  match goal with |- context [if ?x <? ?y then ?a else ?b] => destruct (if x <? y then a else b) as [s1 c1] eqn:E1 end.
  assert (B0 : exists k1, cols (Z.to_nat c0) s1 = Some k1 /\ (k1 + (List.length (label_of e) + 1) = Z.to_nat c1)%nat /\ 0 <= c1 <= 79).
  { pose proof (lenZ_pos (label_of e)). destruct (Z.ltb_spec 79 (c0 + (1 + lenZ (label_of e) + 1))); apply pair_equal_spec in E1 as [<- <-].
    - exists 7%nat. split; [apply cols_new|]. unfold lenZ in *. lia.
    - exists (Z.to_nat (c0 + lenZ (txt " "))). split; [apply cols_z; [apply plain_b; reflexivity|lia|cbn; lia]|]. change (lenZ (txt " ")) with 1. unfold lenZ in *. lia. }
  destruct B0 as (k1 & B1 & B2 & B3). destruct (IH c1 B3) as [j Hj]. exists j.
  rewrite cols_app, A1, cols_app. rewrite (cols_plain SHORT_PREFIX) by (try (apply plain_b; reflexivity); cbn; lia).
  rewrite (cols_app [_]), (cols_plain [_]) by (try apply plain_1; try apply O; cbn; lia).
  replace (k + List.length SHORT_PREFIX + List.length [o_short (u_opt e)])%nat with (Z.to_nat c0) by (cbn; lia).
  rewrite cols_app, B1, cols_app, (cols_plain (label_of e)) by (assumption || lia).
  rewrite cols_app, (cols_plain (txt "]")) by (try (apply plain_b; reflexivity); cbn; lia).
  replace (k1 + List.length (label_of e) + List.length (txt "]"))%nat with (Z.to_nat c1) by (cbn; lia). exact Hj.
Qed.

Lemma short_fits prog t : plain prog -> (List.length prog <= 72)%nat -> Forall (fun e => one_line e /\ (List.length (label_of e) <= 71)%nat) t ->
  narrow 79 (usage_short prog t).
Proof.
  intros PP LP F. unfold usage_short. change (lenZ USAGE_LABEL) with 7.
  destruct (short_flags t (7 + lenZ prog) false) as [[s1 c1] m] eqn:E1.
  apply flags_fit in E1; [|eapply Forall_impl; [|exact F]; intros e H; apply H|unfold lenZ; lia]. destruct E1 as [E1 B1].
  destruct (if m then (txt "]", c1 + 1) else ([], c1)) as [s2 c2] eqn:E2.
  assert (A : cols (Z.to_nat c1) s2 = Some (Z.to_nat c2) /\ 0 <= c2 <= 79).
  { destruct m; injection E2 as <- <-; (split; [|lia]); [|reflexivity]. change 1 with (lenZ (txt "]")). apply cols_z; [apply plain_b; reflexivity|lia|cbn; lia]. }
  destruct A as [A B2]. destruct (args_fit t F c2 B2) as [j Hj]. apply cols_narrow with (j := O).
  rewrite app_assoc, cols_app, cols_plain; [|apply plain_app; [apply plain_b; reflexivity|exact PP]|rewrite app_length; change (List.length USAGE_LABEL) with 7%nat; lia].
  replace (0 + List.length (USAGE_LABEL ++ prog))%nat with (Z.to_nat (7 + lenZ prog)) by (rewrite app_length; change (List.length USAGE_LABEL) with 7%nat; unfold lenZ; lia).
  rewrite cols_app, E1, cols_app, A, cols_app, Hj. reflexivity.
Qed.

(** ** What the short text shows *)
Lemma blank_new : blank new_line.
Proof. split; [discriminate|]. apply Forall_forall. intros x [<-|H]; [right; reflexivity|left; apply spaces_in in H; exact H]. Qed.

Lemma args_show t e : In e t -> is_sep (u_opt e) = false -> has_arg (u_opt e) = true -> forall col,
  exists a g b, short_args t col = a ++ txt "[-" ++ [o_short (u_opt e)] ++ g ++ label_of e ++ txt "]" ++ b /\ blank g.
Proof.
  induction t as [|x t IH]; intros I S H col; [destruct I|]. cbn [short_args]. destruct I as [->|I].
  - rewrite S, H. cbn [negb orb]. cbv zeta. change (match u_label e with Some l => l | None => UNKNOWN_ARG end) with (label_of e).
    match goal with |- context [let '(s0, col0) := ?p in _] => assert (E0 : exists a c, p = (a ++ txt "[", c)) by (destruct (SCREEN_WIDTH <? col + (2 + lenZ SHORT_PREFIX + 1)); [exists new_line|exists (txt " ")]; eexists; reflexivity); destruct E0 as (a & c0 & ->) end.
    match goal with |- context [let '(s1, col0) := ?p in _] => assert (E1 : exists g c, p = (g, c) /\ blank g) by
      (match goal with |- context [?y <? ?z] => destruct (y <? z) end; eexists _, _; (split; [reflexivity|]); [apply blank_new|split; [discriminate|repeat constructor]]); destruct E1 as (g & c1 & -> & B) end.
    exists a, g, (short_args t c1). split; [|exact B]. rewrite <- !app_assoc. reflexivity.
  - specialize (IH I S H). destruct (is_sep (u_opt x) || negb (has_arg (u_opt x))); [apply IH|]. cbv zeta.
    match goal with |- context [let '(s0, col0) := ?p in _] => destruct p as [s0 c0] end.
    match goal with |- context [let '(s1, col0) := ?p in _] => destruct p as [s1 c1] end.
    destruct (IH c1) as (a & g & b & E & B). exists (s0 ++ SHORT_PREFIX ++ [o_short (u_opt x)] ++ s1 ++ match u_label x with Some l => l | None => UNKNOWN_ARG end ++ txt "]" ++ a), g, b.
    split; [|exact B]. rewrite E, <- !app_assoc. reflexivity.
Qed.

Definition in_list (T : list entry) (c : byte) (s : bytes) : Prop :=
  exists m l b, s = m ++ [c] ++ l ++ txt "]" ++ b /\ Forall (short_flag_of T) (m ++ l).
Definition in_later (T : list entry) (c : byte) (s : bytes) : Prop := exists a s', s = a ++ txt "[-" ++ s' /\ in_list T c s'.

Lemma later_pre T c a s : in_later T c s -> in_later T c (a ++ s).
Proof. intros (b & s' & -> & H). exists (a ++ b), s'. split; [rewrite app_assoc; reflexivity|exact H]. Qed.

Lemma flag_of T e : In e T -> has_arg (u_opt e) = false -> short_flag_of T (o_short (u_opt e)).
Proof. intros I H. exists e. split; [exact I|]. split; [|reflexivity]. unfold has_arg, is_flag in *. destruct (o_kind (u_opt e)); congruence. Qed.

Lemma flags_show T t : incl t T -> forall col mark s c m, short_flags t col mark = (s, c, m) ->
  (mark = true -> m = true /\ exists l b, s ++ txt "]" = l ++ txt "]" ++ b /\ Forall (short_flag_of T) l) /\
  forall e, In e t -> is_sep (u_opt e) = false -> has_arg (u_opt e) = false -> o_short (u_opt e) <> x00 ->
    m = true /\ ((mark = true /\ in_list T (o_short (u_opt e)) (s ++ txt "]")) \/ in_later T (o_short (u_opt e)) (s ++ txt "]")).
Proof.
  induction t as [|x t IH]; intros IN col mark s c m H; cbn [short_flags] in H.
  { apply pair_equal_spec in H as [H <-]. apply pair_equal_spec in H as [<- <-]. split; [|intros e []]. intros ->. split; [reflexivity|]. exists [], []. split; [reflexivity|constructor]. }
  assert (IN' : incl t T) by (intros y Hy; apply IN; right; exact Hy).
  destruct (is_sep (u_opt x) || has_arg (u_opt x) || byte_eqb (o_short (u_opt x)) x00) eqn:SK.
  - destruct (IH IN' _ _ _ _ _ H) as [A B]. split; [exact A|]. intros e [->|I] S Ha N; [|apply B; assumption]. exfalso.
    rewrite S, Ha in SK. cbn in SK. apply byte_eqb_eq in SK. contradiction.
  - cbv zeta in H. apply orb_false_iff in SK as [SK _]. apply orb_false_iff in SK as [_ Hx].
    assert (FX : short_flag_of T (o_short (u_opt x))) by (apply flag_of; [apply IN; left; reflexivity|exact Hx]).
    match type of H with context [if mark then ?a else ?b] => destruct (if mark then a else b) as [s0 c0] eqn:E0 end.
    assert (A0 : if mark then s0 = [] else exists a, s0 = a ++ txt "[-").
    { destruct mark; [apply pair_equal_spec in E0 as [<- _]; reflexivity|].
      match type of E0 with (if ?y then _ else _) = _ => destruct y end; apply pair_equal_spec in E0 as [<- _]; [exists new_line|exists (txt " ")]; reflexivity. }
    clear E0. destruct (SCREEN_WIDTH - 1 <? c0 + 1).
    + destruct (short_flags t _ true) as [[s2 c2] m2] eqn:E2. apply pair_equal_spec in H as [H <-]. apply pair_equal_spec in H as [<- <-].
      destruct (IH IN' _ _ _ _ _ E2) as [A B]. destruct (A eq_refl) as (Em & l & b & El & Fl).
      set (k := s0 ++ txt "]" ++ new_line).
      assert (EK : (s0 ++ (txt "]" ++ new_line ++ txt "[" ++ SHORT_PREFIX) ++ [o_short (u_opt x)] ++ s2) ++ txt "]" = k ++ txt "[-" ++ [o_short (u_opt x)] ++ (s2 ++ txt "]")).
      { subst k. rewrite <- !app_assoc. reflexivity. }
      split.
      { intros ->. split; [exact Em|]. subst s0. exists [], (new_line ++ txt "[-" ++ [o_short (u_opt x)] ++ s2 ++ txt "]"). split; [|constructor].
        rewrite EK. subst k. rewrite <- !app_assoc. reflexivity. }
      intros e [->|I] S Ha N.
      * split; [exact Em|]. right. rewrite EK. eexists k, _. split; [reflexivity|]. exists [], l, b. split; [|exact Fl]. rewrite El. reflexivity.
      * destruct (B e I S Ha N) as [_ [[_ (m1 & l1 & b1 & E1 & F1)]|Lt]]; (split; [exact Em|]); right; rewrite EK.
        -- eexists k, _. split; [reflexivity|]. exists (o_short (u_opt x) :: m1), l1, b1. split; [rewrite E1; reflexivity|]. constructor; [exact FX|exact F1].
        -- rewrite !app_assoc. rewrite <- (app_assoc _ s2). apply later_pre, Lt.
    + destruct (short_flags t _ true) as [[s2 c2] m2] eqn:E2. apply pair_equal_spec in H as [H <-]. apply pair_equal_spec in H as [<- <-].
      destruct (IH IN' _ _ _ _ _ E2) as [A B]. destruct (A eq_refl) as (Em & l & b & El & Fl).
      assert (EK : (s0 ++ [] ++ [o_short (u_opt x)] ++ s2) ++ txt "]" = s0 ++ [o_short (u_opt x)] ++ (s2 ++ txt "]")) by (rewrite <- !app_assoc; reflexivity).
      split.
      { intros ->. split; [exact Em|]. subst s0. exists (o_short (u_opt x) :: l), b. split; [rewrite EK, El; reflexivity|constructor; assumption]. }
      intros e I S Ha N.
      assert (K : in_list T (o_short (u_opt e)) ([o_short (u_opt x)] ++ s2 ++ txt "]") \/ in_later T (o_short (u_opt e)) (s2 ++ txt "]")).
      { destruct I as [->|I].
        - left. exists [], l, b. split; [rewrite El; reflexivity|exact Fl].
        - destruct (B e I S Ha N) as [_ [[_ (m1 & l1 & b1 & E1 & F1)]|Lt]]; [left|right; exact Lt].
          exists (o_short (u_opt x) :: m1), l1, b1. split; [rewrite E1; reflexivity|]. constructor; [exact FX|exact F1]. }
      split; [exact Em|]. rewrite EK. destruct K as [K|K].
      * destruct mark; [left; split; [reflexivity|]; subst s0; exact K|]. right. destruct A0 as [a ->]. exists a, ([o_short (u_opt x)] ++ s2 ++ txt "]"). split; [rewrite <- app_assoc; reflexivity|exact K].
      * right. rewrite app_assoc. apply later_pre, K.
Qed.

Lemma short_shows prog t e : In e t -> is_sep (u_opt e) = false -> o_short (u_opt e) <> x00 -> shown_short t (usage_short prog t) e.
Proof.
  intros I S N. unfold shown_short, usage_short. destruct (short_flags t _ false) as [[s1 c1] m] eqn:E1.
  destruct (flags_show t t (incl_refl t) _ _ _ _ _ E1) as [_ Fl].
  destruct (is_flag (u_opt e)) eqn:FE.
  - assert (Ha : has_arg (u_opt e) = false) by (unfold has_arg, is_flag in *; destruct (o_kind (u_opt e)); congruence).
    destruct (Fl e I S Ha N) as [-> [[X _]|(a & s' & E & m1 & l1 & b1 & -> & F)]]; [discriminate X|].
    exists (USAGE_LABEL ++ prog ++ a), m1, l1, (b1 ++ short_args t (c1 + 1) ++ [nl]). split; [|exact F].
    rewrite (app_assoc s1 (txt "]")), E, <- !app_assoc. reflexivity.
  - assert (Ha : has_arg (u_opt e) = true) by (unfold has_arg, is_flag in *; destruct (o_kind (u_opt e)); congruence).
    destruct (if m then (txt "]", c1 + 1) else ([], c1)) as [s2 c2].
    destruct (args_show t e I S Ha c2) as (a & g & b & E & B).
    exists (USAGE_LABEL ++ prog ++ s1 ++ s2 ++ a), g, (b ++ [nl]). split; [|exact B]. rewrite E, <- !app_assoc. reflexivity.
Qed.

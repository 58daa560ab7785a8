(** Proofs about what --argv-display prints. *)
From Coq Require Import ZArith String Lia.
From Verif Require Import Bytes Bytes_proofs Argv Usage SpecUsage Usage_proofs Messages SpecMisc Variables SpecVariables Messages3_proofs.
Import ListNotations.

(** ** Strings *)
Lemma spec_letter c l : spec_of c = Some l -> In (l, to_N c) escape_letters /\ visible [x5c; l].
Proof.
  intro H. destruct c; try discriminate H; injection H as <-; split; try (vm_compute; tauto);
    repeat constructor; vm_compute; discriminate.
Qed.
Lemma plain_char c : spec_of c = None -> (to_N c <? 128)%N && is_print c = true -> c <> x5c /\ visible [c].
Proof.
  intros H P. split; [intros ->; discriminate H|]. apply andb_true_iff in P as [_ P]. unfold is_print in P. apply andb_true_iff in P as [P1 P2].
  apply N.leb_le in P1, P2. constructor; [split; assumption|constructor].
Qed.
Lemma oct_ok n : octal_of (oct_digit n) (n mod 8).
Proof.
  unfold oct_digit, octal_of. assert (L : (n mod 8 < 8)%N) by (apply N.mod_lt; lia). split; [exact L|].
  rewrite to_N_byte_of_N. apply N.mod_small. lia.
Qed.
Lemma oct_char c : (to_N c = 64 * (N.shiftr (to_N c) 6 mod 8) + 8 * (N.shiftr (to_N c) 3 mod 8) + to_N c mod 8)%N.
Proof. destruct c; reflexivity. Qed.
Lemma oct_visible n : (32 <= to_N (oct_digit n) <= 126)%N.
Proof. destruct (oct_ok n) as [L ->]. lia. Qed.

Lemma expand_ok s : forall k, (k <= 255)%nat -> exists w p r, expand_buf BUF k s = Some w /\ visible w /\ s = p ++ r /\ reads w p /\
  (k + List.length w <= 255)%nat /\ (r = [] \/ (251 <= k + List.length w)%nat).
Proof.
  induction s as [|c s IH]; intros k K.
  { exists [], [], []. split; [reflexivity|]. split; [constructor|]. split; [reflexivity|]. split; [constructor|]. cbn. split; [lia|left; reflexivity]. }
  assert (STOP : forall P : option bytes, P = Some [] -> (251 <= k)%nat -> exists w p r, P = Some w /\ visible w /\ c :: s = p ++ r /\ reads w p /\
    (k + List.length w <= 255)%nat /\ (r = [] \/ (251 <= k + List.length w)%nat)).
  { intros P -> L. exists [], [], (c :: s). split; [reflexivity|]. split; [constructor|]. split; [reflexivity|]. split; [constructor|]. cbn. split; [lia|right; lia]. }
  assert (GO : forall v n, visible v -> (forall w q, reads w q -> reads (v ++ w) (c :: q)) -> (k + n <= 255)%nat -> (List.length v <= n)%nat ->
    exists w p r, (if in_buf BUF k n then match expand_buf BUF (k + List.length v) s with Some r => Some (v ++ r) | None => None end else None) = Some w /\
      visible w /\ c :: s = p ++ r /\ reads w p /\ (k + List.length w <= 255)%nat /\ (r = [] \/ (251 <= k + List.length w)%nat)).
  { intros v n V R L LV. unfold in_buf. replace (k + n <=? BUF)%nat with true by (symmetry; apply Nat.leb_le; unfold BUF; lia).
    destruct (IH (k + List.length v)%nat) as (w & p & r & E & Vw & -> & Rw & Lw & Cw); [lia|].
    exists (v ++ w), (c :: p), r. rewrite E. split; [reflexivity|]. split; [apply Forall_app; split; assumption|]. split; [reflexivity|].
    split; [apply R, Rw|]. rewrite app_length. split; [lia|]. destruct Cw as [Cw|Cw]; [left; exact Cw|right; lia]. }
  cbn [expand_buf]. destruct (spec_of c) as [l|] eqn:S0.
  - destruct (spec_letter c l S0) as [I V]. destruct (BUF <=? k + 3)%nat eqn:B.
    + apply Nat.leb_le in B. unfold BUF in B. apply STOP; [reflexivity|lia].
    + apply Nat.leb_gt in B. unfold BUF in B. apply (GO [x5c; l] 3%nat); [exact V| |lia|cbn; lia].
      intros w q H. apply reads_letter; assumption.
  - destruct ((to_N c <? 128)%N && is_print c) eqn:P.
    + destruct (plain_char c S0 P) as [N V]. destruct (BUF <=? k + 1)%nat eqn:B.
      * apply Nat.leb_le in B. unfold BUF in B. apply STOP; [reflexivity|lia].
      * apply Nat.leb_gt in B. unfold BUF in B. apply (GO [c] 1%nat); [exact V| |lia|cbn; lia].
        intros w q H. apply reads_plain; assumption.
    + destruct (BUF <=? k + 5)%nat eqn:B.
      * apply Nat.leb_le in B. unfold BUF in B. apply STOP; [reflexivity|lia].
      * apply Nat.leb_gt in B. unfold BUF in B.
        apply (GO [x5c; oct_digit (N.shiftr (to_N c) 6); oct_digit (N.shiftr (to_N c) 3); oct_digit (to_N c)] 5%nat); [| |lia|cbn; lia].
        -- constructor; [vm_compute; split; discriminate|]. repeat (constructor; [apply oct_visible|]). constructor.
        -- intros w q H. eapply reads_octal; [apply oct_ok|apply oct_ok|apply oct_ok|apply oct_char|exact H].
Qed.
Lemma string_shown s : exists w, value_to_string (V_str (Some s)) = Some w /\ shows_string s w.
Proof.
  destruct (expand_ok s 0) as (w & p & r & E & V & -> & R & L & C); [lia|]. exists w. split; [exact E|]. split; [exact V|].
  exists p, r. split; [reflexivity|]. split; [exact R|]. cbn [Nat.add] in *. destruct C as [C|C]; [left; exact C|right; lia].
Qed.

(** What is shown tells the string. *)
Lemma letters_code l n m : In (l, n) escape_letters -> In (l, m) escape_letters -> n = m.
Proof.
  cbn [escape_letters In]. intros H1 H2.
  repeat (destruct H1 as [H1|H1]; [injection H1 as <- <-; repeat (destruct H2 as [H2|H2]; [first [discriminate H2|injection H2 as <-; reflexivity]|]); destruct H2|]). destruct H1.
Qed.
Lemma letters_no_digit l n m : In (l, n) escape_letters -> octal_of l m -> False.
Proof.
  intros H1 [L E]. assert (A : forallb (fun p => (to_N (fst p) <? 48)%N || (55 <? to_N (fst p))%N) escape_letters = true) by reflexivity.
  rewrite forallb_forall in A. specialize (A _ H1). cbn [fst] in A. apply orb_true_iff in A as [A|A]; apply N.ltb_lt in A; lia.
Qed.
Lemma to_N_inj a b : to_N a = to_N b -> a = b.
Proof. intro H. apply byte_eqb_eq. unfold byte_eqb. apply N.eqb_eq, H. Qed.
Lemma reads_one w s1 : reads w s1 -> forall s2, reads w s2 -> s1 = s2.
Proof.
  induction 1 as [|c w s N R IH|l c w s I0 R IH|d1 d2 d3 n1 n2 n3 c w s O1 O2 O3 E R IH]; intros s2 H2.
  - inversion H2. reflexivity.
  - inversion H2; subst; [f_equal; apply IH; assumption|congruence|congruence].
  - inversion H2; subst; [congruence| |].
    + f_equal; [|apply IH; assumption]. apply to_N_inj. eapply letters_code; eassumption.
    + exfalso. eapply letters_no_digit; eassumption.
  - inversion H2; subst; [congruence| |].
    + exfalso. eapply letters_no_digit; eassumption.
    + f_equal; [|apply IH; assumption]. apply to_N_inj.
      repeat match goal with H : octal_of _ _ |- _ => destruct H end. lia.
Qed.

(** ** Values and lines *)
Lemma number_shown z : shows_number z (show_int z).
Proof. exists (dec (Z.abs_N z)). split; [apply dec_numeral|reflexivity]. Qed.

Lemma entries_shown l : l <> [] -> exists w, entries true l = Some w /\ shows_value (V_arr l) w.
Proof.
  intro N. assert (G : forall l b, l <> [] -> exists w, entries b l = Some ((if b then [] else txt ",") ++ w) /\ shows_value (V_arr l) w).
  { clear. induction l as [|s l IH]; intros b N; [congruence|]. destruct (string_shown s) as (w & E & S0). cbn [entries]. rewrite E. destruct l as [|s' l].
    - exists w. split; [|constructor; exact S0]. cbn [entries]. rewrite app_nil_r. reflexivity.
    - destruct (IH false) as (w' & E' & S'); [discriminate|]. rewrite E'. exists (w ++ txt "," ++ w'). split; [reflexivity|].
      apply shows_more; [discriminate|exact S0|exact S']. }
  destruct (G l true N) as (w & E & S0). exists w. split; [exact E|exact S0].
Qed.
Lemma value_shown v : exists w, show_value v = Some w /\ shows_value v w.
Proof.
  destruct v as [b|z|s|l]; cbn [show_value].
  - destruct b; (eexists; split; [reflexivity|constructor]).
  - eexists. split; [reflexivity|]. constructor. apply number_shown.
  - destruct s as [s|]; [|eexists; split; [reflexivity|constructor]].
    destruct (string_shown s) as (w & E & S0). exists w. split; [exact E|]. constructor. exact S0.
  - destruct l as [|s l]; [eexists; split; [reflexivity|constructor]|]. apply entries_shown. discriminate.
Qed.

Local Open Scope Z_scope.
Lemma type_part o : o_kind o <> K_none -> exists n more col,
  type_name (o_kind o) = Some n /\ kind_text o = n ++ more /\ (if o_array o then (ARRAY_LABEL, lenZ ARRAY_LABEL) else ([], 0)) = (more, lenZ more) /\
  lenZ n <= 9 /\ lenZ more <= 6 /\ col = lenZ n + lenZ more.
Proof.
  intro K. unfold kind_text. destruct (o_kind o); [| | | |congruence]; destruct (o_array o);
    (do 3 eexists; split; [reflexivity|split; [reflexivity|split; [reflexivity|split; [vm_compute; discriminate|split; [vm_compute; discriminate|reflexivity]]]]]).
Qed.
Lemma line_shown e v x : has_room e -> show_value v = Some x -> variable_line e v = Some (var_row e x).
Proof.
  intros [K R] X. unfold variable_line, var_row. rewrite X.
  destruct (type_part (u_opt e) K) as (n & more & _ & Tn & Kt & Ar & Ln & Lm & _).
  assert (F : exists f c, (if byte_eqb (o_short (u_opt e)) x00 then
      match o_long (u_opt e) with
      | None => ([], 0)
      | Some n => let len := COMMENT_COLUMN - (lenZ LONG_PREFIX + 1) in
                  (LONG_PREFIX ++ cut len n, lenZ LONG_PREFIX + Z.min len (lenZ n))
      end
    else display_option e 0) = (f, c) /\ c = lenZ f /\ c <= 18 /\
    f = if bare e then txt "--" ++ opt_text (o_long (u_opt e)) else txt "[-" ++ [o_short (u_opt e)] ++ value_text e ++ txt "]").
  { unfold bare in *. destruct (byte_eqb (o_short (u_opt e)) x00) eqn:B.
    - destruct R as [L N]. destruct (o_long (u_opt e)) as [m|]; [|congruence]. cbn [opt_text] in *.
      change (COMMENT_COLUMN - (lenZ LONG_PREFIX + 1)) with 31. change LONG_PREFIX with (txt "--"). change (lenZ (txt "--")) with 2.
      assert (LM : lenZ m <= 16) by (unfold lenZ; lia). exists (txt "--" ++ m), (2 + lenZ m). cbv zeta. rewrite cut_all by lia. rewrite Z.min_r by lia.
      split; [reflexivity|]. split; [rewrite lenZ_app; reflexivity|]. split; [lia|reflexivity].
    - pose proof (shows_option e (or_intror K) R) as S0. rewrite S0. do 2 eexists. split; [reflexivity|].
      assert (LV : lenZ (value_text e) <= 14) by (unfold lenZ; lia).
      split; [|split; [lia|reflexivity]]. rewrite !lenZ_app. change (lenZ (txt "[-")) with 2. change (lenZ [o_short (u_opt e)]) with 1. change (lenZ (txt "]")) with 1. lia. }
  destruct F as (f & c & EF & C & LC & EV).
  match goal with |- _ = Some (pad 18 ?Y ++ _) => replace Y with f by exact EV end.
  match goal with |- match ?X with pair _ _ => _ end = _ => replace X with (f, c) by (symmetry; exact EF) end. cbv beta iota zeta. rewrite Tn. change LONG_COLUMN with 18. change COMMENT_COLUMN with 34.
  assert (G : exists g, (if c <? 18 then (spaces (18 - c), 18) else ([], c)) = (g, 18) /\ f ++ g = pad 18 f).
  { destruct (c <? 18) eqn:B.
    - apply Z.ltb_lt in B. eexists. split; [reflexivity|]. apply spaces_pad; [lia|]. unfold lenZ in C. lia.
    - apply Z.ltb_ge in B. exists []. split; [f_equal; lia|]. rewrite app_nil_r. symmetry. apply pad_none. unfold lenZ in C. lia. }
  destruct G as (g & EG & G).
  match goal with |- match ?X with pair _ _ => _ end = _ => replace X with (g, 18) by (symmetry; exact EG) end. cbv beta iota zeta. match goal with |- context [match ?X with pair _ _ => _ end] => match X with (if o_array _ then _ else _) => replace X with (more, lenZ more) by (symmetry; exact Ar) end end. cbv beta iota zeta.
  change (34 - 18 - 1) with 15. rewrite cut_all by lia. rewrite Z.min_r by lia.
  f_equal. rewrite <- G, <- !app_assoc. f_equal. f_equal. rewrite Kt.
  assert (Q : ([sp] ++ n ++ more) ++ (if 18 + lenZ n + lenZ more <? 34 then spaces (34 - (18 + lenZ n + lenZ more)) else []) = pad 17 (txt " " ++ n ++ more)).
  { destruct (18 + lenZ n + lenZ more <? 34) eqn:B; [|apply Z.ltb_ge in B; lia]. apply Z.ltb_lt in B.
    change (txt " ") with [sp]. apply spaces_pad; [lia|]. rewrite !app_length. unfold lenZ in *. cbn [List.length]. lia. }
  rewrite <- Q, <- !app_assoc. reflexivity.
Qed.

Lemma table_shown t : forall vals, List.length vals = List.length t -> Forall (fun e => is_sep (u_opt e) = false -> has_room e) t ->
  exists w, display_variables t vals = Some w /\ shows_table t vals w.
Proof.
  induction t as [|e t IH]; intros vals L F.
  - destruct vals; [|discriminate L]. exists []. split; [reflexivity|constructor].
  - destruct vals as [|v vals]; [discriminate L|]. injection L as L. inversion F as [|? ? F1 F2]; subst. destruct (IH vals L F2) as (w & E & S0).
    cbn [display_variables]. rewrite E. destruct (is_sep (u_opt e)) eqn:B.
    + exists w. split; [reflexivity|]. apply shows_sep; assumption.
    + destruct (value_shown v) as (x & X & SX). rewrite (line_shown e v x (F1 eq_refl) X). eexists. split; [reflexivity|]. apply shows_line; assumption.
Qed.

Lemma display_safe t : forall vals, display_variables t vals <> None.
Proof.
  induction t as [|e t IH]; intro vals; [discriminate|]. destruct vals as [|v vals]; [discriminate|]. cbn [display_variables].
  specialize (IH vals). destruct (display_variables t vals) as [b|]; [|congruence]. destruct (is_sep (u_opt e)); [discriminate|].
  destruct (value_shown v) as (x & X & _). unfold variable_line. rewrite X.
  repeat match goal with |- context [let '(_, _) := ?p in _] => destruct p end. discriminate.
Qed.

(** Proofs about the command line parser: what a good command line means. *)
From Coq Require Import ZArith String Lia.
From Verif Require Import Bytes Bytes_proofs Control Misc Misc_proofs Capture Startup Argv SpecArgv Argv_proofs.
Import ListNotations.
Local Open Scope N_scope.

Lemma nth_error_ext {A} (l m : list A) : (forall i, nth_error l i = nth_error m i) -> l = m.
Proof.
  revert m. induction l as [|x l IH]; intros [|y m] H; [reflexivity|specialize (H O); discriminate..|].
  pose proof (H O) as E. cbn in E. injection E as ->. f_equal. apply IH. intro i. exact (H (S i)).
Qed.

(** ** Counting and values *)
Lemma times_app i l m : times i (l ++ m) = times i l + times i m.
Proof.
  induction l as [|[j v] l IH]; [reflexivity|]. cbn [app times]. rewrite IH. destruct (Nat.eqb i j); lia.
Qed.
Lemma values_app i l m : values i (l ++ m) = values i l ++ values i m.
Proof.
  induction l as [|[j [v|]] l IH]; [reflexivity| |]; cbn [app values]; rewrite IH; [|reflexivity].
  destruct (Nat.eqb i j); reflexivity.
Qed.
Lemma last_of_snoc l v : last_of (l ++ [v]) = Some v.
Proof.
  induction l as [|x l IH]; [reflexivity|]. cbn [app last_of]. destruct (l ++ [v]) as [|y r] eqn:E; [destruct l; discriminate|exact IH].
Qed.
Lemma times_pos i l : 0 < times i l <-> mentioned i l.
Proof.
  unfold mentioned. induction l as [|[j v] l IH]; cbn [times].
  - split; [lia|intros [v []]].
  - destruct (Nat.eqb_spec i j) as [<-|NE].
    + split; [intros _; exists v; left; reflexivity|lia].
    + rewrite IH. split; intros [w I]; exists w; [right; exact I|]. destruct I as [E|I]; [congruence|exact I].
Qed.
Lemma to_int_step z : to_int (to_int z + 1) = to_int (z + 1).
Proof.
  unfold to_int. f_equal. set (m := (2 ^ 32)%Z). set (h := (2 ^ 31)%Z).
  replace ((z + h) mod m - h + 1 + h)%Z with ((z + h) mod m + 1)%Z by lia.
  rewrite Z.add_mod_idemp_l by discriminate. f_equal. lia.
Qed.

Definition typed (g : grid) (x : nat * option bytes) : Prop :=
  is_flag g (fst x) /\ snd x = None \/ is_valued g (fst x) /\ snd x <> None.
Lemma proper_typed g x : proper g x -> Forall (typed g) (sets x).
Proof.
  assert (FL : forall fl, Forall (fun i => is_flag g i /\ has_letter g i) fl -> Forall (typed g) (map (fun i => (i, None)) fl)).
  { induction 1 as [|i fl [F _] _ IH]; constructor; [left; split; [exact F|reflexivity]|exact IH]. }
  assert (V1 : forall i v, is_valued g i -> Forall (typed g) [(i, Some v)]).
  { intros i v V. constructor; [|constructor]. right. split; [exact V|discriminate]. }
  destruct x; cbn [proper sets].
  - intros [_ F]. apply FL. exact F.
  - intros (F & V & _). apply Forall_app. split; [apply FL; exact F|apply V1; exact V].
  - intros (V & _). apply V1. exact V.
  - intros (F & _). constructor; [|constructor]. left. split; [exact F|reflexivity].
  - intros (V & _). apply V1. exact V.
  - intros (V & _). apply V1. exact V.
Qed.
Lemma all_typed g l : Forall (proper g) l -> Forall (typed g) (all_sets l).
Proof.
  induction 1 as [|x l P _ IH]; [constructor|]. unfold all_sets. cbn [flat_map]. apply Forall_app. split; [apply proper_typed; exact P|exact IH].
Qed.

Lemma meant_other o j l i v : j <> i -> meant o j (l ++ [(i, v)]) = meant o j l.
Proof.
  intro NE. unfold meant. rewrite times_app, values_app.
  assert (T : times j [(i, v)] = 0) by (cbn; rewrite (proj2 (Nat.eqb_neq _ _) NE); reflexivity).
  assert (V : values j [(i, v)] = []) by (cbn; destruct v; [rewrite (proj2 (Nat.eqb_neq _ _) NE)|]; reflexivity).
  rewrite T, V, N.add_0_r, app_nil_r. reflexivity.
Qed.
Lemma meant_same g o i l v : nth_error g i = Some o -> typed g (i, v) ->
  string_to_value (o_kind o) (o_array o) v (meant o i l) = Some (meant o i (l ++ [(i, v)])).
Proof.
  intros N T. unfold meant. rewrite times_app, values_app.
  assert (TT : times i [(i, v)] = 1) by (cbn; rewrite Nat.eqb_refl; reflexivity). rewrite TT.
  destruct T as [[(o' & N' & K) V]|[(o' & N' & K) V]]; cbn [fst snd] in *; rewrite N in N'; injection N' as <-.
  - subst v. destruct K as [K|K]; rewrite K; cbn [string_to_value]; f_equal.
    + f_equal. symmetry. apply N.ltb_lt. lia.
    + f_equal. rewrite to_int_step. f_equal. lia.
  - destruct v as [v|]; [|congruence]. assert (VV : values i [(i, Some v)] = [v]) by (cbn; rewrite Nat.eqb_refl; reflexivity).
    rewrite VV. destruct K as [K|K]; rewrite K; cbn [string_to_value]; f_equal.
    + destruct (o_array o); [reflexivity|]. rewrite last_of_snoc. reflexivity.
    + rewrite last_of_snoc. reflexivity.
Qed.

Lemma meant_from_nth g l : forall k j, nth_error (meant_from g k l) j = option_map (fun o => meant o (k + j) l) (nth_error g j).
Proof.
  induction g as [|o g IH]; intros k [|j]; cbn [meant_from nth_error option_map]; [reflexivity..| |].
  - f_equal. f_equal. lia.
  - rewrite IH. destruct (nth_error g j); [|reflexivity]. cbn [option_map]. do 2 f_equal. lia.
Qed.
Lemma meant_from_start g : forall k, meant_from g k [] = map zero g.
Proof.
  induction g as [|o g IH]; intro k; [reflexivity|]. cbn [meant_from map]. rewrite IH. reflexivity.
Qed.

Definition line (g : grid) (l : list (nat * option bytes)) : astate := fold_left (fun s x => give g x s) l (start g).
Lemma line_snoc g l x : line g (l ++ [x]) = give g x (line g l).
Proof. unfold line. rewrite fold_left_app. reflexivity. Qed.
Definition used_list (g : grid) (l : list (nat * option bytes)) : list bool := map (fun i => 0 <? times i l) (seq 0 (List.length g)).

Lemma nth_error_seq n : forall k j, nth_error (seq k n) j = if Nat.ltb j n then Some (k + j)%nat else None.
Proof.
  induction n as [|n IH]; intros k [|j]; cbn [seq nth_error]; try reflexivity.
  - rewrite Nat.add_0_r. reflexivity.
  - rewrite IH. change (Nat.ltb (S j) (S n)) with (Nat.ltb j n). destruct (Nat.ltb j n); [f_equal; lia|reflexivity].
Qed.
Lemma used_list_nth g l j : nth_error (used_list g l) j = if Nat.ltb j (List.length g) then Some (0 <? times j l) else None.
Proof.
  unfold used_list. rewrite nth_error_map, nth_error_seq. destruct (Nat.ltb j (List.length g)); reflexivity.
Qed.
Lemma typed_nth g x : typed g x -> exists o, nth_error g (fst x) = Some o.
Proof. intros [[(o & N & _) _]|[(o & N & _) _]]; eauto. Qed.

Lemma give_typed g x s old o v : nth_error g (fst x) = Some o -> nth_error (s_vals s) (fst x) = Some old ->
  string_to_value (o_kind o) (o_array o) (snd x) old = Some v ->
  s_vals (give g x s) = set_nth (fst x) v (s_vals s) /\ s_ok (give g x s) = s_ok (mark g (fst x) s).
Proof.
  intros N O V. unfold give, store. rewrite N. change (s_vals (mark g (fst x) s)) with (s_vals s). rewrite O, V. split; reflexivity.
Qed.
Lemma give_used g x s : s_used (give g x s) = set_nth (fst x) true (s_used s).
Proof. unfold give. destruct (store_fields g (fst x) (snd x) (mark g (fst x) s)) as (_ & _ & -> & _). reflexivity. Qed.

Lemma line_vals g l : Forall (typed g) l -> s_vals (line g l) = meant_from g 0 l /\ s_used (line g l) = used_list g l.
Proof.
  induction l as [|x l IH] using rev_ind; intro F.
  - split; [symmetry; apply meant_from_start|]. cbn. unfold used_list. cbn [times]. clear F. generalize O.
    induction g as [|o g IH]; intro k; [reflexivity|]. cbn [map List.length seq]. rewrite <- IH. reflexivity.
  - apply Forall_app in F as [F FX]. destruct (IH F) as [V U]. clear IH. apply Forall_inv in FX.
    destruct (typed_nth g x FX) as [o N]. destruct x as [i v]. cbn [fst] in N.
    assert (LT : (i < List.length g)%nat) by (apply nth_error_Some; congruence).
    rewrite line_snoc.
    assert (O : nth_error (s_vals (line g l)) i = Some (meant o i l)).
    { rewrite V, meant_from_nth, N. reflexivity. }
    destruct (give_typed g (i, v) (line g l) _ o _ N O (meant_same g o i l v N FX)) as [EV _]. split.
    + rewrite EV. cbn [fst]. apply nth_error_ext. intro j. rewrite meant_from_nth. cbn [Nat.add].
      destruct (Nat.eq_dec i j) as [<-|NE].
      * rewrite N. cbn [option_map]. apply set_nth_same. rewrite V.
        apply nth_error_Some. rewrite meant_from_nth, N. discriminate.
      * rewrite set_nth_other by exact NE. rewrite V, meant_from_nth. cbn [Nat.add]. destruct (nth_error g j); [|reflexivity].
        cbn [option_map]. rewrite meant_other by congruence. reflexivity.
    + rewrite give_used. cbn [fst]. apply nth_error_ext. intro j. rewrite used_list_nth, times_app.
      destruct (Nat.eq_dec i j) as [<-|NE].
      * rewrite set_nth_same by (rewrite U; unfold used_list; rewrite map_length, seq_length; exact LT).
        rewrite (proj2 (Nat.ltb_lt _ _) LT). cbn [times]. rewrite Nat.eqb_refl. f_equal. symmetry. apply N.ltb_lt. lia.
      * rewrite set_nth_other by exact NE. rewrite U, used_list_nth. cbn [times].
        rewrite (proj2 (Nat.eqb_neq j i)) by congruence. rewrite N.add_0_r. reflexivity.
Qed.

(** ** The whole command line *)
Lemma do_list_unfold g cap files fuel args s : do_list g cap files fuel args s =
  do_list_with g cap (fun path s => match fuel with O => A_deep | S f => match files path with None => A_exit 1 | Some content => do_list g cap files f (file_lines content) s end end) false args s.
Proof. destruct fuel; reflexivity. Qed.

Lemma process_line g files fuel es gs : good_grid g -> Forall (proper g) es -> Forall (proper g) gs ->
  let l := all_sets (es ++ gs) in let s := line g l in
  argv_process g files fuel (flat_map (words g) es) (flat_map (words g) gs) =
  if s_ok s && check_mand g (used_list g l) && check_xor g (used_list g l) false None
  then Parsed (meaning g (es ++ gs)) (s_past s) else Exited 1.
Proof.
  intros G FE FG l s. unfold argv_process. rewrite do_list_unfold.
  set (cap := (1 + List.length (flat_map (words g) gs) + List.length (flat_map (words g) es))%nat).
  destruct (line_run g cap (fun path s => match fuel with O => A_deep | S f => match files path with None => A_exit 1 | Some content => do_list g cap files f (file_lines content) s end end)
              G es (start g) FE eq_refl) as (s1 & E1 & Q1 & H1 & N1); [unfold cap; cbn [s_head start]; lia|].
  rewrite E1. rewrite do_list_unfold. cbn [s_head start] in H1.
  destruct (line_run g cap (fun path s => match fuel with O => A_deep | S f => match files path with None => A_exit 1 | Some content => do_list g cap files f (file_lines content) s end end)
              G gs s1 FG Q1) as (s2 & E2 & Q2 & H2 & N2); [unfold cap; lia|].
  rewrite E2, Q2.
  assert (NS : norm s2 = s).
  { unfold s, l, line, all_sets. rewrite N2, N1, flat_map_app, fold_left_app. reflexivity. }
  assert (T : Forall (typed g) l) by (apply all_typed; apply Forall_app; split; assumption).
  destruct (line_vals g l T) as [V U].
  replace (s_ok s2) with (s_ok s) by (rewrite <- NS; reflexivity).
  replace (s_used s2) with (used_list g l) by (rewrite <- U; fold s; rewrite <- NS; reflexivity).
  replace (s_vals s2) with (meaning g (es ++ gs)) by (unfold meaning; fold l; rewrite <- V; fold s; rewrite <- NS; reflexivity).
  replace (s_past s2) with (s_past s) by (rewrite <- NS; reflexivity).
  rewrite Bool.andb_true_r. reflexivity.
Qed.

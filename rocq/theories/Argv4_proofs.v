(** Proofs about the command line parser: any arguments whatever. *)
From Coq Require Import ZArith String Lia.
From Verif Require Import Bytes Bytes_proofs Control Misc Misc_proofs Capture Startup Argv SpecArgv Argv_proofs Argv2_proofs Argv3_proofs.
Import ListNotations.
Local Open Scope N_scope.

(** ** An invariant of the parser *)
Definition pop (s : astate) (q : list (option nat)) : astate := mk_astate (s_vals s) (s_used s) q (s_head s) (s_ok s) (s_past s).
Definition push (x : option nat) (s : astate) : astate :=
  mk_astate (s_vals s) (s_used s) (s_queue s ++ [x]) (S (s_head s)) (s_ok s) (s_past s).
Record kept (g : grid) (P : astate -> Prop) : Prop := {
  k_bad : forall s, P s -> P (bad s);
  k_give : forall s i v, P s -> (i < List.length g)%nat -> P (store g i v (mark g i s));
  k_wait : forall s i, P s -> (i < List.length g)%nat -> P (push (Some i) (mark g i s));
  k_file : forall s, P s -> P (push None s);
  k_value : forall s i q v, P s -> s_queue s = Some i :: q -> P (store g i (Some v) (pop s q));
  k_read : forall s q, P s -> s_queue s = None :: q -> P (pop s q) }.

Section Kept.
Variable g : grid.
Variable P : astate -> Prop.
Hypothesis K : kept g P.
Definition goes (x : ares) : Prop := match x with A_go s => P s | _ => True end.

Lemma do_arg_kept cap i close s : (i < List.length g)%nat -> P s -> goes (do_arg g cap i close s).
Proof.
  intros L H. unfold do_arg. destruct close as [v|]; [apply (k_give g P K); assumption|].
  destruct (nth_error g i) as [o|] eqn:N; [|exfalso; apply nth_error_Some in L; congruence].
  destruct (has_arg (o_kind o)); [|apply (k_give g P K); assumption].
  unfold enqueue. destruct (_ <? _)%nat; [|exact I]. apply (k_wait g P K); assumption.
Qed.
Lemma find_short_lt c k : find_short g 0 c = Some k -> (k < List.length g)%nat.
Proof. intro H. destruct (find_short_some g c k H) as (o & N & _). apply nth_error_Some. congruence. Qed.
Lemma short_kept cap whole close : forall cs first s, P s -> goes (short_chars g cap whole first cs close s).
Proof.
  induction cs as [|c cs IH]; intros first s H; cbn [short_chars]; [exact H|].
  destruct (find_short g 0 c) as [i|] eqn:F.
  - pose proof (do_arg_kept cap i close s (find_short_lt c i F) H) as D. destruct (do_arg g cap i close s); try exact I. apply IH. exact D.
  - destruct (byte_eqb c x3f); [exact I|].
    assert (B : goes (short_chars g cap whole false cs close (bad s))) by (apply IH; apply (k_bad g P K); exact H).
    destruct (first && is_number whole).
    2:{ exact B. }
    destruct (s_queue s) as [|[i|] q] eqn:Q; [exact B| |exact I].
    destruct (nth_error g i) as [o|]; [|exact B]. destruct (o_kind o); try exact B.
    apply (k_value g P K s i q whole H Q).
Qed.
Lemma long_kept cap fa name close s : (forall p s, P s -> goes (fa p s)) -> P s -> goes (long_option g cap fa name close s).
Proof.
  intros FA H. pose proof (k_bad g P K s H) as B. unfold long_option. destruct name as [|b name]; [exact B|].
  destruct (long_matches g 0 (b :: name)) as [|i [|j m]] eqn:M; [|apply do_arg_kept; [|exact H]|exact B].
  - destruct (is_prefix _ _); [|destruct (special _); [exact I|exact B]]. destruct close as [p|]; [apply FA; exact H|].
    unfold enqueue. destruct (_ <? _)%nat; [|exact I]. apply (k_file g P K). exact H.
  - destruct (long_matches_valid (b :: name) g 0 i) as (j & o & -> & N); [rewrite M; left; reflexivity|].
    cbn [Nat.add]. apply nth_error_Some. congruence.
Qed.
Lemma plain_kept fa v s : (forall p s, P s -> goes (fa p s)) -> P s -> goes (plain_arg g fa v s).
Proof.
  intros FA H. unfold plain_arg. destruct (s_queue s) as [|[i|] q] eqn:Q; [apply (k_bad g P K); exact H| |].
  - apply (k_value g P K s i q v H Q).
  - apply FA. apply (k_read g P K s q H Q).
Qed.
Lemma arg1_kept cap fa a s : (forall p s, P s -> goes (fa p s)) -> P s -> goes (arg1 g cap fa a s).
Proof.
  intros FA H. unfold arg1. destruct (is_prefix (txt "--") a).
  - destruct (split_eq a) as [p close]. apply long_kept; assumption.
  - destruct (is_prefix (txt "-") a && negb (lenN a =? 1)); [|apply plain_kept; assumption].
    destruct (split_eq a) as [p close]. destruct (skipn 1 p) as [|c cs]; [apply (k_bad g P K); exact H|apply short_kept; exact H].
Qed.
Lemma list_kept cap fa : (forall p s, P s -> goes (fa p s)) -> forall args last s, P s -> goes (do_list_with g cap fa last args s).
Proof.
  intros FA. induction args as [|a args IH]; intros last s H; cbn [do_list_with]; [exact H|].
  destruct (bytes_eqb a (txt "--") && negb last); [apply IH; exact H|].
  assert (X : goes (if last then plain_arg g fa a s else arg1 g cap fa a s)).
  { destruct last; [apply plain_kept|apply arg1_kept]; assumption. }
  destruct (if last then plain_arg g fa a s else arg1 g cap fa a s); try exact I. apply IH. exact X.
Qed.
Lemma do_list_kept cap files : forall fuel args s, P s -> goes (do_list g cap files fuel args s).
Proof.
  induction fuel as [|f IH]; intros args s H; rewrite do_list_unfold; apply list_kept; try exact H; intros p s' H'; [exact I|].
  destruct (files p); [apply IH; exact H'|exact I].
Qed.
End Kept.

Lemma process_kept g P files fuel env args v past : kept g P -> P (start g) ->
  argv_process g files fuel env args = Parsed v past ->
  exists s, P s /\ s_vals s = v /\ s_past s = past /\ s_ok s = true /\ s_queue s = [] /\
    check_mand g (s_used s) = true /\ check_xor g (s_used s) false None = true.
Proof.
  intros K H0. unfold argv_process. set (cap := (_ + _ + _)%nat).
  pose proof (do_list_kept g P K cap files fuel env (start g) H0) as H1.
  destruct (do_list g cap files fuel env (start g)) as [s1| | |]; try discriminate.
  pose proof (do_list_kept g P K cap files fuel args s1 H1) as H2.
  destruct (do_list g cap files fuel args s1) as [s2| | |]; try discriminate. cbn [goes] in H2.
  destruct (s_ok s2) eqn:O; cbn [andb]; [|discriminate]. destruct (check_mand g (s_used s2)) eqn:M; cbn [andb]; [|discriminate].
  destruct (s_queue s2) eqn:Q; cbn [andb]; [|discriminate]. destruct (check_xor g (s_used s2) false None) eqn:X; [|discriminate].
  intro E. injection E as <- <-. exists s2. repeat split; assumption.
Qed.

(** ** Options and their variables *)
Definition fits (o : opt) (v : value) : Prop :=
  match o_kind o, v with
  | K_bool, V_bool _ => True
  | K_incr, V_int _ => True
  | K_int, V_int _ => True
  | K_none, _ => True
  | K_str, V_str _ => o_array o = false
  | K_str, V_arr _ => o_array o = true
  | _, _ => False
  end.
Definition is_set (v : value) : Prop := match v with V_str None | V_arr [] => False | _ => True end.
Record sound (g : grid) (s : astate) : Prop := {
  sd_vals : List.length (s_vals s) = List.length g;
  sd_used : List.length (s_used s) = List.length g;
  sd_fits : forall i o v, nth_error g i = Some o -> nth_error (s_vals s) i = Some v -> fits o v;
  sd_set : forall i o v, nth_error g i = Some o -> o_kind o = K_str -> used s i = true -> nth_error (s_vals s) i = Some v ->
    In (Some i) (s_queue s) \/ is_set v;
  sd_back : forall i o v, nth_error g i = Some o -> o_kind o = K_str -> nth_error (s_vals s) i = Some v -> is_set v -> used s i = true;
  sd_wait : forall i, In (Some i) (s_queue s) -> (i < List.length g)%nat /\ used s i = true }.

Lemma stv_fits o arg old v : string_to_value (o_kind o) (o_array o) arg old = Some v -> fits o v /\ (o_kind o = K_str -> is_set v).
Proof.
  unfold fits. destruct (o_kind o); cbn [string_to_value]; intro E; try (injection E as <-); try discriminate; try (split; [exact I|discriminate]).
  destruct (o_array o); (split; [reflexivity|]); intros _; destruct old as [| | |[|x l]]; exact I.
Qed.
Lemma store_cases g i arg s o : List.length (s_vals s) = List.length g -> nth_error g i = Some o ->
  (exists v, store g i arg s = mk_astate (set_nth i v (s_vals s)) (s_used s) (s_queue s) (s_head s) (s_ok s) (s_past s) /\
     fits o v /\ (o_kind o = K_str -> is_set v)) \/ (store g i arg s = bad s /\ o_kind o = K_none).
Proof.
  intros L N. unfold store. rewrite N. destruct (nth_error (s_vals s) i) as [old|] eqn:O.
  - destruct (string_to_value (o_kind o) (o_array o) arg old) as [v|] eqn:V.
    + left. exists v. split; [reflexivity|]. exact (stv_fits o arg old v V).
    + right. split; [reflexivity|]. destruct (o_kind o); try discriminate. reflexivity.
  - exfalso. apply nth_error_None in O. assert (i < List.length g)%nat by (apply nth_error_Some; congruence). lia.
Qed.
Lemma used_mark g i s : List.length (s_used s) = List.length g -> (i < List.length g)%nat ->
  forall j, used (mark g i s) j = if Nat.eqb i j then true else used s j.
Proof.
  intros U L j. unfold used. cbn [s_used mark]. rewrite set_nth_nth, U, (proj2 (Nat.ltb_lt _ _) L). reflexivity.
Qed.

(** Putting a value into the variable of an option that is used. *)
Lemma store_sound g i arg s : sound g s -> (i < List.length g)%nat -> used s i = true -> sound g (store g i arg s).
Proof.
  intros S L U. destruct (nth_error g i) as [o|] eqn:N; [|apply nth_error_None in N; lia].
  destruct (store_cases g i arg s o (sd_vals g s S) N) as [(v & -> & F & IS)|[-> _]].
  - constructor; cbn [s_vals s_used s_queue].
    + rewrite set_nth_length. apply (sd_vals g s S).
    + apply (sd_used g s S).
    + intros j o' w N' V'. destruct (Nat.eq_dec i j) as [<-|NE].
      * rewrite set_nth_same in V' by (rewrite (sd_vals g s S); exact L). injection V' as <-. rewrite N in N'. injection N' as <-. exact F.
      * rewrite set_nth_other in V' by exact NE. exact (sd_fits g s S j o' w N' V').
    + intros j o' w N' K' U' V'. destruct (Nat.eq_dec i j) as [<-|NE].
      * rewrite set_nth_same in V' by (rewrite (sd_vals g s S); exact L). injection V' as <-. rewrite N in N'. injection N' as <-. right. exact (IS K').
      * rewrite set_nth_other in V' by exact NE. exact (sd_set g s S j o' w N' K' U' V').
    + intros j o' w N' K' V' W. destruct (Nat.eq_dec i j) as [<-|NE]; [exact U|].
      rewrite set_nth_other in V' by exact NE. exact (sd_back g s S j o' w N' K' V' W).
    + apply (sd_wait g s S).
  - destruct S. constructor; assumption.
Qed.
(** The same when it was the first to wait. *)
Lemma value_sound g i q arg s : sound g s -> s_queue s = Some i :: q -> sound g (store g i (Some arg) (pop s q)).
Proof.
  intros S Q. destruct (sd_wait g s S i) as [L U]; [rewrite Q; left; reflexivity|].
  destruct (nth_error g i) as [o|] eqn:N; [|apply nth_error_None in N; lia].
  assert (P : forall j, j <> i -> In (Some j) (s_queue s) -> In (Some j) q).
  { intros j NE I. rewrite Q in I. destruct I as [E|I]; [congruence|exact I]. }
  destruct (store_cases g i (Some arg) (pop s q) o (sd_vals g s S) N) as [(v & -> & F & IS)|[-> KN]].
  - constructor; cbn [s_vals s_used s_queue pop].
    + rewrite set_nth_length. apply (sd_vals g s S).
    + apply (sd_used g s S).
    + intros j o' w N' V'. destruct (Nat.eq_dec i j) as [<-|NE].
      * rewrite set_nth_same in V' by (rewrite (sd_vals g s S); exact L). injection V' as <-. rewrite N in N'. injection N' as <-. exact F.
      * rewrite set_nth_other in V' by exact NE. exact (sd_fits g s S j o' w N' V').
    + intros j o' w N' K' U' V'. destruct (Nat.eq_dec i j) as [<-|NE].
      * rewrite set_nth_same in V' by (rewrite (sd_vals g s S); exact L). injection V' as <-. rewrite N in N'. injection N' as <-. right. exact (IS K').
      * rewrite set_nth_other in V' by exact NE. destruct (sd_set g s S j o' w N' K' U' V') as [I|I]; [left; apply P; [congruence|exact I]|right; exact I].
    + intros j o' w N' K' V' W. destruct (Nat.eq_dec i j) as [<-|NE]; [exact U|].
      rewrite set_nth_other in V' by exact NE. exact (sd_back g s S j o' w N' K' V' W).
    + intros j I. apply (sd_wait g s S). rewrite Q. right. exact I.
  - constructor; cbn [s_vals s_used s_queue pop bad].
    + apply (sd_vals g s S).
    + apply (sd_used g s S).
    + apply (sd_fits g s S).
    + intros j o' w N' K' U' V'. assert (NE : j <> i) by (intros ->; rewrite N in N'; injection N' as <-; congruence).
      destruct (sd_set g s S j o' w N' K' U' V') as [I|I]; [left; apply P; [exact NE|exact I]|right; exact I].
    + apply (sd_back g s S).
    + intros j I. apply (sd_wait g s S). rewrite Q. right. exact I.
Qed.
Lemma sound_kept g : kept g (sound g).
Proof.
  constructor.
  - intros s S. destruct S. constructor; assumption.
  - (* an option with its value: it is used and set at once *)
    intros s i arg S L. destruct (nth_error g i) as [o|] eqn:N; [|apply nth_error_None in N; lia].
    assert (UM := used_mark g i s (sd_used g s S) L).
    destruct (store_cases g i arg (mark g i s) o (sd_vals g s S) N) as [(v & -> & F & IS)|[-> KN]].
    + constructor; cbn [s_vals s_used s_queue mark].
      * rewrite set_nth_length. apply (sd_vals g s S).
      * rewrite set_nth_length. apply (sd_used g s S).
      * intros j o' w N' V'. destruct (Nat.eq_dec i j) as [<-|NE].
        -- rewrite set_nth_same in V' by (rewrite (sd_vals g s S); exact L). injection V' as <-. rewrite N in N'. injection N' as <-. exact F.
        -- rewrite set_nth_other in V' by exact NE. exact (sd_fits g s S j o' w N' V').
      * intros j o' w N' K' U' V'. change (used (mark g i s) j = true) in U'. rewrite UM in U'. destruct (Nat.eqb_spec i j) as [<-|NE].
        -- rewrite set_nth_same in V' by (rewrite (sd_vals g s S); exact L). injection V' as <-. rewrite N in N'. injection N' as <-. right. exact (IS K').
        -- rewrite set_nth_other in V' by exact NE. exact (sd_set g s S j o' w N' K' U' V').
      * intros j o' w N' K' V' W. change (used (mark g i s) j = true). rewrite UM. destruct (Nat.eqb_spec i j) as [<-|NE]; [reflexivity|].
        rewrite set_nth_other in V' by exact NE. exact (sd_back g s S j o' w N' K' V' W).
      * intros j I. change ((j < List.length g)%nat /\ used (mark g i s) j = true). rewrite UM.
        destruct (sd_wait g s S j I) as [A B]. split; [exact A|]. rewrite B. destruct (Nat.eqb i j); reflexivity.
    + constructor; cbn [s_vals s_used s_queue mark bad].
      * apply (sd_vals g s S).
      * rewrite set_nth_length. apply (sd_used g s S).
      * apply (sd_fits g s S).
      * intros j o' w N' K' U' V'. change (used (mark g i s) j = true) in U'. rewrite UM in U'. destruct (Nat.eqb_spec i j) as [<-|NE].
        -- rewrite N in N'. injection N' as <-. congruence.
        -- exact (sd_set g s S j o' w N' K' U' V').
      * intros j o' w N' K' V' W. change (used (mark g i s) j = true). rewrite UM. destruct (Nat.eqb_spec i j) as [<-|NE]; [reflexivity|].
        exact (sd_back g s S j o' w N' K' V' W).
      * intros j I. change ((j < List.length g)%nat /\ used (mark g i s) j = true). rewrite UM.
        destruct (sd_wait g s S j I) as [A B]. split; [exact A|]. rewrite B. destruct (Nat.eqb i j); reflexivity.
  - (* an option that waits *)
    intros s i S L. assert (UM := used_mark g i s (sd_used g s S) L).
    constructor; cbn [s_vals s_used s_queue mark push].
    + apply (sd_vals g s S).
    + rewrite set_nth_length. apply (sd_used g s S).
    + apply (sd_fits g s S).
    + intros j o' w N' K' U' V'. change (used (mark g i s) j = true) in U'. rewrite UM in U'. destruct (Nat.eqb_spec i j) as [<-|NE].
      * left. apply in_or_app. right. left. reflexivity.
      * destruct (sd_set g s S j o' w N' K' U' V') as [I|I]; [left; apply in_or_app; left; exact I|right; exact I].
    + intros j o' w N' K' V' W. change (used (mark g i s) j = true). rewrite UM. destruct (Nat.eqb_spec i j) as [<-|NE]; [reflexivity|].
      exact (sd_back g s S j o' w N' K' V' W).
    + intros j I. change ((j < List.length g)%nat /\ used (mark g i s) j = true). rewrite UM. apply in_app_or in I as [I|[E|[]]].
      * destruct (sd_wait g s S j I) as [A B]. split; [exact A|]. rewrite B. destruct (Nat.eqb i j); reflexivity.
      * injection E as <-. split; [exact L|]. rewrite Nat.eqb_refl. reflexivity.
  - intros s S. constructor; cbn [s_vals s_used s_queue push]; try apply S.
    + intros j o' w N' K' U' V'. destruct (sd_set g s S j o' w N' K' U' V') as [I|I]; [left; apply in_or_app; left; exact I|right; exact I].
    + intros j I. apply in_app_or in I as [I|[E|[]]]; [exact (sd_wait g s S j I)|discriminate].
  - intros s i q v S Q. apply value_sound; assumption.
  - intros s q S Q. constructor; cbn [s_vals s_used s_queue pop]; try apply S.
    + intros j o' w N' K' U' V'. destruct (sd_set g s S j o' w N' K' U' V') as [I|I]; [left|right; exact I].
      rewrite Q in I. destruct I as [E|I]; [discriminate|exact I].
    + intros j I. apply (sd_wait g s S). rewrite Q. right. exact I.
Qed.
Lemma sound_start g : sound g (start g).
Proof.
  constructor; cbn [start s_vals s_used s_queue].
  - apply map_length.
  - apply map_length.
  - intros i o v N V. rewrite nth_error_map, N in V. injection V as <-. unfold fits, zero. destruct (o_kind o); try exact I. destruct (o_array o); reflexivity.
  - intros i o v N K U V. exfalso. unfold used in U. cbn [start s_used] in U. rewrite nth_nth_error, nth_error_map, N in U. discriminate.
  - intros i o v N K V W. exfalso. rewrite nth_error_map, N in V. injection V as <-. unfold zero in W. rewrite K in W. destruct (o_array o); exact W.
  - intros i [].
Qed.

(** ** fstrm_replay *)
Definition one_dest (s : astate) : Prop :=
  List.length (s_used s) = 7%nat /\ (s_ok s = true -> used s 2 = true -> used s 4 = true -> False) /\ (used s 6 = true -> s_past s = true).
Lemma one_dest_kept : kept replay_grid one_dest.
Proof.
  assert (ST : forall i v s, one_dest s -> one_dest (store replay_grid i v s)).
  { intros i v s (L & O & E). destruct (store_fields replay_grid i v s) as (_ & _ & U & Pa). unfold one_dest, used. rewrite U, Pa.
    split; [exact L|]. split; [|exact E]. intro OK. apply O. revert OK. unfold store.
    destruct (nth_error replay_grid i); [|discriminate]. destruct (nth_error (s_vals s) i); [|discriminate].
    destruct (string_to_value _ _ _ _); [exact (fun x => x)|discriminate]. }
  assert (MK : forall i s, one_dest s -> (i < List.length replay_grid)%nat -> one_dest (mark replay_grid i s)).
  { intros i s (L & O & E) H. unfold one_dest. rewrite !(used_mark replay_grid i s L H). split; [cbn [s_used mark]; rewrite set_nth_length; exact L|].
    unfold mark. cbn [s_ok s_past].
    assert (A : forall j, used (mk_astate (s_vals s) (set_nth i true (s_used s)) (s_queue s) (s_head s) (s_ok s) (s_past s)) j = if Nat.eqb i j then true else used s j).
    { intro j. unfold used. cbn [s_used]. rewrite set_nth_nth, L. cbn in H. rewrite (proj2 (Nat.ltb_lt i 7) H). reflexivity. }
    split.
    - intros OK U2 U4. apply Bool.andb_true_iff in OK as [OK C]. apply Bool.negb_true_iff in C.
      destruct (Nat.eqb_spec i 2) as [->|N2]; [|destruct (Nat.eqb_spec i 4) as [->|N4]].
      + rewrite check_or_replay in C by (cbn; tauto). rewrite A in C. cbn in U4, C. congruence.
      + rewrite check_or_replay in C by (cbn; tauto). rewrite A in C. cbn in U2, C. congruence.
      + exact (O OK U2 U4).
    - destruct (Nat.eqb_spec i 6) as [->|N6].
      + intros _. apply Bool.orb_true_iff. right. reflexivity.
      + intro U6. rewrite (E U6). reflexivity. }
  constructor.
  - intros s (L & O & E). split; [exact L|]. split; [discriminate|exact E].
  - intros s i v S H. apply ST. apply MK; assumption.
  - intros s i S H. apply (MK i s S H).
  - intros s S. exact S.
  - intros s i q v S Q. apply ST. exact S.
  - intros s q S Q. exact S.
Qed.
Lemma one_dest_start : one_dest (start replay_grid).
Proof. split; [reflexivity|]. split; intros; discriminate. Qed.

Lemma kept_and g P Q : kept g P -> kept g Q -> kept g (fun s => P s /\ Q s).
Proof. intros [] []. constructor; intros; intuition eauto. Qed.

Lemma replay_final s : sound replay_grid s -> one_dest s -> s_ok s = true -> s_queue s = [] ->
  check_mand replay_grid (s_used s) = true -> check_xor replay_grid (s_used s) false None = true ->
  s_past s = true /\ (exists t, v_str (s_vals s) 1 = Some t) /\ v_arr (s_vals s) 6 <> [] /\
  ((exists u, v_str (s_vals s) 2 = Some u) /\ v_str (s_vals s) 4 = None \/ v_str (s_vals s) 2 = None /\ exists a, v_str (s_vals s) 4 = Some a).
Proof.
  intros S (LU & O & E) OK Q M X.
  assert (V : forall i, (i < 7)%nat -> exists w, nth_error (s_vals s) i = Some w).
  { intros i L. destruct (nth_error (s_vals s) i) eqn:N; [eauto|]. apply nth_error_None in N. rewrite (sd_vals _ s S) in N. cbn in N. lia. }
  assert (B : exists b0 b1 b2 b3 b4 b5 b6, s_used s = [b0; b1; b2; b3; b4; b5; b6]).
  { destruct (s_used s) as [|b0 [|b1 [|b2 [|b3 [|b4 [|b5 [|b6 [|]]]]]]]]; try discriminate LU. repeat eexists. }
  destruct B as (b0 & b1 & b2 & b3 & b4 & b5 & b6 & B). rewrite B in M, X. unfold used in O, E. rewrite B in O, E. cbn in O, E.
  cbn in M. assert (M' : b1 = true /\ b6 = true) by (destruct b1, b6; try discriminate; split; reflexivity). destruct M' as [-> ->].
  assert (X' : b2 || b4 = true) by (cbn in X; destruct b2, b4; first [reflexivity|discriminate]).
  assert (STR : forall i o, nth_error replay_grid i = Some o -> o_kind o = K_str -> o_array o = false -> (i < 7)%nat ->
            if used s i then exists t, v_str (s_vals s) i = Some t else v_str (s_vals s) i = None).
  { intros i o N K A L. destruct (V i L) as [w W]. pose proof (sd_fits _ s S i o w N W) as F. unfold fits in F. rewrite K in F.
    unfold v_str. rewrite W. destruct w as [| |t|l]; try contradiction; [|congruence]. destruct (used s i) eqn:U.
    - destruct (sd_set _ s S i o (V_str t) N K U W) as [I|I]; [rewrite Q in I; contradiction|]. destruct t; [eauto|contradiction].
    - destruct t as [t|]; [|reflexivity]. rewrite (sd_back _ s S i o _ N K W I) in U. discriminate. }
  split; [apply E; reflexivity|].
  pose proof (STR 1%nat _ eq_refl eq_refl eq_refl ltac:(lia)) as S1. pose proof (STR 2%nat _ eq_refl eq_refl eq_refl ltac:(lia)) as S2.
  pose proof (STR 4%nat _ eq_refl eq_refl eq_refl ltac:(lia)) as S4. unfold used in S1, S2, S4. rewrite B in S1, S2, S4. cbn [nth] in S1, S2, S4.
  split; [exact S1|]. split.
  - destruct (V 6%nat ltac:(lia)) as [w W]. pose proof (sd_fits _ s S 6%nat _ w eq_refl W) as F. unfold v_arr. rewrite W.
    destruct w as [| |t|l]; try contradiction; [discriminate|].
    destruct (sd_set _ s S 6%nat _ (V_arr l) eq_refl eq_refl) as [I|I]; [unfold used; rewrite B; reflexivity|exact W|rewrite Q in I; contradiction|].
    destruct l; [contradiction|discriminate].
  - destruct b2, b4; try discriminate X'.
    + exfalso. exact (O OK eq_refl eq_refl).
    + left. split; assumption.
    + right. split; assumption.
Qed.
Lemma replay_parsed files fuel env args v past : argv_process replay_grid files fuel env args = Parsed v past ->
  past = true /\ (exists t, v_str v 1 = Some t) /\ v_arr v 6 <> [] /\
  ((exists u, v_str v 2 = Some u) /\ v_str v 4 = None \/ v_str v 2 = None /\ exists a, v_str v 4 = Some a).
Proof.
  intro H. destruct (process_kept replay_grid _ files fuel env args v past (kept_and _ _ _ (sound_kept replay_grid) one_dest_kept)
    (conj (sound_start _) one_dest_start) H) as (s & [S O] & <- & <- & OK & Q & M & X).
  exact (replay_final s S O OK Q M X).
Qed.
Lemma replay_never_null files fuel env args : replay_args files fuel env args <> RP_null /\
  forall c, replay_args files fuel env args = RP_run c -> rp_files c <> [].
Proof.
  unfold replay_args. destruct (argv_process replay_grid files fuel env args) as [v past| | |] eqn:P; try (split; [discriminate|intros c H; discriminate]).
  destruct (replay_parsed files fuel env args v past P) as (_ & (t & ->) & F & D).
  destruct (v_bool v 0); [split; [discriminate|intros c H; discriminate]|].
  destruct D as [[(u & ->) ->]|[-> (a & ->)]].
  - split; [discriminate|]. intros c H. injection H as <-. exact F.
  - destruct (v_str v 5); [|split; [discriminate|intros c H; discriminate]]. split; [discriminate|]. intros c H. injection H as <-. exact F.
Qed.

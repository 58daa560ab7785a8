(** Proofs about the command line parser under any settings. *)
From Coq Require Import ZArith String Lia.
From Verif Require Import Bytes Bytes_proofs Control Misc Misc_proofs Capture Startup Argv SpecArgv Argv_proofs Argv2_proofs Argv3_proofs Argv4_proofs Argv6_proofs
  ArgvEnv SpecArgvEnv ArgvEnv_proofs.
Import ListNotations.
Local Open Scope N_scope.

Definition finish (g : grid) (s : astate) : result :=
  if s_ok s && check_mand g (s_used s) && (match s_queue s with [] => true | _ => false end) && check_xor g (s_used s) false None
  then Parsed (s_vals s) (s_past s) else Exited 1.
Definition after_list (x : ares) (k : astate -> result) : result :=
  match x with A_go s => k s | A_exit n => Exited n | A_ub u => Undef u | A_deep => Too_deep end.
Definition three (c : settings) (g : grid) (files : bytes -> option bytes) (fuel cap : nat) (l1 l2 l3 : list bytes) : result :=
  after_list (c_do_list c g cap files fuel l1 (start g)) (fun s =>
  after_list (c_do_list c g cap files fuel l2 s) (fun s =>
  after_list (c_do_list c g cap files fuel l3 s) (finish g))).

Lemma c_do_list_unfold c g cap files fuel args s : c_do_list c g cap files fuel args s =
  c_do_list_with c g cap (fun path s => match fuel with O => A_deep | S f => match files path with None => A_exit 1 | Some content => c_do_list c g cap files f (file_lines content) s end end) false args s.
Proof. destruct fuel; reflexivity. Qed.
Definition c_fa (c : settings) (g : grid) (cap : nat) (files : bytes -> option bytes) (fuel : nat) (path : bytes) (s : astate) : ares :=
  match fuel with O => A_deep | S f => match files path with None => A_exit 1 | Some content => c_do_list c g cap files f (file_lines content) s end end.
Lemma c_do_list_fa c g cap files fuel args s : c_do_list c g cap files fuel args s = c_do_list_with c g cap (c_fa c g cap files fuel) false args s.
Proof. apply c_do_list_unfold. Qed.
Lemma c_do_list_nil c g cap files fuel s : c_do_list c g cap files fuel [] s = A_go s.
Proof. rewrite c_do_list_fa. reflexivity. Qed.

Lemma argv_env_three g files fuel getenv argv0 args c ws : chooses getenv c -> supplies getenv argv0 ws ->
  exists st, choice_of st = c /\
  argv_env g files fuel getenv (argv0 :: args) = E_res (
    match ch_place c with
    | Nowhere => three st g files fuel (1 + List.length args + List.length ws) [] args []
    | Before => three st g files fuel (1 + List.length args + List.length ws) ws args []
    | After => three st g files fuel (1 + List.length args + List.length ws) [] args ws
    end).
Proof.
  intros C W. destruct (chooses_settings getenv c C) as [SA E]. set (st := process_env (getenv (txt "GLOBAL_ARGV"))) in *.
  exists st. split; [exact E|]. unfold argv_env. fold st. rewrite (supplies_words getenv argv0 ws W). subst c. unfold choice_of.
  destruct (se_env st) eqn:V; [destruct (se_after st) eqn:A|]; cbn [ch_place andb negb]; reflexivity.
Qed.

(** ** An invariant, as in Argv4_proofs *)
Section Kept.
Variable c : settings.
Variable g : grid.
Variable P : astate -> Prop.
Hypothesis K : kept g P.

Lemma again_kept i s : P s -> P (again c g i s).
Proof using K.
  intro H. unfold again. destruct (nth_error g i); [|exact H]. match goal with |- P (if ?x then _ else _) => destruct x end; [apply (k_bad g P K)|]; exact H.
Qed.
Lemma c_do_arg_kept cap i close s : (i < List.length g)%nat -> P s -> goes P (c_do_arg c g cap i close s).
Proof using K. intros L H. apply (do_arg_kept g P K); [exact L|]. apply again_kept. exact H. Qed.
Lemma c_short_kept cap whole close : forall cs first s, P s -> goes P (c_short_chars c g cap whole first cs close s).
Proof using K.
  induction cs as [|b cs IH]; intros first s H; cbn [c_short_chars]; [exact H|].
  destruct (find_short g 0 b) as [i|] eqn:F.
  - pose proof (c_do_arg_kept cap i close s (find_short_lt g b i F) H) as D. destruct (c_do_arg c g cap i close s); try exact I. apply IH. exact D.
  - destruct (byte_eqb b x3f); [exact I|].
    assert (B : goes P (c_short_chars c g cap whole false cs close (bad s))) by (apply IH; apply (k_bad g P K); exact H).
    destruct (first && is_number whole).
    2:{ exact B. }
    destruct (s_queue s) as [|[i|] q] eqn:Q; [exact B| |exact I].
    destruct (nth_error g i) as [o|]; [|exact B]. destruct (o_kind o); try exact B.
    apply (k_value g P K s i q whole H Q).
Qed.
Lemma c_long_kept cap fa name close s : (forall p s, P s -> goes P (fa p s)) -> P s -> goes P (c_long_option c g cap fa name close s).
Proof using K.
  intros FA H. pose proof (k_bad g P K s H) as B. unfold c_long_option. destruct name as [|b name]; [exact B|].
  destruct (long_matches g 0 (b :: name)) as [|i [|j m]] eqn:M; [|apply c_do_arg_kept; [|exact H]|exact B].
  - destruct (is_prefix _ _); [|destruct (special _); [exact I|exact B]]. destruct close as [p|]; [apply FA; exact H|].
    unfold enqueue. destruct (_ <? _)%nat; [|exact I]. apply (k_file g P K). exact H.
  - destruct (long_matches_valid (b :: name) g 0 i) as (j & o & -> & N); [rewrite M; left; reflexivity|].
    cbn [Nat.add]. apply nth_error_Some. congruence.
Qed.
Lemma c_arg1_kept cap fa a s : (forall p s, P s -> goes P (fa p s)) -> P s -> goes P (c_arg1 c g cap fa a s).
Proof using K.
  intros FA H. unfold c_arg1. destruct (is_prefix (txt "--") a).
  - destruct (c_split c a) as [p close]. apply c_long_kept; assumption.
  - destruct (is_prefix (txt "-") a && negb (lenN a =? 1)); [|apply (plain_kept g P K); assumption].
    destruct (c_split c a) as [p close]. destruct (skipn 1 p) as [|b cs]; [apply (k_bad g P K); exact H|apply c_short_kept; exact H].
Qed.
Lemma c_list_kept cap fa : (forall p s, P s -> goes P (fa p s)) -> forall args last s, P s -> goes P (c_do_list_with c g cap fa last args s).
Proof using K.
  intros FA. induction args as [|a args IH]; intros last s H; cbn [c_do_list_with]; [exact H|].
  destruct (bytes_eqb a (txt "--") && (negb last || se_toggle c)); [apply IH; exact H|].
  assert (X : goes P (if last then plain_arg g fa a s else c_arg1 c g cap fa a s)).
  { destruct last; [apply (plain_kept g P K)|apply c_arg1_kept]; assumption. }
  destruct (if last then plain_arg g fa a s else c_arg1 c g cap fa a s); try exact I. apply IH. exact X.
Qed.
Lemma c_do_list_kept cap files : forall fuel args s, P s -> goes P (c_do_list c g cap files fuel args s).
Proof using K.
  induction fuel as [|f IH]; intros args s H; rewrite c_do_list_unfold; apply c_list_kept; try exact H; intros p s' H'; [exact I|].
  destruct (files p); [apply IH; exact H'|exact I].
Qed.
Lemma c_fa_kept cap files fuel p s : P s -> goes P (c_fa c g cap files fuel p s).
Proof using K. intro H. unfold c_fa. destruct fuel; [exact I|]. destruct (files p); [|exact I]. apply c_do_list_kept. exact H. Qed.
End Kept.

Lemma finish_parsed g s v past : finish g s = Parsed v past ->
  s_vals s = v /\ s_past s = past /\ s_ok s = true /\ s_queue s = [] /\ check_mand g (s_used s) = true /\ check_xor g (s_used s) false None = true.
Proof.
  unfold finish. destruct (s_ok s) eqn:O; cbn [andb]; [|discriminate]. destruct (check_mand g (s_used s)) eqn:M; cbn [andb]; [|discriminate].
  destruct (s_queue s) eqn:Q; cbn [andb]; [|discriminate]. destruct (check_xor g (s_used s) false None) eqn:X; [|discriminate].
  intro E. injection E as <- <-. repeat split; assumption.
Qed.
Lemma three_kept c g P files fuel cap l1 l2 l3 v past : kept g P -> P (start g) -> three c g files fuel cap l1 l2 l3 = Parsed v past ->
  exists s, P s /\ s_vals s = v /\ s_past s = past /\ s_ok s = true /\ s_queue s = [] /\
    check_mand g (s_used s) = true /\ check_xor g (s_used s) false None = true.
Proof.
  intros K H0. unfold three. pose proof (c_do_list_kept c g P K cap files fuel l1 _ H0) as H1.
  destruct (c_do_list c g cap files fuel l1 (start g)) as [s1| | |]; try discriminate. cbn [after_list].
  pose proof (c_do_list_kept c g P K cap files fuel l2 _ H1) as H2.
  destruct (c_do_list c g cap files fuel l2 s1) as [s2| | |]; try discriminate. cbn [after_list].
  pose proof (c_do_list_kept c g P K cap files fuel l3 _ H2) as H3.
  destruct (c_do_list c g cap files fuel l3 s2) as [s3| | |]; try discriminate. cbn [after_list].
  intro E. exists s3. split; [exact H3|exact (finish_parsed g s3 v past E)].
Qed.

(** ** The settings of Argv.v *)
Section Same.
Variable c : settings.
Variable g : grid.
Variable cap : nat.
Hypothesis CE : se_close c = true.
Hypothesis CM : se_multi c = true.
Hypothesis CT : se_toggle c = false.

Lemma again_accept i s : again c g i s = s.
Proof using CM. unfold again. rewrite CM. destruct (nth_error g i); reflexivity. Qed.
Lemma same_do_arg i close s : c_do_arg c g cap i close s = do_arg g cap i close s.
Proof using CM. unfold c_do_arg. rewrite again_accept. reflexivity. Qed.
Lemma same_short whole close : forall cs first s, c_short_chars c g cap whole first cs close s = short_chars g cap whole first cs close s.
Proof using CM.
  induction cs as [|b cs IH]; intros first s; [reflexivity|]. cbn [c_short_chars short_chars]. destruct (find_short g 0 b).
  - rewrite same_do_arg. destruct (do_arg g cap n close s); try reflexivity. apply IH.
  - rewrite IH. reflexivity.
Qed.
Lemma same_arg1 fa fa' a s : (forall p s, fa p s = fa' p s) -> c_arg1 c g cap fa a s = arg1 g cap fa' a s.
Proof using CM CE.
  intro F. unfold c_arg1, arg1, c_split. rewrite CE. destruct (is_prefix (txt "--") a).
  - destruct (split_eq a) as [p close]. unfold c_long_option, long_option. destruct (skipn 2 p) as [|b b0]; [reflexivity|].
    destruct (long_matches g 0 (b :: b0)) as [|i [|j m]]; [|apply same_do_arg|reflexivity].
    destruct (is_prefix _ _); [|reflexivity]. destruct close; [apply F|reflexivity].
  - destruct (is_prefix (txt "-") a && negb (lenN a =? 1)).
    + destruct (split_eq a) as [p close]. destruct (skipn 1 p); [reflexivity|]. apply same_short.
    + unfold plain_arg. destruct (s_queue s) as [|[i|] q]; try reflexivity. apply F.
Qed.
Lemma same_plain fa fa' a s : (forall p s, fa p s = fa' p s) -> plain_arg g fa a s = plain_arg g fa' a s.
Proof. intro F. unfold plain_arg. destruct (s_queue s) as [|[i|] q]; try reflexivity. apply F. Qed.
Lemma same_list fa fa' : (forall p s, fa p s = fa' p s) -> forall args last s, c_do_list_with c g cap fa last args s = do_list_with g cap fa' last args s.
Proof using CM CE CT.
  intro F. induction args as [|a args IH]; intros last s; [reflexivity|]. cbn [c_do_list_with do_list_with]. rewrite CT, Bool.orb_false_r.
  destruct (bytes_eqb a (txt "--") && negb last) eqn:B.
  - apply Bool.andb_true_iff in B as [_ B]. destruct last; [discriminate|]. apply IH.
  - destruct last; [rewrite (same_plain fa fa' a s F)|rewrite (same_arg1 fa fa' a s F)].
    + destruct (plain_arg g fa' a s); try reflexivity. apply IH.
    + destruct (arg1 g cap fa' a s); try reflexivity. apply IH.
Qed.
Lemma same_do_list files : forall fuel args s, c_do_list c g cap files fuel args s = do_list g cap files fuel args s.
Proof using CM CE CT.
  induction fuel as [|f IH]; intros args s; rewrite c_do_list_unfold, do_list_unfold; apply same_list; intros p s'; [reflexivity|].
  destruct (files p); [apply IH|reflexivity].
Qed.
End Same.

Lemma three_before c g files fuel ws args : se_close c = true -> se_multi c = true -> se_toggle c = false ->
  three c g files fuel (1 + List.length args + List.length ws) ws args [] = argv_process g files fuel ws args.
Proof.
  intros E M T. unfold three, argv_process. rewrite same_do_list by assumption.
  destruct (do_list g (1 + List.length args + List.length ws) files fuel ws (start g)) as [s1| | |]; try reflexivity. cbn [after_list].
  rewrite same_do_list by assumption. destruct (do_list g (1 + List.length args + List.length ws) files fuel args s1) as [s2| | |]; try reflexivity. cbn [after_list].
  rewrite c_do_list_nil. reflexivity.
Qed.
Lemma three_after c g files fuel ws args : se_close c = true -> se_multi c = true -> se_toggle c = false ->
  three c g files fuel (1 + List.length args + List.length ws) [] args ws = argv_process g files fuel args ws.
Proof.
  intros E M T. rewrite <- (three_before c g files fuel args ws E M T). unfold three. rewrite c_do_list_nil. cbn [after_list].
  replace (1 + List.length ws + List.length args)%nat with (1 + List.length args + List.length ws)%nat by lia.
  destruct (c_do_list c g (1 + List.length args + List.length ws) files fuel args (start g)) as [s1| | |]; try reflexivity. cbn [after_list].
  destruct (c_do_list c g (1 + List.length args + List.length ws) files fuel ws s1) as [s2| | |]; try reflexivity. cbn [after_list].
  rewrite c_do_list_nil. reflexivity.
Qed.

(** ** A longer queue *)
Section Longer.
Variable c : settings.
Variable g : grid.
Variables cap cap' : nat.
Hypothesis LE : (cap <= cap')%nat.
Definition room (x y : ares) : Prop := x <> A_ub UB_queue -> y = x.

Lemma room_enqueue x s : room (enqueue cap x s) (enqueue cap' x s).
Proof using LE.
  unfold room, enqueue. destruct (s_head s <? cap)%nat eqn:L; [|congruence]. intros _. apply Nat.ltb_lt in L.
  rewrite (proj2 (Nat.ltb_lt _ _)) by lia. reflexivity.
Qed.
Lemma room_refl x : room x x. Proof. intro; reflexivity. Qed.
Lemma room_do_arg i close s : room (c_do_arg c g cap i close s) (c_do_arg c g cap' i close s).
Proof using LE.
  unfold c_do_arg, do_arg. destruct close; [apply room_refl|]. destruct (nth_error g i); [|apply room_refl].
  destruct (has_arg (o_kind o)); [apply room_enqueue|apply room_refl].
Qed.
Lemma room_bind x y k k' : room x y -> (forall s, room (k s) (k' s)) ->
  room (match x with A_go s => k s | A_exit n => A_exit n | A_ub u => A_ub u | A_deep => A_deep end)
       (match y with A_go s => k' s | A_exit n => A_exit n | A_ub u => A_ub u | A_deep => A_deep end).
Proof.
  intros X KK. unfold room in *. destruct x as [s|n|u|].
  - rewrite X by discriminate. apply KK.
  - rewrite X by discriminate. reflexivity.
  - intro H. rewrite X by exact H. reflexivity.
  - rewrite X by discriminate. reflexivity.
Qed.
Lemma room_bind2 x y k k' : room x y -> (forall s, room (k s) (k' s)) ->
  room (match x with A_go s => k s | _ => x end) (match y with A_go s => k' s | _ => y end).
Proof.
  intros X KK. pose proof (room_bind x y k k' X KK) as H. destruct x, y; exact H.
Qed.
Lemma room_short whole close : forall cs first s, room (c_short_chars c g cap whole first cs close s) (c_short_chars c g cap' whole first cs close s).
Proof using LE.
  induction cs as [|b cs IH]; intros first s; [apply room_refl|]. cbn [c_short_chars]. destruct (find_short g 0 b).
  - apply room_bind; [apply room_do_arg|intro; apply IH].
  - destruct (byte_eqb b x3f); [apply room_refl|].
    destruct (if first && is_number whole then s_queue s else []) as [|[i|] q]; [apply IH| |apply room_refl].
    destruct (nth_error g i) as [o|]; [|apply IH]. destruct (o_kind o); first [apply IH|apply room_refl].
Qed.
Lemma room_plain fa fa' a s : (forall p s, room (fa p s) (fa' p s)) -> room (plain_arg g fa a s) (plain_arg g fa' a s).
Proof. intro F. unfold plain_arg. destruct (s_queue s) as [|[i|] q]; try apply room_refl. apply F. Qed.
Lemma room_arg1 fa fa' a s : (forall p s, room (fa p s) (fa' p s)) -> room (c_arg1 c g cap fa a s) (c_arg1 c g cap' fa' a s).
Proof using LE.
  intro F. unfold c_arg1. destruct (is_prefix (txt "--") a).
  - destruct (c_split c a) as [p close]. unfold c_long_option. destruct (skipn 2 p) as [|b b0]; [apply room_refl|].
    destruct (long_matches g 0 (b :: b0)) as [|i [|j m]]; [|apply room_do_arg|apply room_refl].
    destruct (is_prefix _ _); [|apply room_refl]. destruct close; [apply F|apply room_enqueue].
  - destruct (is_prefix (txt "-") a && negb (lenN a =? 1)); [|apply room_plain; exact F].
    destruct (c_split c a) as [p close]. destruct (skipn 1 p); [apply room_refl|apply room_short].
Qed.
Lemma room_list fa fa' : (forall p s, room (fa p s) (fa' p s)) -> forall args last s,
  room (c_do_list_with c g cap fa last args s) (c_do_list_with c g cap' fa' last args s).
Proof using LE.
  intro F. induction args as [|a args IH]; intros last s; [apply room_refl|]. cbn [c_do_list_with].
  destruct (bytes_eqb a (txt "--") && (negb last || se_toggle c)); [apply IH|].
  apply room_bind2; [|intro; apply IH]. destruct last; [apply room_plain|apply room_arg1]; exact F.
Qed.
Lemma room_do_list files : forall fuel args s, room (c_do_list c g cap files fuel args s) (c_do_list c g cap' files fuel args s).
Proof using LE.
  induction fuel as [|f IH]; intros args s; rewrite (c_do_list_unfold c g cap), (c_do_list_unfold c g cap'); apply room_list; intros p s'; [apply room_refl|].
  destruct (files p); [apply IH|apply room_refl].
Qed.
End Longer.
Lemma three_nowhere c g files fuel (ws args : list bytes) : se_close c = true -> se_multi c = true -> se_toggle c = false ->
  argv_process g files fuel [] args <> Undef UB_queue ->
  three c g files fuel (1 + List.length args + List.length ws) [] args [] = argv_process g files fuel [] args.
Proof.
  intros E M T. rewrite <- (three_before c g files fuel [] args E M T). unfold three. rewrite !c_do_list_nil. cbn [after_list List.length].
  pose proof (room_do_list c g (1 + List.length args + 0) (1 + List.length args + List.length ws) ltac:(lia) files fuel args (start g)) as R.
  unfold room in R.
  destruct (c_do_list c g (1 + List.length args + 0) files fuel args (start g)) as [s1|n|u|]; cbn [after_list].
  - intros _. rewrite R by discriminate. cbn [after_list]. rewrite !c_do_list_nil. reflexivity.
  - intros _. rewrite R by discriminate. reflexivity.
  - intro H. rewrite R by congruence. reflexivity.
  - intros _. rewrite R by discriminate. reflexivity.
Qed.

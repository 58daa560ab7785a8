(** Proofs about files of arguments, descriptors and the standard input. *)
From Coq Require Import String Lia.
From Verif Require Import Bytes Bytes_proofs Control Misc Misc_proofs Capture Startup Argv SpecArgv
  Argv_proofs Argv2_proofs Argv3_proofs Argv4_proofs Argv5_proofs Argv6_proofs Argv7_proofs ArgvOpen.
Import ListNotations.
Local Open Scope nat_scope.

(** ** One argument *)
Definition one (g : grid) (cap : nat) (fa : bytes -> astate -> ares) (last : bool) (a : bytes) (s : astate) : ares :=
  if last then plain_arg g fa a s else arg1 g cap fa a s.
Lemma plain_wants g fa a s : plain_arg g fa a s =
  match wants_plain a s with Some (p, s') => fa p s' | None => plain_arg g no_args a s end.
Proof. unfold plain_arg, wants_plain. destruct (s_queue s) as [|[i|] q]; reflexivity. Qed.
Lemma one_wants g cap fa last a s : one g cap fa last a s =
  match wants g last a s with Some (p, s') => fa p s' | None => one g cap no_args last a s end.
Proof.
  unfold one, wants. destruct last; [apply plain_wants|]. unfold arg1. destruct (is_prefix (txt "--") a).
  - destruct (split_eq a) as [p close]. unfold long_option. destruct (skipn 2 p) as [|x name]; [reflexivity|].
    destruct (long_matches g 0 (x :: name)) as [|i [|j l]] eqn:M; destruct close as [path|]; try rewrite M; try reflexivity.
    destruct (is_prefix (x :: name) (txt "argv-file")); reflexivity.
  - destruct (is_prefix (txt "-") a && negb (lenN a =? 1)%N); [reflexivity|apply plain_wants].
Qed.
Lemma enqueue_ends cap x s : enqueue cap x s <> A_deep.
Proof. unfold enqueue. destruct (s_head s <? cap); discriminate. Qed.
Lemma do_arg_ends g cap i close s : do_arg g cap i close s <> A_deep.
Proof.
  unfold do_arg. destruct close; [discriminate|]. destruct (nth_error g i); [|discriminate].
  destruct (has_arg _); [apply enqueue_ends|discriminate].
Qed.
Lemma short_ends g cap whole close : forall cs first s, short_chars g cap whole first cs close s <> A_deep.
Proof.
  induction cs as [|c cs IH]; intros first s; [discriminate|]. cbn [short_chars].
  destruct (find_short g 0 c) as [i|].
  - destruct (do_arg g cap i close s) eqn:D; try discriminate; [apply IH|]. destruct (do_arg_ends _ _ _ _ _ D).
  - destruct (byte_eqb c x3f); [discriminate|].
    destruct (if first && is_number whole then s_queue s else []) as [|[i|] q]; [apply IH| |discriminate].
    destruct (nth_error g i) as [o|]; [|apply IH]. destruct (o_kind o); solve [apply IH|discriminate].
Qed.
Lemma one_ends g cap last a s : wants g last a s = None -> one g cap no_args last a s <> A_deep.
Proof.
  assert (PL : wants_plain a s = None -> plain_arg g no_args a s <> A_deep).
  { unfold wants_plain, plain_arg. destruct (s_queue s) as [|[i|] q]; discriminate. }
  unfold one, wants. destruct last; [exact PL|]. unfold arg1. destruct (is_prefix (txt "--") a).
  - destruct (split_eq a) as [p close]. unfold long_option. destruct (skipn 2 p) as [|x name]; [discriminate|].
    destruct (long_matches g 0 (x :: name)) as [|i [|j l]] eqn:M; [|intros _; apply do_arg_ends|intros _; discriminate].
    destruct close as [path|]; try rewrite M; destruct (is_prefix (x :: name) (txt "argv-file")); try discriminate; intros _;
      try apply enqueue_ends; destruct (special (x :: name)); discriminate.
  - destruct (is_prefix (txt "-") a && negb (lenN a =? 1)%N); [|exact PL]. intros _. destruct (split_eq a) as [p close].
    destruct (skipn 1 p); [discriminate|apply short_ends].
Qed.

(** ** Lists *)
Section Lists.
Variables (g : grid) (cap : nat).
Definition oargs := bytes -> astate -> bytes -> ares * bytes.
Lemma open_cons (fa : oargs) last a r s inp : bytes_eqb a (txt "--") && negb last = false ->
  open_list_with g cap fa last (a :: r) s inp =
  let '(x, inp') := match wants g last a s with Some (path, s') => fa path s' inp | None => (one g cap no_args last a s, inp) end in
  match x with A_go s' => open_list_with g cap fa last r s' inp' | y => (y, inp') end.
Proof. intro E. cbn [open_list_with]. rewrite E. reflexivity. Qed.

Lemma list_ends (fa : oargs) (B : bytes -> Prop) :
  (forall p s i, B i -> fst (fa p s i) <> A_deep /\ B (snd (fa p s i))) ->
  forall args last s i, B i -> fst (open_list_with g cap fa last args s i) <> A_deep /\ B (snd (open_list_with g cap fa last args s i)).
Proof.
  intros H. induction args as [|a r IH]; intros last s i Bi; [split; [discriminate|exact Bi]|].
  destruct (bytes_eqb a (txt "--") && negb last) eqn:E; [cbn [open_list_with]; rewrite E; apply IH, Bi|].
  rewrite open_cons by exact E.
  assert (X : let y := match wants g last a s with Some (path, s') => fa path s' i | None => (one g cap no_args last a s, i) end in
              fst y <> A_deep /\ B (snd y)).
  { destruct (wants g last a s) as [[p s']|] eqn:W; [apply H, Bi|split; [exact (one_ends g cap last a s W)|exact Bi]]. }
  cbv zeta in X. destruct (match wants g last a s with Some (path, s') => fa path s' i | None => (one g cap no_args last a s, i) end) as [x i'].
  cbn [fst snd] in X. destruct x; try exact X. apply IH, X.
Qed.
Lemma list_same (fa fb : oargs) : (forall p s i, fst (fa p s i) <> A_deep -> fa p s i = fb p s i) ->
  forall args last s i, fst (open_list_with g cap fa last args s i) <> A_deep ->
    open_list_with g cap fa last args s i = open_list_with g cap fb last args s i.
Proof.
  intros H. induction args as [|a r IH]; intros last s i; [reflexivity|].
  destruct (bytes_eqb a (txt "--") && negb last) eqn:E; [cbn [open_list_with]; rewrite E; apply IH|].
  rewrite !open_cons by exact E. destruct (wants g last a s) as [[p s']|].
  - specialize (H p s' i). destruct (fa p s' i) as [x i']. cbn [fst] in H. destruct x; cbn [fst]; intro D;
      try (rewrite <- H by discriminate; try reflexivity; apply IH, D). destruct (D eq_refl).
  - destruct (one g cap no_args last a s); try reflexivity. apply IH.
Qed.
Lemma list_sim (fa : bytes -> astate -> ares) (fb : oargs) : (forall p s, fa p s <> A_deep -> fb p s [] = (fa p s, [])) ->
  forall args last s, do_list_with g cap fa last args s <> A_deep ->
    open_list_with g cap fb last args s [] = (do_list_with g cap fa last args s, []).
Proof.
  intros H. induction args as [|a r IH]; intros last s; [reflexivity|].
  destruct (bytes_eqb a (txt "--") && negb last) eqn:E; [cbn [open_list_with do_list_with]; rewrite E; apply IH|].
  rewrite open_cons by exact E. cbn [do_list_with]. rewrite E. change (if last then plain_arg g fa a s else arg1 g cap fa a s) with (one g cap fa last a s).
  rewrite one_wants. destruct (wants g last a s) as [[p s']|].
  - specialize (H p s'). destruct (fa p s'); intro D; try (rewrite H by discriminate; try reflexivity; apply IH, D). destruct (D eq_refl).
  - destruct (one g cap no_args last a s); try reflexivity. apply IH.
Qed.
End Lists.

(** ** Parsing ends *)
Definition oa_of (g : grid) (cap : nat) (files : bytes -> option bytes) (fuel fds : nat) : oargs := fun path s inp =>
  match fuel with
  | O => (A_deep, inp)
  | S f =>
      if bytes_eqb path (txt "-") then open_list g cap files f fds (file_lines inp) s []
      else match fds, files path with
           | S d, Some content => open_list g cap files f d (file_lines content) s inp
           | _, _ => (A_exit 1, inp)
           end
  end.
Lemma open_unfold g cap files fuel fds args s inp :
  open_list g cap files fuel fds args s inp = open_list_with g cap (oa_of g cap files fuel fds) false args s inp.
Proof. destruct fuel; reflexivity. Qed.

Definition left_over (i : bytes) : nat := match i with [] => 0 | _ => 1 end.
Lemma open_ends g cap files : forall fuel fds args s i, fds + left_over i < fuel ->
  fst (open_list g cap files fuel fds args s i) <> A_deep /\
  (snd (open_list g cap files fuel fds args s i) = i \/ snd (open_list g cap files fuel fds args s i) = []).
Proof.
  induction fuel as [|f IH]; intros fds args s i L; [lia|]. rewrite open_unfold.
  apply (list_ends g cap (oa_of g cap files (S f) fds) (fun j => j = i \/ j = [])); [|left; reflexivity].
  intros p s' j J. cbn [oa_of]. destruct (bytes_eqb p (txt "-")).
  - destruct J as [->| ->].
    + destruct i as [|x i]; [rewrite open_unfold; split; [discriminate|right; reflexivity]|].
      cbn [left_over] in L. destruct (IH fds (file_lines (x :: i)) s' []) as [D E]; [cbn [left_over]; lia|].
      split; [exact D|right; destruct E; assumption].
    + rewrite open_unfold. split; [discriminate|right; reflexivity].
  - destruct fds as [|d]; [destruct (files p); (split; [discriminate|exact J])|]. destruct (files p) as [c|]; [|split; [discriminate|exact J]].
    assert (Lj : left_over j <= left_over i) by (destruct J as [->| ->]; cbn [left_over]; lia).
    destruct (IH d (file_lines c) s' j) as [D E]; [lia|]. split; [exact D|].
    destruct E as [->| ->]; [exact J|right; reflexivity].
Qed.
Lemma open_more g cap files : forall fuel fds args s i fuel', fst (open_list g cap files fuel fds args s i) <> A_deep -> fuel <= fuel' ->
  open_list g cap files fuel fds args s i = open_list g cap files fuel' fds args s i.
Proof.
  induction fuel as [|f IH]; intros fds args s i fuel'; rewrite !open_unfold; intros D L.
  - apply list_same; [|exact D]. intros p s' j X. destruct (X eq_refl).
  - destruct fuel' as [|f']; [lia|]. apply list_same; [|exact D]. intros p s' j X. cbn [oa_of] in *.
    destruct (bytes_eqb p (txt "-")); [apply IH; [exact X|lia]|].
    destruct fds as [|d]; [reflexivity|]. destruct (files p); [apply IH; [exact X|lia]|reflexivity].
Qed.

Lemma open_process_ends g files fuel fds inp env args : fds + 1 < fuel ->
  open_process g files fuel fds inp env args <> Too_deep /\
  forall fuel', fuel <= fuel' -> open_process g files fuel' fds inp env args = open_process g files fuel fds inp env args.
Proof.
  intro L. assert (LE : forall i, left_over i <= 1) by (intros [|? ?]; cbn [left_over]; lia). unfold open_process. set (cap := _ + _).
  assert (O : forall l s i, fst (open_list g cap files fuel fds l s i) <> A_deep).
  { intros l s i. apply open_ends. specialize (LE i). lia. }
  split.
  - pose proof (O env (start g) inp) as X. destruct (open_list g cap files fuel fds env (start g) inp) as [x i]. cbn [fst] in X.
    destruct x as [s| | |]; try discriminate; [|destruct (X eq_refl)]. pose proof (O args s i) as Y.
    destruct (open_list g cap files fuel fds args s i) as [y i']. cbn [fst] in Y. destruct y; try discriminate; [|destruct (Y eq_refl)].
    destruct (_ && _ && _ && _); discriminate.
  - intros fuel' L'. rewrite <- (open_more g cap files fuel fds env (start g) inp fuel' (O _ _ _) L').
    destruct (open_list g cap files fuel fds env (start g) inp) as [x i]. destruct x; try reflexivity.
    rewrite <- (open_more g cap files fuel fds args s i fuel' (O _ _ _) L'). reflexivity.
Qed.

(** ** The model without descriptors *)
Lemma open_sim g cap files : files (txt "-") = Some [] -> forall fuel F fds args s, do_list g cap files fuel args s <> A_deep -> fuel <= F -> fuel <= fds ->
  open_list g cap files F fds args s [] = (do_list g cap files fuel args s, []).
Proof.
  intro DASH. induction fuel as [|f IH]; intros F fds args s; rewrite open_unfold, do_list_fa; intros D LF LD.
  - apply list_sim; [|exact D]. intros p s' X. destruct (X eq_refl).
  - destruct F as [|F]; [lia|]. destruct fds as [|d]; [lia|]. apply list_sim; [|exact D]. intros p s' X. cbn [oa_of fa_of] in *.
    destruct (bytes_eqb p (txt "-")) eqn:E.
    + apply bytes_eqb_eq in E. subst p. rewrite DASH in *. rewrite (IH F (S d)); [reflexivity|exact X|lia..].
    + destruct (files p) as [c|]; [|reflexivity]. apply IH; [exact X|lia..].
Qed.
Lemma open_process_sim g files fuel F fds env args : files (txt "-") = Some [] -> argv_process g files fuel env args <> Too_deep ->
  fuel <= F -> fuel <= fds -> open_process g files F fds [] env args = argv_process g files fuel env args.
Proof.
  intros DASH T LF LD. unfold argv_process, open_process in *. set (cap := _ + _) in *.
  assert (S1 : do_list g cap files fuel env (start g) <> A_deep) by (intro E; rewrite E in T; exact (T eq_refl)).
  rewrite (open_sim g cap files DASH fuel F fds env (start g) S1 LF LD). destruct (do_list g cap files fuel env (start g)) as [s| | |]; try reflexivity.
  assert (S2 : do_list g cap files fuel args s <> A_deep) by (intro E; rewrite E in T; exact (T eq_refl)).
  rewrite (open_sim g cap files DASH fuel F fds args s S2 LF LD). destruct (do_list g cap files fuel args s); reflexivity.
Qed.

(** ** Files that name each other *)
Definition file_opt (p : bytes) : bytes := txt "--argv-file=" ++ p.
Lemma wants_file g p s : long_matches g 0 (txt "argv-file") = [] -> wants g false (file_opt p) s = Some (p, s).
Proof.
  intro M. unfold wants. change (is_prefix (txt "--") (file_opt p)) with true.
  change (split_eq (file_opt p)) with (txt "--argv-file", Some p). cbv iota beta.
  change (skipn 2 (txt "--argv-file")) with (txt "argv-file").
  transitivity (match long_matches g 0 (txt "argv-file") with [] => if is_prefix (txt "argv-file") (txt "argv-file") then Some (p, s) else None | _ => None end);
    [reflexivity|rewrite M; reflexivity].
Qed.
Lemma open_circle g cap files (P : bytes -> Prop) : long_matches g 0 (txt "argv-file") = [] ->
  (forall p, P p -> p <> txt "-" /\ exists c q, files p = Some c /\ text_of [file_opt q] c /\ P q) ->
  forall fds fuel p s i, fds < fuel -> P p -> fst (open_list g cap files fuel fds [file_opt p] s i) = A_exit 1.
Proof.
  intros M H. induction fds as [|d IH]; intros fuel p s i L Pp; (destruct fuel as [|f]; [lia|]); rewrite open_unfold, open_cons by reflexivity;
    rewrite wants_file by exact M; cbn [oa_of]; destruct (H p Pp) as (ND & c & q & F & T & Q);
    (destruct (bytes_eqb p (txt "-")) eqn:E; [apply bytes_eqb_eq in E; contradiction|]); [destruct (files p); reflexivity|].
  rewrite F, (file_lines_text _ _ T). specialize (IH f q s i ltac:(lia) Q).
  destruct (open_list g cap files f d [file_opt q] s i) as [x i']. cbn [fst] in IH. subst x. reflexivity.
Qed.
Lemma open_process_circle g files (P : bytes -> Prop) : long_matches g 0 (txt "argv-file") = [] ->
  (forall p, P p -> p <> txt "-" /\ exists c q, files p = Some c /\ text_of [file_opt q] c /\ P q) ->
  forall fds fuel inp p rest, fds < fuel -> P p -> open_process g files fuel fds inp [] (file_opt p :: rest) = Exited 1.
Proof.
  intros M H fds fuel inp p rest L Pp. unfold open_process. set (cap := _ + _).
  rewrite (open_unfold g cap files fuel fds []). cbn [open_list_with].
  pose proof (open_circle g cap files P M H fds fuel p (start g) inp L Pp) as X. rewrite open_unfold, open_cons in * by reflexivity.
  destruct (match wants g false (file_opt p) (start g) with Some (path, s') => oa_of g cap files fuel fds path s' inp
            | None => (one g cap no_args false (file_opt p) (start g), inp) end) as [x i].
  destruct x; cbn [fst open_list_with] in X; try discriminate X. injection X as ->. reflexivity.
Qed.

(** ** Orderly files *)
Lemma says_proper g files d n ws l : says g files d n ws l -> Forall (proper g) l.
Proof. induction 1; [constructor|constructor; assumption|apply Forall_app; split; assumption..]. Qed.
Lemma open_process_says g files F fds d ne na es gs env args : good_grid g -> files (txt "-") = Some [] ->
  says g files d ne env es -> says g files d na args gs -> d <= fds -> fds + 1 < F ->
  open_process g files F fds [] env args =
  if ne + na <=? 1 + List.length args + List.length env
  then argv_process g (fun _ => None) 0 (flat_map (words g) es) (flat_map (words g) gs)
  else Undef UB_queue.
Proof.
  intros G DASH SE SA D L.
  pose proof (says_proper _ _ _ _ _ _ SE) as PE. pose proof (says_proper _ _ _ _ _ _ SA) as PA.
  pose proof (process_says g files d d ne na es gs env args G SE SA (le_n d)) as X.
  rewrite (process_line g files d es gs G PE PA) in X. rewrite (process_line g (fun _ => None) 0 es gs G PE PA).
  etransitivity; [|exact X]. apply open_process_sim; [exact DASH| |lia|exact D]. rewrite X.
  destruct (ne + na <=? _); [|discriminate]. destruct (_ && _ && _); discriminate.
Qed.

(** Proofs about growable arrays. *)
From Verif Require Import Bytes Bytes_proofs Vector SpecVector.
Local Open Scope N_scope.

Definition small (sz : N) : Prop := 1 <= sz /\ sz < 2 ^ 31.

Record shape {A} (sz : N) (x : vec A) : Prop := {
  sh_hint1 : 1 <= v_hint x; sh_hint2 : v_hint x < 2 ^ 32;
  sh_al1 : 1 <= v_alloced x; sh_al2 : v_alloced x * sz < 2 ^ 63;
  sh_len : lenN (v_v x) = v_alloced x; sh_p : v_p x = (v_blk x, v_n x); sh_n : v_n x <= v_alloced x }.

Lemma wrap64_id n : n < 2 ^ 64 -> wrap64 n = n.
Proof. apply N.mod_small. Qed.

Lemma alloc_ok {A} sz (old : list (option A)) a : small sz -> a * sz < 2 ^ 63 ->
  vec_alloc sz old (wrap64 (a * sz)) = Ok (firstn (N.to_nat a) old ++ repeat None (N.to_nat a - length old)).
Proof.
  intros S L. unfold vec_alloc. rewrite wrap64_id by lia.
  destruct (2 ^ 63 - 1 <? a * sz) eqn:E; [lia|]. rewrite N.div_mul by (destruct S; lia). reflexivity.
Qed.

Lemma al_bound {A} sz (x : vec A) : small sz -> shape sz x -> v_alloced x < 2 ^ 63.
Proof. intros [S1 S2] H. destruct H. nia. Qed.

Lemma hint_bound sz h : small sz -> h < 2 ^ 32 -> h * sz < 2 ^ 63.
Proof. intros [S1 S2] H. nia. Qed.

Lemma sub64_eq a b : b <= a -> a < 2 ^ 64 -> sub64 a b = a - b.
Proof.
  intros. unfold sub64, wrap64. replace (a + 2 ^ 64 - b) with ((a - b) + 1 * 2 ^ 64) by lia.
  rewrite N.mod_add by lia. apply N.mod_small. lia.
Qed.

Lemma grow_spec {A} sz (more : vec A -> bool) need : small sz ->
  forall fuel x, shape sz x -> 2 ^ 64 <= v_alloced x * 2 ^ N.of_nat fuel ->
  (forall y, shape sz y -> v_n y = v_n x -> more y = (v_alloced y <? need)) ->
  (exists k x', vec_grow fuel sz more x = Ok x' /\ shape sz x' /\ need <= v_alloced x' /\ v_alloced x <= v_alloced x' /\
     v_v x' = v_v x ++ repeat None k /\ v_n x' = v_n x /\ v_hint x' = v_hint x) \/
  (vec_grow fuel sz more x = Err FAbort /\ 2 ^ 63 <= 2 * need * sz).
Proof.
  intros SZ. induction fuel as [|f IH]; intros x SH FU M; cbn [vec_grow]; rewrite (M x SH eq_refl).
  - destruct (v_alloced x <? need) eqn:E.
    + pose proof (al_bound sz x SZ SH). cbn in FU. lia.
    + left. exists 0%nat, x. cbn [repeat]. rewrite app_nil_r. split; [reflexivity|]. split; [exact SH|]. repeat split; lia.
  - destruct (v_alloced x <? need) eqn:E.
    2:{ left. exists 0%nat, x. cbn [repeat]. rewrite app_nil_r. split; [reflexivity|]. split; [exact SH|]. repeat split; lia. }
    cbv zeta. pose proof (al_bound sz x SZ SH) as AB. rewrite (wrap64_id (v_alloced x * 2)) by lia.
    destruct (N.lt_ge_cases (v_alloced x * 2 * sz) (2 ^ 63)) as [L|L].
    + rewrite alloc_ok by assumption. cbn [obind].
      destruct SH as [h1 h2 a1 a2 ln hp hn].
      assert (LL : length (v_v x) = N.to_nat (v_alloced x)) by (unfold lenN in ln; lia).
      rewrite firstn_all2 by lia.
      set (y := mk_vec _ _ _ _ _ _).
      assert (SH' : shape sz y).
      { constructor; cbn; try assumption; try reflexivity; try lia. unfold lenN. rewrite app_length, repeat_length. lia. }
      assert (FU' : 2 ^ 64 <= v_alloced y * 2 ^ N.of_nat f).
      { cbn [y v_alloced]. rewrite Nat2N.inj_succ, N.pow_succ_r' in FU. lia. }
      destruct (IH y SH' FU') as [(k & x' & E1 & E2 & E3 & E3' & E4 & E5 & E6)|[E1 E2]].
      * intros z Hz Hn. apply M; assumption.
      * left. exists (N.to_nat (v_alloced x * 2) - length (v_v x) + k)%nat, x'. split; [exact E1|]. split; [exact E2|]. split; [exact E3|].
        cbn in E3', E4, E5, E6. split; [lia|]. rewrite E4, repeat_app, app_assoc. auto.
      * right. auto.
    + right. split; [|nia]. unfold vec_alloc. rewrite wrap64_id.
      2:{ destruct SH as [h1 h2 a1 a2 ln hp hn]. nia. }
      destruct (2 ^ 63 - 1 <? v_alloced x * 2 * sz) eqn:E9; [reflexivity|lia].
Qed.

(** ** Contents *)
Record agrees {A} (sz : N) (x : vec A) (s : vspec A) : Prop := {
  ag_sh : shape sz x;
  ag_n : v_n x = lenN (vs_elems s);
  ag_room : v_n x + vs_room s <= v_alloced x;
  ag_cells : exists rest, v_v x = map Some (vs_elems s ++ vs_behind s) ++ rest }.

Lemma put_eq {A} (x : vec A) pre mid post l : v_v x = pre ++ mid ++ post -> length mid = length l ->
  vec_put x (lenN pre) l = Ok (pre ++ map Some l ++ post).
Proof.
  intros E L. unfold vec_put. rewrite E. unfold lenN. rewrite !app_length.
  destruct (N.of_nat _ <? _) eqn:B; [lia|]. rewrite Nat2N.id. f_equal.
  rewrite firstn_app, firstn_all, Nat.sub_diag, firstn_O, app_nil_r. f_equal. f_equal.
  rewrite skipn_app. rewrite skipn_all2 by lia. cbn [app]. rewrite skipn_app.
  replace (length pre + length l - length pre - length mid)%nat with 0%nat by lia.
  rewrite skipn_all2 by lia. reflexivity.
Qed.

Lemma split_cells {A} (l : list A) k : (k <= length l)%nat -> exists a b, l = a ++ b /\ length a = k.
Proof. intro L. exists (firstn k l), (skipn k l). split; [symmetry; apply firstn_skipn|apply firstn_length_le, L]. Qed.

(** Overwriting [length l] cells after the elements. *)
Lemma put_behind {A} (x : vec A) (c b : list A) rest l :
  v_v x = map Some (c ++ b) ++ rest -> lenN c + lenN l <= lenN (v_v x) ->
  exists rest', vec_put x (lenN c) l = Ok (map Some (c ++ l ++ skipn (length l) b) ++ rest') /\
    (length (map Some (c ++ l ++ skipn (length l) b) ++ rest') = length (v_v x))%nat.
Proof.
  intros E L. rewrite map_app, <- app_assoc in E.
  assert (LL : (length l <= length (map Some b ++ rest))%nat).
  { rewrite E in L. unfold lenN in L. rewrite !app_length, !map_length in *. lia. }
  destruct (split_cells _ _ LL) as (mid & post & E2 & Lm).
  rewrite E2 in E.
  assert (P : exists rest', post = map Some (skipn (length l) b) ++ rest').
  { assert (post = skipn (length l) (map Some b ++ rest)) as ->.
    { rewrite E2, skipn_app, <- Lm, skipn_all, Nat.sub_diag. reflexivity. }
    rewrite skipn_app. exists (skipn (length l - length (map Some b)) rest). f_equal. apply skipn_map. }
  destruct P as [rest' ->]. exists rest'. split.
  - replace (lenN c) with (lenN (map Some c)) by (unfold lenN; rewrite map_length; reflexivity).
    rewrite (put_eq x _ _ _ l E Lm). f_equal. rewrite !map_app, <- !app_assoc. reflexivity.
  - rewrite E, !map_app, !app_length, !map_length, Lm. lia.
Qed.

Lemma loads_eq {A} (x : vec A) l : forall i pre rest, v_v x = pre ++ map Some l ++ rest -> i = lenN pre ->
  vec_loads x i (length l) = Ok l.
Proof.
  induction l as [|a l IH]; intros i pre rest E ->; cbn [length vec_loads]; [reflexivity|].
  unfold vec_load. rewrite E. unfold lenN. rewrite Nat2N.id, nth_error_app2, Nat.sub_diag by lia. cbn [map app nth_error obind].
  rewrite (IH _ (pre ++ [Some a]) rest).
  - reflexivity.
  - rewrite E, <- app_assoc. reflexivity.
  - unfold lenN. rewrite app_length. cbn. lia.
Qed.

Definition op_result {A} sz (s : vspec A) (o : vop A) (r : outc (vec A * vret A)) : Prop :=
  match vs_op s o with
  | Some (s', v) =>
      (exists x', r = Ok (x', v) /\ agrees sz x' s') \/
      (r = Err FAbort /\ 2 ^ 63 <= 2 * vs_demand s o * sz)
  | None => True
  end.

Lemma fuel64 {A} sz (x : vec A) : shape sz x -> 2 ^ 64 <= v_alloced x * 2 ^ N.of_nat 64.
Proof. intros []. change (2 ^ N.of_nat 64) with (2 ^ 64). lia. Qed.

Lemma reserve_spec {A} sz (x : vec A) k : small sz -> shape sz x ->
  (exists j x', vec_reserve sz x k = Ok x' /\ shape sz x' /\ v_n x + k <= v_alloced x' /\ v_alloced x <= v_alloced x' /\
     v_v x' = v_v x ++ repeat None j /\ v_n x' = v_n x /\ v_hint x' = v_hint x) \/
  (vec_reserve sz x k = Err FAbort /\ 2 ^ 63 <= 2 * (v_n x + k) * sz).
Proof.
  intros SZ SH. unfold vec_reserve. apply grow_spec; [exact SZ|exact SH|eapply fuel64; exact SH|].
  intros y Hy En. pose proof (al_bound sz y SZ Hy). destruct Hy. rewrite sub64_eq by lia. rewrite <- En. lia.
Qed.

Lemma add_grow_spec {A} sz (x : vec A) : small sz -> shape sz x ->
  let r := vec_grow 64 sz (fun x => v_alloced x <? wrap64 (v_n x + 1)) x in
  (exists j x', r = Ok x' /\ shape sz x' /\ v_n x + 1 <= v_alloced x' /\ v_alloced x <= v_alloced x' /\
     v_v x' = v_v x ++ repeat None j /\ v_n x' = v_n x /\ v_hint x' = v_hint x) \/
  (r = Err FAbort /\ 2 ^ 63 <= 2 * (v_n x + 1) * sz).
Proof.
  intros SZ SH. cbv zeta. apply grow_spec; [exact SZ|exact SH|eapply fuel64; exact SH|].
  intros y Hy En. pose proof (al_bound sz y SZ Hy). destruct Hy. rewrite wrap64_id by lia. rewrite <- En. reflexivity.
Qed.

Lemma agrees_behind {A} sz (x : vec A) s : agrees sz x s -> lenN (vs_elems s) + lenN (vs_behind s) <= v_alloced x.
Proof.
  intros [SH En Er (rest & Ec)]. rewrite <- (sh_len _ _ SH), Ec. unfold lenN. rewrite app_length, map_length, app_length. lia.
Qed.

(** A store of [l] right after the elements, made visible. *)
Lemma put_visible {A} sz (x : vec A) s l : small sz -> agrees sz x s -> v_n x + lenN l <= v_alloced x ->
  exists v, vec_put x (v_n x) l = Ok v /\ wrap64 (v_n x + lenN l) = v_n x + lenN l /\
   agrees sz (mk_vec v (v_blk x) (v_blk x, v_n x + lenN l) (v_n x + lenN l) (v_alloced x) (v_hint x))
     (mk_vs (vs_elems s ++ l) (skipn (length l) (vs_behind s)) (vs_room s - lenN l)).
Proof.
  intros SZ AG L. pose proof (al_bound _ _ SZ (ag_sh _ _ _ AG)) as AB. destruct AG as [[h1 h2 a1 a2 ln hp hn] En Er (rest & Ec)].
  rewrite En in *. destruct (put_behind x _ _ _ l Ec ltac:(lia)) as (rest' & Ep & El).
  rewrite Ep. eexists. split; [reflexivity|]. split; [apply wrap64_id; lia|].
  constructor; cbn.
  - constructor; cbn; try assumption; try reflexivity; try lia. unfold lenN in *. rewrite El. assumption.
  - unfold lenN. rewrite app_length. lia.
  - lia.
  - exists rest'. rewrite <- app_assoc. reflexivity.
Qed.

Lemma agrees_grown {A} sz (x x' : vec A) s j k : agrees sz x s -> shape sz x' -> v_n x + k <= v_alloced x' -> v_alloced x <= v_alloced x' ->
  v_v x' = v_v x ++ repeat None j -> v_n x' = v_n x -> agrees sz x' (mk_vs (vs_elems s) (vs_behind s) (N.max (vs_room s) k)).
Proof.
  intros [SH En Er (rest & Ec)] SH' L L2 Ev En'. constructor; cbn; auto; try lia.
  exists (rest ++ repeat None j). rewrite Ev, Ec, <- app_assoc. reflexivity.
Qed.

Lemma agrees_less_room {A} sz (x : vec A) c b r r' : agrees sz x (mk_vs c b r) -> r' <= r -> agrees sz x (mk_vs c b r').
Proof. intros [SH En Er Ec] L. constructor; cbn in *; auto; lia. Qed.

Lemma fresh_shape {A} sz h : small sz -> 1 <= h -> h < 2 ^ 32 -> forall b (v : list (option A)), lenN v = h -> shape sz (mk_vec v b (b, 0) 0 h h).
Proof. intros SZ H1 H2 b v E. pose proof (hint_bound sz h SZ H2). constructor; cbn; auto; lia. Qed.

Lemma fresh_agrees {A} sz h b (v : list (option A)) : small sz -> 1 <= h -> h < 2 ^ 32 -> lenN v = h ->
  agrees sz (mk_vec v b (b, 0) 0 h h) vs_init.
Proof.
  intros. constructor; cbn; auto using fresh_shape; try lia. exists v. reflexivity.
Qed.

Lemma op_sim {A} sz (x : vec A) s o : small sz -> agrees sz x s -> op_result sz s o (vec_op sz x o).
Proof.
  intros SZ AG. pose proof AG as AG0. pose proof (agrees_behind _ _ _ AG) as AB.
  pose proof (al_bound _ _ SZ (ag_sh _ _ _ AG)) as ALB. destruct AG0 as [SH En Er (rest & Ec)].
  unfold op_result. destruct o as [k|e|l| |k|k|l|k| |i|]; cbn [vs_op vs_demand vec_op].
  - destruct (reserve_spec sz x k SZ SH) as [(j & x' & E & SH' & L & L2 & Ev & En' & Eh)|[E L]]; rewrite E; cbn [obind].
    + left. exists x'. split; [reflexivity|]. eapply agrees_grown; eauto.
    + right. rewrite <- En. auto.
  - unfold vec_add. destruct (add_grow_spec sz x SZ SH) as [(j & x' & E & SH' & L & L2 & Ev & En' & Eh)|[E L]]; rewrite E; cbn [obind].
    + left. pose proof (agrees_grown _ _ _ _ _ 1 AG SH' L L2 Ev En') as AG'.
      destruct (put_visible sz x' _ [e] SZ AG') as (v & E1 & E2 & AG2); [rewrite En'; exact L|].
      rewrite E1. cbn [obind]. change (lenN [e]) with 1 in *. cbv zeta. rewrite E2. eexists. split; [reflexivity|].
      cbn in AG2. eapply agrees_less_room; [exact AG2|]. lia.
    + right. rewrite <- En. auto.
  - unfold vec_append. destruct (reserve_spec sz x (lenN l) SZ SH) as [(j & x' & E & SH' & L & L2 & Ev & En' & Eh)|[E L]]; rewrite E; cbn [obind].
    + left. pose proof (agrees_grown _ _ _ _ _ (lenN l) AG SH' L L2 Ev En') as AG'.
      destruct (put_visible sz x' _ l SZ AG') as (v & E1 & E2 & AG2); [rewrite En'; exact L|].
      rewrite E1. cbn [obind]. cbv zeta. rewrite E2. eexists. split; [reflexivity|].
      cbn in AG2. eapply agrees_less_room; [exact AG2|]. lia.
    + right. rewrite <- En. auto.
  - left. unfold vec_reset. destruct SH as [h1 h2 a1 a2 ln hp hn]. destruct (v_hint x <? v_alloced x) eqn:E.
    + rewrite alloc_ok by auto using hint_bound. cbn [obind]. eexists. split; [reflexivity|]. apply fresh_agrees; auto.
      unfold lenN in *. rewrite app_length, repeat_length, firstn_length. lia.
    + eexists. split; [reflexivity|]. constructor; cbn; try lia; [|exists (v_v x); reflexivity].
      constructor; cbn; auto; lia.
  - left. eexists. split; [reflexivity|]. unfold vec_clip. destruct SH as [h1 h2 a1 a2 ln hp hn].
    destruct (k <? v_n x) eqn:E; constructor; cbn.
    + constructor; cbn; auto; lia.
    + unfold lenN in *. rewrite firstn_length. lia.
    + lia.
    + exists rest. rewrite app_assoc, firstn_skipn. exact Ec.
    + constructor; auto.
    + unfold lenN in *. rewrite firstn_length. lia.
    + lia.
    + exists rest. rewrite app_assoc, firstn_skipn. exact Ec.
  - destruct (k <=? lenN (vs_behind s)) eqn:E; [|exact I]. left. unfold vec_advance.
    rewrite sub64_eq by (destruct SH; lia).
    destruct (k <=? v_alloced x - v_n x) eqn:E2; [|lia]. cbn [obind]. rewrite wrap64_id by lia. eexists. split; [reflexivity|].
    destruct SH as [h1 h2 a1 a2 ln hp hn]. constructor; cbn.
    + constructor; cbn; auto; lia.
    + unfold lenN in *. rewrite app_length, firstn_length. lia.
    + lia.
    + exists rest. rewrite <- app_assoc, firstn_skipn. exact Ec.
  - destruct (lenN l <=? vs_room s) eqn:E; [|exact I]. left. unfold vec_store, vec_live.
    rewrite (sh_p _ _ SH), En. cbn [fst snd]. rewrite Nat.eqb_refl. cbn [obind]. destruct (put_behind x _ _ _ l Ec) as (rest' & Ep & El).
    { rewrite (sh_len _ _ SH). lia. }
    rewrite Ep. cbn [obind]. eexists. split; [reflexivity|]. destruct SH as [h1 h2 a1 a2 ln hp hn]. constructor; cbn; auto; try lia.
    + constructor; cbn; auto; try lia. unfold lenN in *. rewrite El. assumption.
    + exists rest'. reflexivity.
  - destruct (Nat.leb k (length (vs_behind s))) eqn:E; [|exact I]. left. unfold vec_peek, vec_live. rewrite (sh_p _ _ SH), En. cbn [fst snd]. rewrite Nat.eqb_refl. cbn [obind].
    assert (LE : (k <= length (vs_behind s))%nat) by lia.
    assert (EL : vec_loads x (lenN (vs_elems s)) k = Ok (firstn k (vs_behind s))).
    { rewrite <- (firstn_length_le _ LE) at 1.
      eapply (loads_eq x _ _ (map Some (vs_elems s)) (map Some (skipn k (vs_behind s)) ++ rest)).
      - rewrite Ec, map_app, <- app_assoc. f_equal. rewrite app_assoc, <- map_app, firstn_skipn. reflexivity.
      - unfold lenN. rewrite map_length. reflexivity. }
    rewrite EL. cbn [obind]. eauto.
  - left. unfold vec_size. rewrite En. eauto.
  - destruct (nth_error (vs_elems s) (N.to_nat i)) as [a|] eqn:E; [|exact I]. left. unfold vec_value, vec_load.
    assert (LI : (N.to_nat i < length (vs_elems s))%nat) by (apply nth_error_Some; congruence).
    destruct (i <? v_n x) eqn:E2; [|unfold lenN in En; lia].
    rewrite Ec, nth_error_app1 by (rewrite map_length, app_length; lia). rewrite nth_error_map, nth_error_app1 by lia. rewrite E. cbn. eauto.
  - left. unfold vec_detach. destruct SH as [h1 h2 a1 a2 ln hp hn]. rewrite alloc_ok by auto using hint_bound. cbn [obind].
    assert (EL : vec_loads (mk_vec (v_v x) 0 (0%nat, 0) (v_n x) (v_n x) 0) 0 (N.to_nat (v_n x)) = Ok (vs_elems s)).
    { rewrite En. unfold lenN. rewrite Nat2N.id. apply (loads_eq _ _ _ [] (map Some (vs_behind s) ++ rest)); [|reflexivity].
      cbn. rewrite Ec, map_app, <- app_assoc. reflexivity. }
    rewrite EL. cbn [obind]. eexists. split; [reflexivity|]. apply fresh_agrees; auto.
    unfold lenN in *. rewrite app_length, repeat_length, firstn_length. lia.
Qed.

Lemma ops_sim {A} sz os : small sz -> forall (x : vec A) s rs, agrees sz x s -> vs_run s os = Some rs ->
  (exists x', vec_ops sz x os = Ok (x', rs)) \/ (vec_ops sz x os = Err FAbort /\ ~ vs_fits sz s os).
Proof.
  intro SZ. induction os as [|o os IH]; intros x s rs AG H; cbn [vs_run vec_ops vs_fits] in *.
  - injection H as <-. left. eauto.
  - pose proof (op_sim sz x s o SZ AG) as OS. unfold op_result in OS.
    destruct (vs_op s o) as [[s' v]|]; [|discriminate]. destruct (vs_run s' os) as [rs'|] eqn:ER; [|discriminate]. injection H as <-.
    destruct OS as [(x' & -> & AG')|[-> L]]; cbn [obind fst snd].
    + destruct (IH x' s' rs' AG' ER) as [(x2 & ->)|[-> NF]]; cbn [obind fst snd]; [left; eauto|right; split; [reflexivity|tauto]].
    + right. split; [reflexivity|]. intros [Q _]. lia.
Qed.

Lemma init_agrees {A} sz h : small sz -> h < 2 ^ 32 -> exists x : vec A, vec_init sz h = Ok x /\ agrees sz x vs_init.
Proof.
  intros SZ H. unfold vec_init. cbv zeta. set (h' := if h =? 0 then 1 else h).
  assert (H1 : 1 <= h' /\ h' < 2 ^ 32) by (unfold h'; destruct (h =? 0) eqn:E; lia).
  rewrite alloc_ok by (auto; apply hint_bound; tauto). cbn [obind]. eexists. split; [reflexivity|].
  apply fresh_agrees; try tauto. unfold lenN. rewrite app_length, repeat_length, firstn_length. cbn. lia.
Qed.

Lemma run_refines {A} sz h (os : list (vop A)) rs : small sz -> h < 2 ^ 32 -> vs_run vs_init os = Some rs ->
  vec_run sz h os = Ok rs \/ (vec_run sz h os = Err FAbort /\ ~ vs_fits sz vs_init os).
Proof.
  intros SZ H R. destruct (@init_agrees A sz h SZ H) as (x & E & AG). unfold vec_run. rewrite E. cbn [obind].
  destruct (ops_sim sz os SZ x _ rs AG R) as [(x' & ->)|[-> NF]]; cbn; auto.
Qed.

Lemma run_ok {A} sz h (os : list (vop A)) rs : small sz -> h < 2 ^ 32 -> vs_run vs_init os = Some rs ->
  vs_fits sz vs_init os -> vec_run sz h os = Ok rs.
Proof. intros SZ H R F. destruct (run_refines sz h os rs SZ H R) as [E|[_ NF]]; [exact E|contradiction]. Qed.

(** ** Any use at all: no endless growth *)
Definition no_fuel {A} sz (r : outc (vec A * vret A)) : Prop :=
  match r with Ok (x, _) => shape sz x | Err f => f <> FFuel end.

Lemma put_length {A} (x : vec A) i l v : vec_put x i l = Ok v -> lenN v = lenN (v_v x).
Proof.
  unfold vec_put. destruct (lenN (v_v x) <? i + lenN l) eqn:E; [discriminate|]. intro H. injection H as <-.
  unfold lenN in *. rewrite !app_length, map_length, firstn_length, skipn_length. lia.
Qed.
Lemma put_err {A} (x : vec A) i l f : vec_put x i l = Err f -> f <> FFuel.
Proof. unfold vec_put. destruct (_ <? _); intro H; [injection H as <-|]; discriminate. Qed.
Lemma loads_err {A} (x : vec A) k : forall i f, vec_loads x i k = Err f -> f <> FFuel.
Proof.
  induction k as [|k IH]; intros i f; cbn [vec_loads]; [discriminate|]. unfold vec_load.
  destruct (nth_error _ _) as [[a|]|]; cbn [obind]; try (intro H; injection H as <-; discriminate).
  destruct (vec_loads x (i + 1) k) eqn:E; cbn [obind]; [discriminate|]. intro H. injection H as <-. eauto.
Qed.

Lemma put_bound {A} (x : vec A) i l v : vec_put x i l = Ok v -> i + lenN l <= lenN (v_v x).
Proof. unfold vec_put. destruct (lenN (v_v x) <? i + lenN l) eqn:E; [discriminate|]. lia. Qed.

Lemma op_any {A} sz (x : vec A) o : small sz -> shape sz x -> no_fuel sz (vec_op sz x o).
Proof.
  intros SZ SH. pose proof (al_bound _ _ SZ SH) as ALB. pose proof SH as [h1 h2 a1 a2 ln hp hn].
  destruct o as [k|e|l| |k|k|l|k| |i|]; cbn [vec_op].
  - destruct (reserve_spec sz x k SZ SH) as [(j & x' & -> & SH' & _)|[-> _]]; cbn; [assumption|discriminate].
  - unfold vec_add. destruct (add_grow_spec sz x SZ SH) as [(j & x' & E & SH' & L & L2 & Ev & En & Eh)|[E _]]; rewrite E; cbn [obind]; [|discriminate].
    destruct (vec_put x' (v_n x') [e]) as [v|f] eqn:EP; cbn [obind]; [|exact (put_err _ _ _ _ EP)]. cbv zeta.
    pose proof (al_bound _ _ SZ SH'). pose proof (put_bound _ _ _ _ EP) as PB. change (lenN [e]) with 1 in PB. destruct SH'. rewrite wrap64_id by lia.
    apply put_length in EP. constructor; cbn; auto; lia.
  - unfold vec_append. destruct (reserve_spec sz x (lenN l) SZ SH) as [(j & x' & E & SH' & L & L2 & Ev & En & Eh)|[E _]]; rewrite E; cbn [obind]; [|discriminate].
    destruct (vec_put x' (v_n x') l) as [v|f] eqn:EP; cbn [obind]; [|exact (put_err _ _ _ _ EP)]. cbv zeta.
    pose proof (al_bound _ _ SZ SH'). pose proof (put_bound _ _ _ _ EP) as PB. destruct SH'. rewrite wrap64_id by lia.
    apply put_length in EP. constructor; cbn; auto; lia.
  - unfold vec_reset. destruct (v_hint x <? v_alloced x).
    + rewrite alloc_ok by auto using hint_bound. cbn. apply fresh_shape; auto.
      unfold lenN in *. rewrite app_length, repeat_length, firstn_length. lia.
    + cbn. constructor; cbn; auto; lia.
  - cbn. unfold vec_clip. destruct (k <? v_n x) eqn:E; [|exact SH]. constructor; cbn; auto; lia.
  - unfold vec_advance. rewrite sub64_eq by lia. destruct (k <=? v_alloced x - v_n x) eqn:E; cbn; [|discriminate].
    rewrite wrap64_id by lia. constructor; cbn; auto; lia.
  - unfold vec_store, vec_live. rewrite hp. cbn [fst snd]. rewrite Nat.eqb_refl. cbn [obind]. destruct (vec_put x (v_n x) l) as [v|f] eqn:EP; cbn; [|exact (put_err _ _ _ _ EP)].
    apply put_length in EP. constructor; cbn; auto; lia.
  - unfold vec_peek, vec_live. rewrite hp. cbn [fst snd]. rewrite Nat.eqb_refl. cbn [obind]. destruct (vec_loads x (v_n x) k) eqn:E; cbn; [assumption|exact (loads_err _ _ _ _ E)].
  - exact SH.
  - unfold vec_value, vec_load. destruct (i <? v_n x); [|discriminate]. destruct (nth_error _ _) as [[a|]|]; cbn; [assumption|discriminate|discriminate].
  - unfold vec_detach. rewrite alloc_ok by auto using hint_bound. cbn [obind].
    destruct (vec_loads _ _ _) eqn:E; cbn; [|exact (loads_err _ _ _ _ E)]. apply fresh_shape; auto.
    unfold lenN in *. rewrite app_length, repeat_length, firstn_length. cbn [length]. lia.
Qed.

Lemma ops_any {A} sz os : small sz -> forall x : vec A, shape sz x -> vec_ops sz x os <> Err FFuel.
Proof.
  intro SZ. induction os as [|o os IH]; intros x SH; cbn [vec_ops]; [discriminate|].
  pose proof (op_any sz x o SZ SH) as OA. destruct (vec_op sz x o) as [[x' v]|f]; cbn [obind fst snd] in *.
  - specialize (IH x' OA). destruct (vec_ops sz x' os); cbn; [discriminate|congruence].
  - cbn in OA. congruence.
Qed.

Lemma run_any {A} sz h (os : list (vop A)) : small sz -> h < 2 ^ 32 -> vec_run sz h os <> Err FFuel.
Proof.
  intros SZ H. destruct (@init_agrees A sz h SZ H) as (x & E & AG). unfold vec_run. rewrite E. cbn [obind].
  pose proof (ops_any sz os SZ x (ag_sh _ _ _ AG)) as Q. destruct (vec_ops sz x os); cbn; [discriminate|congruence].
Qed.

(** Storing only what was reserved never leaves the allocation: reserving and
    appending never do anything undefined, whatever happened before. *)
Lemma op_no_ub {A} sz (x : vec A) o u : small sz -> shape sz x ->
  match o with V_reserve _ | V_add _ | V_append _ | V_reset | V_clip _ | V_advance _ | V_size => True | _ => False end ->
  vec_op sz x o <> Err (FUb u).
Proof.
  intros SZ SH K. pose proof (al_bound _ _ SZ SH) as ALB. pose proof SH as [h1 h2 a1 a2 ln hp hn].
  destruct o as [k|e|l| |k|k|l|k| |i|]; try contradiction; cbn [vec_op].
  - destruct (reserve_spec sz x k SZ SH) as [(j & x' & -> & SH' & _)|[-> _]]; discriminate.
  - unfold vec_add. destruct (add_grow_spec sz x SZ SH) as [(j & x' & E & SH' & L & L2 & Ev & En & Eh)|[E _]]; rewrite E; cbn [obind]; [|discriminate].
    unfold vec_put. rewrite (sh_len _ _ SH'). change (lenN [e]) with 1. destruct (v_alloced x' <? v_n x' + 1) eqn:E2; [lia|discriminate].
  - unfold vec_append. destruct (reserve_spec sz x (lenN l) SZ SH) as [(j & x' & E & SH' & L & L2 & Ev & En & Eh)|[E _]]; rewrite E; cbn [obind]; [|discriminate].
    unfold vec_put. rewrite (sh_len _ _ SH'). destruct (v_alloced x' <? v_n x' + lenN l) eqn:E2; [lia|discriminate].
  - unfold vec_reset. destruct (v_hint x <? v_alloced x); [|discriminate]. rewrite alloc_ok by auto using hint_bound. discriminate.
  - discriminate.
  - unfold vec_advance. destruct (_ <=? _); discriminate.
  - discriminate.
Qed.

(** ** Index out of range *)
Lemma vec_ops_snoc {A} sz o os : forall x : vec A, vec_ops sz x (os ++ [o]) =
  match vec_ops sz x os with
  | Ok (y, rs) => match vec_op sz y o with Ok (z, r) => Ok (z, rs ++ [r]) | Err f => Err f end
  | Err f => Err f
  end.
Proof.
  induction os as [|o' os IH]; intro x; cbn [app vec_ops].
  - destruct (vec_op sz x o) as [[z r]|f]; reflexivity.
  - destruct (vec_op sz x o') as [[y r']|f]; cbn [obind fst snd]; [|reflexivity]. rewrite IH.
    destruct (vec_ops sz y os) as [[y2 rs]|f]; cbn [obind fst snd]; [|reflexivity].
    destruct (vec_op sz y2 o) as [[z r]|f]; reflexivity.
Qed.

Lemma value_aborts {A} sz h (os : list (vop A)) rs n i : small sz -> h < 2 ^ 32 ->
  vs_run vs_init (os ++ [V_size]) = Some (rs ++ [VR_n n]) -> n <= i ->
  vec_run sz h (os ++ [V_value i]) = Err FAbort.
Proof.
  intros SZ H R L. pose proof (run_refines sz h _ _ SZ H R) as Q. unfold vec_run in *.
  destruct (vec_init sz h) as [x|f]; cbn [obind] in *; [|destruct Q as [Q|[Q _]]; congruence].
  rewrite vec_ops_snoc in *. destruct (vec_ops sz x os) as [[y rs']|f]; cbn [obind] in *.
  2:{ destruct Q as [Q|[Q _]]; [discriminate|congruence]. }
  cbn [vec_op obind snd fst] in *. destruct Q as [Q|[Q _]]; [|discriminate].
  injection Q as Q. apply app_inj_tail in Q. destruct Q as [_ Q]. injection Q as Q.
  unfold vec_size in Q. unfold vec_value. destruct (i <? v_n y) eqn:E; [lia|reflexivity].
Qed.

(** ** Extending a vector by itself *)
Lemma grow_id {A} f sz more (x : vec A) : more x = false -> vec_grow f sz more x = Ok x.
Proof. intro M. destruct f; cbn [vec_grow]; rewrite M; reflexivity. Qed.
Lemma reserve_id {A} sz (x : vec A) k : small sz -> shape sz x -> v_n x + k <= v_alloced x -> vec_reserve sz x k = Ok x.
Proof.
  intros SZ SH L. pose proof (al_bound _ _ SZ SH). unfold vec_reserve. apply grow_id.
  destruct SH. rewrite sub64_eq by lia. apply N.ltb_ge. lia.
Qed.
Lemma extend_self_ok {A} sz (x : vec A) s : small sz -> agrees sz x s -> lenN (vs_elems s) <= vs_room s ->
  exists z s', vec_extend_self sz x = Ok z /\ agrees sz z s' /\ vs_elems s' = vs_elems s ++ vs_elems s.
Proof.
  intros SZ AG L. pose proof AG as [SH En Er (rest & Ec)]. unfold vec_extend_self.
  rewrite reserve_id by (auto; lia). cbn [obind]. unfold vec_live. rewrite Nat.eqb_refl. cbn [obind].
  replace (N.to_nat (v_n x)) with (length (vs_elems s)) by (rewrite En; unfold lenN; lia).
  rewrite (loads_eq x (vs_elems s) 0 [] (map Some (vs_behind s) ++ rest)).
  2:{ rewrite Ec, map_app, <- app_assoc. reflexivity. }
  2:{ reflexivity. }
  cbn [obind]. destruct (put_visible sz x s (vs_elems s) SZ AG ltac:(lia)) as (v & E1 & E2 & AG'). rewrite E1. cbn [obind].
  rewrite En in E2, AG' |- *. rewrite E2. eexists _, _. split; [reflexivity|]. split; [exact AG'|]. reflexivity.
Qed.

Lemma vec_ops_cons {A} sz (x : vec A) o os : vec_ops sz x (o :: os) =
  obind (vec_op sz x o) (fun r => obind (vec_ops sz (fst r) os) (fun rs => Ok (fst rs, snd r :: snd rs))).
Proof. reflexivity. Qed.
Lemma ops_reserved {A} sz k l os : small sz -> forall (x : vec A) s rs y rs', agrees sz x s ->
  vs_run s (os ++ [V_reserve k; V_detach]) = Some (rs ++ [VR_unit; VR_list l]) ->
  vec_ops sz x (os ++ [V_reserve k]) = Ok (y, rs') -> exists s', agrees sz y s' /\ vs_elems s' = l /\ k <= vs_room s'.
Proof.
  intro SZ. induction os as [|o os IH]; intros x s rs y rs' AG R V; cbn [app vs_run] in R; cbn [app] in V; rewrite vec_ops_cons in V.
  - pose proof (op_sim sz x s (V_reserve k) SZ AG) as OS. unfold op_result in OS. cbn [vs_op] in OS, R.
    injection R as R. assert (E : l = vs_elems s).
    { destruct rs as [|r0 [|r1 [|r2 rs]]]; cbn in R; injection R; intros; try discriminate; auto.
      all: match goal with H : [] = _ |- _ => symmetry in H; apply app_eq_nil in H as [_ H]; discriminate | H : _ :: _ = _ |- _ => discriminate | _ => idtac end. }
    destruct OS as [(x' & E1 & AG')|[E1 _]]; rewrite E1 in V; cbn [obind vec_ops fst snd] in V; [|discriminate]. injection V as <- _.
    eexists. split; [exact AG'|]. cbn. split; [auto|lia].
  - pose proof (op_sim sz x s o SZ AG) as OS. unfold op_result in OS. destruct (vs_op s o) as [[s' v]|]; [|discriminate].
    destruct (vs_run s' (os ++ _)) as [rs2|] eqn:R2; [|discriminate]. injection R as R.
    destruct OS as [(x' & E1 & AG')|[E1 _]]; rewrite E1 in V; cbn [obind fst snd] in V; [|discriminate].
    destruct (vec_ops sz x' (os ++ [V_reserve k])) as [[y2 rs3]|] eqn:V2; [|discriminate]. cbn [obind fst snd] in V. injection V as <- _.
    destruct rs as [|r0 rs].
    + exfalso. cbn in R. injection R as _ R. subst rs2. clear -R2. revert s' R2.
      assert (L : forall (os : list (vop A)) s rs, vs_run s os = Some rs -> length rs = length os).
      { clear. induction os as [|o os IH]; intros s rs H; cbn in H; [injection H as <-; reflexivity|].
        destruct (vs_op s o) as [[s' v]|]; [|discriminate]. destruct (vs_run s' os) eqn:E; [|discriminate]. injection H as <-. cbn. f_equal. eauto. }
      intros s' H. apply L in H. rewrite app_length in H. cbn in H. lia.
    + cbn in R. injection R as _ R. subst rs2. eapply IH; eassumption.
Qed.

Lemma extend_self_doubles {A} sz h (os : list (vop A)) k rs l x y rs' : small sz -> h < 2 ^ 32 ->
  vs_run vs_init (os ++ [V_reserve k; V_detach]) = Some (rs ++ [VR_unit; VR_list l]) -> lenN l <= k ->
  vec_init sz h = Ok x -> vec_ops sz x (os ++ [V_reserve k]) = Ok (y, rs') ->
  exists z, vec_extend_self sz y = Ok z /\ exists w, vec_ops sz z [V_detach] = Ok (w, [VR_list (l ++ l)]).
Proof.
  intros SZ H R L I V. destruct (@init_agrees A sz h SZ H) as (x0 & E & AG). rewrite E in I. injection I as ->.
  destruct (ops_reserved sz k l os SZ x _ rs y rs' AG R V) as (s & AGs & <- & K).
  destruct (extend_self_ok sz y s SZ AGs ltac:(lia)) as (z & s' & E1 & AGz & E2). exists z. split; [exact E1|].
  pose proof (op_sim sz z s' V_detach SZ AGz) as OS. unfold op_result in OS. cbn [vs_op vs_demand] in OS.
  destruct OS as [(w & E3 & _)|[E3 B]].
  - exists w. cbn [vec_ops]. rewrite E3. cbn. rewrite E2. reflexivity.
  - exfalso. rewrite N.mul_0_r, N.mul_0_l in B. lia.
Qed.

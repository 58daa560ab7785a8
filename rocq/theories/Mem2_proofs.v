(** Programs that use the library: the ledger of blocks. *)
From Coq Require Import Permutation.
From Verif Require Import Bytes Mem SpecMem Mem_proofs.
Local Open Scope nat_scope.
Local Notation "x <~ p ;; q" := (mbind p (fun x => q)) (at level 100, p at next level, right associativity).
Local Notation "p ;;; q" := (mbind p (fun _ => q)) (at level 100, right associativity).

Lemma set_length s i x : length (set s i x) = length s.
Proof. revert i. induction s as [|y s IH]; intros [|i]; cbn; auto. Qed.
Lemma var_set s i x : i < length s -> var (set s i x) i = x.
Proof. revert i. induction s as [|y s IH]; intros [|i] H; cbn in *; try lia; auto. apply IH. lia. Qed.
Lemma var_set_other s i j x : j <> i -> var (set s i x) j = var s j.
Proof. revert i j. induction s as [|y s IH]; intros [|i] [|j] H; cbn; try reflexivity; try contradiction. apply IH. lia. Qed.
Lemma var_lt s i : var s i <> O_null -> i < length s.
Proof. intro H. destruct (Nat.ltb_spec i (length s)) as [L|L]; [exact L|]. exfalso. apply H. apply nth_overflow, L. Qed.
Lemma var_ge s i : length s <= i -> var s i = O_null.
Proof. apply nth_overflow. Qed.
Lemma owned_cons x s : owned (x :: s) = own x ++ owned s. Proof. reflexivity. Qed.
Lemma owned_snoc s x : owned (s ++ [x]) = owned s ++ own x.
Proof. unfold owned. rewrite map_app, concat_app. cbn. rewrite app_nil_r. reflexivity. Qed.
Lemma owned_take s i : Permutation (owned s) (own (var s i) ++ owned (set s i O_null)).
Proof.
  revert i. induction s as [|y s IH]; intros [|i]; cbn [set]; try reflexivity.
  change (var (y :: s) (S i)) with (var s i). rewrite !owned_cons. specialize (IH i). pm.
Qed.
Lemma owned_put s i x : i < length s -> Permutation (owned (set s i x)) (own x ++ owned (set s i O_null)).
Proof.
  revert i. induction s as [|y s IH]; intros [|i] H; cbn [set length] in *; try lia; try reflexivity.
  rewrite !owned_cons. specialize (IH i ltac:(lia)). pm.
Qed.
Lemma var_snoc s x j : var (s ++ [x]) j = if Nat.eqb j (length s) then x else var s j.
Proof.
  unfold var. destruct (Nat.eqb_spec j (length s)) as [->|N].
  - rewrite app_nth2, Nat.sub_diag by lia. reflexivity.
  - destruct (Nat.ltb_spec j (length s)); [apply app_nth1; assumption|].
    rewrite !nth_overflow; rewrite ?app_length; cbn; auto; lia.
Qed.

(** What a call does to the variables, and the frame it forgets. *)
Record stepped (s : vars) (c : mcall) (x : mres * vars) (lost : option cobj) : Prop := {
  st_len : length s <= length (snd x);
  st_other : forall j, j < length s -> concerns c j = false -> var (snd x) j = var s j;
  st_stop : match fst x with
    | MR_stop => exists i r r', c = MC_read i /\ var s i = O_reader r /\ snd x = set s i (O_reader r') /\ lost = mr_stop r /\ mr_stop r' <> None
    | _ => lost = None /\ forall j r, var (snd x) j = O_reader r ->
             match var s j with O_reader r0 => mr_stop r = mr_stop r0 | O_null => length s <= j /\ mr_stop r = None | _ => False end
    end;
  st_given : match fst x with
    | MR_data b => exists i r, c = MC_read i /\ var (snd x) i = O_reader r /\ b = ub_v (mr_buf r)
    | MR_ctl (Some k) => exists i t, c = MC_get i t /\ incl (own_ctl k) (own (var (snd x) i))
    | _ => True
    end;
  st_buf : forall j r, var s j = O_reader r -> c <> MC_read j -> c <> MC_destroy j ->
    exists r', var (snd x) j = O_reader r' /\ mr_buf r' = mr_buf r }.
Definition step_post (s : vars) (c : mcall) (x : mres * vars) (l : list blk) : Prop :=
  exists lost, l = owned (snd x) ++ own_opt own_ctl lost /\ stepped s c x lost.

Lemma stepped_same s c g : match g with MR_stop | MR_data _ | MR_ctl (Some _) => False | _ => True end -> stepped s c (g, s) None.
Proof.
  intro G. split; cbn [fst snd].
  - lia.
  - reflexivity.
  - assert (X : forall j r, var s j = O_reader r -> match var s j with O_reader r0 => mr_stop r = mr_stop r0 | O_null => length s <= j /\ mr_stop r = None | _ => False end)
      by (intros j r ->; reflexivity).
    destruct g; try contradiction; split; auto.
  - destruct g as [| | |[|]]; try contradiction; exact I.
  - intros j r E _ _. eauto.
Qed.
Lemma same_post s c g : match g with MR_stop | MR_data _ | MR_ctl (Some _) => False | _ => True end -> spec (mret (g, s)) (owned s) (step_post s c).
Proof.
  intro G. eapply spec_ret with (l := owned s ++ []); [rewrite app_nil_r; reflexivity|]. exists None. split; [reflexivity|]. apply stepped_same, G.
Qed.
Lemma stepped_set s c i y g : i < length s -> (forall j, concerns c j = false -> j <> i) ->
  match g with MR_stop => False
  | MR_data b => c = MC_read i /\ exists r, y = O_reader r /\ b = ub_v (mr_buf r)
  | MR_ctl (Some k) => (exists t, c = MC_get i t) /\ incl (own_ctl k) (own y)
  | _ => True end ->
  match y with
  | O_reader r => match var s i with O_reader r0 => mr_stop r = mr_stop r0 /\ (mr_buf r = mr_buf r0 \/ c = MC_read i) | _ => False end
  | _ => match var s i with O_reader _ => c = MC_destroy i | _ => True end
  end -> stepped s c (g, set s i y) None.
Proof.
  intros L C G Y. split; cbn [fst snd].
  - rewrite set_length. lia.
  - intros j _ H. apply var_set_other, C, H.
  - assert (X : forall j r, var (set s i y) j = O_reader r ->
             match var s j with O_reader r0 => mr_stop r = mr_stop r0 | O_null => length s <= j /\ mr_stop r = None | _ => False end).
    { intros j r E. destruct (Nat.eq_dec j i) as [->|N].
      - rewrite var_set in E by exact L. subst y. destruct (var s i); try contradiction. apply Y.
      - rewrite var_set_other in E by exact N. rewrite E. reflexivity. }
    destruct g; try contradiction; split; auto.
  - destruct g as [|b| |[k|]]; try exact I.
    + destruct G as (-> & r & -> & ->). exists i, r. rewrite var_set by exact L. auto.
    + destruct G as ((t & ->) & G). exists i, t. rewrite var_set by exact L. auto.
  - intros j r E N1 N2. destruct (Nat.eq_dec j i) as [->|N].
    + rewrite var_set by exact L. rewrite E in Y. destruct y; try contradiction. exists r0. split; [reflexivity|]. destruct Y as [_ [Y|Y]]; [exact Y|contradiction].
    + rewrite var_set_other by exact N. eauto.
Qed.
Lemma upd {A} s c i (p : mem A) (f : A -> obj) (g : A -> mres) (P : A -> option cobj -> Prop) :
  var s i <> O_null -> spec p (own (var s i)) (fun a l => exists lost, l = own (f a) ++ own_opt own_ctl lost /\ P a lost) ->
  (forall a lost, P a lost -> stepped s c (g a, set s i (f a)) lost) ->
  spec (a <~ p ;; mret (g a, set s i (f a))) (owned s) (step_post s c).
Proof.
  intros N H K. eapply sp_call; [exact H|apply owned_take|]. cbv beta. intros a l (lost & -> & Pa).
  eapply spec_ret; [|exists lost; split; [reflexivity|apply K, Pa]]. cbn [snd].
  pose proof (owned_put s i (f a) (var_lt s i N)). pm.
Qed.
Lemma upd0 {A} s c i (p : mem A) (f : A -> obj) (g : A -> mres) (P : A -> Prop) :
  var s i <> O_null -> (forall j, concerns c j = false -> j <> i) -> spec p (own (var s i)) (fun a l => l = own (f a) /\ P a) ->
  (forall a, P a -> match g a with MR_stop => False
  | MR_data b => c = MC_read i /\ exists r, f a = O_reader r /\ b = ub_v (mr_buf r)
  | MR_ctl (Some k) => (exists t, c = MC_get i t) /\ incl (own_ctl k) (own (f a))
  | _ => True end /\
  match f a with
  | O_reader r => match var s i with O_reader r0 => mr_stop r = mr_stop r0 /\ (mr_buf r = mr_buf r0 \/ c = MC_read i) | _ => False end
  | _ => match var s i with O_reader _ => c = MC_destroy i | _ => True end
  end) ->
  spec (a <~ p ;; mret (g a, set s i (f a))) (owned s) (step_post s c).
Proof.
  intros N C H K. eapply upd with (P := fun a lost => lost = None /\ P a); [exact N| |].
  - eapply spec_mono; [exact H|]. cbv beta. intros a l [-> Pa]. exists (own (f a)). split; [reflexivity|]. exists None. cbn [own_opt]. rewrite app_nil_r. auto.
  - intros a lost [-> Pa]. destruct (K a Pa). apply stepped_set; auto. apply var_lt, N.
Qed.

(** A transport and the options are separate. *)
Definition is_opt (x : obj) : Prop := match x with O_ropt _ | O_wopt _ => True | _ => False end.
Lemma f_get_transport s t rd : spec (get_transport s t rd) (owned s)
  (fun x l => match x with
    | None => l = owned s
    | Some (x, s') => Permutation l (owned s' ++ own_rdwr x) /\ length s' = length s /\
        (s' = s /\ (if rd then rw_read x = true else rw_write x = true) \/ exists i, t = TR_rdwr i /\ var s i = O_rdwr x /\ s' = set s i O_null)
    end).
Proof.
  destruct t as [i|i|i|i]; cbn [get_transport]; destruct (var s i) eqn:E; try (eapply spec_ret; reflexivity).
  - eapply spec_ret; [reflexivity|]. cbv beta iota. split; [|split; [apply set_length|right; eauto]].
    pose proof (owned_take s i) as P. rewrite E in P. cbn [own] in P. pm.
  - eapply sp_call; [apply f_ro_file|pose proof (owned_take s i) as P; rewrite E in P; exact P|]. cbv beta. intros [y|] l [H1 H2]; unfold own_made in H1; subst l; cbn [option_map].
    + eapply spec_ret; [reflexivity|]. cbv beta iota. split; [|split; [reflexivity|left; split; [reflexivity|destruct rd; apply H2]]].
      pose proof (owned_take s i) as P. rewrite E in P. cbn [own] in P. cbn [own_opt]. unfold own_p. pm.
    + eapply spec_ret; [|reflexivity]. pose proof (owned_take s i) as P. rewrite E in P. cbn [own] in P. cbn [own_opt]. unfold own_p. pm.
  - destruct rd; [eapply spec_ret; reflexivity|].
    eapply sp_call; [apply f_ro_unix|pose proof (owned_take s i) as P; rewrite E in P; exact P|]. cbv beta. intros [y|] l [H1 H2]; unfold own_made in H1; subst l; cbn [option_map].
    + eapply spec_ret; [reflexivity|]. cbv beta iota. split; [|split; [reflexivity|left; split; [reflexivity|exact H2]]].
      pose proof (owned_take s i) as P. rewrite E in P. cbn [own] in P. cbn [own_opt]. unfold own_p. pm.
    + eapply spec_ret; [|reflexivity]. pose proof (owned_take s i) as P. rewrite E in P. cbn [own] in P. cbn [own_opt]. unfold own_p. pm.
  - destruct rd; [eapply spec_ret; reflexivity|].
    eapply sp_call; [apply f_ro_tcp|pose proof (owned_take s i) as P; rewrite E in P; exact P|]. cbv beta. intros [y|] l [H1 H2]; unfold own_made in H1; subst l; cbn [option_map].
    + eapply spec_ret; [reflexivity|]. cbv beta iota. split; [|split; [reflexivity|left; split; [reflexivity|exact H2]]].
      pose proof (owned_take s i) as P. rewrite E in P. cbn [own] in P. cbn [own_opt]. unfold own_p. pm.
    + eapply spec_ret; [|reflexivity]. pose proof (owned_take s i) as P. rewrite E in P. cbn [own] in P. cbn [own_opt]. unfold own_p. pm.
Qed.
Lemma opt_part s o k : (k = 0 /\ o = None \/ exists i x, o = Some x /\ (var s i = O_ropt x \/ var s i = O_wopt x)) ->
  exists rest, Permutation (owned s) (own_opt own_o o ++ rest).
Proof.
  intros [[_ ->]|(i & x & -> & H)]; [exists (owned s); reflexivity|]. exists (owned (set s i O_null)). pose proof (owned_take s i) as P.
  destruct H as [H|H]; rewrite H in P; exact P.
Qed.
Lemma stepped_new s c s' y : length s' = length s -> (forall j, j < length s -> concerns c j = false -> var s' j = var s j) ->
  (forall j r, var s' j = O_reader r -> var s j = O_reader r) -> (forall j r, var s j = O_reader r -> var s' j = O_reader r) ->
  match y with O_reader r => mr_stop r = None | _ => True end -> stepped s c (MR_done, s' ++ [y]) None.
Proof.
  intros L O R1 R2 Y. split; cbn [fst snd].
  - rewrite app_length. lia.
  - intros j H1 H2. rewrite var_snoc. destruct (Nat.eqb_spec j (length s')); [lia|]. apply O; assumption.
  - split; [reflexivity|]. intros j r. rewrite var_snoc. destruct (Nat.eqb_spec j (length s')) as [->|N].
    + intros ->. rewrite L, var_ge by lia. split; [lia|exact Y].
    + intro E. rewrite (R1 _ _ E). reflexivity.
  - exact I.
  - intros j r E _ _. exists r. split; [|reflexivity]. rewrite var_snoc. destruct (Nat.eqb_spec j (length s')) as [->|N]; [|apply R2, E].
    rewrite var_ge in E by lia. discriminate.
Qed.
Lemma taken_var s i x : var s i = O_rdwr x -> forall j r, var (set s i O_null) j = O_reader r <-> var s j = O_reader r.
Proof.
  intros E j r. destruct (Nat.eq_dec j i) as [->|N]; [|rewrite var_set_other by exact N; reflexivity].
  rewrite var_set by (apply var_lt; rewrite E; discriminate). rewrite E. split; discriminate.
Qed.

Lemma opt_stays s i x j o : var s i = O_rdwr x -> var s j = o -> is_opt o -> var (set s i O_null) j = o.
Proof. intros E F O. destruct (Nat.eq_dec j i) as [->|N]; [rewrite E in F; subst o; destruct O|]. rewrite var_set_other by exact N. exact F. Qed.

Lemma f_mstep s c : spec (mstep s c) (owned s) (step_post s c).
Proof.
  destruct c as [k|i|i|i|i|i|i ok|i second given|o t|o t|i|i|i|i|i t]; cbn [mstep].
  - (* new *)
    eapply sp_new with (R := fun x l => l = own x /\ match x with O_reader _ => False | _ => True end).
    + destruct k; cbn [new_obj].
      * eapply spec_bind; [apply f_co_init|]. cbv beta. intros a ? ->. eapply spec_ret; [|split; [reflexivity|exact I]]; reflexivity.
      * eapply spec_bind; [apply f_oo_init|]. cbv beta. intros a ? ->. eapply spec_ret; [|split; [reflexivity|exact I]]; reflexivity.
      * eapply spec_bind; [apply f_oo_init|]. cbv beta. intros a ? ->. eapply spec_ret; [|split; [reflexivity|exact I]]; reflexivity.
      * eapply spec_bind; [apply f_po_init|]. cbv beta. intros a ? ->. eapply spec_ret; [|split; [reflexivity|exact I]]; reflexivity.
      * eapply spec_bind; [apply f_ro_user|]. cbv beta. intros a ? (-> & _). eapply spec_ret; [|split; [reflexivity|exact I]]; reflexivity.
    + cbv beta. intros x l [-> Hx]. eapply spec_ret with (l := owned (s ++ [x]) ++ []).
      * rewrite owned_snoc. pm.
      * exists None. split; [reflexivity|]. apply stepped_new; auto. destruct x; auto. destruct Hx.
  - (* destroy *)
    destruct (Nat.ltb_spec i (length s)) as [L|L].
    + eapply sp_call with (l := own (var s i)) (R := fun _ l => l = []); [|apply owned_take|].
      * destruct (var s i); cbn [destroy_obj own].
        -- eapply spec_ret; reflexivity.
        -- apply (f_co_destroy (Some c)).
        -- apply f_oo_destroy.
        -- apply f_oo_destroy.
        -- apply f_po_destroy.
        -- apply f_ro_destroy.
        -- apply f_mr_destroy.
        -- apply f_mw_destroy.
      * cbv beta. intros _ l ->. eapply spec_ret with (l := owned (set s i O_null) ++ []); [cbn [app]; rewrite app_nil_r; reflexivity|].
        exists None. split; [reflexivity|]. apply stepped_set; auto.
        -- intros j H. cbn in H. apply Nat.eqb_neq, H.
        -- destruct (var s i); auto.
    + assert (E : var s i = O_null) by (apply var_ge, L). rewrite E. cbn [destroy_obj]. apply sp_ret.
      assert (S : set s i O_null = s). { clear E. revert i L. induction s as [|y s IH]; intros [|i] L; cbn in *; try lia; auto. f_equal. apply IH. lia. }
      rewrite S. apply same_post. exact I.
  - destruct (var s i) eqn:E; try (apply same_post; exact I).
    eapply upd0 with (P := fun _ => True); rewrite ?E; try discriminate.
    + intros j H. cbn in H. apply Nat.eqb_neq, H.
    + eapply spec_mono; [apply f_co_reset|]. cbv beta. intros d l [-> _]. exists (own_ctl d). split; [reflexivity|]. split; [reflexivity|exact I].
    + auto.
  - destruct (var s i) eqn:E; try (apply same_post; exact I).
    eapply upd0 with (P := fun _ => True); rewrite ?E; try discriminate.
    + intros j H. cbn in H. apply Nat.eqb_neq, H.
    + eapply spec_mono; [apply f_co_add|]. cbv beta. intros d l ->. exists (own_ctl d). split; [reflexivity|]. split; [reflexivity|exact I].
    + auto.
  - destruct (var s i) eqn:E; try (apply same_post; exact I).
    eapply upd0 with (P := fun _ => True) (f := fun oc => O_ctl (snd oc)); rewrite ?E; try discriminate.
    + intros j H. cbn in H. apply Nat.eqb_neq, H.
    + eapply spec_mono; [apply f_co_decode|]. cbv beta. intros d l ->. exists (own_ctl (snd d)). split; [reflexivity|]. split; [reflexivity|exact I].
    + auto.
  - destruct (var s i) eqn:E; try (apply same_post; exact I).
    eapply sp_reads; [apply reads_co_read| |intros _; apply same_post; exact I].
    intros y H. eapply Permutation_in; [symmetry; apply (owned_take s i)|]. rewrite E. apply in_or_app. left. exact H.
  - destruct (var s i) eqn:E; try (apply same_post; exact I).
    + eapply upd0 with (P := fun _ => True); rewrite ?E; try discriminate.
      * intros j H. cbn in H. apply Nat.eqb_neq, H.
      * eapply spec_mono; [apply f_oo_add|]. cbv beta. intros d l ->. exists (own_o d). split; [reflexivity|]. split; [reflexivity|exact I].
      * auto.
    + eapply upd0 with (P := fun _ => True); rewrite ?E; try discriminate.
      * intros j H. cbn in H. apply Nat.eqb_neq, H.
      * eapply spec_mono; [apply f_oo_add|]. cbv beta. intros d l ->. exists (own_o d). split; [reflexivity|]. split; [reflexivity|exact I].
      * auto.
  - destruct (var s i) eqn:E; try (apply same_post; exact I).
    eapply upd0 with (P := fun _ => True); rewrite ?E; try discriminate.
    + intros j H. cbn in H. apply Nat.eqb_neq, H.
    + eapply spec_mono; [apply f_po_set|]. cbv beta. intros d l ->. exists (own_p d). split; [reflexivity|]. split; [reflexivity|exact I].
    + auto.
  - (* reader *)
    destruct (reader_opt s o) as [oo|] eqn:EO; [|apply same_post; exact I].
    eapply spec_bind; [apply f_get_transport|]. cbv beta. intros [[x s']|] l; [|intros ->; apply same_post; exact I].
    intros (P & L & H).
    assert (OP : exists rest, Permutation (owned s') (own_opt own_o oo ++ rest)).
    { apply (opt_part s' oo 0). destruct o as [j|]; cbn [reader_opt] in EO; [|injection EO as <-; left; auto].
      right. destruct (var s j) eqn:EJ; try discriminate. injection EO as <-. exists j, x0. split; [reflexivity|]. left.
      destruct H as [[-> _]|(i & _ & E & ->)]; [exact EJ|]. eapply opt_stays; [exact E|exact EJ|exact I]. }
    destruct OP as (rest & OP).
    eapply sp_call with (f := rest); [apply f_mr_init|pm|]. cbv beta. intros [r|] l'.
    + intros [-> Hs]. eapply spec_ret with (l := owned (s' ++ [O_reader r]) ++ []).
      * rewrite owned_snoc. cbn [own]. pm.
      * exists None. split; [reflexivity|]. apply stepped_new; auto.
        -- intros j H1 H2. destruct H as [[-> _]|(i & -> & E & ->)]; [reflexivity|]. cbn in H2. apply var_set_other, Nat.eqb_neq, H2.
        -- intros j r' E'. destruct H as [[-> _]|(i & _ & E & ->)]; [exact E'|]. apply (taken_var s i x E), E'.
        -- intros j r' E'. destruct H as [[-> _]|(i & _ & E & ->)]; [exact E'|]. apply (taken_var s i x E), E'.
    + intros [-> Hr]. eapply spec_ret with (l := owned s ++ []); [|exists None; split; [reflexivity|apply stepped_same; exact I]].
      destruct H as [[_ H]|(i & _ & E & ->)]; [congruence|]. pose proof (owned_take s i) as T. rewrite E in T. cbn [own] in T. pm.
  - (* writer *)
    destruct (writer_opt s o) as [oo|] eqn:EO; [|apply same_post; exact I].
    eapply spec_bind; [apply f_get_transport|]. cbv beta. intros [[x s']|] l; [|intros ->; apply same_post; exact I].
    intros (P & L & H).
    assert (OP : exists rest, Permutation (owned s') (own_opt own_o oo ++ rest)).
    { apply (opt_part s' oo 0). destruct o as [j|]; cbn [writer_opt] in EO; [|injection EO as <-; left; auto].
      right. destruct (var s j) eqn:EJ; try discriminate. injection EO as <-. exists j, x0. split; [reflexivity|]. right.
      destruct H as [[-> _]|(i & _ & E & ->)]; [exact EJ|]. eapply opt_stays; [exact E|exact EJ|exact I]. }
    destruct OP as (rest & OP).
    eapply sp_call with (f := rest); [apply f_mw_init|pm|]. cbv beta. intros [r|] l'.
    + intros ->. eapply spec_ret with (l := owned (s' ++ [O_writer r]) ++ []).
      * rewrite owned_snoc. cbn [own]. pm.
      * exists None. split; [reflexivity|]. apply stepped_new; auto.
        -- intros j H1 H2. destruct H as [[-> _]|(i & -> & E & ->)]; [reflexivity|]. cbn in H2. apply var_set_other, Nat.eqb_neq, H2.
        -- intros j r' E'. destruct H as [[-> _]|(i & _ & E & ->)]; [exact E'|]. apply (taken_var s i x E), E'.
        -- intros j r' E'. destruct H as [[-> _]|(i & _ & E & ->)]; [exact E'|]. apply (taken_var s i x E), E'.
    + intros [-> Hr]. eapply spec_ret with (l := owned s ++ []); [|exists None; split; [reflexivity|apply stepped_same; exact I]].
      destruct H as [[_ H]|(i & _ & E & ->)]; [congruence|]. pose proof (owned_take s i) as T. rewrite E in T. cbn [own] in T. pm.
  - (* open *)
    destruct (var s i) eqn:E; try (apply same_post; exact I).
    + eapply upd0 with (P := fun x => mr_stop (snd x) = mr_stop r /\ mr_buf (snd x) = mr_buf r) (f := fun x => O_reader (snd x)); rewrite ?E; try discriminate.
      * intros j H. cbn in H. apply Nat.eqb_neq, H.
      * eapply spec_mono; [apply f_mr_open|]. intros x l [-> H]. eexists. split; [reflexivity|]. split; [reflexivity|exact H].
      * intros a [H1 H2]. auto.
    + eapply upd0 with (P := fun x => True) (f := fun x => O_writer (snd x)); rewrite ?E; try discriminate.
      * intros j H. cbn in H. apply Nat.eqb_neq, H.
      * eapply spec_mono; [apply f_mw_open|]. intros x l ->. eexists. split; [reflexivity|]. split; [reflexivity|exact I].
      * auto.
  - (* read *)
    destruct (var s i) eqn:E; try (apply same_post; exact I).
    assert (L : i < length s) by (apply var_lt; rewrite E; discriminate).
    eapply upd with (f := fun x => O_reader (snd x))
      (P := fun x lost => match fst x with
              | RR_stop => lost = mr_stop r /\ mr_stop (snd x) <> None
              | RR_data b => lost = None /\ mr_stop (snd x) = mr_stop r /\ b = ub_v (mr_buf (snd x))
              | RR_fail => lost = None /\ mr_stop (snd x) = mr_stop r end); rewrite ?E; try discriminate.
    + eapply spec_mono; [apply f_mr_read|]. intros x l (lost & -> & H). eexists. split; [reflexivity|]. exists lost. split; [reflexivity|exact H].
    + intros [rr r'] lost H. cbn [fst snd] in *. destruct rr as [b| |].
      * destruct H as (-> & H1 & H2). apply stepped_set; rewrite ?E; auto.
        -- intros j H. cbn in H. apply Nat.eqb_neq, H.
        -- split; [reflexivity|]. eauto.
      * destruct H as (-> & H1). split; cbn [fst snd].
        -- rewrite set_length. lia.
        -- intros j _ H. cbn in H. apply var_set_other, Nat.eqb_neq, H.
        -- exists i, r, r'. auto.
        -- exact I.
        -- intros j r0 Ej N1 N2. assert (j <> i) by congruence. rewrite var_set_other by assumption. eauto.
      * destruct H as (-> & H1). apply stepped_set; rewrite ?E; auto.
        intros j H. cbn in H. apply Nat.eqb_neq, H.
  - (* write *)
    destruct (var s i) eqn:E; try (apply same_post; exact I).
    eapply upd0 with (P := fun x => True); rewrite ?E; try discriminate.
    + intros j H. cbn in H. apply Nat.eqb_neq, H.
    + eapply spec_mono; [apply f_mw_write|]. intros x l ->. eexists. split; [reflexivity|]. split; [reflexivity|exact I].
    + auto.
  - (* close *)
    destruct (var s i) eqn:E; try (apply same_post; exact I).
    + eapply upd0 with (P := fun x => mr_stop x = mr_stop r /\ mr_buf x = mr_buf r); rewrite ?E; try discriminate.
      * intros j H. cbn in H. apply Nat.eqb_neq, H.
      * eapply spec_mono; [apply f_mr_close|]. intros x l [-> H]. eexists. split; [reflexivity|]. split; [reflexivity|exact H].
      * intros a [H1 H2]. auto.
    + eapply upd0 with (P := fun x => True); rewrite ?E; try discriminate.
      * intros j H. cbn in H. apply Nat.eqb_neq, H.
      * eapply spec_mono; [apply f_mw_close|]. intros x l ->. eexists. split; [reflexivity|]. split; [reflexivity|exact I].
      * auto.
  - (* get *)
    destruct (var s i) eqn:E; try (apply same_post; exact I).
    + eapply upd0 with (P := fun x => mr_stop (snd x) = mr_stop r /\ mr_buf (snd x) = mr_buf r /\ match fst x with Some c => incl (own_ctl c) (own_reader (snd x)) | None => True end)
        (f := fun x => O_reader (snd x)) (g := fun x => MR_ctl (fst x)); rewrite ?E; try discriminate.
      * intros j H. cbn in H. apply Nat.eqb_neq, H.
      * eapply spec_mono; [apply f_mr_get|]. intros x l [-> H]. eexists. split; [reflexivity|]. split; [reflexivity|exact H].
      * intros a (H1 & H2 & H3). split; [destruct (fst a); [split; [eauto|exact H3]|exact I]|]. auto.
    + eapply upd0 with (P := fun x => match fst x with Some c => incl (own_ctl c) (own_writer (snd x)) | None => True end)
        (f := fun x => O_writer (snd x)) (g := fun x => MR_ctl (fst x)); rewrite ?E; try discriminate.
      * intros j H. cbn in H. apply Nat.eqb_neq, H.
      * eapply spec_mono; [apply f_mw_get|]. intros x l [-> H]. eexists. split; [reflexivity|]. split; [reflexivity|exact H].
      * intros a H3. split; [destruct (fst a); [split; [eauto|exact H3]|exact I]|]. auto.
Qed.

(** ** Whole programs *)
Fixpoint total (n : nat) (f : nat -> nat) : nat := match n with O => 0 | S n => pred (f n) + total n f end.
Lemma total_repeated n cs rs : total n (fun i => stops i cs rs) = repeated_stops n cs rs.
Proof. induction n; cbn; auto. Qed.
Lemma total_ext n f g : (forall i, i < n -> f i = g i) -> total n f = total n g.
Proof. induction n as [|n IH]; intro H; cbn; [reflexivity|]. rewrite (H n), IH by (auto; intros; apply H; lia). reflexivity. Qed.
(** One more end of stream for [i]. *)
Lemma total_bump n f g i : i < n -> (forall j, j <> i -> g j = f j) -> g i = S (f i) -> total n g = total n f + (if Nat.eqb (f i) 0 then 0 else 1).
Proof.
  induction n as [|n IH]; intros L O E; [lia|]. cbn [total]. destruct (Nat.eq_dec i n) as [->|N].
  - rewrite E, (total_ext n g f) by (intros; apply O; lia). destruct (Nat.eqb_spec (f n) 0); lia.
  - rewrite IH by (auto; lia). rewrite (O n) by lia. lia.
Qed.
(** [n i] counts the ends of stream read through [i]. *)
Definition counted (s : vars) (n : nat -> nat) : Prop :=
  (forall i, length s <= i -> n i = 0) /\ forall i r, var s i = O_reader r -> (mr_stop r = None <-> n i = 0).
Definition got_stop (c : mcall) (r : mres) (i : nat) : nat := match c, r with MC_read j, MR_stop => if Nat.eqb i j then 1 else 0 | _, _ => 0 end.
Lemma got_none c r i : r <> MR_stop -> got_stop c r i = 0.
Proof. destruct c; try reflexivity. destruct r; try reflexivity. contradiction. Qed.
Definition olist (x : option cobj) : list cobj := match x with Some c => [c] | None => [] end.
Lemma counted_step s c x lost n : counted s n -> stepped s c x lost ->
  counted (snd x) (fun i => n i + got_stop c (fst x) i) /\
  forall N, length (snd x) <= N -> length (olist lost) + total N n = total N (fun i => n i + got_stop c (fst x) i).
Proof.
  intros [C1 C2] H. pose proof (st_stop _ _ _ _ H) as S. pose proof (st_len _ _ _ _ H) as L. destruct x as [g s']. cbn [fst snd] in *.
  assert (K : g <> MR_stop -> lost = None /\ (forall j r, var s' j = O_reader r ->
             match var s j with O_reader r0 => mr_stop r = mr_stop r0 | O_null => length s <= j /\ mr_stop r = None | _ => False end)).
  { destruct g; intro; try exact S. contradiction. }
  assert (D : g = MR_stop \/ g <> MR_stop) by (destruct g; auto; right; discriminate). destruct D as [->|N].
  - destruct S as (i & r & r' & -> & E & -> & -> & X).
    assert (Li : i < length s) by (apply var_lt; rewrite E; discriminate). rewrite set_length in *. split; [split|].
    + intros j J. rewrite set_length in J. cbn. destruct (Nat.eqb_spec j i); [lia|]. rewrite C1 by lia. reflexivity.
    + intros j q Q. destruct (Nat.eq_dec j i) as [->|NE].
      * rewrite var_set in Q by exact Li. injection Q as <-. cbn. rewrite Nat.eqb_refl. split; [contradiction|lia].
      * rewrite var_set_other in Q by exact NE. cbn. destruct (Nat.eqb_spec j i); [contradiction|]. rewrite Nat.add_0_r. apply C2, Q.
    + intros M LM. rewrite (total_bump M n (fun i0 => n i0 + got_stop (MC_read i) MR_stop i0) i); [| lia | |].
      * specialize (C2 i r E). destruct (mr_stop r); cbn [olist length]; destruct (Nat.eqb_spec (n i) 0) as [Z|Z]; cbv iota; try lia.
        -- apply C2 in Z. discriminate.
        -- exfalso. apply Z, C2. reflexivity.
      * intros j J. cbn. destruct (Nat.eqb_spec j i); [contradiction|]. lia.
      * cbn. rewrite Nat.eqb_refl. lia.
  - destruct (K N) as [-> R]. split; [split|].
    + intros i I. rewrite got_none by exact N. rewrite C1 by lia. reflexivity.
    + intros i r E. rewrite got_none, Nat.add_0_r by exact N. specialize (R i r E). destruct (var s i) eqn:V; try contradiction.
      * destruct R as [R1 R2]. rewrite C1 by exact R1. tauto.
      * rewrite R. apply (C2 i r0 V).
    + intros M _. cbn [olist length]. apply total_ext. intros. rewrite got_none by exact N. lia.
Qed.

Definition prog_post (s : vars) (cs : list mcall) (n : nat -> nat) (x : list mres * vars) (l : list blk) : Prop :=
  length (fst x) = length cs /\ length (snd x) <= length s + length cs /\ length s <= length (snd x) /\
  counted (snd x) (fun i => n i + stops i cs (fst x)) /\
  exists lost, l = owned (snd x) ++ concat (map own_ctl lost) /\
    forall N, length (snd x) <= N -> length lost + total N n = total N (fun i => n i + stops i cs (fst x)).
Lemma counted_ext s f g : (forall i, f i = g i) -> counted s f -> counted s g.
Proof. intros E [H1 H2]. split; intros; rewrite <- E; auto. Qed.
Lemma mstep_len s c o h x o' h' : mstep s c o h = MOk x o' h' -> length (snd x) <= S (length s).
Proof.
  assert (B : forall A (p : mem A) (k : A -> mem (mres * vars)), (forall a o h x o' h', k a o h = MOk x o' h' -> length (snd x) <= S (length s)) ->
              mbind p k o h = MOk x o' h' -> length (snd x) <= S (length s)).
  { intros A p k K. unfold mbind. destruct (p o h); [|discriminate]. apply K. }
  assert (R : forall g s' o h (x : mres * vars) o' h', length s' <= S (length s) -> mret (g, s') o h = MOk x o' h' -> length (snd x) <= S (length s)).
  { intros g s' ? ? ? ? ? L E. injection E as <- _ _. exact L. }
  assert (G : forall A (p : mem A) (g : A -> mres) (f : A -> vars), (forall a, length (f a) <= S (length s)) ->
              mbind p (fun a => mret (g a, f a)) o h = MOk x o' h' -> length (snd x) <= S (length s)).
  { intros A p g f K. apply B. intros a ? ? ? ? ?. apply R, K. }
  destruct c as [k|i|i|i|i|i|i ok|i second given|opt t|opt t|i|i|i|i|i t]; cbn [mstep];
    try (destruct (var s i); solve [apply R; lia | apply (G _ _ (fun _ => MR_done)); intro; rewrite ?set_length; lia]).
  - apply (G _ _ (fun _ => MR_done)). intro. rewrite app_length. cbn. lia.
  - destruct (reader_opt s opt) as [oo|]; [|apply R; lia]. unfold mbind at 1. destruct (get_transport s t true o h) as [xs o1 h1|] eqn:E; [|discriminate].
    destruct xs as [[y s']|]; [|apply R; lia].
    assert (L : length s' = length s).
    { destruct t; cbn [get_transport] in E; destruct (var s i); try discriminate; revert E; unfold mbind, mret; try (intro E; injection E as <- <- <- <-; rewrite ?set_length; reflexivity);
      try (match goal with |- context [match ?q o h with _ => _ end] => destruct (q o h) as [z ? ?|]; [|discriminate] end; destruct z; cbn [option_map]; intro E; [injection E as _ <- _ _; reflexivity|discriminate]); discriminate. }
    unfold mbind. destruct (mr_init oo y o1 h1) as [r o2 h2|]; [|discriminate]. apply R. destruct r; [rewrite app_length; cbn; lia|lia].
  - destruct (writer_opt s opt) as [oo|]; [|apply R; lia]. unfold mbind at 1. destruct (get_transport s t false o h) as [xs o1 h1|] eqn:E; [|discriminate].
    destruct xs as [[y s']|]; [|apply R; lia].
    assert (L : length s' = length s).
    { destruct t; cbn [get_transport] in E; destruct (var s i); try discriminate; revert E; unfold mbind, mret; try (intro E; injection E as <- <- <- <-; rewrite ?set_length; reflexivity);
      try (match goal with |- context [match ?q o h with _ => _ end] => destruct (q o h) as [z ? ?|]; [|discriminate] end; destruct z; cbn [option_map]; intro E; [injection E as _ <- _ _; reflexivity|discriminate]); discriminate. }
    unfold mbind. destruct (mw_init oo y o1 h1) as [r o2 h2|]; [|discriminate]. apply R. destruct r; [rewrite app_length; cbn; lia|lia].
  - destruct (var s i); try (apply R; lia). apply G. intro. rewrite ?set_length. lia.
  - destruct (var s i); try (apply R; lia); apply (G _ _ (fun x => MR_ctl (fst x))); intro; rewrite ?set_length; lia.
Qed.
Lemma stops_cons i c cs r rs : stops i (c :: cs) (r :: rs) = got_stop c r i + stops i cs rs.
Proof. reflexivity. Qed.
Lemma spec_len s c : spec (mstep s c) (owned s) (fun x l => step_post s c x l /\ length (snd x) <= S (length s)).
Proof.
  intros o h fr W E. destruct (f_mstep s c o h fr W E) as (a & o1 & h1 & l & E1 & W1 & N1 & Q1 & P1).
  exists a, o1, h1, l. repeat split; auto; try apply W1. eapply mstep_len, E1.
Qed.
Lemma f_msteps cs : forall s n, counted s n -> spec (msteps s cs) (owned s) (prog_post s cs n).
Proof.
  induction cs as [|c cs IH]; intros s n C; cbn [msteps].
  - eapply spec_ret with (l := owned s ++ []); [rewrite app_nil_r; reflexivity|]. split; [reflexivity|]. cbn [fst snd stops].
    split; [lia|]. split; [lia|]. split; [eapply counted_ext; [|exact C]; intro; cbn; lia|]. exists []. split; [reflexivity|].
    intros N _. cbn. apply total_ext. intros. lia.
  - eapply spec_bind; [apply spec_len|]. cbv beta. intros [r s1] l ((lost & -> & H) & L1). cbn [fst snd] in *.
    destruct (counted_step _ _ _ _ _ C H) as [C1 T1]. cbn [fst snd] in C1, T1.
    eapply sp_call; [apply (IH s1 _ C1)|reflexivity|]. cbv beta. intros [rs s2] l2 (LR & L2 & L2' & C2 & lost2 & -> & T2). cbn [fst snd] in *.
    eapply spec_ret with (l := owned s2 ++ concat (map own_ctl (olist lost ++ lost2))).
    + rewrite map_app, concat_app. destruct lost; cbn [own_opt olist map concat app]; rewrite ?app_nil_r; pm.
    + pose proof (st_len _ _ _ _ H) as LL. cbn [snd] in LL. split; [cbn; congruence|]. cbn [fst snd]. split; [cbn [length]; lia|]. split; [lia|].
      split; [eapply counted_ext; [|exact C2]; intro; cbv beta; rewrite stops_cons; lia|].
      eexists. split; [reflexivity|]. intros N LN. rewrite app_length.
      assert (X : total N (fun i => n i + stops i (c :: cs) (r :: rs)) = total N (fun i => n i + got_stop c r i + stops i cs rs))
        by (apply total_ext; intros; rewrite stops_cons; lia). rewrite X.
      rewrite <- (T2 N LN). specialize (T1 N ltac:(lia)). lia.
Qed.
Lemma counted0 : counted [] (fun _ => 0).
Proof. split; [reflexivity|]. intros [|i] r E; discriminate E. Qed.
Lemma hwf0 : hwf heap0. Proof. split; constructor. Qed.

Theorem accounted cs o : exists rs s o' h lost,
  msteps [] cs o heap0 = MOk (rs, s) o' h /\ length rs = length cs /\ length s <= length cs /\ NoDup (h_live h) /\
  Permutation (h_live h) (owned s ++ concat (map own_ctl lost)) /\ length lost = repeated_stops (length s) cs rs.
Proof.
  destruct (f_msteps cs [] _ counted0 o heap0 [] hwf0) as ([rs s] & o1 & h1 & l & E & W & _ & (L1 & L2 & _ & _ & lost & -> & T) & P).
  { reflexivity. }
  cbn [fst snd length] in *. exists rs, s, o1, h1, lost. rewrite app_nil_r in P. split; [exact E|]. split; [exact L1|]. split; [exact L2|].
  split; [apply W|]. split; [exact P|]. specialize (T (length s) (le_n _)). rewrite (total_ext _ (fun i => 0 + stops i cs rs) (fun i => stops i cs rs)), total_repeated in T by (intros; reflexivity).
  assert (Z : forall m, total m (fun _ => 0) = 0) by (induction m; cbn; auto). rewrite Z in T. lia.
Qed.

Lemma msteps_app cs1 : forall s cs2 o h, msteps s (cs1 ++ cs2) o h =
  match msteps s cs1 o h with
  | MOk (rs1, s1) o1 h1 => match msteps s1 cs2 o1 h1 with MOk (rs2, s2) o2 h2 => MOk (rs1 ++ rs2, s2) o2 h2 | MUb u => MUb u end
  | MUb u => MUb u
  end.
Proof.
  induction cs1 as [|c cs1 IH]; intros s cs2 o h; cbn [msteps app].
  - unfold mret. destruct (msteps s cs2 o h) as [[rs2 s2] ? ?|]; reflexivity.
  - unfold mbind at 1. unfold mbind at 2. destruct (mstep s c o h) as [[r s1] o1 h1|]; [|reflexivity]. cbn [fst snd].
    unfold mbind. rewrite IH. destruct (msteps s1 cs1 o1 h1) as [[rs1 s2] o2 h2|]; [|reflexivity]. cbn [fst snd]. unfold mret.
    destruct (msteps s2 cs2 o2 h2) as [[rs2 s3] o3 h3|]; reflexivity.
Qed.
Lemma owned_null s : Forall (eq O_null) s -> owned s = [].
Proof. induction 1 as [|x s <- _ IH]; [reflexivity|exact IH]. Qed.
Lemma repeated_none cs rs : (forall i, stops i cs rs <= 1) -> forall n, repeated_stops n cs rs = 0.
Proof. intros H n. induction n as [|n IH]; cbn; [reflexivity|]. specialize (H n). lia. Qed.
Theorem no_leak cs o rs s o' h : msteps [] cs o heap0 = MOk (rs, s) o' h -> (forall i, stops i cs rs <= 1) -> Forall (eq O_null) s -> h_live h = [].
Proof.
  intros E H F. destruct (accounted cs o) as (rs' & s' & o1 & h1 & lost & E' & _ & _ & _ & P & L).
  rewrite E in E'. injection E' as <- <- <- <-. rewrite owned_null in P by exact F. rewrite (repeated_none _ _ H) in L.
  destruct lost; [|discriminate]. cbn in P. apply Permutation_nil, Permutation_sym, P.
Qed.
Lemma destroys_null l : forall s o h rs s' o' h', msteps s (map MC_destroy l) o h = MOk (rs, s') o' h' ->
  length s' = length s /\ (forall j, In j l \/ var s j = O_null -> var s' j = O_null) /\ forall i, stops i (map MC_destroy l) rs = 0.
Proof.
  induction l as [|i l IH]; intros s o h rs s' o' h'; cbn [map msteps].
  - intro E. injection E as <- <- _ _. split; [reflexivity|]. split; [|reflexivity]. intros j [[]|H]. exact H.
  - unfold mbind at 1. cbn [mstep]. unfold mbind at 1. destruct (destroy_obj (var s i) o h) as [[] o1 h1|]; [|discriminate]. unfold mret at 1.
    cbn [fst snd]. unfold mbind. destruct (msteps (set s i O_null) (map MC_destroy l) o1 h1) as [[rs2 s2] o2 h2|] eqn:E; [|discriminate].
    intro X. injection X as <- <- _ _. destruct (IH _ _ _ _ _ _ _ E) as (L & V & S). split; [rewrite L; apply set_length|]. split.
    + intros j J. apply V. destruct (Nat.eq_dec j i) as [->|N].
      * right. destruct (Nat.ltb_spec i (length s)); [apply var_set; assumption|apply var_ge; rewrite set_length; assumption].
      * destruct J as [[J|J]|J]; [congruence|left; exact J|right; rewrite var_set_other by exact N; exact J].
    + intro j. cbn [stops fst]. apply S.
Qed.
Lemma stops_app i cs1 rs1 cs2 rs2 : length rs1 = length cs1 -> stops i (cs1 ++ cs2) (rs1 ++ rs2) = stops i cs1 rs1 + stops i cs2 rs2.
Proof.
  revert rs1. induction cs1 as [|c cs1 IH]; intros [|r rs1] L; cbn in L; try lia; [reflexivity|]. cbn [app stops]. rewrite IH by lia. lia.
Qed.
Theorem destroy_all cs o rs s o' h : msteps [] cs o heap0 = MOk (rs, s) o' h -> (forall i, stops i cs rs <= 1) ->
  exists rs2 s2 o2 h2, msteps [] (cs ++ map MC_destroy (seq 0 (length cs))) o heap0 = MOk (rs ++ rs2, s2) o2 h2 /\ h_live h2 = [].
Proof.
  intros E H. destruct (accounted (cs ++ map MC_destroy (seq 0 (length cs))) o) as (rs' & s2 & o2 & h2 & lost & E2 & _).
  destruct (accounted cs o) as (rs0 & s0 & o0 & h0 & lost0 & E0 & LR & LS & _). rewrite E in E0. injection E0 as <- <- <- <-.
  pose proof E2 as E3. rewrite msteps_app, E in E3.
  destruct (msteps s (map MC_destroy (seq 0 (length cs))) o' h) as [[rs2 s3] o3 h3|] eqn:D; [|discriminate].
  injection E3 as <- <- <- <-. exists rs2, s3, o3, h3. split; [exact E2|].
  destruct (destroys_null _ _ _ _ _ _ _ _ D) as (L & V & S).
  eapply no_leak; [exact E2| |].
  - intro i. rewrite stops_app by exact LR. rewrite S. specialize (H i). lia.
  - apply Forall_forall. intros x X. apply In_nth with (d := O_null) in X. destruct X as (j & J & <-). symmetry. apply V. left. apply in_seq. lia.
Qed.

(** ** Pointers handed out *)
Lemma run_split cs1 c cs2 o rs1 r rs2 s' o' h' : length rs1 = length cs1 ->
  msteps [] (cs1 ++ c :: cs2) o heap0 = MOk (rs1 ++ r :: rs2, s') o' h' ->
  exists s0 o0 h0 s1 o1 h1, msteps [] cs1 o heap0 = MOk (rs1, s0) o0 h0 /\ mstep s0 c o0 h0 = MOk (r, s1) o1 h1 /\
    msteps s1 cs2 o1 h1 = MOk (rs2, s') o' h'.
Proof.
  intros L E. rewrite msteps_app in E. destruct (accounted cs1 o) as (rs0 & s0 & o0 & h0 & lost & E0 & L0 & _).
  rewrite E0 in E. cbn [msteps] in E. unfold mbind at 1 in E. destruct (mstep s0 c o0 h0) as [[r1 s1] o1 h1|] eqn:E1; [|discriminate].
  cbn [fst snd] in E. unfold mbind in E. destruct (msteps s1 cs2 o1 h1) as [[rs3 s3] o3 h3|] eqn:E2; [|discriminate]. unfold mret in E. cbn [fst snd] in E.
  injection E as X <- <- <-.
  assert (Y : rs0 = rs1 /\ r1 :: rs3 = r :: rs2).
  { clear - X L L0. assert (Q : length rs0 = length rs1) by lia. clear L L0. revert rs1 X Q. induction rs0 as [|a rs0 IH]; intros [|b rs1] X Q; cbn in *; try lia.
    - split; [reflexivity|exact X].
    - injection X as -> X. destruct (IH rs1 X ltac:(lia)) as [-> ->]. split; reflexivity. }
  destruct Y as [-> Y]. injection Y as <- <-. exists s0, o0, h0, s1, o1, h1. auto.
Qed.
(** A state the program can be in. *)
Definition tidy (s : vars) (h : heap) : Prop := hwf h /\ exists rest, Permutation (h_live h) (owned s ++ rest).
Lemma tidy_run cs o rs s o' h : msteps [] cs o heap0 = MOk (rs, s) o' h -> tidy s h.
Proof.
  intro E. destruct (f_msteps cs [] _ counted0 o heap0 [] hwf0) as ([rs1 s1] & o1 & h1 & l & E1 & W & _ & (L1 & L2 & _ & _ & lost & -> & T) & P); [reflexivity|].
  rewrite E in E1. injection E1 as <- <- <- <-. split; [exact W|]. rewrite app_nil_r in P. eexists. exact P.
Qed.
Lemma tidy_step s h c o x o' h' : tidy s h -> mstep s c o h = MOk x o' h' -> tidy (snd x) h' /\ exists lost, stepped s c x lost.
Proof.
  intros [W [rest P]] E. destruct (f_mstep s c o h rest W P) as (a & o1 & h1 & l & E1 & W1 & _ & (lost & -> & H) & P1).
  rewrite E in E1. injection E1 as <- <- <-. split; [|eauto]. split; [exact W1|]. exists (own_opt own_ctl lost ++ rest). pm.
Qed.
Lemma tidy_in s h i b : tidy s h -> In b (own (var s i)) -> In b (h_live h).
Proof.
  intros [_ [rest P]] H. eapply Permutation_in; [symmetry; exact P|]. apply in_or_app. left.
  eapply Permutation_in; [symmetry; apply (owned_take s i)|]. apply in_or_app. left. exact H.
Qed.
Lemma others cs : forall s h i o rs s' o' h', tidy s h -> i < length s -> Forall (fun c => concerns c i = false) cs -> msteps s cs o h = MOk (rs, s') o' h' ->
  var s' i = var s i /\ tidy s' h'.
Proof.
  induction cs as [|c cs IH]; intros s h i o rs s' o' h' T L F E; cbn [msteps] in E.
  - injection E as <- <- <- <-. auto.
  - inversion F as [|? ? F1 F2]; subst. unfold mbind at 1 in E. destruct (mstep s c o h) as [[r s1] o1 h1|] eqn:E1; [|discriminate].
    destruct (tidy_step _ _ _ _ _ _ _ T E1) as [T1 [lost H]]. cbn [fst snd] in *. unfold mbind in E.
    destruct (msteps s1 cs o1 h1) as [[rs2 s2] o2 h2|] eqn:E2; [|discriminate]. injection E as <- <- <- <-.
    pose proof (st_len _ _ _ _ H) as L1. cbn in L1. destruct (IH s1 h1 i o1 rs2 s2 o2 h2 T1 ltac:(lia) F2 E2) as [V T2]. split; [|exact T2].
    rewrite V. apply (st_other _ _ _ _ H i L F1).
Qed.
Lemma buffers cs : forall s h i o rs s' o' h' r, tidy s h -> var s i = O_reader r -> Forall (fun c => c <> MC_read i /\ c <> MC_destroy i) cs ->
  msteps s cs o h = MOk (rs, s') o' h' -> exists r', var s' i = O_reader r' /\ mr_buf r' = mr_buf r /\ tidy s' h'.
Proof.
  induction cs as [|c cs IH]; intros s h i o rs s' o' h' r T V F E; cbn [msteps] in E.
  - injection E as <- <- <- <-. eauto.
  - inversion F as [|? ? [F1 F1'] F2]; subst. unfold mbind at 1 in E. destruct (mstep s c o h) as [[q s1] o1 h1|] eqn:E1; [|discriminate].
    destruct (tidy_step _ _ _ _ _ _ _ T E1) as [T1 [lost H]]. cbn [fst snd] in *. unfold mbind in E.
    destruct (msteps s1 cs o1 h1) as [[rs2 s2] o2 h2|] eqn:E2; [|discriminate]. injection E as <- <- <- <-.
    destruct (st_buf _ _ _ _ H i r V F1 F1') as (r1 & V1 & B1). cbn [snd] in V1.
    destruct (IH s1 h1 i o1 rs2 s2 o2 h2 r1 T1 V1 F2 E2) as (r2 & V2 & B2 & T2). exists r2. split; [exact V2|]. split; [congruence|exact T2].
Qed.
Theorem data_stays cs i cs2 o rs b rs2 s o' h : length rs = length cs ->
  msteps [] (cs ++ MC_read i :: cs2) o heap0 = MOk (rs ++ MR_data b :: rs2, s) o' h ->
  Forall (fun c => c <> MC_read i /\ c <> MC_destroy i) cs2 -> In b (h_live h).
Proof.
  intros L E F. destruct (run_split _ _ _ _ _ _ _ _ _ _ L E) as (s0 & o0 & h0 & s1 & o1 & h1 & E0 & E1 & E2).
  destruct (tidy_step _ _ _ _ _ _ _ (tidy_run _ _ _ _ _ _ E0) E1) as [T1 [lost H]]. cbn [snd] in T1.
  destruct (st_given _ _ _ _ H) as (i' & r & X & V & B). injection X as <-. cbn [snd] in V.
  destruct (buffers _ _ _ _ _ _ _ _ _ _ T1 V F E2) as (r' & V' & B' & T'). apply (tidy_in s h i); [exact T'|]. rewrite V'. cbn [own]. unfold own_reader.
  rewrite B', B. right. rewrite !in_app_iff. cbn [In]. tauto.
Qed.
Theorem control_stays cs i t cs2 o rs k rs2 s o' h : length rs = length cs ->
  msteps [] (cs ++ MC_get i t :: cs2) o heap0 = MOk (rs ++ MR_ctl (Some k) :: rs2, s) o' h ->
  Forall (fun c => concerns c i = false) cs2 -> incl (own_ctl k) (h_live h).
Proof.
  intros L E F. destruct (run_split _ _ _ _ _ _ _ _ _ _ L E) as (s0 & o0 & h0 & s1 & o1 & h1 & E0 & E1 & E2).
  destruct (tidy_step _ _ _ _ _ _ _ (tidy_run _ _ _ _ _ _ E0) E1) as [T1 [lost H]]. cbn [snd] in T1.
  destruct (st_given _ _ _ _ H) as (i' & t' & X & B). injection X as <- <-. cbn [snd] in B.
  assert (Li : i < length s1).
  { apply var_lt. intro N. rewrite N in B. apply (B (c_blk k)). left. reflexivity. }
  destruct (others _ _ _ _ _ _ _ _ _ T1 Li F E2) as [V T']. intros b Hb. apply (tidy_in s h i); [exact T'|]. rewrite V. apply B, Hb.
Qed.
Theorem untouched cs cs2 o rs s o1 h1 rs2 s2 o2 h2 i : msteps [] cs o heap0 = MOk (rs, s) o1 h1 -> msteps s cs2 o1 h1 = MOk (rs2, s2) o2 h2 ->
  i < length s -> Forall (fun c => concerns c i = false) cs2 -> var s2 i = var s i /\ incl (own (var s i)) (h_live h2).
Proof.
  intros E E2 L F. destruct (others _ _ _ _ _ _ _ _ _ (tidy_run _ _ _ _ _ _ E) L F E2) as [V T]. split; [exact V|].
  rewrite <- V. intros b. apply tidy_in, T.
Qed.

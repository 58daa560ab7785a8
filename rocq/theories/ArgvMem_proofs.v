(** Proofs about the memory of the option parser. *)
From Coq Require Import Permutation.
From Verif Require Import Bytes Mem SpecMem Mem_proofs ArgvMem SpecArgvMem.
Local Open Scope nat_scope.

Definition own_ps (s : pst) : list blk := ps_queue s :: vars_own (ps_vars s) ++ ps_lost s.

(** What stays true of an option. *)
Definition var_ok (sets : list nat) (i : nat) (v : pvar) : Prop :=
  match pv_kind v with
  | PK_str => (pv_ptr v <> None <-> In i sets) /\ (pv_ptr v <> None -> pv_used v = true)
  | PK_strs => (pv_items v = [] <-> pv_ptr v = None)
  | _ => True
  end.
Definition wait_ok (vs : list pvar) (w : option nat) : Prop :=
  match w with Some i => exists v, nth_error vs i = Some v /\ pv_used v = true | None => True end.
Record inv (s : pst) : Prop := {
  i_vars : forall i v, nth_error (ps_vars s) i = Some v -> var_ok (ps_sets s) i v;
  i_wait : forall w, In w (ps_wait s) -> wait_ok (ps_vars s) w;
  i_lost : length (ps_lost s) = again [] (ps_sets s) }.

Lemma nth_put {A} i (x : A) l j : i < length l -> nth_error (put i x l) j = if Nat.eqb j i then Some x else nth_error l j.
Proof.
  revert i j. induction l as [|y l IH]; intros i j L; cbn in L; [lia|]. destruct i, j; cbn; try reflexivity. apply IH. lia.
Qed.
Lemma put_length {A} i (x : A) l : length (put i x l) = length l.
Proof. revert i. induction l as [|y l IH]; intros [|i]; cbn; auto. Qed.
Lemma vars_put i v vs : nth_error vs i = Some v -> exists R, Permutation (vars_own vs) (var_strings v ++ R) /\
  forall v', Permutation (vars_own (put i v' vs)) (var_strings v' ++ R).
Proof.
  revert i. induction vs as [|x vs IH]; intros [|i]; cbn; try discriminate.
  - intros [= ->]. exists (vars_own vs). split; reflexivity.
  - intro H. destruct (IH i H) as (R & A & B). exists (var_strings x ++ R). split.
    + fold (vars_own vs). pm.
    + intro v'. specialize (B v'). fold (vars_own (put i v' vs)). pm.
Qed.
Lemma nth_lt {A} (l : list A) i v : nth_error l i = Some v -> i < length l.
Proof. intro H. apply nth_error_Some. congruence. Qed.

Lemma existsb_in i l : existsb (Nat.eqb i) l = true <-> In i l.
Proof.
  rewrite existsb_exists. split; [intros (x & I & E); apply Nat.eqb_eq in E; now subst|intro I; exists i; split; [exact I|apply Nat.eqb_refl]].
Qed.
Lemma existsb_same i l l' : (forall x, In x l <-> In x l') -> existsb (Nat.eqb i) l = existsb (Nat.eqb i) l'.
Proof.
  intro H. destruct (existsb (Nat.eqb i) l) eqn:A, (existsb (Nat.eqb i) l') eqn:B; try reflexivity.
  - apply existsb_in, H, existsb_in in A. congruence.
  - apply existsb_in, H, existsb_in in B. congruence.
Qed.
Lemma again_snoc l i : forall seen, again seen (l ++ [i]) = again seen l + if existsb (Nat.eqb i) (seen ++ l) then 1 else 0.
Proof.
  induction l as [|x l IH]; intro seen; cbn [app again].
  - rewrite app_nil_r. lia.
  - rewrite IH. rewrite (existsb_same i ((x :: seen) ++ l) (seen ++ x :: l)); [lia|].
    intro y. cbn. rewrite !in_app_iff. cbn. tauto.
Qed.

Lemma reads_uses l F : incl l F -> reads (uses l) F.
Proof.
  induction l as [|b l IH]; cbn [uses]; intro I; [apply reads_ret|].
  apply reads_bind; [apply reads_use, I; now left|intros _; apply IH; intros x X; apply I; now right].
Qed.
Lemma sp_copy {B} from (k : blk -> mem B) pre Q : incl from pre -> (forall b, spec (k b) (b :: pre) Q) -> spec (mbind (string_copy from) k) pre Q.
Proof.
  intros I K. unfold string_copy. apply sp_assoc. eapply sp_reads; [apply reads_uses, I|apply incl_refl|]. intros _.
  apply sp_assoc, sp_alloc. intro b. apply sp_assoc, sp_use; [now left|]. apply sp_ret, K.
Qed.

(** ** One value *)
Lemma inv_put_keep s i v v' : inv s -> nth_error (ps_vars s) i = Some v -> var_ok (ps_sets s) i v' -> (pv_used v = true -> pv_used v' = true) ->
  inv (ps_with s (put i v' (ps_vars s))).
Proof.
  intros [A B C] E V U. pose proof (nth_lt _ _ _ E) as L. constructor; cbn [ps_with ps_vars ps_sets ps_wait ps_lost].
  - intros j w. rewrite nth_put by exact L. destruct (Nat.eqb_spec j i) as [->|N]; [intros [= <-]; exact V|apply A].
  - intros [j|] W; [|exact I]. destruct (B _ W) as (w & W1 & W2). cbn. rewrite nth_put by exact L.
    destruct (Nat.eqb_spec j i) as [->|N]; [|eauto]. rewrite E in W1. injection W1 as <-. eauto.
  - exact C.
Qed.
Lemma f_set_value i from s F : incl from F -> inv s -> (forall v, nth_error (ps_vars s) i = Some v -> pv_used v = true) ->
  spec (set_value i from s) (own_ps s ++ F) (fun s' l => inv s' /\ ps_queue s' = ps_queue s /\ Permutation l (own_ps s' ++ F)).
Proof.
  intros I H U. unfold set_value. destruct (nth_error (ps_vars s) i) as [v|] eqn:E.
  2:{ eapply spec_ret; [reflexivity|]. split; [exact H|]. split; reflexivity. }
  specialize (U v eq_refl). pose proof (nth_lt _ _ _ E) as L. destruct (vars_put _ _ _ E) as (R & P & Q).
  assert (IF : incl from (own_ps s ++ F)) by (now apply incl_appr).
  pose proof (i_vars _ H _ _ E) as V. unfold var_ok in V. destruct (pv_kind v) eqn:K.
  - apply sp_copy; [exact IF|]. intro b. eapply spec_ret; [reflexivity|]. split; [|split; [reflexivity|]].
    + destruct H as [A B C]. constructor; cbn [ps_vars ps_sets ps_wait ps_lost].
      * intros j w. rewrite nth_put by exact L. destruct (Nat.eqb_spec j i) as [->|N].
        -- intros [= <-]. unfold var_ok. cbn. split; [|auto]. rewrite in_app_iff. cbn. split; [auto|discriminate].
        -- intro W. specialize (A _ _ W). unfold var_ok in *. destruct (pv_kind w); auto. rewrite in_app_iff. cbn.
           destruct A as [A1 A2]. split; [|exact A2]. rewrite A1. split; [auto|intros [X|[X|[]]]; [exact X|congruence]].
      * intros [j|] W; [|exact Logic.I]. destruct (B _ W) as (w & W1 & W2). cbn. rewrite nth_put by exact L.
        destruct (Nat.eqb_spec j i) as [->|N]; [|eauto]. rewrite E in W1. injection W1 as <-. eauto.
      * rewrite app_length, again_snoc, C. cbn [app]. f_equal. destruct V as [V _]. destruct (pv_ptr v) as [c|] eqn:PV.
        -- assert (X : In i (ps_sets s)) by (apply V; discriminate). apply existsb_in in X. rewrite X. reflexivity.
        -- destruct (existsb (Nat.eqb i) (ps_sets s)) eqn:X; [|reflexivity]. apply existsb_in, V in X. now contradiction X.
    + unfold own_ps. cbn [ps_vars ps_queue ps_lost]. specialize (Q (mk_pv PK_str (pv_used v) (Some b) [])).
      unfold var_strings in P, Q. rewrite K in P. cbn [pv_kind pv_ptr] in Q. destruct (pv_ptr v); pm.
  - eapply spec_bind with (R := fun a l => Permutation l (a :: pv_items v ++ R ++ ps_queue s :: ps_lost s ++ F)).
    + unfold var_strings in P. rewrite K in P. unfold own_ps. destruct (pv_ptr v) as [a|] eqn:PV.
      * destruct (pv_items v) as [|x xs] eqn:IT; [destruct V as [V _]; discriminate (V eq_refl)|].
        destruct (Nat.eqb _ 0).
        -- apply sp_last. eapply sp_realloc with (pre' := (x :: xs) ++ R ++ ps_queue s :: ps_lost s ++ F); [pm|]. intro c.
           eapply spec_ret; [reflexivity|]. pm.
        -- eapply spec_ret; [reflexivity|]. pm.
      * destruct V as [_ V]. rewrite (V eq_refl) in *. apply sp_last. apply sp_alloc. intro a. eapply spec_ret; [reflexivity|]. pm.
    + cbv beta. intros a l PL. eapply spec_conv; [symmetry; exact PL|]. clear l PL.
      apply sp_copy; [intros x X; right; rewrite !in_app_iff; cbn; rewrite in_app_iff; specialize (I _ X); tauto|]. intro b.
      apply sp_use; [cbn; auto|]. eapply spec_ret; [reflexivity|]. split; [|split; [reflexivity|]].
      * eapply inv_put_keep; [exact H|exact E| |auto]. unfold var_ok. cbn. split; [|discriminate]. intro X. destruct (pv_items v); discriminate X.
      * unfold own_ps. cbn [ps_with ps_vars ps_queue ps_lost]. specialize (Q (mk_pv PK_strs (pv_used v) (Some a) (pv_items v ++ [b]))).
        unfold var_strings in Q. cbn [pv_kind pv_ptr pv_items] in Q. pm.
  - eapply sp_reads; [apply reads_uses, IF|apply incl_refl|]. intros _. eapply spec_ret; [reflexivity|]. split; [exact H|]. split; reflexivity.
  - eapply sp_reads; [apply reads_uses, IF|apply incl_refl|]. intros _. eapply spec_ret; [reflexivity|]. split; [exact H|]. split; reflexivity.
Qed.
Lemma inv_waits s w : inv s -> (forall x, In x w -> wait_ok (ps_vars s) x) -> inv (ps_waits s w).
Proof. intros [A B C] H. constructor; cbn; auto. Qed.
Lemma f_do_arg i close from s F : incl from F -> inv s ->
  spec (do_arg i close from s) (own_ps s ++ F) (fun s' l => inv s' /\ ps_queue s' = ps_queue s /\ Permutation l (own_ps s' ++ F)).
Proof.
  intros I H. unfold do_arg. destruct (nth_error (ps_vars s) i) as [v|] eqn:E.
  2:{ eapply spec_ret; [reflexivity|]. split; [exact H|]. split; reflexivity. }
  pose proof (nth_lt _ _ _ E) as L. destruct (vars_put _ _ _ E) as (R & P & Q). cbv zeta.
  set (v' := mk_pv (pv_kind v) true (pv_ptr v) (pv_items v)). set (s1 := ps_with s (put i v' (ps_vars s))).
  assert (H1 : inv s1).
  { eapply inv_put_keep; [exact H|exact E| |auto]. pose proof (i_vars _ H _ _ E) as V. unfold var_ok in *. cbn. destruct (pv_kind v); auto. tauto. }
  assert (N : nth_error (ps_vars s1) i = Some v') by (cbn; rewrite nth_put, Nat.eqb_refl by exact L; reflexivity).
  assert (PO : Permutation (own_ps s) (own_ps s1)).
  { unfold own_ps, s1. cbn [ps_with ps_vars ps_queue ps_lost]. specialize (Q v'). change (var_strings v') with (var_strings v) in Q. pm. }
  eapply spec_conv; [apply Permutation_app_tail; symmetry; exact PO|].
  destruct close.
  - change (ps_queue s) with (ps_queue s1). apply f_set_value; [exact I|exact H1|]. intros w W. rewrite N in W. injection W as <-. reflexivity.
  - destruct (negb _).
    + eapply spec_ret; [reflexivity|]. split; [exact H1|]. split; reflexivity.
    + apply sp_use; [now left|]. eapply spec_ret; [reflexivity|]. split; [|split; reflexivity].
      apply inv_waits; [exact H1|]. intros x X. apply in_app_iff in X. destruct X as [X|[<-|[]]]; [exact (i_wait _ H1 _ X)|].
      cbn. exists v'. split; [exact N|reflexivity].
Qed.

(** ** Lists of arguments *)
Definition post (F : list blk) (q : blk) (x : pres) (l : list blk) : Prop :=
  match x with P_go s => inv s /\ ps_queue s = q /\ Permutation l (own_ps s ++ F) | _ => True end.
Definition good_file (file : src -> pst -> mem pres) : Prop :=
  forall F from s, incl from F -> inv s -> spec (file from s) (own_ps s ++ F) (post F (ps_queue s)).
Lemma post_same F s : inv s -> spec (mret (P_go s)) (own_ps s ++ F) (post F (ps_queue s)).
Proof. intro H. eapply spec_ret; [reflexivity|]. cbn. split; [exact H|]. split; reflexivity. Qed.
Lemma post_end F q (p : mem pst) pre : spec p pre (fun s l => inv s /\ ps_queue s = q /\ Permutation l (own_ps s ++ F)) ->
  spec (mbind p (fun s => mret (P_go s))) pre (post F q).
Proof. intro H. eapply spec_bind; [exact H|]. cbv beta. intros s l X. eapply spec_ret; [reflexivity|exact X]. Qed.
Lemma post_next F q (p : mem pres) (k : pst -> mem pres) pre : spec p pre (post F q) ->
  (forall s, inv s -> ps_queue s = q -> spec (k s) (own_ps s ++ F) (post F q)) ->
  spec (mbind p (fun x => match x with P_go s => k s | y => mret y end)) pre (post F q).
Proof.
  intros H K. eapply spec_bind; [exact H|]. intros [s| |] l X.
  - destruct X as (A & B & P). eapply spec_conv; [symmetry; exact P|]. now apply K.
  - eapply spec_ret; [reflexivity|exact Logic.I].
  - eapply spec_ret; [reflexivity|exact Logic.I].
Qed.
Lemma f_one_thing file F from s : good_file file -> incl from F -> inv s -> spec (one_thing file from s) (own_ps s ++ F) (post F (ps_queue s)).
Proof.
  intros G I H. unfold one_thing. eapply sp_reads; [apply reads_uses, incl_appr, I|apply incl_refl|]. intros _. apply sp_choose. intro c.
  destruct c as [|[|[|[|[|c]]]]].
  - now apply post_same.
  - apply sp_choose. intro i. apply sp_flag. intro close. apply post_end. now apply f_do_arg.
  - destruct (ps_wait s) as [|w r] eqn:W; [now apply post_same|]. apply sp_use; [now left|].
    assert (H1 : inv (ps_waits s r)) by (apply inv_waits; [exact H|]; intros x X; apply (i_wait _ H); rewrite W; now right).
    destruct w as [i|].
    + apply post_end. apply (f_set_value i from (ps_waits s r) F); [exact I|exact H1|].
      intros v E. destruct (i_wait _ H (Some i)) as (v2 & E2 & U); [rewrite W; now left|]. cbn in E. congruence.
    + apply (G F from (ps_waits s r)); [exact I|exact H1].
  - now apply G.
  - apply sp_use; [now left|]. apply (post_same F (ps_waits s (ps_wait s ++ [None]))). apply inv_waits; [exact H|].
    intros x X. apply in_app_iff in X. destruct X as [X|[<-|[]]]; [exact (i_wait _ H _ X)|exact Logic.I].
  - eapply spec_ret; [reflexivity|exact Logic.I].
Qed.
Lemma f_one_arg file F from n : good_file file -> incl from F -> forall s, inv s -> spec (one_arg file n from s) (own_ps s ++ F) (post F (ps_queue s)).
Proof.
  intros G I. induction n as [|n IH]; intros s H; cbn [one_arg]; [now apply post_same|].
  apply post_next; [now apply f_one_thing|]. intros s1 H1 <-. now apply IH.
Qed.
Lemma f_arg_list file F l : good_file file -> Forall (fun from => incl from F) l -> forall s, inv s -> spec (arg_list file l s) (own_ps s ++ F) (post F (ps_queue s)).
Proof.
  intros G I. induction I as [|from r A _ IH]; intros s H; cbn [arg_list]; [now apply post_same|].
  apply sp_choose. intro n. apply post_next; [now apply f_one_arg|]. intros s1 H1 <-. now apply IH.
Qed.

(** ** Files of arguments *)
Lemma f_read_lines n : forall a lines F, spec (read_lines n a lines) (a :: lines ++ F) (fun x l => Permutation l (fst x :: snd x ++ F)).
Proof.
  induction n as [|n IH]; intros a lines F; cbn [read_lines]; [eapply spec_ret; reflexivity|].
  apply sp_copy; [intros ? []|]. intro l. apply sp_use; [cbn; auto|].
  eapply spec_bind with (R := fun a l' => Permutation l' (a :: (lines ++ [l]) ++ F)).
  - destruct (Nat.eqb _ 0).
    + apply sp_last. eapply sp_realloc with (pre' := (lines ++ [l]) ++ F); [pm|]. intro c. eapply spec_ret; [reflexivity|]. reflexivity.
    + eapply spec_ret; [reflexivity|]. pm.
  - cbv beta. intros b l' P. eapply spec_conv; [symmetry; exact P|]. apply IH.
Qed.
Lemma f_free_lines a lines : forall F, In a F -> spec (free_lines a lines) (lines ++ F) (fun _ l => l = F).
Proof.
  induction lines as [|l r IH]; intros F I; cbn [free_lines app]; [eapply spec_ret; reflexivity|].
  apply sp_use; [right; apply in_or_app; now right|]. eapply sp_free; [reflexivity|]. now apply IH.
Qed.
Lemma f_file_args depth : good_file (file_args depth).
Proof.
  induction depth as [|depth IH]; intros F from s I H; cbn [file_args]; [eapply spec_ret; [reflexivity|exact Logic.I]|].
  eapply sp_reads; [apply reads_uses, incl_appr, I|apply incl_refl|]. intros _. apply sp_choose. intros [|k]; [eapply spec_ret; [reflexivity|exact Logic.I]|].
  eapply spec_bind with (R := fun f l => Permutation l (own_opt own_blk f ++ own_ps s ++ F)).
  { destruct (Nat.eqb _ 1); [eapply spec_ret; reflexivity|]. apply sp_alloc. intro b. eapply spec_ret; [reflexivity|]. reflexivity. }
  cbv beta. intros f l P. eapply spec_conv; [symmetry; exact P|]. clear l P.
  apply sp_alloc. intro a. apply sp_choose. intro n. eapply spec_bind; [apply (f_read_lines n a [])|]. cbv beta. intros [a2 lines] l P. cbn [fst snd] in *.
  set (F2 := a2 :: lines ++ own_opt own_blk f ++ F).
  eapply spec_conv with (pre := own_ps s ++ F2); [unfold F2; pm|]. clear l P.
  eapply spec_bind; [apply (f_arg_list (file_args depth) F2); [exact IH| |exact H]|].
  { apply Forall_map, Forall_forall. intros x X y [<-|[<-|[]]]; [now left|right; apply in_or_app; now left]. }
  intros [s1| |] l X; [|eapply spec_ret; [reflexivity|exact Logic.I]|eapply spec_ret; [reflexivity|exact Logic.I]].
  destruct X as (A & B & P).
  eapply sp_call with (l := lines ++ [a2]) (f := own_opt own_blk f ++ F ++ own_ps s1); [apply f_free_lines; now left|unfold F2 in P; pm|].
  cbv beta. intros _ ? ->. cbn [app]. eapply sp_free; [reflexivity|]. eapply sp_free_opt; [reflexivity|].
  eapply spec_ret; [reflexivity|]. cbn [post]. split; [exact A|]. split; [exact B|]. pm.
Qed.

(** ** The whole *)
Definition env_own (e : penv) : list blk := match e with E_none => [] | E_blank t => [t] | E_words v t _ => [v; t] end.
Definition env_has (done : bool) (e : penv) : list blk := match e with E_words _ _ _ => if done then [] else env_own e | _ => env_own e end.
Lemma f_env_list depth now e s : inv s -> spec (env_list depth now e s) (own_ps s ++ env_own e) (post (env_has now e) (ps_queue s)).
Proof.
  intro H. unfold env_list. destruct e as [|t|v t n]; try (now apply post_same). destruct now; [|now apply post_same]. cbn [env_own env_has].
  eapply spec_bind; [apply (f_arg_list (file_args depth) [v; t]); [apply f_file_args| |exact H]|].
  { apply Forall_forall. intros x X. apply repeat_spec in X. subst. apply incl_refl. }
  intros [s1| |] l X; [|eapply spec_ret; [reflexivity|exact Logic.I]|eapply spec_ret; [reflexivity|exact Logic.I]].
  destruct X as (A & B & P). eapply sp_free with (pre' := t :: own_ps s1); [pm|]. eapply sp_free; [reflexivity|].
  eapply spec_ret; [reflexivity|]. cbn [post]. split; [exact A|]. split; [exact B|]. now rewrite app_nil_r.
Qed.
Lemma inv_fresh ks q : inv (mk_ps (fresh_vars ks) q [] [] []).
Proof.
  constructor; cbn [ps_vars ps_sets ps_wait ps_lost].
  - unfold fresh_vars. intros i v E. rewrite nth_error_map in E. destruct (nth_error ks i) as [k|]; [|discriminate]. cbn in E. injection E as <-.
    unfold var_ok. cbn. destruct k; auto; [|split; reflexivity]. split; [split; [congruence|intros []]|congruence].
  - intros w [].
  - reflexivity.
Qed.
Lemma own_fresh ks : vars_own (fresh_vars ks) = [].
Proof. unfold vars_own, fresh_vars. induction ks as [|k ks IH]; [reflexivity|]. cbn [map flat_map]. rewrite IH. now destruct k. Qed.

Lemma f_env_second depth when e s : inv s ->
  spec (env_list depth (Nat.eqb when 1) e s) (own_ps s ++ env_has (Nat.eqb when 0) e) (post (env_lost (Nat.ltb 1 when) e) (ps_queue s)).
Proof.
  intro H. destruct e as [|t|v t n]; try (now apply post_same). destruct when as [|[|when]].
  - now apply post_same.
  - apply (f_env_list depth true (E_words v t n) s H).
  - now apply post_same.
Qed.
Definition ended (add : nat) (x : pres) (l : list blk) : Prop :=
  match x with
  | P_go s => (forall i v, nth_error (ps_vars s) i = Some v -> var_ok (ps_sets s) i v) /\
              length (ps_lost s) = again [] (ps_sets s) + add /\ Permutation l (vars_own (ps_vars s) ++ ps_lost s)
  | _ => True
  end.
Lemma f_rest depth ks args when e : spec (process_rest depth ks args when e) (env_own e) (ended (length (env_lost (Nat.ltb 1 when) e))).
Proof.
  assert (STOP : forall x l add, match x with P_go _ => False | _ => True end -> spec (mret x) l (ended add)).
  { intros x l add X. eapply spec_ret; [reflexivity|]. destruct x; [contradiction|exact Logic.I|exact Logic.I]. }
  unfold process_rest. apply sp_alloc. intro q.
  eapply spec_conv with (pre := own_ps (mk_ps (fresh_vars ks) q [] [] []) ++ env_own e).
  { unfold own_ps. cbn [ps_vars ps_queue ps_lost]. rewrite own_fresh. reflexivity. }
  eapply spec_bind; [apply f_env_list, inv_fresh|]. intros [s| |] l X; try (now apply STOP). destruct X as (A & B & P). cbn [ps_queue] in B.
  eapply spec_conv; [symmetry; exact P|]. clear l P.
  eapply spec_bind; [apply (f_arg_list (file_args depth) (env_has (Nat.eqb when 0) e)); [apply f_file_args| |exact A]|].
  { apply Forall_forall. intros x X. apply repeat_spec in X. subst. intros ? []. }
  intros [s1| |] l X; try (now apply STOP). destruct X as (A1 & B1 & P). eapply spec_conv; [symmetry; exact P|]. clear l P.
  eapply spec_bind; [apply f_env_second, A1|]. intros [s2| |] l X; try (now apply STOP). destruct X as (A2 & B2 & P).
  eapply sp_free with (pre' := vars_own (ps_vars s2) ++ ps_lost s2 ++ env_lost (Nat.ltb 1 when) e); [unfold own_ps in P; pm|].
  apply sp_flag. intros [|]; [|now apply STOP]. eapply spec_ret; [reflexivity|]. cbn [ended ps_loses ps_vars ps_sets ps_lost].
  split; [exact (i_vars _ A2)|]. split; [rewrite app_length, (i_lost _ A2); reflexivity|reflexivity].
Qed.
Lemma f_env : spec env_args [] (fun e l => l = env_own e).
Proof.
  unfold env_args. apply sp_choose. intros [|n]; [eapply spec_ret; reflexivity|].
  apply sp_copy; [intros ? []|]. intro e. apply sp_copy; [intros x [<-|[]]; now left|]. intro t. eapply sp_free; [reflexivity|].
  destruct n as [|n]; [eapply spec_ret; reflexivity|]. apply sp_alloc. intro v. apply sp_use; [now left|]. apply sp_use; [right; now left|].
  eapply spec_ret; reflexivity.
Qed.
Lemma f_start : spec process_start [] (fun x l => l = env_own (snd x)).
Proof.
  unfold process_start. apply sp_flag. intro g. eapply spec_bind with (R := fun _ l => l = []).
  { destruct g; [|eapply spec_ret; reflexivity]. apply sp_copy; [intros ? []|]. intro b. apply sp_use; [now left|]. apply sp_last. eapply sp_free; [reflexivity|]. eapply spec_ret; reflexivity. }
  cbv beta. intros _ ? ->. apply sp_choose. intro when. eapply spec_bind; [apply f_env|]. cbv beta. intros e ? ->. eapply spec_ret; reflexivity.
Qed.

Lemma hwf0 : hwf heap0. Proof. split; constructor. Qed.
Lemma spec0 {A} (p : mem A) Q o : spec p [] Q -> exists a o' h l, p o heap0 = MOk a o' h /\ hwf h /\ Q a l /\ Permutation (h_live h) l.
Proof.
  intro H. destruct (H o heap0 [] hwf0) as (a & o' & h & l & E & W & _ & X & P); [reflexivity|]. rewrite app_nil_r in P. eauto 10.
Qed.
(** The environment by what the script says of it. *)
Lemma start_run g when words o : exists e o' h, process_start (g :: when :: words :: o) heap0 = MOk (when, e) o' h /\
  hwf h /\ Permutation (h_live h) (env_own e) /\ length (env_lost (Nat.ltb 1 when) e) = env_left when words.
Proof.
  destruct (spec0 _ _ (g :: when :: words :: o) f_start) as ([w e] & o' & h & l & E & W & -> & P). cbn [snd] in P.
  exists e, o', h. assert (X : w = when /\ length (env_lost (Nat.ltb 1 when) e) = env_left when words).
  { revert E. clear. unfold process_start, env_args, env_left. destruct g; destruct words as [|[|n]]; cbn -[env_lost Nat.ltb Nat.leb]; intro E; injection E as E1 E2 _ _; subst w e; (split; [reflexivity|]); try reflexivity;
      destruct when as [|[|when]]; reflexivity. }
  destruct X as [-> X]. auto.
Qed.
Lemma process_accounted depth ks args g when words o : exists x o' h, process depth ks args (g :: when :: words :: o) heap0 = MOk x o' h /\ NoDup (h_live h) /\
  match x with
  | P_go s => Permutation (h_live h) (vars_own (ps_vars s) ++ ps_lost s) /\
              length (ps_lost s) = again [] (ps_sets s) + env_left when words /\
              (forall i v, nth_error (ps_vars s) i = Some v -> var_ok (ps_sets s) i v)
  | _ => True
  end.
Proof.
  destruct (start_run g when words o) as (e & o1 & h1 & E1 & W1 & P1 & L1).
  destruct (f_rest depth ks args when e o1 h1 [] W1) as (x & o2 & h2 & l & E2 & W2 & _ & X & P2); [rewrite app_nil_r; exact P1|].
  exists x, o2, h2. unfold process, mbind. rewrite E1. cbn [fst snd]. split; [exact E2|]. split; [apply W2|].
  destruct x as [s| |]; auto. destruct X as (A & B & P). rewrite L1 in B. split; [|auto]. rewrite app_nil_r in P2. pm.
Qed.

(** ** Afterwards *)
Lemma in_vars vs i v b : nth_error vs i = Some v -> In b (var_strings v) -> In b (vars_own vs).
Proof. intros E B. apply in_flat_map. exists v. split; [eapply nth_error_In, E|exact B]. Qed.
Lemma reads_some n vs F : incl (vars_own vs) F -> reads (read_some n vs) F.
Proof.
  intro I. induction n as [|n IH]; cbn [read_some]; [apply reads_ret|].
  apply reads_bind; [apply reads_choose|]. intro i. apply reads_bind; [|intros _; exact IH].
  destruct (nth_error vs i) as [v|] eqn:E; [|apply reads_ret]. apply reads_uses. intros b B. eapply I, in_vars; eauto.
Qed.
Lemma f_free_all a l : forall F, In a F -> spec (free_all a l) (l ++ F) (fun _ r => r = F).
Proof.
  induction l as [|b l IH]; intros F I; cbn [free_all app]; [eapply spec_ret; reflexivity|].
  apply sp_use; [right; apply in_or_app; now right|]. eapply sp_free; [reflexivity|]. now apply IH.
Qed.
Definition var_fine (v : pvar) : Prop :=
  match pv_kind v with PK_str => pv_ptr v <> None -> pv_used v = true | PK_strs => pv_items v = [] <-> pv_ptr v = None | _ => True end.
Lemma f_clean_var v : var_fine v -> spec (clean_var v) (var_strings v) (fun _ l => l = []).
Proof.
  unfold var_fine, clean_var, var_strings. destruct (pv_kind v); intro H.
  - destruct (pv_ptr v) as [b|]; [rewrite (H ltac:(discriminate))|].
    + cbn [m_free_opt]. eapply sp_free; [reflexivity|]. eapply spec_ret; reflexivity.
    + eapply spec_bind with (R := fun _ l => l = []); [destruct (pv_used v); eapply spec_ret; reflexivity|]. cbv beta. intros _ ? ->. eapply spec_ret; reflexivity.
  - destruct (pv_ptr v) as [a|].
    + destruct (pv_items v) as [|x xs] eqn:IT; [destruct H as [H _]; discriminate (H eq_refl)|]. rewrite <- IT.
      apply sp_assoc. eapply sp_call with (l := pv_items v ++ [a]) (f := []); [apply f_free_all; now left|pm|]. cbv beta. intros _ ? ->. cbn [app].
      eapply sp_free; [reflexivity|]. eapply spec_ret; reflexivity.
    + destruct H as [_ H]. rewrite (H eq_refl). apply sp_ret. eapply spec_ret; reflexivity.
  - eapply spec_ret; reflexivity.
  - eapply spec_ret; reflexivity.
Qed.
Lemma f_clean vs : Forall var_fine vs -> spec (clean_vars vs) (vars_own vs) (fun _ l => l = []).
Proof.
  induction 1 as [|v vs V _ IH]; cbn [clean_vars vars_own flat_map]; [eapply spec_ret; reflexivity|].
  eapply sp_call with (l := var_strings v) (f := vars_own vs); [apply f_clean_var, V|reflexivity|]. cbv beta. intros v' ? ->. cbn [app].
  eapply spec_bind; [exact IH|]. cbv beta. intros r ? ->. eapply spec_ret; reflexivity.
Qed.
Lemma all_fine sets vs : (forall i v, nth_error vs i = Some v -> var_ok sets i v) -> Forall var_fine vs.
Proof.
  intro H. apply Forall_forall. intros v V. apply In_nth_error in V. destruct V as [i V]. specialize (H _ _ V). unfold var_ok, var_fine in *.
  destruct (pv_kind v); tauto.
Qed.
Lemma life_accounted depth ks args reads g when words o : exists x o' h, argv_life depth ks args reads (g :: when :: words :: o) heap0 = MOk x o' h /\ NoDup (h_live h) /\
  match x with
  | Some s => Permutation (h_live h) (ps_lost s) /\ length (h_live h) = again [] (ps_sets s) + env_left when words
  | None => True
  end.
Proof.
  destruct (start_run g when words o) as (e & o1 & h1 & E1 & W1 & P1 & L1).
  assert (S : spec (mbind (process_rest depth ks args when e) (fun x => match x with
      | P_go s => mbind (read_some reads (ps_vars s)) (fun _ => mbind (clean_vars (ps_vars s)) (fun vs => mret (Some (ps_with s vs))))
      | _ => mret None end)) (env_own e)
    (fun x l => match x with Some s => l = ps_lost s /\ length (ps_lost s) = again [] (ps_sets s) + env_left when words | None => True end)).
  { eapply spec_bind; [apply f_rest|]. rewrite L1. intros [s| |] l X; [|eapply spec_ret; [reflexivity|exact Logic.I]|eapply spec_ret; [reflexivity|exact Logic.I]].
    destruct X as (A & B & P). eapply spec_conv; [symmetry; exact P|].
    eapply sp_reads; [apply reads_some, incl_refl|apply incl_appl, incl_refl|]. intros _.
    eapply sp_call with (l := vars_own (ps_vars s)) (f := ps_lost s); [apply f_clean; eapply all_fine, A|reflexivity|]. cbv beta. intros vs ? ->.
    eapply spec_ret; [reflexivity|]. split; [reflexivity|exact B]. }
  destruct (S o1 h1 [] W1) as (x & o2 & h2 & l & E2 & W2 & _ & X & P2); [rewrite app_nil_r; exact P1|].
  exists x, o2, h2. split; [|split; [apply W2|]].
  - unfold argv_life, process, mbind in *. rewrite E1. cbn [fst snd]. exact E2.
  - destruct x as [s|]; auto. destruct X as [-> X]. rewrite app_nil_r in P2. split; [exact P2|]. rewrite (Permutation_length P2). exact X.
Qed.
Lemma again_none l : forall seen, NoDup l -> (forall x, In x l -> ~ In x seen) -> again seen l = 0.
Proof.
  induction l as [|x l IH]; intros seen D H; [reflexivity|]. cbn [again]. inversion D as [|? ? A B]; subst.
  destruct (existsb (Nat.eqb x) seen) eqn:E; [apply existsb_in in E; exfalso; eapply H; [left; reflexivity|exact E]|].
  rewrite IH; [reflexivity|exact B|]. intros y Y [->|S]; [now apply A|eapply H; [right; exact Y|exact S]].
Qed.
Lemma process_parsed depth ks args g when words o : exists x o' h, process depth ks args (g :: when :: words :: o) heap0 = MOk x o' h /\ NoDup (h_live h) /\
  match x with
  | P_go s => Permutation (h_live h) (vars_own (ps_vars s) ++ ps_lost s) /\
              length (ps_lost s) = again [] (ps_sets s) + env_left when words /\
              (forall i v, nth_error (ps_vars s) i = Some v -> pv_kind v = PK_str -> (pv_ptr v <> None <-> In i (ps_sets s)))
  | _ => True
  end.
Proof.
  destruct (process_accounted depth ks args g when words o) as (x & o' & h & E & D & X). exists x, o', h. split; [exact E|]. split; [exact D|].
  destruct x as [s| |]; auto. destruct X as (A & B & C). split; [exact A|]. split; [exact B|]. intros i v N K. specialize (C _ _ N). unfold var_ok in C. rewrite K in C. apply C.
Qed.
Lemma life_clean depth ks args reads g when words o s o' h : argv_life depth ks args reads (g :: when :: words :: o) heap0 = MOk (Some s) o' h ->
  NoDup (ps_sets s) -> words = 0 \/ (1 < words /\ when <= 1) -> h_live h = [].
Proof.
  intros E D W. destruct (life_accounted depth ks args reads g when words o) as (x & o2 & h2 & E2 & _ & X). rewrite E in E2. injection E2 as <- <- <-.
  destruct X as [_ X]. rewrite (again_none _ [] D) in X by auto. unfold env_left in X.
  destruct W as [->|[W1 W2]]; [now destruct (h_live h)|]. destruct words as [|[|w]]; try lia. destruct (Nat.leb_spec when 1); [|lia]. now destruct (h_live h).
Qed.

(** A small separation logic for [mem], and the footprint of every function of Mem.v. *)
From Coq Require Import Permutation.
From Verif Require Import Bytes Mem SpecMem.
Local Open Scope nat_scope.
Local Notation "x <~ p ;; q" := (mbind p (fun x => q)) (at level 100, p at next level, right associativity).
Local Notation "p ;;; q" := (mbind p (fun _ => q)) (at level 100, right associativity).

Definition hwf (h : heap) : Prop := NoDup (h_live h) /\ Forall (fun b => b < h_next h) (h_live h).

(** From a heap that holds [pre] and anything else, [p] is defined, and leaves
    what [Q] says and the same rest. *)
Definition spec {A} (p : mem A) (pre : list blk) (Q : A -> list blk -> Prop) : Prop :=
  forall o h fr, hwf h -> Permutation (h_live h) (pre ++ fr) ->
  exists a o' h' l, p o h = MOk a o' h' /\ hwf h' /\ h_next h <= h_next h' /\ Q a l /\ Permutation (h_live h') (l ++ fr).

(** Permutations by counting. *)
Definition occ (l : list blk) (x : blk) : nat := count_occ Nat.eq_dec l x.
Lemma occ_cons (b : blk) l x : occ (b :: l) x = (if Nat.eq_dec b x then 1 else 0) + occ l x.
Proof. unfold occ. cbn. destruct (Nat.eq_dec b x); reflexivity. Qed.
Lemma occ_app (l l' : list blk) x : occ (l ++ l') x = occ l x + occ l' x.
Proof. unfold occ. apply count_occ_app. Qed.
Lemma occ_nil x : occ [] x = 0. Proof. reflexivity. Qed.
Lemma perm_cnt (l l' : list blk) : (forall x, occ l x = occ l' x) -> Permutation l l'.
Proof. apply (Permutation_count_occ Nat.eq_dec). Qed.
Lemma cnt_perm (l l' : list blk) : Permutation l l' -> forall x, occ l x = occ l' x.
Proof. apply (Permutation_count_occ Nat.eq_dec). Qed.
Ltac cnt := repeat (rewrite occ_app || rewrite occ_cons || rewrite occ_nil).
Ltac cnt_in H := repeat (rewrite occ_app in H || rewrite occ_cons in H || rewrite occ_nil in H).
(** Uses every Permutation hypothesis. *)
Ltac pm := apply perm_cnt; let x := fresh "x" in intro x;
  repeat match goal with H : Permutation _ _ |- _ => let K := fresh "K" in pose proof (cnt_perm _ _ H x) as K; clear H; cnt_in K end;
  cnt; lia.

Lemma inb_in b l : inb b l = true <-> In b l.
Proof.
  induction l as [|x l IH]; cbn; [split; [discriminate|intros []]|]. rewrite Bool.orb_true_iff, Nat.eqb_eq, IH. reflexivity.
Qed.
Lemma take_out_perm b l : In b l -> Permutation l (b :: take_out b l).
Proof.
  induction l as [|x l IH]; [intros []|]. cbn. destruct (Nat.eqb_spec x b) as [->|N]; [reflexivity|].
  intros [E|H]; [contradiction|]. rewrite perm_swap. constructor. exact (IH H).
Qed.

Lemma spec_ret {A} (a : A) pre (Q : A -> list blk -> Prop) l : Permutation pre l -> Q a l -> spec (mret a) pre Q.
Proof.
  intros P H o h fr W E. exists a, o, h, l. split; [reflexivity|]. split; [exact W|]. split; [lia|]. split; [exact H|]. pm.
Qed.
Lemma spec_bind {A B} (p : mem A) (k : A -> mem B) pre R Q :
  spec p pre R -> (forall a l, R a l -> spec (k a) l Q) -> spec (mbind p k) pre Q.
Proof.
  intros H K o h fr W E. destruct (H o h fr W E) as (a & o1 & h1 & l1 & E1 & W1 & N1 & R1 & P1).
  destruct (K a l1 R1 o1 h1 fr W1 P1) as (b & o2 & h2 & l2 & E2 & W2 & N2 & Q2 & P2).
  exists b, o2, h2, l2. unfold mbind. rewrite E1. repeat split; auto; try apply W2. lia.
Qed.
Lemma spec_conv {A} (p : mem A) pre pre' Q : Permutation pre pre' -> spec p pre Q -> spec p pre' Q.
Proof. intros P H o h fr W E. apply H; [exact W|]. pm. Qed.
Lemma spec_mono {A} (p : mem A) pre (Q Q' : A -> list blk -> Prop) : spec p pre Q -> (forall a l, Q a l -> exists l', Permutation l l' /\ Q' a l') -> spec p pre Q'.
Proof.
  intros H M o h fr W E. destruct (H o h fr W E) as (a & o1 & h1 & l1 & E1 & W1 & N1 & R1 & P1).
  destruct (M a l1 R1) as (l' & P & Q1). exists a, o1, h1, l'. repeat split; auto; try apply W1. pm.
Qed.
(** [p] on part of what there is. *)
Lemma sp_call {A B} (p : mem A) (k : A -> mem B) pre l f (R : A -> list blk -> Prop) Q :
  spec p l R -> Permutation pre (l ++ f) -> (forall a l', R a l' -> spec (k a) (l' ++ f) Q) -> spec (mbind p k) pre Q.
Proof.
  intros H P K o h fr W E. destruct (H o h (f ++ fr) W) as (a & o1 & h1 & l1 & E1 & W1 & N1 & R1 & P1); [pm|].
  destruct (K a l1 R1 o1 h1 fr W1) as (b & o2 & h2 & l2 & E2 & W2 & N2 & Q2 & P2); [pm|].
  exists b, o2, h2, l2. unfold mbind. rewrite E1. repeat split; auto; try apply W2. lia.
Qed.
Lemma sp_new {A B} (p : mem A) (k : A -> mem B) pre (R : A -> list blk -> Prop) Q :
  spec p [] R -> (forall a l', R a l' -> spec (k a) (l' ++ pre) Q) -> spec (mbind p k) pre Q.
Proof. intros H K. eapply sp_call with (l := []) (f := pre); [exact H|reflexivity|exact K]. Qed.
Lemma spec_frame {A} (p : mem A) pre f (R Q : A -> list blk -> Prop) :
  spec p pre R -> (forall a l, R a l -> Q a (l ++ f)) -> spec p (pre ++ f) Q.
Proof.
  intros H M o h fr W E. destruct (H o h (f ++ fr) W) as (a & o1 & h1 & l1 & E1 & W1 & N1 & R1 & P1); [pm|].
  exists a, o1, h1, (l1 ++ f). repeat split; auto; try apply W1. pm.
Qed.
Lemma sp_assoc {A B C} (p : mem A) (f : A -> mem B) (k : B -> mem C) pre Q :
  spec (mbind p (fun x => mbind (f x) k)) pre Q -> spec (mbind (mbind p f) k) pre Q.
Proof.
  intros H o h fr W E. destruct (H o h fr W E) as (a & o1 & h1 & l1 & E1 & X). exists a, o1, h1, l1. split; [|exact X].
  revert E1. unfold mbind. destruct (p o h); auto.
Qed.
Lemma sp_ret {A B} (a : A) (k : A -> mem B) pre Q : spec (k a) pre Q -> spec (mbind (mret a) k) pre Q.
Proof. exact (fun H => H). Qed.

Lemma sp_alloc {B} (k : blk -> mem B) pre Q : (forall b, spec (k b) (b :: pre) Q) -> spec (mbind m_alloc k) pre Q.
Proof.
  intros K o h fr [W1 W2] E.
  destruct (K (h_next h) o (mk_heap (S (h_next h)) (h_next h :: h_live h)) fr) as (a & o1 & h1 & l1 & E1 & W' & N1 & Q1 & P1).
  - split; cbn.
    + constructor; [|exact W1]. intro H. rewrite Forall_forall in W2. specialize (W2 _ H). lia.
    + constructor; [lia|]. eapply Forall_impl; [|exact W2]. cbv beta. intros; lia.
  - cbn. pm.
  - exists a, o1, h1, l1. cbn in N1. repeat split; auto; try apply W'. lia.
Qed.
Lemma sp_free {B} b (k : unit -> mem B) pre pre' Q : Permutation pre (b :: pre') -> spec (k tt) pre' Q -> spec (mbind (m_free b) k) pre Q.
Proof.
  intros P K o h fr [W1 W2] E.
  assert (I : In b (h_live h)) by (eapply Permutation_in; [symmetry; exact E|apply in_or_app; left; eapply Permutation_in; [symmetry; exact P|left; reflexivity]]).
  pose proof (take_out_perm b _ I) as T.
  destruct (K o (mk_heap (h_next h) (take_out b (h_live h))) fr) as (a & o1 & h1 & l1 & E1 & W' & N1 & Q1 & P1).
  - split; cbn.
    + pose proof (Permutation_NoDup T W1) as D. inversion D; assumption.
    + eapply (Permutation_Forall T) in W2. inversion W2; assumption.
  - cbn. pm.
  - exists a, o1, h1, l1. unfold mbind, m_free. apply inb_in in I. rewrite I. cbn in N1. repeat split; auto; apply W'.
Qed.
Lemma sp_use {B} b (k : unit -> mem B) pre Q : In b pre -> spec (k tt) pre Q -> spec (mbind (m_use b) k) pre Q.
Proof.
  intros I K o h fr W E.
  assert (J : In b (h_live h)) by (eapply Permutation_in; [symmetry; exact E|apply in_or_app; left; exact I]).
  destruct (K o h fr W E) as (a & o1 & h1 & l1 & E1 & X). exists a, o1, h1, l1. split; [|exact X].
  unfold mbind, m_use. apply inb_in in J. rewrite J. exact E1.
Qed.
Lemma sp_choose {B} (k : nat -> mem B) pre Q : (forall n, spec (k n) pre Q) -> spec (mbind m_choose k) pre Q.
Proof.
  intros K o h fr W E. destruct o as [|n o].
  - destruct (K 0 [] h fr W E) as (a & o1 & h1 & l1 & E1 & X). exists a, o1, h1, l1. split; [exact E1|exact X].
  - destruct (K n o h fr W E) as (a & o1 & h1 & l1 & E1 & X). exists a, o1, h1, l1. split; [exact E1|exact X].
Qed.
Lemma sp_flag {B} (k : bool -> mem B) pre Q : (forall b, spec (k b) pre Q) -> spec (mbind m_flag k) pre Q.
Proof. intro K. unfold m_flag. apply sp_assoc, sp_choose. intro n. apply sp_ret, K. Qed.
Lemma sp_free_opt {B} p (k : unit -> mem B) pre pre' Q :
  Permutation pre (own_opt own_blk p ++ pre') -> spec (k tt) pre' Q -> spec (mbind (m_free_opt p) k) pre Q.
Proof.
  destruct p as [b|]; cbn [own_opt own_blk m_free_opt app]; intros P K.
  - eapply sp_free; eassumption.
  - apply sp_ret. eapply spec_conv; [|exact K]. symmetry. exact P.
Qed.
Lemma sp_realloc {B} b (k : blk -> mem B) pre pre' Q :
  Permutation pre (b :: pre') -> (forall c, spec (k c) (c :: pre') Q) -> spec (mbind (m_realloc b) k) pre Q.
Proof. intros P K. unfold m_realloc. apply sp_assoc. eapply sp_free; [exact P|]. apply sp_alloc, K. Qed.
(** A program at the end: run it as if followed by returning its result. *)
Lemma sp_last {A} (p : mem A) pre Q : spec (mbind p mret) pre Q -> spec p pre Q.
Proof.
  intros H o h fr W E. destruct (H o h fr W E) as (a & o1 & h1 & l1 & E1 & X). exists a, o1, h1, l1. split; [|exact X].
  revert E1. unfold mbind, mret. destruct (p o h); auto.
Qed.

(** Membership in a footprint. *)
Ltac inn := unfold own_reader, own_writer, own_ctl, own_vec, own_rdwr; repeat (rewrite in_app_iff); cbn [In app];
  repeat (rewrite in_app_iff); cbn [In]; auto 20; try tauto.

(** Footprints of objects just built. *)
Ltac ow := unfold own_vec, own_rdwr; cbn [bv_blk bv_v bv_items ub_blk ub_v c_blk c_vec o_blk o_vec p_blk p_text p_port rw_blk rw_obj own_tobj own_opt app]; change own_blk with (fun b : blk => [b]); cbv beta.

(** ** vector.h *)
Lemma f_bv_init : spec bv_init [] (fun x l => l = own_vec x /\ bv_items x = []).
Proof. unfold bv_init. apply sp_alloc. intro b. apply sp_alloc. intro v. eapply spec_ret; [|split; reflexivity]. ow. pm. Qed.
Lemma f_bv_add x d : spec (bv_add x d) (d :: own_vec x) (fun y l => l = own_vec y /\ bv_items y = bv_items x ++ [d] /\ bv_blk y = bv_blk x).
Proof.
  unfold bv_add. apply sp_use; [inn|]. destruct (bv_alloced x <? length (bv_items x) + 1).
  - apply sp_realloc with (pre' := d :: bv_blk x :: bv_items x); [unfold own_vec; pm|]. intro c. apply sp_use; [inn|].
    eapply spec_ret; [|split; [reflexivity|split; reflexivity]]. ow. pm.
  - apply sp_ret. apply sp_use; [inn|]. eapply spec_ret; [|split; [reflexivity|split; reflexivity]]. ow. pm.
Qed.
Lemma f_free_each x l : spec (free_each x l) (bv_blk x :: bv_v x :: l) (fun _ r => r = [bv_blk x; bv_v x]).
Proof.
  induction l as [|d l IH]; cbn [free_each].
  - eapply spec_ret; [reflexivity|reflexivity].
  - apply sp_use; [inn|]. apply sp_use; [inn|]. eapply sp_free; [|exact IH]. pm.
Qed.
Lemma f_bv_free_items x : spec (bv_free_items x) (own_vec x) (fun _ r => r = [bv_blk x; bv_v x]).
Proof. apply f_free_each. Qed.
Lemma f_bv_reset x : spec (bv_reset x) [bv_blk x; bv_v x] (fun y l => l = own_vec y /\ bv_items y = []).
Proof.
  unfold bv_reset. apply sp_use; [inn|]. destruct (1 <? bv_alloced x).
  - apply sp_realloc with (pre' := [bv_blk x]); [pm|]. intro c. eapply spec_ret; [|split; reflexivity]. ow. pm.
  - apply sp_ret. eapply spec_ret; [|split; reflexivity]. ow. pm.
Qed.
Lemma f_bv_destroy x : spec (bv_destroy x) [bv_blk x; bv_v x] (fun _ l => l = []).
Proof.
  unfold bv_destroy. apply sp_use; [inn|]. eapply sp_free with (pre' := [bv_blk x]); [pm|].
  apply sp_last. eapply sp_free with (pre' := []); [pm|]. eapply spec_ret; reflexivity.
Qed.
(** Reading leaves everything. *)
Definition reads {A} (p : mem A) (l : list blk) : Prop := forall pre, incl l pre -> spec p pre (fun _ r => r = pre).
Lemma sp_reads {A B} (p : mem A) l (k : A -> mem B) pre Q : reads p l -> incl l pre -> (forall a, spec (k a) pre Q) -> spec (mbind p k) pre Q.
Proof. intros R I K. eapply spec_bind; [exact (R pre I)|]. cbv beta. intros a ? ->. apply K. Qed.
Lemma reads_ret {A} (a : A) l : reads (mret a) l.
Proof. intros pre _. eapply spec_ret; reflexivity. Qed.
Lemma reads_bind {A B} (p : mem A) (k : A -> mem B) l : reads p l -> (forall a, reads (k a) l) -> reads (mbind p k) l.
Proof. intros R K pre I. eapply sp_reads; [exact R|exact I|]. intro a. exact (K a pre I). Qed.
Lemma reads_use b l : In b l -> reads (m_use b) l.
Proof. intros H pre I. apply sp_last. apply sp_use; [exact (I _ H)|]. eapply spec_ret; reflexivity. Qed.
Lemma reads_flag l : reads m_flag l.
Proof. intros pre I. apply sp_last, sp_flag. intro b. eapply spec_ret; reflexivity. Qed.
Lemma reads_choose l : reads m_choose l.
Proof. intros pre I. apply sp_last, sp_choose. intro b. eapply spec_ret; reflexivity. Qed.
Lemma reads_incl {A} (p : mem A) l l' : incl l l' -> reads p l -> reads p l'.
Proof. intros I R pre J. apply R. intros x H. apply J, I, H. Qed.
Lemma reads_use_each x l L : In (bv_blk x) L -> In (bv_v x) L -> incl l L -> reads (use_each x l) L.
Proof.
  intros H1 H2. induction l as [|d l IH]; intro I; cbn [use_each]; [apply reads_ret|].
  apply reads_bind; [apply reads_use; exact H1|intros _]. apply reads_bind; [apply reads_use; exact H2|intros _].
  apply reads_bind; [apply reads_use; apply I; left; reflexivity|intros _]. apply IH. intros y Y. apply I. right. exact Y.
Qed.
Lemma reads_bv_read x : reads (bv_read x) (own_vec x).
Proof.
  unfold bv_read. apply reads_bind; [apply reads_use; inn|intros _]. apply reads_use_each; [inn|inn|].
  intros y H. unfold own_vec. do 2 right. exact H.
Qed.
Lemma reads_co_read c : reads (co_read c) (own_ctl c).
Proof.
  unfold co_read. apply reads_bind; [apply reads_use; inn|intros _]. eapply reads_incl; [|apply reads_bv_read].
  intros y H. right. exact H.
Qed.

(** ubuf *)
Lemma f_ub_init : spec ub_init [] (fun x l => l = [ub_blk x; ub_v x]).
Proof. unfold ub_init. apply sp_alloc. intro b. apply sp_alloc. intro v. eapply spec_ret; [|reflexivity]. ow. pm. Qed.
Lemma f_ub_grow n : forall v, spec (ub_grow n v) [v] (fun w l => l = [w]).
Proof.
  induction n as [|n IH]; intro v; cbn [ub_grow]; [eapply spec_ret; reflexivity|].
  apply sp_realloc with (pre' := []); [pm|]. intro c. apply IH.
Qed.
Lemma f_ub_reserve x : spec (ub_reserve x) [ub_blk x; ub_v x] (fun y l => l = [ub_blk y; ub_v y]).
Proof.
  unfold ub_reserve. apply sp_use; [inn|]. apply sp_choose. intro n.
  eapply sp_call with (f := [ub_blk x]); [apply f_ub_grow|pm|]. cbv beta. intros w ? ->. eapply spec_ret; [|reflexivity]. ow. pm.
Qed.
Lemma f_ub_destroy x : spec (ub_destroy x) [ub_blk x; ub_v x] (fun _ l => l = []).
Proof.
  unfold ub_destroy. apply sp_use; [inn|]. eapply sp_free with (pre' := [ub_blk x]); [pm|].
  apply sp_last. eapply sp_free with (pre' := []); [pm|]. eapply spec_ret; reflexivity.
Qed.

(** ** control.c *)
Lemma f_co_init : spec co_init [] (fun c l => l = own_ctl c).
Proof.
  unfold co_init. apply sp_alloc. intro b. eapply sp_call with (l := []) (f := [b]); [apply f_bv_init|reflexivity|].
  cbv beta. intros v ? [-> _]. eapply spec_ret; [|reflexivity]. unfold own_ctl. cbn [c_blk c_vec]. pm.
Qed.
Lemma f_co_reset c : spec (co_reset c) (own_ctl c) (fun d l => l = own_ctl d /\ bv_items (c_vec d) = []).
Proof.
  unfold co_reset. apply sp_use; [inn|]. eapply sp_call with (f := [c_blk c]); [apply f_bv_free_items|unfold own_ctl; pm|].
  cbv beta. intros _ ? ->. eapply sp_call with (f := [c_blk c]); [apply f_bv_reset|pm|]. cbv beta. intros v ? [-> E].
  eapply spec_ret; [|split; [reflexivity|exact E]]. unfold own_ctl. cbn [c_blk c_vec]. pm.
Qed.
Lemma f_co_destroy c : spec (co_destroy c) (own_opt own_ctl c) (fun _ l => l = []).
Proof.
  destruct c as [c|]; cbn [co_destroy own_opt]; [|eapply spec_ret; reflexivity].
  eapply spec_bind; [apply f_co_reset|]. cbv beta. intros d ? [-> E].
  eapply sp_call with (f := [c_blk d]); [apply f_bv_destroy|unfold own_ctl, own_vec; rewrite E; pm|]. cbv beta. intros _ ? ->.
  apply sp_last. eapply sp_free with (pre' := []); [pm|]. eapply spec_ret; reflexivity.
Qed.
Lemma f_co_add c : spec (co_add c) (own_ctl c) (fun d l => l = own_ctl d).
Proof.
  unfold co_add. apply sp_use; [inn|]. apply sp_alloc. intro d. apply sp_use; [inn|].
  eapply sp_call with (f := [c_blk c]); [apply f_bv_add|unfold own_ctl; pm|]. cbv beta. intros v ? [-> _].
  eapply spec_ret; [|reflexivity]. unfold own_ctl. cbn [c_blk c_vec]. pm.
Qed.
Lemma f_co_fields n : forall c, spec (co_fields n c) (own_ctl c) (fun x l => l = own_ctl (snd x)).
Proof.
  induction n as [|n IH]; intro c; cbn [co_fields].
  - apply sp_flag. intro b. eapply spec_ret; reflexivity.
  - apply sp_choose. intros [|[|x]].
    + eapply spec_ret; reflexivity.
    + apply sp_alloc. intro d. apply sp_use; [inn|]. eapply sp_free with (pre' := own_ctl c); [reflexivity|]. eapply spec_ret; reflexivity.
    + eapply spec_bind; [apply f_co_add|]. cbv beta. intros d ? ->. apply IH.
Qed.
Lemma f_co_decode c : spec (co_decode c) (own_ctl c) (fun x l => l = own_ctl (snd x)).
Proof.
  unfold co_decode. eapply spec_bind; [apply f_co_reset|]. cbv beta. intros d ? [-> _]. apply sp_choose. intro n. apply f_co_fields.
Qed.

(** ** Options *)
Definition own_o (x : oobj) : list blk := o_blk x :: own_opt own_vec (o_vec x).
Definition own_p (x : pobj) : list blk := p_blk x :: own_opt own_blk (p_text x) ++ own_opt own_blk (p_port x).
Lemma f_oo_init : spec oo_init [] (fun x l => l = own_o x).
Proof. unfold oo_init. apply sp_alloc. intro b. eapply spec_ret; reflexivity. Qed.
Lemma f_oo_add x ok : spec (oo_add x ok) (own_o x) (fun y l => l = own_o y).
Proof.
  unfold oo_add. destruct ok; cbn [negb]; [|eapply spec_ret; reflexivity]. apply sp_use; [left; reflexivity|].
  assert (G : forall v, spec (mbind m_alloc (fun d => mbind (m_use d) (fun _ => mbind (bv_add v d) (fun v => mret (mk_oo (o_blk x) (Some v))))))
                 (o_blk x :: own_vec v) (fun y l => l = own_o y)).
  { intro v. apply sp_alloc. intro d. apply sp_use; [left; reflexivity|].
    eapply sp_call with (f := [o_blk x]); [apply f_bv_add|pm|]. cbv beta. intros v' ? [-> _]. eapply spec_ret; [|reflexivity].
    unfold own_o. cbn [o_blk o_vec own_opt]. pm. }
  unfold own_o at 1. destruct (o_vec x) as [v|]; cbn [own_opt].
  - apply sp_ret. apply G.
  - eapply sp_call with (l := []) (f := [o_blk x]); [apply f_bv_init|reflexivity|]. cbv beta. intros v ? [-> _].
    eapply spec_conv; [|apply G]. pm.
Qed.
Lemma f_oo_destroy x : spec (oo_destroy x) (own_o x) (fun _ l => l = []).
Proof.
  unfold oo_destroy. apply sp_use; [left; reflexivity|]. unfold own_o.
  eapply sp_call with (l := own_opt own_vec (o_vec x)) (f := [o_blk x]) (R := fun _ l => l = []); [|pm|].
  - destruct (o_vec x) as [v|]; cbn [own_opt]; [|eapply spec_ret; reflexivity].
    eapply spec_bind; [apply f_bv_free_items|]. cbv beta. intros _ ? ->. apply f_bv_destroy.
  - cbv beta. intros _ ? ->. apply sp_last. eapply sp_free with (pre' := []); [pm|]. eapply spec_ret; reflexivity.
Qed.
Lemma f_po_init : spec po_init [] (fun x l => l = own_p x).
Proof. unfold po_init. apply sp_alloc. intro b. eapply spec_ret; reflexivity. Qed.
Lemma f_po_set x second given : spec (po_set x second given) (own_p x) (fun y l => l = own_p y).
Proof.
  unfold po_set. apply sp_use; [left; reflexivity|].
  apply sp_free_opt with (pre' := p_blk x :: own_opt own_blk (if second then p_text x else p_port x)); [unfold own_p; destruct second; cbv iota; pm|].
  destruct given.
  - apply sp_assoc, sp_alloc. intro b. apply sp_ret. eapply spec_ret; [|reflexivity].
    destruct second; cbv iota; unfold own_p; ow; pm.
  - apply sp_ret. eapply spec_ret; [|reflexivity].
    destruct second; cbv iota; unfold own_p; ow; pm.
Qed.
Lemma f_po_destroy x : spec (po_destroy x) (own_p x) (fun _ l => l = []).
Proof.
  unfold po_destroy. apply sp_use; [left; reflexivity|].
  apply sp_free_opt with (pre' := p_blk x :: own_opt own_blk (p_port x)); [unfold own_p; pm|].
  apply sp_free_opt with (pre' := [p_blk x]); [pm|]. apply sp_last. eapply sp_free with (pre' := []); [pm|]. eapply spec_ret; reflexivity.
Qed.

(** ** Transports *)
Lemma f_ro_user h rd wr : spec (ro_user h rd wr) [] (fun x l => l = own_rdwr x /\ rw_read x = rd /\ rw_write x = wr).
Proof.
  unfold ro_user. destruct h.
  - apply sp_assoc, sp_alloc. intro b. apply sp_ret, sp_alloc. intro c. eapply spec_ret; [|split; [reflexivity|split; reflexivity]]. ow. pm.
  - apply sp_ret, sp_alloc. intro c. eapply spec_ret; [|split; [reflexivity|split; reflexivity]]. ow. pm.
Qed.
Lemma f_ro_destroy x : spec (ro_destroy x) (own_rdwr x) (fun _ l => l = []).
Proof.
  unfold ro_destroy. apply sp_use; [left; reflexivity|]. unfold own_rdwr.
  eapply sp_call with (l := own_tobj (rw_obj x)) (f := [rw_blk x]) (R := fun _ l => l = []); [|pm|].
  - destruct (rw_obj x) as [f p|w|u]; cbn [own_tobj].
    + apply sp_use; [left; reflexivity|]. eapply sp_free with (pre' := [f]); [pm|]. apply sp_last. eapply sp_free with (pre' := []); [pm|]. eapply spec_ret; reflexivity.
    + apply sp_last. eapply sp_free with (pre' := []); [pm|]. eapply spec_ret; reflexivity.
    + apply sp_last. apply sp_free_opt with (pre' := []); [pm|]. eapply spec_ret; reflexivity.
  - cbv beta. intros _ ? ->. apply sp_last. eapply sp_free with (pre' := []); [pm|]. eapply spec_ret; reflexivity.
Qed.
Lemma reads_ro_call x : reads (ro_call x) (own_rdwr x).
Proof.
  unfold ro_call. apply reads_bind; [apply reads_use; left; reflexivity|intros _]. apply reads_bind; [|intros _; apply reads_flag].
  unfold own_rdwr. destruct (rw_obj x) as [f p|w|[u|]]; cbn [own_tobj own_opt own_blk].
  - apply reads_bind; [apply reads_use; cbn; auto|intros _]. apply reads_use. cbn; auto.
  - apply reads_use. cbn; auto.
  - apply reads_use. cbn; auto.
  - apply reads_ret.
Qed.
Definition own_made (p : pobj) (x : option robj) (l : list blk) : Prop := l = own_opt own_rdwr x ++ own_p p.
Lemma f_ro_file p rd : spec (ro_file p rd) (own_p p) (fun x l => own_made p x l /\ match x with Some x => rw_read x = rd /\ rw_write x = negb rd | None => True end).
Proof.
  unfold ro_file, own_made. apply sp_use; [left; reflexivity|]. destruct (p_text p) as [t|] eqn:E.
  - apply sp_alloc. intro f. apply sp_use; [unfold own_p; rewrite E; cbn; auto|]. apply sp_alloc. intro q. apply sp_alloc. intro b.
    eapply spec_ret; [|split; [reflexivity|split; reflexivity]]. ow. pm.
  - eapply spec_ret; [|split; [reflexivity|exact I]]. reflexivity.
Qed.
Lemma f_ro_unix p : spec (ro_unix p) (own_p p) (fun x l => own_made p x l /\ match x with Some x => rw_write x = true | None => True end).
Proof.
  unfold ro_unix, own_made. apply sp_use; [left; reflexivity|]. destruct (p_text p) as [t|] eqn:E.
  - apply sp_use; [unfold own_p; rewrite E; cbn; auto|]. apply sp_flag. intros [].
    + apply sp_alloc. intro f. apply sp_use; [unfold own_p; rewrite E; cbn; auto|]. apply sp_alloc. intro b.
      eapply spec_ret; [|split; [reflexivity|reflexivity]]. ow. pm.
    + eapply spec_ret; [|split; [reflexivity|exact I]]. reflexivity.
  - eapply spec_ret; [|split; [reflexivity|exact I]]. reflexivity.
Qed.
Lemma f_ro_tcp p : spec (ro_tcp p) (own_p p) (fun x l => own_made p x l /\ match x with Some x => rw_write x = true | None => True end).
Proof.
  unfold ro_tcp, own_made. apply sp_use; [left; reflexivity|].
  destruct (p_text p) as [t|] eqn:E; [destruct (p_port p) as [q|] eqn:F|]; try (eapply spec_ret; [|split; [reflexivity|exact I]]; reflexivity).
  apply sp_alloc. intro w. apply sp_use; [unfold own_p; rewrite E; cbn; auto|]. apply sp_use; [unfold own_p; rewrite E, F; cbn; auto|].
  apply sp_flag. intros [].
  - apply sp_alloc. intro b. eapply spec_ret; [|split; [reflexivity|reflexivity]]. ow. pm.
  - eapply sp_free with (pre' := own_p p); [reflexivity|]. eapply spec_ret; [|split; [reflexivity|exact I]]. reflexivity.
Qed.

(** ** Frames over a transport: the transport is only read. *)
Lemma f_read_frame x c : spec (read_frame x c) (own_rdwr x ++ own_ctl c) (fun y l => l = own_rdwr x ++ own_ctl (snd y)).
Proof.
  unfold read_frame. eapply sp_reads; [apply reads_ro_call|apply incl_appl, incl_refl|]. intros [].
  - cbn [negb]. apply sp_last. eapply sp_call with (f := own_rdwr x); [apply f_co_decode|pm|]. cbv beta. intros y ? ->. eapply spec_ret; [|reflexivity]. pm.
  - cbn [negb]. eapply spec_ret; reflexivity.
Qed.
Lemma f_read_ctl x c : spec (read_ctl x c) (own_rdwr x ++ own_opt own_ctl c) (fun y l => l = own_rdwr x ++ own_ctl (snd y)).
Proof.
  unfold read_ctl. eapply sp_call with (l := own_opt own_ctl c) (f := own_rdwr x) (R := fun c l => l = own_ctl c); [|pm|].
  - destruct c; cbn [own_opt]; [eapply spec_ret; reflexivity|apply f_co_init].
  - cbv beta. intros d ? ->. eapply sp_call with (f := []); [apply f_read_frame|pm|]. cbv beta. intros [ok e] ? ->. cbn [snd].
    destruct ok; cbn [negb].
    + apply sp_use; [inn|]. apply sp_flag. intro b. eapply spec_ret; [|reflexivity]. cbn [snd]. pm.
    + eapply spec_ret; [|reflexivity]. cbn [snd]. pm.
Qed.
Lemma reads_write_frame x c : reads (write_frame x c) (own_rdwr x ++ own_ctl c).
Proof.
  unfold write_frame. apply reads_bind; [eapply reads_incl; [|apply reads_co_read]; apply incl_appr, incl_refl|intros _].
  apply reads_bind; [apply reads_flag|]. intros []; cbn [negb]; [|apply reads_ret].
  eapply reads_incl; [|apply reads_ro_call]. apply incl_appl, incl_refl.
Qed.
Lemma f_write_ctl x : spec (write_ctl x) (own_rdwr x) (fun _ l => l = own_rdwr x).
Proof.
  unfold write_ctl. eapply sp_call with (l := []) (f := own_rdwr x); [apply f_co_init|reflexivity|]. cbv beta. intros c ? ->.
  eapply sp_reads; [apply reads_write_frame| |].
  { intros y H. rewrite in_app_iff in *. tauto. }
  intro b. eapply sp_call with (f := own_rdwr x); [apply (f_co_destroy (Some c))|reflexivity|]. cbv beta. intros _ ? ->. eapply spec_ret; reflexivity.
Qed.
Lemma f_fresh c : spec (fresh c) (own_opt own_ctl c) (fun d l => l = own_ctl d).
Proof.
  destruct c as [c|]; cbn [fresh own_opt]; [|apply f_co_init].
  eapply spec_mono; [apply f_co_reset|]. cbv beta. intros d l [-> _]. eauto.
Qed.
Lemma reads_match v c : reads (match_ctl v c) (own_vec v ++ own_ctl c).
Proof.
  unfold match_ctl. apply reads_bind; [eapply reads_incl; [|apply reads_bv_read]; apply incl_appl, incl_refl|intros _].
  apply reads_bind; [eapply reads_incl; [|apply reads_co_read]; apply incl_appr, incl_refl|intros _]. apply reads_flag.
Qed.
Lemma f_add_some v l : incl l (bv_items v) -> forall c, spec (add_some v l c) (own_vec v ++ own_ctl c) (fun d r => r = own_vec v ++ own_ctl d).
Proof.
  induction l as [|d l IH]; intros I c; cbn [add_some]; [eapply spec_ret; reflexivity|].
  apply sp_use; [inn|]. apply sp_use; [inn|]. apply sp_use.
  { apply in_or_app. left. unfold own_vec. do 2 right. apply I. left. reflexivity. }
  apply sp_flag. intros [].
  - eapply sp_call with (f := own_vec v); [apply f_co_add|pm|]. cbv beta. intros e ? ->. eapply spec_conv; [|apply IH]; [pm|]. intros y Y. apply I. right. exact Y.
  - apply sp_ret. apply IH. intros y Y. apply I. right. exact Y.
Qed.
Lemma f_copy_each v l : incl l (bv_items v) -> forall t, spec (copy_each v l t) (own_vec v ++ own_vec t) (fun d r => r = own_vec v ++ own_vec d).
Proof.
  induction l as [|d l IH]; intros I t; cbn [copy_each]; [eapply spec_ret; reflexivity|].
  apply sp_use; [inn|]. apply sp_use; [inn|]. apply sp_use.
  { apply in_or_app. left. unfold own_vec. do 2 right. apply I. left. reflexivity. }
  apply sp_alloc. intro b. eapply sp_call with (f := own_vec v); [apply f_bv_add|pm|]. cbv beta. intros e ? [-> _].
  eapply spec_conv; [|apply IH]; [pm|]. intros y Y. apply I. right. exact Y.
Qed.
Lemma f_copy_types o t : spec (copy_types o t) (own_opt own_o o ++ own_vec t) (fun d r => r = own_opt own_o o ++ own_vec d).
Proof.
  destruct o as [o|]; cbn [copy_types own_opt]; [|eapply spec_ret; reflexivity].
  apply sp_use; [left; reflexivity|]. unfold own_o. destruct (o_vec o) as [v|]; cbn [own_opt]; [|eapply spec_ret; reflexivity].
  apply sp_last. eapply sp_call with (f := [o_blk o]); [apply f_copy_each, incl_refl|pm|]. cbv beta. intros d ? ->. eapply spec_ret; [|reflexivity]. pm.
Qed.

(** ** reader.c *)
Ltac orr := unfold own_reader, mr_set; cbn [mr_blk mr_vec mr_buf mr_rdwr mr_start mr_stop mr_ready mr_accept mr_tmp own_opt].
Ltac rin := unfold own_reader, own_writer; intros ? ?; repeat (rewrite in_app_iff in * || cbn [In] in *); tauto.
Definition keeps (r : mreader) (x : bool * mreader) (l : list blk) : Prop :=
  l = own_reader (snd x) /\ mr_stop (snd x) = mr_stop r /\ mr_buf (snd x) = mr_buf r.
Lemma f_mr_init o x : spec (mr_init o x) (own_opt own_o o ++ own_rdwr x)
  (fun r l => match r with Some r => l = own_opt own_o o ++ own_reader r /\ mr_stop r = None
              | None => l = own_opt own_o o ++ own_rdwr x /\ rw_read x = false end).
Proof.
  unfold mr_init. apply sp_use; [inn|]. destruct (rw_read x); cbn [negb]; [|eapply spec_ret; [reflexivity|split; reflexivity]].
  apply sp_alloc. intro b. eapply sp_new; [apply f_bv_init|]. cbv beta. intros v ? [-> _].
  eapply sp_new; [apply f_ub_init|]. cbv beta. intros u ? ->.
  eapply sp_call with (l := own_opt own_o o ++ own_vec v) (f := [ub_blk u; ub_v u] ++ b :: own_rdwr x); [apply f_copy_types|pm|]. cbv beta. intros v' ? ->.
  eapply spec_ret; [|split; reflexivity]. orr. pm.
Qed.
Lemma f_mr_open_uni r : spec (mr_open_uni r) (own_reader r) (keeps r).
Proof.
  unfold mr_open_uni, keeps. remember (own_reader r) as O eqn:EO.
  eapply sp_call with (l := own_rdwr (mr_rdwr r) ++ own_opt own_ctl (mr_start r))
    (f := mr_blk r :: own_vec (mr_vec r) ++ [ub_blk (mr_buf r); ub_v (mr_buf r)] ++ own_opt own_ctl (mr_stop r) ++ own_opt own_ctl (mr_ready r) ++
          own_opt own_ctl (mr_accept r) ++ own_opt own_ctl (mr_tmp r)); [apply f_read_ctl|subst O; unfold own_reader; pm|].
  cbv beta. intros [ok c] ? ->. cbn [snd]. destruct ok; cbn [negb].
  - cbn [mr_vec]. eapply sp_reads; [apply reads_match|rin|]. intros []; (eapply spec_ret; [|split; [reflexivity|split; reflexivity]]); cbn [snd]; orr; pm.
  - eapply spec_ret; [|split; [reflexivity|split; reflexivity]]; cbn [snd]; orr; pm.
Qed.
Lemma f_mr_open_bi r : spec (mr_open_bi r) (own_reader r) (keeps r).
Proof.
  unfold mr_open_bi. remember (own_reader r) as O eqn:EO.
  eapply sp_call with (l := own_rdwr (mr_rdwr r) ++ own_opt own_ctl (mr_ready r))
    (f := mr_blk r :: own_vec (mr_vec r) ++ [ub_blk (mr_buf r); ub_v (mr_buf r)] ++ own_opt own_ctl (mr_stop r) ++ own_opt own_ctl (mr_start r) ++
          own_opt own_ctl (mr_accept r) ++ own_opt own_ctl (mr_tmp r)); [apply f_read_ctl|subst O; unfold own_reader; pm|].
  cbv beta. intros [ok c] ? ->. cbn [snd]. destruct ok; cbn [negb].
  - cbn [mr_vec mr_accept mr_blk mr_state mr_buf mr_rdwr mr_start mr_stop mr_ready mr_tmp].
    eapply sp_call with (l := own_opt own_ctl (mr_accept r))
      (f := mr_blk r :: own_vec (mr_vec r) ++ [ub_blk (mr_buf r); ub_v (mr_buf r)] ++ own_opt own_ctl (mr_stop r) ++ own_opt own_ctl (mr_start r) ++
            own_opt own_ctl (mr_tmp r) ++ own_rdwr (mr_rdwr r) ++ own_ctl c); [apply f_fresh|pm|].
    cbv beta. intros a ? ->. eapply sp_reads; [apply reads_co_read|rin|]. intros _.
    eapply sp_call with (l := own_vec (mr_vec r) ++ own_ctl a)
      (f := mr_blk r :: [ub_blk (mr_buf r); ub_v (mr_buf r)] ++ own_opt own_ctl (mr_stop r) ++ own_opt own_ctl (mr_start r) ++
            own_opt own_ctl (mr_tmp r) ++ own_rdwr (mr_rdwr r) ++ own_ctl c); [apply f_add_some, incl_refl|pm|].
    cbv beta. intros a' ? ->. eapply sp_reads; [apply reads_write_frame|rin|]. intros []; cbn [negb].
    + eapply spec_conv; [|eapply spec_mono; [apply f_mr_open_uni|]].
      * orr. pm.
      * unfold keeps. cbn [mr_stop mr_buf]. intros x l H. exists l. split; [reflexivity|exact H].
    + eapply spec_ret; [|split; [reflexivity|split; reflexivity]]; cbn [snd]; orr; pm.
  - eapply spec_ret; [|split; [reflexivity|split; reflexivity]]; cbn [snd]; orr; pm.
Qed.
Lemma f_mr_open r : spec (mr_open r) (own_reader r) (keeps r).
Proof.
  unfold mr_open. apply sp_use; [inn|].
  assert (D : spec (ok <~ ro_call (mr_rdwr r) ;; if negb ok then mret (false, r) else if rw_write (mr_rdwr r) then mr_open_bi r else mr_open_uni r)
                (own_reader r) (keeps r)).
  { eapply sp_reads; [apply reads_ro_call|rin|]. intros []; cbn [negb].
    - destruct (rw_write (mr_rdwr r)); [apply f_mr_open_bi|apply f_mr_open_uni].
    - eapply spec_ret; [reflexivity|]. split; [reflexivity|split; reflexivity]. }
  destruct (mr_state r); try exact D. eapply spec_ret; [reflexivity|]. split; [reflexivity|split; reflexivity].
Qed.
Lemma f_mr_maybe_open r : spec (mr_maybe_open r) (own_reader r) (keeps r).
Proof.
  unfold mr_maybe_open. apply sp_use; [inn|].
  destruct (mr_state r); try (eapply spec_ret; [reflexivity|]; split; [reflexivity|split; reflexivity]). apply f_mr_open.
Qed.
(** What a read leaves: the frame of an earlier end of stream is nobody's. *)
Definition after_read (r : mreader) (x : rres * mreader) (l : list blk) : Prop :=
  exists lost, l = own_reader (snd x) ++ own_opt own_ctl lost /\
  match fst x with
  | RR_stop => lost = mr_stop r /\ mr_stop (snd x) <> None
  | RR_data b => lost = None /\ mr_stop (snd x) = mr_stop r /\ b = ub_v (mr_buf (snd x))
  | RR_fail => lost = None /\ mr_stop (snd x) = mr_stop r
  end.
Lemma after_read_none r rr r' pre : mr_stop r' = mr_stop r -> match rr with RR_stop => False | RR_data b => b = ub_v (mr_buf r') | RR_fail => True end ->
  Permutation pre (own_reader r') -> spec (mret (rr, r')) pre (after_read r).
Proof.
  intros E B P. eapply spec_ret with (l := own_reader r' ++ []); [rewrite app_nil_r; exact P|]. exists None. cbn [own_opt snd fst]. split; [reflexivity|].
  destruct rr; cbn [fst]; [split; [reflexivity|split; [exact E|exact B]]|destruct B|split; [reflexivity|exact E]].
Qed.
Lemma f_mr_next n : forall r, spec (mr_next n r) (own_reader r) (after_read r).
Proof.
  induction n as [|n IH]; intro r; cbn [mr_next].
  - apply after_read_none; [reflexivity|exact I|]. orr. reflexivity.
  - remember (own_reader r) as O eqn:EO. eapply sp_reads; [apply reads_ro_call|subst O; rin|]. intros []; cbn [negb].
    2: { apply after_read_none; [reflexivity|exact I|]. subst O. orr. reflexivity. }
    apply sp_choose. intros [|[|x]].
    + apply after_read_none; [reflexivity|exact I|]. subst O. orr. reflexivity.
    + eapply sp_call with (l := [ub_blk (mr_buf r); ub_v (mr_buf r)])
        (f := mr_blk r :: own_vec (mr_vec r) ++ own_rdwr (mr_rdwr r) ++ own_opt own_ctl (mr_start r) ++ own_opt own_ctl (mr_stop r) ++
              own_opt own_ctl (mr_ready r) ++ own_opt own_ctl (mr_accept r) ++ own_opt own_ctl (mr_tmp r)); [apply f_ub_reserve|subst O; unfold own_reader; pm|].
      cbv beta. intros u ? ->. apply sp_use; [inn|]. cbn [mr_rdwr]. eapply sp_reads; [apply reads_ro_call|rin|]. intros []; cbn [negb].
      * apply after_read_none; [reflexivity|reflexivity|]. orr. pm.
      * apply after_read_none; [reflexivity|exact I|]. orr. pm.
    + eapply sp_call with (l := own_opt own_ctl (mr_tmp r)) (R := fun c l => l = own_ctl c)
        (f := mr_blk r :: own_vec (mr_vec r) ++ [ub_blk (mr_buf r); ub_v (mr_buf r)] ++ own_rdwr (mr_rdwr r) ++ own_opt own_ctl (mr_start r) ++ own_opt own_ctl (mr_stop r) ++
              own_opt own_ctl (mr_ready r) ++ own_opt own_ctl (mr_accept r)); [|subst O; unfold own_reader; pm|].
      { destruct (mr_tmp r); cbn [own_opt]; [eapply spec_ret; reflexivity|apply f_co_init]. }
      cbv beta. intros c ? ->. eapply sp_call with (l := own_rdwr (mr_rdwr r) ++ own_ctl c)
        (f := mr_blk r :: own_vec (mr_vec r) ++ [ub_blk (mr_buf r); ub_v (mr_buf r)] ++ own_opt own_ctl (mr_start r) ++ own_opt own_ctl (mr_stop r) ++
              own_opt own_ctl (mr_ready r) ++ own_opt own_ctl (mr_accept r)); [apply f_read_frame|pm|].
      cbv beta. intros [ok d] ? ->. cbn [snd]. destruct ok; cbn [negb].
      2: { apply after_read_none; [reflexivity|exact I|]. orr. pm. }
      apply sp_flag. intros [].
      * eapply spec_ret; [|exists (mr_stop r); split; [reflexivity|]; cbn [fst snd mr_stop]; split; [reflexivity|discriminate]]. cbn [snd]. orr. pm.
      * eapply spec_conv; [|eapply spec_mono; [apply IH|]].
        -- orr. pm.
        -- intros x' l H. exists l. split; [reflexivity|exact H].
Qed.
Lemma f_mr_read r : spec (mr_read r) (own_reader r) (after_read r).
Proof.
  unfold mr_read. eapply spec_bind; [apply f_mr_maybe_open|]. cbv beta. intros [ok r'] l (-> & E & _). cbn [snd] in E |- *.
  destruct ok; cbn [negb]; [|apply after_read_none; [exact E|exact I|reflexivity]].
  destruct (mr_state r'); try (apply after_read_none; [exact E|exact I|reflexivity]).
  apply sp_choose. intro n. eapply spec_mono; [apply f_mr_next|].
  intros x l (lost & -> & H). eexists. split; [reflexivity|]. exists lost. split; [reflexivity|]. rewrite E in H. exact H.
Qed.
Lemma f_mr_close r : spec (mr_close r) (own_reader r) (fun r' l => l = own_reader r' /\ mr_stop r' = mr_stop r /\ mr_buf r' = mr_buf r).
Proof.
  unfold mr_close. apply sp_use; [inn|].
  assert (D : spec ((if rw_write (mr_rdwr (mr_set r RS_closed)) then ok <~ write_ctl (mr_rdwr (mr_set r RS_closed)) ;; mret tt else mret tt) ;;;
                    ok <~ ro_call (mr_rdwr (mr_set r RS_closed)) ;; mret (mr_set r RS_closed)) (own_reader r)
                (fun r' l => l = own_reader r' /\ mr_stop r' = mr_stop r /\ mr_buf r' = mr_buf r)).
  { unfold mr_set at 1 2 3. cbn [mr_rdwr].
    assert (T : spec (ok <~ ro_call (mr_rdwr r) ;; mret (mr_set r RS_closed)) (own_reader r)
                (fun r' l => l = own_reader r' /\ mr_stop r' = mr_stop r /\ mr_buf r' = mr_buf r)).
    { eapply sp_reads; [apply reads_ro_call|rin|]. intros ok. eapply spec_ret; [|split; [reflexivity|split; reflexivity]]. orr. reflexivity. }
    destruct (rw_write (mr_rdwr r)).
    - apply sp_assoc. remember (own_reader r) as O eqn:EO.
      eapply sp_call with (l := own_rdwr (mr_rdwr r))
        (f := mr_blk r :: own_vec (mr_vec r) ++ [ub_blk (mr_buf r); ub_v (mr_buf r)] ++ own_opt own_ctl (mr_start r) ++ own_opt own_ctl (mr_stop r) ++
              own_opt own_ctl (mr_ready r) ++ own_opt own_ctl (mr_accept r) ++ own_opt own_ctl (mr_tmp r)); [apply f_write_ctl|subst O; unfold own_reader; pm|].
      cbv beta. intros ok ? ->. apply sp_ret. eapply spec_conv; [|exact T]. subst O. unfold own_reader. pm.
    - apply sp_ret. exact T. }
  destruct (mr_state r); try exact D; (eapply spec_ret; [reflexivity|]; split; [reflexivity|split; reflexivity]).
Qed.
Lemma f_mr_get r t : spec (mr_get r t) (own_reader r) (fun x l => l = own_reader (snd x) /\ mr_stop (snd x) = mr_stop r /\ mr_buf (snd x) = mr_buf r /\
  match fst x with Some c => incl (own_ctl c) (own_reader (snd x)) | None => True end).
Proof.
  unfold mr_get. eapply spec_bind; [apply f_mr_maybe_open|]. cbv beta. intros [ok r'] l (-> & E & B). cbn [snd] in E, B |- *.
  assert (G : match (match t with CT_start => mr_start r' | CT_stop => mr_stop r' | CT_ready => mr_ready r' | CT_accept => mr_accept r' | CT_finish => None end)
              with Some c => incl (own_ctl c) (own_reader r') | None => True end).
  { unfold own_reader. destruct t; cbv iota; try exact I;
    match goal with |- match ?f r' with _ => _ end => destruct (f r') as [c|]; [|exact I] end; cbn [own_opt]; rin. }
  destruct ok; cbn [negb]; (eapply spec_ret; [reflexivity|]; split; [reflexivity|split; [exact E|split; [exact B|]]]; cbn [fst snd]); [exact G|exact I].
Qed.
Lemma f_mr_destroy r : spec (mr_destroy r) (own_reader r) (fun _ l => l = []).
Proof.
  unfold mr_destroy. apply sp_use; [inn|]. eapply spec_bind; [apply f_mr_close|]. cbv beta. intros q ? (-> & _). clear r. rename q into r.
  remember (own_reader r) as O eqn:EO.
  eapply sp_call with (f := mr_blk r :: own_vec (mr_vec r) ++ [ub_blk (mr_buf r); ub_v (mr_buf r)] ++ own_rdwr (mr_rdwr r) ++ own_opt own_ctl (mr_start r) ++ own_opt own_ctl (mr_stop r) ++
              own_opt own_ctl (mr_ready r) ++ own_opt own_ctl (mr_accept r)); [apply f_co_destroy|subst O; unfold own_reader; pm|]. cbv beta. intros _ ? ->.
  eapply sp_call with (f := mr_blk r :: own_vec (mr_vec r) ++ [ub_blk (mr_buf r); ub_v (mr_buf r)] ++ own_rdwr (mr_rdwr r) ++ own_opt own_ctl (mr_start r) ++ own_opt own_ctl (mr_stop r) ++
              own_opt own_ctl (mr_ready r)); [apply f_co_destroy|pm|]. cbv beta. intros _ ? ->.
  eapply sp_call with (f := mr_blk r :: own_vec (mr_vec r) ++ [ub_blk (mr_buf r); ub_v (mr_buf r)] ++ own_rdwr (mr_rdwr r) ++ own_opt own_ctl (mr_start r) ++ own_opt own_ctl (mr_stop r));
    [apply f_co_destroy|pm|]. cbv beta. intros _ ? ->.
  eapply sp_call with (f := mr_blk r :: own_vec (mr_vec r) ++ [ub_blk (mr_buf r); ub_v (mr_buf r)] ++ own_rdwr (mr_rdwr r) ++ own_opt own_ctl (mr_start r));
    [apply f_co_destroy|pm|]. cbv beta. intros _ ? ->.
  eapply sp_call with (f := mr_blk r :: own_vec (mr_vec r) ++ [ub_blk (mr_buf r); ub_v (mr_buf r)] ++ own_rdwr (mr_rdwr r));
    [apply f_co_destroy|pm|]. cbv beta. intros _ ? ->.
  eapply sp_call with (f := mr_blk r :: own_vec (mr_vec r) ++ [ub_blk (mr_buf r); ub_v (mr_buf r)]); [apply f_ro_destroy|pm|]. cbv beta. intros _ ? ->.
  eapply sp_call with (f := mr_blk r :: own_vec (mr_vec r)); [apply f_ub_destroy|pm|]. cbv beta. intros _ ? ->.
  eapply sp_call with (f := [mr_blk r]); [apply f_bv_free_items|pm|]. cbv beta. intros _ ? ->.
  eapply sp_call with (f := [mr_blk r]); [apply f_bv_destroy|pm|]. cbv beta. intros _ ? ->.
  apply sp_last. eapply sp_free with (pre' := []); [pm|]. eapply spec_ret; reflexivity.
Qed.

(** ** writer.c *)
Ltac oww := unfold own_writer, mw_set, mw_ctl; cbn [mw_blk mw_state mw_vec mw_rdwr mw_ready mw_accept mw_start mw_finish mw_iovecs mw_lens own_opt].
Lemma f_mw_init o x : spec (mw_init o x) (own_opt own_o o ++ own_rdwr x)
  (fun r l => match r with Some r => l = own_opt own_o o ++ own_writer r
              | None => l = own_opt own_o o ++ own_rdwr x /\ rw_write x = false end).
Proof.
  unfold mw_init. apply sp_use; [inn|]. destruct (rw_write x); cbn [negb]; [|eapply spec_ret; [reflexivity|split; reflexivity]].
  apply sp_alloc. intro b. eapply sp_new; [apply f_bv_init|]. cbv beta. intros v ? [-> _].
  eapply sp_call with (l := own_opt own_o o ++ own_vec v) (f := b :: own_rdwr x); [apply f_copy_types|pm|]. cbv beta. intros v' ? ->.
  apply sp_alloc. intro i. apply sp_alloc. intro l. eapply spec_ret; [|reflexivity]. oww. pm.
Qed.
Definition kept (x : bool * mwriter) (l : list blk) : Prop := l = own_writer (snd x).
Lemma incl_firstn {A} n (l : list A) : incl (firstn n l) l.
Proof. revert n. induction l as [|a l IH]; intros [|n] x H; cbn in *; try contradiction. destruct H; auto. right. exact (IH n x H). Qed.
Lemma f_mw_open_uni w : spec (mw_open_uni w) (own_writer w) kept.
Proof.
  unfold mw_open_uni, kept. remember (own_writer w) as O eqn:EO.
  eapply sp_call with (f := mw_blk w :: own_vec (mw_vec w) ++ own_rdwr (mw_rdwr w) ++ own_opt own_ctl (mw_ready w) ++
    own_opt own_ctl (mw_accept w) ++ own_opt own_ctl (mw_finish w) ++ [mw_iovecs w; mw_lens w]); [apply f_fresh|subst O; unfold own_writer; pm|].
  cbv beta. intros s ? ->.
  eapply sp_call with (f := mw_blk w :: own_rdwr (mw_rdwr w) ++ own_opt own_ctl (mw_ready w) ++
    own_opt own_ctl (mw_accept w) ++ own_opt own_ctl (mw_finish w) ++ [mw_iovecs w; mw_lens w]); [apply f_add_some, incl_firstn|pm|].
  cbv beta. intros s' ? ->. unfold mw_ctl at 1. cbn [mw_rdwr]. eapply sp_reads; [apply reads_write_frame|rin|]. intro ok.
  eapply spec_ret; [|reflexivity]. cbn [snd]. oww. pm.
Qed.
Lemma f_mw_open_bi w : spec (mw_open_bi w) (own_writer w) kept.
Proof.
  unfold mw_open_bi, kept. remember (own_writer w) as O eqn:EO.
  eapply sp_call with (f := mw_blk w :: own_vec (mw_vec w) ++ own_rdwr (mw_rdwr w) ++ own_opt own_ctl (mw_start w) ++
    own_opt own_ctl (mw_accept w) ++ own_opt own_ctl (mw_finish w) ++ [mw_iovecs w; mw_lens w]); [apply f_fresh|subst O; unfold own_writer; pm|].
  cbv beta. intros c ? ->.
  eapply sp_call with (f := mw_blk w :: own_rdwr (mw_rdwr w) ++ own_opt own_ctl (mw_start w) ++
    own_opt own_ctl (mw_accept w) ++ own_opt own_ctl (mw_finish w) ++ [mw_iovecs w; mw_lens w]); [apply f_add_some, incl_refl|pm|].
  cbv beta. intros c' ? ->. unfold mw_ctl. cbn [mw_blk mw_state mw_vec mw_rdwr mw_ready mw_accept mw_start mw_finish mw_iovecs mw_lens].
  eapply sp_reads; [apply reads_write_frame|rin|]. intros []; cbn [negb]; [|eapply spec_ret; [|reflexivity]; cbn [snd]; oww; pm].
  eapply sp_call with (l := own_rdwr (mw_rdwr w) ++ own_opt own_ctl (mw_accept w))
    (f := mw_blk w :: own_vec (mw_vec w) ++ own_ctl c' ++ own_opt own_ctl (mw_start w) ++
    own_opt own_ctl (mw_finish w) ++ [mw_iovecs w; mw_lens w]); [apply f_read_ctl|pm|].
  cbv beta. intros [ok a] ? ->. cbn [snd]. destruct ok; cbn [negb]; [|eapply spec_ret; [|reflexivity]; cbn [snd]; oww; pm].
  eapply sp_reads; [apply reads_match|rin|]. intros []; cbn [negb]; [|eapply spec_ret; [|reflexivity]; cbn [snd]; oww; pm].
  eapply sp_call with (f := mw_blk w :: own_vec (mw_vec w) ++ own_rdwr (mw_rdwr w) ++ own_ctl c' ++ own_ctl a ++
    own_opt own_ctl (mw_finish w) ++ [mw_iovecs w; mw_lens w]); [apply f_fresh|pm|].
  cbv beta. intros s ? ->.
  eapply sp_call with (f := mw_blk w :: own_rdwr (mw_rdwr w) ++ own_ctl c' ++ own_ctl a ++
    own_opt own_ctl (mw_finish w) ++ [mw_iovecs w; mw_lens w]); [apply f_add_some, incl_firstn|pm|].
  cbv beta. intros s' ? ->. eapply sp_reads; [apply reads_write_frame|rin|]. intro ok.
  eapply spec_ret; [|reflexivity]. cbn [snd]. oww. pm.
Qed.
Lemma f_mw_open w : spec (mw_open w) (own_writer w) kept.
Proof.
  unfold mw_open. apply sp_use; [inn|].
  assert (D : spec (ok <~ ro_call (mw_rdwr w) ;;
      if negb ok then mret (false, w)
      else
        ow <~ (if rw_read (mw_rdwr w) then mw_open_bi w else mw_open_uni w) ;;
        let (ok, w) := ow in
        mret (ok, if ok then mw_set w WS_opened else w)) (own_writer w) kept).
  { eapply sp_reads; [apply reads_ro_call|rin|]. intros []; cbn [negb]; [|eapply spec_ret; reflexivity].
    eapply spec_bind with (R := kept); [destruct (rw_read (mw_rdwr w)); [apply f_mw_open_bi|apply f_mw_open_uni]|].
    intros [ok w'] l ->. cbn [snd]. eapply spec_ret; [|reflexivity]. cbn [snd]. destruct ok; reflexivity. }
  destruct (mw_state w); try exact D. eapply spec_ret; reflexivity.
Qed.
Lemma f_mw_maybe_open w : spec (mw_maybe_open w) (own_writer w) kept.
Proof. unfold mw_maybe_open. apply sp_use; [inn|]. destruct (mw_state w); try (eapply spec_ret; reflexivity). apply f_mw_open. Qed.
Lemma f_mw_close w : spec (mw_close w) (own_writer w) (fun w' l => l = own_writer w').
Proof.
  unfold mw_close. apply sp_use; [inn|]. destruct (mw_state w); try (eapply spec_ret; reflexivity).
  unfold mw_set, mw_ctl. cbn [mw_blk mw_state mw_vec mw_rdwr mw_ready mw_accept mw_start mw_finish mw_iovecs mw_lens].
  remember (own_writer w) as O eqn:EO.
  eapply sp_call with (l := own_rdwr (mw_rdwr w)) (f := mw_blk w :: own_vec (mw_vec w) ++ own_opt own_ctl (mw_ready w) ++
    own_opt own_ctl (mw_accept w) ++ own_opt own_ctl (mw_start w) ++ own_opt own_ctl (mw_finish w) ++ [mw_iovecs w; mw_lens w]);
    [apply f_write_ctl|subst O; unfold own_writer; pm|].
  cbv beta. intros ok ? ->.
  assert (D : spec (c <~ ro_call (mw_rdwr w);; mret (mk_mw (mw_blk w) WS_closed (mw_vec w) (mw_rdwr w) (mw_ready w) (mw_accept w) (mw_start w)
       (mw_finish w) (mw_iovecs w) (mw_lens w)))
     (own_rdwr (mw_rdwr w) ++ mw_blk w :: own_vec (mw_vec w) ++ own_opt own_ctl (mw_ready w) ++
    own_opt own_ctl (mw_accept w) ++ own_opt own_ctl (mw_start w) ++ own_opt own_ctl (mw_finish w) ++ [mw_iovecs w; mw_lens w])
     (fun w' l => l = own_writer w')).
  { eapply sp_reads; [apply reads_ro_call|rin|]. intro. eapply spec_ret; [|reflexivity]. oww. pm. }
  destruct ok; cbn [negb]; [|exact D]. destruct (rw_read (mw_rdwr w)); [|exact D].
  eapply sp_call with (l := own_rdwr (mw_rdwr w) ++ own_opt own_ctl (mw_finish w)) (f := mw_blk w :: own_vec (mw_vec w) ++ own_opt own_ctl (mw_ready w) ++
    own_opt own_ctl (mw_accept w) ++ own_opt own_ctl (mw_start w) ++ [mw_iovecs w; mw_lens w]); [apply f_read_ctl|pm|].
  cbv beta. intros [ok c] ? ->. cbn [snd]. eapply sp_reads; [apply reads_ro_call|rin|]. intro cl. eapply spec_ret; [|reflexivity]. oww. pm.
Qed.
Lemma reads_mw_chunks n w : reads (mw_chunks n w) (own_writer w).
Proof.
  induction n as [|n IH]; cbn [mw_chunks]; [apply reads_ret|].
  assert (T : In (mw_lens w) (own_writer w) /\ In (mw_iovecs w) (own_writer w)).
  { unfold own_writer. split; right; rewrite !in_app_iff; cbn [In]; tauto. }
  apply reads_bind; [apply reads_use, T|intros _]. apply reads_bind; [apply reads_use, T|intros _].
  apply reads_bind; [eapply reads_incl; [|apply reads_ro_call]; rin|]. intros []; cbn [negb]; [exact IH|apply reads_ret].
Qed.
Lemma f_mw_write w : spec (mw_write w) (own_writer w) (fun w' l => l = own_writer w').
Proof.
  unfold mw_write. eapply spec_bind; [apply f_mw_maybe_open|]. intros [ok w'] l ->. cbn [snd].
  destruct ok; cbn [negb]; [|eapply spec_ret; reflexivity]. destruct (mw_state w'); try (eapply spec_ret; reflexivity).
  apply sp_choose. intro n. eapply sp_reads; [apply reads_mw_chunks|apply incl_refl|]. intros _. eapply spec_ret; reflexivity.
Qed.
Lemma f_mw_get w t : spec (mw_get w t) (own_writer w) (fun x l => l = own_writer (snd x) /\
  match fst x with Some c => incl (own_ctl c) (own_writer (snd x)) | None => True end).
Proof.
  unfold mw_get. eapply spec_bind; [apply f_mw_maybe_open|]. intros [ok w'] l ->. cbn [snd].
  assert (G : match (match t with CT_accept => mw_accept w' | CT_finish => mw_finish w' | CT_ready => mw_ready w' | CT_start => mw_start w' | CT_stop => None end)
              with Some c => incl (own_ctl c) (own_writer w') | None => True end).
  { unfold own_writer. destruct t; cbv iota; try exact I;
    match goal with |- match ?f w' with _ => _ end => destruct (f w') as [c|]; [|exact I] end; cbn [own_opt]; rin. }
  destruct ok; cbn [negb]; (eapply spec_ret; [reflexivity|]; split; [reflexivity|]; cbn [fst snd]); [exact G|exact I].
Qed.
Lemma f_mw_destroy w : spec (mw_destroy w) (own_writer w) (fun _ l => l = []).
Proof.
  unfold mw_destroy. apply sp_use; [inn|]. eapply spec_bind; [apply f_mw_close|]. cbv beta. intros q ? ->. clear w. rename q into w.
  remember (own_writer w) as O eqn:EO.
  eapply sp_call with (f := mw_blk w :: own_vec (mw_vec w) ++ own_rdwr (mw_rdwr w) ++ own_opt own_ctl (mw_ready w) ++
    own_opt own_ctl (mw_accept w) ++ own_opt own_ctl (mw_start w) ++ [mw_iovecs w; mw_lens w]); [apply f_co_destroy|subst O; unfold own_writer; pm|]. cbv beta. intros _ ? ->.
  eapply sp_call with (f := mw_blk w :: own_vec (mw_vec w) ++ own_rdwr (mw_rdwr w) ++ own_opt own_ctl (mw_ready w) ++
    own_opt own_ctl (mw_accept w) ++ [mw_iovecs w; mw_lens w]); [apply f_co_destroy|pm|]. cbv beta. intros _ ? ->.
  eapply sp_call with (f := mw_blk w :: own_vec (mw_vec w) ++ own_rdwr (mw_rdwr w) ++ own_opt own_ctl (mw_ready w) ++ [mw_iovecs w; mw_lens w]); [apply f_co_destroy|pm|]. cbv beta. intros _ ? ->.
  eapply sp_call with (f := mw_blk w :: own_vec (mw_vec w) ++ own_rdwr (mw_rdwr w) ++ [mw_iovecs w; mw_lens w]); [apply f_co_destroy|pm|]. cbv beta. intros _ ? ->.
  eapply sp_call with (f := mw_blk w :: own_vec (mw_vec w) ++ [mw_iovecs w; mw_lens w]); [apply f_ro_destroy|pm|]. cbv beta. intros _ ? ->.
  eapply sp_call with (f := [mw_blk w; mw_iovecs w; mw_lens w]); [apply f_bv_free_items|pm|]. cbv beta. intros _ ? ->.
  eapply sp_call with (f := [mw_blk w; mw_iovecs w; mw_lens w]); [apply f_bv_destroy|pm|]. cbv beta. intros _ ? ->.
  eapply sp_free with (pre' := [mw_blk w; mw_lens w]); [pm|]. eapply sp_free with (pre' := [mw_blk w]); [pm|].
  apply sp_last. eapply sp_free with (pre' := []); [pm|]. eapply spec_ret; reflexivity.
Qed.

(** Accepted submissions become visible when the store buffer empties. *)
From Verif Require Import Bytes Io Queue SpecQueue Iothr SpecIothr System SpecSystem System_proofs.
Local Open Scope nat_scope.

Definition is_head (x : pstore) : nat := match x with PS_head _ => 1 | _ => 0 end.
Definition heads (b : list pstore) : nat := fold_right (fun x n => is_head x + n) 0 b.
Lemma heads_app a b : heads (a ++ b) = heads a + heads b.
Proof. unfold heads. induction a as [|x a IH]; cbn; [reflexivity|]. rewrite IH. lia. Qed.
Lemma heads_one x : heads [x] = is_head x.
Proof. cbn. lia. Qed.
Lemma heads_cons x b : heads (x :: b) = is_head x + heads b.
Proof. reflexivity. Qed.

Definition one (s : qstate) (p : producer) : Prop := q_prods s = [p].
Definition due (s : qstate) : Prop := exists p, one s p /\ published (q_trace s) + heads (p_buf p) = length (inserted (q_trace s)).

Ltac logs := unfold q_trace; cbn [q_log upd_log upd_prod upd_cons rev app]; rewrite ?rev_app_distr; cbn [rev app];
  rewrite ?published_snoc, ?inserted_snoc, ?app_length; cbn [length].

Lemma due_step s a : match a with A_prod i | A_pflush i => i = 0 | _ => True end -> due s -> due (q_step s a).
Proof.
  intros A0 (p & O & D). unfold one in O. unfold q_trace in *. destruct a as [i|i| |]; cbn [q_step]; try subst i.
  - unfold prod_step. rewrite O. cbn [nth_error]. destruct (p_pc p) as [|x h|x h sp k].
    + destruct (p_todo p) as [|x todo]; [exists p; auto|]. eexists. split; [unfold one; cbn [upd_prod q_prods]; rewrite O; reflexivity|]. cbn. exact D.
    + destruct (1 <=? _)%N; (eexists; split; [unfold one; cbn [upd_log upd_prod q_prods]; rewrite O; reflexivity|]); logs; cbn [p_buf]; try lia.
    + destruct (k <? q_sz s).
      * eexists. split; [unfold one; cbn [upd_log upd_prod q_prods]; rewrite O; reflexivity|]. cbn [p_buf]. rewrite heads_app, heads_one. cbn [is_head]. logs. lia.
      * eexists. split; [unfold one; cbn [upd_log upd_prod q_prods]; rewrite O; reflexivity|]. cbn [p_buf]. rewrite heads_app, heads_one. cbn [is_head]. logs. lia.
  - unfold prod_flush. rewrite O. cbn [nth_error]. destruct (p_buf p) as [|[ad b|h] r] eqn:EB.
    + exists p. split; [exact O|]. rewrite EB. exact D.
    + eexists. split; [unfold one; cbn [upd_prod q_prods]; rewrite O; reflexivity|]. rewrite heads_cons in D. exact D.
    + eexists. split; [unfold one; cbn [upd_log upd_prod q_prods]; rewrite O; reflexivity|]. rewrite heads_cons in D. cbn [is_head] in D. cbn [p_buf]. logs. lia.
  - unfold cons_step. destruct (c_pc (q_cons s)) as [|h|t c g].
    + exists p. split; [exact O|]. logs. lia.
    + destruct (1 <=? _)%N; (exists p; split; [exact O|]); logs; lia.
    + destruct (_ <? _); [exists p; split; [exact O|exact D]|]. destruct (c_buf (q_cons s)); (exists p; split; [exact O|]); [logs; lia|exact D].
  - unfold cons_flush. destruct (c_buf (q_cons s)); (exists p; split; [exact O|]); [exact D|logs; lia].
Qed.

Lemma set_q_log s i a ins e : q_log (q_step (k_queues s i) a) = e :: q_log (k_queues s i) -> c_trace (set_q s i a ins) = c_trace s ++ [KE_q i e].
Proof.
  intro E. unfold c_trace, set_q. cbn [k_log]. rewrite E. cbn [length]. replace (S (length (q_log (k_queues s i))) - length (q_log (k_queues s i))) with 1 by lia. reflexivity.
Qed.
Lemma set_q_same s i a ins : q_log (q_step (k_queues s i) a) = q_log (k_queues s i) -> c_trace (set_q s i a ins) = c_trace s.
Proof. intro E. unfold c_trace, set_q. cbn [k_log]. rewrite E, Nat.sub_diag. reflexivity. Qed.

Section Sys.
Variables (num : N) (sz : nat) (todo : nat -> list bytes).

Lemma set_q_at s i a ins j : k_queues (set_q s i a ins) j = if Nat.eqb i j then q_step (k_queues s i) a else k_queues s j.
Proof. reflexivity. Qed.

Definition due_all (s : csys) : Prop := forall i, due (k_queues s i).
Lemma due_set s i a ins : match a with A_prod i | A_pflush i => i = 0 | _ => True end -> due_all s -> due_all (set_q s i a ins).
Proof. intros A0 D j. rewrite set_q_at. destruct (Nat.eqb i j); [apply due_step; auto|apply D]. Qed.
Lemma due_run sch : forall s s', c_run s sch = Some s' -> due_all s -> due_all s'.
Proof.
  induction sch as [|a sch IH]; intros s s' R D; cbn [c_run] in R; [injection R as <-; exact D|].
  destruct (c_step s a) as [s1|] eqn:E; [|discriminate]. apply (IH s1 s' R). clear R IH. destruct a; cbn [c_step] in E.
  - injection E as <-. apply due_set; [reflexivity|exact D].
  - injection E as <-. apply due_set; [reflexivity|exact D].
  - destruct (match k_in s with Some j => _ | None => true end); [|discriminate]. injection E as <-. apply due_set; [exact I|exact D].
  - injection E as <-. apply due_set; [exact I|exact D].
  - injection E as <-. exact D.
  - destruct (k_in s); [discriminate|]. destruct e as [q an]. destruct q; try (injection E as <-; exact D); try discriminate.
    destruct an; try (injection E as <-; exact D). destruct (Bool.eqb b (k_flag s)); [|discriminate]. injection E as <-. exact D.
Qed.
Lemma due_init : due_all (c_init num sz todo).
Proof. intro i. exists (mk_prod (todo i) P_idle []). split; reflexivity. Qed.

(** Emptying the buffer of producer [i]. *)
Definition same_but (i : nat) (dec : bytes -> entry) (s s' : csys) : Prop :=
  submitted dec (c_trace s') = submitted dec (c_trace s) /\ inserted (at_queue i (c_trace s')) = inserted (at_queue i (c_trace s)) /\
  forall j, j <> i -> at_queue j (c_trace s') = at_queue j (c_trace s).

Lemma flush_one i dec s : due_all s -> (forall p, one (k_queues s i) p -> p_buf p <> [] ->
  exists s' p', c_step s (K_pflush i) = Some s' /\ one (k_queues s' i) p' /\ length (p_buf p) = S (length (p_buf p')) /\ same_but i dec s s').
Proof.
  intros D p O NE. cbn [c_step]. eexists. destruct (p_buf p) as [|x r] eqn:EB; [congruence|].
  assert (L : exists p', one (q_step (k_queues s i) (A_pflush 0)) p' /\ p_buf p' = r).
  { cbn [q_step]. unfold prod_flush. unfold one in O. rewrite O. cbn [nth_error]. rewrite EB.
    destruct x; (eexists; split; [unfold one; cbn [upd_log upd_prod q_prods]; rewrite O; reflexivity|reflexivity]). }
  destruct L as (p' & O' & EB'). exists p'. split; [reflexivity|]. split; [rewrite set_q_at, Nat.eqb_refl; exact O'|].
  split; [rewrite EB'; reflexivity|].
  assert (LG : q_log (q_step (k_queues s i) (A_pflush 0)) = q_log (k_queues s i) \/
               q_log (q_step (k_queues s i) (A_pflush 0)) = E_published :: q_log (k_queues s i)).
  { cbn [q_step]. unfold prod_flush. unfold one in O. rewrite O. cbn [nth_error]. rewrite EB. destruct x; [left|right]; reflexivity. }
  destruct LG as [LG|LG].
  - unfold same_but. rewrite (set_q_same _ _ _ _ LG). auto.
  - unfold same_but. rewrite (set_q_log _ _ _ _ _ LG). split; [rewrite submitted_snoc; cbn [submitted_at]; apply app_nil_r|].
    split.
    + rewrite at_queue_snoc, Nat.eqb_refl, inserted_snoc. apply app_nil_r.
    + intros j NJ. rewrite at_queue_snoc. destruct (Nat.eqb_spec i j); [congruence|reflexivity].
Qed.

Lemma same_refl i dec s : same_but i dec s s.
Proof. repeat split. Qed.
Lemma same_trans i dec s1 s2 s3 : same_but i dec s1 s2 -> same_but i dec s2 s3 -> same_but i dec s1 s3.
Proof. intros (A1 & A2 & A3) (B1 & B2 & B3). split; [congruence|]. split; [congruence|]. intros j N. rewrite B3, A3; auto. Qed.

Lemma flush_all i dec n : forall s p, due_all s -> one (k_queues s i) p -> length (p_buf p) = n ->
  exists s' p', c_run s (repeat (K_pflush i) n) = Some s' /\ one (k_queues s' i) p' /\ p_buf p' = [] /\ same_but i dec s s'.
Proof.
  induction n as [|n IH]; intros s p D O L.
  - exists s, p. split; [reflexivity|]. split; [exact O|]. split; [destruct (p_buf p); [reflexivity|discriminate]|apply same_refl].
  - destruct (flush_one i dec s D p O) as (s1 & p1 & E & O1 & L1 & S1); [intro K; rewrite K in L; discriminate|].
    assert (D1 : due_all s1) by (apply (due_run [K_pflush i] s s1); [cbn [c_run]; rewrite E; reflexivity|exact D]).
    destruct (IH s1 p1 D1 O1) as (s' & p' & E' & O' & B' & S'); [lia|]. exists s', p'. split; [cbn [repeat c_run]; rewrite E; exact E'|].
    split; [exact O'|]. split; [exact B'|]. exact (same_trans _ _ _ _ _ S1 S').
Qed.
End Sys.

Lemma c_run_app a : forall b s s1 s2, c_run s a = Some s1 -> c_run s1 b = Some s2 -> c_run s (a ++ b) = Some s2.
Proof.
  induction a as [|x a IH]; intros b s s1 s2 R1 R2; cbn [c_run app] in *; [injection R1 as <-; exact R2|].
  destruct (c_step s x) as [s'|]; [|discriminate]. exact (IH _ _ _ _ R1 R2).
Qed.

Lemma becomes_visible num sz dec enc todo sch s i : sys_setting num sz dec enc todo -> c_run (c_init num sz (fun i => map enc (todo i))) sch = Some s ->
  exists n s', c_run s (repeat (K_pflush i) n) = Some s' /\
    published (at_queue i (c_trace s')) = length (inserted (at_queue i (c_trace s'))) /\
    submitted dec (c_trace s') = submitted dec (c_trace s) /\
    forall j, j <> i -> at_queue j (c_trace s') = at_queue j (c_trace s).
Proof.
  intros (R32 & QI & FIT & TD) R. pose proof (due_run sch _ _ R (due_init num sz (fun i => map enc (todo i)))) as D.
  destruct (D i) as (p & O & _). destruct (flush_all (fun i => map enc (todo i)) i dec (length (p_buf p)) s p D O eq_refl) as (s' & p' & E & O' & B & (S1 & S2 & S3)).
  exists (length (p_buf p)), s'. split; [exact E|]. split; [|auto].
  pose proof (due_run _ _ _ E D i) as (p2 & O2 & D2). unfold one in O', O2. rewrite O' in O2. injection O2 as <-. rewrite B in D2. cbn [heads fold_right] in D2.
  assert (TD' : forall i, Forall (fun x => length x = sz) (map enc (todo i))).
  { intro j. apply Forall_map. eapply Forall_impl; [|apply TD]. intros e [H _]. exact H. }
  assert (C : CI num sz dec (fun i => map enc (todo i)) s').
  { exact (run_CI num sz dec _ R32 QI FIT TD' _ _ _ E (run_CI num sz dec _ R32 QI FIT TD' _ _ _ R (init_CI num sz dec _))). }
  rewrite (ci_proj _ _ _ _ _ C i). lia.
Qed.

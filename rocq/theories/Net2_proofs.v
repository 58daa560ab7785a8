(** From runs against a scripted peer to executions of the two-party
    semantics. *)
From Verif Require Import Bytes Io Io_proofs Net Net_proofs.
Local Open Scope nat_scope.

(** A script: who sends which byte, in order ([true]: end A). *)
Definition script := list (bool * byte).
Definition tg (d : bool) (bs : bytes) : script := map (pair d) bs.

Lemma tg_app d a b : tg d (a ++ b) = tg d a ++ tg d b.
Proof. apply map_app. Qed.

(** A process playing its part of a script. *)
Inductive flw {Z} (me : bool) : script -> proc Z -> proc Z -> Prop :=
| flw_0 p : flw me [] p p
| flw_put b k s p : flw me s (k true) p -> flw me ((me, b) :: s) (PPut b k) p
| flw_get b k s p : flw me s (k (Some b)) p -> flw me ((negb me, b) :: s) (PGet k) p.

Lemma flw_app {Z} me s1 : forall s2 (p q r : proc Z), flw me s1 p q -> flw me s2 q r -> flw me (s1 ++ s2) p r.
Proof. induction s1; intros s2 p q r H1 H2; inversion H1; subst; cbn; [assumption|constructor; eauto..]. Qed.

(** Both playing their part is an execution. *)
Lemma script_runs {X Y} cap s : 1 <= cap -> forall (pa pa' : proc X) (pb pb' : proc Y),
  flw true s pa pa' -> flw false s pb pb' ->
  csteps cap (2 * length s) (mk_cfg pa pb [] []) (mk_cfg pa' pb' [] []).
Proof.
  intro C. induction s as [|[d b] s IH]; intros pa pa' pb pb' FA FB; inversion FA; subst; inversion FB; subst; try discriminate; cbn [length];
    try constructor; replace (2 * S (length s)) with (S (S (2 * length s))) by lia.
  - eapply css_S; [apply cs_a, q_put; cbn; lia|]. cbn [app]. eapply css_S; [apply cs_b, q_get|]. apply IH; assumption.
  - eapply css_S; [apply cs_b, q_put; cbn; lia|]. cbn [app]. eapply css_S; [apply cs_a, q_get|]. apply IH; assumption.
Qed.

(** ** The scripted peer as an environment *)
Inductive cv := cv_ok (s : script) (st : cst) | cv_wait | cv_bad.

Fixpoint take (d : bool) (n : nat) (s : script) : option (bytes * script) :=
  match n with
  | O => Some ([], s)
  | S n' =>
      match s with
      | (d', b) :: s' =>
          if Bool.eqb d d' then
            match take d n' s' with Some (bs, r) => Some (b :: bs, r) | None => None end
          else None
      | [] => None
      end
  end.

Fixpoint skip (d : bool) (bs : bytes) (s : script) : option script :=
  match bs with
  | [] => Some s
  | b :: bs' =>
      match s with
      | (d', b') :: s' => if Bool.eqb d d' && Byte.eqb b b' then skip d bs' s' else None
      | [] => None
      end
  end.

Definition conv (me : bool) (c : cv) (q : query) : cv * ans :=
  match c with
  | cv_ok s st =>
      match q with
      | QOpen _ => match st with C_gone => (c, ARes r_failure) | _ => (cv_ok s C_open, ARes r_success) end
      | QClose _ => match st with C_open => (cv_ok s C_gone, ARes r_success) | _ => (c, ARes r_failure) end
      | QRead _ n =>
          match st with
          | C_open =>
              match take (negb me) (N.to_nat n) s with
              | Some (bs, s') => (cv_ok s' st, ARead r_success bs)
              | None => (match s with [] => cv_wait | _ => cv_bad end, ARead r_failure [])
              end
          | _ => (c, ARead r_failure [])
          end
      | QWrite _ iov =>
          match st with
          | C_open =>
              match skip me (concat iov) s with
              | Some s' => (cv_ok s' st, ARes r_success)
              | None => (cv_bad, ARes r_failure)
              end
          | _ => (c, ARes r_failure)
          end
      | QDestroy _ => (c, ARes r_success)
      | QIsoUb _ => (c, AUnit)
      | _ => (cv_bad, AUnit)
      end
  | _ => (c, AUnit)
  end.

Lemma take_spec d n : forall s bs s', take d n s = Some (bs, s') -> s = tg d bs ++ s' /\ length bs = n.
Proof.
  induction n as [|n IH]; intros s bs s' H; cbn in H.
  - injection H as <- <-. auto.
  - destruct s as [|[d' b] s]; [discriminate|]. destruct (Bool.eqb d d') eqn:E; [|discriminate]. apply Bool.eqb_prop in E. subst d'.
    destruct (take d n s) as [[bs0 r]|] eqn:T; [|discriminate]. injection H as <- <-.
    destruct (IH _ _ _ T) as [-> <-]. auto.
Qed.
Lemma take_tg d bs s : take d (length bs) (tg d bs ++ s) = Some (bs, s).
Proof. induction bs; cbn; [reflexivity|]. rewrite Bool.eqb_reflx. fold (tg d bs). rewrite IHbs. reflexivity. Qed.
Lemma skip_spec d bs : forall s s', skip d bs s = Some s' -> s = tg d bs ++ s'.
Proof.
  induction bs as [|b bs IH]; intros s s' H; cbn in H; [injection H as <-; reflexivity|].
  destruct s as [|[d' b'] s]; [discriminate|]. destruct (Bool.eqb d d' && Byte.eqb b b') eqn:E; [|discriminate].
  apply andb_prop in E. destruct E as [E1 E2]. apply Bool.eqb_prop in E1. apply Byte.byte_dec_bl in E2. subst.
  cbn. f_equal. apply IH. assumption.
Qed.
Lemma skip_tg d bs s : skip d bs (tg d bs ++ s) = Some s.
Proof.
  induction bs as [|b bs IH]; cbn; [reflexivity|]. rewrite Bool.eqb_reflx.
  rewrite (Byte.byte_dec_lb eq_refl). cbn. exact IH.
Qed.

Lemma flw_puts {Z} me bs (ok err : proc Z) : flw me (tg me bs) (puts bs ok err) ok.
Proof. induction bs; cbn; constructor. assumption. Qed.
Lemma flw_gets {Z} me bs : forall acc (ok : bytes -> proc Z) eof, flw me (tg (negb me) bs) (gets (length bs) acc ok eof) (ok (acc ++ bs)).
Proof.
  induction bs as [|b bs IH]; intros acc ok eof; cbn.
  - rewrite app_nil_r. constructor.
  - constructor. replace (acc ++ b :: bs) with ((acc ++ [b]) ++ bs) by (rewrite <- app_assoc; reflexivity). apply IH.
Qed.

Lemma conv_stays {A} me (p : io A) : forall c, c = cv_wait \/ c = cv_bad -> fst (exec (conv me) c p) = c.
Proof.
  induction p as [a|f|q k IH]; intros c H; cbn; [reflexivity..|]. 
  destruct (conv me c q) as [c' a] eqn:E. assert (c' = c) by (destruct H as [-> | ->]; cbn in E; congruence). subst c'. apply IH. assumption.
Qed.

Lemma conv_dead {A} me (p : io A) s s' st' a : forall c, c = cv_wait \/ c = cv_bad ->
  exec (conv me) c p = (cv_ok s' st', Done a) -> s = s' /\ False.
Proof. intros c H E. pose proof (conv_stays me p c H) as K. rewrite E in K. cbn in K. subst c. destruct H; discriminate. Qed.

(** After the close nothing of the script is used. *)
Lemma conv_gone {A} me (p : io A) : forall s s' st' a, exec (conv me) (cv_ok s C_gone) p = (cv_ok s' st', Done a) ->
  s' = s /\ st' = C_gone /\ wire p C_gone = PRet a.
Proof.
  induction p as [a|f|q k IH]; intros s s' st' a' H; cbn in H.
  - injection H as <- <- <-. auto.
  - discriminate.
  - destruct q; cbn in H |- *; try (apply IH in H; destruct H as (-> & -> & H); auto; fail);
      destruct (conv_dead me _ s _ _ _ cv_bad (or_intror eq_refl) H) as [_ []].
Qed.

(** How the process ends. *)
Definition lands {Z} (a : Z) (st' : cst) (p : proc Z) : Prop :=
  match st' with C_gone => p = PClose (PRet a) | _ => p = PRet a end.

Lemma conv_flw {A} me (p : io A) : forall s st s' st' a, st <> C_gone ->
  exec (conv me) (cv_ok s st) p = (cv_ok s' st', Done a) ->
  exists s1 e, s = s1 ++ s' /\ flw me s1 (wire p st) e /\ lands a st' e.
Proof.
  induction p as [a|f|q k IH]; intros s st s' st' a' G H; cbn in H.
  - injection H as <- <- <-. exists [], (PRet a). split; [reflexivity|]. split; [constructor|]. destruct st; try reflexivity. congruence.
  - discriminate.
  - destruct q; cbn in H; cbn [wire];
      try (destruct (conv_dead me _ s _ _ _ cv_bad (or_intror eq_refl) H) as [_ []]);
      try (eapply IH in H; eassumption).
    + destruct st; try congruence; eapply IH in H; try discriminate; assumption.
    + destruct st; [apply IH in H; [assumption|discriminate]| |congruence].
      apply conv_gone in H. destruct H as (-> & -> & E). exists [], (PClose (wire (k (ARes r_success)) C_gone)).
      split; [reflexivity|]. split; [constructor|]. cbn. rewrite E. reflexivity.
    + destruct st; [apply IH in H; [assumption|discriminate]| |congruence].
      destruct (take (negb me) (N.to_nat count) s) as [[bs s2]|] eqn:T.
      * apply take_spec in T. destruct T as [-> L]. apply IH in H; [|discriminate]. destruct H as (s1 & e & -> & F & D).
        exists (tg (negb me) bs ++ s1), e. rewrite app_assoc. split; [reflexivity|]. split; [|assumption].
        eapply flw_app; [|exact F]. rewrite <- L.
        exact (flw_gets me bs [] (fun bs => wire (k (ARead r_success bs)) C_open) _).
      * destruct s; [destruct (conv_dead me _ s' _ _ _ cv_wait (or_introl eq_refl) H) as [_ []]|destruct (conv_dead me _ s' _ _ _ cv_bad (or_intror eq_refl) H) as [_ []]].
    + destruct st; [apply IH in H; [assumption|discriminate]| |congruence].
      destruct (skip me (concat iov) s) as [s2|] eqn:T; [|destruct (conv_dead me _ s' _ _ _ cv_bad (or_intror eq_refl) H) as [_ []]].
      apply skip_spec in T. subst s. apply IH in H; [|discriminate]. destruct H as (s1 & e & -> & F & D).
      exists (tg me (concat iov) ++ s1), e. rewrite app_assoc. split; [reflexivity|]. split; [|assumption].
      eapply flw_app; [apply flw_puts|exact F].
Qed.

(** A process that consumes the whole script and then waits for more. *)
Lemma conv_waits {A} me (p : io A) : forall s st o, st <> C_gone ->
  exec (conv me) (cv_ok s st) p = (cv_wait, o) -> exists k, flw me s (wire p st) (PGet k).
Proof.
  assert (G0 : forall (p : io A) s o, exec (conv me) (cv_ok s C_gone) p <> (cv_wait, o)).
  { clear p. induction p as [a|f|q k IH]; intros s o H; cbn in H; try discriminate.
    destruct q; cbn in H; try (eapply IH; eassumption);
      pose proof (conv_stays me (k AUnit) cv_bad (or_intror eq_refl)) as K; rewrite H in K; discriminate. }
  induction p as [a|f|q k IH]; intros s st o G H; cbn in H; try discriminate.
  destruct q; cbn in H; cbn [wire];
    try (pose proof (conv_stays me (k AUnit) cv_bad (or_intror eq_refl)) as K; rewrite H in K; discriminate);
    try (eapply IH in H; eassumption).
  - destruct st; try congruence; eapply IH in H; try discriminate; assumption.
  - destruct st; [apply IH in H; [assumption|discriminate]| |congruence]. destruct (G0 _ _ _ H).
  - destruct st; [apply IH in H; [assumption|discriminate]| |congruence].
    destruct (take (negb me) (N.to_nat count) s) as [[bs s2]|] eqn:T.
    + apply take_spec in T. destruct T as [-> L]. apply IH in H; [|discriminate]. destruct H as (k0 & F).
      exists k0. eapply flw_app; [|exact F]. rewrite <- L.
      exact (flw_gets me bs [] (fun bs => wire (k (ARead r_success bs)) C_open) _).
    + destruct s.
      * destruct (N.to_nat count); [discriminate T|]. cbn [gets]. eexists. constructor.
      * pose proof (conv_stays me (k (ARead r_failure [])) cv_bad (or_intror eq_refl)) as K; rewrite H in K; discriminate.
  - destruct st; [apply IH in H; [assumption|discriminate]| |congruence].
    destruct (skip me (concat iov) s) as [s2|] eqn:T.
    + apply skip_spec in T. subst s. apply IH in H; [|discriminate]. destruct H as (k0 & F).
      exists k0. eapply flw_app; [apply flw_puts|exact F].
    + pose proof (conv_stays me (k (ARes r_failure)) cv_bad (or_intror eq_refl)) as K; rewrite H in K; discriminate.
Qed.

(** ** Composition *)
Definition closed_cst (st : cst) : bool := match st with C_gone => true | _ => false end.

Lemma lands_rests {Z} (a : Z) st e : lands a st e -> rests e (PRet a) (closed_cst st).
Proof. destruct st; cbn; intros ->; constructor. Qed.

Theorem meet {X Y} cap s (p : io X) (q : io Y) sa sb a b : 1 <= cap ->
  exec (conv true) (cv_ok s C_new) p = (cv_ok [] sa, Done a) ->
  exec (conv false) (cv_ok s C_new) q = (cv_ok [] sb, Done b) ->
  always_ends cap (connect p q) (mk_net (PRet a) (PRet b) [] [] (closed_cst sa) (closed_cst sb)).
Proof.
  intros C HA HB.
  apply conv_flw in HA; [|discriminate]. apply conv_flw in HB; [|discriminate].
  destruct HA as (s1 & ea & E1 & F1 & L1). destruct HB as (s2 & eb & E2 & F2 & L2). rewrite app_nil_r in E1, E2. subst s1 s2.
  eapply ends_closed; [apply lands_rests; exact L1|apply lands_rests; exact L2|].
  eapply script_runs; eassumption.
Qed.

Theorem meet_blocked {X Y} cap s (p : io X) (q : io Y) sa a o : 1 <= cap -> sa <> C_gone ->
  exec (conv true) (cv_ok s C_new) p = (cv_ok [] sa, Done a) ->
  exec (conv false) (cv_ok s C_new) q = (cv_wait, o) ->
  exists k, always_ends cap (connect p q) (mk_net (PRet a) (PGet k) [] [] false false).
Proof.
  intros C NG HA HB.
  apply conv_flw in HA; [|discriminate]. apply conv_waits in HB; [|discriminate].
  destruct HA as (s1 & ea & E1 & F1 & L1). destruct HB as (k & F2). rewrite app_nil_r in E1. subst s1.
  assert (ea = PRet a) by (destruct sa; try exact L1; congruence). subst ea.
  exists k. eapply ends_quiet; try (intros kk; discriminate); [|eapply script_runs; eassumption].
  intros d c' H. inversion H as [? ? ? ? ? ? ? M|? ? ? ? ? ? ? M]; subst; inversion M.
Qed.

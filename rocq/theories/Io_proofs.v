(** Weakest preconditions for [io] programs. *)
From Verif Require Import Bytes Io.

Fixpoint wp {A} (p : io A) (Q : trace -> out A -> Prop) (h : trace) : Prop :=
  match p with
  | Ret a => Q h (Done a)
  | Fail f => Q h (Stuck f)
  | Vis q k => Q h Cut /\ forall a, ans_ok q a -> wp (k a) Q (h ++ [(q, a)])
  end.

Notation post A := (trace -> out A -> Prop).

Lemma wp_sound {A} (p : io A) Q h tr o : wp p Q h -> runs p tr o -> Q (h ++ tr) o.
Proof.
  intros W R. revert h W. induction R; intros h W; cbn in W.
  - rewrite app_nil_r. exact W.
  - rewrite app_nil_r. exact W.
  - rewrite app_nil_r. apply W.
  - destruct W as [_ W]. specialize (W a H). apply IHR in W.
    rewrite <- app_assoc in W. exact W.
Qed.

Lemma wp_complete {A} (p : io A) (Q : trace -> out A -> Prop) : forall h,
  (forall tr o, runs p tr o -> Q (h ++ tr) o) -> wp p Q h.
Proof.
  induction p as [a|f|q k IH]; intros h H; cbn.
  - specialize (H [] (Done a)). rewrite app_nil_r in H. apply H. constructor.
  - specialize (H [] (Stuck f)). rewrite app_nil_r in H. apply H. constructor.
  - split.
    + specialize (H [] Cut). rewrite app_nil_r in H. apply H. constructor.
    + intros a Ha. apply IH. intros tr o R. rewrite <- app_assoc. apply H.
      constructor; assumption.
Qed.

Lemma wp_mono {A} (p : io A) (Q Q' : trace -> out A -> Prop) h :
  (forall h' o, Q h' o -> Q' h' o) -> wp p Q h -> wp p Q' h.
Proof.
  intros HQ. revert h. induction p as [a|f|q k IH]; intros h; cbn; auto.
  intros [H1 H2]. split; auto.
Qed.

Definition bind_post {A B} (f : A -> io B) (Q : trace -> out B -> Prop) : trace -> out A -> Prop :=
  fun h o => match o with
             | Done a => wp (f a) Q h
             | Stuck e => Q h (Stuck e)
             | Cut => Q h Cut
             end.

Lemma wp_bind {A B} (p : io A) (f : A -> io B) Q h :
  wp p (bind_post f Q) h <-> wp (bind p f) Q h.
Proof.
  revert h. induction p as [a|e|q k IH]; intros h; cbn; try tauto.
  split; intros [H1 H2]; (split; [exact H1|]); intros a Ha; apply IH; auto.
Qed.

Lemma bind_assoc {A B C} (p : io A) (f : A -> io B) (g : B -> io C) h Q :
  wp (bind (bind p f) g) Q h <-> wp (bind p (fun a => bind (f a) g)) Q h.
Proof.
  revert h. induction p as [a|e|q k IH]; intros h; cbn; try tauto.
  split; intros [H1 H2]; (split; [exact H1|]); intros a Ha; apply IH; auto.
Qed.

(** Deterministic execution of a sequence. *)
Lemma exec_bind {S A B} (hd : S -> query -> S * ans) (p : io A) (f : A -> io B) s :
  exec hd s (bind p f) =
  match exec hd s p with
  | (s', Done a) => exec hd s' (f a)
  | (s', Stuck e) => (s', Stuck e)
  | (s', Cut) => (s', Cut)
  end.
Proof.
  revert s. induction p as [a|e|q k IH]; intros s; cbn; try reflexivity.
  destruct (hd s q) as [s' a]. apply IH.
Qed.

(** A deterministic execution is one of the runs. *)
Lemma exec_runs {S A} (hd : S -> query -> S * ans) (p : io A) :
  (forall s q, ans_ok q (snd (hd s q))) ->
  forall s, exists tr, runs p tr (snd (exec hd s p)).
Proof.
  intros OK. induction p as [a|e|q k IH]; intros s; cbn.
  - exists []. constructor.
  - exists []. constructor.
  - specialize (OK s q). destruct (hd s q) as [s' a]. cbn in OK.
    destruct (IH a s') as [tr R]. exists ((q, a) :: tr). constructor; assumption.
Qed.

Lemma res_eqb_refl r : res_eqb r r = true.
Proof. destruct r; reflexivity. Qed.
Lemma res_eqb_true r s : res_eqb r s = true -> r = s.
Proof. destruct r, s; (reflexivity || discriminate). Qed.
Lemma res_eqb_false r s : res_eqb r s = false -> r <> s.
Proof. intros H ->. rewrite res_eqb_refl in H. discriminate. Qed.

Lemma wp_bind_i {A B} (p : io A) (f : A -> io B) Q h :
  wp p (bind_post f Q) h -> wp (bind p f) Q h.
Proof. apply wp_bind. Qed.

Lemma wp_runs {A} (p : io A) (Q : post A) : wp p Q [] -> forall tr o, runs p tr o -> Q tr o.
Proof. intros W tr o R. exact (wp_sound p Q [] tr o W R). Qed.

Lemma ans_okb_ok q a : ans_okb q a = true -> ans_ok q a.
Proof.
  destruct q, a; cbn; try discriminate; auto.
  intros H ->. cbn in H. apply N.eqb_eq. exact H.
Qed.

Lemma follow_sound {A} (p : io A) : forall l tr o, follow p l = Some (tr, o) -> runs p tr o.
Proof.
  induction p as [a|f|q k IH]; intros l tr o; cbn.
  - destruct l; [|discriminate]. intros [= <- <-]. constructor.
  - destruct l; [|discriminate]. intros [= <- <-]. constructor.
  - destruct l as [|a l]; [intros [= <- <-]; constructor|].
    destruct (ans_okb q a) eqn:E; [|discriminate].
    destruct (follow (k a) l) as [[tr' o']|] eqn:F; [|discriminate].
    intros [= <- <-]. constructor; [apply ans_okb_ok, E|eapply IH, F].
Qed.

Lemma wp_and {A} (p : io A) (Q1 Q2 : post A) h :
  wp p Q1 h -> wp p Q2 h -> wp p (fun h o => Q1 h o /\ Q2 h o) h.
Proof.
  revert h. induction p as [a|f|q k IH]; intros h; cbn; auto.
  intros [A1 A2] [B1 B2]. split; auto.
Qed.

(** A postcondition that ignores the trace: only the returned value matters. *)
Lemma wp_any_bind {A B} (p : io A) (k : A -> io B) (Q : out B -> Prop) h :
  Q Cut -> (forall e, Q (Stuck e)) -> (forall a h, wp (k a) (fun _ o => Q o) h) ->
  wp (bind p k) (fun _ o => Q o) h.
Proof.
  intros HC HS HK. apply wp_bind_i. revert h. induction p as [a|e|q c IH]; intro h; cbn; auto.
Qed.

Lemma wp_true {A} (p : io A) h : wp p (fun _ _ => True) h.
Proof. revert h. induction p; intro h; cbn; auto. Qed.

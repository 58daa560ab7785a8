(** Runs of a writer's program and a capture server computed step by step, for
    examples: the program goes on while it can, else the server serves it. *)
From Coq Require Import ZArith Lia.
From Verif Require Import Bytes Bytes_proofs Spec SpecTrace SpecStream Io Capture SpecCapture Pair PairBounded Capture5_proofs.
Import ListNotations.
Local Open Scope N_scope.

Definition same (x y : bytes) : bool := if list_eq_dec Byte.byte_eq_dec x y then true else false.
Lemma same_ok x y : same x y = true -> x = y.
Proof. unfold same. destruct (list_eq_dec _ x y); [auto|discriminate]. Qed.
Definition prefixb (x y : bytes) : bool := same x (firstn (length x) y).
Lemma prefixb_ok x y : prefixb x y = true -> prefix x y.
Proof. intro E. apply same_ok in E. exists (skipn (length x) y). rewrite E at 1. symmetry. apply firstn_skipn. Qed.
Definition acceptedb (i : nat) (H : list ev) : bool := existsb (fun y => match y with E_accept u => Nat.eqb u i | _ => false end) H.
Lemma acceptedb_ok i H : acceptedb i H = false -> ~ accepted i H.
Proof.
  intros E I. rewrite <- Bool.not_true_iff_false in E. apply E, existsb_exists. exists (E_accept i). split; [exact I|apply Nat.eqb_refl].
Qed.

Section Play.
Context {T : Type}.
Variables (e : env) (a : args) (m cap : N).
Notation bjoint := (bjoint (A := T)).

Definition served (i : nat) (b : bjoint) : option bjoint :=
  let j := b_joint b in
  let r := SpecCapture.received i (j_hist j) in
  let x := if acceptedb i (j_hist j) then E_data i (firstn (N.to_nat m) (skipn (length r) (passed b))) else E_accept i in
  if legalb a (j_hist j) (j_srv j) x &&
     match x with
     | E_data _ ch => (lenN ch <=? m) && prefixb (r ++ ch) (passed b) && negb (existsb (Nat.eqb i) (map fst (j_past j)))
     | _ => true
     end
  then match step e a x (j_srv j) with
       | Go c' => Some (mk_bjoint (mk_joint (j_prog j) (j_tr j) (j_id j) (j_past j) (j_hist j ++ [x]) c') (b_in b))
       | _ => None
       end
  else None.
Definition goes_on (i : nat) (b : bjoint) : option bjoint :=
  let j := b_joint b in
  match j_prog j with
  | Vis q k =>
      match q, j_id j with
      | QOpen h, None =>
          if same (b_in b) [] && negb (acceptedb i (j_hist j)) && negb (existsb (Nat.eqb i) (map fst (j_past j)))
          then Some (mk_bjoint (answered j (QOpen h) k (ARes r_success) (Some i) (j_past j)) []) else None
      | QWrite h iov, Some u =>
          if same (b_in b) (concat iov) then Some (mk_bjoint (answered j (QWrite h iov) k (ARes r_success) (Some u) (j_past j)) [])
          else
            let room := lenN (SpecCapture.received u (j_hist j)) + cap - lenN (passed b) in
            let ch := firstn (N.to_nat room) (skipn (length (b_in b)) (concat iov)) in
            if negb (same ch []) && prefixb (b_in b ++ ch) (concat iov) && (lenN (sent (j_tr j) ++ b_in b ++ ch) <=? lenN (SpecCapture.received u (j_hist j)) + cap)
            then Some (mk_bjoint j (b_in b ++ ch)) else served u b
      | QRead h n, Some u =>
          let all := concat (answers (acts_of u (x_log (j_srv j)))) in
          let bs := firstn (N.to_nat n) (skipn (length (SpecTrace.received (j_tr j))) all) in
          if same (b_in b) [] && (lenN bs =? n) && prefixb (SpecTrace.received (j_tr j) ++ bs) all
          then Some (mk_bjoint (answered j (QRead h n) k (ARead r_success bs) (Some u) (j_past j)) []) else served u b
      | QClose h, Some u =>
          if same (b_in b) [] then Some (mk_bjoint (answered j (QClose h) k (ARes r_success) None ((u, sent (j_tr j)) :: j_past j)) []) else None
      | QDestroy h, None =>
          if same (b_in b) [] then Some (mk_bjoint (answered j (QDestroy h) k (ARes r_success) None (j_past j)) []) else None
      | _, _ => None
      end
  | _ => None
  end.
Fixpoint plays (n : nat) (i : nat) (b : bjoint) : bjoint :=
  match n with
  | O => b
  | S n => match goes_on i b with Some b' => plays n i b' | None => b end
  end.

Lemma served_ok i b b' : j_id (b_joint b) = Some i -> served i b = Some b' -> exists x, its_own (b_joint b) x /\ b_server e a m b x b'.
Proof.
  intros EI. unfold served. set (x := if acceptedb _ _ then _ else _).
  destruct (_ && _) eqn:C; [|discriminate]. apply andb_prop in C as [L C]. apply legalb_sound in L.
  destruct (step e a x _) as [c'| | |] eqn:S; try discriminate. intros [= <-]. exists x. split.
  - unfold x. destruct (acceptedb _ _); exact EI.
  - constructor; [exact L| |exact S]. unfold x in *. destruct (acceptedb _ _); [|exact Logic.I].
    apply andb_prop in C as [C C3]. apply andb_prop in C as [C1 C2]. split; [apply N.leb_le, C1|]. split; [intros _; apply prefixb_ok, C2|].
    intros s IN. exfalso. apply Bool.negb_true_iff in C3. rewrite <- Bool.not_true_iff_false in C3. apply C3, existsb_exists.
    exists i. split; [exact (in_map fst _ _ IN)|apply Nat.eqb_refl].
Qed.
Lemma goes_on_ok i b b' : goes_on i b = Some b' -> b_writer cap b b' \/ exists x, its_own (b_joint b) x /\ b_server e a m b x b'.
Proof.
  unfold goes_on. destruct b as [j bin]. cbn [b_joint b_in].
  destruct (j_prog j) as [| |q k] eqn:EP; try discriminate.
  destruct q; destruct (j_id j) as [u|] eqn:EI; try discriminate.
  - destruct (_ && _) eqn:C; [|discriminate]. apply andb_prop in C as [C C3]. apply andb_prop in C as [C1 C2]. intros [= <-]. left.
    apply same_ok in C1 as ->. apply bw_other; [rewrite EP; discriminate|]. apply wm_open; [exact EP|apply acceptedb_ok, Bool.negb_true_iff, C2|].
    apply Bool.negb_true_iff in C3. rewrite <- Bool.not_true_iff_false in C3. intro IN. apply C3, existsb_exists. exists i. split; [exact IN|apply Nat.eqb_refl].
  - destruct (same bin []) eqn:C; [|discriminate]. intros [= <-]. left. apply same_ok in C as ->.
    apply bw_other; [rewrite EP; discriminate|]. apply wm_close; assumption.
  - set (bs := firstn _ _). destruct (_ && _) eqn:C; [|intro X; right; apply (served_ok u (mk_bjoint j bin)); [exact EI|exact X]]. intros [= <-]. left.
    apply andb_prop in C as [C C3]. apply andb_prop in C as [C1 C2]. apply same_ok in C1 as ->.
    apply bw_other; [rewrite EP; discriminate|]. apply wm_read; [exact EP|exact EI|apply N.eqb_eq, C2|apply prefixb_ok, C3].
  - destruct (same bin (concat iov)) eqn:C.
    + intros [= <-]. left. apply same_ok in C as ->. apply bw_done; assumption.
    + set (ch := firstn _ _). destruct (_ && _) eqn:D; [|intro X; right; apply (served_ok u (mk_bjoint j bin)); [exact EI|exact X]]. intros [= <-]. left.
      apply andb_prop in D as [D D3]. apply andb_prop in D as [D1 D2].
      eapply bw_put; [exact EP|exact EI|intro Z; rewrite Z in D1; discriminate|apply prefixb_ok, D2|apply N.leb_le, D3].
  - destruct (same bin []) eqn:C; [|discriminate]. intros [= <-]. left. apply same_ok in C as ->.
    apply bw_other; [rewrite EP; discriminate|]. apply wm_destroy; assumption.
Qed.
Lemma plays_ok i b0 : forall n n0 b, b_run e a m cap b0 n0 b -> exists n', b_run e a m cap b0 n' (plays n i b).
Proof.
  induction n as [|n IH]; intros n0 b R; cbn [plays]; [eauto|]. destruct (goes_on i b) as [b'|] eqn:G; [|eauto].
  apply goes_on_ok in G as [W|(x & O & S)]; eapply IH; [eapply br_writer|eapply br_own]; eassumption.
Qed.
End Play.

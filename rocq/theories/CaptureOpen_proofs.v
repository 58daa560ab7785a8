(** Which connections fstrm_capture has open. *)
From Coq Require Import ZArith Lia.
From Verif Require Import Bytes Spec SpecTrace SpecStream Control Bytes_proofs Control_proofs Io Capture SpecCapture SpecCaptureOpen
  Capture_proofs Capture2_proofs Capture3_proofs Capture4_proofs Capture5_proofs Capture6_proofs Capture7_proofs Capture8_proofs Pair2_proofs.
Import ListNotations.
Local Open Scope N_scope.

Lemma reach_fun e a H c : reach e a H c -> forall c', reach e a H c' -> c' = c.
Proof.
  induction 1 as [c B|H c x c1 R IH L S]; intros c' R'.
  - inversion R' as [c0 B'|H0 c0 x0 c2 R0 L0 S0 E]; subst; [congruence|]. destruct H0; discriminate.
  - inversion R' as [c0 B' E|H0 c0 x0 c2 R0 L0 S0 E]; subst; [destruct H; discriminate|].
    apply app_inj_tail in E as [-> ->]. specialize (IH _ R0). subst. congruence.
Qed.
Lemma ra_no_hangup lost hw ct ph bs a q : reacts_any lost hw ct ph bs a q -> forall p, q = Open_at p -> ~ In Hangup a.
Proof.
  induction 1 as [ph bs I C | ph f bs a q K C L R IH | ph p bs a q K C L R IH
    | ph p x ph' bs a q K L L2 A R IH | ph p bs K L N | ph p b ph' bs Lo K L L2 A | ph bs B | ph n r more a q En Hr R IH | ph more];
    intros p0 E; try discriminate.
  - intros [].
  - exact (IH _ E).
  - intros [?|X]; [discriminate|exact (IH _ E X)].
  - intro X. apply in_app_or in X as [X|X]; [|exact (IH _ E X)]. destruct A; cbn [In] in X; intuition discriminate.
  - intros [?|X]; [discriminate|exact (IH _ E X)].
Qed.
Lemma stays_closed e a H c x c' id : reach e a H c -> accepted id H -> find_conn id (x_conns c) = None ->
  legal a H c x -> step e a x c = Go c' -> find_conn id (x_conns c') = None.
Proof.
  intros R A N L S. destruct (reach_inv _ _ _ _ R) as [C F]. pose proof (cn_nodup _ _ _ C) as ND.
  destruct x as [i|i chunk|i|i| |]; cbn [step legal] in *.
  - injection S as <-. cbn [x_conns cb_accept_conn set_conns find_conn]. destruct (Nat.eqb_spec i id) as [->|NE]; [destruct L; contradiction|exact N].
  - destruct L as (_ & k & Fk & _). rewrite Fk in S. unfold cb_read in S.
    destruct (read_loop e a _ i _ c) as [[r c1]| | |] eqn:RL; cbn [rbind] in S; try discriminate.
    apply read_loop_evolves in RL; [|assumption]. destruct r as [k1|].
    + destruct RL as [((_ & _ & E1) & _) _]. injection S as <-. cbn [x_conns set_conns].
      rewrite E1, find_update by assumption. destruct (Nat.eqb_spec id i) as [->|NE]; [congruence|exact N].
    + destruct RL as (c0 & [((_ & _ & E1) & _) _] & ->). injection S as <-. cbn [x_conns set_conns cb_close_conn].
      rewrite E1, find_remove by assumption. destruct (Nat.eqb id i); [reflexivity|exact N].
  - destruct (find_conn i (x_conns c)) as [k|] eqn:Fk; [|discriminate]. injection S as <-.
    unfold cb_write. destruct (k_state k); try assumption. cbn [x_conns set_conns cb_close_conn]. rewrite find_remove by assumption.
    destruct (Nat.eqb id i); [reflexivity|exact N].
  - destruct (find_conn i (x_conns c)) as [k|] eqn:Fk; [|discriminate]. injection S as <-.
    cbn [x_conns set_conns cb_close_conn]. rewrite find_remove by assumption. destruct (Nat.eqb id i); [reflexivity|exact N].
  - destruct (x_open c); [|injection S as <-; exact N].
    apply rotate_output_inv in S; [|exact F]. destruct S as ((_ & _ & S1) & _). now rewrite S1.
  - destruct (x_open c); injection S as <-; exact N.
Qed.
Lemma gone_accepted e a id H c : reach e a H c -> In (E_gone id) H -> accepted id H.
Proof.
  intros R G. destruct (in_dec Nat.eq_dec id (concat (map (fun x => match x with E_accept i => [i] | _ => [] end) H))) as [I|I].
  - apply in_concat in I as (l & I1 & I2). apply in_map_iff in I1 as (x & <- & I3). destruct x; try contradiction. destruct I2 as [->|[]]. exact I3.
  - exfalso. destruct (unseen e a id H c R) as (_ & _ & X); [|exact (X G)].
    intro A. apply I. apply in_concat. exists [id]. split; [|left; reflexivity]. apply in_map_iff. exists (E_accept id). split; [reflexivity|exact A].
Qed.
Lemma acts_accepted e a id H c b : reach e a H c -> In b (acts_of id (x_log c)) -> accepted id H.
Proof.
  intros R G. destruct (in_dec Nat.eq_dec id (concat (map (fun x => match x with E_accept i => [i] | _ => [] end) H))) as [I|I].
  - apply in_concat in I as (l & I1 & I2). apply in_map_iff in I1 as (x & <- & I3). destruct x; try contradiction. destruct I2 as [->|[]]. exact I3.
  - exfalso. destruct (unseen e a id H c R) as (_ & X & _); [|rewrite X in G; exact G].
    intro A. apply I. apply in_concat. exists [id]. split; [|left; reflexivity]. apply in_map_iff. exists (E_accept id). split; [reflexivity|exact A].
Qed.
Lemma over_closed e a id : forall H c, reach e a H c -> In (E_gone id) H \/ finished e a id H -> find_conn id (x_conns c) = None.
Proof.
  induction 1 as [c B|H c x c' R IH L S]; intros O.
  - destruct O as [[]|(H1 & H2 & c1 & E & _)]. destruct H1; discriminate.
  - assert (OLD : In (E_gone id) H \/ finished e a id H -> find_conn id (x_conns c') = None).
    { intro O'. eapply stays_closed; [exact R| |exact (IH O')|exact L|exact S]. destruct O' as [G|(H1 & H2 & c1 & -> & R1 & I)].
      - eapply gone_accepted; eassumption.
      - unfold accepted. apply in_or_app. left. eapply acts_accepted; eassumption. }
    destruct O as [G|(H1 & H2 & c1 & E & R1 & I)].
    + apply in_app_or in G as [G|[->|[]]]; [auto|]. cbn [step] in S. destruct (find_conn id (x_conns c)); [|discriminate]. injection S as <-.
      cbn [x_conns set_conns cb_close_conn]. apply find_remove_self. exact (cn_nodup _ _ _ (proj1 (reach_inv _ _ _ _ R))).
    + destruct H2 as [|y H2].
      * apply app_inj_tail in E as [-> ->]. rewrite (reach_fun _ _ _ _ R1 _ R) in *. eapply any_written_closes; eassumption.
      * apply OLD. right. pose proof (app_removelast_last y (l := y :: H2) ltac:(discriminate)) as Y. rewrite Y in E.
        rewrite app_comm_cons, app_assoc in E. apply app_inj_tail in E as [-> _]. exists H1, (removelast (y :: H2)), c1. auto.
Qed.
Lemma closed_over e a id : forall H c, reach e a H c -> accepted id H -> find_conn id (x_conns c) = None -> over e a id H c.
Proof.
  induction 1 as [c B|H c x c' R IH L S]; intros A N; [destruct A|].
  destruct (reach_inv _ _ _ _ R) as [C F]. pose proof (cn_nodup _ _ _ C) as ND.
  destruct (step_acts _ _ _ _ _ _ R S) as (later & LG).
  assert (OLD : find_conn id (x_conns c) = None -> accepted id H -> over e a id (H ++ [x]) c').
  { intros N' A'. destruct (IH A' N') as [E|[E|(H1 & H2 & c1 & -> & E)]].
    - left. apply in_or_app. now left.
    - right. left. rewrite LG, acts_of_app. apply in_or_app. now left.
    - right. right. exists H1, (H2 ++ [x]), c1. split; [|exact E]. now rewrite <- app_assoc. }
  unfold accepted in A. apply in_app_or in A.
  destruct x as [i|i chunk|i|i| |]; cbn [step legal] in *.
  - injection S as <-. cbn [x_conns cb_accept_conn set_conns find_conn] in N.
    destruct (Nat.eqb_spec i id) as [->|NE]; [discriminate|].
    destruct A as [A|[A|[]]]; [auto|congruence].
  - destruct A as [A|[A|[]]]; [|discriminate].
    destruct L as (_ & k & Fk & _). rewrite Fk in S. unfold cb_read in S.
    destruct (read_loop e a _ i _ c) as [[r c1]| | |] eqn:RL; cbn [rbind] in S; try discriminate.
    pose proof RL as RL0. apply read_loop_evolves in RL; [|assumption]. destruct r as [k1|].
    + destruct RL as [((_ & _ & E1) & _) _]. injection S as <-. cbn [x_conns set_conns] in N.
      rewrite E1, find_update in N by assumption. destruct (Nat.eqb_spec id i) as [->|NE]; [rewrite Fk in N; discriminate|auto].
    + destruct RL as (c0 & [((_ & _ & E1) & _) _] & ->). injection S as <-. cbn [x_conns set_conns cb_close_conn] in N.
      rewrite E1, find_remove in N by assumption. destruct (Nat.eqb_spec id i) as [->|NE]; [|auto].
      apply read_loop_hangs in RL0 as (c2 & E2). rewrite E2. right. left. cbn [x_log cb_close_conn set_conns].
      rewrite acts_note, Nat.eqb_refl. apply in_or_app. right. left. reflexivity.
  - destruct A as [A|[A|[]]]; [|discriminate].
    destruct (Nat.eqb_spec i id) as [->|NE].
    + pose proof (proj1 (any_written_closes e a H c id c' R L S) N) as I. right. right. exists H, [], c. auto.
    + destruct (find_conn i (x_conns c)) as [k|] eqn:Fk; [|discriminate]. injection S as <-.
      unfold cb_write in *. destruct (k_state k); try (apply OLD; assumption).
      cbn [x_conns set_conns cb_close_conn] in N. rewrite find_remove in N by assumption.
      destruct (Nat.eqb_spec id i); [congruence|auto].
  - destruct A as [A|[A|[]]]; [|discriminate].
    destruct (Nat.eqb_spec i id) as [->|NE]; [left; apply in_or_app; right; left; reflexivity|].
    destruct (find_conn i (x_conns c)) as [k|] eqn:Fk; [|discriminate]. injection S as <-.
    cbn [x_conns set_conns cb_close_conn] in N. rewrite find_remove in N by assumption.
    destruct (Nat.eqb_spec id i); [congruence|auto].
  - destruct A as [A|[A|[]]]; [|discriminate].
    destruct (x_open c); [|injection S as <-; auto].
    apply rotate_output_inv in S; [|exact F]. destruct S as ((_ & _ & S1) & _). rewrite S1 in N. auto.
  - destruct A as [A|[A|[]]]; [|discriminate]. destruct (x_open c); injection S as <-; auto.
Qed.
Lemma find_in id k ks : NoDup (map fst ks) -> (In (id, k) ks <-> find_conn id ks = Some k).
Proof.
  induction ks as [|[i d] l IH]; cbn [In map fst find_conn]; intro D; [split; [intros []|discriminate]|]. inversion D as [|? ? A B]; subst.
  destruct (Nat.eqb_spec i id) as [->|N].
  - split; [|intros [= ->]; now left]. intros [[= ->]|I]; [reflexivity|]. exfalso. apply A. apply (in_map fst) in I. exact I.
  - rewrite <- (IH B). split; [intros [[= ? ?]|I]; [congruence|exact I]|auto].
Qed.
Lemma open_exactly e a H c : reach e a H c -> NoDup (map fst (x_conns c)) /\
  forall id, (exists k, In (id, k) (x_conns c)) <-> accepted id H /\ ~ over e a id H c.
Proof.
  intro R. destruct (reach_inv _ _ _ _ R) as [C _]. pose proof (cn_nodup _ _ _ C) as ND. split; [exact ND|]. intro id. split.
  - intros (k & I). apply find_in in I; [|exact ND]. split; [apply (cn_acc _ _ _ C); eapply find_some_in, I|].
    intros [G|[G|G]].
    + pose proof (over_closed _ _ _ _ _ R (or_introl G)). congruence.
    + destruct (run_reacts_any true e a H c id (or_intror eq_refl) R) as (q & _ & Q1 & Q2). eapply ra_no_hangup; [exact Q1|exact (Q2 _ I)|exact G].
    + pose proof (over_closed _ _ _ _ _ R (or_intror G)). congruence.
  - intros [A N]. destruct (find_conn id (x_conns c)) as [k|] eqn:E; [exists k; now apply find_in|]. exfalso. apply N. now apply closed_over.
Qed.
Lemma lookup_right e a H c id k : reach e a H c -> (find_conn id (x_conns c) = Some k <-> In (id, k) (x_conns c)).
Proof. intro R. symmetry. apply find_in. exact (cn_nodup _ _ _ (proj1 (reach_inv _ _ _ _ R))). Qed.
Lemma over_for_good e a H c x c' id : reach e a H c -> legal a H c x -> step e a x c = Go c' ->
  over e a id H c -> over e a id (H ++ [x]) c'.
Proof.
  intros R L S. destruct (step_acts _ _ _ _ _ _ R S) as (later & LG). intros [E|[E|(H1 & H2 & c1 & -> & E)]].
  - left. apply in_or_app. now left.
  - right. left. rewrite LG, acts_of_app. apply in_or_app. now left.
  - right. right. exists H1, (H2 ++ [x]), c1. split; [|exact E]. now rewrite <- app_assoc.
Qed.

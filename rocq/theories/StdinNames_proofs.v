(** Proofs for C88: fstrm_replay reading from stdin. *)
From Verif Require Import Bytes Spec Bytes_proofs Io Io_proofs SpecTrace SpecStream
  Control Control_proofs Rdwr Rdwr_proofs Reader Writer Api SpecApi SpecReader SpecFile File
  Misc Tools SpecTools Writer_proofs Writer2_proofs Reader_source_proofs Reader_proofs Reader3_proofs File_proofs
  Tools_proofs Tools2_proofs Tools3_proofs Messages3_proofs StdinNames SpecStdinNames.
Ltac Zify.zify_post_hook ::= Z.div_mod_to_equations.
Local Open Scope N_scope.

(** ** What does not open the transport *)
Definition nop (q : query) : Prop := match q with QOpen _ => False | _ => True end.
Notation quiet p := (asks nop (fun _ => True) p).

Lemma quiet_bind {A B} (p : io A) (k : A -> io B) : quiet p -> (forall a, quiet (k a)) -> quiet (bind p k).
Proof. intros H K. eapply asks_bind; [exact H|]. intros a _. apply K. Qed.
Ltac quiet_step := first
  [ exact I
  | match goal with |- asks _ _ (bind _ _) => apply quiet_bind; [|let z := fresh "z" in intro z; repeat (destruct z as [z ?])] end
  | match goal with |- asks _ _ (if ?b then _ else _) => destruct b end
  | match goal with |- asks _ _ (match ?b with _ => _ end) => destruct b end ].
Lemma quiet_close rw : quiet (rdwr_close rw).
Proof. unfold rdwr_close. repeat quiet_step. cbn. split; [exact I|]. intros []; exact I. Qed.
Lemma quiet_read rw n : quiet (rdwr_read rw n).
Proof.
  unfold rdwr_read. do 2 (destruct (negb _); [exact I|]). cbn. split; [exact I|]. intros []; cbn; auto.
  destruct (negb _); [|exact I]. apply quiet_bind; [apply quiet_close|]. intros []. exact I.
Qed.
Lemma quiet_tail rw c : quiet (read_control_frame_tail rw c).
Proof.
  unfold read_control_frame_tail. apply quiet_bind; [apply quiet_read|]. intros [[x b] rw1].
  destruct (negb _); [exact I|]. destruct (_ <? _); [exact I|]. apply quiet_bind.
  { destruct (_ =? _); [|exact I]. cbn. split; [exact I|]. intros []; exact I. }
  intros _. apply quiet_bind; [apply quiet_read|]. intros [[x2 b2] rw2].
  destruct (negb _); [exact I|]. apply quiet_bind; [apply asks_lift|]. intros [x3 c3].
  destruct (negb _); [exact I|]. destruct (control_get_type c3) as [[] ?]; exact I.
Qed.
Lemma quiet_frame rw c b : quiet (read_control_frame rw c b).
Proof.
  unfold read_control_frame. destruct b; [|apply quiet_tail]. apply quiet_bind; [apply quiet_read|]. intros [[x b] rw1].
  destruct (negb _); [exact I|]. destruct (negb _); [exact I|]. apply quiet_tail.
Qed.
Lemma quiet_write rw iov : quiet (rdwr_write rw iov).
Proof.
  unfold rdwr_write. do 2 (destruct (negb _); [exact I|]). cbn. split; [exact I|]. intros []; cbn; auto.
  destruct (negb _); [|exact I]. apply quiet_bind; [apply quiet_close|]. intros []. exact I.
Qed.
Lemma quiet_wcf rw c : quiet (write_control_frame rw c).
Proof.
  unfold write_control_frame. destruct (control_encoded_size c 1) as [[] [n|]]; try exact I.
  apply quiet_bind; [apply asks_lift|]. intros [[x m] l]. destruct (negb _); [exact I|]. apply quiet_write.
Qed.
Lemma quiet_control rw oc t : quiet (read_control rw oc t).
Proof.
  unfold read_control. apply quiet_bind; [apply quiet_frame|].
  intros [[[x t'] c'] rw1]. destruct (negb _); [exact I|]. destruct t'; [|exact I]. destruct (negb _); exact I.
Qed.
Lemma quiet_ruo r : quiet (reader_open_unidirectional r).
Proof.
  unfold reader_open_unidirectional. apply quiet_bind; [apply quiet_control|].
  intros [[x c] rw]. cbv zeta. destruct (negb _); [exact I|]. destruct c; [|exact I]. destruct (negb _); exact I.
Qed.
Lemma quiet_rbo r : quiet (reader_open_bidirectional r).
Proof.
  unfold reader_open_bidirectional. apply quiet_bind; [apply quiet_control|].
  intros [[x c] rw]. cbv zeta. destruct (negb _); [exact I|]. destruct c; [|exact I].
  match goal with |- asks _ _ (match ?s with _ => _ end) => destruct s as [[] acc1] end; try exact I.
  apply quiet_bind; [apply quiet_wcf|]. intros [x2 rw2]. destruct (negb _); [exact I|]. apply quiet_ruo.
Qed.
Lemma quiet_next fuel : forall r, quiet (reader_next_data fuel r).
Proof.
  induction fuel as [|fuel IH]; intro r; cbn [reader_next_data]; [exact I|]. apply quiet_bind.
  { unfold reader_read_be32. apply quiet_bind; [apply quiet_read|]. intros [[x b] rw]. exact I. }
  intros [[x len] r1]. destruct (negb _); [exact I|]. destruct (negb _).
  - destruct (_ <? _); [exact I|]. destruct (reserve_loop _ _ _) as [a|]; [|exact I]. cbv zeta.
    destruct (_ <? _); [exact I|]. apply quiet_bind; [apply quiet_read|]. intros [[x2 b2] rw2]. destruct (negb _); exact I.
  - cbv zeta. apply quiet_bind; [apply quiet_frame|]. intros [[[x2 t2] c2] rw2].
    destruct (negb _); [exact I|]. destruct t2; [|exact I]. destruct (_ =? _); [exact I|]. apply IH.
Qed.
Lemma quiet_rread fuel r : r_state r = rs_opened -> quiet (reader_read fuel r).
Proof. intro E. rewrite read_opened by exact E. apply quiet_next. Qed.
Lemma quiet_destroy r : rw_has_write (r_rdwr r) = false -> quiet (reader_destroy r).
Proof.
  intro E. unfold reader_destroy. apply quiet_bind.
  - unfold reader_close. cbn [set_rstate r_rdwr]. rewrite E.
    destruct (r_state r); try exact I; (apply quiet_bind; [apply quiet_close|]; intros []; exact I).
  - intros [x r1]. apply quiet_bind; [|intros; exact I]. unfold rdwr_destroy. destruct (rw_has_destroy _); [|exact I].
    cbn. split; [exact I|]. intros []; exact I.
Qed.

(** Opening comes first, and once. *)
Definition opens1 {A} (p : io A) : Prop :=
  match p with
  | Vis (QOpen _) k => forall a, quiet (k a)
  | _ => False
  end.
Lemma opens1_bind {A B} (p : io A) (k : A -> io B) : opens1 p -> (forall a, quiet (k a)) -> opens1 (bind p k).
Proof. intros H K. destruct p as [| |[]]; try contradiction. intro x. apply quiet_bind; [apply H|exact K]. Qed.
Lemma opens1_get h r t : reader_init reader_options_default (file_reader_rdwr h) = Some r -> opens1 (reader_get_control r t).
Proof.
  intros [= <-]. unfold reader_get_control, reader_maybe_open, reader_open. cbn [r_state]. apply opens1_bind.
  2:{ intros [x r1]. destruct (negb _); [exact I|]. repeat (destruct (_ =? _); [exact I|]). exact I. }
  apply opens1_bind; [|intros [x r1]; destruct (negb _); exact I]. apply opens1_bind.
  - cbn. intros []; try exact I. cbn. match goal with |- context [if ?b then _ else _] => destruct b end; exact I.
  - intros [x rw]. cbv zeta. destruct (negb _); [exact I|].
    apply quiet_bind; [destruct (rw_has_write _); [apply quiet_rbo|apply quiet_ruo]|]. intros [x2 r2]. destruct (negb _); exact I.
Qed.

(** ** An object and the file it stands for, once opened
    [s0]: stdin, for a regular file, which leaves it alone; [None] for "-". *)
Definition tied (s0 : option std) (s : std) (o : nobj) (f : cfile) : Prop :=
  match o, s0 with
  | NFile g, Some s0 => g = f /\ s = s0
  | NDash _, Some _ | NFile _, None => False
  | NDash fp, None => f_write f = false /\ f_fp f = (if fp then Some (sd_rest s) else None) /\ sd_shut s = negb fp
  end.
(** ... before it was opened. *)
Definition fresh (s0 : option std) (s : std) (o : nobj) (f : cfile) : Prop :=
  match o, s0 with
  | NFile g, Some s0 => g = f /\ s = s0
  | NDash _, Some _ | NFile _, None => False
  | NDash fp, None => fp = false /\ f = input (sd_rest s) /\ sd_shut s = false
  end.

Lemma tied_step s0 s o f q f1 a1 : tied s0 s o f -> nop q -> file_ops f q = (f1, a1) ->
  exists s' o', name_ops s o q = Some (s', o', a1) /\ tied s0 s' o' f1.
Proof.
  destruct o as [g|fp], s0 as [s0|]; cbn [tied name_ops]; try contradiction.
  { intros [-> ->] _ ->. eexists _, _. split; [reflexivity|]. cbn. auto. }
  intros (W & F & Sh) N E. destruct f as [fw fd ff]. cbn in W, F. subst fw ff.
  assert (SAME : forall a, (mk_cfile false fd (if fp then Some (sd_rest s) else None), a) = (f1, a1) ->
     exists s' o', Some (s, NDash fp, a) = Some (s', o', a1) /\ tied None s' o' f1).
  { intros a [= <- <-]. eexists _, _. split; [reflexivity|]. cbn. auto. }
  destruct q; try contradiction N; cbn in E; cbn [dash_ops].
  - destruct fp; cbn in E; cbn [negb] in Sh; [rewrite Sh|apply SAME, E]. injection E as <- <-.
    eexists _, _; split; [reflexivity|]; cbn; auto.
  - destruct fp; cbn [negb] in Sh; [rewrite Sh|apply SAME, E]. unfold file_op_read in E. cbn [f_fp f_write f_data] in E. destruct (count =? 0); [apply SAME, E|].
    destruct (lenN (sd_rest s) <? count); injection E as <- <-; (eexists _, _; split; [reflexivity|]; cbn; auto).
  - destruct fp; cbn [negb] in Sh.
    + destruct iov; cbn in E; [apply SAME, E|]. rewrite Sh. injection E as <- <-. eexists _, _; split; [reflexivity|]; cbn; auto.
    + destruct iov; cbn in E; apply SAME, E.
  - apply SAME, E.
  - apply SAME, E.
  - apply SAME, E.
  - apply SAME, E.
  - apply SAME, E.
  - apply SAME, E.
  - apply SAME, E.
Qed.
Lemma fresh_open s0 s o f h f1 a1 : fresh s0 s o f -> file_ops f (QOpen h) = (f1, a1) ->
  exists s' o', name_ops s o (QOpen h) = Some (s', o', a1) /\ tied s0 s' o' f1.
Proof.
  destruct o as [g|fp], s0 as [s0|]; cbn [fresh name_ops]; try contradiction.
  { intros [-> ->] ->. eexists _, _. split; [reflexivity|]. cbn. auto. }
  intros (-> & -> & Sh) E. cbn [dash_ops]. rewrite Sh. cbn in E. injection E as <- <-.
  eexists _, _. split; [reflexivity|]. cbn. auto.
Qed.

Lemma mid_names {A B} (k : A -> io B) p J pre post s0 : forall s o f f' a,
  asks (on (1 + length pre)) J p -> quiet p -> exec file_ops f p = (f', Done a) -> tied s0 s o f ->
  exists s' o', on_names 1 s (pre ++ o :: post) (bind p k) = on_names 1 s' (pre ++ o' :: post) (k a) /\ tied s0 s' o' f'.
Proof.
  induction p as [a|f|q k0 IH]; intros s o f0 f' a1 H Qu E T; cbn in *.
  - injection E as <- <-. eauto.
  - discriminate.
  - destruct H as [H1 H2]. destruct Qu as [Q1 Q2].
    rewrite (file_index_in 1 (length (pre ++ o :: post)) (length pre) q H1 ltac:(rewrite app_length; cbn; lia)).
    rewrite app_nth2 by lia. rewrite Nat.sub_diag. cbn [nth].
    destruct (file_ops f0 q) as [f1 b1] eqn:EF. destruct (tied_step s0 s o f0 q f1 b1 T Q1 EF) as (s1 & o1 & EN & T1). rewrite EN.
    rewrite set_nth_mid. apply IH with (f := f1); auto.
Qed.
Lemma mid_opens {A B} (k : A -> io B) p J pre post s0 s o f f' a :
  asks (on (1 + length pre)) J p -> opens1 p -> exec file_ops f p = (f', Done a) -> fresh s0 s o f ->
  exists s' o', on_names 1 s (pre ++ o :: post) (bind p k) = on_names 1 s' (pre ++ o' :: post) (k a) /\ tied s0 s' o' f'.
Proof.
  intros H Op E T. destruct p as [| |[] k0]; try contradiction Op. cbn in H, Op. destruct H as [H1 H2]. cbn [bind on_names].
  rewrite (file_index_in 1 (length (pre ++ o :: post)) (length pre) _ H1 ltac:(rewrite app_length; cbn; lia)).
  rewrite app_nth2 by lia. rewrite Nat.sub_diag. cbn [nth]. cbn [exec] in E.
  destruct (file_ops f (QOpen h)) as [f1 b1] eqn:EF. destruct (fresh_open s0 s o f h f1 b1 T EF) as (s1 & o1 & EN & T1). rewrite EN.
  rewrite set_nth_mid. apply mid_names with (J := J) (f := f1); auto.
Qed.

Lemma names_local {A B C} (S : std * list nobj * B -> C -> Prop) base s os (J : A -> Prop) p k k' :
  asks (outside base (length os)) J p -> (forall a, J a -> sim S (on_names base s os (k a)) (k' a)) ->
  sim S (on_names base s os (bind p k)) (bind p k').
Proof.
  intros H K. induction p as [a|f|q k0 IH]; cbn in *; try constructor; auto.
  destruct H as [H1 H2]. rewrite H1. constructor. intro a. apply IH. auto.
Qed.
Lemma on_names_sim {A} base (p q : io A) : sim eq p q -> forall s os, sim eq (on_names base s os p) (on_names base s os q).
Proof.
  induction 1 as [a b ->|f|q0 k k' H IH]; intros s os; cbn; try (constructor; auto; fail).
  destruct (file_index base (length os) q0); [|constructor; auto]. destruct (name_ops _ _ q0) as [[[s1 o1] a1]|]; [auto|constructor].
Qed.
Lemma names_assoc {A B C D} (S : std * list nobj * C -> D -> Prop) base s os (p : io A) (f : A -> io B) (g : B -> io C) q :
  sim S (on_names base s os (bind p (fun a => bind (f a) g))) q -> sim S (on_names base s os (bind (bind p f) g)) q.
Proof. apply sim_l, on_names_sim, sim_assoc. Qed.

(** ** At the end of the input the transport is closed *)
Definition nstop (x : outc (res * control)) : Prop := match x with Ok (r_stop, _) => False | _ => True end.
Lemma fields_nstop fuel : forall c mem len, nstop (decode_fields fuel c mem len).
Proof.
  induction fuel as [|fuel IH]; intros c mem len; cbn [decode_fields]; [exact I|].
  destruct (0 <? len); [|exact I]. unfold fs_load_be32 at 1. destruct (len <? 4); [exact I|]. destruct (lenN mem <? 4); [exact I|]. cbn [obind].
  destruct (_ =? _); [|exact I]. unfold fs_load_be32. destruct (_ <? 4); [exact I|]. destruct (_ <? 4); [exact I|]. cbn [obind].
  destruct (_ <? _); [exact I|]. destruct (_ <? _); [exact I|]. unfold fs_load_bytes. destruct (_ <? _); [exact I|]. destruct (_ <? _); [exact I|].
  cbn [obind]. apply IH.
Qed.
Lemma decode_nstop c mem len : nstop (control_decode c mem len 0).
Proof.
  unfold control_decode. change (flag_with_header 0) with false. cbv iota.
  destruct (_ <? len); [exact I|]. unfold decode_body, fs_load_be32. destruct (len <? 4); [exact I|]. destruct (lenN mem <? 4); [exact I|]. cbn [obind].
  destruct (type_known _); [|exact I]. match goal with |- context [decode_fields ?a ?b ?c ?d] => pose proof (fields_nstop a b c d) as H; destruct (decode_fields a b c d) as [[[] c1]|f] end;
    cbn [obind nstop] in *; auto. unfold decode_limits. destruct (_ =? _); [destruct (_ <? _)%nat; exact I|]. destruct (_ || _); [destruct (_ <? _)%nat; exact I|exact I].
Qed.

Definition all (q : query) : Prop := True.
Definition shut_at_stop (x : res) (rw : rdwr) : Prop := rw_has_close rw = true /\ (x = r_stop -> rw_opened rw = false).
Lemma stop_close rw : rw_has_close rw = true -> asks all (fun z => rw_has_close (snd z) = true /\ rw_opened (snd z) = false) (rdwr_close rw).
Proof.
  intro H. unfold rdwr_close. rewrite H. cbn [negb]. destruct (rw_opened rw) eqn:E; [|cbn; auto].
  cbn. split; [exact I|]. intros []; cbn; auto.
Qed.
Lemma stop_read rw n : rw_has_close rw = true -> asks all (fun z => shut_at_stop (fst (fst z)) (snd z)) (rdwr_read rw n).
Proof.
  intro H. unfold rdwr_read. do 2 (destruct (negb _); [cbn; split; [exact H|discriminate]|]). cbn. split; [exact I|]. intros []; cbn; auto.
  destruct (res_eqb r r_success) eqn:E; cbn [negb].
  - apply res_eqb_true in E. subst r. cbn. split; [exact H|discriminate].
  - eapply asks_bind; [apply stop_close; exact H|]. intros [y rw1] [H1 H2]. cbn in *. split; auto.
Qed.
Lemma stop_tail rw c : rw_has_close rw = true -> asks all (fun z => shut_at_stop (fst (fst (fst z))) (snd z)) (read_control_frame_tail rw c).
Proof.
  intro H. unfold read_control_frame_tail. eapply asks_bind; [apply stop_read; exact H|]. intros [[x b] rw1] H1. cbn [fst snd] in H1.
  destruct (negb _); [exact H1|]. destruct (_ <? _); [cbn; split; [apply H1|discriminate]|]. apply asks_bind with (I := fun _ => True).
  { destruct (_ =? _); [|exact I]. cbn. split; [exact I|]. intros []; exact I. }
  intros _ _. eapply asks_bind; [apply stop_read; apply H1|]. intros [[x2 b2] rw2] H2. cbn [fst snd] in H2.
  destruct (negb _); [exact H2|]. apply asks_bind with (I := fun z => fst z <> r_stop).
  { pose proof (decode_nstop c b2 (ntohl_bytes b)) as Nd. destruct (control_decode c b2 (ntohl_bytes b) 0) as [[[] c1]|]; cbn in *; auto; discriminate. }
  intros [x3 c3] N3. cbn [fst] in N3. destruct (negb _); [cbn; split; [apply H2|contradiction]|].
  unfold control_get_type. destruct (type_known _); cbn; (split; [apply H2|discriminate]).
Qed.
Lemma stop_next fuel : forall r, rw_has_close (r_rdwr r) = true ->
  asks all (fun z => fst (fst z) = r_stop -> r_state (snd z) = rs_failed -> rw_opened (r_rdwr (snd z)) = false) (reader_next_data fuel r).
Proof.
  induction fuel as [|fuel IH]; intros r H; cbn [reader_next_data]; [exact I|].
  apply asks_bind with (I := fun z => shut_at_stop (fst (fst z)) (r_rdwr (snd z))).
  { unfold reader_read_be32. eapply asks_bind; [apply stop_read; exact H|]. intros [[x b] rw] H1. exact H1. }
  intros [[x len] r1] H1. cbn [fst snd] in H1. destruct (res_eqb x r_success) eqn:E; cbn [negb]; [|cbn; intros; apply H1; assumption]. apply res_eqb_true in E. subst x. destruct (negb _).
  - destruct (_ <? _); [cbn; discriminate|]. destruct (reserve_loop _ _ _) as [a|]; [|exact I]. cbv zeta.
    destruct (_ <? _); [exact I|]. eapply asks_bind; [apply stop_read; apply H1|]. intros [[x2 b2] rw2] H2. cbn [fst snd] in H2.
    destruct (negb _); cbn; [intros; apply H2; assumption|discriminate].
  - cbv zeta. eapply asks_bind; [apply stop_tail; apply H1|]. intros [[[x2 t2] c2] rw2] H2. cbn [fst snd] in H2.
    destruct (negb _); [cbn; intros; apply H2; assumption|]. destruct t2; [|exact I]. destruct (_ =? _); [cbn; discriminate|]. apply IH. apply H2.
Qed.
Lemma asks_exec {A} (I : A -> Prop) {S} (hd : S -> query -> S * ans) p : asks all I p -> forall s s' a, exec hd s p = (s', Done a) -> I a.
Proof.
  induction p as [a|f|q k IH]; intros H s s' a1 E; cbn in *; [injection E as _ <-; exact H|discriminate|].
  destruct (hd s q) as [s1 b]. destruct H as [_ H]. eapply IH; eauto.
Qed.

Lemma asks_any {A} (p : io A) : asks all (fun _ => True) p.
Proof. induction p as [a|f|q k IH]; cbn; auto. split; [exact I|exact IH]. Qed.
Lemma asks_runs {A} (I : A -> Prop) p : asks all I p -> forall tr a, runs p tr (Done a) -> I a.
Proof.
  induction p as [a|f|q k IH]; intros H tr a1 R; inversion R; subst; [exact H|]. destruct H as [_ H]. eapply IH; eauto.
Qed.

(** ** One name *)
Lemma n_read d fuel inp ds e rest r h : parse DEFAULT_MAX inp ds e rest -> reading DEFAULT_MAX r -> (length inp < fuel)%nat ->
  same_ops (file_reader_rdwr h) (r_rdwr r) ->
  match ds with
  | d0 :: ds' => exists r' inp', exec file_ops (file_src d true inp) (reader_read fuel r) = (file_src d true inp', Done (r_success, Some d0, r')) /\
      parse DEFAULT_MAX inp' ds' e rest /\ (length inp' < length inp)%nat /\ reading DEFAULT_MAX r' /\ same_r r r'
  | [] => exists f' r', exec file_ops (file_src d true inp) (reader_read fuel r) = (f', Done (ending_result r_stop e, None, r')) /\
      f_data f' = d /\ f_write f' = false /\ (r_state r' = rs_failed \/ r_state r' = rs_closing) /\ same_r r r' /\
      (closing e -> f_fp f' = None \/ r_state r' = rs_closing /\ rw_opened (r_rdwr r') = true)
  end.
Proof.
  intros P R L So. pose proof (f_next d _ _ _ _ r fuel P R L) as N. unfold next_result in N.
  rewrite read_opened by apply R. destruct ds; [|exact N].
  destruct N as (r' & E & En & Sm). eexists _, r'. split; [exact E|]. split; [reflexivity|]. split; [reflexivity|].
  split; [exact (ended_dead _ _ En)|]. split; [exact Sm|]. intros [-> | ->]; cbn [ended ending_result] in *.
  - right. destruct En as (E1 & _ & E2). split; [exact E1|apply E2].
  - left. assert (C : rw_has_close (r_rdwr r) = true) by apply R.
    pose proof (asks_exec _ file_ops _ (stop_next fuel r C) _ _ _ E) as K. cbn [fst snd] in K. rewrite (K eq_refl En). reflexivity.
Qed.

Lemma n_destroy h f r : same_ops (file_reader_rdwr h) (r_rdwr r) -> f_write f = false ->
  exists f' x, exec file_ops f (reader_destroy r) = (f', Done x) /\
    (f_fp f = None \/ (r_state r = rs_opened \/ r_state r = rs_closing) /\ rw_opened (r_rdwr r) = true -> f_fp f' = None).
Proof.
  intros So Fw. destruct (f_destroy h f r So Fw) as (f' & x & E & _). exists f', x. split; [exact E|].
  destruct So as [b Eb]. unfold reader_destroy, reader_close in E. cbn [set_rstate r_rdwr] in E. rewrite Eb in E |- *.
  destruct f as [fw fd fp]. cbn [f_write] in Fw. subst fw. cbn [f_fp].
  destruct (r_state r) eqn:St, b, fp as [rs|]; cbn in E; rewrite ?Eb in E; cbn in E; injection E as <- _; cbn; intros [H|[[H|H] H2]]; congruence.
Qed.

(** Afterwards: a regular file leaves stdin alone. *)
Definition after_name (s0 : option std) (shut : Prop) (s : std) : Prop :=
  match s0 with
  | Some s0 => s = s0
  | None => shut -> sd_shut s = true
  end.

Lemma tied_after s0 s o f (shut : Prop) : tied s0 s o f -> (shut -> f_fp f = None) -> after_name s0 shut s.
Proof.
  destruct o as [g|fp], s0 as [s0|]; cbn; try tauto. intros (_ & F & Sh) H K. specialize (H K). rewrite Sh. destruct fp; [congruence|reflexivity].
Qed.


Lemma wat0_names {A} (I : A -> Prop) (os : list nobj) p : asks (on 0) I p -> asks (outside 1 (length os)) I p.
Proof. apply asks_weaken. intro q. apply on_outside. lia. Qed.

Lemma names_copies {B C} (S : std * list nobj * B -> C -> Prop) d e rest (pre post : list nobj) s0 k q : forall fuel rfuel inp ds r w (k' : writer -> io C) s o,
  let h := (1 + length pre)%nat in
  parse DEFAULT_MAX inp ds e rest -> e <> E_oversize -> reading DEFAULT_MAX r -> same_ops (file_reader_rdwr h) (r_rdwr r) -> wat 0 w ->
  (length inp < fuel)%nat -> (length inp < rfuel)%nat -> tied s0 s o (file_src d true inp) ->
  (forall s1 o1, sim S (on_names 1 s1 (pre ++ o1 :: post) (k None)) q) ->
  (forall s1 o1 f1 r1 w1, tied s0 s1 o1 f1 -> f_write f1 = false -> same_ops (file_reader_rdwr h) (r_rdwr r1) -> wat 0 w1 ->
     (closing e -> f_fp f1 = None \/ r_state r1 = rs_closing /\ rw_opened (r_rdwr r1) = true) ->
     sim S (on_names 1 s1 (pre ++ o1 :: post) (k (Some (r1, w1)))) (k' w1)) ->
  sim S (on_names 1 s (pre ++ o :: post) (bind (replay_loop fuel rfuel r w) k)) (each w ds k' q).
Proof.
  induction fuel as [|fuel IH]; intros rfuel inp ds r w k' s o h P NO R So W L1 L2 T KN K; [lia|].
  cbn [replay_loop]. apply names_assoc.
  pose proof (n_read d rfuel inp ds e rest r h P R L2 So) as N.
  assert (Qr : quiet (reader_read rfuel r)) by apply quiet_rread, R.
  destruct ds as [|d0 ds].
  - destruct N as (f' & r' & E & D & Fw & St & Sm & Cl). pose proof (same_file _ _ _ So Sm) as So'.
    match goal with |- sim _ (on_names _ _ _ (bind _ ?kk)) _ =>
      destruct (mid_names kk _ _ pre post s0 s o _ _ _ (asks_rread _ rfuel r (rat_ops _ _ So)) Qr E T) as (s1 & o1 & EN & T1) end.
    rewrite EN. unfold each. cbn [write_each bind].
    assert (G : reader_get_control r' FSTRM_CONTROL_STOP = Ret (r_success, Some (r_stop_c r'), r')).
    { unfold reader_get_control, reader_maybe_open. destruct St as [St|St]; rewrite St; reflexivity. }
    destruct e; cbn [ending_result] in *; try congruence; rewrite ?G; cbn [bind]; eapply K; eauto.
  - destruct N as (r' & inp' & E & P' & L' & R' & Sm). pose proof (same_file _ _ _ So Sm) as So'.
    match goal with |- sim _ (on_names _ _ _ (bind _ ?kk)) _ =>
      destruct (mid_names kk _ _ pre post s0 s o _ _ _ (asks_rread _ rfuel r (rat_ops _ _ So)) Qr E T) as (s1 & o1 & EN & T1) end.
    rewrite EN. cbv zeta.
    eapply sim_r; [apply sim_sym, each_cons|]. apply names_assoc.
    apply names_local with (J := fun z => wat 0 (snd z)); [apply wat0_names, asks_writev; exact W|].
    intros [x w1] W1. cbn [snd] in W1. destruct (negb (res_eqb x r_success)); [cbn [bind]; apply KN|].
    apply IH with (r := r') (inp := inp'); auto; lia.
Qed.

Lemma names_destroy {B C} (S : std * list nobj * B -> C -> Prop) s0 s pre o f post r (k : res -> io B) q :
  same_ops (file_reader_rdwr (1 + length pre)) (r_rdwr r) -> f_write f = false -> tied s0 s o f ->
  (forall s' o' f' x, tied s0 s' o' f' ->
    (f_fp f = None \/ (r_state r = rs_opened \/ r_state r = rs_closing) /\ rw_opened (r_rdwr r) = true -> f_fp f' = None) ->
    sim S (on_names 1 s' (pre ++ o' :: post) (k x)) q) ->
  sim S (on_names 1 s (pre ++ o :: post) (bind (reader_destroy r) k)) q.
Proof.
  intros So Fw T K. destruct (n_destroy _ f r So Fw) as (f' & x & E & Cl).
  assert (Qd : quiet (reader_destroy r)) by (apply quiet_destroy; destruct So as [b ->]; reflexivity).
  destruct (mid_names k _ _ pre post s0 s o _ _ _ (asks_rdestroy _ r (rat_ops _ _ So)) Qd E T) as (s1 & o1 & EN & T1).
  rewrite EN. eapply K; eauto.
Qed.

Lemma names_file {B C} (S : std * list nobj * B -> C -> Prop) ct d ds pre post s0 s o fuel w k (k' : writer -> io C) q :
  offers ct d ds -> (length d <= fuel)%nat -> wat 0 w -> fresh s0 s o (input d) ->
  (forall s1 o1, sim S (on_names 1 s1 (pre ++ o1 :: post) (k None)) q) ->
  (forall s1 o1 w1, after_name s0 (ends_shut ct d) s1 -> wat 0 w1 -> sim S (on_names 1 s1 (pre ++ o1 :: post) (k (Some w1))) (k' w1)) ->
  sim S (on_names 1 s (pre ++ o :: post) (bind (process_file fuel ct (1 + length pre) w) k)) (each w ds k' q).
Proof.
  intros O L W T KN K. unfold process_file.
  destruct (reader_init reader_options_default (file_reader_rdwr (1 + length pre))) as [r|] eqn:EI; [|discriminate].
  assert (R0 : rat (1 + length pre) r) by (injection EI as <-; reflexivity).
  pose proof (opens1_get _ r FSTRM_CONTROL_START EI) as Op.
  apply names_assoc. destruct O as [d st ds e F A NO|d st ds e F A|d NS].
  - pose proof F as (Ks & inp & rest & E & P). destruct (f_get d _ st inp r E Ks EI) as (r1 & X & R & So).
    assert (Li : (length inp < fuel)%nat) by (pose proof (length_start st inp); subst d; lia).
    match goal with |- sim _ (on_names _ _ _ (bind _ ?kk)) _ =>
      destruct (mid_opens kk _ _ pre post s0 s o _ _ _ (asks_rget _ r _ R0) Op X T) as (s1 & o1 & EN & T1) end.
    rewrite EN. cbn [res_eqb negb].
    rewrite (proj2 (match_accepted ct st Ks) A). cbn [negb]. apply names_assoc.
    apply names_copies with (d := d) (e := e) (rest := rest) (s0 := s0) (inp := inp); auto; try (rewrite (rat_ops _ _ So) in *; assumption).
    intros s2 o2 f2 r2 w1 T2 F2 So2 W1 Cl. apply names_assoc. eapply names_destroy; eauto. intros s3 o3 f3 x T3 Cl3. cbn [bind]. apply K; [|exact W1].
    eapply tied_after; [exact T3|]. intro Sh. apply Cl3. assert (Ce : closing e).
    { inversion Sh as [d' st' ds' e' F' A' C' Ed|d' st' ds' e' F' A' Ed]; subst d';
      destruct (stream_det _ _ _ _ _ _ _ F F') as (-> & -> & ->); [exact C'|contradiction]. }
    destruct (Cl Ce) as [H|[H1 H2]]; auto.
  - pose proof F as (Ks & inp & rest & E & P). destruct (f_get d _ st inp r E Ks EI) as (r1 & X & R & So).
    match goal with |- sim _ (on_names _ _ _ (bind _ ?kk)) _ =>
      destruct (mid_opens kk _ _ pre post s0 s o _ _ _ (asks_rget _ r _ R0) Op X T) as (s1 & o1 & EN & T1) end.
    rewrite EN. cbn [res_eqb negb].
    destruct (res_eqb (control_match _ _) _) eqn:EM; [apply match_accepted in EM; [contradiction|assumption]|]. cbn [negb].
    apply names_assoc. eapply names_destroy; [exact So| |exact T1|]; [reflexivity|]. intros s3 o3 f3 x T3 Cl3. cbn [bind]. unfold each. cbn [write_each bind].
    apply K; [|exact W]. eapply tied_after; [exact T3|]. intros _. apply Cl3. right. split; [left; apply R|apply R].
  - destruct (f_get_bad d _ r NS EI) as (x & f' & r' & E & NE & D & Fw & So).
    match goal with |- sim _ (on_names _ _ _ (bind _ ?kk)) _ =>
      destruct (mid_opens kk _ _ pre post s0 s o _ _ _ (asks_rget _ r _ R0) Op E T) as (s1 & o1 & EN & T1) end.
    rewrite EN. destruct (res_eqb x r_success) eqn:EX; [apply res_eqb_true in EX; contradiction|]. cbn [negb].
    apply names_assoc. eapply names_destroy; [exact So|exact Fw|exact T1|]. intros s3 o3 f3 y T3 Cl3. cbn [bind]. unfold each. cbn [write_each bind].
    apply K; [|exact W]. eapply tied_after; [exact T3|]. intro Sh. exfalso.
    inversion Sh as [d' st' ds' e' F' A' C' Ed|d' st' ds' e' F' A' Ed]; subst d'; destruct F' as (Ks & inp & rest & E' & _); exact (NS _ _ Ks E').
Qed.

(** ** All names *)
Lemma app_one {A} (pre : list A) x post : pre ++ x :: post = (pre ++ [x]) ++ post.
Proof. rewrite <- app_assoc. reflexivity. Qed.
Lemma len_one {A} (pre : list A) x : (Datatypes.S (1 + length pre) = 1 + length (pre ++ [x]))%nat.
Proof. rewrite app_length. cbn. lia. Qed.

(** At most one "-", and none once stdin has been used. *)
Lemma names_once {B C} (S : std * list nobj * B -> C -> Prop) ct d fuel k q names dss :
  Forall2 (fun n ds => offers ct (means d n) ds /\ (length (means d n) <= fuel)%nat) names dss ->
  forall pre s w (k' : writer -> io C), wat 0 w ->
  (s = mk_std d false /\ ~ twice names) \/ ~ In None names ->
  (forall s os, sim S (on_names 1 s os (k None)) q) ->
  (forall s os w1, wat 0 w1 -> sim S (on_names 1 s os (k (Some w1))) (k' w1)) ->
  sim S (on_names 1 s (pre ++ map named names) (bind (process_files fuel ct (1 + length pre) (length names) w) k)) (each w (concat dss) k' q).
Proof.
  induction 1 as [|n ds names dss [O L] _ IH]; intros pre s w k' W Un KN K.
  - cbn [length process_files map concat bind]. unfold each. cbn [write_each bind]. apply K; auto.
  - cbn [length process_files map concat]. apply names_assoc. eapply sim_r; [apply each_app|].
    assert (NEXT : forall s1 o1 w1, wat 0 w1 -> (s1 = mk_std d false /\ ~ twice names) \/ ~ In None names ->
      sim S (on_names 1 s1 (pre ++ o1 :: map named names) (bind (process_files fuel ct (Datatypes.S (1 + length pre)) (length names) w1) k)) (each w1 (concat dss) k' q)).
    { intros s1 o1 w1 W1 U1. rewrite app_one, (len_one pre o1). apply IH; auto. }
    destruct n as [c|]; cbn [means named] in *.
    + apply names_file with (d := c) (s0 := Some s); auto; [cbn; auto|]. intros s1 o1 w1 A W1. cbn [after_name] in A. subst s1. apply NEXT; auto.
      destruct Un as [[Es Un]|Un]; [left; split; [exact Es|]|right; intro H; apply Un; right; exact H].
      intros (a & b & c' & E). apply Un. exists (Some c :: a), b, c'. rewrite E. reflexivity.
    + destruct Un as [[-> Un]|Un]; [|exfalso; apply Un; left; reflexivity].
      apply names_file with (d := d) (s0 := None); auto; [cbn; auto|]. intros s1 o1 w1 _ W1. apply NEXT; auto.
      right. intro H. apply in_split in H as (a & b & E). apply Un. exists [], a, b. rewrite E. reflexivity.
Qed.

(** Opening "-" once stdin has been closed. *)
Lemma names_shut {B} pre post s fuel ct w (k : option writer -> io B) : sd_shut s = true ->
  on_names 1 s (pre ++ NDash false :: post) (bind (process_file fuel ct (1 + length pre) w) k) = Fail (FUb ub_uaf).
Proof.
  intro Sh. unfold process_file. destruct (reader_init reader_options_default (file_reader_rdwr (1 + length pre))) as [r|] eqn:EI; [|discriminate].
  injection EI as <-. unfold reader_get_control, reader_maybe_open, reader_open. cbn [r_state].
  cbn [rdwr_open r_rdwr file_reader_rdwr rw_has_open rw_h negb ask_res bind on_names].
  match goal with |- context [file_index 1 ?n ?q] => rewrite (file_index_in 1 n (length pre) q eq_refl ltac:(rewrite app_length; cbn; lia)) end.
  rewrite app_nth2 by lia. rewrite Nat.sub_diag. cbn [nth name_ops dash_ops]. rewrite Sh. reflexivity.
Qed.

Lemma names_to_dash {B C} (S : std * list nobj * B -> C -> Prop) ct d fuel k q names c dss :
  Forall2 (fun n ds => offers ct (means d n) ds /\ (length (means d n) <= fuel)%nat) names dss ->
  forall pre s w, wat 0 w -> sd_shut s = true -> ~ In None names ->
  (forall s os, sim S (on_names 1 s os (k None)) q) ->
  sim S (on_names 1 s (pre ++ map named (names ++ None :: c)) (bind (process_files fuel ct (1 + length pre) (length (names ++ None :: c)) w) k))
    (each w (concat dss) (fun _ => Fail (FUb ub_uaf)) q).
Proof.
  induction 1 as [|n ds names dss [O L] _ IH]; intros pre s w W Sh Un KN.
  - cbn [app length process_files map concat bind named]. unfold each. cbn [write_each bind]. apply names_assoc. rewrite names_shut by exact Sh. constructor.
  - cbn [app length process_files map concat]. apply names_assoc. eapply sim_r; [apply each_app|].
    destruct n as [c0|]; [|exfalso; apply Un; left; reflexivity]. cbn [means named] in *.
    apply names_file with (d := c0) (s0 := Some s); auto; [cbn; auto|]. intros s1 o1 w1 A W1. cbn [after_name] in A. subst s1.
    rewrite app_one, (len_one pre o1). apply IH; auto. intro H. apply Un. right. exact H.
Qed.

Lemma names_twice {B C} (S : std * list nobj * B -> C -> Prop) ct d fuel k q a b c ass ds0 bss :
  Forall2 (fun n ds => offers ct (means d n) ds /\ (length (means d n) <= fuel)%nat) a ass ->
  offers ct d ds0 -> ends_shut ct d -> (length d <= fuel)%nat ->
  Forall2 (fun n ds => offers ct (means d n) ds /\ (length (means d n) <= fuel)%nat) b bss ->
  ~ In None a -> ~ In None b ->
  forall pre w, wat 0 w ->
  (forall s os, sim S (on_names 1 s os (k None)) q) ->
  sim S (on_names 1 (mk_std d false) (pre ++ map named (a ++ None :: b ++ None :: c))
    (bind (process_files fuel ct (1 + length pre) (length (a ++ None :: b ++ None :: c)) w) k))
    (each w (concat (ass ++ ds0 :: bss)) (fun _ => Fail (FUb ub_uaf)) q).
Proof.
  intros FA O Es L FB. induction FA as [|n ds a ass [O1 L1] _ IH]; intros Na Nb pre w W KN.
  - cbn [app length process_files map concat named]. apply names_assoc. eapply sim_r; [apply each_app|].
    apply names_file with (d := d) (s0 := None); auto; [cbn; auto|]. intros s1 o1 w1 A W1. cbn [after_name] in A.
    rewrite app_one, (len_one pre o1). eapply names_to_dash; eauto.
  - cbn [app length process_files map concat]. apply names_assoc. eapply sim_r; [apply each_app|].
    destruct n as [c0|]; [|exfalso; apply Na; left; reflexivity]. cbn [means named] in *.
    apply names_file with (d := c0) (s0 := Some (mk_std d false)); auto; [cbn; auto|]. intros s1 o1 w1 A W1. cbn [after_name] in A. subst s1.
    rewrite app_one, (len_one pre o1). apply IH; auto. intro H. apply Na. right. exact H.
Qed.

(** ** The program *)
Lemma replay_names_once ct d names dss fuel iovm w :
  Forall2 (fun n ds => offers ct (means d n) ds /\ (length (means d n) <= fuel)%nat) names dss -> ~ twice names -> lenN ct <= CT_MAX ->
  writer_init iovm [ct] (socket_rdwr 0) = Some w ->
  sim (fun x y => snd x = y)
    (on_names 1 (mk_std d false) (map named names) (replay_main fuel iovm ct (length names))) (hasty_copy w (concat dss)).
Proof.
  intros O Un Lc Hw. unfold replay_main, init_writer.
  unfold writer_options_add_content_type. unfold CT_MAX, FSTRM_CONTROL_FIELD_CONTENT_TYPE_LENGTH_MAX in *.
  destruct (256 <? lenN ct) eqn:E1; [lia|]. cbn [app]. rewrite Hw.
  eapply sim_r; [apply sim_sym, hasty_each|]. apply names_assoc.
  assert (W : wat 0 w) by (injection Hw as <-; reflexivity).
  apply names_local with (J := fun z => wat 0 (snd z)); [apply wat0_names, asks_wopen; exact W|].
  intros [x w1] W1. cbn [snd] in W1. destruct (negb (res_eqb x r_success)).
  - apply names_assoc. apply names_local with (J := fun _ => True); [apply wat0_names, asks_wdestroy, W1|]. intros z _. cbn [bind on_names].
    constructor. reflexivity.
  - cbn [bind]. apply (names_once _ ct d fuel _ _ names dss O [] (mk_std d false)); auto.
    + intros s os. cbn [on_names]. constructor. reflexivity.
    + intros s os w2 W2. apply names_local with (J := fun z => wat 0 (snd z)); [apply wat0_names, asks_wclose, W2|].
      intros [x2 w3] W3. cbn [snd] in W3.
      apply names_local with (J := fun _ => True); [apply wat0_names, asks_wdestroy, W3|]. intros z _. cbn [on_names]. constructor. reflexivity.
Qed.

Lemma replay_names_twice ct d a b c ass ds0 bss fuel iovm w :
  Forall2 (fun n ds => offers ct (means d n) ds /\ (length (means d n) <= fuel)%nat) a ass ->
  offers ct d ds0 -> ends_shut ct d -> (length d <= fuel)%nat ->
  Forall2 (fun n ds => offers ct (means d n) ds /\ (length (means d n) <= fuel)%nat) b bss ->
  ~ In None a -> ~ In None b -> lenN ct <= CT_MAX ->
  writer_init iovm [ct] (socket_rdwr 0) = Some w ->
  let names := a ++ None :: b ++ None :: c in
  sim (fun x y => snd x = y)
    (on_names 1 (mk_std d false) (map named names) (replay_main fuel iovm ct (length names)))
    (hasty_then_ub w (concat (ass ++ ds0 :: bss))).
Proof.
  intros FA O Es L FB Na Nb Lc Hw names. unfold replay_main, init_writer.
  unfold writer_options_add_content_type. unfold CT_MAX, FSTRM_CONTROL_FIELD_CONTENT_TYPE_LENGTH_MAX in *.
  destruct (256 <? lenN ct) eqn:E1; [lia|]. cbn [app]. rewrite Hw. apply names_assoc. unfold hasty_then_ub.
  assert (W : wat 0 w) by (injection Hw as <-; reflexivity).
  apply names_local with (J := fun z => wat 0 (snd z)); [apply wat0_names, asks_wopen; exact W|].
  intros [x w1] W1. cbn [snd] in W1. destruct (negb (res_eqb x r_success)).
  - apply names_assoc. apply names_local with (J := fun _ => True); [apply wat0_names, asks_wdestroy, W1|]. intros z _. cbn [bind on_names].
    constructor. reflexivity.
  - cbn [bind]. eapply sim_r; [|apply (names_twice _ ct d fuel _ (Ret false) a b c ass ds0 bss FA O Es L FB Na Nb [] w1 W1)].
    + unfold each. apply bind_ext. intros [[n ok] w2]. destruct ok; reflexivity.
    + intros s os. cbn [on_names]. constructor. reflexivity.
Qed.

Lemma names_never ct d a b c ass ds0 bss fuel iovm w tr x :
  Forall2 (fun n ds => offers ct (means d n) ds /\ (length (means d n) <= fuel)%nat) a ass ->
  offers ct d ds0 -> ends_shut ct d -> (length d <= fuel)%nat ->
  Forall2 (fun n ds => offers ct (means d n) ds /\ (length (means d n) <= fuel)%nat) b bss ->
  ~ In None a -> ~ In None b -> lenN ct <= CT_MAX -> writer_init iovm [ct] (socket_rdwr 0) = Some w ->
  let names := a ++ None :: b ++ None :: c in
  runs (on_names 1 (mk_std d false) (map named names) (replay_main fuel iovm ct (length names))) tr (Done (x, true)) -> False.
Proof.
  intros FA O Es L FB Na Nb Lc Hw names R.
  destruct (sim_runs _ _ _ (replay_names_twice ct d a b c ass ds0 bss fuel iovm w FA O Es L FB Na Nb Lc Hw) _ _ R) as (o' & R' & M).
  destruct o' as [y| |]; try contradiction. cbn in M. subst y.
  assert (G : asks all (fun y => y = false) (hasty_then_ub w (concat (ass ++ ds0 :: bss)))).
  { unfold hasty_then_ub. apply asks_bind with (I := fun _ => True); [apply asks_any|]. intros [y w1] _. destruct (negb _).
    - apply asks_bind with (I := fun _ => True); [apply asks_any|]. intros z _. reflexivity.
    - apply asks_bind with (I := fun _ => True); [apply asks_any|]. intros [[n ok] w2] _. destruct (negb ok); [reflexivity|exact I]. }
  pose proof (asks_runs _ _ G _ _ R') as X. discriminate X.
Qed.

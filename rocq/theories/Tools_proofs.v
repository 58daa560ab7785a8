(** Which transport a reader or writer uses; programs on files. *)
From Verif Require Import Bytes Spec Bytes_proofs Io Io_proofs SpecTrace SpecStream
  Control Control_proofs Rdwr Rdwr_proofs Reader Writer Api SpecApi SpecReader SpecFile File
  Misc Tools SpecTools Writer_proofs Writer2_proofs Reader_source_proofs Reader_proofs Reader3_proofs File_proofs.
Ltac Zify.zify_post_hook ::= Z.div_mod_to_equations.
Local Open Scope N_scope.

(** ** Programs that only use some transports *)
Fixpoint asks {A} (P : query -> Prop) (R : A -> Prop) (p : io A) : Prop :=
  match p with
  | Ret a => R a
  | Fail _ => True
  | Vis q k => P q /\ forall a, asks P R (k a)
  end.

Lemma asks_bind {A B} P (I : A -> Prop) (J : B -> Prop) p k :
  asks P I p -> (forall a, I a -> asks P J (k a)) -> asks P J (bind p k).
Proof. intros H K. induction p as [a|f|q k0 IH]; cbn in *; auto. destruct H as [H1 H2]. split; auto. Qed.

Lemma asks_mono {A} P (I J : A -> Prop) p : (forall a, I a -> J a) -> asks P I p -> asks P J p.
Proof. intros H. induction p as [a|f|q k0 IH]; cbn in *; auto. intros [H1 H2]. split; auto. Qed.

Lemma asks_weaken {A} (P Q : query -> Prop) (I : A -> Prop) p : (forall q, P q -> Q q) -> asks P I p -> asks Q I p.
Proof. intros H. induction p as [a|f|q k0 IH]; cbn in *; auto. intros [H1 H2]. split; auto. Qed.

Definition on (h : nat) (q : query) : Prop := handle q = Some h.
Definition rwat (h : nat) (rw : rdwr) : Prop := rw_h rw = h.
Definition rat (h : nat) (r : reader) : Prop := rw_h (r_rdwr r) = h.
Definition wat (h : nat) (w : writer) : Prop := rw_h (w_rdwr w) = h.

Lemma asks_lift {A} P (x : outc A) : asks P (fun _ => True) (lift x).
Proof. destruct x; exact I. Qed.

Lemma asks_close h rw : rwat h rw -> asks (on h) (fun z => rwat h (snd z)) (rdwr_close rw).
Proof.
  intro H. unfold rdwr_close. destruct (negb _); [exact H|]. destruct (rw_opened rw); [|exact H].
  cbn. split; [unfold on; cbn; congruence|]. intros []; cbn; auto.
Qed.
Lemma asks_open h rw : rwat h rw -> asks (on h) (fun z => rwat h (snd z)) (rdwr_open rw).
Proof.
  intro H. unfold rdwr_open. destruct (negb _); [exact H|].
  cbn. split; [unfold on; cbn; congruence|]. intros []; cbn; auto. destruct (res_eqb _ _); exact H.
Qed.
Lemma asks_destroy h rw : rwat h rw -> asks (on h) (fun _ => True) (rdwr_destroy rw).
Proof.
  intro H. unfold rdwr_destroy. destruct (rw_has_destroy rw); [|exact I].
  cbn. split; [unfold on; cbn; congruence|]. intros []; cbn; auto.
Qed.
Lemma asks_read h rw n : rwat h rw -> asks (on h) (fun z => rwat h (snd z)) (rdwr_read rw n).
Proof.
  intro H. unfold rdwr_read. destruct (negb _); [exact H|]. destruct (negb _); [exact H|].
  cbn. split; [unfold on; cbn; congruence|]. intros []; cbn; auto. destruct (negb _); [|exact H].
  eapply asks_bind; [apply asks_close; exact H|]. intros [? ?]; auto.
Qed.
Lemma asks_write h rw iov : rwat h rw -> asks (on h) (fun z => rwat h (snd z)) (rdwr_write rw iov).
Proof.
  intro H. unfold rdwr_write. destruct (negb _); [exact H|]. destruct (negb _); [exact H|].
  cbn. split; [unfold on; cbn; congruence|]. intros []; cbn; auto. destruct (negb _); [|exact H].
  eapply asks_bind; [apply asks_close; exact H|]. intros [? ?]; auto.
Qed.

Lemma asks_tail h rw c : rwat h rw -> asks (on h) (fun z => rwat h (snd z)) (read_control_frame_tail rw c).
Proof.
  intro H. unfold read_control_frame_tail.
  eapply asks_bind; [apply asks_read; exact H|]. intros [[x b] rw1] H1. cbn [snd] in H1.
  destruct (negb _); [exact H1|]. destruct (_ <? _); [exact H1|].
  apply asks_bind with (I := fun _ => True).
  { destruct (_ =? _); [|exact I]. cbn. split; [unfold on; cbn; congruence|]. intros []; exact I. }
  intros _ _. eapply asks_bind; [apply asks_read; exact H1|]. intros [[x2 b2] rw2] H2. cbn [snd] in H2.
  destruct (negb _); [exact H2|]. eapply asks_bind; [apply asks_lift|]. intros [x3 c3] _.
  destruct (negb _); [exact H2|]. destruct (control_get_type c3) as [[] ?]; exact H2.
Qed.
Lemma asks_frame h rw c b : rwat h rw -> asks (on h) (fun z => rwat h (snd z)) (read_control_frame rw c b).
Proof.
  intro H. unfold read_control_frame. destruct b; [|apply asks_tail; exact H].
  eapply asks_bind; [apply asks_read; exact H|]. intros [[x b] rw1] H1. cbn [snd] in H1.
  destruct (negb _); [exact H1|]. destruct (negb _); [exact H1|]. apply asks_tail; exact H1.
Qed.
Lemma asks_control h rw oc t : rwat h rw -> asks (on h) (fun z => rwat h (snd z)) (read_control rw oc t).
Proof.
  intro H. unfold read_control. eapply asks_bind; [apply asks_frame; exact H|].
  intros [[[x t'] c'] rw1] H1. cbn [snd] in H1. destruct (negb _); [exact H1|]. destruct t'; [|exact I].
  destruct (negb _); exact H1.
Qed.
Lemma asks_wcf h rw c : rwat h rw -> asks (on h) (fun z => rwat h (snd z)) (write_control_frame rw c).
Proof.
  intro H. unfold write_control_frame. destruct (control_encoded_size c 1) as [[] [n|]]; try exact H; try exact I.
  eapply asks_bind; [apply asks_lift|]. intros [[x m] l] _. destruct (negb _); [exact H|]. apply asks_write; exact H.
Qed.
Lemma asks_wc h rw t ct : rwat h rw -> asks (on h) (fun z => rwat h (snd z)) (write_control rw t ct).
Proof.
  intro H. unfold write_control. destruct (control_set_type control_init t) as [[] c]; try exact H. apply asks_wcf; exact H.
Qed.

(** Readers. *)
Lemma asks_ruo h r : rat h r -> asks (on h) (fun z => rat h (snd z)) (reader_open_unidirectional r).
Proof.
  intro H. unfold reader_open_unidirectional. eapply asks_bind; [apply asks_control; exact H|].
  intros [[x c] rw] H1. cbn [snd] in H1. cbv zeta. destruct (negb _); [exact H1|]. destruct c; [|exact I].
  destruct (negb _); exact H1.
Qed.
Lemma asks_rbo h r : rat h r -> asks (on h) (fun z => rat h (snd z)) (reader_open_bidirectional r).
Proof.
  intro H. unfold reader_open_bidirectional. eapply asks_bind; [apply asks_control; exact H|].
  intros [[x c] rw] H1. cbn [snd] in H1. cbv zeta. destruct (negb _); [exact H1|]. destruct c; [|exact I].
  match goal with |- asks _ _ (match ?s with _ => _ end) => destruct s as [[] acc1] end; try exact H1.
  eapply asks_bind; [apply asks_wcf; exact H1|]. intros [x2 rw2] H2. cbn [snd] in H2.
  destruct (negb _); [exact H2|]. apply asks_ruo. exact H2.
Qed.
Lemma asks_ropen h r : rat h r -> asks (on h) (fun z => rat h (snd z)) (reader_open r).
Proof.
  intro H. unfold reader_open.
  assert (G : asks (on h) (fun z => rat h (snd z)) (bind (rdwr_open (r_rdwr r)) (fun z => match z with (x, rw) =>
      let r := set_rrdwr r rw in
      if negb (res_eqb x r_success) then Ret (x, r)
      else bind (if rw_has_write (r_rdwr r) then reader_open_bidirectional r
                     else reader_open_unidirectional r) (fun z => match z with (x, r) =>
        if negb (res_eqb x r_success) then Ret (x, r)
        else Ret (r_success, set_rstate r rs_opened) end) end))).
  { eapply asks_bind; [apply asks_open; exact H|]. intros [x rw] H1. cbn [snd] in H1. cbv zeta. destruct (negb _); [exact H1|].
    apply asks_bind with (I := fun z => rat h (snd z)).
    - destruct (rw_has_write _); [apply asks_rbo|apply asks_ruo]; exact H1.
    - intros [x2 r2] H2. cbn [snd] in H2. destruct (negb _); exact H2. }
  destruct (r_state r); try exact G. exact H.
Qed.
Lemma asks_rbe h r : rat h r -> asks (on h) (fun z => rat h (snd z)) (reader_read_be32 r).
Proof.
  intro H. unfold reader_read_be32. eapply asks_bind; [apply asks_read; exact H|]. intros [[x b] rw] H1. exact H1.
Qed.
Lemma asks_next h fuel : forall r, rat h r -> asks (on h) (fun z => rat h (snd z)) (reader_next_data fuel r).
Proof.
  induction fuel as [|fuel IH]; intros r H; cbn [reader_next_data]; [exact I|].
  eapply asks_bind; [apply asks_rbe; exact H|]. intros [[x len] r1] H1. cbn [snd] in H1.
  destruct (negb _); [exact H1|]. destruct (negb _).
  - destruct (_ <? _); [exact H1|]. destruct (reserve_loop _ _ _) as [a|]; [|exact I]. cbv zeta.
    destruct (_ <? _); [exact I|]. eapply asks_bind; [apply asks_read; exact H1|]. intros [[x2 b2] rw2] H2. cbn [snd] in H2.
    destruct (negb _); exact H2.
  - cbv zeta. eapply asks_bind; [apply asks_frame; exact H1|]. intros [[[x2 t2] c2] rw2] H2. cbn [snd] in H2.
    destruct (negb _); [exact H2|]. destruct t2; [|exact I]. destruct (_ =? _); [exact H2|]. apply IH. exact H2.
Qed.
Lemma asks_rmo h r : rat h r -> asks (on h) (fun z => rat h (snd z)) (reader_maybe_open r).
Proof.
  intro H. unfold reader_maybe_open. destruct (r_state r); try exact H.
  eapply asks_bind; [apply asks_ropen; exact H|]. intros [x r1] H1. destruct (negb _); exact H1.
Qed.
Lemma asks_rread h fuel r : rat h r -> asks (on h) (fun z => rat h (snd z)) (reader_read fuel r).
Proof.
  intro H. unfold reader_read. eapply asks_bind; [apply asks_rmo; exact H|]. intros [x r1] H1. cbn [snd] in H1.
  destruct (negb _); [exact H1|]. destruct (r_state r1); try exact H1. apply asks_next. exact H1.
Qed.
Lemma asks_rget h r t : rat h r -> asks (on h) (fun z => rat h (snd z)) (reader_get_control r t).
Proof.
  intro H. unfold reader_get_control. eapply asks_bind; [apply asks_rmo; exact H|]. intros [x r1] H1. cbn [snd] in H1.
  destruct (negb _); [exact H1|]. repeat (destruct (_ =? _); [exact H1|]). exact H1.
Qed.
Lemma asks_rclose h r : rat h r -> asks (on h) (fun z => rat h (snd z)) (reader_close r).
Proof.
  intro H. unfold reader_close. cbv zeta.
  assert (G : forall (r0 : reader) rw, rwat h rw -> asks (on h) (fun z => rat h (snd z)) (bind (rdwr_close rw) (fun z => match z with (x, rw) => Ret (x, set_rrdwr r0 rw) end))).
  { intros r0 rw Hr. eapply asks_bind; [apply asks_close; exact Hr|]. intros [x rw1] H1. exact H1. }
  destruct (r_state r); try exact H; (destruct (rw_has_write _); [|apply G; exact H];
    eapply asks_bind; [apply asks_wc; exact H|]; intros [x rw1] H1; cbn [snd] in H1; destruct (negb _); [|apply G; exact H1];
    eapply asks_bind; [apply asks_close; exact H1|]; intros [x2 rw2] H2; exact H2).
Qed.
Lemma asks_rdestroy h r : rat h r -> asks (on h) (fun _ => True) (reader_destroy r).
Proof.
  intro H. unfold reader_destroy. apply asks_bind with (I := fun z => rat h (snd z)).
  - destruct (r_state r); try exact H; apply asks_rclose; exact H.
  - intros [x r1] H1. eapply asks_bind; [apply asks_destroy; exact H1|]. intros; exact I.
Qed.

(** Writers. *)
Lemma asks_sstart h w ct : wat h w -> asks (on h) (fun z => wat h (snd z)) (writer_send_start w ct).
Proof.
  intro H. unfold writer_send_start.
  match goal with |- asks _ _ (match ?s with _ => _ end) => destruct s as [[] c1] end; try exact H. cbv zeta.
  eapply asks_bind; [apply asks_wcf; exact H|]. intros [x rw] H1. cbn [snd] in H1. destruct (negb _); exact H1.
Qed.
Lemma asks_wob h w : wat h w -> asks (on h) (fun z => wat h (snd z)) (writer_open_bidirectional w).
Proof.
  intro H. unfold writer_open_bidirectional.
  match goal with |- asks _ _ (match ?s with _ => _ end) => destruct s as [[] c1] end; try exact H. cbv zeta.
  eapply asks_bind; [apply asks_wcf; exact H|]. intros [x rw] H1. cbn [snd] in H1. destruct (negb _); [exact H1|].
  eapply asks_bind; [apply asks_control; exact H1|]. intros [[x2 acc] rw2] H2. cbn [snd] in H2. destruct (negb _); [exact H2|].
  destruct acc; [|exact I]. destruct (accept_match_loop _ _ _) as [m ct]. destruct (negb m); [exact H2|]. apply asks_sstart. exact H2.
Qed.
Lemma asks_wopen h w : wat h w -> asks (on h) (fun z => wat h (snd z)) (writer_open w).
Proof.
  intro H. unfold writer_open.
  assert (G : asks (on h) (fun z => wat h (snd z)) (bind (rdwr_open (w_rdwr w)) (fun z => match z with (x, rw) =>
      let w := set_wrdwr w rw in
      if negb (res_eqb x r_success) then Ret (x, w)
      else bind (if rw_has_read (w_rdwr w) then writer_open_bidirectional w
                     else writer_open_unidirectional w) (fun z => match z with (x, w) =>
        if negb (res_eqb x r_success) then Ret (x, w)
        else Ret (r_success, set_wstate w ws_opened) end) end))).
  { eapply asks_bind; [apply asks_open; exact H|]. intros [x rw] H1. cbn [snd] in H1. cbv zeta. destruct (negb _); [exact H1|].
    apply asks_bind with (I := fun z => wat h (snd z)).
    - destruct (rw_has_read _); [apply asks_wob|apply asks_sstart]; exact H1.
    - intros [x2 w2] H2. cbn [snd] in H2. destruct (negb _); exact H2. }
  destruct (w_state w); try exact G. exact H.
Qed.
Lemma asks_wmo h w : wat h w -> asks (on h) (fun z => wat h (snd z)) (writer_maybe_open w).
Proof.
  intro H. unfold writer_maybe_open. destruct (w_state w); try exact H.
  eapply asks_bind; [apply asks_wopen; exact H|]. intros [x w1] H1. destruct (negb _); exact H1.
Qed.
Lemma asks_wiov h w iov : wat h w -> asks (on h) (fun z => wat h (snd z)) (write_iov w iov).
Proof.
  intro H. unfold write_iov. destruct (_ <? _)%nat; [exact I|].
  eapply asks_bind; [apply asks_write; exact H|]. intros [x rw] H1. exact H1.
Qed.
Lemma asks_wloop h chunk fuel : forall w iov, wat h w -> asks (on h) (fun z => wat h (snd z)) (write_iov_stupid_loop fuel chunk w iov).
Proof.
  induction fuel as [|fuel IH]; intros w iov H; cbn; destruct iov; try exact H; try exact I.
  eapply asks_bind; [apply asks_wiov; exact H|]. intros [x w1] H1. cbn [snd] in H1. destruct (negb _); [exact H1|]. apply IH. exact H1.
Qed.
Lemma asks_writev h w iov : wat h w -> asks (on h) (fun z => wat h (snd z)) (writer_writev w iov).
Proof.
  intro H. unfold writer_writev. destruct iov; [exact H|].
  eapply asks_bind; [apply asks_wmo; exact H|]. intros [x w1] H1. cbn [snd] in H1. destruct (negb _); [exact H1|].
  destruct (w_state w1); try exact H1. destruct (_ <=? _); [exact I|]. destruct (_ <=? _)%nat; [apply asks_wiov; exact H1|].
  unfold write_iov_stupid. destruct (_ =? _)%nat; [exact I|]. apply asks_wloop. exact H1.
Qed.
Lemma asks_wclose h w : wat h w -> asks (on h) (fun z => wat h (snd z)) (writer_close w).
Proof.
  intro H. unfold writer_close. cbv zeta.
  assert (G : forall (w0 : writer) rw, rwat h rw -> asks (on h) (fun z => wat h (snd z)) (bind (rdwr_close rw) (fun z => match z with (x, rw) => Ret (x, set_wrdwr w0 rw) end))).
  { intros w0 rw Hr. eapply asks_bind; [apply asks_close; exact Hr|]. intros [x rw1] H1. exact H1. }
  assert (G2 : forall (w0 : writer) (y : res) rw, rwat h rw -> asks (on h) (fun z => wat h (snd z)) (bind (rdwr_close rw) (fun z => match z with (_, rw) => Ret (y, set_wrdwr w0 rw) end))).
  { intros w0 y rw Hr. eapply asks_bind; [apply asks_close; exact Hr|]. intros [x rw1] H1. exact H1. }
  destruct (w_state w); try exact H. eapply asks_bind; [apply asks_wc; exact H|]. intros [x rw1] H1. cbn [snd] in H1.
  destruct (negb _); [apply G2; exact H1|]. destruct (rw_has_read rw1); [|apply G; exact H1].
  eapply asks_bind; [apply asks_control; exact H1|]. intros [[x2 fin] rw2] H2. cbn [snd] in H2.
  destruct (negb _); [apply G2|apply G]; exact H2.
Qed.
Lemma asks_wdestroy h w : wat h w -> asks (on h) (fun _ => True) (writer_destroy w).
Proof.
  intro H. unfold writer_destroy. apply asks_bind with (I := fun z => wat h (snd z)).
  - destruct (w_state w); try exact H; apply asks_wclose; exact H.
  - intros [x w1] H1. eapply asks_bind; [apply asks_destroy; exact H1|]. intros; exact I.
Qed.

(** ** Programs on files *)
Lemma length_set_nth {A} (x : A) l : forall i, length (set_nth i x l) = length l.
Proof. induction l as [|y l IH]; intros [|i]; cbn; auto. Qed.
Lemma nth_set_nth {A} (x d : A) l : forall i, (i < length l)%nat -> nth i (set_nth i x l) d = x.
Proof. induction l as [|y l IH]; intros [|i] H; cbn in *; try lia; auto. apply IH. lia. Qed.
Lemma nth_set_nth_ne {A} (x d : A) l : forall i j, i <> j -> nth j (set_nth i x l) d = nth j l d.
Proof. induction l as [|y l IH]; intros [|i] [|j] H; cbn; auto; congruence. Qed.
Lemma set_nth_twice {A} (x y : A) l : forall i, set_nth i x (set_nth i y l) = set_nth i x l.
Proof. induction l as [|z l IH]; intros [|i]; cbn; f_equal; auto. Qed.
Lemma set_nth_same {A} (d : A) l : forall i, set_nth i (nth i l d) l = l.
Proof. induction l as [|z l IH]; intros [|i]; cbn; f_equal; auto. Qed.

Lemma file_index_in base n i q : on (base + i) q -> (i < n)%nat -> file_index base n q = Some i.
Proof.
  unfold on, file_index. intros -> H. replace (base <=? base + i)%nat with true by (symmetry; apply Nat.leb_le; lia).
  replace (base + i <? base + n)%nat with true by (symmetry; apply Nat.ltb_lt; lia). cbn. f_equal. lia.
Qed.

(** A part that only uses the [i]-th file. *)
Lemma on_files_local {A B} base i (k : A -> io B) p J : forall fs f' o,
  asks (on (base + i)) J p -> (i < length fs)%nat -> exec file_ops (nth i fs no_file) p = (f', o) ->
  on_files base fs (bind p k) =
  match o with
  | Done a => on_files base (set_nth i f' fs) (k a)
  | Stuck f => Fail f
  | Cut => Fail FWrong
  end.
Proof.
  induction p as [a|f|q k0 IH]; intros fs f' o H L E; cbn in *.
  - injection E as <- <-. rewrite set_nth_same. reflexivity.
  - injection E as <- <-. reflexivity.
  - destruct H as [H1 H2]. rewrite (file_index_in base (length fs) i q H1 L).
    destruct (file_ops (nth i fs no_file) q) as [f1 a1] eqn:EF.
    rewrite (IH a1 (set_nth i f1 fs) f' o).
    + destruct o; auto. rewrite set_nth_twice. reflexivity.
    + apply H2.
    + rewrite length_set_nth. exact L.
    + rewrite nth_set_nth by exact L. exact E.
Qed.

(** A part that uses other transports. *)
Definition outside (base n : nat) (q : query) : Prop := file_index base n q = None.

Lemma on_outside base n h q : (h < base \/ base + n <= h)%nat -> on h q -> outside base n q.
Proof.
  unfold on, outside, file_index. intros H ->. destruct (base <=? h)%nat eqn:E1; [|reflexivity].
  apply Nat.leb_le in E1. destruct (h <? base + n)%nat eqn:E2; [apply Nat.ltb_lt in E2; lia|reflexivity].
Qed.

Lemma sim_local {A B C} (S : list cfile * B -> C -> Prop) base fs (J : A -> Prop) p k k' :
  asks (outside base (length fs)) J p -> (forall a, J a -> sim S (on_files base fs (k a)) (k' a)) ->
  sim S (on_files base fs (bind p k)) (bind p k').
Proof.
  intros H K. induction p as [a|f|q k0 IH]; cbn in *; try constructor; auto.
  destruct H as [H1 H2]. rewrite H1. constructor. intro a. apply IH. auto.
Qed.

Lemma sim_runs {A B} (R : A -> B -> Prop) p q : sim R p q -> forall tr o, runs p tr o ->
  exists o', runs q tr o' /\ match o, o' with
    | Done a, Done b => R a b | Stuck f, Stuck f' => f = f' | Cut, Cut => True | _, _ => False end.
Proof.
  induction 1 as [a b H|f|q k k' H IH]; intros tr o Ru; inversion Ru; subst.
  - exists (Done b). split; [constructor|exact H].
  - exists (Stuck f). split; [constructor|reflexivity].
  - exists Cut. split; [constructor|exact I].
  - destruct (IH a _ _ ltac:(eassumption)) as (o' & R1 & R2). exists o'. split; [constructor; assumption|exact R2].
Qed.

Lemma sim_exec {S A B} (R : A -> B -> Prop) (hd : S -> query -> S * ans) p q : sim R p q -> forall s,
  fst (exec hd s p) = fst (exec hd s q) /\ match snd (exec hd s p), snd (exec hd s q) with
    | Done a, Done b => R a b | Stuck f, Stuck f' => f = f' | Cut, Cut => True | _, _ => False end.
Proof.
  induction 1 as [a b H|f|q k k' H IH]; intros s; cbn; auto. destruct (hd s q) as [s' a]. apply IH.
Qed.

Lemma sim_bind {A A' B B'} (R : A -> A' -> Prop) (S : B -> B' -> Prop) p p' k k' :
  sim R p p' -> (forall a b, R a b -> sim S (k a) (k' b)) -> sim S (bind p k) (bind p' k').
Proof. intros H K. induction H; cbn; try constructor; auto. Qed.
Lemma sim_mono {A B} (R S : A -> B -> Prop) p q : (forall a b, R a b -> S a b) -> sim R p q -> sim S p q.
Proof. intros H K. induction K; try constructor; auto. Qed.
Lemma sim_refl {A} (R : A -> A -> Prop) p : (forall a, R a a) -> sim R p p.
Proof. intro H. induction p; try constructor; auto. Qed.

(** Programs up to pointwise equality. *)
Lemma sim_l {A B} (S : A -> B -> Prop) p p' q : sim eq p p' -> sim S p' q -> sim S p q.
Proof. intros H. revert q. induction H as [a b ->|f|q0 k k' H IH]; intros q K; auto. inversion K; subst. constructor. intro a. apply IH. auto. Qed.
Lemma sim_r {A B} (S : A -> B -> Prop) p q q' : sim eq q' q -> sim S p q' -> sim S p q.
Proof. intros H. revert p. induction H as [a b ->|f|q0 k k' H IH]; intros p K; auto. inversion K; subst. constructor. intro a. apply IH. auto. Qed.
Lemma sim_assoc {A B C} (p : io A) (f : A -> io B) (g : B -> io C) :
  sim eq (bind (bind p f) g) (bind p (fun x => bind (f x) g)).
Proof. induction p; cbn; try constructor; auto. apply sim_refl. reflexivity. Qed.
Lemma sim_assoc' {A B C} (p : io A) (f : A -> io B) (g : B -> io C) :
  sim eq (bind p (fun x => bind (f x) g)) (bind (bind p f) g).
Proof. induction p; cbn; try constructor; auto. apply sim_refl. reflexivity. Qed.
Lemma on_files_sim {A} base (p q : io A) : sim eq p q -> forall fs, sim eq (on_files base fs p) (on_files base fs q).
Proof.
  induction 1 as [a b ->|f|q0 k k' H IH]; intros fs; cbn; try constructor; auto.
  destruct (file_index base (length fs) q0); [|constructor; auto]. destruct (file_ops _ q0). auto.
Qed.
Lemma sim_assoc_l {A B C D} (S : list cfile * C -> D -> Prop) base fs (p : io A) (f : A -> io B) (g : B -> io C) q :
  sim S (on_files base fs (bind p (fun x => bind (f x) g))) q -> sim S (on_files base fs (bind (bind p f) g)) q.
Proof. apply sim_l, on_files_sim, sim_assoc. Qed.
Lemma sim_assoc_r {A B C D} (S : D -> C -> Prop) (p : io A) (f : A -> io B) (g : B -> io C) q :
  sim S q (bind p (fun x => bind (f x) g)) -> sim S q (bind (bind p f) g).
Proof. apply sim_r, sim_assoc'. Qed.

Lemma sim_exec_eq {S A} (hd : S -> query -> S * ans) (p q : io A) : sim eq p q -> forall s, exec hd s p = exec hd s q.
Proof. induction 1 as [a b ->|f|q0 k k' H IH]; intros s; cbn; auto. destruct (hd s q0). auto. Qed.
Lemma bind_ext {A B} (p : io A) (k k' : A -> io B) : (forall a, k a = k' a) -> sim eq (bind p k) (bind p k').
Proof. intro H. induction p; cbn; try constructor; auto. rewrite H. apply sim_refl. reflexivity. Qed.
Lemma bind_ext' {A B} (p : io A) (k k' : A -> io B) : (forall a, sim eq (k a) (k' a)) -> sim eq (bind p k) (bind p k').
Proof. intro H. induction p; cbn; try constructor; auto. Qed.

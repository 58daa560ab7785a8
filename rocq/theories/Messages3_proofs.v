(** Decimal numbers; failures of fstrm_replay; every file has its notes. *)
From Coq Require Import String Decimal DecimalString DecimalPos DecimalN DecimalNat.
From Verif Require Import Bytes Spec Bytes_proofs Io Io_proofs SpecTrace SpecStream
  Control Control_proofs Rdwr Rdwr_proofs Reader Writer Api SpecApi SpecReader SpecFile File
  Misc SpecMisc Misc_proofs Tools SpecTools Tools_proofs Tools2_proofs Tools3_proofs Messages SpecMessages Messages_proofs Messages2_proofs.
Local Open Scope N_scope.

Definition us (u : uint) : bytes := str (NilEmpty.string_of_uint u).
Lemma us_digits u : Forall (fun c => digit_val c < 10) (us u).
Proof. induction u; unfold us in *; cbn [NilEmpty.string_of_uint str list_byte_of_string] in *; constructor; try exact IHu; vm_compute; reflexivity. Qed.

Lemma us_D0 u : us (D0 u) = x30 :: us u.
Proof. reflexivity. Qed.
Lemma us_D1 u : us (D1 u) = x31 :: us u.
Proof. reflexivity. Qed.
Lemma us_D2 u : us (D2 u) = x32 :: us u.
Proof. reflexivity. Qed.
Lemma us_D3 u : us (D3 u) = x33 :: us u.
Proof. reflexivity. Qed.
Lemma us_D4 u : us (D4 u) = x34 :: us u.
Proof. reflexivity. Qed.
Lemma us_D5 u : us (D5 u) = x35 :: us u.
Proof. reflexivity. Qed.
Lemma us_D6 u : us (D6 u) = x36 :: us u.
Proof. reflexivity. Qed.
Lemma us_D7 u : us (D7 u) = x37 :: us u.
Proof. reflexivity. Qed.
Lemma us_D8 u : us (D8 u) = x38 :: us u.
Proof. reflexivity. Qed.
Lemma us_D9 u : us (D9 u) = x39 :: us u.
Proof. reflexivity. Qed.
Lemma value_cons c s a : value 10 (c :: s) a = value 10 s (a * 10 + digit_val c).
Proof. reflexivity. Qed.
Ltac one_digit := rewrite ?us_D0, ?us_D1, ?us_D2, ?us_D3, ?us_D4, ?us_D5, ?us_D6, ?us_D7, ?us_D8, ?us_D9, value_cons;
  match goal with |- context [digit_val ?c] => let v := eval vm_compute in (digit_val c) in change (digit_val c) with v end.
Lemma us_acc u : forall p, value 10 (us u) (Npos p) = Npos (Pos.of_uint_acc u p).
Proof.
  induction u; intro p; [reflexivity|..]; one_digit; cbn [Pos.of_uint_acc]; rewrite <- IHu; f_equal; lia.
Qed.
Lemma us_value u : value 10 (us u) 0 = N.of_uint u.
Proof.
  induction u; [reflexivity|..]; one_digit; change (0 * 10) with 0; rewrite ?N.add_0_l; try apply us_acc. exact IHu.
Qed.

Lemma dec_us n : dec n = match N.to_uint n with Nil => [x30] | u => us u end.
Proof. unfold dec, us, NilZero.string_of_uint. destruct (N.to_uint n); reflexivity. Qed.

Lemma dec_numeral n : digits 10 (dec n) n /\ (n <> 0 -> forall c s, dec n = c :: s -> c <> x30).
Proof.
  rewrite dec_us. pose proof (DecimalN.Unsigned.of_to n) as E. split.
  - apply digits_spec; [lia|]. destruct (N.to_uint n) eqn:U.
    + cbn in E. subst n. split; [discriminate|]. split; [repeat constructor|reflexivity].
    + split; [discriminate|]. split; [apply us_digits|]. rewrite us_value. symmetry. exact E.
    + split; [discriminate|]. split; [apply us_digits|]. rewrite us_value. symmetry. exact E.
    + split; [discriminate|]. split; [apply us_digits|]. rewrite us_value. symmetry. exact E.
    + split; [discriminate|]. split; [apply us_digits|]. rewrite us_value. symmetry. exact E.
    + split; [discriminate|]. split; [apply us_digits|]. rewrite us_value. symmetry. exact E.
    + split; [discriminate|]. split; [apply us_digits|]. rewrite us_value. symmetry. exact E.
    + split; [discriminate|]. split; [apply us_digits|]. rewrite us_value. symmetry. exact E.
    + split; [discriminate|]. split; [apply us_digits|]. rewrite us_value. symmetry. exact E.
    + split; [discriminate|]. split; [apply us_digits|]. rewrite us_value. symmetry. exact E.
    + split; [discriminate|]. split; [apply us_digits|]. rewrite us_value. symmetry. exact E.
  - intros NZ c s H. pose proof (DecimalN.Unsigned.to_of (N.to_uint n)) as T. rewrite E in T.
    destruct (N.to_uint n) eqn:U; try (unfold us in H; cbn in H; injection H as <- _; discriminate).
    + exfalso. apply NZ. unfold unorm in T. cbn [nzhead] in T.
      destruct (nzhead u) eqn:Z; try discriminate T.
      * injection T as ->. symmetry. exact E.
      * exact (False_ind _ (DecimalFacts.nzhead_nonzero u u0 Z)).
Qed.

(** ** Every file has its notes, except an oversized one *)
Lemma note_total ct name d : (exists st ds, stream_file d st ds E_oversize /\ start_accepted [ct] st) \/
  exists ds x, file_note ct name d ds x.
Proof.
  destruct (classify d) as [NS|(st & ds & e & F)]; [right; eexists _, _; apply fn_none; exact NS|].
  assert (A : start_accepted [ct] st \/ ~ start_accepted [ct] st).
  { destruct F as [K _]. pose proof (match_accepted ct st K) as M.
    destruct (res_eqb (control_match (mk_control T_START st) (Some ct)) r_success); [left; apply M; reflexivity|].
    right. intro H. apply M in H. discriminate H. }
  destruct A as [A|A]; [|right; eexists _, _; eapply fn_mismatch; eassumption].
  destruct e; try (right; eexists _, _; eapply fn_match; [exact F|exact A|auto]; fail);
    try (right; eexists _, _; eapply fn_error; [exact F|exact A|discriminate..]; fail).
  left. eauto.
Qed.

(** ** A failing fstrm_replay has said why, or its content type is too long *)
Lemma complaint_err s r : str s = str "Error: " ++ r -> complaint (to_stderr, str s).
Proof. intro E. split; [reflexivity|]. exists r. exact E. Qed.

Lemma init_says iovm u p ct : asks (fun _ => True) (fun a => match a with
   | (None, log) => Exists complaint log \/ (log = [] /\ CT_MAX < lenN ct)
   | (Some _, log) => lenN ct <= CT_MAX /\ quiet log end) (say_init_writer iovm u p ct).
Proof.
  unfold say_init_writer, writer_options_add_content_type. unfold CT_MAX, FSTRM_CONTROL_FIELD_CONTENT_TYPE_LENGTH_MAX in *.
  destruct (256 <? lenN ct) eqn:E; [right; split; [reflexivity|lia]|].
  assert (G : forall s r, str s = str "Error: " ++ r -> Exists complaint ((if u && p then err "Warning: Ignoring --port with --unix." else []) ++ err s)).
  { intros s r H. apply Exists_app. right. eapply complains, H. }
  destruct (writer_init _ _ _) as [w|]; [|left; destruct u; eapply G; reflexivity].
  eapply asks_bind; [apply asks_any|]. intros [x w1] _. destruct (negb _).
  - eapply asks_bind; [apply asks_any|]. intros z _. left. eapply G; reflexivity.
  - split; [lia|]. destruct (u && p); repeat constructor. eapply not_complaint; [reflexivity|discriminate].
Qed.

Lemma rloop_says fuel rfuel name : forall r w, asks (fun _ => True) (fun a => fst a = None -> Exists complaint (snd a)) (replay_say_loop fuel rfuel name r w).
Proof.
  induction fuel as [|fuel IH]; intros r w; [exact I|]. cbn [replay_say_loop].
  eapply asks_bind; [apply asks_any|]. intros [[x data] r1] _. destruct x; try discriminate.
  - destruct data as [data|]; [|exact I]. eapply asks_bind; [apply asks_any|]. intros [x w1] _. destruct (negb _); [|apply IH].
    intros _. constructor. eapply complaint_err. reflexivity.
  - eapply asks_bind; [apply asks_any|]. intros [[x c] r2] _. discriminate.
Qed.
Lemma file_says fuel ct name h w : asks (fun _ => True) (fun a => fst a = None -> Exists complaint (snd a)) (say_file fuel ct name h w).
Proof.
  unfold say_file. destruct (reader_init _ _) as [r|]; [|discriminate].
  eapply asks_bind; [apply asks_any|]. intros [[x c] r1] _.
  assert (G : forall r (log : list said), asks (fun _ => True) (fun a => fst a = None -> Exists complaint (snd a)) (bind (reader_destroy r) (fun _ => Ret (Some w, log)))).
  { intros r0 log. eapply asks_bind; [apply asks_any|]. intros z _. discriminate. }
  destruct (negb _); [apply G|]. destruct c as [[c|]|]; try exact I. destruct (negb _); [apply G|].
  eapply asks_bind; [apply rloop_says|]. intros [[[r2 w2]|] log] H; [|intros _; apply H; reflexivity].
  eapply asks_bind; [apply asks_any|]. intros z _. discriminate.
Qed.
Lemma files_says fuel ct names : forall h w, asks (fun _ => True) (fun a => fst a = None -> Exists complaint (snd a)) (say_files fuel ct names h w).
Proof.
  induction names as [|name names IH]; intros h w; [discriminate|]. cbn [say_files].
  eapply asks_bind; [apply file_says|]. intros [[w1|] log] H; [|exact H].
  eapply asks_bind; [apply IH|]. intros [z log'] H1. intro N. apply Exists_app. right. apply H1, N.
Qed.
Lemma replay_says fuel iovm u p ct names : asks (fun _ => True)
  (fun a => fst a = false -> Exists complaint (snd a) \/ (snd a = [] /\ CT_MAX < lenN ct)) (replay_say fuel iovm u p ct names).
Proof.
  unfold replay_say. eapply asks_bind; [apply init_says|]. intros [[w|] log] H; [|intros _; exact H].
  eapply asks_bind; [apply files_says|]. intros [[w1|] log'] H1.
  - eapply asks_bind; [apply asks_any|]. intros [x w2] _. eapply asks_bind; [apply asks_any|]. intros z _. discriminate.
  - intros _. left. apply Exists_app. right. apply H1. reflexivity.
Qed.

Lemma asks_done {A} P (J : A -> Prop) p : asks P J p -> forall tr a, runs p tr (Done a) -> J a.
Proof.
  intros H tr a R. remember (Done a) as o eqn:E. revert E. induction R; intro E0; try discriminate E0.
  - injection E0 as ->. exact H.
  - apply IHR; [apply H|assumption].
Qed.
Lemma dump_explains fuel iovm output tr rv log : runs (dump_say fuel iovm output) tr (Done (rv, log)) ->
  (rv = false <-> Exists complaint log).
Proof.
  intro R. pose proof (asks_done _ _ _ (dump_fair fuel iovm output) _ _ R) as F. cbn [fst snd] in F. destruct rv; cbn in F.
  - split; [discriminate|]. intro X. exfalso. apply Exists_exists in X. destruct X as (x & I & C).
    exact (proj1 (Forall_forall _ _) F x I C).
  - split; auto.
Qed.
Lemma replay_explains fuel iovm u p ct names tr log : runs (replay_say fuel iovm u p ct names) tr (Done (false, log)) ->
  Exists complaint log \/ (log = [] /\ CT_MAX < lenN ct).
Proof. intro R. exact (asks_done _ _ _ (replay_says fuel iovm u p ct names) _ _ R eq_refl). Qed.

Lemma stream_det d st ds e st' ds' e' : stream_file d st ds e -> stream_file d st' ds' e' -> st = st' /\ ds = ds' /\ e = e'.
Proof.
  intros (K & inp & rest & E & P) (K' & inp' & rest' & E' & P').
  destruct (reader_init reader_options_default (file_reader_rdwr 0)) as [r|] eqn:EI; [|discriminate].
  destruct (f_open d 0 st inp r E K EI) as (r1 & X & _ & Es & _).
  destruct (f_open d 0 st' inp' r E' K' EI) as (r2 & X' & _ & Es' & _).
  rewrite X in X'. injection X' as Ei Er. subst r2 inp'. rewrite Es in Es'. injection Es' as <-.
  destruct (Reader3_proofs.parse_det _ _ _ _ _ _ _ _ P P') as (-> & -> & _). auto.
Qed.

(** The note about a file is unique. *)
Lemma note_unique ct name d ds x ds' x' : file_note ct name d ds x -> file_note ct name d ds' x' -> ds = ds' /\ x = x'.
Proof.
  assert (NS : forall d st ds e, no_stream d -> stream_file d st ds e -> False).
  { intros d0 st ds0 e H (K & inp & rest & E & _). exact (H st inp K E). }
  intros H H'. inversion H as [d0 st1 ds1 e1 F A O|d0 st1 ds1 e1 F A O1 O2 O3|d0 st1 ds1 e1 F A|d0 N1]; subst;
    inversion H' as [d1 st2 ds2 e2 F' A' O'|d1 st2 ds2 e2 F' A' O1' O2' O3'|d1 st2 ds2 e2 F' A'|d1 N2]; subst;
  try (destruct (stream_det _ _ _ _ _ _ _ F F') as (<- & <- & <-)); try (destruct O; congruence); try (destruct O'; congruence);
  try contradiction; auto; try (exfalso; eapply NS; eassumption).
Qed.

(** What fstrm_dump prints. *)
From Coq Require Import String.
From Verif Require Import Bytes Spec Bytes_proofs Io Io_proofs SpecTrace SpecStream
  Control Control_proofs Rdwr Rdwr_proofs Reader Writer Api SpecApi SpecReader SpecFile File
  Misc Tools SpecTools Writer_proofs Writer2_proofs Reader_source_proofs Reader_proofs Reader3_proofs File_proofs
  Tools_proofs Tools2_proofs Tools3_proofs Messages SpecMessages.
Ltac Zify.zify_post_hook ::= Z.div_mod_to_equations.
Local Open Scope N_scope.

(** ** Texts *)
Lemma heard_app s a b : heard s (a ++ b) = heard s a ++ heard s b.
Proof. unfold heard. rewrite filter_app, map_app, concat_app. reflexivity. Qed.
Lemma screen_app a b : screen (a ++ b) = screen a ++ screen b.
Proof. unfold screen. rewrite map_app, concat_app. reflexivity. Qed.
Lemma reads_refl a : reads_as a a.
Proof. repeat split. Qed.
Lemma reads_app a b c d : reads_as a b -> reads_as c d -> reads_as (a ++ c) (b ++ d).
Proof. intros (A1 & A2 & A3) (B1 & B2 & B3). unfold reads_as. rewrite !heard_app, !screen_app. repeat split; congruence. Qed.
Lemma reads_flat {A} (f g : A -> list said) l : (forall a, reads_as (f a) (g a)) -> reads_as (flat_map f l) (flat_map g l).
Proof. intro H. induction l as [|a l IH]; [apply reads_refl|]. cbn [flat_map]. apply reads_app; auto. Qed.
Lemma reads_trans a b c : reads_as a b -> reads_as b c -> reads_as a c.
Proof. intros (A1 & A2 & A3) (B1 & B2 & B3). repeat split; congruence. Qed.

(** ** The same programs as without messages *)
Lemma start_erase r o : sim (fun a b => match a with (x, w, r, log) => b = (x, w, r) /\ heard to_stdout log = [] end)
  (say_start_frame r o) (process_start_frame r o).
Proof.
  unfold say_start_frame, process_start_frame. apply sim_bind with (R := eq); [apply sim_refl; reflexivity|].
  intros [[x c] r1] b <-. destruct (negb _); [constructor; auto|]. destruct c as [[c|]|]; try constructor.
  destruct (control_get_num c) as [x2 n]. destruct (negb _); [constructor; auto|].
  match goal with |- context [if ?b then ?t else ?e] => destruct (if b then t else e) as [x3 ct] end.
  destruct (negb _); [constructor; auto|]. destruct o; destruct ct; try (constructor; auto; fail).
  destruct (writer_options_add_content_type _ _); constructor; auto.
Qed.

Lemma heard_err s : heard to_stdout (err s) = [].
Proof. reflexivity. Qed.
Lemma heard_data d : heard to_stdout (say_data_frame d) = print_data_frame d.
Proof. unfold say_data_frame, heard. cbn [filter is_stream fst map snd concat]. rewrite app_nil_r. reflexivity. Qed.

Lemma loop_erase fuel rfuel : forall r w log,
  sim (fun a b => match a with (rv, log, r, w) => b = (rv, heard to_stdout log, r, w) end)
    (dump_say_loop fuel rfuel r w log) (dump_loop fuel rfuel r w (heard to_stdout log)).
Proof.
  induction fuel as [|fuel IH]; intros r w log; [constructor|]. cbn [dump_say_loop dump_loop].
  apply sim_bind with (R := eq); [apply sim_refl; reflexivity|]. intros [[x data] r1] b <-.
  assert (G : forall s, sim (fun a b => match a with (rv, log, r, w) => b = (rv, heard to_stdout log, r, w) end)
     (Ret (false, log ++ err s, r1, w)) (Ret (false, heard to_stdout log, r1, w))).
  { intro s. constructor. rewrite heard_app, heard_err, app_nil_r. reflexivity. }
  destruct x; try apply G.
  - destruct data as [data|]; [|constructor]. destruct w as [w|].
    + apply sim_bind with (R := eq); [apply sim_refl; reflexivity|]. intros [x w1] b <-. destruct (negb _).
      * constructor. rewrite !heard_app, heard_err, heard_data, app_nil_r. reflexivity.
      * rewrite <- (heard_data data), <- heard_app. apply IH.
    + rewrite <- (heard_data data), <- heard_app. apply IH.
  - unfold say_stop_frame, print_stop_frame. eapply sim_l; [apply sim_assoc|]. eapply sim_r; [apply sim_sym, sim_assoc|].
    apply sim_bind with (R := eq); [apply sim_refl; reflexivity|]. intros [[x c] r2] b <-. cbn [bind].
    destruct (negb _); constructor; rewrite ?heard_app, ?heard_err, ?app_nil_r; reflexivity.
Qed.

Lemma cleanup_erase rv r w log : sim (fun a b => b = (fst a, heard to_stdout (snd a)))
  (dump_say_cleanup rv r w log) (bind (dump_cleanup rv r w) (fun rv => Ret (rv, heard to_stdout log))).
Proof.
  unfold dump_say_cleanup, dump_cleanup. eapply sim_r; [apply sim_sym, sim_assoc|].
  apply sim_bind with (R := eq); [apply sim_refl; reflexivity|]. intros z b _. destruct w as [w|]; [|constructor; reflexivity].
  eapply sim_r; [apply sim_sym, sim_assoc|]. apply sim_bind with (R := eq); [apply sim_refl; reflexivity|]. intros [x w1] b0 <-.
  eapply sim_r; [apply sim_sym, sim_assoc|]. apply sim_bind with (R := eq); [apply sim_refl; reflexivity|]. intros z0 b1 _. cbn [bind].
  destruct (negb _); constructor; cbn [fst snd]; rewrite ?heard_app, ?heard_err, ?app_nil_r; reflexivity.
Qed.

Lemma cleanup_erase0 rv r w log : heard to_stdout log = [] -> sim (fun a b => b = (fst a, heard to_stdout (snd a)))
  (dump_say_cleanup rv r w log) (bind (dump_cleanup rv r w) (fun rv => Ret (rv, []))).
Proof. intro H. rewrite <- H. apply cleanup_erase. Qed.

Lemma dump_erase fuel iovm output : sim (fun a b => b = (fst a, heard to_stdout (snd a)))
  (dump_say fuel iovm output) (dump_main fuel iovm output).
Proof.
  unfold dump_say, dump_main. destruct (reader_init _ _) as [r|]; [|constructor; reflexivity].
  apply sim_bind with (R := eq); [apply sim_refl; reflexivity|]. intros [x r1] b <-. destruct (negb _).
  { apply cleanup_erase0. reflexivity. }
  eapply sim_bind; [apply start_erase|]. intros [[[x1 wo] r2] log] b [-> H].
  destruct (negb _); [apply cleanup_erase0; rewrite heard_app, H; reflexivity|]. destruct wo as [cts|].
  - destruct (writer_init _ _ _) as [w|]; [|apply cleanup_erase0; rewrite heard_app, H; reflexivity].
    apply sim_bind with (R := eq); [apply sim_refl; reflexivity|]. intros [x2 w2] b <-. destruct (negb _).
    { apply sim_bind with (R := eq); [apply sim_refl; reflexivity|]. intros z b _. apply cleanup_erase0. rewrite heard_app, H; reflexivity. }
    rewrite <- H. eapply sim_bind; [apply loop_erase|]. intros [[[rv log'] r3] w3] b ->. apply cleanup_erase.
  - rewrite <- H. eapply sim_bind; [apply loop_erase|]. intros [[[rv log'] r3] w3] b ->. apply cleanup_erase.
Qed.

(** ** Failure and error messages *)
Notation anyq := (fun _ : query => True).
Lemma asks_any {A} (p : io A) : asks anyq (fun _ => True) p.
Proof. induction p; cbn; auto. Qed.

Definition quiet (log : list said) : Prop := Forall (fun x => ~ complaint x) log.
Lemma quiet_app a b : quiet a -> quiet b -> quiet (a ++ b).
Proof. intros H K. apply Forall_app. auto. Qed.
Lemma not_complaint s c : forall r, snd c = s :: r -> s <> x45 -> ~ complaint c.
Proof. intros r E N (_ & t & T). pose proof (eq_trans (eq_sym E) T) as U. injection U as U _. congruence. Qed.
Lemma quiet_data d : quiet (say_data_frame d).
Proof.
  unfold say_data_frame. repeat constructor; try (intros [F _]; discriminate F).
  eapply not_complaint; [reflexivity|discriminate].
Qed.
Lemma quiet_stop : quiet (err "FSTRM_CONTROL_STOP.").
Proof. repeat constructor. eapply not_complaint; [reflexivity|discriminate]. Qed.
Lemma complains s r : str s = str "Error: " ++ r -> Exists complaint (err s).
Proof. intro E. constructor. split; [reflexivity|]. exists (r ++ nl). cbn [snd]. rewrite E, <- app_assoc. reflexivity. Qed.
Ltac complain := eapply complains; reflexivity.
Definition fair (rv : bool) (log : list said) : Prop := if rv then quiet log else Exists complaint log.

Lemma fair_loop fuel rfuel : forall r w log, quiet log ->
  asks anyq (fun a => match a with (rv, log, _, _) => fair rv log end) (dump_say_loop fuel rfuel r w log).
Proof.
  induction fuel as [|fuel IH]; intros r w log Q; [exact I|]. cbn [dump_say_loop].
  eapply asks_bind; [apply asks_any|]. intros [[x data] r1] _.
  assert (Qd : forall data, quiet (log ++ say_data_frame data)) by (intro; apply quiet_app; [assumption|apply quiet_data]).
  assert (G : asks anyq (fun a => match a with (rv, log, _, _) => fair rv log end) (Ret (false, log ++ err "Error: fstrm_reader_read() failed.", r1, w))).
  { cbn. apply Exists_app. right. complain. }
  destruct x; try exact G.
  - destruct data as [data|]; [|exact I]. destruct w as [w|]; [|apply IH, Qd].
    eapply asks_bind; [apply asks_any|]. intros [x w1] _. destruct (negb _); [|apply IH, Qd].
    cbn. apply Exists_app. right. complain.
  - unfold say_stop_frame. eapply asks_bind.
    { eapply asks_bind; [apply asks_any|]. intros [[x c] r2] _.
      instantiate (1 := fun a => match a with (x, _, log) => res_eqb x r_success = true -> quiet log end). cbn.
      destruct (res_eqb x r_success); [intros _; apply quiet_stop|discriminate]. }
    intros [[x r2] log'] H. destruct (res_eqb x r_success) eqn:E; cbn.
    + apply quiet_app; auto.
    + apply Exists_app. right. apply Exists_app. right. complain.
Qed.

Lemma fair_cleanup rv r w log : fair rv log ->
  asks anyq (fun a => fair (fst a) (snd a)) (dump_say_cleanup rv r w log).
Proof.
  intro H. unfold dump_say_cleanup. eapply asks_bind; [apply asks_any|]. intros z _. destruct w as [w|]; [|exact H].
  eapply asks_bind; [apply asks_any|]. intros [x w1] _. eapply asks_bind; [apply asks_any|]. intros z1 _.
  destruct (negb _); [|exact H]. cbn. apply Exists_app. right. complain.
Qed.

Lemma quiet_start r o : asks anyq (fun a => quiet (snd a)) (say_start_frame r o).
Proof.
  unfold say_start_frame. eapply asks_bind; [apply asks_any|]. intros [[x c] r1] _.
  assert (Q0 : quiet []) by constructor.
  assert (Q1 : quiet (err "FSTRM_CONTROL_START.")) by (repeat constructor; eapply not_complaint; [reflexivity|discriminate]).
  destruct (negb _); [exact Q0|]. destruct c as [[c|]|]; try exact I.
  destruct (control_get_num c) as [x2 n]. destruct (negb _); [exact Q1|].
  match goal with |- context [if ?b then ?t else ?e] => destruct (if b then t else e) as [x3 ct] end.
  destruct (negb _); [exact Q1|].
  assert (Q2 : quiet (err "FSTRM_CONTROL_START." ++ match ct with
     | Some ct => [(to_stderr, str "FSTRM_CONTROL_FIELD_CONTENT_TYPE (" ++ dec (lenN ct) ++
                                     str " bytes)." ++ nl ++ str " "); (to_stderr, print_string ct); (to_stderr, nl)]
     | None => [] end)).
  { apply quiet_app; [exact Q1|]. destruct ct; [|exact Q0]. repeat constructor; (eapply not_complaint; [reflexivity|discriminate]). }
  destruct o; destruct ct; try exact Q2. destruct (writer_options_add_content_type _ _); exact Q2.
Qed.

Lemma dump_fair fuel iovm output : asks anyq (fun a => fair (fst a) (snd a)) (dump_say fuel iovm output).
Proof.
  unfold dump_say. destruct (reader_init _ _) as [r|]; [|cbn; complain].
  eapply asks_bind; [apply asks_any|]. intros [x r1] _. destruct (negb _); [apply fair_cleanup; cbn; complain|].
  eapply asks_bind; [apply quiet_start|]. intros [[[x1 wo] r2] log] Q. cbn [snd] in Q.
  assert (C : forall s t, str s = str "Error: " ++ t -> fair false (log ++ err s)) by (intros s t E; cbn; apply Exists_app; right; eapply complains, E).
  destruct (negb _); [apply fair_cleanup; eapply C; reflexivity|]. destruct wo as [cts|].
  - destruct (writer_init _ _ _) as [w|]; [|apply fair_cleanup; eapply C; reflexivity].
    eapply asks_bind; [apply asks_any|]. intros [x2 w2] _. destruct (negb _).
    { eapply asks_bind; [apply asks_any|]. intros z _. apply fair_cleanup. eapply C; reflexivity. }
    eapply asks_bind; [apply fair_loop, Q|]. intros [[[rv log'] r3] w3] H. apply fair_cleanup, H.
  - eapply asks_bind; [apply fair_loop, Q|]. intros [[[rv log'] r3] w3] H. apply fair_cleanup, H.
Qed.

(** ** What is printed for a given file *)
Definition say_start (st : list bytes) : list said :=
  err "FSTRM_CONTROL_START." ++
  match st with
  | ct :: _ => [(to_stderr, str "FSTRM_CONTROL_FIELD_CONTENT_TYPE (" ++ dec (lenN ct) ++ str " bytes)." ++ nl ++ str " ");
                (to_stderr, print_string ct); (to_stderr, nl)]
  | [] => []
  end.
Definition say_end (e : ending) : list said :=
  if dump_status e then err "FSTRM_CONTROL_STOP." else err "Error: fstrm_reader_read() failed.".

Lemma asks_say_start h r o : rat h r -> asks (on h) (fun z => rat h (snd (fst z))) (say_start_frame r o).
Proof.
  intro H. unfold say_start_frame. eapply asks_bind; [apply asks_rget; exact H|]. intros [[x c] r1] H1. cbn [snd] in H1.
  destruct (negb _); [exact H1|]. destruct c as [[c|]|]; try exact I.
  destruct (control_get_num c) as [x2 n]. destruct (negb _); [exact H1|].
  match goal with |- context [if ?b then ?t else ?e] => destruct (if b then t else e) as [x3 ct] end.
  destruct (negb _); [exact H1|]. destruct o; destruct ct; try exact H1.
  destruct (writer_options_add_content_type _ _); exact H1.
Qed.

Lemma say_f_start f r st o : r_state r = rs_opened -> r_start r = Some (mk_control T_START st) -> ctl_ok T_START st ->
  exec file_ops f (say_start_frame r o) =
  (f, Done (r_success, match o with Some cts => Some (cts ++ st) | None => None end, r, say_start st)).
Proof.
  intros S E K. unfold say_start_frame, reader_get_control, reader_maybe_open. rewrite S. cbn [bind res_eqb negb].
  change (FSTRM_CONTROL_START =? FSTRM_CONTROL_START) with true. cbn [bind]. rewrite E. cbn [res_eqb negb].
  pose proof (ok_start _ _ K eq_refl) as L. pose proof (ok_len _ _ K) as CT.
  destruct st as [|ct [|? ?]]; cbn [length] in L; try lia.
  - destruct o; cbn; rewrite ?app_nil_r; reflexivity.
  - apply Forall_inv in CT. destruct o as [o|]; [|reflexivity].
    change (control_get_num (mk_control T_START [ct])) with (r_success, 1%nat). cbn [res_eqb negb].
    change (0 <? 1)%nat with true. cbn iota. change (control_get_field (mk_control T_START [ct]) 0) with (r_success, Some ct).
    cbn [res_eqb negb]. unfold writer_options_add_content_type.
    unfold CT_MAX, FSTRM_CONTROL_FIELD_CONTENT_TYPE_LENGTH_MAX in *. destruct (256 <? lenN ct) eqn:E1; [lia|]. reflexivity.
Qed.

Lemma asks_say_stop h r : rat h r -> asks (on h) (fun z => rat h (snd (fst z))) (say_stop_frame r).
Proof. intro H. eapply asks_bind; [apply asks_rget; exact H|]. intros [[x c] r1] H1. exact H1. Qed.
Lemma f_say_stop f r : (r_state r = rs_failed \/ r_state r = rs_closing) ->
  exec file_ops f (say_stop_frame r) = (f, Done (r_success, r, err "FSTRM_CONTROL_STOP.")).
Proof.
  intros [S|S]; unfold say_stop_frame, reader_get_control, reader_maybe_open; rewrite S; reflexivity.
Qed.

Definition say_written (ok : bool) (n : nat) (ds : list bytes) (e : ending) : list said :=
  flat_map say_data_frame (firstn n ds) ++ (if ok then say_end e else err "Error: write_data_frame() failed.").

Lemma say_copies {B C} (S : list cfile * B -> C -> Prop) d e rest k : forall fuel rfuel inp ds r w log k',
  parse DEFAULT_MAX inp ds e rest -> reading DEFAULT_MAX r -> same_ops (file_reader_rdwr 0) (r_rdwr r) -> wat 1 w ->
  (length inp < fuel)%nat -> (length inp < rfuel)%nat ->
  (forall n ok f1 r1 w1, f_data f1 = d -> f_write f1 = false -> same_ops (file_reader_rdwr 0) (r_rdwr r1) -> wat 1 w1 ->
     ok && oversize e = false -> (ok = true -> n = length ds) ->
     sim S (on_files 0 [f1] (k (ok && dump_status e, log ++ say_written ok n ds e, r1, Some w1))) (k' (n, ok, w1))) ->
  sim S (on_files 0 [file_src d true inp] (bind (dump_say_loop fuel rfuel r (Some w) log) k))
    (bind (write_each w ds) (fun z => match z with (n, ok, w) => if ok && oversize e then Fail (FUb ub_uninit) else k' (n, ok, w) end)).
Proof.
  induction fuel as [|fuel IH]; intros rfuel inp ds r w log k' P R So W L1 L2 K; [lia|].
  cbn [dump_say_loop]. apply sim_assoc_l.
  pose proof (f_read d rfuel inp ds e rest r P R L2) as N.
  destruct ds as [|d0 ds].
  - destruct N as (f' & r' & E & D & Fw & St & Sm).
    rewrite (on_files_local 0 0 _ _ _ [_] f' _ (asks_rread 0 rfuel r (rat_ops _ _ So)) ltac:(cbn; lia) E). cbn [set_nth write_each bind].
    pose proof (same_file _ _ _ So Sm) as So'.
    specialize (K 0%nat true f' r' w D Fw So' W). unfold say_written in K. cbn [firstn flat_map app] in K.
    destruct e; cbn [ending_result oversize andb] in *; try (apply K; reflexivity).
    + apply sim_assoc_l. rewrite (on_files_local 0 0 _ _ _ [_] _ _ (asks_say_stop 0 r' (rat_ops _ _ So')) ltac:(cbn; lia) (f_say_stop f' r' St)).
      apply K; reflexivity.
    + apply sim_assoc_l. rewrite (on_files_local 0 0 _ _ _ [_] _ _ (asks_say_stop 0 r' (rat_ops _ _ So')) ltac:(cbn; lia) (f_say_stop f' r' St)).
      apply K; reflexivity.
    + constructor.
  - destruct N as (r' & inp' & E & P' & L' & R' & Sm).
    rewrite (on_files_local 0 0 _ _ _ [_] _ _ (asks_rread 0 rfuel r (rat_ops _ _ So)) ltac:(cbn; lia) E). cbn [set_nth write_each].
    pose proof (same_file _ _ _ So Sm) as So'. cbv zeta. apply sim_assoc_l, sim_assoc_r.
    apply sim_local with (J := fun z => wat 1 (snd z)).
    { eapply asks_weaken; [|apply asks_writev; exact W]. intros q. apply on_outside. cbn. lia. }
    intros [x w1] W1. cbn [snd] in W1. destruct (negb (res_eqb x r_success)).
    + cbn [bind]. pose proof (K 1%nat false (file_src d true inp') r' w1 eq_refl eq_refl So' W1 eq_refl ltac:(discriminate)) as K1.
      cbn [andb] in K1. unfold say_written in K1. cbn [firstn flat_map] in K1. rewrite app_nil_r in K1. rewrite app_assoc in K1. exact K1.
    + apply sim_assoc_r.
      eapply sim_r; [|apply (IH rfuel inp' ds r' w1 (log ++ say_data_frame d0) (fun z => match z with (n, ok, w) => k' (Datatypes.S n, ok, w) end) P' R' So' W1)]; try lia.
      * apply bind_ext. intros [[n ok] w2]. reflexivity.
      * intros n ok f1 r1 w2 D1 Fw1 So1 W2 OE OL.
        assert (OL' : ok = true -> (1 + n = length (d0 :: ds))%nat) by (intro H; cbn [length plus]; rewrite (OL H); reflexivity).
        pose proof (K (1 + n)%nat ok f1 r1 w2 D1 Fw1 So1 W2 OE OL') as K1.
        unfold say_written in *. cbn [plus firstn flat_map] in K1. rewrite <- app_assoc in K1 |- *. exact K1.
Qed.

Definition copy_how_ub (over : bool) (w : writer) (ds : list bytes) : io went :=
  bind (writer_open w) (fun z => match z with (x, w) =>
  if negb (res_eqb x r_success) then bind (writer_destroy w) (fun _ => Ret W_unopened)
  else bind (write_each w ds) (fun z => match z with (n, ok, w) =>
    if ok && over then Fail (FUb ub_uninit)
    else bind (writer_close w) (fun z => match z with (x, w) =>
      bind (writer_destroy w) (fun _ => Ret (if ok then W_written (res_eqb x r_success) else W_stopped n (res_eqb x r_success))) end) end) end).

Lemma copy_how_false w ds : sim eq (copy_how_ub false w ds) (copy_how w ds).
Proof.
  unfold copy_how_ub, copy_how. apply bind_ext'. intros [x w1]. destruct (negb _); [apply sim_refl; reflexivity|].
  apply bind_ext. intros [[n ok] w2]. rewrite andb_false_r. reflexivity.
Qed.

Lemma reads_start st : reads_as (say_start st) (start_note st).
Proof.
  unfold say_start, start_note. match goal with |- reads_as _ (?a :: ?b) => change (a :: b) with ([a] ++ b) end. apply reads_app; [apply reads_refl|].
  destruct st as [|ct st]; [apply reads_refl|].
  unfold reads_as, heard, screen, line, nl. cbn [filter is_stream fst map snd concat].
  repeat split; rewrite ?app_nil_r, <- ?app_assoc; reflexivity.
Qed.
Lemma reads_frame d : reads_as (say_data_frame d) (frame_note d).
Proof.
  unfold say_data_frame, frame_note, reads_as, heard, screen, line, print_data_frame, nl. cbn [filter is_stream fst map snd concat].
  repeat split; rewrite ?app_nil_r, <- ?app_assoc; reflexivity.
Qed.
Lemma reads_end e : reads_as (say_end e) [end_note e].
Proof. destruct e; apply reads_refl. Qed.

Definition dump_told (d : bytes) (st ds : list bytes) (e : ending) (x : list cfile * (bool * list said)) (y : went) : Prop :=
  map f_data (fst x) = [d] /\ fst (snd x) = dump_verdict e y /\ reads_as (snd (snd x)) (dump_report st ds e y).

Lemma dump_say_sim_ub d st ds e fuel iovm w : stream_file d st ds e -> (length d <= fuel)%nat ->
  writer_init iovm st (file_writer_rdwr 1) = Some w ->
  sim (dump_told d st ds e) (on_files 0 [input d] (dump_say fuel iovm true)) (copy_how_ub (oversize e) w ds).
Proof.
  intros (K & inp & rest & E & P) L Hw.
  assert (Li : (length inp < fuel)%nat) by (pose proof (length_start st inp); subst d; lia).
  unfold dump_say. destruct (reader_init reader_options_default (file_reader_rdwr 0)) as [r|] eqn:EI; [|discriminate].
  destruct (f_open d 0 st inp r E K EI) as (r1 & X & R & Es & So & _).
  assert (R0 : rat 0 r) by (injection EI as <-; reflexivity).
  rewrite (on_files_local 0 0 _ _ _ [_] _ _ (asks_ropen 0 r R0) ltac:(cbn; lia) X). cbn [set_nth res_eqb negb].
  rewrite (on_files_local 0 0 _ _ _ [_] _ _ (asks_say_start 0 r1 (Some []) (rat_ops _ _ So)) ltac:(cbn; lia)
     (say_f_start _ r1 st (Some []) (rd_state _ _ R) Es K)).
  cbn [set_nth res_eqb negb]. rewrite (app_nil_l st). rewrite Hw. unfold copy_how_ub.
  apply sim_local with (J := fun z => wat 1 (snd z)).
  { apply out1, asks_wopen, (wat_init iovm st), Hw. }
  intros [x w1] W1. cbn [snd] in W1. destruct (negb (res_eqb x r_success)).
  - apply sim_local with (J := fun _ => True); [apply out1, asks_wdestroy, W1|]. intros z _. unfold dump_say_cleanup.
    apply sim_destroy; auto. intros f' y D W. cbn [bind on_files]. constructor. split; [cbn; rewrite D; reflexivity|]. split; [reflexivity|].
    apply reads_app; [apply reads_start|apply reads_refl].
  - apply say_copies with (rest := rest) (k' := fun z : nat * bool * writer => match z with (n, ok, w) => bind (writer_close w) (fun z : res * writer => match z with (x, w) =>
      bind (writer_destroy w) (fun _ : res => Ret (if ok then W_written (res_eqb x r_success) else W_stopped n (res_eqb x r_success))) end) end); auto.
    intros n ok f1 r2 w2 D1 Fw1 So1 W2 OE OL. unfold dump_say_cleanup.
    apply sim_destroy; auto. intros f' y D W.
    apply sim_local with (J := fun z => wat 1 (snd z)); [apply out1, asks_wclose, W2|].
    intros [x2 w3] W3. cbn [snd] in W3.
    apply sim_local with (J := fun _ => True); [apply out1, asks_wdestroy, W3|]. intros z _.
    assert (RA : forall c, reads_as ((say_start st ++ say_written ok n ds e) ++ close_note c)
       (dump_report st ds e (if ok then W_written c else W_stopped n c))).
    { intro c. rewrite <- app_assoc. unfold dump_report, say_written. apply reads_app; [apply reads_start|].
      rewrite <- app_assoc. destruct ok.
      - rewrite (OL eq_refl), firstn_all. apply reads_app; [apply reads_flat, reads_frame|].
        change (end_note e :: close_note c) with ([end_note e] ++ close_note c). apply reads_app; [apply reads_end|apply reads_refl].
      - apply reads_app; [apply reads_flat, reads_frame|]. apply reads_refl. }
    destruct (res_eqb x2 r_success) eqn:E2; cbn [negb on_files]; constructor; (split; [cbn; congruence|]).
    + specialize (RA true). cbn [close_note] in RA. rewrite app_nil_r in RA. split; [|exact RA]. destruct ok; reflexivity.
    + specialize (RA false). split; [|exact RA]. destruct ok; reflexivity.
Qed.

Lemma dump_say_sim d st ds e fuel iovm w : stream_file d st ds e -> e <> E_oversize -> (length d <= fuel)%nat ->
  writer_init iovm st (file_writer_rdwr 1) = Some w ->
  sim (dump_told d st ds e) (on_files 0 [input d] (dump_say fuel iovm true)) (copy_how w ds).
Proof.
  intros SF NO L Hw. eapply sim_r; [apply copy_how_false|].
  replace false with (oversize e) by (destruct e; congruence || reflexivity). apply (dump_say_sim_ub d st ds e fuel iovm w SF L Hw).
Qed.

(** Without an output file. *)
Lemma dump_says {B} d e rest (k : _ -> io B) : forall fuel rfuel inp ds r log,
  parse DEFAULT_MAX inp ds e rest -> reading DEFAULT_MAX r -> same_ops (file_reader_rdwr 0) (r_rdwr r) ->
  (length inp < fuel)%nat -> (length inp < rfuel)%nat ->
  exists f1 r1, f_data f1 = d /\ f_write f1 = false /\ same_ops (file_reader_rdwr 0) (r_rdwr r1) /\
  sim eq (on_files 0 [file_src d true inp] (bind (dump_say_loop fuel rfuel r None log) k))
   (if oversize e then Fail (FUb ub_uninit) else
    on_files 0 [f1] (k (dump_status e, log ++ flat_map say_data_frame ds ++ say_end e, r1, None))).
Proof.
  induction fuel as [|fuel IH]; intros rfuel inp ds r log P R So L1 L2; [lia|].
  pose proof (f_read d rfuel inp ds e rest r P R L2) as N.
  destruct ds as [|d0 ds].
  - destruct N as (f' & r' & E & D & Fw & St & Sm). pose proof (same_file _ _ _ So Sm) as So'.
    exists f', r'. split; [assumption|]. split; [assumption|]. split; [assumption|].
    cbn [dump_say_loop]. apply sim_assoc_l.
    rewrite (on_files_local 0 0 _ _ _ [_] f' _ (asks_rread 0 rfuel r (rat_ops _ _ So)) ltac:(cbn; lia) E). cbn [set_nth flat_map app].
    destruct e; cbn [ending_result dump_status oversize bind] in *; try (apply sim_refl; reflexivity).
    + apply sim_assoc_l. rewrite (on_files_local 0 0 _ _ _ [_] _ _ (asks_say_stop 0 r' (rat_ops _ _ So')) ltac:(cbn; lia) (f_say_stop f' r' St)).
      apply sim_refl; reflexivity.
    + apply sim_assoc_l. rewrite (on_files_local 0 0 _ _ _ [_] _ _ (asks_say_stop 0 r' (rat_ops _ _ So')) ltac:(cbn; lia) (f_say_stop f' r' St)).
      apply sim_refl; reflexivity.
  - destruct N as (r' & inp' & E & P' & L' & R' & Sm). pose proof (same_file _ _ _ So Sm) as So'.
    destruct (IH rfuel inp' ds r' (log ++ say_data_frame d0) P' R' So') as (f1 & r1 & D1 & W1 & So1 & H1); [lia|lia|].
    exists f1, r1. split; [assumption|]. split; [assumption|]. split; [assumption|].
    cbn [dump_say_loop]. apply sim_assoc_l.
    rewrite (on_files_local 0 0 _ _ _ [_] _ _ (asks_rread 0 rfuel r (rat_ops _ _ So)) ltac:(cbn; lia) E). cbn [set_nth].
    cbv zeta. cbn [flat_map]. rewrite <- !app_assoc in H1 |- *. exact H1.
Qed.

Lemma dump_say_stdout d st ds e fuel iovm : stream_file d st ds e -> (length d <= fuel)%nat ->
  sim (fun x _ => map f_data (fst x) = [d] /\ fst (snd x) = dump_status e /\
         reads_as (snd (snd x)) (start_note st ++ flat_map frame_note ds ++ [end_note e]))
    (on_files 0 [input d] (dump_say fuel iovm false))
    (if oversize e then Fail (FUb ub_uninit) else Ret tt).
Proof.
  intros (K & inp & rest & E & P) L.
  assert (Li : (length inp < fuel)%nat) by (pose proof (length_start st inp); subst d; lia).
  unfold dump_say. destruct (reader_init reader_options_default (file_reader_rdwr 0)) as [r|] eqn:EI; [|discriminate].
  destruct (f_open d 0 st inp r E K EI) as (r1 & X & R & Es & So & _).
  assert (R0 : rat 0 r) by (injection EI as <-; reflexivity).
  rewrite (on_files_local 0 0 _ _ _ [_] _ _ (asks_ropen 0 r R0) ltac:(cbn; lia) X). cbn [set_nth res_eqb negb].
  rewrite (on_files_local 0 0 _ _ _ [_] _ _ (asks_say_start 0 r1 None (rat_ops _ _ So)) ltac:(cbn; lia)
     (say_f_start _ r1 st None (rd_state _ _ R) Es K)).
  cbn [set_nth res_eqb negb].
  match goal with |- sim _ (on_files _ _ (bind _ ?k)) _ =>
    destruct (dump_says d e rest k fuel fuel inp ds r1 (say_start st) P R So Li Li) as (f1 & r2 & D1 & W1 & So1 & H1) end.
  eapply sim_l; [exact H1|]. destruct (oversize e); [constructor|]. unfold dump_say_cleanup.
  apply sim_destroy; auto. intros f' y D W. cbn [bind on_files]. constructor. split; [cbn; congruence|]. split; [reflexivity|].
  apply reads_app; [apply reads_start|]. apply reads_app; [apply reads_flat, reads_frame|apply reads_end].
Qed.

Lemma dump_say_bad d fuel iovm output : no_stream d ->
  sim (fun x _ => map f_data (fst x) = [d] /\ snd x = (false, [note "Error: fstrm_reader_open() failed."]))
    (on_files 0 [input d] (dump_say fuel iovm output)) (Ret tt).
Proof.
  intros NS. unfold dump_say. destruct (reader_init reader_options_default (file_reader_rdwr 0)) as [r|] eqn:EI; [|discriminate].
  destruct (f_open_bad d 0 r NS EI) as (x & f' & r' & E & NE & D & W & So).
  assert (R0 : rat 0 r) by (injection EI as <-; reflexivity).
  rewrite (on_files_local 0 0 _ _ _ [_] _ _ (asks_ropen 0 r R0) ltac:(cbn; lia) E). cbn [set_nth].
  destruct (res_eqb x r_success) eqn:EX; [apply res_eqb_true in EX; contradiction|]. cbn [negb]. unfold dump_say_cleanup.
  apply sim_destroy; auto. intros f2 y D2 W2. cbn [bind on_files]. constructor. split; [cbn; congruence|reflexivity].
Qed.

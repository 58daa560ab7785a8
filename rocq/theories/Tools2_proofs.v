(** fstrm_dump and fstrm_replay as copies. *)
From Verif Require Import Bytes Spec Bytes_proofs Io Io_proofs SpecTrace SpecStream
  Control Control_proofs Rdwr Rdwr_proofs Reader Writer Api SpecApi SpecReader SpecFile File
  Misc Tools SpecTools Writer_proofs Writer2_proofs Reader_source_proofs Reader_proofs Reader3_proofs File_proofs
  Tools_proofs.
Ltac Zify.zify_post_hook ::= Z.div_mod_to_equations.
Local Open Scope N_scope.

(** ** Files as sources *)
Section OneFile.
Variable d : bytes.
Notation rep := (file_src d).

Lemma F_read h n s : 1 <= n -> n <= lenN s -> file_ops (rep true s) (QRead h n) =
  (rep true (skipn (N.to_nat n) s), ARead r_success (firstn (N.to_nat n) s)).
Proof. intros Hn Hl. cbn. destruct (n =? 0) eqn:E0; [lia|]. destruct (lenN s <? n) eqn:E1; [lia|reflexivity]. Qed.
Lemma F_short : True -> forall h n s, lenN s < n -> file_ops (rep true s) (QRead h n) = (rep true [], ARead r_stop []).
Proof. intros _ h n s Hn. cbn. destruct (n =? 0) eqn:E0; [lia|]. destruct (lenN s <? n) eqn:E1; [reflexivity|lia]. Qed.
Lemma F_read0 h s : file_ops (rep true s) (QRead h 0) = (rep true s, ARead (if false then r_success else r_failure) []).
Proof. reflexivity. Qed.
Lemma F_close h s : file_ops (rep true s) (QClose h) = (rep false s, ARes r_success).
Proof. reflexivity. Qed.
Lemma F_iso h s : file_ops (rep true s) (QIsoUb h) = (rep true s, AUnit).
Proof. reflexivity. Qed.

Lemma f_next inp ds e rest r fuel : parse DEFAULT_MAX inp ds e rest -> reading DEFAULT_MAX r -> (length inp < fuel)%nat ->
  next_result r_stop cfile file_ops rep DEFAULT_MAX inp r fuel ds e rest.
Proof.
  intros P R L.
  apply (parse_next r_stop false ltac:(discriminate) cfile file_ops rep F_read True F_short F_read0 F_close F_iso DEFAULT_MAX inp ds e rest); auto.
Qed.

Lemma f_open h st inp r : d = ctl_frame T_START st ++ inp -> ctl_ok T_START st ->
  reader_init reader_options_default (file_reader_rdwr h) = Some r ->
  exists r', exec file_ops (input d) (reader_open r) = (rep true inp, Done (r_success, r')) /\
    reading DEFAULT_MAX r' /\ r_start r' = Some (mk_control T_START st) /\ same_ops (file_reader_rdwr h) (r_rdwr r') /\
    r_stop_c r' = None.
Proof.
  intros E K [= <-].
  destruct (src_open false cfile file_ops rep F_read F_close F_read0 F_iso
     (mk_reader rs_opening [] 1048576 (file_reader_rdwr h) None None None None None FSTRM_CONTROL_FRAME_LENGTH_MAX) (input d) [] st inp)
     as (r' & X & (O1 & O2 & O3 & O4 & O5 & O6 & O7) & OS); auto; try discriminate.
  - intros h0. cbn [app r_rdwr file_reader_rdwr rw_has_write]. unfold input, file_ops, file_op_open. cbn [f_fp f_write f_data]. unfold file_src.
    rewrite <- E. reflexivity.
  - exact ready_nil_ok.
  - change (open_result _ st) with r_success in *. exists r'. split; [exact X|]. split; [|auto].
    split; auto. rewrite O6. cbn. unfold FSTRM_CONTROL_FRAME_LENGTH_MAX. lia.
Qed.

(** Not a stream. *)
Lemma f_control_bad rw oc s : canread rw -> no_stream s ->
  exists x c rw' s', exec file_ops (rep true s) (read_control rw oc T_START) = (rep (rw_opened rw') s', Done (x, Some c, rw')) /\
    x <> r_success /\ same_ops rw rw'.
Proof.
  intros C NS. unfold read_control, read_control_frame. rewrite exec_bind, exec_bind. set (c0 := match oc with None => control_init | Some c => c end).
  destruct (N.lt_ge_cases (lenN s) 4) as [L4|L4].
  { rewrite (src_short r_stop ltac:(discriminate) cfile file_ops rep True F_short F_close rw 4 s I C L4).
    cbn [res_eqb negb exec]. exists r_stop, c0, (set_opened rw false), []. repeat split; try discriminate. apply same_ops_set. }
  destruct (split_at s 4) as (h & b & -> & Lh); [unfold lenN in L4; lia|].
  assert (Eh : h = be32 (ntohl_bytes h)) by (rewrite be32_ntohl by lia; symmetry; apply firstn_all2; lia).
  rewrite (src_read_n false cfile file_ops rep F_read F_read0 F_close F_iso rw 4 h b) by (assumption || reflexivity || unfold lenN; lia).
  cbn [res_eqb negb]. destruct (ntohl_bytes h =? 0) eqn:E0; cbn [negb].
  2:{ cbn [exec res_eqb negb]. exists r_failure, c0, rw, b. rewrite (proj1 C). repeat split; try discriminate. apply same_ops_refl. }
  apply N.eqb_eq in E0. rewrite E0 in Eh.
  destruct (N.lt_ge_cases (lenN b) 4) as [B4|B4].
  { rewrite (src_tail_eof1 r_stop ltac:(discriminate) cfile file_ops rep True F_short F_close rw c0 b I C B4).
    cbn [res_eqb negb exec]. exists r_stop, c0, (set_opened rw false), []. repeat split; try discriminate. apply same_ops_set. }
  destruct (split_at b 4) as (h2 & b2 & -> & Lh2); [unfold lenN in B4; lia|].
  assert (Eh2 : h2 = be32 (ntohl_bytes h2)) by (rewrite be32_ntohl by lia; symmetry; apply firstn_all2; lia).
  pose proof (ntohl_lt h2) as Hlt2. set (cl := ntohl_bytes h2) in *. clearbody cl. subst h2.
  destruct (N.lt_ge_cases CTL_MAX cl) as [C1|C1].
  { rewrite (src_tail_long false cfile file_ops rep F_read F_read0 F_close F_iso rw c0 cl b2 C C1 Hlt2).
    cbn [res_eqb negb exec]. exists r_failure, c0, rw, b2. rewrite (proj1 C). repeat split; try discriminate. apply same_ops_refl. }
  destruct (N.lt_ge_cases (lenN b2) cl) as [C2|C2].
  { rewrite (src_tail_eof2 r_stop false ltac:(discriminate) cfile file_ops rep F_read True F_short F_read0 F_close F_iso rw c0 cl b2 I C C1 C2).
    cbn [res_eqb negb exec]. exists r_stop, c0, (set_opened rw false), []. repeat split; try discriminate. apply same_ops_set. }
  destruct (split_at b2 (N.to_nat cl)) as (p & b3 & -> & Lp); [unfold lenN in C2; lia|].
  assert (Hp : cl = lenN p) by (unfold lenN; lia). subst cl.
  destruct (decode_noheader control_init p) as (x & c' & D & Hr & Hs). destruct Hr as [-> | ->].
  - destruct (Hs eq_refl) as [K EP]. destruct c' as [t cts]. cbn [c_type c_cts] in *. subst p. rewrite app_assoc. fold (ctail t cts).
    rewrite (src_tail_ok false cfile file_ops rep F_read F_read0 F_close F_iso rw c0 t cts b3 C K).
    cbn [res_eqb negb]. destruct (t =? T_START) eqn:ET.
    + apply N.eqb_eq in ET. subst t. destruct (NS cts b3 K). rewrite Eh. unfold ctl_frame. rewrite <- !app_assoc. reflexivity.
    + cbn [negb exec]. exists r_failure, (mk_control t cts), rw, b3. rewrite (proj1 C). repeat split; try discriminate. apply same_ops_refl.
  - destruct (src_tail_bad false cfile file_ops rep F_read F_read0 F_close F_iso rw c0 p b3 C C1) as (c2 & rw' & E & So).
    { intros t cts K ->. pose proof (control_decode_complete control_init t cts 0 [] K) as D'.
      change (N.odd 0) with false in D'. cbn [ctl_wire] in D'. rewrite app_nil_r in D'. congruence. }
    rewrite E. cbn [res_eqb negb exec]. exists r_failure, c2, rw', b3. repeat split; try discriminate. exact So.
Qed.

Lemma f_open_bad h r : no_stream d -> reader_init reader_options_default (file_reader_rdwr h) = Some r ->
  exists x f' r', exec file_ops (input d) (reader_open r) = (f', Done (x, r')) /\ x <> r_success /\
    f_data f' = d /\ f_write f' = false /\ same_ops (file_reader_rdwr h) (r_rdwr r').
Proof.
  intros NS [= <-]. unfold reader_open. cbn [r_state r_rdwr]. rewrite exec_bind. unfold rdwr_open at 1.
  cbn [rw_has_open file_reader_rdwr negb ask_res bind exec]. cbn [input file_ops file_op_open f_fp f_write f_data bind res_eqb exec].
  cbv zeta. cbn [res_eqb negb]. rewrite exec_bind. cbn [set_rrdwr r_rdwr set_opened rw_has_write file_reader_rdwr].
  unfold reader_open_unidirectional. rewrite exec_bind. change FSTRM_CONTROL_START with T_START. cbn [r_rdwr r_start].
  change (mk_cfile false d (Some d)) with (rep true d).
  destruct (f_control_bad (mk_rdwr h true true true true false true) None d) as (x & c & rw' & s' & E & NE & So); auto.
  { repeat split. }
  match goal with |- context [exec file_ops ?s (read_control ?rw ?oc T_START)] =>
    change (exec file_ops s (read_control rw oc T_START)) with (exec file_ops (rep true d) (read_control (mk_rdwr h true true true true false true) None T_START)) end.
  rewrite E. cbv zeta. destruct (res_eqb x r_success) eqn:EX; [apply res_eqb_true in EX; contradiction|]. cbn [negb exec]. rewrite EX. cbn [negb exec].
  eexists x, _, _. split; [reflexivity|]. split; [assumption|]. split; [reflexivity|]. split; [reflexivity|]. cbn [set_rstart set_rrdwr r_rdwr].
  eapply same_ops_trans; [apply (same_ops_set (file_reader_rdwr h) true)|exact So].
Qed.
End OneFile.

(** Destroying a reader never changes the file. *)
Lemma f_destroy h f r : same_ops (file_reader_rdwr h) (r_rdwr r) -> f_write f = false ->
  exists f' x, exec file_ops f (reader_destroy r) = (f', Done x) /\ f_data f' = f_data f /\ f_write f' = false.
Proof.
  intros [b E] Fw. unfold reader_destroy.
  assert (G : exists f' x r', exec file_ops f (match r_state r with rs_opened | rs_closing => reader_close r | _ => Ret (r_failure, r) end) =
     (f', Done (x, r')) /\ f_data f' = f_data f /\ f_write f' = false /\ same_ops (file_reader_rdwr h) (r_rdwr r')).
  { assert (G0 : exists f' x r', exec file_ops f (reader_close r) =
     (f', Done (x, r')) /\ f_data f' = f_data f /\ f_write f' = false /\ same_ops (file_reader_rdwr h) (r_rdwr r')).
    2:{ destruct (r_state r); try exact G0; (exists f, r_failure, r; repeat split; auto; exists b; exact E). }
    unfold reader_close.
    assert (G1 : exists f' x r', exec file_ops f (bind (rdwr_close (r_rdwr r)) (fun z => match z with (x, rw) => Ret (x, set_rrdwr (set_rstate r rs_closed) rw) end)) =
     (f', Done (x, r')) /\ f_data f' = f_data f /\ f_write f' = false /\ same_ops (file_reader_rdwr h) (r_rdwr r')).
    { rewrite E. unfold rdwr_close. cbn [set_opened file_reader_rdwr rw_has_close rw_opened negb]. destruct b.
      - cbn [bind ask_res exec]. cbn [file_ops]. unfold file_op_close. destruct (f_fp f) eqn:EF; cbn [bind exec].
        + eexists _, _, _. split; [reflexivity|]. repeat split; auto. cbn [set_rrdwr r_rdwr]. apply (same_ops_set (file_reader_rdwr h)).
        + eexists _, _, _. split; [reflexivity|]. repeat split; auto. cbn [set_rrdwr r_rdwr]. apply (same_ops_set (file_reader_rdwr h)).
      - cbn [bind exec]. eexists _, _, _. split; [reflexivity|]. repeat split; auto. cbn [set_rrdwr r_rdwr]. apply (same_ops_set (file_reader_rdwr h)). }
    cbn [set_rstate r_rdwr]. assert (HW : rw_has_write (r_rdwr r) = false) by (rewrite E; reflexivity). rewrite HW.
    destruct (r_state r); try exact G1; (exists f, r_failure, r; repeat split; auto; exists b; exact E). }
  destruct G as (f' & x & r' & EG & D & W & [b' So]). rewrite exec_bind, EG, exec_bind, So.
  cbn. exists f', x. auto.
Qed.

Lemma rat_ops h r : same_ops (file_reader_rdwr h) (r_rdwr r) -> rat h r.
Proof. intros [b E]. unfold rat. rewrite E. reflexivity. Qed.
Lemma same_file h r r' : same_ops (file_reader_rdwr h) (r_rdwr r) -> same_r r r' -> same_ops (file_reader_rdwr h) (r_rdwr r').
Proof. intros H S. eapply same_ops_trans; [exact H|apply S]. Qed.

Lemma asks_print h r : rat h r -> asks (on h) (fun z => rat h (snd z)) (print_stop_frame r).
Proof. intro H. eapply asks_bind; [apply asks_rget; exact H|]. intros [[x c] r1] H1. exact H1. Qed.

Lemma f_read d fuel inp ds e rest r : parse DEFAULT_MAX inp ds e rest -> reading DEFAULT_MAX r -> (length inp < fuel)%nat ->
  match ds with
  | d0 :: ds' => exists r' inp', exec file_ops (file_src d true inp) (reader_read fuel r) = (file_src d true inp', Done (r_success, Some d0, r')) /\
      parse DEFAULT_MAX inp' ds' e rest /\ (length inp' < length inp)%nat /\ reading DEFAULT_MAX r' /\ same_r r r'
  | [] => exists f' r', exec file_ops (file_src d true inp) (reader_read fuel r) = (f', Done (ending_result r_stop e, None, r')) /\
      f_data f' = d /\ f_write f' = false /\ (r_state r' = rs_failed \/ r_state r' = rs_closing) /\ same_r r r'
  end.
Proof.
  intros P R L. pose proof (f_next d _ _ _ _ r fuel P R L) as N. unfold next_result in N.
  rewrite read_opened by apply R. destruct ds; [|exact N].
  destruct N as (r' & E & En & S). eexists _, r'. split; [exact E|]. repeat split; auto; try apply S.
  pose proof (ended_dead _ _ En). exact H.
Qed.

Lemma f_print f r : (r_state r = rs_failed \/ r_state r = rs_closing) ->
  exec file_ops f (print_stop_frame r) = (f, Done (r_success, r)).
Proof.
  intros [S|S]; unfold print_stop_frame, reader_get_control, reader_maybe_open; rewrite S; reflexivity.
Qed.

(** ** The loop of fstrm_dump *)
Definition oversize (e : ending) : bool := match e with E_oversize => true | _ => false end.

Lemma dump_copies {B C} (S : list cfile * B -> C -> Prop) d e rest k : forall fuel rfuel inp ds r w out k',
  parse DEFAULT_MAX inp ds e rest -> reading DEFAULT_MAX r -> same_ops (file_reader_rdwr 0) (r_rdwr r) -> wat 1 w ->
  (length inp < fuel)%nat -> (length inp < rfuel)%nat ->
  (forall n ok f1 r1 w1, f_data f1 = d -> f_write f1 = false -> same_ops (file_reader_rdwr 0) (r_rdwr r1) -> wat 1 w1 ->
     ok && oversize e = false ->
     sim S (on_files 0 [f1] (k (ok && dump_status e, out ++ printed (firstn n ds), r1, Some w1))) (k' (n, ok, w1))) ->
  sim S (on_files 0 [file_src d true inp] (bind (dump_loop fuel rfuel r (Some w) out) k))
    (bind (write_each w ds) (fun z => match z with (n, ok, w) => if ok && oversize e then Fail (FUb ub_uninit) else k' (n, ok, w) end)).
Proof.
  induction fuel as [|fuel IH]; intros rfuel inp ds r w out k' P R So W L1 L2 K; [lia|].
  cbn [dump_loop]. apply sim_assoc_l.
  pose proof (f_read d rfuel inp ds e rest r P R L2) as N.
  destruct ds as [|d0 ds].
  - destruct N as (f' & r' & E & D & Fw & St & Sm).
    rewrite (on_files_local 0 0 _ _ _ [_] f' _ (asks_rread 0 rfuel r (rat_ops _ _ So)) ltac:(cbn; lia) E). cbn [set_nth write_each bind].
    pose proof (same_file _ _ _ So Sm) as So'.
    specialize (K 0%nat true f' r' w D Fw So' W). cbn [firstn] in K. change (printed []) with (@nil byte) in K. rewrite app_nil_r in K.
    destruct e; cbn [ending_result dump_status oversize andb] in *; try (apply K; reflexivity).
    + apply sim_assoc_l. rewrite (on_files_local 0 0 _ _ _ [_] _ _ (asks_print 0 r' (rat_ops _ _ So')) ltac:(cbn; lia) (f_print f' r' St)).
      apply K. reflexivity.
    + apply sim_assoc_l. rewrite (on_files_local 0 0 _ _ _ [_] _ _ (asks_print 0 r' (rat_ops _ _ So')) ltac:(cbn; lia) (f_print f' r' St)).
      apply K. reflexivity.
    + constructor.
  - destruct N as (r' & inp' & E & P' & L' & R' & Sm).
    rewrite (on_files_local 0 0 _ _ _ [_] _ _ (asks_rread 0 rfuel r (rat_ops _ _ So)) ltac:(cbn; lia) E). cbn [set_nth write_each].
    pose proof (same_file _ _ _ So Sm) as So'. cbv zeta. apply sim_assoc_l, sim_assoc_r.
    apply sim_local with (J := fun z => wat 1 (snd z)).
    { eapply asks_weaken; [|apply asks_writev; exact W]. intros q. apply on_outside. cbn. lia. }
    intros [x w1] W1. cbn [snd] in W1. destruct (negb (res_eqb x r_success)).
    + cbn [bind]. pose proof (K 1%nat false (file_src d true inp') r' w1 eq_refl eq_refl So' W1 eq_refl) as K1.
      cbn [firstn andb] in K1. unfold printed in K1. cbn [map concat] in K1. rewrite app_nil_r in K1. exact K1.
    + apply sim_assoc_r.
      eapply sim_r; [|apply (IH rfuel inp' ds r' w1 (out ++ print_data_frame d0) (fun z => match z with (n, ok, w) => k' (Datatypes.S n, ok, w) end) P' R' So' W1)]; try lia.
      * apply bind_ext. intros [[n ok] w2]. reflexivity.
      * intros n ok f1 r1 w2 D1 Fw1 So1 W2 OE. pose proof (K (1 + n)%nat ok f1 r1 w2 D1 Fw1 So1 W2 OE) as K1.
        cbn [plus firstn] in K1. unfold printed in *. cbn [map concat] in K1. rewrite app_assoc in K1. exact K1.
Qed.

(** ** fstrm_dump *)
Definition copy_ub (over : bool) (w : writer) (ds : list bytes) : io (nat * bool) :=
  bind (writer_open w) (fun z => match z with (x, w) =>
  if negb (res_eqb x r_success) then bind (writer_destroy w) (fun _ => Ret (0%nat, false))
  else bind (write_each w ds) (fun z => match z with (n, ok, w) =>
    if ok && over then Fail (FUb ub_uninit)
    else bind (writer_close w) (fun z => match z with (x, w) =>
      bind (writer_destroy w) (fun _ => Ret (n, ok && res_eqb x r_success)) end) end) end).

Lemma copy_ub_false w ds : sim eq (copy_ub false w ds) (copy w ds).
Proof.
  unfold copy_ub, copy. apply bind_ext'. intros [x w1]. destruct (negb _); [apply sim_refl; reflexivity|].
  apply bind_ext. intros [[n ok] w2]. rewrite andb_false_r. reflexivity.
Qed.

Definition dump_rel (d : bytes) (ds : list bytes) (e : ending) (x : list cfile * (bool * bytes)) (y : nat * bool) : Prop :=
  map f_data (fst x) = [d] /\ snd x = (snd y && dump_status e, printed (firstn (fst y) ds)).

Lemma asks_start h r o : rat h r -> asks (on h) (fun z => rat h (snd z)) (process_start_frame r o).
Proof.
  intro H. unfold process_start_frame. eapply asks_bind; [apply asks_rget; exact H|]. intros [[x c] r1] H1. cbn [snd] in H1.
  destruct (negb _); [exact H1|]. destruct c as [[c|]|]; try exact I.
  destruct (control_get_num c) as [x2 n]. destruct (negb _); [exact H1|].
  match goal with |- asks _ _ (match ?s with _ => _ end) => destruct s as [x3 ct] end.
  destruct (negb _); [exact H1|]. destruct o; [|exact H1]. destruct ct; [|exact H1].
  destruct (writer_options_add_content_type _ _); exact H1.
Qed.

Lemma f_start f r st o : r_state r = rs_opened -> r_start r = Some (mk_control T_START st) -> ctl_ok T_START st ->
  exec file_ops f (process_start_frame r o) = (f, Done (r_success, match o with Some cts => Some (cts ++ st) | None => None end, r)).
Proof.
  intros S E K. unfold process_start_frame, reader_get_control, reader_maybe_open. rewrite S. cbn [bind res_eqb negb].
  change (FSTRM_CONTROL_START =? FSTRM_CONTROL_START) with true. cbn [bind]. rewrite E. cbn [res_eqb negb].
  pose proof (ok_start _ _ K eq_refl) as L. pose proof (ok_len _ _ K) as CT.
  destruct st as [|ct [|? ?]]; cbn in L; try lia.
  - destruct o; cbn; rewrite ?app_nil_r; reflexivity.
  - inversion_clear CT. destruct o as [o|]; [|reflexivity]. cbn. unfold writer_options_add_content_type.
    unfold CT_MAX, FSTRM_CONTROL_FIELD_CONTENT_TYPE_LENGTH_MAX in *. destruct (256 <? lenN ct) eqn:E1; [lia|]. reflexivity.
Qed.

Lemma sim_destroy {B C} (S : list cfile * B -> C -> Prop) f r (k : res -> io B) q :
  same_ops (file_reader_rdwr 0) (r_rdwr r) -> f_write f = false ->
  (forall f' x, f_data f' = f_data f -> f_write f' = false -> sim S (on_files 0 [f'] (k x)) q) ->
  sim S (on_files 0 [f] (bind (reader_destroy r) k)) q.
Proof.
  intros So Fw K. destruct (f_destroy 0 f r So Fw) as (f' & x & E & D & W).
  rewrite (on_files_local 0 0 _ _ _ [_] f' _ (asks_rdestroy 0 r (rat_ops _ _ So)) ltac:(cbn; lia) E). cbn [set_nth]. auto.
Qed.

Lemma wat_init iovm cts h w : writer_init iovm cts (file_writer_rdwr h) = Some w -> wat h w.
Proof. intros [= <-]. reflexivity. Qed.

Lemma out1 {A} (I : A -> Prop) f p : asks (on 1) I p -> asks (outside 0 (length [f : cfile])) I p.
Proof. apply asks_weaken. intro q. apply on_outside. cbn. lia. Qed.

Lemma length_start st inp : (length inp < length (ctl_frame T_START st ++ inp))%nat.
Proof. unfold ctl_frame. rewrite !app_length, length_be32. lia. Qed.

Lemma dump_sim d st ds e fuel iovm w : stream_file d st ds e -> (length d <= fuel)%nat ->
  writer_init iovm st (file_writer_rdwr 1) = Some w ->
  sim (dump_rel d ds e) (on_files 0 [input d] (dump_main fuel iovm true)) (copy_ub (oversize e) w ds).
Proof.
  intros (K & inp & rest & E & P) L Hw.
  assert (Li : (length inp < fuel)%nat) by (pose proof (length_start st inp); subst d; lia).
  unfold dump_main. destruct (reader_init reader_options_default (file_reader_rdwr 0)) as [r|] eqn:EI; [|discriminate].
  destruct (f_open d 0 st inp r E K EI) as (r1 & X & R & Es & So & _).
  assert (R0 : rat 0 r) by (injection EI as <-; reflexivity).
  rewrite (on_files_local 0 0 _ _ _ [_] _ _ (asks_ropen 0 r R0) ltac:(cbn; lia) X). cbn [set_nth res_eqb negb].
  rewrite (on_files_local 0 0 _ _ _ [_] _ _ (asks_start 0 r1 (Some []) (rat_ops _ _ So)) ltac:(cbn; lia)
     (f_start _ r1 st (Some []) (rd_state _ _ R) Es K)).
  cbn [set_nth res_eqb negb app]. rewrite Hw. unfold copy_ub.
  apply sim_local with (J := fun z => wat 1 (snd z)).
  { apply out1, asks_wopen, (wat_init iovm st), Hw. }
  intros [x w1] W1. cbn [snd] in W1. destruct (negb (res_eqb x r_success)).
  - apply sim_local with (J := fun _ => True); [apply out1, asks_wdestroy, W1|]. intros z _. unfold dump_cleanup.
    apply sim_assoc_l. apply sim_destroy; auto. intros f' y D W. cbn [bind on_files]. constructor. split; [cbn; rewrite D; reflexivity|reflexivity].
  - apply dump_copies with (rest := rest) (k' := fun z => match z with (n, ok, w) => bind (writer_close w) (fun z => match z with (x, w) =>
      bind (writer_destroy w) (fun _ => Ret (n, ok && res_eqb x r_success)) end) end); auto.
    intros n ok f1 r2 w2 D1 Fw1 So1 W2 OE. cbn [app]. unfold dump_cleanup.
    apply sim_assoc_l. apply sim_destroy; auto. intros f' y D W. apply sim_assoc_l.
    apply sim_local with (J := fun z => wat 1 (snd z)); [apply out1, asks_wclose, W2|].
    intros [x2 w3] W3. cbn [snd] in W3. apply sim_assoc_l.
    apply sim_local with (J := fun _ => True); [apply out1, asks_wdestroy, W3|]. intros z _. cbn [bind on_files]. constructor.
    split; [cbn; congruence|]. cbn [snd fst]. f_equal. destruct (res_eqb x2 r_success), ok, (dump_status e); reflexivity.
Qed.

(** Without an output file. *)
Lemma dump_prints {B} d e rest (k : _ -> io B) : forall fuel rfuel inp ds r out,
  parse DEFAULT_MAX inp ds e rest -> reading DEFAULT_MAX r -> same_ops (file_reader_rdwr 0) (r_rdwr r) ->
  (length inp < fuel)%nat -> (length inp < rfuel)%nat ->
  exists f1 r1, f_data f1 = d /\ f_write f1 = false /\ same_ops (file_reader_rdwr 0) (r_rdwr r1) /\
  sim eq (on_files 0 [file_src d true inp] (bind (dump_loop fuel rfuel r None out) k))
   (if oversize e then Fail (FUb ub_uninit) else on_files 0 [f1] (k (dump_status e, out ++ printed ds, r1, None))).
Proof.
  induction fuel as [|fuel IH]; intros rfuel inp ds r out P R So L1 L2; [lia|].
  pose proof (f_read d rfuel inp ds e rest r P R L2) as N.
  destruct ds as [|d0 ds].
  - destruct N as (f' & r' & E & D & Fw & St & Sm). pose proof (same_file _ _ _ So Sm) as So'.
    exists f', r'. split; [assumption|]. split; [assumption|]. split; [assumption|].
    cbn [dump_loop]. apply sim_assoc_l.
    rewrite (on_files_local 0 0 _ _ _ [_] f' _ (asks_rread 0 rfuel r (rat_ops _ _ So)) ltac:(cbn; lia) E). cbn [set_nth].
    change (printed []) with (@nil byte). rewrite app_nil_r.
    destruct e; cbn [ending_result dump_status oversize bind] in *; try (apply sim_refl; reflexivity).
    + apply sim_assoc_l. rewrite (on_files_local 0 0 _ _ _ [_] _ _ (asks_print 0 r' (rat_ops _ _ So')) ltac:(cbn; lia) (f_print f' r' St)).
      apply sim_refl; reflexivity.
    + apply sim_assoc_l. rewrite (on_files_local 0 0 _ _ _ [_] _ _ (asks_print 0 r' (rat_ops _ _ So')) ltac:(cbn; lia) (f_print f' r' St)).
      apply sim_refl; reflexivity.
  - destruct N as (r' & inp' & E & P' & L' & R' & Sm). pose proof (same_file _ _ _ So Sm) as So'.
    destruct (IH rfuel inp' ds r' (out ++ print_data_frame d0) P' R' So') as (f1 & r1 & D1 & W1 & So1 & H1); [lia|lia|].
    exists f1, r1. split; [assumption|]. split; [assumption|]. split; [assumption|].
    cbn [dump_loop]. apply sim_assoc_l.
    rewrite (on_files_local 0 0 _ _ _ [_] _ _ (asks_rread 0 rfuel r (rat_ops _ _ So)) ltac:(cbn; lia) E). cbn [set_nth].
    cbv zeta. unfold printed in *. cbn [map concat]. rewrite app_assoc. exact H1.
Qed.

Lemma dump_stdout d st ds e fuel iovm : stream_file d st ds e -> (length d <= fuel)%nat ->
  sim (fun x _ => map f_data (fst x) = [d] /\ snd x = (dump_status e, printed ds)) (on_files 0 [input d] (dump_main fuel iovm false))
    (if oversize e then Fail (FUb ub_uninit) else Ret tt).
Proof.
  intros (K & inp & rest & E & P) L.
  assert (Li : (length inp < fuel)%nat) by (pose proof (length_start st inp); subst d; lia).
  unfold dump_main. destruct (reader_init reader_options_default (file_reader_rdwr 0)) as [r|] eqn:EI; [|discriminate].
  destruct (f_open d 0 st inp r E K EI) as (r1 & X & R & Es & So & _).
  assert (R0 : rat 0 r) by (injection EI as <-; reflexivity).
  rewrite (on_files_local 0 0 _ _ _ [_] _ _ (asks_ropen 0 r R0) ltac:(cbn; lia) X). cbn [set_nth res_eqb negb].
  rewrite (on_files_local 0 0 _ _ _ [_] _ _ (asks_start 0 r1 None (rat_ops _ _ So)) ltac:(cbn; lia)
     (f_start _ r1 st None (rd_state _ _ R) Es K)).
  cbn [set_nth res_eqb negb app].
  match goal with |- sim _ (on_files _ _ (bind _ ?k)) _ =>
    destruct (dump_prints d e rest k fuel fuel inp ds r1 [] P R So Li Li) as (f1 & r2 & D1 & W1 & So1 & H1) end.
  eapply sim_l; [exact H1|]. destruct (oversize e); [constructor|]. cbn [app]. unfold dump_cleanup. apply sim_assoc_l.
  apply sim_destroy; auto. intros f' y D W. cbn [bind on_files]. constructor. split; [cbn; congruence|reflexivity].
Qed.

(** Not a stream: nothing is written and the exit status is a failure. *)
Lemma dump_bad d fuel iovm output : no_stream d ->
  sim (fun x _ => map f_data (fst x) = [d] /\ snd x = (false, [])) (on_files 0 [input d] (dump_main fuel iovm output)) (Ret tt).
Proof.
  intros NS. unfold dump_main. destruct (reader_init reader_options_default (file_reader_rdwr 0)) as [r|] eqn:EI; [|discriminate].
  destruct (f_open_bad d 0 r NS EI) as (x & f' & r' & E & NE & D & W & So).
  assert (R0 : rat 0 r) by (injection EI as <-; reflexivity).
  rewrite (on_files_local 0 0 _ _ _ [_] _ _ (asks_ropen 0 r R0) ltac:(cbn; lia) E). cbn [set_nth].
  destruct (res_eqb x r_success) eqn:EX; [apply res_eqb_true in EX; contradiction|]. cbn [negb]. unfold dump_cleanup. apply sim_assoc_l.
  apply sim_destroy; auto. intros f2 y D2 W2. cbn [bind on_files]. constructor. split; [cbn; congruence|reflexivity].
Qed.

(** Options objects and object creation. *)
From Verif Require Import Bytes Spec SpecTrace SpecStream SpecControl Io Control Rdwr Writer Reader Api OptApi SpecApi SpecOptions
  Bytes_proofs Io_proofs Control_proofs Writer2_proofs.
Local Open Scope N_scope.

Lemma wopts_eq ks o : do_wopts o ks = (map (fun k => res_of (type_fits k)) ks, o ++ filter type_fits ks).
Proof.
  revert o. induction ks as [|k ks IH]; intro o; cbn [do_wopts map filter].
  - rewrite app_nil_r. reflexivity.
  - unfold writer_options_add_content_type, type_fits at 1 3. rewrite (N.leb_antisym CT_MAX (lenN k)).
    unfold FSTRM_CONTROL_FIELD_CONTENT_TYPE_LENGTH_MAX, CT_MAX. destruct (256 <? lenN k); rewrite IH; cbn [negb res_of].
    + reflexivity.
    + rewrite <- app_assoc. reflexivity.
Qed.

Lemma last_cons {A} (l : list A) (d x : A) : last (x :: l) d = last l x.
Proof.
  revert d x. induction l as [|y l IH]; intros d x; [reflexivity|].
  change (last (x :: y :: l) d) with (last (y :: l) d). rewrite (IH d y), (IH x y). reflexivity.
Qed.

Lemma ropts_eq ks o : do_ropts o ks =
  (map (fun k => res_of (opt_fits k)) ks,
   mk_ropt (ro_cts o ++ types_of ks)
     (last (flat_map (fun k => match k with OAdd _ => [] | OMax n => if size_fits n then [n] else [] end) ks) (ro_max o))).
Proof.
  revert o. induction ks as [|k ks IH]; intro o; cbn [do_ropts map types_of flat_map].
  - rewrite app_nil_r. destruct o. reflexivity.
  - destruct k as [ct|n]; cbn [do_ropt opt_fits app].
    + unfold reader_options_add_content_type. fold (types_of ks). unfold type_fits. rewrite (N.leb_antisym CT_MAX (lenN ct)).
      unfold FSTRM_CONTROL_FIELD_CONTENT_TYPE_LENGTH_MAX, CT_MAX. destruct (256 <? lenN ct); rewrite IH; cbn [negb res_of app ro_cts ro_max].
      * reflexivity.
      * rewrite <- app_assoc. reflexivity.
    + unfold reader_options_set_max_frame_size, FSTRM_CONTROL_FRAME_LENGTH_MAX.
      assert ((n <? 512) || (2 ^ 32 - 1 - 1 <? n) = negb (size_fits n)) as ->.
      { unfold size_fits. change (2 ^ 32 - 1 - 1) with 4294967294.
        destruct (n <? 512) eqn:A, (4294967294 <? n) eqn:B, (512 <=? n) eqn:C, (n <=? 4294967294) eqn:D; cbn; try reflexivity; lia. }
      fold (types_of ks). destruct (size_fits n); cbn [negb]; rewrite IH; cbn [res_of app ro_cts ro_max].
      * rewrite last_cons. reflexivity.
      * reflexivity.
Qed.

Lemma reader_options_meaning ks :
  do_ropts reader_options_default ks =
  (map (fun k => res_of (opt_fits k)) ks, mk_ropt (types_of ks) (limit_of ks)).
Proof. exact (ropts_eq ks reader_options_default). Qed.

Lemma limit_range ks : 512 <= limit_of ks <= 4294967294.
Proof.
  unfold limit_of.
  set (l := flat_map _ ks).
  assert (Forall (fun n => size_fits n = true) l) as F.
  { subst l. induction ks as [|[ct|n] ks IH]; cbn [flat_map app]; [constructor|exact IH|].
    destruct (size_fits n) eqn:E; [constructor; assumption|exact IH]. }
  assert (size_fits (last l 1048576) = true) as H.
  { clearbody l. assert (size_fits 1048576 = true) as D by reflexivity. revert D. generalize 1048576.
    induction F as [|x l Hx F IH]; intros d D; [exact D|]. rewrite last_cons. apply IH. exact Hx. }
  unfold size_fits in H. lia.
Qed.

Lemma types_fit ks : Forall (fun ct => lenN ct <= CT_MAX) (filter type_fits ks).
Proof.
  apply Forall_forall. intros x H. apply filter_In in H. destruct H as [_ H]. unfold type_fits in H. lia.
Qed.

Lemma rtypes_fit ks : Forall (fun ct => lenN ct <= CT_MAX) (types_of ks).
Proof.
  induction ks as [|[ct|n] ks IH]; cbn [types_of flat_map app]; [constructor| |exact IH].
  destruct (type_fits ct) eqn:E; [constructor|]; [unfold type_fits in E; lia|exact IH|exact IH].
Qed.

(** Too many content types for a READY frame. *)
Lemma add_all_cts cts c : c_type (add_all c cts) = c_type c /\ c_cts (add_all c cts) = c_cts c ++ cts.
Proof.
  revert c. induction cts as [|ct cts IH]; intro c; cbn [add_all]; [rewrite app_nil_r; auto|].
  destruct (IH (snd (control_add_field c ct))) as [A B]. rewrite A, B. cbn. rewrite <- app_assoc. auto.
Qed.

Lemma ready_unsendable w : ~ fits true T_READY (w_cts w) ->
  exists w', writer_open_bidirectional w = Ret (r_failure, w') /\ w_state w' = w_state w /\ w_cts w' = w_cts w /\ w_rdwr w' = w_rdwr w.
Proof.
  intro F. unfold writer_open_bidirectional.
  assert (control_set_type (reset_or_init (w_ready w)) FSTRM_CONTROL_READY = (r_success, mk_control T_READY [])) as ->.
  { unfold reset_or_init. destruct (w_ready w); reflexivity. }
  unfold write_control_frame. destruct (add_all_cts (w_cts w) (mk_control T_READY [])) as [A B].
  set (c := add_all _ _) in *. cbn in A, B.
  destruct (encodable_iff c 1) as [_ N]. change (N.odd 1) with true in N. rewrite A, B in N.
  rewrite (N F). cbn. eexists. repeat split.
Qed.

Record mute (w : writer) : Prop := {
  mu_state : w_state w = ws_opening; mu_read : rw_has_read (w_rdwr w) = true; mu_ready : ~ fits true T_READY (w_cts w)
}.

Definition nothing_sent (tr : trace) : Prop := forall h iov a, ~ In (QWrite h iov, a) tr.

Lemma nothing_snoc tr q a : nothing_sent tr -> (forall h iov, q <> QWrite h iov) -> nothing_sent (tr ++ [(q, a)]).
Proof.
  intros N D h iov b H. apply in_app_or in H. destruct H as [H|[H|[]]]; [exact (N _ _ _ H)|].
  injection H as E _. exact (D _ _ E).
Qed.

Definition mute_post (tr : trace) (o : out (res * writer)) : Prop :=
  nothing_sent tr /\ match o with Done (x, w') => mute w' /\ x <> r_success | Stuck _ => False | Cut => True end.

Lemma mute_open w h : mute w -> nothing_sent h -> wp (writer_open w) mute_post h.
Proof.
  intros [S R F] N. unfold writer_open. rewrite S. unfold rdwr_open.
  destruct (rw_has_open (w_rdwr w)); cbn [negb bind].
  2:{ cbn. split; [exact N|]. split; [constructor; assumption|discriminate]. }
  cbn -[writer_open_bidirectional]. split; [split; [exact N|exact I]|]. intros a A. destruct a; try contradiction. cbn -[writer_open_bidirectional].
  assert (nothing_sent (h ++ [(QOpen (rw_h (w_rdwr w)), ARes r)])) as N' by (apply nothing_snoc; [exact N|discriminate]).
  destruct (res_eqb r r_success) eqn:E; cbn -[writer_open_bidirectional].
  - rewrite E. cbn -[writer_open_bidirectional]. rewrite R.
    destruct (ready_unsendable (set_wrdwr w (set_opened (w_rdwr w) true)) F) as (w' & EQ & S' & C' & R').
    rewrite EQ. cbn. split; [exact N'|]. split; [|discriminate].
    constructor; [rewrite S'; exact S|rewrite R'; exact R|rewrite C'; exact F].
  - rewrite E. cbn. split; [exact N'|]. split; [constructor; assumption|]. intros ->. discriminate E.
Qed.

Lemma mute_call w c h : mute w -> nothing_sent h ->
  wp (do_wcall w c) (fun tr o => nothing_sent tr /\
    match o with
    | Done (x, w') => mute w' /\ (c = WOpen \/ wpayloads c <> [] -> x <> r_success)
    | Stuck _ => False
    | Cut => True
    end) h.
Proof.
  intros M N.
  assert (forall A (k : res * writer -> io A) Q,
    (forall h' x w', nothing_sent h' -> mute w' -> x <> r_success -> wp (k (x, w')) Q h') ->
    (forall h', nothing_sent h' -> Q h' Cut) -> wp (bind (writer_maybe_open w) k) Q h) as MO.
  { intros A k Q K KC. apply wp_bind_i. unfold writer_maybe_open. rewrite (mu_state _ M). apply wp_bind_i.
    eapply wp_mono; [|apply mute_open; assumption]. intros tr o [N' O]. destruct o as [[x w']|f|]; [|contradiction|apply KC; exact N'].
    destruct O as [M' X]. destruct (res_eqb x r_success) eqn:E; [apply res_eqb_true in E; contradiction|].
    cbn. rewrite ?E. cbn. apply K; assumption. }
  assert (forall ps, (ps <> [] -> True) -> wp (writer_writev w ps) (fun tr o => nothing_sent tr /\
    match o with
    | Done (x, w') => mute w' /\ (ps <> [] -> x <> r_success)
    | Stuck _ => False
    | Cut => True
    end) h) as WV.
  { intros ps _. destruct ps as [|p ps]; [cbn; split; [exact N|]; split; [exact M|]; intro X; now contradiction X|].
    cbn [writer_writev]. apply MO; [|intros h' N'; split; [exact N'|exact I]].
    intros h' x w' N' M' X. destruct (res_eqb x r_success) eqn:E; [apply res_eqb_true in E; contradiction|].
    cbn. rewrite ?E. cbn. split; [exact N'|]. split; [exact M'|]. intros _. exact X. }
  destruct c as [|p|ps| |t]; cbn [do_wcall wpayloads].
  - eapply wp_mono; [|apply mute_open; assumption]. intros tr o [N' O]. split; [exact N'|].
    destruct o as [[x w']|f|]; [|exact O|exact I]. destruct O as [M' X]. split; [exact M'|]. intros _. exact X.
  - eapply wp_mono; [|apply (WV [p]); auto]. intros tr o [N' O]. split; [exact N'|].
    destruct o as [[x w']|f|]; [|exact O|exact I]. destruct O as [M' X]. split; [exact M'|]. intros _. apply X. discriminate.
  - eapply wp_mono; [|apply (WV ps); auto]. intros tr o [N' O]. split; [exact N'|].
    destruct o as [[x w']|f|]; [|exact O|exact I]. destruct O as [M' X]. split; [exact M'|]. intros [Y|Y]; [discriminate|auto].
  - unfold writer_close. rewrite (mu_state _ M). cbn. split; [exact N|]. split; [exact M|]. intros _. discriminate.
  - apply wp_bind_i. unfold writer_get_control. apply MO; [|intros h' N'; split; [exact N'|exact I]].
    intros h' x w' N' M' X. destruct (res_eqb x r_success) eqn:E; [apply res_eqb_true in E; contradiction|].
    cbn. rewrite ?E. cbn. split; [exact N'|]. split; [exact M'|]. intros [Y|Y]; [discriminate|contradiction].
Qed.

Lemma mute_calls cs : forall w h, mute w -> nothing_sent h ->
  wp (do_wcalls w cs) (fun tr o => nothing_sent tr /\
    match o with
    | Done (xs, w') => mute w' /\ Forall2 (fun c x => c = WOpen \/ wpayloads c <> [] -> x <> r_success) cs xs
    | Stuck _ => False
    | Cut => True
    end) h.
Proof.
  induction cs as [|c cs IH]; intros w h M N; cbn [do_wcalls].
  - cbn. split; [exact N|]. split; [exact M|constructor].
  - apply wp_bind_i. eapply wp_mono; [|apply mute_call; assumption]. intros tr o [N' O].
    destruct o as [[x w']|f|]; [|contradiction|split; [exact N'|exact I]]. destruct O as [M' X].
    apply wp_bind_i. eapply wp_mono; [|apply (IH w'); assumption]. intros tr' o' [N2 O2].
    destruct o' as [[xs w2]|f|]; [|contradiction|split; [exact N2|exact I]]. destruct O2 as [M2 X2].
    cbn. split; [exact N2|]. split; [exact M2|]. constructor; assumption.
Qed.

Lemma mute_life iovm cts rw w cs tr o : rw_has_read rw = true -> writer_init iovm cts rw = Some w ->
  ~ fits true T_READY cts -> runs (writer_life w cs) tr o ->
  nothing_sent tr /\
  match o with
  | Done (xs, x) => x <> r_success /\ Forall2 (fun c x => c = WOpen \/ wpayloads c <> [] -> x <> r_success) cs xs
  | Stuck _ => False
  | Cut => True
  end.
Proof.
  intros R I F. unfold writer_init in I. destruct (rw_has_write rw); [|discriminate]. injection I as <-.
  revert tr o. apply (wp_runs (writer_life _ cs) (fun tr o => nothing_sent tr /\
  match o with
  | Done (xs, x) => x <> r_success /\ Forall2 (fun c x => c = WOpen \/ wpayloads c <> [] -> x <> r_success) cs xs
  | Stuck _ => False
  | Cut => True
  end)).
  unfold writer_life. apply wp_bind_i. eapply wp_mono; [|apply mute_calls; [constructor; [reflexivity|exact R|exact F]|intros h iov a []]].
  intros tr o [N O]. destruct o as [[xs w']|f|]; [|contradiction|split; [exact N|exact I]]. destruct O as [M X].
  unfold bind_post. cbn beta iota. unfold writer_destroy. rewrite (mu_state _ M). cbn. unfold rdwr_destroy.
  destruct (rw_has_destroy (w_rdwr w')); cbn; [|split; [exact N|split; [discriminate|exact X]]].
  split; [split; [exact N|exact I]|]. intros a A. destruct a; try contradiction. cbn.
  split; [apply nothing_snoc; [exact N|discriminate]|]. split; [discriminate|exact X].
Qed.

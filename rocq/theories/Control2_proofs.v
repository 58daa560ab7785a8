(** Histories of calls on a control object. *)
From Verif Require Import Bytes Spec SpecControl Control Api Bytes_proofs Control_proofs.
Local Open Scope N_scope.

Lemma known_dec t : {known_type t} + {~ known_type t}.
Proof.
  destruct (type_known t) eqn:E.
  - left. apply type_known_spec. exact E.
  - right. intro K. apply type_known_spec in K. congruence.
Qed.

Lemma do_ccalls_snoc ks k c :
  do_ccalls c (ks ++ [k]) =
  let (xs, c1) := do_ccalls c ks in let (x, c2) := do_ccall c1 k in (xs ++ [x], c2).
Proof.
  revert c. induction ks as [|h ks IH]; intro c.
  - cbn. destruct (do_ccall c k). reflexivity.
  - cbn. destruct (do_ccall c h) as [x c1]. rewrite IH. destruct (do_ccalls c1 ks) as [xs c2].
    destruct (do_ccall c2 k). reflexivity.
Qed.

Lemma built_calls ks bs o l : cbuilt ks bs o l ->
  exists c, do_ccalls control_init ks = (map res_of bs, c) /\ c_cts c = l /\
    match o with Some t => c_type c = t /\ known_type t | None => ~ known_type (c_type c) end.
Proof.
  induction 1.
  - exists control_init. split; [reflexivity|]. split; [reflexivity|].
    unfold known_type, control_init, T_ACCEPT, T_START, T_STOP, T_READY, T_FINISH. cbn [c_type]. lia.
  - destruct IHcbuilt as (c & E & _ & _). exists (control_reset c).
    rewrite do_ccalls_snoc, E. cbn. rewrite map_app. split; [reflexivity|]. split; [reflexivity|].
    unfold known_type, T_ACCEPT, T_START, T_STOP, T_READY, T_FINISH. lia.
  - destruct IHcbuilt as (c & E & L & _). exists (mk_control t (c_cts c)).
    rewrite do_ccalls_snoc, E. cbn. unfold control_set_type.
    rewrite (proj2 (type_known_spec t) H0). rewrite map_app. split; [reflexivity|]. split; [exact L|]. split; [reflexivity|exact H0].
  - destruct IHcbuilt as (c & E & L & O). exists c.
    rewrite do_ccalls_snoc, E. cbn. unfold control_set_type.
    assert (type_known t = false) as -> by (destruct (type_known t) eqn:K; [apply type_known_spec in K; contradiction|reflexivity]).
    rewrite map_app. split; [reflexivity|]. split; [exact L|exact O].
  - destruct IHcbuilt as (c & E & L & O). exists (mk_control (c_type c) (c_cts c ++ [ct])).
    rewrite do_ccalls_snoc, E. cbn. rewrite map_app, L. split; [reflexivity|]. split; [reflexivity|exact O].
Qed.

Lemma get_type_eq c : control_get_type c =
  if known_dec (c_type c) then (r_success, Some (c_type c)) else (r_failure, None).
Proof.
  unfold control_get_type. destruct (known_dec (c_type c)) as [K|K].
  - rewrite (proj2 (type_known_spec _) K). reflexivity.
  - destruct (type_known (c_type c)) eqn:E; [|reflexivity]. apply type_known_spec in E. contradiction.
Qed.

Lemma visible_nth t l i : (i < length (visible t l))%nat -> nth_error (visible t l) i = nth_error l i.
Proof.
  intro H. destruct (visible_prefix t l) as [rest E]. rewrite E at 2. symmetry. apply nth_error_app1. exact H.
Qed.

Lemma built_objects ks bs o l : cbuilt ks bs o l ->
  exists c, do_ccalls control_init ks = (map res_of bs, c) /\
    match o with
    | None => control_get_type c = (r_failure, None)
    | Some t =>
        control_get_type c = (r_success, Some t) /\
        control_get_num c = (r_success, length (visible t l)) /\
        (forall i ct, nth_error (visible t l) i = Some ct -> control_get_field c i = (r_success, Some ct)) /\
        (forall m, matches t (visible t l) m <-> control_match c m = r_success) /\
        (forall flags, fits (N.odd flags) t (visible t l) ->
           forall mem cap, cap <= lenN mem -> lenN (ctl_wire (N.odd flags) t (visible t l)) <= cap ->
           exists rest, control_encode c mem cap flags =
             Ok (r_success, ctl_wire (N.odd flags) t (visible t l) ++ rest, lenN (ctl_wire (N.odd flags) t (visible t l)))) /\
        (forall flags, ~ fits (N.odd flags) t (visible t l) ->
           forall mem cap, cap <= lenN mem -> control_encode c mem cap flags = Ok (r_failure, mem, cap))
    end.
Proof.
  intro B. destruct (built_calls ks bs o l B) as ([ty cts] & E & L & O). exists (mk_control ty cts). split; [exact E|].
  cbn [c_type c_cts] in L, O. rewrite get_type_eq. cbn [c_type]. destruct o as [t|].
  - destruct O as [-> K]. subst cts.
    destruct (known_dec t) as [_|N]; [|contradiction].
    split; [reflexivity|]. split; [apply get_num_eq|].
    split; [|split; [|split]].
    + intros i ct H. assert (i < length (visible t l))%nat as Hl by (apply nth_error_Some; congruence).
      rewrite visible_nth in H by exact Hl. rewrite get_field_eq. cbn [c_cts]. rewrite H. reflexivity.
    + intro m. symmetry. exact (proj2 (control_match_spec (mk_control t l) m)).
    + intros flags F mem cap H1 H2. apply encodable_fits in F. rewrite control_encode_eq by exact H1. cbn [c_type c_cts].
      rewrite F. cbn [andb]. apply N.leb_le in H2. rewrite H2. eexists. reflexivity.
    + intros flags F mem cap H1. rewrite control_encode_eq by exact H1. cbn [c_type c_cts].
      destruct (encodable (N.odd flags) t l) eqn:X; [apply encodable_fits in X; contradiction|]. reflexivity.
  - destruct (known_dec ty) as [K|_]; [contradiction|reflexivity].
Qed.

Lemma built_total ks : exists bs o l, cbuilt ks bs o l.
Proof.
  induction ks as [|k ks (bs & o & l & B)] using rev_ind.
  - exists [], None, []. constructor.
  - destruct k as [|t|ct].
    + eexists _, _, _. apply cb_reset with (1 := B).
    + destruct (known_dec t) as [K|K]; eexists _, _, _; [apply cb_set with (1 := B) (2 := K)|apply cb_bad with (1 := B) (2 := K)].
    + eexists _, _, _. apply cb_add with (1 := B).
Qed.

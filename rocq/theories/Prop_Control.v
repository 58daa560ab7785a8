(** C01-C09: the control frame codec. *)
From Verif Require Import Bytes Spec SpecControl Control Api Control_proofs Control2_proofs Exact_proofs.
Local Open Scope N_scope.

(** C01 *)
Theorem C01_control_round_trip : forall c mem cap flags mem' n c0,
  cap <= lenN mem -> known_type (c_type c) ->
  control_encode c mem cap flags = Ok (r_success, mem', n) ->
  control_decode c0 mem' n flags =
  Ok (r_success, mk_control (c_type c) (visible (c_type c) (c_cts c))).
Proof. exact control_roundtrip. Qed.
Print Assumptions C01_control_round_trip.

Example C01_nonvacuous :
  let c := mk_control T_READY [[x61; x62]; []; [x00]] in
  exists mem' n, control_encode c (repeat xff 60) 59 1 = Ok (r_success, mem', n) /\
    control_decode (mk_control 7 [[x01]]) mem' n 1 = Ok (r_success, c).
Proof. vm_compute. eauto. Qed.

(** An object built through the API holds what it was given. *)
Theorem C01_built_object : forall t cts, known_type t ->
  exists c, control_set_type control_init t = (r_success, c) /\
  fold_left (fun c ct => snd (control_add_field c ct)) cts c = mk_control t cts.
Proof. exact built_object. Qed.
Print Assumptions C01_built_object.

(** C02 *)
Theorem C02_control_wire_format : forall c mem cap flags mem' n,
  cap <= lenN mem ->
  control_encode c mem cap flags = Ok (r_success, mem', n) ->
  firstn (N.to_nat n) mem' = ctl_wire (N.odd flags) (c_type c) (visible (c_type c) (c_cts c)).
Proof. exact control_encode_wire. Qed.
Print Assumptions C02_control_wire_format.

Example C02_nonvacuous :
  ctl_wire true T_START [[x61; x62]] =
  [x00;x00;x00;x00; x00;x00;x00;x0e; x00;x00;x00;x02; x00;x00;x00;x01; x00;x00;x00;x02; x61;x62] /\
  control_encode (mk_control T_START [[x61; x62]; [x63]]) (repeat x00 22) 22 1 =
  Ok (r_success, ctl_wire true T_START [[x61; x62]], 22).
Proof. vm_compute. split; reflexivity. Qed.

(** C03 *)
Theorem C03_encoded_size_exact : forall c mem cap flags, cap <= lenN mem ->
  match control_encoded_size c flags with
  | (r_success, Some n) =>
      (n <= cap -> exists w, lenN w = n /\
         control_encode c mem cap flags = Ok (r_success, w ++ skipn (length w) mem, n)) /\
      (cap < n -> control_encode c mem cap flags = Ok (r_failure, mem, cap))
  | (r_failure, None) => control_encode c mem cap flags = Ok (r_failure, mem, cap)
  | _ => False
  end.
Proof. exact encode_exact. Qed.
Print Assumptions C03_encoded_size_exact.

Example C03_nonvacuous :
  control_encoded_size (mk_control T_ACCEPT [[x61]; [x62; x63]]) 1 = (r_success, Some 31) /\
  control_encoded_size (mk_control T_STOP [[x61]]) 0 = (r_success, Some 4) /\
  control_encode (mk_control T_STOP [[x61]]) [xaa; xbb; xcc; xdd; xee] 5 0 =
    Ok (r_success, [x00; x00; x00; x03; xee], 4) /\
  control_encode (mk_control T_STOP []) [xaa; xbb; xcc; xdd; xee] 3 0 =
    Ok (r_failure, [xaa; xbb; xcc; xdd; xee], 3).
Proof. vm_compute. repeat split. Qed.

(** C04 *)
Theorem C04_decode_accepts_exactly_wellformed : forall c0 buf flags,
  (forall t cts, control_decode c0 buf (lenN buf) flags = Ok (r_success, mk_control t cts) <->
     ctl_ok t cts /\ buf = ctl_wire (N.odd flags) t cts) /\
  ((~ exists t cts, ctl_ok t cts /\ buf = ctl_wire (N.odd flags) t cts) ->
   exists c', control_decode c0 buf (lenN buf) flags = Ok (r_failure, c')).
Proof. exact decode_accepts_iff. Qed.
Print Assumptions C04_decode_accepts_exactly_wellformed.

Example C04_nonvacuous :
  control_decode control_init (ctl_wire true T_ACCEPT [[x61]; [x62]]) 30 1 =
    Ok (r_success, mk_control T_ACCEPT [[x61]; [x62]]) /\
  control_decode control_init (ctl_wire true T_START [[x61]; [x62]]) 30 1 =
    Ok (r_failure, mk_control T_START [[x61]; [x62]]).
Proof. vm_compute. split; reflexivity. Qed.

(** C05: no undefined behaviour, no fuel exhaustion, and no dependence on
    bytes beyond the announced length or on the object's previous state. *)
Theorem C05_decode_memory_safe : forall c0 c1 mem len flags tail1 tail2,
  len = lenN mem ->
  exists r c', (r = r_success \/ r = r_failure) /\
    control_decode c0 (mem ++ tail1) len flags = Ok (r, c') /\
    control_decode c1 (mem ++ tail2) len flags = Ok (r, c').
Proof. exact decode_safe. Qed.
Print Assumptions C05_decode_memory_safe.

Example C05_nonvacuous :
  control_decode control_init [x00; x00; x00] 4 0 = Err (FUb ub_load_oob) /\
  control_decode control_init [x00; x00; x00] 3 0 = Ok (r_failure, control_init).
Proof. vm_compute. split; reflexivity. Qed.

(** C06 *)
Theorem C06_decode_canonical_partial : forall c0 buf flags c' mem cap,
  control_decode c0 buf (lenN buf) flags = Ok (r_success, c') ->
  cap <= lenN mem -> lenN buf <= cap -> (N.odd flags = true -> lenN buf <= CTL_MAX) ->
  control_encode c' mem cap flags = Ok (r_success, buf ++ skipn (length buf) mem, lenN buf).
Proof. exact control_decode_reencode. Qed.
Print Assumptions C06_decode_canonical_partial.

Theorem C06_decode_injective : forall c0 c1 b1 b2 flags c',
  control_decode c0 b1 (lenN b1) flags = Ok (r_success, c') ->
  control_decode c1 b2 (lenN b2) flags = Ok (r_success, c') -> b1 = b2.
Proof. exact decode_injective. Qed.
Print Assumptions C06_decode_injective.

(** A frame with header whose payload has 505..512 bytes decodes but cannot be
    re-encoded. *)
Theorem C06_decode_canonical_refuted : exists buf c',
  control_decode control_init buf (lenN buf) 1 = Ok (r_success, c') /\
  control_encode c' (repeat x00 2000) 2000 1 = Ok (r_failure, repeat x00 2000, 2000).
Proof.
  exists (ctl_frame T_READY [repeat x61 241; repeat x62 244]), (mk_control T_READY [repeat x61 241; repeat x62 244]).
  vm_compute. split; reflexivity.
Qed.
Print Assumptions C06_decode_canonical_refuted.

(** Exactly those: every decoded frame is re-encoded to the bytes it came from,
    except frames with header longer than 512 bytes, which are refused and
    leave the buffer alone. *)
Theorem C06_reencode_exactly : forall c0 buf flags c' mem cap,
  control_decode c0 buf (lenN buf) flags = Ok (r_success, c') ->
  cap <= lenN mem -> lenN buf <= cap ->
  control_encode c' mem cap flags =
    if N.odd flags && (CTL_MAX <? lenN buf) then Ok (r_failure, mem, cap)
    else Ok (r_success, buf ++ skipn (length buf) mem, lenN buf).
Proof. exact reencode_exactly. Qed.
Print Assumptions C06_reencode_exactly.

Example C06_nonvacuous :
  control_decode control_init (ctl_frame T_READY [repeat x61 5]) 25 1 =
  Ok (r_success, mk_control T_READY [repeat x61 5]).
Proof. vm_compute. reflexivity. Qed.

(** C07 *)
Theorem C07_encodable_iff_fits : forall c flags,
  (fits (N.odd flags) (c_type c) (visible (c_type c) (c_cts c)) ->
     control_encoded_size c flags =
     (r_success, Some (lenN (ctl_wire (N.odd flags) (c_type c) (visible (c_type c) (c_cts c)))))) /\
  (~ fits (N.odd flags) (c_type c) (visible (c_type c) (c_cts c)) ->
     control_encoded_size c flags = (r_failure, None)).
Proof. exact encodable_iff. Qed.
Print Assumptions C07_encodable_iff_fits.

(** Objects built by any history of calls: which calls are refused, and what
    the object then is, to every accessor and to the encoder. *)
Theorem C07_built_objects : forall ks bs o l, cbuilt ks bs o l ->
  exists c, do_ccalls control_init ks = (map res_of bs, c) /\
    match o with
    | None => control_get_type c = (r_failure, None)
    | Some t =>
        control_get_type c = (r_success, Some t) /\
        control_get_num c = (r_success, length (visible t l)) /\
        (forall i ct, nth_error (visible t l) i = Some ct -> control_get_field c i = (r_success, Some ct)) /\
        (forall m, matches t (visible t l) m <-> control_match c m = r_success) /\
        (forall flags, fits (N.odd flags) t (visible t l) ->
           forall mem cap, cap <= lenN mem -> lenN (ctl_wire (N.odd flags) t (visible t l)) <= cap ->
           exists rest, control_encode c mem cap flags =
             Ok (r_success, ctl_wire (N.odd flags) t (visible t l) ++ rest, lenN (ctl_wire (N.odd flags) t (visible t l)))) /\
        (forall flags, ~ fits (N.odd flags) t (visible t l) ->
           forall mem cap, cap <= lenN mem -> control_encode c mem cap flags = Ok (r_failure, mem, cap))
    end.
Proof. exact built_objects. Qed.
Print Assumptions C07_built_objects.

(** [C07_built_objects] covers every history. *)
Theorem C07_every_history : forall ks, exists bs o l, cbuilt ks bs o l.
Proof. exact built_total. Qed.
Print Assumptions C07_every_history.

Example C07_history :
  cbuilt [CAdd [x61]; CReset; CSet 9; CAdd [x62]; CSet T_START; CAdd [x63]; CSet 0]
         [true; true; false; true; true; true; false] (Some T_START) [[x62]; [x63]] /\
  do_ccalls control_init [CAdd [x61]; CReset; CSet 9; CAdd [x62]; CSet T_START; CAdd [x63]; CSet 0] =
  ([r_success; r_success; r_failure; r_success; r_success; r_success; r_failure], mk_control T_START [[x62]; [x63]]).
Proof.
  split; [|vm_compute; reflexivity].
  assert (~ known_type 9 /\ ~ known_type 0 /\ known_type T_START) as (K9 & K0 & KS)
    by (unfold known_type, T_ACCEPT, T_START, T_STOP, T_READY, T_FINISH; lia).
  pose proof (cb_reset _ _ _ _ (cb_add _ _ _ _ [x61] cb_nil)) as A.
  pose proof (cb_set _ _ _ _ T_START (cb_add _ _ _ _ [x62] (cb_bad _ _ _ _ 9 A K9)) KS) as B.
  exact (cb_bad _ _ _ _ 0 (cb_add _ _ _ _ [x63] B) K0).
Qed.

(** A legal frame (payload of 505 bytes) that the encoder refuses with a header. *)
Theorem C07_every_legal_frame_encodable_refuted : exists t cts,
  ctl_ok t cts /\ control_encoded_size (mk_control t cts) 1 = (r_failure, None).
Proof.
  exists T_READY, [repeat x61 241; repeat x62 244]. split; [|vm_compute; reflexivity].
  constructor.
  - unfold known_type. auto.
  - repeat constructor; vm_compute; discriminate.
  - vm_compute. discriminate.
  - discriminate.
  - intros [H|H]; discriminate.
Qed.
Print Assumptions C07_every_legal_frame_encodable_refuted.

(** An object whose type was never set encodes to bytes that do not decode. *)
Theorem C07_untyped_object_encodes_undecodable : exists mem',
  control_encode control_init (repeat x00 12) 12 1 = Ok (r_success, mem', 12) /\
  exists c', control_decode control_init mem' 12 1 = Ok (r_failure, c').
Proof. vm_compute. eexists. split; [reflexivity|]. eexists. reflexivity. Qed.
Print Assumptions C07_untyped_object_encodes_undecodable.

Example C07_nonvacuous :
  fits true T_START (visible T_START [[x61]; repeat x00 300]) /\
  ~ fits true T_READY (visible T_READY [repeat x00 300]).
Proof.
  split.
  - split; [repeat constructor; vm_compute; discriminate|vm_compute; discriminate].
  - intros [H _]. inversion_clear H. vm_compute in H0. contradiction.
Qed.

(** C08 *)
Theorem C08_match_semantics : forall c m,
  (matches (c_type c) (visible (c_type c) (c_cts c)) m -> control_match c m = r_success) /\
  (~ matches (c_type c) (visible (c_type c) (c_cts c)) m -> control_match c m = r_failure).
Proof. exact match_iff. Qed.
Print Assumptions C08_match_semantics.

Example C08_nonvacuous :
  control_match (mk_control T_ACCEPT [[x61]; [x61; x62]]) (Some [x61; x62]) = r_success /\
  control_match (mk_control T_ACCEPT [[x61]; [x61; x62]]) (Some [x61; x63]) = r_failure /\
  control_match (mk_control T_ACCEPT [[x61]]) None = r_failure /\
  control_match (mk_control T_ACCEPT []) None = r_success /\
  control_match (mk_control T_STOP []) None = r_failure.
Proof. vm_compute. repeat split. Qed.

(** C09 *)
Theorem C09_accessors_on_decoded : forall c0 buf flags c i,
  control_decode c0 buf (lenN buf) flags = Ok (r_success, c) ->
  control_get_type c = (r_success, Some (c_type c)) /\
  control_get_num c = (r_success, length (c_cts c)) /\
  buf = ctl_wire (N.odd flags) (c_type c) (c_cts c) /\
  control_get_field c i =
    match nth_error (c_cts c) i with
    | Some ct => (r_success, Some ct)
    | None => (r_failure, None)
    end.
Proof. exact accessors_decoded. Qed.
Print Assumptions C09_accessors_on_decoded.

(** For hand-built objects the accessors disagree. *)
Theorem C09_accessors_agree_refuted : exists c i ct,
  control_get_num c = (r_success, i) /\ control_get_field c i = (r_success, Some ct).
Proof. exists (mk_control T_STOP [[x61]]), 0%nat, [x61]. vm_compute. split; reflexivity. Qed.
Print Assumptions C09_accessors_agree_refuted.

(** On any object: the fields are those put in, the number is that of the
    fields the type may carry, and the two agree exactly when the type allows
    all the fields. *)
Theorem C09_accessors_any : forall c i,
  control_get_num c = (r_success, length (visible (c_type c) (c_cts c))) /\
  control_get_field c i =
    match nth_error (c_cts c) i with
    | Some ct => (r_success, Some ct)
    | None => (r_failure, None)
    end.
Proof. exact accessors_any. Qed.
Print Assumptions C09_accessors_any.

Theorem C09_accessors_agree_exactly : forall c,
  (forall i, fst (control_get_field c i) = r_success <-> (i < snd (control_get_num c))%nat) <->
  visible (c_type c) (c_cts c) = c_cts c.
Proof. exact accessors_agree_iff. Qed.
Print Assumptions C09_accessors_agree_exactly.

Example C09_agree_case : visible T_READY [[x61]; [x62]] = [[x61]; [x62]] /\ visible T_START [[x61]; [x62]] <> [[x61]; [x62]].
Proof. split; [reflexivity|discriminate]. Qed.

Example C09_nonvacuous :
  control_decode control_init (ctl_payload T_READY [[x61]; [x62]]) 22 0 =
  Ok (r_success, mk_control T_READY [[x61]; [x62]]).
Proof. vm_compute. reflexivity. Qed.

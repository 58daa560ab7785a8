(** Growable arrays, time arithmetic, printed frames and address options (C52-C55,
    C57). *)
From Verif Require Import Bytes Vector SpecVector Vector_proofs Misc SpecMisc Misc_proofs Misc2_proofs.

(** C53: every use of an array that respects its contract returns what the
    sequence of elements says, or aborts for lack of memory, and never touches
    memory outside the allocation; it does not abort while twice the demanded
    bytes stay below 2^63. *)
Theorem C53_contents_preserved :
  forall A sz hint (os : list (vop A)) rs, (1 <= sz < 2 ^ 31)%N -> (hint < 2 ^ 32)%N ->
    vs_run vs_init os = Some rs ->
    vec_run sz hint os = Ok rs \/ (vec_run sz hint os = Err FAbort /\ ~ vs_fits sz vs_init os).
Proof. intros A sz hint os rs SZ. exact (run_refines sz hint os rs SZ). Qed.
Print Assumptions C53_contents_preserved.

(** C53: growth always terminates, also when the contract is broken and for any
    requested size. *)
Theorem C53_growth_terminates :
  forall A sz hint (os : list (vop A)), (1 <= sz < 2 ^ 31)%N -> (hint < 2 ^ 32)%N ->
    vec_run sz hint os <> Err FFuel.
Proof. intros A sz hint os SZ. exact (run_any sz hint os SZ). Qed.
Print Assumptions C53_growth_terminates.

Example C53_case :
  vec_run 16 0 [V_append [1; 2; 3]; V_clip 1; V_reserve 4; V_peek 2; V_store [7; 8]; V_advance 1; V_value 1; V_add 9; V_size; V_detach; V_size]%nat
  = Ok [VR_unit; VR_unit; VR_unit; VR_list [2; 3]; VR_unit; VR_unit; VR_elem 7; VR_unit; VR_n 3; VR_list [1; 7; 9]; VR_n 0]%nat.
Proof. vm_compute. reflexivity. Qed.
Example C53_case_spec :
  vs_run vs_init [V_append [1; 2; 3]; V_clip 1; V_reserve 4; V_peek 2; V_store [7; 8]; V_advance 1; V_value 1; V_add 9; V_size; V_detach; V_size]%nat
  = Some [VR_unit; VR_unit; VR_unit; VR_list [2; 3]; VR_unit; VR_unit; VR_elem 7; VR_unit; VR_n 3; VR_list [1; 7; 9]; VR_n 0]%nat.
Proof. vm_compute. reflexivity. Qed.

(** C53: an index beyond the elements is stopped by the assertion, after any
    use that respects the contract. *)
Theorem C53_index_out_of_range_aborts :
  forall A sz hint (os : list (vop A)) rs n i, (1 <= sz < 2 ^ 31)%N -> (hint < 2 ^ 32)%N ->
    vs_run vs_init (os ++ [V_size]) = Some (rs ++ [VR_n n]) -> (n <= i)%N ->
    vec_run sz hint (os ++ [V_value i]) = Err FAbort.
Proof. intros A sz hint os rs n i SZ. exact (value_aborts sz hint os rs n i SZ). Qed.
Print Assumptions C53_index_out_of_range_aborts.

Example C53_case_index :
  vs_run vs_init ([V_append [1; 2; 3]; V_clip 2]%nat ++ [V_size]) = Some ([VR_unit; VR_unit] ++ [VR_n 2]) /\
  vec_run 8 4 ([V_append [1; 2; 3]; V_clip 2]%nat ++ [V_value 2]) = Err FAbort.
Proof. vm_compute. split; reflexivity. Qed.

(** C53: extending a vector by itself reads the freed allocation when room must be
    made.  (No caller in the tree does this.) *)
Theorem C53_extend_by_itself_uses_freed_memory :
  exists (x : vec nat) rs, vec_init 8 1 = Ok x /\
    exists y, vec_ops 8 x [V_add 7]%nat = Ok (y, rs) /\ vec_extend_self 8 y = Err (FUb ub_uaf).
Proof. eexists _, _. split; [vm_compute; reflexivity|]. eexists. split; vm_compute; reflexivity. Qed.
Print Assumptions C53_extend_by_itself_uses_freed_memory.

(** With room reserved beforehand, extending a vector by itself doubles it. *)
Theorem C53_extend_by_itself_after_reserve :
  forall A sz hint (os : list (vop A)) k rs l x y rs', (1 <= sz < 2 ^ 31)%N -> (hint < 2 ^ 32)%N ->
    vs_run vs_init (os ++ [V_reserve k; V_detach]) = Some (rs ++ [VR_unit; VR_list l]) -> (lenN l <= k)%N ->
    vec_init sz hint = Ok x -> vec_ops sz x (os ++ [V_reserve k]) = Ok (y, rs') ->
    exists z, vec_extend_self sz y = Ok z /\ exists w, vec_ops sz z [V_detach] = Ok (w, [VR_list (l ++ l)]).
Proof. intros A sz hint os k rs l x y rs' SZ. exact (extend_self_doubles sz hint os k rs l x y rs' SZ). Qed.
Print Assumptions C53_extend_by_itself_after_reserve.
Example C53_case_itself :
  vs_run vs_init ([V_append [1; 2; 3]]%nat ++ [V_reserve 3; V_detach]) = Some ([VR_unit] ++ [VR_unit; VR_list [1; 2; 3]%nat]) /\
  exists x y rs, @vec_init nat 8 1 = Ok x /\ vec_ops 8 x ([V_append [1; 2; 3]]%nat ++ [V_reserve 3]) = Ok (y, rs).
Proof. split; [reflexivity|]. eexists _, _, _. split; [vm_compute; reflexivity|]. vm_compute. reflexivity. Qed.

(** C54: whenever the C additions are defined, the sum is exact and normalised. *)
Theorem C54_add_exact :
  forall a b r, normal a -> normal b -> timespec_add a b = Ok r -> normal r /\ nanos r = (nanos a + nanos b)%Z.
Proof. intros a b r A B H. apply add_exact; [exact H|]. unfold normal in *. lia. Qed.
Print Assumptions C54_add_exact.

Theorem C54_sub_exact :
  forall a b r, normal a -> normal b -> timespec_sub a b = Ok r -> normal r /\ nanos r = (nanos b - nanos a)%Z.
Proof. intros a b r A B H. exact (sub_exact a b r H A B). Qed.
Print Assumptions C54_sub_exact.

(** C54: and they are defined unless the seconds overflow. *)
Theorem C54_add_defined :
  forall a b, normal a -> normal b -> (- 2 ^ 63 <= tv_sec a + tv_sec b < 2 ^ 63 - 1)%Z -> exists r, timespec_add a b = Ok r.
Proof. exact add_defined. Qed.
Print Assumptions C54_add_defined.

Theorem C54_sub_defined :
  forall a b, normal a -> normal b -> (- 2 ^ 63 < tv_sec b - tv_sec a < 2 ^ 63)%Z -> exists r, timespec_sub a b = Ok r.
Proof. exact sub_defined. Qed.
Print Assumptions C54_sub_defined.

(** C54: an interrupted sleep sleeps the requested time in total. *)
Theorem C54_sleep_exact :
  forall ks rqt rs, my_nanosleep rqt ks = Some rs -> ~ In KN_err ks -> slept rs ks = nanos rqt.
Proof. exact nap_exact. Qed.
Print Assumptions C54_sleep_exact.

Example C54_case : timespec_add (mk_ts 5 999999999) (mk_ts 7 1) = Ok (mk_ts 13 0) /\
  timespec_sub (mk_ts 5 999999999) (mk_ts 7 1) = Ok (mk_ts 1 2).
Proof. split; vm_compute; reflexivity. Qed.
Example C54_case_sleep : my_nanosleep (mk_ts 2 0) [KN_intr (mk_ts 1 5); KN_intr (mk_ts 0 7); KN_done] = Some [mk_ts 2 0; mk_ts 1 5; mk_ts 0 7].
Proof. vm_compute. reflexivity. Qed.

(** C52: the printed text spells the payload byte by byte. *)
Theorem C52_text_spells_payload :
  forall s, exists t, print_string s = [x22] ++ t ++ [x22] /\ shown t s.
Proof. exact print_string_shown. Qed.
Print Assumptions C52_text_spells_payload.

(** C52: full statement [forall s s', print_string s = print_string s' -> s = s']
    fails: *)
Theorem C52_printing_unambiguous_refuted : exists s s', s <> s' /\ print_string s = print_string s'.
Proof. exact print_not_inj. Qed.
Print Assumptions C52_printing_unambiguous_refuted.

(** C52: missing compared with the full statement: payloads containing a
    backslash.  The dump of a whole list of frames determines the list. *)
Theorem C52_printing_unambiguous_partial :
  forall fs fs', Forall (fun s => ~ In x5c s) fs -> Forall (fun s => ~ In x5c s) fs' ->
    flat_map print_data_frame fs = flat_map print_data_frame fs' -> fs = fs'.
Proof. exact print_all_inj. Qed.
Print Assumptions C52_printing_unambiguous_partial.

(** C52: exactly which payloads cannot be told from their text: those with an
    unprintable byte, and those that contain what an unprintable byte is printed as. *)
Theorem C52_ambiguous_exactly :
  forall s, (exists s', s' <> s /\ print_string s' = print_string s) <->
    Exists (fun c => ~ printable c) s \/ exists pre c e post, escape c e /\ s = pre ++ e ++ post.
Proof. exact ambiguous_exactly. Qed.
Print Assumptions C52_ambiguous_exactly.

(** Backslashes and quotes alone do no harm: the letter a, two backslashes, a quote,
    a backslash, x4 - the only payload with its text. *)
Example C52_ambiguous_case : ~ exists s', s' <> [x61; x5c; x5c; x22; x5c; x78; x34] /\
  print_string s' = print_string [x61; x5c; x5c; x22; x5c; x78; x34].
Proof.
  rewrite ambiguous_exactly. intros [H|(pre & c & e & post & H & E)].
  - repeat match goal with H : Exists _ _ |- _ => inversion H; clear H; subst end;
      match goal with H : ~ printable _ |- _ => apply H; vm_compute; split; discriminate end.
  - destruct H as [c a b P D F]. do 7 (destruct pre as [|? pre]; [discriminate E|cbn [app] in E; apply (f_equal (@tl byte)) in E; cbn [tl] in E]).
    destruct pre; discriminate E.
Qed.

(** C57: whatever the payload, only printable ASCII reaches the terminal, one
    line per frame, at most four characters per byte. *)
Theorem C57_printed_text_is_harmless :
  forall s, Forall printable (print_string s) /\ (length s + 2 <= length (print_string s) <= 4 * length s + 2)%nat.
Proof. intro s. exact (conj (print_string_printable s) (print_string_length s)). Qed.
Print Assumptions C57_printed_text_is_harmless.

Theorem C57_one_line_per_frame :
  forall fs, count_occ Byte.byte_eq_dec (flat_map print_data_frame fs) x0a = length fs.
Proof. exact print_lines. Qed.
Print Assumptions C57_one_line_per_frame.

Example C52_case : print_string [x61; x0a; x22; xff] = [x22; x61; x5c; x78; x30; x61; x5c; x22; x5c; x78; x66; x66; x22].
Proof. vm_compute. reflexivity. Qed.

(** C55: exactly which port texts are accepted, and as what. *)
Theorem C55_port_texts :
  forall s p, parse_port s = Some p <-> (p <= 65535)%N /\ (port_text s p \/ s = [] /\ p = 0%N).
Proof. exact parse_port_spec. Qed.
Print Assumptions C55_port_texts.

(** C55: a TCP writer is created exactly if both options are set, the address
    parses (IPv4 first, then IPv6) and the port text is accepted. *)
Theorem C55_tcp_options :
  forall p4 p6 a p i n, tcp_init p4 p6 a p = Some (i, n) <->
    exists sa sp, a = Some sa /\ p = Some sp /\ (n <= 65535)%N /\ (port_text sp n \/ sp = [] /\ n = 0%N) /\
      (exists x, p4 sa = Some x /\ i = Inet4 x \/ p4 sa = None /\ p6 sa = Some x /\ i = Inet6 x).
Proof. exact tcp_init_spec. Qed.
Print Assumptions C55_tcp_options.

(** C55: full statement [an accepted text is a number of 0..65535] fails: the
    empty text is accepted, and so are numbers far outside the range. *)
Theorem C55_port_is_a_number_refuted :
  parse_port [] = Some 0%N /\
  exists s v, numeral s v /\ (v > 65535)%N /\ parse_port (x2d :: s) = Some 1%N.
Proof.
  split; [reflexivity|].
  exists [x31;x38;x34;x34;x36;x37;x34;x34;x30;x37;x33;x37;x30;x39;x35;x35;x31;x36;x31;x35], 18446744073709551615%N.
  split; [apply scan_number_spec; vm_compute; reflexivity|]. split; vm_compute; reflexivity.
Qed.
Print Assumptions C55_port_is_a_number_refuted.

(** C55: a socket path is accepted iff it fits with its terminator, and is stored
    unchanged and terminated. *)
Theorem C55_unix_path_accepted :
  forall path a, unix_init path = Some a <->
    exists p, path = Some p /\ (length p <= 107)%nat /\ a = p ++ repeat x00 (108 - length p).
Proof. exact unix_init_spec. Qed.
Print Assumptions C55_unix_path_accepted.

Theorem C55_unix_path_stored :
  forall p a, unix_init (Some p) = Some a -> ~ In x00 p -> length a = 108%nat /\ c_string a = p.
Proof. exact unix_path_kept. Qed.
Print Assumptions C55_unix_path_stored.

Example C55_case : parse_port [x20; x30; x78; x31; x46; x39; x30] = Some 8080%N /\ parse_port [x30; x31; x30] = Some 8%N
  /\ parse_port [x36; x35; x35; x33; x36] = None /\ parse_port [x38; x30; x20] = None.
Proof. repeat split; vm_compute; reflexivity. Qed.

(** Socket reads and writes (C28, C29, C56). *)
From Verif Require Import Bytes Socket SpecSocket Socket_proofs.
Local Open Scope nat_scope.

(** C28: success gives exactly the requested bytes, in order, and consumes
    nothing else, whatever the chunking. *)
Theorem C28_read_success_is_exact :
  forall w need s ks buf s', op_read w need s ks = Some (r_success, buf, s') ->
    length buf = need /\ buf ++ s' = s.
Proof. exact op_read_success. Qed.
Print Assumptions C28_read_success_is_exact.

(** C28: failure happens only on a closed transport, an error, or a stream that
    ends too early; what was stored is still an initial part of the stream. *)
Theorem C28_read_failure_has_a_cause :
  forall w need s ks r buf s', op_read w need s ks = Some (r, buf, s') -> r <> r_success ->
    (s_connected w = false \/ length s < need \/ In KR_err ks) /\ buf ++ s' = s.
Proof. exact op_read_failure. Qed.
Print Assumptions C28_read_failure_has_a_cause.

(** C28: on a connected transport without errors and with enough data the call
    returns after at most one delivery per byte, and succeeds. *)
Theorem C28_read_completes :
  forall w need s ks, s_connected w = true -> need <= length s -> ~ In KR_err ks ->
    need <= deliveries ks -> op_read w need s ks = Some (r_success, firstn need s, skipn need s).
Proof. exact op_read_completes. Qed.
Print Assumptions C28_read_completes.

(** C28: two runs over the same stream that both return agree on success when
    no error is reported: chunking does not matter. *)
Theorem C28_chunking_is_irrelevant :
  forall w need s ks ks' x x', op_read w need s ks = Some x -> op_read w need s ks' = Some x' ->
    ~ In KR_err ks -> ~ In KR_err ks' -> fst (fst x) = r_success -> x = x'.
Proof. exact op_read_chunking. Qed.
Print Assumptions C28_chunking_is_irrelevant.

Example C28_case :
  op_read (mk_sockw true (Some 3)) 4 [x61; x62; x63; x64; x65] [KR_eintr; KR_some 0; KR_eintr; KR_some 1; KR_some 7; KR_err]
  = Some (r_success, [x61; x62; x63; x64], [x65]).
Proof. vm_compute. reflexivity. Qed.
Example C28_case_eof :
  op_read (mk_sockw true (Some 3)) 4 [x61; x62; x63] [KR_some 0; KR_eintr; KR_some 7; KR_some 7]
  = Some (r_failure, [x61; x62; x63], []).
Proof. vm_compute. reflexivity. Qed.

(** C29, the part that holds for every kernel behaviour: a send that returns
    success without undefined behaviour has put exactly the buffers on the wire. *)
Theorem C29_success_is_exact_partial :
  forall c iov ks W, op_write c iov ks = W_ret r_success W -> c = true /\ W = concat iov.
Proof. exact op_write_ok. Qed.
Print Assumptions C29_success_is_exact_partial.

(** C29: interrupted any number of times, then taken as a whole: success. *)
Theorem C29_whole_send_succeeds_partial :
  forall iov n k ks, length (concat iov) <= k ->
    op_write true iov (repeat KS_eintr n ++ KS_sent k :: ks) = W_ret r_success (concat iov).
Proof. exact op_write_whole. Qed.
Print Assumptions C29_whole_send_succeeds_partial.

(** C29: a single buffer is never sent twice: the wire holds an initial part of
    it at all times, also on failure. *)
Theorem C29_single_buffer_in_order_partial :
  forall b ks, initial_part (wout_wire (op_write true [b] ks)) b.
Proof. exact op_write_single. Qed.
Print Assumptions C29_single_buffer_in_order_partial.

(** C29: full statement [forall iov ks, the wire is an initial part of the
    buffers] fails: after a short send the finished buffers are sent again. *)
Theorem C29_no_duplicates_refuted :
  exists iov ks, ~ initial_part (wout_wire (op_write true iov ks)) (concat iov).
Proof. exact op_write_duplicates. Qed.
Print Assumptions C29_no_duplicates_refuted.

(** C29: full statement [no undefined behaviour] fails: *)
Theorem C29_memory_safe_refuted :
  exists iov ks W, op_write true iov ks = W_ub ub_load_oob W /\ W = concat iov.
Proof. exact op_write_oob. Qed.
Print Assumptions C29_memory_safe_refuted.

(** C29: in fact no write whose first data-carrying send is short ever reaches a
    defined success. *)
Theorem C29_short_send_never_completes :
  forall iov pre k ks W, Forall (fun x => x = KS_eintr) pre -> 1 <= k -> k < length (concat iov) ->
    op_write true iov (pre ++ KS_sent k :: ks) <> W_ret r_success W.
Proof. exact op_write_short. Qed.
Print Assumptions C29_short_send_never_completes.

(** C29: exactly the writes that succeed: connected, and the first answer of the
    kernel that is not an interruption (or a send of nothing of a non-empty first
    buffer) takes everything. *)
Theorem C29_success_exactly :
  forall c iov ks W, op_write c iov ks = W_ret r_success W <->
    c = true /\ W = concat iov /\
    exists pre k post, ks = pre ++ KS_sent k :: post /\
      Forall (fun x => x = KS_eintr \/ (x = KS_sent 0 /\ hd [] iov <> [])) pre /\ length (concat iov) <= k.
Proof. exact op_write_iff. Qed.
Print Assumptions C29_success_exactly.
Example C29_case_idle : op_write true [[x61]; [x62]] [KS_sent 0; KS_eintr; KS_sent 2] = W_ret r_success [x61; x62] /\
  op_write true [[]; [x62]] [KS_sent 0; KS_sent 1] = W_ub ub_load_oob [x62].
Proof. vm_compute. split; reflexivity. Qed.

Example C29_case : op_write true [[x61]; []; [x62; x63]] [KS_eintr; KS_sent 9] = W_ret r_success [x61; x62; x63].
Proof. vm_compute. reflexivity. Qed.
Example C29_case_short : op_write true [[x61; x62; x63]] [KS_sent 1; KS_eintr; KS_err] = W_ret r_failure [x61].
Proof. vm_compute. reflexivity. Qed.

(** C56: over any history of open and close calls and kernel answers, every
    descriptor closed was held, and the process holds exactly one descriptor of
    this writer when connected and none otherwise. *)
Theorem C56_descriptor_accounting :
  forall os rs w ev, do_sockops sock_init os = (rs, w, ev) ->
    exists l, fds_after [] ev = Some l /\ (length l = if s_connected w then 1 else 0).
Proof. exact sock_accounting. Qed.
Print Assumptions C56_descriptor_accounting.

(** C56: what open and close report: open succeeds when already connected or when
    the kernel connects; close exactly when connected and close(2) succeeds. *)
Theorem C56_results :
  forall os rs w ev, do_sockops sock_init os = (rs, w, ev) -> rs = sock_results false os.
Proof. intros os rs w ev. exact (sock_reports os sock_init rs w ev (fun E => match Bool.diff_false_true E with end)). Qed.
Print Assumptions C56_results.
Example C56_reports : sock_results false [SO_open (KO_refused 3); SO_close true; SO_open (KO_ok 3); SO_open KO_nosocket; SO_close false; SO_close true]
  = [r_failure; r_failure; r_success; r_success; r_failure; r_failure].
Proof. reflexivity. Qed.

(** C56: destroying releases no descriptor, so destroying while connected leaks
    one (the writer and reader close first, see C11 and C24). *)
Theorem C56_destroy_releases_descriptor_refuted :
  exists os rs w ev l, do_sockops sock_init os = (rs, w, ev) /\ fds_after [] (ev ++ op_destroy w) = Some l /\ l <> [].
Proof. exact sock_leak. Qed.
Print Assumptions C56_destroy_releases_descriptor_refuted.

(** C56: exactly then: destroying closes nothing, so nothing is closed twice and
    the descriptor of a connected writer is all that can be left. *)
Theorem C56_after_destroy :
  forall os rs w ev, do_sockops sock_init os = (rs, w, ev) ->
    exists l, fds_after [] (ev ++ op_destroy w) = Some l /\ (length l = if s_connected w then 1 else 0).
Proof. exact sock_destroyed. Qed.
Print Assumptions C56_after_destroy.

Example C56_case : do_sockops sock_init [SO_open (KO_refused 3); SO_open (KO_ok 4); SO_open KO_nosocket; SO_close true; SO_close true]
  = ([r_failure; r_success; r_success; r_success; r_failure], mk_sockw false (Some 4),
     [FD_socket 3; FD_close 3; FD_socket 4; FD_close 4]).
Proof. vm_compute. reflexivity. Qed.

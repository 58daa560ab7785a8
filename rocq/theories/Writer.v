(** Model of fstrm/writer.c, function by function. *)
From Verif Require Import Bytes Io Control Rdwr.
Local Open Scope N_scope.
Local Open Scope io_scope.

(** fstrm/writer.c:26. *)
Definition FSTRM__WRITER_IOVEC_SIZE : nat := 256.

(** fstrm/writer.c:28-33. *)
Inductive wstate := ws_opening | ws_opened | ws_closed | ws_failed.

(** fstrm/writer.c:39-50.  The scratch arrays [iovecs]/[be32_lens] are filled
    before each use and not kept; their sizes are checked in [write_iov].
    [w_iov_max] is the platform constant IOV_MAX. *)
Record writer := mk_writer {
  w_state : wstate;
  w_cts : list bytes;
  w_rdwr : rdwr;
  w_ready : option control;
  w_accept : option control;
  w_start : option control;
  w_finish : option control;
  w_iov_max : nat
}.

Definition set_wstate (w : writer) s := mk_writer s (w_cts w) (w_rdwr w)
  (w_ready w) (w_accept w) (w_start w) (w_finish w) (w_iov_max w).
Definition set_wrdwr (w : writer) rw := mk_writer (w_state w) (w_cts w) rw
  (w_ready w) (w_accept w) (w_start w) (w_finish w) (w_iov_max w).
Definition set_wready (w : writer) c := mk_writer (w_state w) (w_cts w) (w_rdwr w)
  c (w_accept w) (w_start w) (w_finish w) (w_iov_max w).
Definition set_waccept (w : writer) c := mk_writer (w_state w) (w_cts w) (w_rdwr w)
  (w_ready w) c (w_start w) (w_finish w) (w_iov_max w).
Definition set_wstart (w : writer) c := mk_writer (w_state w) (w_cts w) (w_rdwr w)
  (w_ready w) (w_accept w) c (w_finish w) (w_iov_max w).
Definition set_wfinish (w : writer) c := mk_writer (w_state w) (w_cts w) (w_rdwr w)
  (w_ready w) (w_accept w) (w_start w) c (w_iov_max w).

(** fstrm/writer.c:74-91; the options object is its content type list. *)
Definition writer_options_add_content_type (o : list bytes) (ct : bytes) : res * list bytes :=
  if FSTRM_CONTROL_FIELD_CONTENT_TYPE_LENGTH_MAX <? lenN ct then (r_failure, o)
  else (r_success, o ++ [ct]).

(** fstrm/writer.c:93-124. *)
Definition writer_init (iov_max : nat) (cts : list bytes) (rw : rdwr) : option writer :=
  if negb (rw_has_write rw) then None
  else Some (mk_writer ws_opening cts rw None None None None iov_max).

Definition reset_or_init (oc : option control) : control :=
  match oc with
  | Some c => control_reset c
  | None => control_init
  end.

(** fstrm/writer.c:165-171 (and the single adds at 217-222, 245-251). *)
Fixpoint add_all (c : control) (cts : list bytes) : control :=
  match cts with
  | [] => c
  | ct :: rest => add_all (snd (control_add_field c ct)) rest
  end.

(** fstrm/writer.c:184-199: the loop matching the content types against the
    ACCEPT frame.  [m] is the variable [match]; result: final [match] and
    [match_ctype]. *)
Fixpoint accept_match_loop (acc : control) (cts : list bytes) (m : bool) : bool * option bytes :=
  match cts with
  | [] => (m, None)
  | ct :: rest =>
      if res_eqb (control_match acc (Some ct)) r_success
      then (m, Some ct)
      else accept_match_loop acc rest false
  end.

(** fstrm/writer.c:205-228 and 231-261: initialise START with at most one
    content type, store it in the writer and write it. *)
Definition writer_send_start (w : writer) (ct : option bytes) : io (res * writer) :=
  match control_set_type (reset_or_init (w_start w)) FSTRM_CONTROL_START with
  | (r_success, c) =>
      let c' := match ct with
                | Some b => snd (control_add_field c b)
                | None => c
                end in
      let w := set_wstart w (Some c') in
      ' (x, rw) <- write_control_frame (w_rdwr w) c' ;;
      let w := set_wrdwr w rw in
      if negb (res_eqb x r_success) then Ret (x, w) else Ret (r_success, w)
  | (x, c) => Ret (x, set_wstart w (Some c))
  end.

(** fstrm/writer.c:151-229. *)
Definition writer_open_bidirectional (w : writer) : io (res * writer) :=
  match control_set_type (reset_or_init (w_ready w)) FSTRM_CONTROL_READY with
  | (r_success, c) =>
      let ready := add_all c (w_cts w) in
      let w := set_wready w (Some ready) in
      ' (x, rw) <- write_control_frame (w_rdwr w) ready ;;
      let w := set_wrdwr w rw in
      if negb (res_eqb x r_success) then Ret (x, w)
      else
        ' (x, acc, rw) <- read_control (w_rdwr w) (w_accept w) FSTRM_CONTROL_ACCEPT ;;
        let w := set_waccept (set_wrdwr w rw) acc in
        if negb (res_eqb x r_success) then Ret (x, w)
        else match acc with
             | None => Fail (FUb ub_null)
             | Some acc =>
                 let (m, ct) := accept_match_loop acc (w_cts w) true in
                 if negb m then Ret (r_failure, w)
                 else writer_send_start w ct
             end
  | (x, c) => Ret (x, set_wready w (Some c))
  end.

(** fstrm/writer.c:231-261. *)
Definition writer_open_unidirectional (w : writer) : io (res * writer) :=
  writer_send_start w (hd_error (w_cts w)).

(** fstrm/writer.c:263-289. *)
Definition writer_open (w : writer) : io (res * writer) :=
  match w_state w with
  | ws_opened => Ret (r_success, w)
  | _ =>
      ' (x, rw) <- rdwr_open (w_rdwr w) ;;
      let w := set_wrdwr w rw in
      if negb (res_eqb x r_success) then Ret (x, w)
      else
        ' (x, w) <- (if rw_has_read (w_rdwr w) then writer_open_bidirectional w
                     else writer_open_unidirectional w) ;;
        if negb (res_eqb x r_success) then Ret (x, w)
        else Ret (r_success, set_wstate w ws_opened)
  end.

(** fstrm/writer.c:291-303. *)
Definition writer_maybe_open (w : writer) : io (res * writer) :=
  match w_state w with
  | ws_opening =>
      ' (x, w) <- writer_open w ;;
      if negb (res_eqb x r_success) then Ret (x, w) else Ret (r_success, w)
  | _ => Ret (r_success, w)
  end.

(** fstrm/writer.c:305-334. *)
Definition writer_close (w : writer) : io (res * writer) :=
  match w_state w with
  | ws_opened =>
      let w := set_wstate w ws_closed in
      ' (x, rw) <- write_control (w_rdwr w) FSTRM_CONTROL_STOP None ;;
      if negb (res_eqb x r_success) then
        ' (_, rw) <- rdwr_close rw ;; Ret (x, set_wrdwr w rw)
      else if rw_has_read rw then
        ' (x, fin, rw) <- read_control rw (w_finish w) FSTRM_CONTROL_FINISH ;;
        let w := set_wfinish w fin in
        if negb (res_eqb x r_success) then
          ' (_, rw) <- rdwr_close rw ;; Ret (x, set_wrdwr w rw)
        else
          ' (x, rw) <- rdwr_close rw ;; Ret (x, set_wrdwr w rw)
      else
        ' (x, rw) <- rdwr_close rw ;; Ret (x, set_wrdwr w rw)
  | _ => Ret (r_failure, w)
  end.

(** fstrm/writer.c:336-352.  Each payload becomes two iovecs: the 4 bytes of
    htonl(iov_len) (truncated to 32 bits) and the payload. *)
Fixpoint frame_iovecs (iov : list bytes) : list bytes :=
  match iov with
  | [] => []
  | p :: rest => htonl_bytes (lenN p) :: p :: frame_iovecs rest
  end.

Definition write_iov (w : writer) (iov : list bytes) : io (res * writer) :=
  if (FSTRM__WRITER_IOVEC_SIZE <? 2 * length iov)%nat then Fail (FUb ub_store_oob)
  else
    ' (x, rw) <- rdwr_write (w_rdwr w) (frame_iovecs iov) ;;
    Ret (x, set_wrdwr w rw).

(** fstrm/writer.c:354-379.  [fuel]: number of payloads (each round takes at
    least one). *)
Fixpoint write_iov_stupid_loop (fuel : nat) (chunk : nat) (w : writer) (iov : list bytes)
  : io (res * writer) :=
  match iov with
  | [] => Ret (r_success, w)
  | _ =>
      match fuel with
      | O => Fail FFuel
      | S fuel' =>
          ' (x, w) <- write_iov w (firstn chunk iov) ;;
          if negb (res_eqb x r_success) then Ret (x, w)
          else write_iov_stupid_loop fuel' chunk w (skipn chunk iov)
      end
  end.

Definition write_iov_stupid (w : writer) (iov : list bytes) : io (res * writer) :=
  let iov_max := Nat.min (FSTRM__WRITER_IOVEC_SIZE / 2) (w_iov_max w) in
  if (iov_max =? 0)%nat then Fail FAbort
  else write_iov_stupid_loop (length iov) iov_max w iov.

(** fstrm/writer.c:391-411.  [iovcnt] is the length of the list; [2 * iovcnt]
    is computed in [int].  (A negative [iovcnt] behaves like 0.) *)
Definition writer_writev (w : writer) (iov : list bytes) : io (res * writer) :=
  match iov with
  | [] => Ret (r_success, w)
  | _ =>
      ' (x, w) <- writer_maybe_open w ;;
      if negb (res_eqb x r_success) then Ret (x, w)
      else match w_state w with
           | ws_opened =>
               if 2 ^ 31 <=? 2 * lenN iov then Fail (FUb ub_overflow)
               else if (2 * length iov <=? FSTRM__WRITER_IOVEC_SIZE)%nat
               then write_iov w iov
               else write_iov_stupid w iov
           | _ => Ret (r_failure, w)
           end
  end.

(** fstrm/writer.c:381-389. *)
Definition writer_write (w : writer) (data : bytes) : io (res * writer) :=
  writer_writev w [data].

(** fstrm/writer.c:413-446. *)
Definition writer_get_control (w : writer) (t : N)
  : io (res * option (option control) * writer) :=
  ' (x, w) <- writer_maybe_open w ;;
  if negb (res_eqb x r_success) then Ret (x, None, w)
  else if t =? FSTRM_CONTROL_ACCEPT then Ret (r_success, Some (w_accept w), w)
  else if t =? FSTRM_CONTROL_FINISH then Ret (r_success, Some (w_finish w), w)
  else if t =? FSTRM_CONTROL_READY then Ret (r_success, Some (w_ready w), w)
  else if t =? FSTRM_CONTROL_START then Ret (r_success, Some (w_start w), w)
  else Ret (r_failure, Some None, w).

(** fstrm/writer.c:126-149. *)
Definition writer_destroy (w : writer) : io res :=
  ' (x, w) <- (match w_state w with
               | ws_opened => writer_close w
               | _ => Ret (r_failure, w)
               end) ;;
  _ <- rdwr_destroy (w_rdwr w) ;;
  Ret x.

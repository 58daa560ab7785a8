(** Model of fstrm/reader.c, function by function. *)
From Verif Require Import Bytes Io Control Rdwr.
Local Open Scope N_scope.
Local Open Scope io_scope.

(** fstrm/reader.c:27-33. *)
Inductive rstate := rs_opening | rs_opened | rs_closing | rs_closed | rs_failed.

(** fstrm/reader.c:35-46.  Of [buf] (a ubuf whose size is always 0) only the
    allocated capacity is kept; the bytes handed to the caller are part of the
    result of the read call. *)
Record reader := mk_reader {
  r_state : rstate;
  r_cts : list bytes;
  r_max : N;
  r_rdwr : rdwr;
  r_start : option control;
  r_stop_c : option control;
  r_ready : option control;
  r_accept : option control;
  r_tmp : option control;
  r_alloc : N
}.

Definition set_rstate (r : reader) s := mk_reader s (r_cts r) (r_max r) (r_rdwr r)
  (r_start r) (r_stop_c r) (r_ready r) (r_accept r) (r_tmp r) (r_alloc r).
Definition set_rrdwr (r : reader) rw := mk_reader (r_state r) (r_cts r) (r_max r) rw
  (r_start r) (r_stop_c r) (r_ready r) (r_accept r) (r_tmp r) (r_alloc r).
Definition set_rstart (r : reader) c := mk_reader (r_state r) (r_cts r) (r_max r) (r_rdwr r)
  c (r_stop_c r) (r_ready r) (r_accept r) (r_tmp r) (r_alloc r).
Definition set_rstop (r : reader) c := mk_reader (r_state r) (r_cts r) (r_max r) (r_rdwr r)
  (r_start r) c (r_ready r) (r_accept r) (r_tmp r) (r_alloc r).
Definition set_rready (r : reader) c := mk_reader (r_state r) (r_cts r) (r_max r) (r_rdwr r)
  (r_start r) (r_stop_c r) c (r_accept r) (r_tmp r) (r_alloc r).
Definition set_raccept (r : reader) c := mk_reader (r_state r) (r_cts r) (r_max r) (r_rdwr r)
  (r_start r) (r_stop_c r) (r_ready r) c (r_tmp r) (r_alloc r).
Definition set_rtmp (r : reader) c := mk_reader (r_state r) (r_cts r) (r_max r) (r_rdwr r)
  (r_start r) (r_stop_c r) (r_ready r) (r_accept r) c (r_alloc r).
Definition set_ralloc (r : reader) n := mk_reader (r_state r) (r_cts r) (r_max r) (r_rdwr r)
  (r_start r) (r_stop_c r) (r_ready r) (r_accept r) (r_tmp r) n.

(** fstrm/reader.c:48-55 and reader.h:47. *)
Record reader_options := mk_ropt { ro_cts : list bytes; ro_max : N }.
Definition reader_options_default : reader_options := mk_ropt [] 1048576.

(** fstrm/reader.c:82-99. *)
Definition reader_options_add_content_type (o : reader_options) (ct : bytes) : res * reader_options :=
  if FSTRM_CONTROL_FIELD_CONTENT_TYPE_LENGTH_MAX <? lenN ct then (r_failure, o)
  else (r_success, mk_ropt (ro_cts o ++ [ct]) (ro_max o)).

(** fstrm/reader.c:101-113.  UINT32_MAX = 2^32 - 1. *)
Definition reader_options_set_max_frame_size (o : reader_options) (n : N) : res * reader_options :=
  if (n <? FSTRM_CONTROL_FRAME_LENGTH_MAX) || (2 ^ 32 - 1 - 1 <? n) then (r_failure, o)
  else (r_success, mk_ropt (ro_cts o) n).

(** fstrm/reader.c:115-148.  [None] = NULL returned. *)
Definition reader_init (o : reader_options) (rw : rdwr) : option reader :=
  if negb (rw_has_read rw) then None
  else Some (mk_reader rs_opening (ro_cts o) (ro_max o) rw None None None None None
                       FSTRM_CONTROL_FRAME_LENGTH_MAX).

(** fstrm/reader.c:189-204, the matching loop of open_unidirectional;
    [acc] is the variable [match]. *)
Fixpoint start_match_loop (c : control) (cts : list bytes) (acc : bool) : bool :=
  match cts with
  | [] => acc
  | ct :: rest =>
      if res_eqb (control_match c (Some ct)) r_success then true
      else start_match_loop c rest false
  end.

(** fstrm/reader.c:178-209. *)
Definition reader_open_unidirectional (r : reader) : io (res * reader) :=
  ' (x, c, rw) <- read_control (r_rdwr r) (r_start r) FSTRM_CONTROL_START ;;
  let r := set_rstart (set_rrdwr r rw) c in
  if negb (res_eqb x r_success) then Ret (x, r)
  else match c with
       | None => Fail (FUb ub_null)
       | Some c =>
           if negb (start_match_loop c (r_cts r) true) then Ret (r_failure, r)
           else Ret (r_success, set_rstate r rs_opened)
       end.

(** fstrm/reader.c:231-242, adding the matching content types to ACCEPT. *)
Fixpoint accept_loop (ready : control) (cts : list bytes) (acc : control) : control :=
  match cts with
  | [] => acc
  | ct :: rest =>
      if res_eqb (control_match ready (Some ct)) r_success
      then accept_loop ready rest (snd (control_add_field acc ct))
      else accept_loop ready rest acc
  end.

(** fstrm/reader.c:211-251. *)
Definition reader_open_bidirectional (r : reader) : io (res * reader) :=
  ' (x, c, rw) <- read_control (r_rdwr r) (r_ready r) FSTRM_CONTROL_READY ;;
  let r := set_rready (set_rrdwr r rw) c in
  if negb (res_eqb x r_success) then Ret (x, r)
  else match c with
       | None => Fail (FUb ub_null)
       | Some ready =>
           let acc0 := match r_accept r with
                       | Some a => control_reset a
                       | None => control_init
                       end in
           match control_set_type acc0 FSTRM_CONTROL_ACCEPT with
           | (r_success, acc1) =>
               let acc := accept_loop ready (r_cts r) acc1 in
               let r := set_raccept r (Some acc) in
               ' (x, rw) <- write_control_frame (r_rdwr r) acc ;;
               let r := set_rrdwr r rw in
               if negb (res_eqb x r_success) then Ret (x, r)
               else reader_open_unidirectional r
           | (x, acc1) => Ret (x, set_raccept r (Some acc1))
           end
       end.

(** fstrm/reader.c:253-279. *)
Definition reader_open (r : reader) : io (res * reader) :=
  match r_state r with
  | rs_opened => Ret (r_failure, r)
  | _ =>
      ' (x, rw) <- rdwr_open (r_rdwr r) ;;
      let r := set_rrdwr r rw in
      if negb (res_eqb x r_success) then Ret (x, r)
      else
        ' (x, r) <- (if rw_has_write (r_rdwr r) then reader_open_bidirectional r
                     else reader_open_unidirectional r) ;;
        if negb (res_eqb x r_success) then Ret (x, r)
        else Ret (r_success, set_rstate r rs_opened)
  end.

(** fstrm/reader.c:281-292. *)
Definition reader_read_be32 (r : reader) : io (res * N * reader) :=
  ' (x, b, rw) <- rdwr_read (r_rdwr r) 4 ;;
  Ret (x, ntohl_bytes b, set_rrdwr r rw).

(** libmy/vector.h:66-75 [reserve] on an empty vector: the allocation is
    doubled until it holds [n] elements.  64 doublings cover every [size_t]. *)
Fixpoint reserve_loop (fuel : nat) (alloc n : N) : option N :=
  if alloc <? n
  then match fuel with
       | O => None
       | S fuel' => reserve_loop fuel' (alloc * 2) n
       end
  else Some alloc.

(** fstrm/reader.c:294-354.  The third component is what was stored through
    [data]/[len_data] ([None]: nothing was stored).  [fuel] bounds the number
    of frames inspected by one call. *)
Fixpoint reader_next_data (fuel : nat) (r : reader) : io (res * option bytes * reader) :=
  match fuel with
  | O => Fail FFuel
  | S fuel' =>
      ' (x, len, r) <- reader_read_be32 r ;;
      if negb (res_eqb x r_success) then Ret (x, None, set_rstate r rs_failed)
      else if negb (len =? 0) then
        if r_max r <? len then Ret (x, None, set_rstate r rs_failed)
        else
          match reserve_loop 64 (r_alloc r) len with
          | None => Fail FFuel
          | Some alloc =>
              let r := set_ralloc r alloc in
              if alloc <? len then Fail (FUb ub_store_oob)
              else
                ' (x, data, rw) <- rdwr_read (r_rdwr r) len ;;
                let r := set_rrdwr r rw in
                if negb (res_eqb x r_success) then Ret (x, None, set_rstate r rs_failed)
                else Ret (r_success, Some data, r)
          end
      else
        let c := match r_tmp r with None => control_init | Some c => c end in
        ' (x, t, c, rw) <- read_control_frame (r_rdwr r) c false ;;
        let r := set_rtmp (set_rrdwr r rw) (Some c) in
        if negb (res_eqb x r_success) then Ret (x, None, set_rstate r rs_failed)
        else match t with
             | None => Fail (FUb ub_uninit)
             | Some t =>
                 if t =? FSTRM_CONTROL_STOP then
                   Ret (r_stop, None,
                        set_rtmp (set_rstop (set_rstate r rs_closing) (Some c)) None)
                 else reader_next_data fuel' r
             end
  end.

(** fstrm/reader.c:356-368. *)
Definition reader_maybe_open (r : reader) : io (res * reader) :=
  match r_state r with
  | rs_opening =>
      ' (x, r) <- reader_open r ;;
      if negb (res_eqb x r_success) then Ret (x, r) else Ret (r_success, r)
  | _ => Ret (r_success, r)
  end.

(** fstrm/reader.c:370-393. *)
Definition reader_close (r : reader) : io (res * reader) :=
  match r_state r with
  | rs_opened | rs_closing =>
      let r := set_rstate r rs_closed in
      if rw_has_write (r_rdwr r) then
        ' (x, rw) <- write_control (r_rdwr r) FSTRM_CONTROL_FINISH None ;;
        if negb (res_eqb x r_success) then
          ' (_, rw) <- rdwr_close rw ;; Ret (x, set_rrdwr r rw)
        else
          ' (x, rw) <- rdwr_close rw ;; Ret (x, set_rrdwr r rw)
      else
        ' (x, rw) <- rdwr_close (r_rdwr r) ;; Ret (x, set_rrdwr r rw)
  | _ => Ret (r_failure, r)
  end.

(** fstrm/reader.c:395-412. *)
Definition reader_read (fuel : nat) (r : reader) : io (res * option bytes * reader) :=
  ' (x, r) <- reader_maybe_open r ;;
  if negb (res_eqb x r_success) then Ret (x, None, r)
  else match r_state r with
       | rs_opened => reader_next_data fuel r
       | rs_closed => Ret (r_stop, None, r)
       | _ => Ret (r_failure, None, r)
       end.

(** fstrm/reader.c:414-447.  The second component is [*control]: [None] = not
    written, [Some None] = NULL, [Some (Some c)] = the frame. *)
Definition reader_get_control (r : reader) (t : N)
  : io (res * option (option control) * reader) :=
  ' (x, r) <- reader_maybe_open r ;;
  if negb (res_eqb x r_success) then Ret (x, None, r)
  else if t =? FSTRM_CONTROL_START then Ret (r_success, Some (r_start r), r)
  else if t =? FSTRM_CONTROL_STOP then Ret (r_success, Some (r_stop_c r), r)
  else if t =? FSTRM_CONTROL_READY then Ret (r_success, Some (r_ready r), r)
  else if t =? FSTRM_CONTROL_ACCEPT then Ret (r_success, Some (r_accept r), r)
  else Ret (r_failure, Some None, r).

(** fstrm/reader.c:150-176.  The result of the transport's destroy is
    discarded by the code. *)
Definition reader_destroy (r : reader) : io res :=
  ' (x, r) <- (match r_state r with
               | rs_opened | rs_closing => reader_close r
               | _ => Ret (r_failure, r)
               end) ;;
  _ <- rdwr_destroy (r_rdwr r) ;;
  Ret x.

(** Model of fstrm/rdwr.c and struct fstrm_rdwr (fstrm/fstrm-private.h:138-150). *)
From Verif Require Import Bytes Io Control.
Local Open Scope N_scope.
Local Open Scope io_scope.

(** fstrm/fstrm-private.h:146-150.  [rw_h] stands for [obj] and the method
    pointers; [rw_has_*] says which method pointers are non-NULL. *)
Record rdwr := mk_rdwr {
  rw_h : nat;
  rw_has_destroy : bool; rw_has_open : bool; rw_has_close : bool;
  rw_has_read : bool; rw_has_write : bool;
  rw_opened : bool
}.

Definition set_opened (rw : rdwr) (b : bool) : rdwr :=
  mk_rdwr (rw_h rw) (rw_has_destroy rw) (rw_has_open rw) (rw_has_close rw)
          (rw_has_read rw) (rw_has_write rw) b.

(** fstrm/rdwr.c:36-46. *)
Definition rdwr_destroy (rw : rdwr) : io res :=
  if rw_has_destroy rw then ask_res (QDestroy (rw_h rw)) else Ret r_success.

(** fstrm/rdwr.c:48-58. *)
Definition rdwr_open (rw : rdwr) : io (res * rdwr) :=
  if negb (rw_has_open rw) then Ret (r_failure, rw)
  else
    r <- ask_res (QOpen (rw_h rw)) ;;
    if res_eqb r r_success then Ret (r, set_opened rw true) else Ret (r, rw).

(** fstrm/rdwr.c:60-70. *)
Definition rdwr_close (rw : rdwr) : io (res * rdwr) :=
  if negb (rw_has_close rw) then Ret (r_failure, rw)
  else if rw_opened rw then
    let rw' := set_opened rw false in
    r <- ask_res (QClose (rw_h rw)) ;; Ret (r, rw')
  else Ret (r_success, rw).

(** fstrm/rdwr.c:72-93.  The second component is the buffer content. *)
Definition rdwr_read (rw : rdwr) (count : N) : io (res * bytes * rdwr) :=
  if negb (rw_opened rw) then Ret (r_failure, [], rw)
  else if negb (rw_has_read rw) then Ret (r_failure, [], rw)
  else
    ' (r, bs) <- ask_read (rw_h rw) count ;;
    if negb (res_eqb r r_success) then
      ' (_, rw') <- rdwr_close rw ;; Ret (r, [], rw')
    else Ret (r, bs, rw).

(** fstrm/rdwr.c:95-116. *)
Definition rdwr_write (rw : rdwr) (iov : list bytes) : io (res * rdwr) :=
  if negb (rw_opened rw) then Ret (r_failure, rw)
  else if negb (rw_has_write rw) then Ret (r_failure, rw)
  else
    r <- ask_res (QWrite (rw_h rw) iov) ;;
    if negb (res_eqb r r_success) then
      ' (_, rw') <- rdwr_close rw ;; Ret (r, rw')
    else Ret (r, rw).

(** fstrm/rdwr.c:172-204: from the control frame length on.  The control frame
    is read into a VLA of [len] bytes (ghost query when [len] is 0).
    Returns result, type out-parameter, control object, rdwr. *)
Definition read_control_frame_tail (rw : rdwr) (c : control)
  : io (res * option N * control * rdwr) :=
  ' (r, b, rw) <- rdwr_read rw 4 ;;
  if negb (res_eqb r r_success) then Ret (r, None, c, rw)
  else
    let len := ntohl_bytes b in
    if FSTRM_CONTROL_FRAME_LENGTH_MAX <? len then Ret (r_failure, None, c, rw)
    else
      _ <- (if len =? 0 then ask_unit (QIsoUb (rw_h rw)) else Ret tt) ;;
      ' (r, frame, rw) <- rdwr_read rw len ;;
      if negb (res_eqb r r_success) then Ret (r, None, c, rw)
      else
        ' (r, c') <- lift (control_decode c frame len 0) ;;
        if negb (res_eqb r r_success) then Ret (r, None, c', rw)
        else
          match control_get_type c' with
          | (r_success, t) => Ret (r_success, t, c', rw)
          | (r, t) => Ret (r, t, c', rw)
          end.

(** fstrm/rdwr.c:153-204. *)
Definition read_control_frame (rw : rdwr) (c : control) (with_escape : bool)
  : io (res * option N * control * rdwr) :=
  if with_escape then
    ' (r, b, rw) <- rdwr_read rw 4 ;;
    if negb (res_eqb r r_success) then Ret (r, None, c, rw)
    else if negb (ntohl_bytes b =? 0) then Ret (r_failure, None, c, rw)
    else read_control_frame_tail rw c
  else read_control_frame_tail rw c.

(** fstrm/rdwr.c:206-225.  [oc] is [*control] ([None] = NULL). *)
Definition read_control (rw : rdwr) (oc : option control) (wanted : N)
  : io (res * option control * rdwr) :=
  let c := match oc with None => control_init | Some c => c end in
  ' (r, t, c', rw) <- read_control_frame rw c true ;;
  if negb (res_eqb r r_success) then Ret (r, Some c', rw)
  else match t with
       | Some actual =>
           if negb (actual =? wanted) then Ret (r_failure, Some c', rw)
           else Ret (r_success, Some c', rw)
       | None => Fail (FUb ub_uninit)
       end.

(** fstrm/rdwr.c:227-252.  The VLA's initial contents are irrelevant; they are
    modelled as zeros. *)
Definition write_control_frame (rw : rdwr) (c : control) : io (res * rdwr) :=
  match control_encoded_size c 1 with
  | (r_success, Some len) =>
      ' (r, mem, len') <- lift (control_encode c (repeat x00 (N.to_nat len)) len 1) ;;
      if negb (res_eqb r r_success) then Ret (r, rw)
      else rdwr_write rw [firstn (N.to_nat len') mem]
  | (r_success, None) => Fail (FUb ub_uninit)
  | (r, _) => Ret (r, rw)
  end.

(** fstrm/rdwr.c:254-277.  [None] = NULL content type. *)
Definition write_control (rw : rdwr) (t : N) (ct : option bytes) : io (res * rdwr) :=
  match control_set_type control_init t with
  | (r_success, c) =>
      let c' := match ct with
                | None => c
                | Some b => snd (control_add_field c b)
                end in
      write_control_frame rw c'
  | (r, _) => Ret (r, rw)
  end.

(** Model of fstrm/control.c and of the buffer helpers in
    fstrm/fstrm-private.h, function by function. *)
From Verif Require Import Bytes.
Local Open Scope N_scope.

(** fstrm/control.c:26-29 [struct fstrm_control].  The [fs_bufvec] of
    (len, data) pairs is a list of byte strings; allocation always succeeds
    (my_alloc.h asserts). *)
Record control := mk_control { c_type : N; c_cts : list bytes }.

(** fstrm/control.h:154-203, the enum values. *)
Definition FSTRM_CONTROL_ACCEPT : N := 1.
Definition FSTRM_CONTROL_START  : N := 2.
Definition FSTRM_CONTROL_STOP   : N := 3.
Definition FSTRM_CONTROL_READY  : N := 4.
Definition FSTRM_CONTROL_FINISH : N := 5.
Definition FSTRM_CONTROL_FIELD_CONTENT_TYPE : N := 1.
Definition FSTRM_CONTROL_FRAME_LENGTH_MAX : N := 512.
Definition FSTRM_CONTROL_FIELD_CONTENT_TYPE_LENGTH_MAX : N := 256.

(** fstrm/control.c:61-68. *)
Definition control_init : control := mk_control 0 [].

(** fstrm/control.c:80-89. *)
Definition control_reset (c : control) : control := mk_control 0 [].

(** The [switch] shared by get_type, set_type and decode
    (fstrm/control.c:94-104, 110-120, 281-291). *)
Definition type_known (t : N) : bool :=
  (t =? FSTRM_CONTROL_ACCEPT) || (t =? FSTRM_CONTROL_START) ||
  (t =? FSTRM_CONTROL_STOP) || (t =? FSTRM_CONTROL_READY) ||
  (t =? FSTRM_CONTROL_FINISH).

(** fstrm/control.c:91-105.  [None] = the out parameter is not written. *)
Definition control_get_type (c : control) : res * option N :=
  if type_known (c_type c) then (r_success, Some (c_type c)) else (r_failure, None).

(** fstrm/control.c:107-121. *)
Definition control_set_type (c : control) (t : N) : res * control :=
  if type_known t then (r_success, mk_control t (c_cts c)) else (r_failure, c).

(** fstrm/control.c:123-147. *)
Definition control_get_num (c : control) : res * nat :=
  let n := length (c_cts c) in
  if (c_type c =? FSTRM_CONTROL_STOP) || (c_type c =? FSTRM_CONTROL_FINISH)
  then (r_success, 0%nat)
  else if c_type c =? FSTRM_CONTROL_START
  then (r_success, if (1 <? n)%nat then 1%nat else n)
  else (r_success, n).

(** fstrm/control.c:149-162.  Note: uses the raw vector size. *)
Definition control_get_field (c : control) (idx : nat) : res * option bytes :=
  if (idx <? length (c_cts c))%nat
  then (r_success, nth_error (c_cts c) idx)
  else (r_failure, None).

(** fstrm/control.c:164-176. *)
Definition control_add_field (c : control) (ct : bytes) : res * control :=
  (r_success, mk_control (c_type c) (c_cts c ++ [ct])).

(** fstrm/control.c:211-230, the loop over [idx < n_ctype]; [n] counts the
    remaining iterations. *)
Fixpoint match_loop (c : control) (m : bytes) (idx n : nat) : res :=
  match n with
  | O => r_failure
  | S n' =>
      match control_get_field c idx with
      | (r_success, Some ct) =>
          if negb (lenN ct =? lenN m) then match_loop c m (S idx) n'
          else if bytes_eqb ct m then r_success
          else match_loop c m (S idx) n'
      | (r, _) => r
      end
  end.

(** fstrm/control.c:178-236.  [None] is the NULL pointer. *)
Definition control_match (c : control) (m : option bytes) : res :=
  if (c_type c =? FSTRM_CONTROL_STOP) || (c_type c =? FSTRM_CONTROL_FINISH)
  then r_failure
  else
    match control_get_num c with
    | (r_success, n) =>
        if (n =? 0)%nat then r_success
        else match m with
             | None => r_failure
             | Some s => match_loop c s 0 n
             end
    | (r, _) => r
    end.

(** ** Loads: fstrm/fstrm-private.h:80-93, 110-121.
    [mem] is the real memory from the current buffer pointer on, [len] the
    number of bytes the caller claims remain.  Reading more than the real
    memory holds is undefined behaviour.  [Ok None] = returned false. *)
Definition fs_load_be32 (mem : bytes) (len : N) : outc (option (N * bytes * N)) :=
  if len <? 4 then Ok None
  else if lenN mem <? 4 then Err (FUb ub_load_oob)
  else Ok (Some (ntohl_bytes mem, skipn 4 mem, len - 4)).

Definition fs_load_bytes (n : N) (mem : bytes) (len : N) : outc (option (bytes * bytes * N)) :=
  if len <? n then Ok None
  else if lenN mem <? n then Err (FUb ub_load_oob)
  else Ok (Some (firstn (N.to_nat n) mem, skipn (N.to_nat n) mem, len - n)).

(** ** Stores: fstrm/fstrm-private.h:95-108, 123-134.
    [mem] is the whole destination object, [off] the offset of the current
    pointer in it, [len] the remaining length the code believes in. *)
Definition splice (mem : bytes) (off : nat) (bs : bytes) : bytes :=
  firstn off mem ++ bs ++ skipn (off + length bs) mem.

Definition fs_store_bytes (mem : bytes) (off : nat) (len : N) (bs : bytes)
  : outc (option (bytes * nat * N)) :=
  if len <? lenN bs then Ok None
  else if (length mem <? off + length bs)%nat then Err (FUb ub_store_oob)
  else Ok (Some (splice mem off bs, (off + length bs)%nat, len - lenN bs)).

Definition fs_store_be32 (mem : bytes) (off : nat) (len : N) (v : N)
  : outc (option (bytes * nat * N)) :=
  fs_store_bytes mem off len (htonl_bytes v).

Definition flag_with_header (flags : N) : bool := N.testbit flags 0.

(** fstrm/control.c:293-334, the [while (len > 0)] loop.  Result
    [r_success]: the loop ended; anything else: the function returned. *)
Fixpoint decode_fields (fuel : nat) (c : control) (mem : bytes) (len : N)
  : outc (res * control) :=
  match fuel with
  | O => Err FFuel
  | S fuel' =>
      if 0 <? len then
        obind (fs_load_be32 mem len) (fun r1 =>
        match r1 with
        | None => Ok (r_failure, c)
        | Some (val, mem1, len1) =>
            if val =? FSTRM_CONTROL_FIELD_CONTENT_TYPE then
              obind (fs_load_be32 mem1 len1) (fun r2 =>
              match r2 with
              | None => Ok (r_failure, c)
              | Some (ctlen, mem2, len2) =>
                  if len2 <? ctlen then Ok (r_failure, c)
                  else if FSTRM_CONTROL_FIELD_CONTENT_TYPE_LENGTH_MAX <? ctlen
                  then Ok (r_failure, c)
                  else
                    obind (fs_load_bytes ctlen mem2 len2) (fun r3 =>
                    match r3 with
                    | None => Ok (r_failure, c)
                    | Some (ct, mem3, len3) =>
                        decode_fields fuel' (mk_control (c_type c) (c_cts c ++ [ct])) mem3 len3
                    end)
              end)
            else Ok (r_failure, c)
        end)
      else Ok (r_success, c)
  end.

(** fstrm/control.c:336-357, limits on the number of content types. *)
Definition decode_limits (c : control) : res :=
  let n := length (c_cts c) in
  if c_type c =? FSTRM_CONTROL_START then
    (if (1 <? n)%nat then r_failure else r_success)
  else if (c_type c =? FSTRM_CONTROL_STOP) || (c_type c =? FSTRM_CONTROL_FINISH) then
    (if (0 <? n)%nat then r_failure else r_success)
  else r_success.

(** fstrm/control.c:278-359, after the header: type, fields, limits. *)
Definition decode_body (c : control) (mem : bytes) (len : N) : outc (res * control) :=
  obind (fs_load_be32 mem len) (fun r =>
  match r with
  | None => Ok (r_failure, c)
  | Some (val, mem1, len1) =>
      if type_known val then
        obind (decode_fields (S (N.to_nat len1)) (mk_control val (c_cts c)) mem1 len1) (fun rc =>
        match rc with
        | (r_success, c') => Ok (decode_limits c', c')
        | other => Ok other
        end)
      else Ok (r_failure, c)
  end).

(** fstrm/control.c:238-360.  [mem] is the caller's memory, [len] the
    [len_control_frame] argument. *)
Definition control_decode (c0 : control) (mem : bytes) (len : N) (flags : N)
  : outc (res * control) :=
  let c := control_reset c0 in
  if flag_with_header flags then
    obind (fs_load_be32 mem len) (fun r1 =>
    match r1 with
    | None => Ok (r_failure, c)
    | Some (v1, mem1, len1) =>
        if negb (v1 =? 0) then Ok (r_failure, c)
        else
          obind (fs_load_be32 mem1 len1) (fun r2 =>
          match r2 with
          | None => Ok (r_failure, c)
          | Some (v2, mem2, len2) =>
              if FSTRM_CONTROL_FRAME_LENGTH_MAX <? v2 then Ok (r_failure, c)
              else if negb (v2 =? len2) then Ok (r_failure, c)
              else decode_body c mem2 len2
          end)
    end)
  else if FSTRM_CONTROL_FRAME_LENGTH_MAX <? len then Ok (r_failure, c)
  else decode_body c mem len.

(** fstrm/control.c:381-407, the loop of encoded_size over the content types;
    [None] = returned failure.  [size_t] additions do not wrap: each of the
    in-memory elements adds at most 264. *)
Fixpoint encoded_size_loop (t : N) (cts : list bytes) (len : N) : option N :=
  match cts with
  | [] => Some len
  | ct :: rest =>
      if (t =? FSTRM_CONTROL_STOP) || (t =? FSTRM_CONTROL_FINISH) then Some len
      else
        let len1 := len + 4 + 4 in
        if FSTRM_CONTROL_FIELD_CONTENT_TYPE_LENGTH_MAX <? lenN ct then None
        else
          let len2 := len1 + lenN ct in
          if t =? FSTRM_CONTROL_START then Some len2
          else encoded_size_loop t rest len2
  end.

(** fstrm/control.c:362-415.  [None] = out parameter not written. *)
Definition control_encoded_size (c : control) (flags : N) : res * option N :=
  let len0 := if flag_with_header flags then 4 + 4 else 0 in
  match encoded_size_loop (c_type c) (c_cts c) (len0 + 4) with
  | None => (r_failure, None)
  | Some len =>
      if FSTRM_CONTROL_FRAME_LENGTH_MAX <? len then (r_failure, None)
      else (r_success, Some len)
  end.

(** fstrm/control.c:464-490, the store loop.  The first component tells
    whether a store helper returned false ([r_failure]). *)
Fixpoint encode_loop (t : N) (cts : list bytes) (mem : bytes) (off : nat) (len : N)
  : outc (res * bytes) :=
  match cts with
  | [] => Ok (r_success, mem)
  | ct :: rest =>
      if (t =? FSTRM_CONTROL_STOP) || (t =? FSTRM_CONTROL_FINISH) then Ok (r_success, mem)
      else
        obind (fs_store_be32 mem off len FSTRM_CONTROL_FIELD_CONTENT_TYPE) (fun r1 =>
        match r1 with
        | None => Ok (r_failure, mem)
        | Some (mem1, off1, len1) =>
            obind (fs_store_be32 mem1 off1 len1 (lenN ct)) (fun r2 =>
            match r2 with
            | None => Ok (r_failure, mem1)
            | Some (mem2, off2, len2) =>
                obind (fs_store_bytes mem2 off2 len2 ct) (fun r3 =>
                match r3 with
                | None => Ok (r_failure, mem2)
                | Some (mem3, off3, len3) =>
                    if t =? FSTRM_CONTROL_START then Ok (r_success, mem3)
                    else encode_loop t rest mem3 off3 len3
                end)
            end)
        end)
  end.

(** fstrm/control.c:459-462 then 464-493: type and fields. *)
Definition encode_body (c : control) (mem : bytes) (off : nat) (len : N)
  : outc (res * bytes) :=
  obind (fs_store_be32 mem off len (c_type c)) (fun r =>
  match r with
  | None => Ok (r_failure, mem)
  | Some (mem1, off1, len1) => encode_loop (c_type c) (c_cts c) mem1 off1 len1
  end).

(** fstrm/control.c:417-494.  [mem] is the destination object, [cap] the value
    of [*len_control_frame] on entry; the result carries the destination
    afterwards and the value of [*len_control_frame] on return. *)
Definition control_encode (c : control) (mem : bytes) (cap : N) (flags : N)
  : outc (res * bytes * N) :=
  match control_encoded_size c flags with
  | (r_success, Some size) =>
      if cap <? size then Ok (r_failure, mem, cap)
      else
        let fin rm :=
          match rm with
          | (r_success, m) => Ok (r_success, m, size)
          | (r, m) => Ok (r, m, cap)
          end in
        if flag_with_header flags then
          obind (fs_store_be32 mem 0 size 0) (fun r1 =>
          match r1 with
          | None => Ok (r_failure, mem, cap)
          | Some (mem1, off1, len1) =>
              obind (fs_store_be32 mem1 off1 len1 (size - 2 * 4)) (fun r2 =>
              match r2 with
              | None => Ok (r_failure, mem1, cap)
              | Some (mem2, off2, len2) => obind (encode_body c mem2 off2 len2) fin
              end)
          end)
        else obind (encode_body c mem 0 size) fin
  | (r, _) => Ok (r, mem, cap)
  end.

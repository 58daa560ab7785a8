(** Model of src/fstrm_capture.c: the server that accepts Frame Streams
    connections and stores their data frames in output files.

    libevent is the environment.  Its callbacks are the events of [ev]; the
    input buffer of a connection is the list [k_buf], which an [E_data] event
    extends before running [cb_read].  Not modelled: logging, the usage
    message, socket creation, the counters that are only printed
    ([bytes_read], [count_read], [bytes_written], [count_written]). *)
From Coq Require Import ZArith.
From Verif Require Import Bytes Control.
Import ListNotations.
Local Open Scope N_scope.

(** src/fstrm_capture.c:69-74 [conn_state]. *)
Inductive conn_state := READING_READY | READING_START | READING_DATA | STOPPED.

(** src/fstrm_capture.c:85-98 [struct conn]; [k_buf] is [ev_input], and
    [len_buf] is always its length. *)
Record conn := mk_conn {
  k_state : conn_state;
  k_payload : N;        (* len_frame_payload, uint32_t *)
  k_total : N;          (* len_frame_total, uint32_t *)
  k_skip : N;           (* bytes_skip *)
  k_ctl : control;
  k_buf : bytes }.

(** src/fstrm_capture.c:123-136 [struct capture_args], the members used here. *)
Record args := mk_args {
  a_ctype : bytes;      (* --type *)
  a_fname : bytes;      (* --write *)
  a_buffer : Z;         (* --buffersize, int *)
  a_conns : Z;          (* --maxconns, int *)
  a_split : Z;          (* --split, int *)
  a_localtime : bool;
  a_gmtime : bool }.

(** The environment of one run; every call consults it at the next tick. *)
Record env := mk_env {
  e_time : nat -> Z;                (* time(NULL) *)
  e_strftime : Z -> option bytes;   (* --write filtered at that time; None = failure *)
  e_open : nat -> bool;             (* open() and fdopen() succeed *)
  e_fwrite : nat -> bool;           (* fwrite() succeeds *)
  e_send : nat -> bool }.           (* bufferevent_write() succeeds *)

(** What a connection made the server do (a log; the program keeps none). *)
Inductive act :=
| Store (b : bytes)     (* appended to the output file *)
| Answer (b : bytes)    (* handed to bufferevent_write() *)
| Hangup.               (* cb_read closed the connection *)

(** The stdio calls made on [output_file], in order (a log; the program keeps
    none).  A frame is written by one or more calls of fwrite() (line 655);
    [ok]: all of them succeeded. *)
Inductive iocall :=
| IoOpen                          (* open() and fdopen(), or stdout at the start *)
| IoWrite (b : bytes) (ok : bool)
| IoFlush                         (* fflush(), result ignored *)
| IoClose.                        (* fclose(), result ignored *)

(** src/fstrm_capture.c:100-121 [struct capture].  [x_outs] lists the output
    files in the order they were opened, each with its name and the bytes
    handed to fwrite() since; the last one is [output_file] when [x_open]. *)
Record ctx := mk_ctx {
  x_outs : list (bytes * bytes);
  x_open : bool;
  x_ts : Z;                          (* output_open_timestamp *)
  x_tick : nat;
  x_remaining : Z;                   (* remaining_connections, int *)
  x_listen : bool;                   (* the listener is enabled *)
  x_conns : list (nat * conn);
  x_log : list (nat * act);
  x_io : list iocall }.

(** How a piece of the program ends. *)
Inductive ores (A : Type) :=
| Go (a : A)
| Exit (c : ctx)        (* exit(EXIT_FAILURE) *)
| Hang                  (* a loop that never ends *)
| Broke (f : fail).
Arguments Go {A} a.
Arguments Exit {A} c.
Arguments Hang {A}.
Arguments Broke {A} f.

Definition rbind {A B} (x : ores A) (f : A -> ores B) : ores B :=
  match x with
  | Go a => f a
  | Exit c => Exit c
  | Hang => Hang
  | Broke r => Broke r
  end.
Notation "' p <~ x ;; y" := (rbind x (fun p => y))
  (at level 61, p pattern, x at next level, right associativity).

Definition tick (c : ctx) : ctx :=
  mk_ctx (x_outs c) (x_open c) (x_ts c) (S (x_tick c)) (x_remaining c) (x_listen c) (x_conns c) (x_log c) (x_io c).
Definition set_outs (c : ctx) (o : list (bytes * bytes)) (op : bool) : ctx :=
  mk_ctx o op (x_ts c) (x_tick c) (x_remaining c) (x_listen c) (x_conns c) (x_log c) (x_io c).
Definition set_ts (c : ctx) (t : Z) : ctx :=
  mk_ctx (x_outs c) (x_open c) t (x_tick c) (x_remaining c) (x_listen c) (x_conns c) (x_log c) (x_io c).
Definition set_conns (c : ctx) (r : Z) (l : bool) (ks : list (nat * conn)) : ctx :=
  mk_ctx (x_outs c) (x_open c) (x_ts c) (x_tick c) r l ks (x_log c) (x_io c).
Definition note (c : ctx) (id : nat) (x : act) : ctx :=
  mk_ctx (x_outs c) (x_open c) (x_ts c) (x_tick c) (x_remaining c) (x_listen c) (x_conns c) (x_log c ++ [(id, x)]) (x_io c).
Definition note_io (c : ctx) (x : iocall) : ctx :=
  mk_ctx (x_outs c) (x_open c) (x_ts c) (x_tick c) (x_remaining c) (x_listen c) (x_conns c) (x_log c) (x_io c ++ [x]).

(** src/fstrm_capture.c:337 "-". *)
Definition is_stdout (a : args) : bool := bytes_eqb (a_fname a) [x2d].
(** src/fstrm_capture.c:348-352 [calendar_fn]. *)
Definition has_calendar (a : args) : bool := a_localtime a || a_gmtime a.
(** src/fstrm_capture.c:329-331. *)
Definition capture_highwater (a : args) : N :=
  if (0 <? a_buffer a)%Z then Z.to_N (a_buffer a) else 262144.
(** src/fstrm_capture.c:332-334. *)
Definition remaining0 (a : args) : Z := if (0 <? a_conns a)%Z then a_conns a else (-1)%Z.
(** src/fstrm_capture.c:337-346, the checks on the members of [args] (the
    terminal check and the listening address are left out). *)
Definition args_accepted (a : args) : bool :=
  negb (is_stdout a && negb (a_split a =? 0)%Z) &&
  negb (a_localtime a && a_gmtime a) &&
  negb (negb (a_split a =? 0)%Z && negb (has_calendar a)).

(** fwrite() of [b] to [output_file]. *)
Fixpoint append_last (o : list (bytes * bytes)) (b : bytes) : list (bytes * bytes) :=
  match o with
  | [] => []
  | [(n, d)] => [(n, d ++ b)]
  | x :: o' => x :: append_last o' b
  end.
Definition fwrite (e : env) (b : bytes) (c : ctx) : bool * ctx :=
  if e_fwrite e (x_tick c)
  then (true, note_io (tick (set_outs c (append_last (x_outs c) b) (x_open c))) (IoWrite b true))
  else (false, note_io (tick c) (IoWrite b false)).

(** fstrm_control_encode() with the header into a local array of 512 bytes
    (src/fstrm_capture.c:431-446, 468-491, 749-758); [None] = failure. *)
Definition encode_frame (k : control) : outc (option bytes) :=
  match control_encode k (repeat x00 512) FSTRM_CONTROL_FRAME_LENGTH_MAX 1 with
  | Ok (r_success, mem, n) => Ok (Some (firstn (N.to_nat n) mem))
  | Ok _ => Ok None
  | Err f => Err f
  end.

(** src/fstrm_capture.c:427-462 [close_write_stop]. *)
Definition close_write_stop (e : env) (c : ctx) : ores (bool * ctx) :=
  match control_set_type control_init FSTRM_CONTROL_STOP with
  | (r_success, k) =>
      match encode_frame k with
      | Ok (Some b) => Go (fwrite e b c)
      | Ok None => Go (false, c)
      | Err f => Broke f
      end
  | _ => Go (false, c)
  end.

(** src/fstrm_capture.c:496: (void) fflush(), after a successful fwrite(). *)
Definition flushed (x : bool * ctx) : bool * ctx :=
  let (ok, c) := x in if ok then (true, note_io c IoFlush) else (false, c).

(** src/fstrm_capture.c:464-507 [open_write_start]. *)
Definition open_write_start (e : env) (a : args) (c : ctx) : ores (bool * ctx) :=
  match control_set_type control_init FSTRM_CONTROL_START with
  | (r_success, k) =>
      match control_add_field k (a_ctype a) with
      | (r_success, k') =>
          match encode_frame k' with
          | Ok (Some b) => Go (flushed (fwrite e b c))
          | Ok None => Go (false, c)
          | Err f => Broke f
          end
      | _ => Go (false, c)
      end
  | _ => Go (false, c)
  end.

(** src/fstrm_capture.c:509-543 [update_output_fname]. *)
Definition update_output_fname (e : env) (c : ctx) : option bytes * ctx :=
  let t := e_time e (x_tick c) in
  (e_strftime e t, set_ts (tick c) t).

(** src/fstrm_capture.c:545-601 [open_write_file].  O_TRUNC: a file of the
    same name opened earlier is overwritten, see [on_disk] of SpecCapture.v. *)
Definition open_write_file (e : env) (a : args) (c : ctx) : ores (bool * ctx) :=
  let begin name c1 :=
    ' (ok, c2) <~ open_write_start e a (note_io (set_outs c1 (x_outs c1 ++ [(name, [])]) true) IoOpen) ;;
    if ok then Go (true, c2) else Go (false, note_io (set_outs c2 (x_outs c2) false) IoClose) in
  let open name c1 :=
    if e_open e (x_tick c1) then begin name (tick c1) else Go (false, tick c1) in
  if is_stdout a then begin (a_fname a) c
  else if has_calendar a then
    match update_output_fname e c with
    | (Some name, c1) => open name c1
    | (None, c1) => Go (false, c1)
    end
  else open (a_fname a) c.

(** src/fstrm_capture.c:603-622 [close_write_file]. *)
Definition close_write_file (e : env) (c : ctx) : ores (bool * ctx) :=
  if x_open c then
    ' (ok, c1) <~ close_write_stop e c ;;
    if ok then Go (true, note_io (set_outs c1 (x_outs c1) false) IoClose) else Go (false, c1)
  else Go (true, c).

(** src/fstrm_capture.c:677-698 [rotate_output]. *)
Definition rotate_output (e : env) (a : args) (c : ctx) : ores ctx :=
  if is_stdout a then Go c
  else
    ' (ok, c1) <~ close_write_file e c ;;
    if ok then
      ' (ok2, c2) <~ open_write_file e a c1 ;;
      if ok2 then Go c2 else Exit c2
    else Exit c1.

(** src/fstrm_capture.c:700-712 [maybe_rotate_output].  [time_t] additions do
    not overflow (an int added to a current time). *)
Definition maybe_rotate_output (e : env) (a : args) (c : ctx) : ores ctx :=
  if (0 <? a_split a)%Z then
    let t := e_time e (x_tick c) in
    let c1 := tick c in
    if (x_ts c1 + a_split a <=? t)%Z then rotate_output e a c1 else Go c1
  else Go c.

(** evbuffer_drain(). *)
Definition drain (k : conn) (n : N) : conn :=
  mk_conn (k_state k) (k_payload k) (k_total k) (k_skip k) (k_ctl k) (skipn (N.to_nat n) (k_buf k)).
Definition set_state (k : conn) (s : conn_state) (ctl : control) : conn :=
  mk_conn s (k_payload k) (k_total k) (k_skip k) ctl (k_buf k).

(** src/fstrm_capture.c:624-675 [process_data_frame].  The iovec loop writes
    the first [len_frame_total] bytes of the buffer piece by piece; one
    fwrite() stands for all of them. *)
Definition process_data_frame (e : env) (id : nat) (k : conn) (c : ctx) : ores (conn * ctx) :=
  let b := firstn (N.to_nat (k_total k)) (k_buf k) in
  match fwrite e b c with
  | (true, c1) => Go (drain k (k_total k), note c1 id (Store b))
  | (false, c1) => Exit c1
  end.

(** src/fstrm_capture.c:714-725 [send_frame]. *)
Definition send_frame (e : env) (id : nat) (b : bytes) (c : ctx) : bool * ctx :=
  if e_send e (x_tick c) then (true, note (tick c) id (Answer b)) else (false, tick c).

(** src/fstrm_capture.c:727-744 [match_content_type]. *)
Definition match_content_type (a : args) (k : conn) : bool :=
  res_eqb (control_match (k_ctl k) (Some (a_ctype a))) r_success.

(** src/fstrm_capture.c:746-770 [write_control_frame]. *)
Definition write_control_frame (e : env) (id : nat) (ctl : control) (c : ctx) : ores (bool * ctx) :=
  match encode_frame ctl with
  | Ok (Some b) => Go (send_frame e id b c)
  | Ok None => Go (false, c)
  | Err f => Broke f
  end.

(** src/fstrm_capture.c:772-820 [process_control_frame_ready]; the loop over
    the content types (789-797) only logs, and cannot fail below the count. *)
Definition process_control_frame_ready (e : env) (a : args) (id : nat) (k : conn) (c : ctx)
  : ores (bool * conn * ctx) :=
  match control_get_num (k_ctl k) with
  | (r_success, _) =>
      if match_content_type a k then
        match control_set_type (control_reset (k_ctl k)) FSTRM_CONTROL_ACCEPT with
        | (r_success, k1) =>
            match control_add_field k1 (a_ctype a) with
            | (r_success, k2) =>
                ' (ok, c1) <~ write_control_frame e id k2 c ;;
                if ok then Go (true, set_state k READING_START k2, c1)
                else Go (false, set_state k (k_state k) k2, c1)
            | (_, k2) => Go (false, set_state k (k_state k) k2, c)
            end
        | (_, k1) => Go (false, set_state k (k_state k) k1, c)
        end
      else Go (false, k, c)
  | _ => Go (false, k, c)
  end.

(** src/fstrm_capture.c:822-832 [process_control_frame_start]. *)
Definition process_control_frame_start (a : args) (k : conn) (c : ctx) : ores (bool * conn * ctx) :=
  if match_content_type a k then Go (true, set_state k READING_DATA (k_ctl k), c)
  else Go (false, k, c).

(** src/fstrm_capture.c:834-858 [process_control_frame_stop]. *)
Definition process_control_frame_stop (e : env) (id : nat) (k : conn) (c : ctx)
  : ores (bool * conn * ctx) :=
  match control_set_type (control_reset (k_ctl k)) FSTRM_CONTROL_FINISH with
  | (r_success, k1) =>
      ' (ok, c1) <~ write_control_frame e id k1 c ;;
      if ok then Go (true, set_state k STOPPED k1, c1)
      else Go (false, set_state k (k_state k) k1, c1)
  | (_, k1) => Go (false, set_state k (k_state k) k1, c)
  end.

(** src/fstrm_capture.c:860-895 [process_control_frame]. *)
Definition process_control_frame (e : env) (a : args) (id : nat) (k : conn) (c : ctx)
  : ores (bool * conn * ctx) :=
  match control_get_type (k_ctl k) with
  | (r_success, Some t) =>
      match k_state k with
      | READING_READY =>
          if negb (t =? FSTRM_CONTROL_READY) then Go (false, k, c)
          else process_control_frame_ready e a id k c
      | READING_START =>
          if negb (t =? FSTRM_CONTROL_START) then Go (false, k, c)
          else process_control_frame_start a k c
      | READING_DATA =>
          if negb (t =? FSTRM_CONTROL_STOP) then Go (false, k, c)
          else process_control_frame_stop e id k c
      | STOPPED => Go (false, k, c)
      end
  | _ => Go (false, k, c)
  end.

(** src/fstrm_capture.c:897-933 [load_control_frame]. *)
Definition load_control_frame (k : conn) : outc (bool * conn) :=
  if FSTRM_CONTROL_FRAME_LENGTH_MAX <=? k_total k then Ok (false, k)
  else
    obind (control_decode (k_ctl k) (k_buf k) (k_total k) 1) (fun rc =>
    match rc with
    | (r_success, ctl) => Ok (true, drain (set_state k (k_state k) ctl) (k_total k))
    | (_, ctl) => Ok (false, set_state k (k_state k) ctl)
    end).

(** src/fstrm_capture.c:935-1011 [can_read_full_frame]. *)
Inductive can_read := CR_closed | CR_wait (k : conn) | CR_full (k : conn).
Definition set_sizes (k : conn) (payload total skip : N) : conn :=
  mk_conn (k_state k) payload total skip (k_ctl k) (k_buf k).
Definition have_frame (a : args) (k : conn) : can_read :=                  (* 991-1010 *)
  if lenN (k_buf k) <? k_total k then
    if capture_highwater a <? k_total k
    then CR_wait (set_sizes k (k_payload k) (k_total k) (k_total k))
    else CR_wait k
  else CR_full k.
Definition can_read_full_frame (a : args) (k : conn) : can_read :=
  if lenN (k_buf k) <? 4 then CR_wait (set_sizes k (k_payload k) 0 (k_skip k))
  else
    let payload := ntohl_bytes (k_buf k) in
    let total := (4 + payload) mod 2 ^ 32 in
    let k1 := set_sizes k payload total (k_skip k) in
    if payload =? 0 then
      if lenN (k_buf k) <? 8 then CR_wait k1
      else
        let clen := ntohl_bytes (skipn 4 (k_buf k)) in
        if (clen <? 4) || (FSTRM_CONTROL_FRAME_LENGTH_MAX <? clen) then CR_closed
        else have_frame a (set_sizes k1 payload (((total + 4) mod 2 ^ 32 + clen) mod 2 ^ 32) (k_skip k))
    else have_frame a k1.

(** The connection table: libevent's bufferevents and their [conn]s. *)
Fixpoint find_conn (id : nat) (ks : list (nat * conn)) : option conn :=
  match ks with
  | [] => None
  | (i, k) :: ks' => if Nat.eqb i id then Some k else find_conn id ks'
  end.
Fixpoint remove_conn (id : nat) (ks : list (nat * conn)) : list (nat * conn) :=
  match ks with
  | [] => []
  | (i, k) :: ks' => if Nat.eqb i id then ks' else (i, k) :: remove_conn id ks'
  end.
Fixpoint update_conn (id : nat) (k : conn) (ks : list (nat * conn)) : list (nat * conn) :=
  match ks with
  | [] => []
  | (i, k') :: ks' => if Nat.eqb i id then (i, k) :: ks' else (i, k') :: update_conn id k ks'
  end.

(** src/fstrm_capture.c:274-298 [cb_close_conn].  The int increment cannot
    overflow: it undoes the decrement of the accept. *)
Definition cb_close_conn (id : nat) (c : ctx) : ctx :=
  let r := (x_remaining c + 1)%Z in
  set_conns c r (if (r =? 1)%Z then true else x_listen c) (remove_conn id (x_conns c)).

(** src/fstrm_capture.c:1024-1083 [cb_read], the loop; [None] = the
    connection was closed.  Every round but one with [len_frame_total] = 0
    takes at least one byte off the buffer, so [S (length buf)] rounds suffice
    unless the C loop never ends (a round with total 0 also declares an array
    of length 0, undefined behaviour; it is not distinguished here). *)
Fixpoint read_loop (e : env) (a : args) (fuel : nat) (id : nat) (k : conn) (c : ctx)
  : ores (option conn * ctx) :=
  match fuel with
  | O => Hang
  | S fuel' =>
      if lenN (k_buf k) =? 0 then Go (Some k, c)
      else if k_skip k =? 0 then
        match can_read_full_frame a k with
        | CR_closed => Go (None, cb_close_conn id (note c id Hangup))
        | CR_wait k1 => Go (Some k1, c)
        | CR_full k1 =>
            if 0 <? k_payload k1 then
              ' (k2, c1) <~ process_data_frame e id k1 c ;;
              ' c2 <~ maybe_rotate_output e a c1 ;;
              read_loop e a fuel' id k2 c2
            else
              match load_control_frame k1 with
              | Err f => Broke f
              | Ok (false, _) => Go (None, cb_close_conn id (note c id Hangup))
              | Ok (true, k2) =>
                  ' (ok, k3, c1) <~ process_control_frame e a id k2 c ;;
                  if (ok : bool) then read_loop e a fuel' id k3 c1
                  else Go (None, cb_close_conn id (note c1 id Hangup))
              end
        end
      else
        let skip := N.min (k_skip k) (lenN (k_buf k)) in
        let k1 := drain k skip in
        read_loop e a fuel' id (set_sizes k1 (k_payload k) (k_total k) (k_skip k - skip)) c
  end.

Definition cb_read (e : env) (a : args) (id : nat) (k : conn) (c : ctx) : ores ctx :=
  ' (r, c1) <~ read_loop e a (S (length (k_buf k))) id k c ;;
  match r with
  | Some k1 => Go (set_conns c1 (x_remaining c1) (x_listen c1) (update_conn id k1 (x_conns c1)))
  | None => Go c1
  end.

(** src/fstrm_capture.c:1013-1022 [cb_write]. *)
Definition cb_write (id : nat) (k : conn) (c : ctx) : ctx :=
  match k_state k with STOPPED => cb_close_conn id c | _ => c end.

(** src/fstrm_capture.c:217-226 [conn_init]. *)
Definition conn_init : conn := mk_conn READING_READY 0 0 0 control_init [].

(** src/fstrm_capture.c:1085-1113 [cb_accept_conn], bufferevent_socket_new()
    succeeding (when it fails nothing changes). *)
Definition cb_accept_conn (id : nat) (c : ctx) : ctx :=
  let r := (x_remaining c - 1)%Z in
  set_conns c r (if (r =? 0)%Z then false else x_listen c) ((id, conn_init) :: x_conns c).

(** The callbacks libevent may run. *)
Inductive ev :=
| E_accept (id : nat)
| E_data (id : nat) (chunk : bytes)    (* [chunk] was read, then cb_read *)
| E_written (id : nat)                 (* the output buffer was written: cb_write *)
| E_gone (id : nat)                    (* end of file or error: cb_close_conn *)
| E_sigusr1
| E_sighup.

(** src/fstrm_capture.c:1124-1144 [do_sigusr1], [do_sighup] (fflush(): no
    effect on the bytes handed over), and the dispatch of callbacks. *)
Definition step (e : env) (a : args) (x : ev) (c : ctx) : ores ctx :=
  match x with
  | E_accept id => Go (cb_accept_conn id c)
  | E_data id chunk =>
      match find_conn id (x_conns c) with
      | Some k => cb_read e a id (mk_conn (k_state k) (k_payload k) (k_total k) (k_skip k) (k_ctl k)
                                          (k_buf k ++ chunk)) c
      | None => Broke (FUb ub_uaf)
      end
  | E_written id =>
      match find_conn id (x_conns c) with
      | Some k => Go (cb_write id k c)
      | None => Broke (FUb ub_uaf)
      end
  | E_gone id =>
      match find_conn id (x_conns c) with
      | Some _ => Go (cb_close_conn id c)
      | None => Broke (FUb ub_uaf)
      end
  | E_sigusr1 => if x_open c then rotate_output e a c else Go c
  | E_sighup => Go (if x_open c then note_io c IoFlush else c)
  end.

(** src/fstrm_capture.c:1251-1253 [main] up to the event loop. *)
Definition boot (e : env) (a : args) : ores ctx :=
  ' (ok, c) <~ open_write_file e a (mk_ctx [] false 0 0 (remaining0 a) true [] [] []) ;;
  if ok then Go c else Exit c.

(** src/fstrm_capture.c:1275-1281 [main] after the event loop. *)
Definition shutdown (e : env) (c : ctx) : ores ctx :=
  ' (ok, c1) <~ close_write_file e c ;;
  if ok then Go c1 else Exit c1.

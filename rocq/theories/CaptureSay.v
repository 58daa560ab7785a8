(** Model of what src/fstrm_capture.c says on stderr: the messages about output
    files, signals and failures, and those about connections up to level INFO
    that carry numbers, with the counters they print.  The functions are those of
    Capture.v with the counters of [struct capture] and [struct conn] added; the
    functions that have none are used as they are.  Not modelled: the words
    around the values, and the other messages of conn_log() (libevent errors,
    refused content types, failed sends, levels DEBUG and TRACE). *)
From Coq Require Import ZArith.
From Verif Require Import Bytes Control Capture.
Import ListNotations.
Local Open Scope N_scope.

(** One message; numbers as printed by %zd. *)
Inductive saying :=
| Opened (name : bytes)                        (* 599 *)
| Closed (name : bytes) (frames bytes : Z)     (* 617-620 *)
| Not_rotating                                 (* 682 *)
| Got_usr1                                     (* 1130 *)
| Got_hup                                      (* 1142 *)
| Going_down                                   (* 1273 *)
| Accepted (id : nat)                          (* 1108 *)
| Closing (id : nat) (frames bytes : Z)        (* 284-285 *)
| Skipping (id : nat) (total : N)              (* 1000-1003 *)
| Bad_format                                   (* 537 strftime() failed *)
| Bad_open (name : bytes)                      (* 570, 579 *)
| Bad_start (name : bytes)                     (* 593 *)
| Bad_fwrite                                   (* 657 *)
| Bad_close                                    (* 689 *)
| Bad_reopen.                                  (* 694 *)

(** src/fstrm_capture.c:93-96, 100-121: [count_written], [bytes_written] and
    [output_fname] of the server, [count_read] and [bytes_read] of each
    connection, and what was said so far. *)
Record tally := mk_tally {
  t_frames : N; t_bytes : N; t_fname : option bytes; t_conns : list (nat * (N * N)); t_said : list saying }.

(** size_t addition; the value %zd prints for a size_t. *)
Definition zadd (x y : N) : N := (x + y) mod 2 ^ 64.
Definition zd (x : N) : Z := if x <? 2 ^ 63 then Z.of_N x else (Z.of_N x - 2 ^ 64)%Z.

Definition say (t : tally) (m : saying) : tally :=
  mk_tally (t_frames t) (t_bytes t) (t_fname t) (t_conns t) (t_said t ++ [m]).
Definition set_fname (t : tally) (n : option bytes) : tally :=
  mk_tally (t_frames t) (t_bytes t) n (t_conns t) (t_said t).
Definition set_counts (t : tally) (ks : list (nat * (N * N))) : tally :=
  mk_tally (t_frames t) (t_bytes t) (t_fname t) ks (t_said t).
(** src/fstrm_capture.c:586-587. *)
Definition no_counts (t : tally) : tally := mk_tally 0 0 (t_fname t) (t_conns t) (t_said t).
(** src/fstrm_capture.c:454-455, 499-500, 673-674. *)
Definition wrote (t : tally) (n : N) : tally :=
  mk_tally (zadd (t_frames t) 1) (zadd (t_bytes t) n) (t_fname t) (t_conns t) (t_said t).

(** How a piece of the program ends, compare [ores]. *)
Inductive sres (A : Type) :=
| SGo (a : A) (t : tally)
| SExit (c : ctx) (t : tally)
| SHang
| SBroke (f : fail).
Arguments SGo {A} a t.
Arguments SExit {A} c t.
Arguments SHang {A}.
Arguments SBroke {A} f.
Definition sbind {A B} (x : sres A) (f : A -> tally -> sres B) : sres B :=
  match x with
  | SGo a t => f a t
  | SExit c t => SExit c t
  | SHang => SHang
  | SBroke r => SBroke r
  end.
(** A function of Capture.v that neither counts nor speaks. *)
Definition mute {A} (x : ores A) (t : tally) : sres A :=
  match x with
  | Go a => SGo a t
  | Exit c => SExit c t
  | Hang => SHang
  | Broke f => SBroke f
  end.
Notation "' p @ t <~ x ;; y" := (sbind x (fun p t => y))
  (at level 61, p pattern, t name, x at next level, right associativity).

Section Say.
Variables (e : env) (a : args).
Variable debug : Z.     (* --debug *)

(** src/fstrm_capture.c:427-462 [close_write_stop]. *)
Definition say_stop (c : ctx) (t : tally) : sres (bool * ctx) :=
  match control_set_type control_init FSTRM_CONTROL_STOP with
  | (r_success, k) =>
      match encode_frame k with
      | Ok (Some b) =>
          let (ok, c1) := fwrite e b c in SGo (ok, c1) (if ok then wrote t (lenN b) else t)
      | Ok None => SGo (false, c) t
      | Err f => SBroke f
      end
  | _ => SGo (false, c) t
  end.

(** src/fstrm_capture.c:464-507 [open_write_start]. *)
Definition say_start (c : ctx) (t : tally) : sres (bool * ctx) :=
  match control_set_type control_init FSTRM_CONTROL_START with
  | (r_success, k) =>
      match control_add_field k (a_ctype a) with
      | (r_success, k') =>
          match encode_frame k' with
          | Ok (Some b) =>
              let (ok, c1) := flushed (fwrite e b c) in SGo (ok, c1) (if ok then wrote t (lenN b) else t)
          | Ok None => SGo (false, c) t
          | Err f => SBroke f
          end
      | _ => SGo (false, c) t
      end
  | _ => SGo (false, c) t
  end.

(** src/fstrm_capture.c:509-543 [update_output_fname]; my_free() sets the member
    to NULL. *)
Definition say_update (c : ctx) (t : tally) : option bytes * ctx * tally :=
  match update_output_fname e c with
  | (Some name, c1) => (Some name, c1, set_fname t (Some name))
  | (None, c1) => (None, c1, say (set_fname t None) Bad_format)
  end.

(** src/fstrm_capture.c:545-601 [open_write_file]. *)
Definition say_open_file (c : ctx) (t : tally) : sres (bool * ctx) :=
  let begin name c1 t :=
    ' (ok, c2) @ t <~ say_start (note_io (set_outs c1 (x_outs c1 ++ [(name, [])]) true) IoOpen) (no_counts t) ;;
    if ok then SGo (true, c2) (say t (Opened name))
    else SGo (false, note_io (set_outs c2 (x_outs c2) false) IoClose) (say t (Bad_start name)) in
  let open name c1 t :=
    if e_open e (x_tick c1) then begin name (tick c1) t else SGo (false, tick c1) (say t (Bad_open name)) in
  if is_stdout a then begin (a_fname a) c t
  else if has_calendar a then
    match say_update c t with
    | (Some name, c1, t) => open name c1 t
    | (None, c1, t) => SGo (false, c1) t
    end
  else open (a_fname a) c t.

(** src/fstrm_capture.c:603-622 [close_write_file]. *)
Definition say_closed (t : tally) : tally :=
  say t (Closed (match t_fname t with Some n => n | None => a_fname a end) (zd (t_frames t)) (zd (t_bytes t))).
Definition say_close_file (c : ctx) (t : tally) : sres (bool * ctx) :=
  if x_open c then
    ' (ok, c1) @ t <~ say_stop c t ;;
    if ok then SGo (true, note_io (set_outs c1 (x_outs c1) false) IoClose) (say_closed t) else SGo (false, c1) t
  else SGo (true, c) (say_closed t).

(** src/fstrm_capture.c:677-698 [rotate_output]. *)
Definition say_rotate (c : ctx) (t : tally) : sres ctx :=
  if is_stdout a then SGo c (say t Not_rotating)
  else
    ' (ok, c1) @ t <~ say_close_file c t ;;
    if ok then
      ' (ok2, c2) @ t <~ say_open_file c1 t ;;
      if ok2 then SGo c2 t else SExit c2 (say t Bad_reopen)
    else SExit c1 (say t Bad_close).

(** src/fstrm_capture.c:700-712 [maybe_rotate_output]. *)
Definition say_maybe_rotate (c : ctx) (t : tally) : sres ctx :=
  if (0 <? a_split a)%Z then
    let now := e_time e (x_tick c) in
    let c1 := tick c in
    if (x_ts c1 + a_split a <=? now)%Z then say_rotate c1 t else SGo c1 t
  else SGo c t.

(** The counters of a connection. *)
Fixpoint find_count (id : nat) (ks : list (nat * (N * N))) : N * N :=
  match ks with
  | [] => (0, 0)
  | (i, n) :: ks' => if Nat.eqb i id then n else find_count id ks'
  end.
Fixpoint remove_count (id : nat) (ks : list (nat * (N * N))) : list (nat * (N * N)) :=
  match ks with
  | [] => []
  | (i, n) :: ks' => if Nat.eqb i id then ks' else (i, n) :: remove_count id ks'
  end.
Fixpoint update_count (id : nat) (n : N * N) (ks : list (nat * (N * N))) : list (nat * (N * N)) :=
  match ks with
  | [] => []
  | (i, n') :: ks' => if Nat.eqb i id then (i, n) :: ks' else (i, n') :: update_count id n ks'
  end.

(** src/fstrm_capture.c:624-675 [process_data_frame]; [bytes_read] is
    [len_frame_total] after the loop. *)
Definition say_data (id : nat) (k : conn) (c : ctx) (t : tally) : sres (conn * ctx) :=
  let b := firstn (N.to_nat (k_total k)) (k_buf k) in
  match fwrite e b c with
  | (true, c1) =>
      let (n, m) := find_count id (t_conns t) in
      SGo (drain k (k_total k), note c1 id (Store b))
        (wrote (set_counts t (update_count id (zadd n 1, zadd m (k_total k)) (t_conns t))) (k_total k))
  | (false, c1) => SExit c1 (say t Bad_fwrite)
  end.

(** src/fstrm_capture.c:274-298 [cb_close_conn]. *)
Definition say_close_conn (id : nat) (c : ctx) (t : tally) : ctx * tally :=
  let (n, m) := find_count id (t_conns t) in
  let t := if (3 <=? debug)%Z then say t (Closing id (zd n) (zd m)) else t in
  (cb_close_conn id c, set_counts t (remove_count id (t_conns t))).

(** src/fstrm_capture.c:996-1006: the message about a frame to be skipped. *)
Definition say_wait (id : nat) (k1 : conn) (t : tally) : tally :=
  if (lenN (k_buf k1) <? k_total k1) && (capture_highwater a <? k_total k1) && (2 <=? debug)%Z
  then say t (Skipping id (k_total k1)) else t.

(** src/fstrm_capture.c:1024-1083 [cb_read]. *)
Fixpoint say_loop (fuel : nat) (id : nat) (k : conn) (c : ctx) (t : tally) : sres (option conn * ctx) :=
  match fuel with
  | O => SHang
  | S fuel' =>
      if lenN (k_buf k) =? 0 then SGo (Some k, c) t
      else if k_skip k =? 0 then
        match can_read_full_frame a k with
        | CR_closed => let (c1, t) := say_close_conn id (note c id Hangup) t in SGo (None, c1) t
        | CR_wait k1 => SGo (Some k1, c) (say_wait id k1 t)
        | CR_full k1 =>
            if 0 <? k_payload k1 then
              ' (k2, c1) @ t <~ say_data id k1 c t ;;
              ' c2 @ t <~ say_maybe_rotate c1 t ;;
              say_loop fuel' id k2 c2 t
            else
              match load_control_frame k1 with
              | Err f => SBroke f
              | Ok (false, _) => let (c1, t) := say_close_conn id (note c id Hangup) t in SGo (None, c1) t
              | Ok (true, k2) =>
                  ' (ok, k3, c1) @ t <~ mute (process_control_frame e a id k2 c) t ;;
                  if (ok : bool) then say_loop fuel' id k3 c1 t
                  else let (c1, t) := say_close_conn id (note c1 id Hangup) t in SGo (None, c1) t
              end
        end
      else
        let skip := N.min (k_skip k) (lenN (k_buf k)) in
        let k1 := drain k skip in
        say_loop fuel' id (set_sizes k1 (k_payload k) (k_total k) (k_skip k - skip)) c t
  end.

Definition say_read (id : nat) (k : conn) (c : ctx) (t : tally) : sres ctx :=
  ' (r, c1) @ t <~ say_loop (S (length (k_buf k))) id k c t ;;
  match r with
  | Some k1 => SGo (set_conns c1 (x_remaining c1) (x_listen c1) (update_conn id k1 (x_conns c1))) t
  | None => SGo c1 t
  end.

(** src/fstrm_capture.c:1013-1022 [cb_write]. *)
Definition say_write (id : nat) (k : conn) (c : ctx) (t : tally) : ctx * tally :=
  match k_state k with STOPPED => say_close_conn id c t | _ => (c, t) end.

(** src/fstrm_capture.c:1085-1113 [cb_accept_conn]; [conn_init] clears the
    counters. *)
Definition say_accept (id : nat) (c : ctx) (t : tally) : ctx * tally :=
  let t := set_counts t ((id, (0, 0)) :: t_conns t) in
  (cb_accept_conn id c, if (3 <=? debug)%Z then say t (Accepted id) else t).

(** The callbacks, see Capture.v [step]; src/fstrm_capture.c:1124-1144. *)
Definition say_step (x : ev) (c : ctx) (t : tally) : sres ctx :=
  match x with
  | E_accept id => let (c, t) := say_accept id c t in SGo c t
  | E_data id chunk =>
      match find_conn id (x_conns c) with
      | Some k => say_read id (mk_conn (k_state k) (k_payload k) (k_total k) (k_skip k) (k_ctl k)
                                       (k_buf k ++ chunk)) c t
      | None => SBroke (FUb ub_uaf)
      end
  | E_written id =>
      match find_conn id (x_conns c) with
      | Some k => let (c, t) := say_write id k c t in SGo c t
      | None => SBroke (FUb ub_uaf)
      end
  | E_gone id =>
      match find_conn id (x_conns c) with
      | Some _ => let (c, t) := say_close_conn id c t in SGo c t
      | None => SBroke (FUb ub_uaf)
      end
  | E_sigusr1 => if x_open c then say_rotate c (say t Got_usr1) else SGo c t
  | E_sighup => if x_open c then SGo (note_io c IoFlush) (say t Got_hup) else SGo c t
  end.

(** src/fstrm_capture.c:1251-1253 [main] up to the event loop. *)
Definition say_boot : sres ctx :=
  ' (ok, c) @ t <~ say_open_file (mk_ctx [] false 0 0 (remaining0 a) true [] [] []) (mk_tally 0 0 None [] []) ;;
  if ok then SGo c t else SExit c t.

(** src/fstrm_capture.c:1273-1281 [main] after the event loop. *)
Definition say_shutdown (c : ctx) (t : tally) : sres ctx :=
  ' (ok, c1) @ t <~ say_close_file c (say t Going_down) ;;
  if ok then SGo c1 t else SExit c1 t.
End Say.

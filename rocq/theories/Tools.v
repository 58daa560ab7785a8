(** Model of src/fstrm_dump.c and src/fstrm_replay.c as programs using the
    library.  Argument parsing and the messages on stderr are left out (the
    option texts are in Misc.v); stdout is a result. *)
From Verif Require Import Bytes Io Control Rdwr Reader Writer File Misc.
Local Open Scope io_scope.

(** ** fstrm_dump *)

(** src/fstrm_dump.c:33-69.  [wopt]: the content types of the writer options,
    [None] = NULL. *)
Definition process_start_frame (r : reader) (wopt : option (list bytes))
  : io (res * option (list bytes) * reader) :=
  ' (x, control, r) <- reader_get_control r FSTRM_CONTROL_START ;;
  if negb (res_eqb x r_success) then Ret (x, wopt, r)
  else match control with
       | None | Some None => Fail (FUb ub_null)
       | Some (Some control) =>
           let (x, n) := control_get_num control in
           if negb (res_eqb x r_success) then Ret (x, wopt, r)
           else
             let (x, content_type) := if (0 <? n)%nat then control_get_field control 0
                                      else (r_success, None) in
             if negb (res_eqb x r_success) then Ret (x, wopt, r)
             else match wopt, content_type with
                  | Some cts, Some ct =>
                      let (x, cts) := writer_options_add_content_type cts ct in
                      Ret (x, Some cts, r)
                  | _, _ => Ret (r_success, wopt, r)
                  end
       end.

(** src/fstrm_dump.c:71-83.  The frame itself is not looked at. *)
Definition print_stop_frame (r : reader) : io (res * reader) :=
  ' (x, _, r) <- reader_get_control r FSTRM_CONTROL_STOP ;;
  Ret (x, r).

(** src/fstrm_dump.c:173-208.  Result: [rv] (true = EXIT_SUCCESS), stdout, and
    the objects to clean up.  [data] and [len_data] are uninitialised locals: using
    them when the read stored nothing is undefined.  [fuel] bounds the rounds,
    [rfuel] the frames per read. *)
Fixpoint dump_loop (fuel rfuel : nat) (r : reader) (w : option writer) (out : bytes)
  : io (bool * bytes * reader * option writer) :=
  match fuel with
  | O => Fail FFuel
  | S fuel' =>
      ' (x, data, r) <- reader_read rfuel r ;;
      match x with
      | r_success =>
          match data with
          | None => Fail (FUb ub_uninit)
          | Some data =>
              let out := out ++ print_data_frame data in
              match w with
              | None => dump_loop fuel' rfuel r None out
              | Some w =>
                  ' (x, w) <- writer_write w data ;;
                  if negb (res_eqb x r_success) then Ret (false, out, r, Some w)
                  else dump_loop fuel' rfuel r (Some w) out
              end
          end
      | r_stop =>
          ' (x, r) <- print_stop_frame r ;;
          if negb (res_eqb x r_success) then Ret (false, out, r, w)
          else Ret (true, out, r, w)
      | _ => Ret (false, out, r, w)
      end
  end.

(** src/fstrm_dump.c:210-228. *)
Definition dump_cleanup (rv : bool) (r : reader) (w : option writer) : io bool :=
  _ <- reader_destroy r ;;
  match w with
  | None => Ret rv
  | Some w =>
      ' (x, w) <- writer_close w ;;
      _ <- writer_destroy w ;;
      Ret (if negb (res_eqb x r_success) then false else rv)
  end.

(** src/fstrm_dump.c:95-229.  The input file is transport 0 and the output file
    transport 1; [output]: whether an output file is given.  The two paths name
    different files. *)
Definition dump_main (fuel iov_max : nat) (output : bool) : io (bool * bytes) :=
  match reader_init reader_options_default (file_reader_rdwr 0) with
  | None => Ret (false, [])
  | Some r =>
      ' (x, r) <- reader_open r ;;
      if negb (res_eqb x r_success) then rv <- dump_cleanup false r None ;; Ret (rv, [])
      else
        ' (x, wopt, r) <- process_start_frame r (if output then Some [] else None) ;;
        if negb (res_eqb x r_success) then rv <- dump_cleanup false r None ;; Ret (rv, [])
        else
          match wopt with
          | None =>
              ' (rv, out, r, w) <- dump_loop fuel fuel r None [] ;;
              rv <- dump_cleanup rv r w ;; Ret (rv, out)
          | Some cts =>
              match writer_init iov_max cts (file_writer_rdwr 1) with
              | None => rv <- dump_cleanup false r None ;; Ret (rv, [])
              | Some w =>
                  ' (x, w) <- writer_open w ;;
                  if negb (res_eqb x r_success) then
                    _ <- writer_destroy w ;;
                    rv <- dump_cleanup false r None ;; Ret (rv, [])
                  else
                    ' (rv, out, r, w) <- dump_loop fuel fuel r (Some w) [] ;;
                    rv <- dump_cleanup rv r w ;; Ret (rv, out)
              end
          end
  end.

(** ** fstrm_replay *)

(** fstrm/unix_writer.c:200-224, fstrm/tcp_writer.c:259-285: which methods a
    socket transport has. *)
Definition socket_rdwr (h : nat) : rdwr := mk_rdwr h true true true true true false.

(** src/fstrm_replay.c:129-200; the socket is transport 0.  The socket path
    or address and port are valid. *)
Definition init_writer (iov_max : nat) (content_type : bytes) : io (option writer) :=
  match writer_options_add_content_type [] content_type with
  | (r_success, cts) =>
      match writer_init iov_max cts (socket_rdwr 0) with
      | None => Ret None
      | Some w =>
          ' (x, w) <- writer_open w ;;
          if negb (res_eqb x r_success) then _ <- writer_destroy w ;; Ret None
          else Ret (Some w)
      end
  | _ => Ret None
  end.

(** src/fstrm_replay.c:238-263.  Second component: [None] = the program exited
    with EXIT_FAILURE. *)
Fixpoint replay_loop (fuel rfuel : nat) (r : reader) (w : writer) : io (option (reader * writer)) :=
  match fuel with
  | O => Fail FFuel
  | S fuel' =>
      ' (x, data, r) <- reader_read rfuel r ;;
      match x with
      | r_success =>
          match data with
          | None => Fail (FUb ub_uninit)
          | Some data =>
              ' (x, w) <- writer_write w data ;;
              if negb (res_eqb x r_success) then Ret None
              else replay_loop fuel' rfuel r w
          end
      | r_stop =>
          ' (_, _, r) <- reader_get_control r FSTRM_CONTROL_STOP ;;
          Ret (Some (r, w))
      | _ => Ret (Some (r, w))
      end
  end.

(** src/fstrm_replay.c:202-265; the file is transport [h]. *)
Definition process_file (fuel : nat) (content_type : bytes) (h : nat) (w : writer) : io (option writer) :=
  match reader_init reader_options_default (file_reader_rdwr h) with
  | None => Ret (Some w)
  | Some r =>
      ' (x, control, r) <- reader_get_control r FSTRM_CONTROL_START ;;
      if negb (res_eqb x r_success) then _ <- reader_destroy r ;; Ret (Some w)
      else match control with
           | None | Some None => Fail (FUb ub_null)
           | Some (Some control) =>
               if negb (res_eqb (control_match control (Some content_type)) r_success)
               then _ <- reader_destroy r ;; Ret (Some w)
               else
                 z <- replay_loop fuel fuel r w ;;
                 match z with
                 | None => Ret None
                 | Some (r, w) => _ <- reader_destroy r ;; Ret (Some w)
                 end
           end
  end.

(** src/fstrm_replay.c:280-284; [n] files are left, the next one is transport
    [h]. *)
Fixpoint process_files (fuel : nat) (content_type : bytes) (h n : nat) (w : writer) : io (option writer) :=
  match n with
  | O => Ret (Some w)
  | S n' =>
      z <- process_file fuel content_type h w ;;
      match z with
      | None => Ret None
      | Some w => process_files fuel content_type (S h) n' w
      end
  end.

(** src/fstrm_replay.c:267-292.  [n]: number of files.  Result: true = exit
    status 0. *)
Definition replay_main (fuel iov_max : nat) (content_type : bytes) (n : nat) : io bool :=
  z <- init_writer iov_max content_type ;;
  match z with
  | None => Ret false
  | Some w =>
      z <- process_files fuel content_type 1 n w ;;
      match z with
      | None => Ret false
      | Some w =>
          ' (_, w) <- writer_close w ;;
          _ <- writer_destroy w ;;
          Ret true
      end
  end.

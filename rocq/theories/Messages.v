(** Model of src/fstrm_dump.c and src/fstrm_replay.c with everything the two
    programs print.  Tools.v is the same code without the messages; that the two
    agree is proved in Messages_proofs.v.  Writing to stdout and stderr always
    works and both streams are unbuffered or line buffered, so the order of the
    calls is the order on a terminal. *)
From Coq Require Import String Decimal DecimalString.
From Verif Require Import Bytes Io Control Rdwr Reader Writer File Misc Tools.
Local Open Scope io_scope.
Local Open Scope N_scope.

Inductive stream := to_stdout | to_stderr.
Definition said : Type := stream * bytes.

Definition str (s : string) : bytes := list_byte_of_string s.
(** printf("%zd") of a length. *)
Definition dec (n : N) : bytes := str (NilZero.string_of_uint (N.to_uint n)).
Definition nl : bytes := [x0a].
Definition err (s : string) : list said := [(to_stderr, str s ++ nl)].

(** ** fstrm_dump *)

(** src/fstrm_dump.c:33-69. *)
Definition say_start_frame (r : reader) (wopt : option (list bytes))
  : io (res * option (list bytes) * reader * list said) :=
  ' (x, control, r) <- reader_get_control r FSTRM_CONTROL_START ;;
  if negb (res_eqb x r_success) then Ret (x, wopt, r, [])
  else match control with
       | None | Some None => Fail (FUb ub_null)
       | Some (Some control) =>
           let log := err "FSTRM_CONTROL_START." in
           let (x, n) := control_get_num control in
           if negb (res_eqb x r_success) then Ret (x, wopt, r, log)
           else
             let (x, content_type) := if (0 <? n)%nat then control_get_field control 0
                                      else (r_success, None) in
             if negb (res_eqb x r_success) then Ret (x, wopt, r, log)
             else
               let log := log ++ match content_type with
                                 | Some ct => [(to_stderr, str "FSTRM_CONTROL_FIELD_CONTENT_TYPE (" ++ dec (lenN ct) ++
                                     str " bytes)." ++ nl ++ str " "); (to_stderr, print_string ct); (to_stderr, nl)]
                                 | None => []
                                 end in
               match wopt, content_type with
               | Some cts, Some ct =>
                   let (x, cts) := writer_options_add_content_type cts ct in
                   Ret (x, Some cts, r, log)
               | _, _ => Ret (r_success, wopt, r, log)
               end
       end.

(** src/fstrm_dump.c:71-83. *)
Definition say_stop_frame (r : reader) : io (res * reader * list said) :=
  ' (x, _, r) <- reader_get_control r FSTRM_CONTROL_STOP ;;
  Ret (x, r, if negb (res_eqb x r_success) then [] else err "FSTRM_CONTROL_STOP.").

(** src/fstrm_dump.c:85-93. *)
Definition say_data_frame (data : bytes) : list said :=
  [(to_stderr, str "Data frame (" ++ dec (lenN data) ++ str ") bytes." ++ nl);
   (to_stdout, str " "); (to_stdout, print_string data); (to_stdout, nl)].

(** src/fstrm_dump.c:173-208, see Tools.v [dump_loop]. *)
Fixpoint dump_say_loop (fuel rfuel : nat) (r : reader) (w : option writer) (log : list said)
  : io (bool * list said * reader * option writer) :=
  match fuel with
  | O => Fail FFuel
  | S fuel' =>
      ' (x, data, r) <- reader_read rfuel r ;;
      match x with
      | r_success =>
          match data with
          | None => Fail (FUb ub_uninit)
          | Some data =>
              let log := log ++ say_data_frame data in
              match w with
              | None => dump_say_loop fuel' rfuel r None log
              | Some w =>
                  ' (x, w) <- writer_write w data ;;
                  if negb (res_eqb x r_success) then
                    Ret (false, log ++ err "Error: write_data_frame() failed.", r, Some w)
                  else dump_say_loop fuel' rfuel r (Some w) log
              end
          end
      | r_stop =>
          ' (x, r, log') <- say_stop_frame r ;;
          if negb (res_eqb x r_success) then
            Ret (false, log ++ log' ++ err "Error: unable to read STOP frame.", r, w)
          else Ret (true, log ++ log', r, w)
      | _ => Ret (false, log ++ err "Error: fstrm_reader_read() failed.", r, w)
      end
  end.

(** src/fstrm_dump.c:210-228. *)
Definition dump_say_cleanup (rv : bool) (r : reader) (w : option writer) (log : list said) : io (bool * list said) :=
  _ <- reader_destroy r ;;
  match w with
  | None => Ret (rv, log)
  | Some w =>
      ' (x, w) <- writer_close w ;;
      _ <- writer_destroy w ;;
      if negb (res_eqb x r_success) then Ret (false, log ++ err "Error: fstrm_writer_close() failed.")
      else Ret (rv, log)
  end.

(** src/fstrm_dump.c:119-229, see Tools.v [dump_main]. *)
Definition dump_say (fuel iov_max : nat) (output : bool) : io (bool * list said) :=
  match reader_init reader_options_default (file_reader_rdwr 0) with
  | None => Ret (false, err "Error: fstrm_file_reader_init() failed.")
  | Some r =>
      ' (x, r) <- reader_open r ;;
      if negb (res_eqb x r_success) then dump_say_cleanup false r None (err "Error: fstrm_reader_open() failed.")
      else
        ' (x, wopt, r, log) <- say_start_frame r (if output then Some [] else None) ;;
        if negb (res_eqb x r_success) then
          dump_say_cleanup false r None (log ++ err "Error: process_start_frame() failed.")
        else
          match wopt with
          | None =>
              ' (rv, log, r, w) <- dump_say_loop fuel fuel r None log ;;
              dump_say_cleanup rv r w log
          | Some cts =>
              match writer_init iov_max cts (file_writer_rdwr 1) with
              | None => dump_say_cleanup false r None (log ++ err "Error: fstrm_file_writer_init() failed.")
              | Some w =>
                  ' (x, w) <- writer_open w ;;
                  if negb (res_eqb x r_success) then
                    _ <- writer_destroy w ;;
                    dump_say_cleanup false r None (log ++ err "Error: fstrm_writer_open() failed.")
                  else
                    ' (rv, log, r, w) <- dump_say_loop fuel fuel r (Some w) log ;;
                    dump_say_cleanup rv r w log
              end
          end
  end.

(** src/fstrm_dump.c:95-117: the arguments, [argv] including the name of the
    program.  The names of the files matter for the messages only through
    argv[0]. *)
Definition dump_program (fuel iov_max : nat) (argv : list bytes) : io (bool * list said) :=
  match argv with
  | [] => Fail (FUb ub_null)
  | [_; _] => dump_say fuel iov_max false
  | [_; _; _] => dump_say fuel iov_max true
  | a0 :: _ => Ret (false, (to_stderr, str "Usage: " ++ a0 ++ str " <INPUT FILE> [<OUTPUT FILE>]" ++ nl) ::
                           err "Dumps a Frame Streams formatted input file." ++ [(to_stderr, nl)])
  end.

(** ** fstrm_replay *)

(** src/fstrm_replay.c:129-200, see Tools.v [init_writer].  [unix]: a Unix
    socket path is given; [port]: a port is given (it is if [unix] is false). *)
Definition say_init_writer (iov_max : nat) (unix port : bool) (content_type : bytes) : io (option writer * list said) :=
  match writer_options_add_content_type [] content_type with
  | (r_success, cts) =>
      let log := if unix && port then err "Warning: Ignoring --port with --unix." else [] in
      match writer_init iov_max cts (socket_rdwr 0) with
      | None => Ret (None, log ++ err (if unix then "Error: fstrm_unix_writer_init() failed."
                                       else "Error: fstrm_tcp_writer_init() failed."))
      | Some w =>
          ' (x, w) <- writer_open w ;;
          if negb (res_eqb x r_success) then
            _ <- writer_destroy w ;; Ret (None, log ++ err "Error: fstrm_writer_open() failed.")
          else Ret (Some w, log)
      end
  | _ => Ret (None, [])
  end.

(** src/fstrm_replay.c:238-263.  [fname]: the name of the file. *)
Fixpoint replay_say_loop (fuel rfuel : nat) (fname : bytes) (r : reader) (w : writer) : io (option (reader * writer) * list said) :=
  match fuel with
  | O => Fail FFuel
  | S fuel' =>
      ' (x, data, r) <- reader_read rfuel r ;;
      match x with
      | r_success =>
          match data with
          | None => Fail (FUb ub_uninit)
          | Some data =>
              ' (x, w) <- writer_write w data ;;
              if negb (res_eqb x r_success) then Ret (None, [(to_stderr, str "Error: write_data_frame() failed")])
              else replay_say_loop fuel' rfuel fname r w
          end
      | r_stop =>
          ' (x, _, r) <- reader_get_control r FSTRM_CONTROL_STOP ;;
          Ret (Some (r, w), if negb (res_eqb x r_success)
                            then [(to_stderr, str "Error: unable to read STOP frame from " ++ fname ++ str "." ++ nl)] else [])
      | _ => Ret (Some (r, w), err "Error: fstrm_reader_read() failed.")
      end
  end.

(** src/fstrm_replay.c:202-265, see Tools.v [process_file]. *)
Definition say_file (fuel : nat) (content_type fname : bytes) (h : nat) (w : writer) : io (option writer * list said) :=
  match reader_init reader_options_default (file_reader_rdwr h) with
  | None => Ret (Some w, [(to_stderr, str "Warning: failed to open " ++ fname ++ str ", skipping" ++ nl)])
  | Some r =>
      ' (x, control, r) <- reader_get_control r FSTRM_CONTROL_START ;;
      if negb (res_eqb x r_success) then
        _ <- reader_destroy r ;;
        Ret (Some w, [(to_stderr, str "Warning: failed to read control frame from " ++ fname ++ str ", skipping" ++ nl)])
      else match control with
           | None | Some None => Fail (FUb ub_null)
           | Some (Some control) =>
               if negb (res_eqb (control_match control (Some content_type)) r_success)
               then _ <- reader_destroy r ;;
                    Ret (Some w, [(to_stderr, str "Warning: content type mismatch for " ++ fname ++ str ", skipping" ++ nl)])
               else
                 ' (z, log) <- replay_say_loop fuel fuel fname r w ;;
                 match z with
                 | None => Ret (None, log)
                 | Some (r, w) => _ <- reader_destroy r ;; Ret (Some w, log)
                 end
           end
  end.

(** src/fstrm_replay.c:280-284; the files named by [names] are transports [h],
    [h + 1], ... *)
Fixpoint say_files (fuel : nat) (content_type : bytes) (names : list bytes) (h : nat) (w : writer) : io (option writer * list said) :=
  match names with
  | [] => Ret (Some w, [])
  | fname :: names' =>
      ' (z, log) <- say_file fuel content_type fname h w ;;
      match z with
      | None => Ret (None, log)
      | Some w => ' (z, log') <- say_files fuel content_type names' (S h) w ;; Ret (z, log ++ log')
      end
  end.

(** src/fstrm_replay.c:267-292, after the arguments (Argv.v); see Tools.v
    [replay_main]. *)
Definition replay_say (fuel iov_max : nat) (unix port : bool) (content_type : bytes) (names : list bytes) : io (bool * list said) :=
  ' (z, log) <- say_init_writer iov_max unix port content_type ;;
  match z with
  | None => Ret (false, log)
  | Some w =>
      ' (z, log') <- say_files fuel content_type names 1 w ;;
      match z with
      | None => Ret (false, log ++ log')
      | Some w =>
          ' (x, w) <- writer_close w ;;
          _ <- writer_destroy w ;;
          Ret (true, log ++ log' ++ (if negb (res_eqb x r_success)
                                     then [(to_stderr, str "Error: fstrm_writer_close() failed")] else []))
      end
  end.

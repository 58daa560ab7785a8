(** Model of src/fstrm_dump.c when the name of the output file is "-"
    (fstrm/file.c:66-67): the frames go to stdout, where the program also prints
    them.  Transport 0 is the input, transport 1 the writer's file object, and
    [QWrite 2] stands for the calls of print_data_frame() that print to stdout.
    The messages on stderr are in Messages.v. *)
From Verif Require Import Bytes Io Control Rdwr Reader Writer File Misc Tools.
Local Open Scope io_scope.
Local Open Scope N_scope.

(** src/fstrm_dump.c:85-93, the part going to stdout; the results of putchar()
    and print_string() are not looked at. *)
Definition print_out (data : bytes) : io unit :=
  _ <- ask_res (QWrite 2 [print_data_frame data]) ;; Ret tt.

(** src/fstrm_dump.c:173-208, see Tools.v [dump_loop]. *)
Fixpoint dash_loop (fuel rfuel : nat) (r : reader) (w : writer) : io (bool * reader * writer) :=
  match fuel with
  | O => Fail FFuel
  | S fuel' =>
      ' (x, data, r) <- reader_read rfuel r ;;
      match x with
      | r_success =>
          match data with
          | None => Fail (FUb ub_uninit)
          | Some data =>
              _ <- print_out data ;;
              ' (x, w) <- writer_write w data ;;
              if negb (res_eqb x r_success) then Ret (false, r, w)
              else dash_loop fuel' rfuel r w
          end
      | r_stop =>
          ' (x, r) <- print_stop_frame r ;;
          if negb (res_eqb x r_success) then Ret (false, r, w)
          else Ret (true, r, w)
      | _ => Ret (false, r, w)
      end
  end.

(** src/fstrm_dump.c:95-229, see Tools.v [dump_main]; the result is the exit
    status. *)
Definition dash_main (fuel iov_max : nat) : io bool :=
  match reader_init reader_options_default (file_reader_rdwr 0) with
  | None => Ret false
  | Some r =>
      ' (x, r) <- reader_open r ;;
      if negb (res_eqb x r_success) then dump_cleanup false r None
      else
        ' (x, wopt, r) <- process_start_frame r (Some []) ;;
        if negb (res_eqb x r_success) then dump_cleanup false r None
        else
          match wopt with
          | None => Fail (FUb ub_null)
          | Some cts =>
              match writer_init iov_max cts (file_writer_rdwr 1) with
              | None => dump_cleanup false r None
              | Some w =>
                  ' (x, w) <- writer_open w ;;
                  if negb (res_eqb x r_success) then
                    _ <- writer_destroy w ;; dump_cleanup false r None
                  else
                    ' (rv, r, w) <- dash_loop fuel fuel r w ;;
                    dump_cleanup rv r (Some w)
              end
          end
  end.

(** stdout and the file object using it.  [so_text]: what was written;
    [so_fp]: the object's fp is not NULL; [so_shut]: stdout has been closed;
    [so_bad]: stdout was used after that (undefined, ISO C 7.21.3p4).
    Simplification: writing to stdout does not fail. *)
Record stdo := mk_stdo { so_text : bytes; so_fp : bool; so_shut : bool; so_bad : bool }.
Definition stdo0 : stdo := mk_stdo [] false false false.

(** fstrm/file.c:77-89. *)
Definition stdo_close (s : stdo) : stdo * res :=
  if so_fp s then (mk_stdo (so_text s) false true (so_bad s || so_shut s), r_success) else (s, r_failure).

(** fstrm/file.c:108-120. *)
Fixpoint stdo_write (s : stdo) (iov : list bytes) : stdo * res :=
  if so_fp s then
    match iov with
    | [] => (s, r_success)
    | b :: iov' =>
        let s := mk_stdo (so_text s ++ b) true (so_shut s) (so_bad s || so_shut s) in
        if lenN b =? 0 then (fst (stdo_close s), r_failure) else stdo_write s iov'
    end
  else (s, r_failure).

(** fstrm/file.c:61-75 for open. *)
Definition stdout_ops (s : stdo) (q : query) : stdo * ans :=
  match q with
  | QOpen _ =>
      if so_fp s then (s, ARes r_failure)
      else (mk_stdo (so_text s) true (so_shut s) (so_bad s || so_shut s), ARes r_success)
  | QClose _ => let (s, r) := stdo_close s in (s, ARes r)
  | QRead _ _ => (s, ARead r_failure [])
  | QWrite 2 iov => (mk_stdo (so_text s ++ concat iov) (so_fp s) (so_shut s) (so_bad s || so_shut s), ARes r_success)
  | QWrite _ iov => let (s, r) := stdo_write s iov in (s, ARes r)
  | QDestroy _ => (s, ARes r_success)
  | _ => (s, AUnit)
  end.

(** Specification vocabulary for what fstrm_dump and fstrm_replay print. *)
From Coq Require Import String.
From Verif Require Import Bytes Spec SpecTrace SpecStream SpecReader Io Control Rdwr Writer File Misc Messages SpecTools.
Local Open Scope N_scope.
Local Open Scope io_scope.

(** What arrives on one of the two streams, and what a terminal shows. *)
Definition is_stream (s : stream) (x : said) : bool :=
  match s, fst x with to_stdout, to_stdout | to_stderr, to_stderr => true | _, _ => false end.
Definition heard (s : stream) (log : list said) : bytes := concat (map snd (filter (is_stream s) log)).
Definition screen (log : list said) : bytes := concat (map snd log).

(** The same text on each stream and on a terminal, however it is cut into
    calls. *)
Definition reads_as (log log' : list said) : Prop :=
  heard to_stdout log = heard to_stdout log' /\ heard to_stderr log = heard to_stderr log' /\ screen log = screen log'.

Definition line (s : bytes) : said := (to_stderr, s ++ [x0a]).
Definition note (s : string) : said := line (str s).

(** ** fstrm_dump *)

(** The START frame of the input. *)
Definition start_note (st : list bytes) : list said :=
  note "FSTRM_CONTROL_START." ::
  match st with
  | [] => []
  | ct :: _ => [line (str "FSTRM_CONTROL_FIELD_CONTENT_TYPE (" ++ dec (lenN ct) ++ str " bytes)."); line (str " " ++ print_string ct)]
  end.

(** A data frame: the length on stderr, the contents on stdout. *)
Definition frame_note (d : bytes) : list said :=
  [line (str "Data frame (" ++ dec (lenN d) ++ str ") bytes."); (to_stdout, print_data_frame d)].

(** The end of the input. *)
Definition end_note (e : ending) : said :=
  match e with
  | E_stop | E_eof => note "FSTRM_CONTROL_STOP."
  | _ => note "Error: fstrm_reader_read() failed."
  end.

(** How writing the frames went, as a client of the writer API sees it: open
    failed; the write of frame number [n] (counting from 1) failed; all frames
    were written; and whether close worked. *)
Inductive went := W_unopened | W_stopped (n : nat) (closed : bool) | W_written (closed : bool).

(** Like [copy], with all details in the result. *)
Definition copy_how (w : writer) (ds : list bytes) : io went :=
  ' (x, w) <- writer_open w ;;
  if negb (res_eqb x r_success) then _ <- writer_destroy w ;; Ret W_unopened
  else
    ' (n, ok, w) <- write_each w ds ;;
    ' (x, w) <- writer_close w ;;
    _ <- writer_destroy w ;;
    Ret (if ok then W_written (res_eqb x r_success) else W_stopped n (res_eqb x r_success)).

Definition close_note (closed : bool) : list said :=
  if closed then [] else [note "Error: fstrm_writer_close() failed."].

(** Everything printed by a dump with an output file. *)
Definition dump_report (st ds : list bytes) (e : ending) (y : went) : list said :=
  start_note st ++
  match y with
  | W_unopened => [note "Error: fstrm_writer_open() failed."]
  | W_stopped n c => flat_map frame_note (firstn n ds) ++ note "Error: write_data_frame() failed." :: close_note c
  | W_written c => flat_map frame_note ds ++ end_note e :: close_note c
  end.

(** The exit status. *)
Definition dump_verdict (e : ending) (y : went) : bool :=
  match y with W_written true => dump_status e | _ => false end.

(** An error message. *)
Definition complaint (x : said) : Prop := fst x = to_stderr /\ exists s, snd x = str "Error: " ++ s.

(** ** fstrm_replay *)

(** What is said about a file called [name], once its frames have been
    written. *)
Inductive file_note (ct name : bytes) : bytes -> list bytes -> list said -> Prop :=
| fn_match d st ds e : stream_file d st ds e -> start_accepted [ct] st -> e = E_stop \/ e = E_eof -> file_note ct name d ds []
| fn_error d st ds e : stream_file d st ds e -> start_accepted [ct] st -> e <> E_stop -> e <> E_eof -> e <> E_oversize ->
    file_note ct name d ds [note "Error: fstrm_reader_read() failed."]
| fn_mismatch d st ds e : stream_file d st ds e -> ~ start_accepted [ct] st ->
    file_note ct name d [] [line (str "Warning: content type mismatch for " ++ name ++ str ", skipping")]
| fn_none d : no_stream d ->
    file_note ct name d [] [line (str "Warning: failed to read control frame from " ++ name ++ str ", skipping")].

(** Names, contents, frames and notes of all files. *)
Inductive files_note (ct : bytes) : list bytes -> list bytes -> list (list bytes) -> list (list said) -> Prop :=
| fsn_nil : files_note ct [] [] [] []
| fsn_cons name d ds x names files dss notes : file_note ct name d ds x -> files_note ct names files dss notes ->
    files_note ct (name :: names) (d :: files) (ds :: dss) (x :: notes).

(** Like [hasty_copy], with all details in the result; a failed write ends the
    program without a close. *)
Definition hasty_how (w : writer) (ds : list bytes) : io went :=
  ' (x, w) <- writer_open w ;;
  if negb (res_eqb x r_success) then _ <- writer_destroy w ;; Ret W_unopened
  else
    ' (n, ok, w) <- write_each w ds ;;
    if negb ok then Ret (W_stopped n false)
    else
      ' (x, w) <- writer_close w ;;
      _ <- writer_destroy w ;;
      Ret (W_written (res_eqb x r_success)).

(** The notes about the files dealt with before frame number [n] of all frames
    was written. *)
Fixpoint notes_before (n : nat) (dss : list (list bytes)) (notes : list (list said)) : list said :=
  match dss, notes with
  | ds :: dss', x :: notes' => if (n <=? length ds)%nat then [] else x ++ notes_before (n - length ds) dss' notes'
  | _, _ => []
  end.

Definition replay_report (warned : bool) (dss : list (list bytes)) (notes : list (list said)) (y : went) : list said :=
  (if warned then [note "Warning: Ignoring --port with --unix."] else []) ++
  match y with
  | W_unopened => [note "Error: fstrm_writer_open() failed."]
  | W_stopped n _ => notes_before n dss notes ++ [(to_stderr, str "Error: write_data_frame() failed")]
  | W_written c => concat notes ++ (if c then [] else [(to_stderr, str "Error: fstrm_writer_close() failed")])
  end.

Definition replay_verdict (y : went) : bool := match y with W_written _ => true | _ => false end.

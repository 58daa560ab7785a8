(** What fstrm_replay makes of any list of names, "-" any number of times. *)
From Verif Require Import Bytes Spec SpecStream SpecReader Io Rdwr Reader Writer File Misc Tools SpecTools SpecStdinNames.
Local Open Scope N_scope.
Local Open Scope io_scope.

(** [bad_frame inp r]: behind its escape comes something that is no control frame;
    [r] is what is left of the input, [None] if the input is closed for that (an
    empty frame, which asks for a read of no bytes). *)
Inductive bad_frame : bytes -> option bytes -> Prop :=
| bf_long n rest : CTL_MAX < n -> n < 2 ^ 32 -> bad_frame (be32 n ++ rest) (Some rest)
| bf_bad p rest : p <> [] -> lenN p <= CTL_MAX -> (forall t cts, ctl_ok t cts -> p <> ctl_payload t cts) ->
    bad_frame (be32 (lenN p) ++ p ++ rest) (Some rest)
| bf_empty rest : bad_frame (be32 0 ++ rest) None.

(** Behind START: frames with the payloads [ds], then such a thing. *)
Inductive bad_stream : bytes -> list bytes -> option bytes -> Prop :=
| bs_data p inp ds r : data_ok p -> lenN p <= DEFAULT_MAX -> bad_stream inp ds r -> bad_stream (data_frame p ++ inp) (p :: ds) r
| bs_skip t cts inp ds r : ctl_ok t cts -> t <> T_STOP -> bad_stream inp ds r -> bad_stream (ctl_frame t cts ++ inp) ds r
| bs_bad inp r : bad_frame inp r -> bad_stream (be32 0 ++ inp) [] r.

(** No START frame: another frame, no frame, or the end of the input. *)
Inductive refused : bytes -> option bytes -> Prop :=
| rf_data n rest : 1 <= n -> n < 2 ^ 32 -> refused (be32 n ++ rest) (Some rest)
| rf_other t cts rest : ctl_ok t cts -> t <> T_START -> refused (ctl_frame t cts ++ rest) (Some rest)
| rf_bad inp r : bad_frame inp r -> refused (be32 0 ++ inp) r
| rf_short d : lenN d < 4 -> refused d None
| rf_short_len b : lenN b < 4 -> refused (be32 0 ++ b) None
| rf_short_ctl n b : n <= CTL_MAX -> lenN b < n -> refused (be32 0 ++ be32 n ++ b) None.

(** [replays ct d ds r]: from an input [d] the payloads [ds] are sent, and [r] is left
    of it ([None]: it has been closed). *)
Inductive replays (ct : bytes) : bytes -> list bytes -> option bytes -> Prop :=
| rp_end d st ds e : stream_file d st ds e -> start_accepted [ct] st -> closing e -> replays ct d ds None
| rp_bad st inp ds r : ctl_ok T_START st -> start_accepted [ct] st -> bad_stream inp ds r -> replays ct (ctl_frame T_START st ++ inp) ds r
| rp_mismatch d st ds e : stream_file d st ds e -> ~ start_accepted [ct] st -> replays ct d [] None
| rp_none d r : refused d r -> replays ct d [] r.

(** All names, [s] being left on stdin ([None]: closed).  The last argument: "-" is
    used although stdin is closed. *)
Inductive replays_all (ct : bytes) : option bytes -> list (option bytes) -> list (list bytes) -> bool -> Prop :=
| ra_nil s : replays_all ct s [] [] false
| ra_file s c names ds r dss b : replays ct c ds r -> replays_all ct s names dss b -> replays_all ct s (Some c :: names) (ds :: dss) b
| ra_stdin d ds r names dss b : replays ct d ds r -> replays_all ct r names dss b -> replays_all ct (Some d) (None :: names) (ds :: dss) b
| ra_closed names : replays_all ct None (None :: names) [] true.

(** A stream of the wanted type with a frame above the default maximum, on which
    fstrm_replay uses a value never set (C20). *)
Definition oversized (ct d : bytes) : Prop := exists st ds, stream_file d st ds E_oversize /\ start_accepted [ct] st.

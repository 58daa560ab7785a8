(** Specification vocabulary for a dump to stdout. *)
From Verif Require Import Bytes Spec SpecStream SpecReader Io Rdwr Reader Writer File Misc Tools SpecTools Dash.
Local Open Scope io_scope.
Local Open Scope N_scope.

(** What is on stdout in the end: each frame preceded by its printed form. *)
Definition mixed (st ds : list bytes) : bytes :=
  ctl_frame T_START st ++ flat_map (fun d => print_data_frame d ++ data_frame d) ds ++ stop_frame.

(** A client of the writer API that also prints: each frame is printed and then
    written, and the client gives up at the first one that is refused. *)
Fixpoint print_each (w : writer) (ds : list bytes) : io (bool * writer) :=
  match ds with
  | [] => Ret (true, w)
  | d :: ds' =>
      _ <- print_out d ;;
      ' (x, w) <- writer_write w d ;;
      if negb (res_eqb x r_success) then Ret (false, w) else print_each w ds'
  end.

(** [over]: the frames are followed by one above the limit, which is undefined
    behaviour (C20) once it is reached. *)
Definition print_copy (over : bool) (w : writer) (ds : list bytes) : io bool :=
  ' (x, w) <- writer_open w ;;
  if negb (res_eqb x r_success) then _ <- writer_destroy w ;; Ret false
  else
    ' (ok, w) <- print_each w ds ;;
    if ok && over then Fail (FUb ub_uninit)
    else
      ' (x, w) <- writer_close w ;;
      _ <- writer_destroy w ;;
      Ret (ok && res_eqb x r_success).

Definition above_limit (e : ending) : bool := match e with E_oversize => true | _ => false end.

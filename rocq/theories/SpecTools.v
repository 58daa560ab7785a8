(** Specification vocabulary for the command line tools: a program run with some
    of its transports being files, and what copying a stream means. *)
From Verif Require Import Bytes Spec SpecTrace SpecStream SpecReader Io Control Rdwr Writer File Misc.
Local Open Scope N_scope.
Local Open Scope io_scope.

(** ** Running against files
    [on_files base fs p]: [p], with the transports [base], [base + 1], ... being
    the files [fs]; what remains are the calls on other transports.  The final
    state of the files is added to the result. *)
Definition handle (q : query) : option nat :=
  match q with
  | QOpen h | QClose h | QRead h _ | QWrite h _ | QDestroy h | QIsoUb h => Some h
  | _ => None
  end.

Definition file_index (base n : nat) (q : query) : option nat :=
  match handle q with
  | Some h => if ((base <=? h) && (h <? base + n))%nat then Some (h - base)%nat else None
  | None => None
  end.

Fixpoint set_nth {A} (i : nat) (x : A) (l : list A) : list A :=
  match l, i with
  | [], _ => []
  | _ :: l', O => x :: l'
  | y :: l', S i' => y :: set_nth i' x l'
  end.

Definition no_file : cfile := mk_cfile false [] None.

Fixpoint on_files {A} (base : nat) (fs : list cfile) (p : io A) : io (list cfile * A) :=
  match p with
  | Ret a => Ret (fs, a)
  | Fail f => Fail f
  | Vis q k =>
      match file_index base (length fs) q with
      | Some i => let (f, a) := file_ops (nth i fs no_file) q in on_files base (set_nth i f fs) (k a)
      | None => Vis q (fun a => on_files base fs (k a))
      end
  end.

(** A file to be read. *)
Definition input (d : bytes) : cfile := mk_cfile false d None.

(** ** Copying, as a client of the writer API
    Writes until the first failure; number of frames passed to write, and
    whether all were written. *)
Fixpoint write_each (w : writer) (ds : list bytes) : io (nat * bool * writer) :=
  match ds with
  | [] => Ret (0%nat, true, w)
  | d :: ds' =>
      ' (x, w) <- writer_write w d ;;
      if negb (res_eqb x r_success) then Ret (1%nat, false, w)
      else ' (n, ok, w) <- write_each w ds' ;; Ret (S n, ok, w)
  end.

(** Open, write, close, destroy. *)
Definition copy (w : writer) (ds : list bytes) : io (nat * bool) :=
  ' (x, w) <- writer_open w ;;
  if negb (res_eqb x r_success) then _ <- writer_destroy w ;; Ret (0%nat, false)
  else
    ' (n, ok, w) <- write_each w ds ;;
    ' (x, w) <- writer_close w ;;
    _ <- writer_destroy w ;;
    Ret (n, ok && res_eqb x r_success).

(** The same, giving up at a failed write and not looking at the result of
    close. *)
Definition hasty_copy (w : writer) (ds : list bytes) : io bool :=
  ' (x, w) <- writer_open w ;;
  if negb (res_eqb x r_success) then _ <- writer_destroy w ;; Ret false
  else
    ' (_, ok, w) <- write_each w ds ;;
    if negb ok then Ret false
    else
      ' (_, w) <- writer_close w ;;
      _ <- writer_destroy w ;;
      Ret true.

(** Programs that ask the same questions and give related results. *)
Inductive sim {A B} (R : A -> B -> Prop) : io A -> io B -> Prop :=
| sim_ret a b : R a b -> sim R (Ret a) (Ret b)
| sim_fail f : sim R (Fail f) (Fail f)
| sim_vis q k k' : (forall a, sim R (k a) (k' a)) -> sim R (Vis q k) (Vis q k').

(** ** The contents of a file *)

(** fstrm/reader.h:47 *)
Definition DEFAULT_MAX : N := 1048576.

(** A file starting with a START frame carrying [st], followed by a data
    section meaning [ds] and ending like [e]. *)
Definition stream_file (d : bytes) (st ds : list bytes) (e : ending) : Prop :=
  ctl_ok T_START st /\ exists inp rest, d = ctl_frame T_START st ++ inp /\ parse DEFAULT_MAX inp ds e rest.

Definition no_stream (d : bytes) : Prop := forall st inp, ctl_ok T_START st -> d <> ctl_frame T_START st ++ inp.

(** What a file contributes to a replay for content type [ct]. *)
Inductive offers (ct : bytes) : bytes -> list bytes -> Prop :=
| of_match d st ds e : stream_file d st ds e -> start_accepted [ct] st -> e <> E_oversize -> offers ct d ds
| of_mismatch d st ds e : stream_file d st ds e -> ~ start_accepted [ct] st -> offers ct d []
| of_none d : no_stream d -> offers ct d [].

(** The printed form of frames. *)
Definition printed (ds : list bytes) : bytes := concat (map print_data_frame ds).

(** How dump ends the exit status for each kind of end. *)
Definition dump_status (e : ending) : bool :=
  match e with
  | E_stop | E_eof => true
  | _ => false
  end.

(** The output files of fstrm_capture on a disk that may fail at any time: the
    stdio calls logged by Capture.v, made on the streams of Stdio.v. *)
From Verif Require Import Bytes Spec SpecTrace Stdio Capture SpecCapture.
Import ListNotations.
Local Open Scope nat_scope.

(** The contents of the files closed so far in the order they were opened, the
    contents and the pending bytes of [output_file], and the number of stdio
    calls so far. *)
Record cdisk := mk_cdisk { cd_closed : list bytes; cd_cur : option (bytes * bytes); cd_tick : nat }.
Definition cdisk0 : cdisk := mk_cdisk [] None 0.

(** The contents of all files. *)
Definition cd_files (d : cdisk) : list bytes :=
  cd_closed d ++ match cd_cur d with Some (content, _) => [content] | None => [] end.

Section CaptureDisk.
Variable D : nat -> dact.

(** src/fstrm_capture.c:645-662, the loop over the pieces of a frame, and
    lines 447-451, 491-495 (one piece); it stops at the first failure. *)
Fixpoint put (n : nat) (content buf : bytes) (ps : list bytes) : bytes * bytes * nat * bool :=
  match ps with
  | [] => (content, buf, n, true)
  | p :: ps' =>
      let '(content, buf, ok) := c_fwrite (D n) content buf p in
      if ok then put (S n) content buf ps' else (content, buf, S n, false)
  end.

(** The logged calls on this disk.  [fs] and [cs] are the results of fflush()
    (src/fstrm_capture.c:496, 1141) and of fclose() (lines 591, 612), which the
    program does not look at.  The pieces of a frame are the ones of libevent's
    buffer (evbuffer_peek(), lines 634-643). *)
Inductive cap_runs : cdisk -> list iocall -> list bool -> list bool -> cdisk -> Prop :=
| cr_nil d : cap_runs d [] [] [] d
| cr_open files n io fs cs d : cap_runs (mk_cdisk files (Some ([], [])) n) io fs cs d ->
    cap_runs (mk_cdisk files None n) (IoOpen :: io) fs cs d
| cr_write files content buf n ps content' buf' n' ok io fs cs d :
    Forall (fun p => p <> []) ps -> put n content buf ps = (content', buf', n', ok) ->
    cap_runs (mk_cdisk files (Some (content', buf')) n') io fs cs d ->
    cap_runs (mk_cdisk files (Some (content, buf)) n) (IoWrite (concat ps) ok :: io) fs cs d
| cr_flush files content buf n content' buf' ok io fs cs d :
    c_fflush (D n) content buf = (content', buf', ok) ->
    cap_runs (mk_cdisk files (Some (content', buf')) (S n)) io fs cs d ->
    cap_runs (mk_cdisk files (Some (content, buf)) n) (IoFlush :: io) (ok :: fs) cs d
| cr_close files content buf n content' ok io fs cs d :
    c_fclose (D n) content buf = (content', ok) ->
    cap_runs (mk_cdisk (files ++ [content']) None (S n)) io fs cs d ->
    cap_runs (mk_cdisk files (Some (content, buf)) n) (IoClose :: io) fs (ok :: cs) d.

(** exit() makes one more attempt to store what is pending (ISO C 7.22.4.4). *)
Definition cd_exit (d : cdisk) : cdisk :=
  match cd_cur d with
  | Some (content, buf) =>
      mk_cdisk (cd_closed d ++ [fst (c_fclose (D (cd_tick d)) content buf)]) None (S (cd_tick d))
  | None => d
  end.
End CaptureDisk.

(** ** What the calls should leave *)
(** The bytes handed to fwrite(), file by file. *)
Definition hand (l : list bytes) (x : iocall) : list bytes :=
  match x with
  | IoOpen => l ++ [[]]
  | IoWrite b _ => add_last l b
  | IoFlush | IoClose => l
  end.
Definition handed (io : list iocall) : list bytes := fold_left hand io [].


(** The calls made up to any moment of a run, also one that ends in failure. *)
Inductive moment (e : env) (a : args) : list iocall -> Prop :=
| mo_boot c : boot e a = Go c \/ boot e a = Exit c -> forall io more, x_io c = io ++ more -> moment e a io
| mo_step H c x c' : reach e a H c -> step e a x c = Go c' \/ step e a x c = Exit c' ->
    forall io more, x_io c' = io ++ more -> moment e a io
| mo_end H c c' : reach e a H c -> shutdown e c = Go c' \/ shutdown e c = Exit c' ->
    forall io more, x_io c' = io ++ more -> moment e a io.

(** A disk that stores what it is asked to, up to [room] bytes in one call. *)
Definition healthy (D : nat -> dact) (room : nat) : Prop :=
  forall n, da_ok (D n) = true /\ room <= da_out (D n).

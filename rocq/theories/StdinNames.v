(** Model of fstrm/file.c for readers of which some have the name "-", that is,
    read from stdin; the readers share stdin and each closes it on its own. *)
From Verif Require Import Bytes Io Control Rdwr Reader Writer File Misc Tools SpecTools.
Local Open Scope N_scope.

(** stdin: what is left to be read, and whether it has been closed.
    Simplification: the end of the input is final (not so on a terminal). *)
Record std := mk_std { sd_rest : bytes; sd_shut : bool }.

(** The object of a reader: a regular file (File.v), or one whose name is "-";
    [fp]: its fp is not NULL. *)
Inductive nobj := NFile (f : cfile) | NDash (fp : bool).

(** fstrm/file.c:61-129 for an object named "-".  [None]: stdin is used after
    fclose(stdin), undefined by ISO C 7.21.3p4 (a use of the freed FILE in
    practice). *)
Definition dash_ops (s : std) (fp : bool) (q : query) : option (std * bool * ans) :=
  match q with
  | QOpen _ =>
      if fp then Some (s, fp, ARes r_failure)
      else if sd_shut s then None
      else Some (s, true, ARes r_success)
  | QClose _ =>
      if fp then if sd_shut s then None else Some (mk_std (sd_rest s) true, false, ARes r_success)
      else Some (s, fp, ARes r_failure)
  | QRead _ n =>
      if fp then
        if sd_shut s then None
        else if n =? 0 then Some (s, fp, ARead r_failure [])
        else if lenN (sd_rest s) <? n then Some (mk_std [] false, fp, ARead r_stop [])
        else Some (mk_std (skipn (N.to_nat n) (sd_rest s)) false, fp, ARead r_success (firstn (N.to_nat n) (sd_rest s)))
      else Some (s, fp, ARead r_failure [])
  | QWrite _ iov =>
      if fp then
        match iov with
        | [] => Some (s, fp, ARes r_success)
        | _ => if sd_shut s then None else Some (mk_std (sd_rest s) true, false, ARes r_failure)
        end
      else Some (s, fp, ARes r_failure)
  | QDestroy _ => Some (s, fp, ARes r_success)
  | _ => Some (s, fp, AUnit)
  end.

Definition name_ops (s : std) (o : nobj) (q : query) : option (std * nobj * ans) :=
  match o with
  | NFile f => let (f, a) := file_ops f q in Some (s, NFile f, a)
  | NDash fp =>
      match dash_ops s fp q with
      | Some (s, fp, a) => Some (s, NDash fp, a)
      | None => None
      end
  end.

(** A program with the transports [base], [base + 1], ... being the objects [os];
    what remains are the calls on other transports (compare SpecTools.v
    [on_files]). *)
Fixpoint on_names {A} (base : nat) (s : std) (os : list nobj) (p : io A) : io (std * list nobj * A) :=
  match p with
  | Ret a => Ret (s, os, a)
  | Fail f => Fail f
  | Vis q k =>
      match file_index base (length os) q with
      | Some i =>
          match name_ops s (nth i os (NFile no_file)) q with
          | Some (s, o, a) => on_names base s (set_nth i o os) (k a)
          | None => Fail (FUb ub_uaf)
          end
      | None => Vis q (fun a => on_names base s os (k a))
      end
  end.

(** fstrm/file.c:131-150 for the names given to fstrm_replay: [None] is "-",
    [Some d] a file with the contents [d]. *)
Definition named (n : option bytes) : nobj :=
  match n with
  | Some d => NFile (input d)
  | None => NDash false
  end.

(** Model of fstrm/file.c: the file transport, as a transport implementation
    (state and answers to the transport calls). *)
From Verif Require Import Bytes Io Rdwr.
Local Open Scope N_scope.

(** fstrm/file.c:31-35 [struct fstrm__file] plus the file it names.
    [f_data]: contents of the file; [f_fp]: [None] = NULL, [Some rest] = a
    stream with [rest] between the position and the end of the file (always
    empty for mode "w").
    Simplifications: the path is a regular file that can be opened (not "-"),
    nobody else touches it, the disk does not fill up and stdio buffering is
    invisible (the state is what is in the file once the stream is closed). *)
Record cfile := mk_cfile { f_write : bool; f_data : bytes; f_fp : option bytes }.

(** fstrm/file.c:61-75; fopen "w" truncates, "r" starts at the beginning. *)
Definition file_op_open (f : cfile) : cfile * res :=
  match f_fp f with
  | Some _ => (f, r_failure)
  | None =>
      if f_write f then (mk_cfile true [] (Some []), r_success)
      else (mk_cfile false (f_data f) (Some (f_data f)), r_success)
  end.

(** fstrm/file.c:77-89. *)
Definition file_op_close (f : cfile) : cfile * res :=
  match f_fp f with
  | Some _ => (mk_cfile (f_write f) (f_data f) None, r_success)
  | None => (f, r_failure)
  end.

(** fstrm/file.c:91-106.  [fread(data, count, 1, fp)] returns 0 for [count] 0
    without touching the stream; a short read reaches the end of the file. *)
Definition file_op_read (f : cfile) (count : N) : cfile * res * bytes :=
  match f_fp f with
  | Some rest =>
      if f_write f then (f, r_failure, [])
      else if count =? 0 then (f, r_failure, [])
      else if lenN rest <? count then (mk_cfile false (f_data f) (Some []), r_stop, [])
      else (mk_cfile false (f_data f) (Some (skipn (N.to_nat count) rest)), r_success,
            firstn (N.to_nat count) rest)
  | None => (f, r_failure, [])
  end.

(** fstrm/file.c:108-120.  [fwrite(base, 0, 1, fp)] returns 0. *)
Fixpoint file_op_write (f : cfile) (iov : list bytes) : cfile * res :=
  match f_fp f with
  | None => (f, r_failure)
  | Some rest =>
      match iov with
      | [] => (f, r_success)
      | b :: iov' =>
          if negb (f_write f) || (lenN b =? 0) then (fst (file_op_close f), r_failure)
          else file_op_write (mk_cfile true (f_data f ++ b) (Some rest)) iov'
      end
  end.

(** fstrm/file.c:122-129: destroy frees the object and leaves the stream open;
    nothing happens to the file. *)
Definition file_ops (f : cfile) (q : query) : cfile * ans :=
  match q with
  | QOpen _ => let (f, r) := file_op_open f in (f, ARes r)
  | QClose _ => let (f, r) := file_op_close f in (f, ARes r)
  | QRead _ n => let '(f, r, b) := file_op_read f n in (f, ARead r b)
  | QWrite _ iov => let (f, r) := file_op_write f iov in (f, ARes r)
  | QDestroy _ => (f, ARes r_success)
  | _ => (f, AUnit)
  end.

(** fstrm/file.c:131-172: which methods a file transport has. *)
Definition file_reader_rdwr (h : nat) : rdwr := mk_rdwr h true true true true false false.
Definition file_writer_rdwr (h : nat) : rdwr := mk_rdwr h true true true false true false.

(** Output of fstrm/file.c through C stdio to a disk that may fail at any time.
    File.v has the same functions on a disk that never fails. *)
From Verif Require Import Bytes Io Rdwr.
Local Open Scope nat_scope.

(** What one stdio call meets.  [da_out] bytes of what is pending get to the
    file; [da_ok]: no error was met; [da_keep]: how many of the remaining bytes
    are still pending after an error (the C libraries drop them or keep them). *)
Record dact := mk_dact { da_out : nat; da_ok : bool; da_keep : nat }.

(** fwrite() of [b] to a stream with pending bytes [buf]: contents, pending
    bytes, and whether the call reported success.  An empty [b] reports 0
    members written (ISO C 7.21.8.2). *)
Definition c_fwrite (d : dact) (content buf b : bytes) : bytes * bytes * bool :=
  match b with
  | [] => (content, buf, false)
  | _ =>
      let p := buf ++ b in
      let rest := skipn (da_out d) p in
      (content ++ firstn (da_out d) p, if da_ok d then rest else firstn (da_keep d) rest, da_ok d)
  end.

(** fflush(): like fclose() below, but the stream stays. *)
Definition c_fflush (d : dact) (content buf : bytes) : bytes * bytes * bool :=
  let rest := skipn (da_out d) buf in
  let ok := da_ok d && match rest with [] => true | _ => false end in
  (content ++ firstn (da_out d) buf, if ok then [] else firstn (da_keep d) rest, ok).

(** fclose() reports success only if all pending bytes got to the file. *)
Definition c_fclose (d : dact) (content buf : bytes) : bytes * bool :=
  let '(content, _, ok) := c_fflush d content buf in (content, ok).

(** fstrm/file.c:31-35 [struct fstrm__file] for mode "w" (the path is not "-")
    plus the file it names; [d_tick] counts the stdio calls. *)
Record dfile := mk_dfile { d_content : bytes; d_fp : option bytes; d_tick : nat }.

Section Disk.
Variable D : nat -> dact.

(** fstrm/file.c:61-75.  A failed fopen() leaves the file alone. *)
Definition disk_open (f : dfile) : dfile * res :=
  match d_fp f with
  | Some _ => (f, r_failure)
  | None =>
      if da_ok (D (d_tick f)) then (mk_dfile [] (Some []) (S (d_tick f)), r_success)
      else (mk_dfile (d_content f) None (S (d_tick f)), r_failure)
  end.

(** fstrm/file.c:77-89. *)
Definition disk_close (f : dfile) : dfile * res :=
  match d_fp f with
  | Some buf =>
      let (content, ok) := c_fclose (D (d_tick f)) (d_content f) buf in
      (mk_dfile content None (S (d_tick f)), if ok then r_success else r_failure)
  | None => (f, r_failure)
  end.

(** fstrm/file.c:108-120. *)
Fixpoint disk_write (f : dfile) (iov : list bytes) : dfile * res :=
  match d_fp f with
  | None => (f, r_failure)
  | Some buf =>
      match iov with
      | [] => (f, r_success)
      | b :: iov' =>
          let '(content, buf, ok) := c_fwrite (D (d_tick f)) (d_content f) buf b in
          let f := mk_dfile content (Some buf) (S (d_tick f)) in
          if ok then disk_write f iov' else (fst (disk_close f), r_failure)
      end
  end.

(** fstrm/file.c:122-129: destroy does not touch the stream. *)
Definition disk_ops (f : dfile) (q : query) : dfile * ans :=
  match q with
  | QOpen _ => let (f, r) := disk_open f in (f, ARes r)
  | QClose _ => let (f, r) := disk_close f in (f, ARes r)
  | QRead _ _ => (f, ARead r_failure [])
  | QWrite _ iov => let (f, r) := disk_write f iov in (f, ARes r)
  | QDestroy _ => (f, ARes r_success)
  | _ => (f, AUnit)
  end.

(** The transport calls [tr] on the file, with the answers it gave. *)
Inductive disk_runs : dfile -> trace -> dfile -> Prop :=
| dr_nil f : disk_runs f [] f
| dr_call f q a f1 tr f2 : disk_ops f q = (f1, a) -> disk_runs f1 tr f2 -> disk_runs f ((q, a) :: tr) f2.
End Disk.

(** A file holding [old], not opened yet (fstrm/file.c:131-150). *)
Definition disk_init (old : bytes) : dfile := mk_dfile old None 0.

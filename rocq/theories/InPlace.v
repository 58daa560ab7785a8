(** Two transports of fstrm/file.c on one file: a reader and a writer whose
    paths name the same file, as for "fstrm_dump FILE FILE".  Stdio.v has the
    writing stream; here the reading stream has its buffer too, because the
    writer truncates the file under it. *)
From Verif Require Import Bytes Io Rdwr Stdio.
Local Open Scope N_scope.

(** The file and the writing stream (transport 1), and the reading stream
    (transport 0): the offset of its descriptor, and what was fetched but not
    read yet. *)
Record shared := mk_shared { sh_w : dfile; sh_r : option (nat * bytes) }.

Section Shared.
(** [B]: size of the stdio buffer of the reading stream; [D]: see Stdio.v. *)
Variable B : nat.
Variable D : nat -> dact.

(** fread(data, count, 1, fp): when the buffer does not hold enough, bytes are
    fetched from the file as it is now, at least a buffer full if there are that
    many (ISO C 7.21.3; the block size is the C library's).  Result: offset,
    buffer, [Some] data or [None] at the end of the file. *)
Definition c_fread (file : bytes) (off : nat) (buf : bytes) (count : N) : nat * bytes * option bytes :=
  if lenN buf <? count then
    let got := firstn (Nat.max B (N.to_nat count - length buf)) (skipn off file) in
    let buf' := (buf ++ got)%list in
    if lenN buf' <? count then ((off + length got)%nat, [], None)
    else ((off + length got)%nat, skipn (N.to_nat count) buf', Some (firstn (N.to_nat count) buf'))
  else (off, skipn (N.to_nat count) buf, Some (firstn (N.to_nat count) buf)).

(** fstrm/file.c:61-129 for the reading stream; the file exists and can be
    opened, and reading it never fails. *)
Definition shared_read (s : shared) (q : query) : shared * ans :=
  match q, sh_r s with
  | QOpen _, None => (mk_shared (sh_w s) (Some (0%nat, [])), ARes r_success)
  | QOpen _, Some _ => (s, ARes r_failure)
  | QClose _, Some _ => (mk_shared (sh_w s) None, ARes r_success)
  | QClose _, None => (s, ARes r_failure)
  | QRead _ n, Some (off, buf) =>
      if n =? 0 then (s, ARead r_failure [])
      else match c_fread (d_content (sh_w s)) off buf n with
           | (off, buf, Some b) => (mk_shared (sh_w s) (Some (off, buf)), ARead r_success b)
           | (off, buf, None) => (mk_shared (sh_w s) (Some (off, buf)), ARead r_stop [])
           end
  | QRead _ _, None => (s, ARead r_failure [])
  | QWrite _ [], Some _ => (s, ARes r_success)
  | QWrite _ _, _ => (mk_shared (sh_w s) None, ARes r_failure)
  | QDestroy _, _ => (s, ARes r_success)
  | _, _ => (s, AUnit)
  end.

Definition shared_ops (s : shared) (q : query) : shared * ans :=
  match q with
  | QOpen O | QClose O | QRead O _ | QWrite O _ | QDestroy O => shared_read s q
  | _ => let (w, a) := disk_ops D (sh_w s) q in (mk_shared w (sh_r s), a)
  end.
End Shared.

(** A file holding [d], not opened yet. *)
Definition shared_init (d : bytes) : shared := mk_shared (disk_init d) None.

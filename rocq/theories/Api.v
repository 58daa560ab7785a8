(** Client programs: arbitrary histories of public API calls on a writer or a
    reader.  Nothing here models library code; it only sequences the calls. *)
From Verif Require Import Bytes Io Control Rdwr Reader Writer SpecControl.
Local Open Scope io_scope.

(** fstrm/writer.h:146-258. *)
Inductive wcall :=
| WOpen | WWrite (p : bytes) | WWritev (ps : list bytes) | WClose | WGetControl (t : N).

Definition do_wcall (w : writer) (c : wcall) : io (res * writer) :=
  match c with
  | WOpen => writer_open w
  | WWrite p => writer_write w p
  | WWritev ps => writer_writev w ps
  | WClose => writer_close w
  | WGetControl t => ' (x, _, w) <- writer_get_control w t ;; Ret (x, w)
  end.

Fixpoint do_wcalls (w : writer) (cs : list wcall) : io (list res * writer) :=
  match cs with
  | [] => Ret ([], w)
  | c :: cs' =>
      ' (x, w) <- do_wcall w c ;;
      ' (xs, w) <- do_wcalls w cs' ;;
      Ret (x :: xs, w)
  end.

(** Calls followed by destroy. *)
Definition writer_life (w : writer) (cs : list wcall) : io (list res * res) :=
  ' (xs, w) <- do_wcalls w cs ;;
  x <- writer_destroy w ;;
  Ret (xs, x).

(** Calls followed by a look at one of the control frames. *)
Definition calls_then_get (w : writer) (cs : list wcall) (t : N)
  : io (list res * res * option (option control)) :=
  ' (xs, w) <- do_wcalls w cs ;;
  ' (x, oc, _) <- writer_get_control w t ;;
  Ret (xs, x, oc).

(** The payloads a call asks to write. *)
Definition wpayloads (c : wcall) : list bytes :=
  match c with
  | WWrite p => [p]
  | WWritev ps => ps
  | _ => []
  end.

(** [iovcnt] is an [int] and the code computes [2 * iovcnt]. *)
Definition wcall_ok (c : wcall) : Prop := (lenN (wpayloads c) < 2 ^ 30)%N.

(** fstrm/reader.h:167-256. *)
Inductive rcall := ROpen | RRead | RClose | RGetControl (t : N).

(** [fuel] bounds the number of frames inspected per read. *)
Definition do_rcall (fuel : nat) (r : reader) (c : rcall) : io (res * option bytes * reader) :=
  match c with
  | ROpen => ' (x, r) <- reader_open r ;; Ret (x, None, r)
  | RRead => reader_read fuel r
  | RClose => ' (x, r) <- reader_close r ;; Ret (x, None, r)
  | RGetControl t => ' (x, _, r) <- reader_get_control r t ;; Ret (x, None, r)
  end.

Fixpoint do_rcalls (fuel : nat) (r : reader) (cs : list rcall)
  : io (list (res * option bytes) * reader) :=
  match cs with
  | [] => Ret ([], r)
  | c :: cs' =>
      ' (x, d, r) <- do_rcall fuel r c ;;
      ' (xs, r) <- do_rcalls fuel r cs' ;;
      Ret ((x, d) :: xs, r)
  end.

Definition reader_life (fuel : nat) (r : reader) (cs : list rcall)
  : io (list (res * option bytes) * res) :=
  ' (xs, r) <- do_rcalls fuel r cs ;;
  x <- reader_destroy r ;;
  Ret (xs, x).

Definition rcalls_then_get (fuel : nat) (r : reader) (cs : list rcall) (t : N)
  : io (list (res * option bytes) * res * option (option control)) :=
  ' (xs, r) <- do_rcalls fuel r cs ;;
  ' (x, oc, _) <- reader_get_control r t ;;
  Ret (xs, x, oc).

(** fstrm/control.h: calls that change a control object; the result of a
    reset (which returns nothing) is shown as success. *)
Definition do_ccall (c : control) (k : ccall) : res * control :=
  match k with
  | CReset => (r_success, control_reset c)
  | CSet t => control_set_type c t
  | CAdd ct => control_add_field c ct
  end.

Fixpoint do_ccalls (c : control) (ks : list ccall) : list res * control :=
  match ks with
  | [] => ([], c)
  | k :: ks' =>
      let (x, c) := do_ccall c k in
      let (xs, c) := do_ccalls c ks' in
      (x :: xs, c)
  end.

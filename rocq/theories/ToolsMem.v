(** Model of the memory of fstrm_dump and fstrm_replay (src/fstrm_dump.c,
    src/fstrm_replay.c): which objects of the library they create, use and give back.

    As in Mem.v a block is never given out twice and every decision that depends on
    data or on the outside is an arbitrary number from a script.  Whether a write
    failed is such a number too.  A loop over data frames is followed for a given
    number of rounds; a run that needs more is still busy.  The memory of the option
    parser is left out: fstrm_replay keeps it to its end. *)
From Verif Require Import Bytes Mem.
Local Open Scope nat_scope.
Local Notation "x <~ p ;; q" := (mbind p (fun x => q)) (at level 100, p at next level, right associativity).
Local Notation "p ;;; q" := (mbind p (fun _ => q)) (at level 100, right associativity).

(** How a run went: [T_over] main() returned; [T_exit], [T_busy]: exit() was called or
    the loop goes on, and these objects exist. *)
Inductive tool :=
| T_over
| T_exit (o : option oobj) (r : option mreader) (w : option mwriter)
| T_busy (f : option pobj) (o : option oobj) (r : mreader) (w : option mwriter).

(** What is done to an object when there is one: the destroy functions accept a pointer
    to NULL (reader.c:154, writer.c:130, writer.c:62, file.c:46). *)
Definition each {A} (f : A -> mem unit) (x : option A) : mem unit := match x with Some x => f x | None => mret tt end.

(** file.c:152-173 with reader.c:115-149 and writer.c:93-124. *)
Definition file_reader (f : pobj) : mem (option mreader) :=
  x <~ ro_file f true ;; match x with Some x => mr_init None x | None => mret None end.
Definition any_writer (o : option oobj) (x : option robj) : mem (option mwriter) :=
  match x with Some x => mw_init o x | None => mret None end.

(** ** fstrm_dump *)
(** fstrm_dump.c:32-69: the first content type is printed and copied. *)
Definition dump_start (r : mreader) (o : option oobj) : mem (bool * (mreader * option oobj)) :=
  g <~ mr_get r CT_start ;;
  let (k, r) := g in
  match k with
  | None => mret (false, (r, o))
  | Some k =>
      m_use (c_blk k) ;;; m_use (bv_blk (c_vec k)) ;;;
      match bv_items (c_vec k) with
      | [] => mret (true, (r, o))
      | t :: _ =>
          m_use (bv_v (c_vec k)) ;;; m_use t ;;;
          match o with
          | None => mret (true, (r, None))
          | Some o => ok <~ m_flag ;; m_use t ;;; o <~ oo_add o ok ;; mret (ok, (r, Some o))
          end
      end
  end.
(** fstrm_dump.c:152-163. *)
Definition dump_writer (f : pobj) (o : option oobj) : mem (bool * option mwriter) :=
  x <~ ro_file f false ;; w <~ any_writer o x ;;
  match w with
  | None => mret (false, None)
  | Some w =>
      ow <~ mw_open w ;;
      let (ok, w) := ow in if ok then mret (true, Some w) else mw_destroy w ;;; mret (false, None)
  end.
(** fstrm_dump.c:173-208: whether the loop ended, and the objects. *)
Fixpoint dump_loop (n : nat) (r : mreader) (w : option mwriter) : mem (bool * (mreader * option mwriter)) :=
  match n with
  | O => mret (false, (r, w))
  | S n =>
      x <~ mr_read r ;;
      let (d, r) := x in
      match d with
      | RR_data b =>
          m_use b ;;;
          match w with
          | None => dump_loop n r None
          | Some w =>
              w <~ mw_write w ;; m_use b ;;; ok <~ m_flag ;;
              if ok then dump_loop n r (Some w) else mret (true, (r, Some w))
          end
      | RR_stop => g <~ mr_get r CT_stop ;; mret (true, (snd g, w))
      | RR_fail => mret (true, (r, w))
      end
  end.
(** fstrm_dump.c:210-228. *)
Definition dump_out (f : pobj) (o : option oobj) (r : option mreader) (w : option mwriter) : mem tool :=
  po_destroy f ;;; each oo_destroy o ;;; each mr_destroy r ;;;
  each (fun w => w <~ mw_close w ;; mw_destroy w) w ;;; mret T_over.
(** fstrm_dump.c:93-229; [out]: an output file is given. *)
Definition dump (out : bool) (n : nat) : mem tool :=
  f <~ po_init ;; f <~ po_set f false true ;; r <~ file_reader f ;;
  match r with
  | None => dump_out f None None None
  | Some r =>
      ro <~ mr_open r ;;
      let (ok, r) := ro in
      if negb ok then dump_out f None (Some r) None
      else
        f <~ (if out then po_set f false true else mret f) ;;
        o <~ (if out then o <~ oo_init ;; mret (Some o) else mret None) ;;
        s <~ dump_start r o ;;
        let '(ok, (r, o)) := s in
        if negb ok then dump_out f o (Some r) None
        else
          wo <~ (if out then dump_writer f o else mret (true, None)) ;;
          let (ok, w) := wo in
          if negb ok then dump_out f o (Some r) w
          else
            e <~ dump_loop n r w ;;
            let '(done, (r, w)) := e in
            if done then dump_out f o (Some r) w else mret (T_busy (Some f) o r w)
  end.

(** ** fstrm_replay *)
(** fstrm_replay.c:192-199. *)
Definition open_or_none (w : option mwriter) : mem (tool + option mwriter) :=
  match w with
  | None => mret (inr None)
  | Some w =>
      ow <~ mw_open w ;;
      let (ok, w) := ow in if ok then mret (inr (Some w)) else mw_destroy w ;;; mret (inr None)
  end.
(** fstrm_replay.c:129-200; [unix]: a socket path is given.  A port or an address that
    cannot be parsed ends the program in usage(). *)
Definition replay_writer (unix : bool) : mem (tool + option mwriter) :=
  o <~ oo_init ;; ok <~ m_flag ;; o <~ oo_add o ok ;;
  if negb ok then oo_destroy o ;;; mret (inr None)
  else if unix then
    p <~ po_init ;; p <~ po_set p false true ;; x <~ ro_unix p ;; w <~ any_writer (Some o) x ;;
    po_destroy p ;;; oo_destroy o ;;; open_or_none w
  else
    ok <~ m_flag ;;
    if negb ok then mret (inl (T_exit (Some o) None None))
    else
      p <~ po_init ;; p <~ po_set p false true ;; p <~ po_set p true true ;; x <~ ro_tcp p ;; w <~ any_writer (Some o) x ;;
      po_destroy p ;;; oo_destroy o ;;; open_or_none w.
(** fstrm_replay.c:238-264. *)
Fixpoint replay_loop (n : nat) (r : mreader) (w : mwriter) : mem (tool + mwriter) :=
  match n with
  | O => mret (inl (T_busy None None r (Some w)))
  | S n =>
      x <~ mr_read r ;;
      let (d, r) := x in
      match d with
      | RR_data b =>
          m_use b ;;; w <~ mw_write w ;; m_use b ;;; ok <~ m_flag ;;
          if ok then replay_loop n r w else mret (inl (T_exit None (Some r) (Some w)))
      | RR_stop => g <~ mr_get r CT_stop ;; mr_destroy (snd g) ;;; mret (inr w)
      | RR_fail => mr_destroy r ;;; mret (inr w)
      end
  end.
(** fstrm_replay.c:202-265. *)
Definition replay_file (n : nat) (w : mwriter) : mem (tool + mwriter) :=
  f <~ po_init ;; f <~ po_set f false true ;; r <~ file_reader f ;; po_destroy f ;;;
  match r with
  | None => mret (inr w)
  | Some r =>
      g <~ mr_get r CT_start ;;
      let (k, r) := g in
      match k with
      | None => mr_destroy r ;;; mret (inr w)
      | Some k =>
          co_read k ;;; ok <~ m_flag ;;
          if negb ok then mr_destroy r ;;; mret (inr w) else replay_loop n r w
      end
  end.
(** fstrm_replay.c:280-284; the rounds for each file. *)
Fixpoint replay_files (ns : list nat) (w : mwriter) : mem (tool + mwriter) :=
  match ns with
  | [] => mret (inr w)
  | n :: ns =>
      x <~ replay_file n w ;;
      match x with inl e => mret (inl e) | inr w => replay_files ns w end
  end.
(** fstrm_replay.c:267-292; without a writer main() calls exit(). *)
Definition replay (unix : bool) (ns : list nat) : mem tool :=
  x <~ replay_writer unix ;;
  match x with
  | inl e => mret e
  | inr None => mret (T_exit None None None)
  | inr (Some w) =>
      y <~ replay_files ns w ;;
      match y with
      | inl e => mret e
      | inr w => w <~ mw_close w ;; mw_destroy w ;;; mret T_over
      end
  end.

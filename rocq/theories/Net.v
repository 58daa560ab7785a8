(** Two programs at the two ends of a connected stream socket.  This is the
    environment, not fstrm code; what the transport methods do is taken from
    fstrm/unix_writer.c (open 68-126, close 128-139, read 141-150, write 152-190,
    destroy 192-198), which fstrm/tcp_writer.c repeats.  Simplified: a write
    sends its bytes one after the other in order (the kernel taking them in
    several pieces within one sendmsg call that blocks until all are taken); what
    happens when sendmsg returns early is the subject of Socket.v. *)
From Verif Require Import Bytes Io.
Local Open Scope nat_scope.

(** Programs that exchange single bytes.  [PPut] continues with [false] if the
    byte could not be sent; [PGet] with [None] at end of input. *)
Inductive proc (A : Type) : Type :=
| PRet (a : A)
| PStuck (f : fail)
| PPut (b : byte) (k : bool -> proc A)
| PGet (k : option byte -> proc A)
| PClose (k : proc A).
Arguments PRet {A} a.
Arguments PStuck {A} f.
Arguments PPut {A} b k.
Arguments PGet {A} k.
Arguments PClose {A} k.

Fixpoint puts {A} (bs : bytes) (ok err : proc A) : proc A :=
  match bs with
  | [] => ok
  | b :: bs' => PPut b (fun s => if s then puts bs' ok err else err)
  end.

Fixpoint gets {A} (n : nat) (acc : bytes) (ok : bytes -> proc A) (eof : proc A) : proc A :=
  match n with
  | O => ok acc
  | S n' => PGet (fun ob => match ob with
                            | Some b => gets n' (acc ++ [b]) ok eof
                            | None => eof
                            end)
  end.

(** The endpoint of the (only) connection: not yet used, open, closed. *)
Inductive cst := C_new | C_open | C_gone.

(** A program using transport methods, at one end of the connection. *)
Fixpoint wire {A} (p : io A) (st : cst) : proc A :=
  match p with
  | Ret a => PRet a
  | Fail f => PStuck f
  | Vis q k =>
      match q with
      | QOpen _ =>
          match st with
          | C_gone => wire (k (ARes r_failure)) st
          | _ => wire (k (ARes r_success)) C_open
          end
      | QClose _ =>
          match st with
          | C_open => PClose (wire (k (ARes r_success)) C_gone)
          | _ => wire (k (ARes r_failure)) st
          end
      | QRead _ n =>
          match st with
          | C_open => gets (N.to_nat n) []
                           (fun bs => wire (k (ARead r_success bs)) st)
                           (wire (k (ARead r_failure [])) st)
          | _ => wire (k (ARead r_failure [])) st
          end
      | QWrite _ iov =>
          match st with
          | C_open => puts (concat iov) (wire (k (ARes r_success)) st) (wire (k (ARes r_failure)) st)
          | _ => wire (k (ARes r_failure)) st
          end
      | QDestroy _ => wire (k (ARes r_success)) st
      | QIsoUb _ => wire (k AUnit) st
      | _ => PStuck FWrong
      end
  end.

(** One move of one end.  [gone]: the peer has closed.  [o]: bytes sent and not
    yet received by the peer; [i]: bytes waiting here; the last argument tells
    whether this move closes the connection.  A socket buffers at most [cap]
    bytes per direction.  Once the peer has closed, a byte may be lost or refused,
    and if the peer left bytes unread the connection may be reset, losing what
    was waiting. *)
Inductive move {X} (cap : nat) (gone : bool)
  : proc X -> bytes -> bytes -> proc X -> bytes -> bytes -> bool -> Prop :=
| m_put b k o i : gone = false -> length o < cap -> move cap gone (PPut b k) o i (k true) (o ++ [b]) i false
| m_put_lost b k o i : gone = true -> move cap gone (PPut b k) o i (k true) o i false
| m_put_err b k o i : gone = true -> move cap gone (PPut b k) o i (k false) o i false
| m_get b k o i : move cap gone (PGet k) o (b :: i) (k (Some b)) o i false
| m_eof k o : gone = true -> move cap gone (PGet k) o [] (k None) o [] false
| m_reset k o i : gone = true -> o <> [] -> move cap gone (PGet k) o i (k None) o [] false
| m_close k o i : move cap gone (PClose k) o i k o i true.

(** The two ends A and B; [n_ab]: bytes on the way from A to B; [n_ca]: A has
    closed. *)
Record net (X Y : Type) := mk_net {
  n_a : proc X; n_b : proc Y; n_ab : bytes; n_ba : bytes; n_ca : bool; n_cb : bool
}.
Arguments mk_net {X Y}.

(** Any interleaving. *)
Inductive step {X Y} (cap : nat) : net X Y -> net X Y -> Prop :=
| st_a pa pb ab ba ca cb pa' ab' ba' cl : move cap cb pa ab ba pa' ab' ba' cl ->
    step cap (mk_net pa pb ab ba ca cb) (mk_net pa' pb ab' ba' (ca || cl) cb)
| st_b pa pb ab ba ca cb pb' ab' ba' cl : move cap ca pb ba ab pb' ba' ab' cl ->
    step cap (mk_net pa pb ab ba ca cb) (mk_net pa pb' ab' ba' ca (cb || cl)).

Inductive steps {X Y} (cap : nat) : nat -> net X Y -> net X Y -> Prop :=
| steps_0 c : steps cap 0 c c
| steps_S n c c1 c2 : step cap c c1 -> steps cap n c1 c2 -> steps cap (S n) c c2.

(** Both ends connected, nothing sent yet. *)
Definition connect {X Y} (p : io X) (q : io Y) : net X Y :=
  mk_net (wire p C_new) (wire q C_new) [] [] false false.

(** Every execution from [c] is finite and ends in [cf], and only there. *)
Definition always_ends {X Y} (cap : nat) (c cf : net X Y) : Prop :=
  (forall c', ~ step cap cf c') /\
  exists N, forall n c', steps cap n c c' -> n <= N /\ (c' = cf \/ exists c2, step cap c' c2).

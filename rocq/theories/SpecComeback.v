(** Coming back after the connection was lost. *)
From Coq Require Import ZArith.
From Verif Require Import Bytes Spec SpecTrace SpecStream Io SpecApi Iothr SpecIothr.

(** A START frame was written, and since then no call failed and the transport was
    not closed. *)
Definition connected (tr : trace) : Prop :=
  exists l1 hh ct l2, tr = l1 ++ (QWrite hh [start_frame ct], ARes r_success) :: l2 /\
    Forall (fun e => ev_ok e /\ forall n, fst e <> QClose n) l2.

(** When the last attempt to open was made (0 before the first). *)
Definition last_try (tr : trace) : Z := match open_times tr with Some x :: _ => x | _ => 0%Z end.

(** What follows begins by reading the clock; then, if [d] seconds have passed
    since the last attempt to open, with another one. *)
Definition comes_back (d : Z) (before after : trace) : Prop :=
  match after with
  | [] => True
  | (QClock, AClock now) :: r => (last_try before + d <= now)%Z ->
      match r with [] | (QOpen _, _) :: _ => True | _ => False end
  | _ => False
  end.

(** The thread starts, or has just read that it is to go on. *)
Definition round_begins (tr : trace) : Prop := tr = [] \/ exists l, tr = l ++ [(QShutting, ABool false)].

(** Every round without a connection begins with an attempt to open, unless the
    last one was less than [d] seconds ago. *)
Definition tries_again (d : Z) (tr : trace) : Prop :=
  forall l1 l2, tr = l1 ++ l2 -> round_begins l1 -> ~ connected l1 -> comes_back d l1 l2.

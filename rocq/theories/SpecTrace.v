(** Specifications over traces of transport calls.  They mention the queries
    and answers only (what a transport implementation sees). *)
From Verif Require Import Bytes Spec Io.
Local Open Scope N_scope.

(** ** Legal use of a transport
    The states of a transport as its implementor sees it. *)
Inductive tstate :=
| TClosed                (* never opened, or closed *)
| TOpen                  (* open succeeded and close was not called since *)
| TBroken                (* a read or write failed; only close may follow *)
| TDestroyed.            (* destroy was called; nothing may follow *)

(** One event on the (only) transport.  [None] = illegal use.  Ghost and
    non-transport events are ignored. *)
Definition tstep (s : tstate) (e : event) : option tstate :=
  match e with
  | (QOpen _, ARes r) =>
      match s with
      | TClosed => Some (if res_eqb r r_success then TOpen else TClosed)
      | TOpen => Some TOpen
      | _ => None
      end
  | (QClose _, _) =>
      match s with
      | TOpen | TBroken => Some TClosed
      | _ => None
      end
  | (QRead _ _, ARead r _) =>
      match s with
      | TOpen => Some (if res_eqb r r_success then TOpen else TBroken)
      | _ => None
      end
  | (QWrite _ _, ARes r) =>
      match s with
      | TOpen => Some (if res_eqb r r_success then TOpen else TBroken)
      | _ => None
      end
  | (QDestroy _, _) =>
      match s with
      | TClosed | TOpen => Some TDestroyed
      | _ => None
      end
  | _ => Some s
  end.

Fixpoint tsteps (s : tstate) (tr : trace) : option tstate :=
  match tr with
  | [] => Some s
  | e :: tr' => match tstep s e with
                | Some s' => tsteps s' tr'
                | None => None
                end
  end.

(** State of a fresh transport after the trace. *)
Definition transport_state (tr : trace) : option tstate := tsteps TClosed tr.

(** ** What was put on the wire
    [sessions okb tr]: one element per successful open, oldest first; each is
    the concatenation of the bytes passed to write since that open, counting a
    write with result [r] iff [okb r]. *)
Definition add_last (ss : list bytes) (b : bytes) : list bytes :=
  match rev ss with
  | last :: before => rev before ++ [last ++ b]
  | [] => ss
  end.

Definition sess_step (okb : res -> bool) (ss : list bytes) (e : event) : list bytes :=
  match e with
  | (QOpen _, ARes r_success) => ss ++ [[]]
  | (QWrite _ iov, ARes r) => if okb r then add_last ss (concat iov) else ss
  | _ => ss
  end.

Definition sessions (okb : res -> bool) (tr : trace) : list bytes :=
  fold_left (sess_step okb) tr [].

(** Only what successful writes carried. *)
Definition delivered : trace -> list bytes := sessions (fun r => res_eqb r r_success).
(** Everything passed to a write method, successful or not. *)
Definition attempted : trace -> list bytes := sessions (fun _ => true).

(** What may really have reached the medium: a write that failed may have
    emitted any prefix of its bytes. *)
Definition prefix {A} (a b : list A) : Prop := exists c, b = a ++ c.

Inductive emits : trace -> list bytes -> Prop :=
| em_nil : emits [] []
| em_fail tr ss h iov r b : emits tr ss -> r <> r_success -> prefix b (concat iov) ->
    emits (tr ++ [(QWrite h iov, ARes r)]) (add_last ss b)
| em_other tr ss e : emits tr ss ->
    (forall h iov r, e = (QWrite h iov, ARes r) -> r = r_success) ->
    emits (tr ++ [e]) (sess_step (fun _ => true) ss e).

(** Bytes delivered by successful reads, in order, since the last open. *)
Definition in_step (b : bytes) (e : event) : bytes :=
  match e with
  | (QOpen _, ARes r_success) => []
  | (QRead _ _, ARead r_success bs) => b ++ bs
  | _ => b
  end.
Definition received (tr : trace) : bytes := fold_left in_step tr [].

(** Subsequence. *)
Inductive subseq {A} : list A -> list A -> Prop :=
| sub_nil : subseq [] []
| sub_skip x a b : subseq a b -> subseq a (x :: b)
| sub_take x a b : subseq a b -> subseq (x :: a) (x :: b).

Definition datas (ds : list bytes) : bytes := concat (map data_frame ds).

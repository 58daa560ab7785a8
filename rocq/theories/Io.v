(** Programs with effects.  A program is a finite tree of queries to the
    outside world (transport methods, kernel, clock, queues, callbacks).  All
    library code that performs such calls is written in this type; nothing here
    models fstrm itself. *)
From Verif Require Import Bytes.
Local Open Scope N_scope.

(** A queued submission, fstrm/iothr.c:55-65 [struct fstrm__iothr_queue_entry].
    [e_id] is a ghost identity, [e_free] says whether a free function was
    given. *)
Record entry := mk_entry { e_id : nat; e_data : bytes; e_free : bool }.

(** Questions a program may ask.  [h] names the transport object. *)
Inductive query :=
| QOpen (h : nat)                       (* ops.open(obj) *)
| QClose (h : nat)                      (* ops.close(obj) *)
| QRead (h : nat) (count : N)           (* ops.read(obj, buf, count) *)
| QWrite (h : nat) (iov : list bytes)   (* ops.write(obj, iov, iovcnt) *)
| QDestroy (h : nat)                    (* ops.destroy(obj) *)
| QIsoUb (h : nat)                      (* ghost: zero-length VLA (undefined in ISO C, defined in GNU C) *)
| QClock                                (* clock_gettime, whole seconds *)
| QRemove (i : nat)                     (* queue_ops->remove on input queue i *)
| QShutting                             (* read of iothr->shutting_down *)
| QWait (timeout : N)                   (* pthread_cond_timedwait *)
| QFree (e : entry).                    (* entry's free_func(data, free_data) *)

Inductive ans :=
| ARes (r : res)
| ARead (r : res) (bs : bytes)
| AClock (t : Z)
| AEntry (e : option entry)
| ABool (b : bool)
| AUnit.

(** Which answers a question may get.  A transport read that reports success
    has filled the whole buffer (fstrm/rdwr.h:131-151: "It must satisfy the full
    amount of data requested, unless the stream has ended"). *)
Definition ans_ok (q : query) (a : ans) : Prop :=
  match q, a with
  | QOpen _, ARes _ | QClose _, ARes _ | QWrite _ _, ARes _ | QDestroy _, ARes _ => True
  | QRead _ n, ARead r bs => r = r_success -> lenN bs = n
  | QIsoUb _, AUnit => True
  | QClock, AClock _ => True
  | QRemove _, AEntry _ => True
  | QShutting, ABool _ => True
  | QWait _, ABool _ => True            (* true = ETIMEDOUT *)
  | QFree _, AUnit => True
  | _, _ => False
  end.

Inductive io (A : Type) : Type :=
| Ret (a : A)
| Fail (f : fail)
| Vis (q : query) (k : ans -> io A).
Arguments Ret {A} a.
Arguments Fail {A} f.
Arguments Vis {A} q k.

Fixpoint bind {A B} (p : io A) (f : A -> io B) : io B :=
  match p with
  | Ret a => f a
  | Fail e => Fail e
  | Vis q k => Vis q (fun a => bind (k a) f)
  end.

Definition lift {A} (x : outc A) : io A :=
  match x with
  | Ok a => Ret a
  | Err f => Fail f
  end.

Declare Scope io_scope.
Delimit Scope io_scope with io.
Notation "x <- p ;; q" := (bind p (fun x => q))
  (at level 61, p at next level, right associativity) : io_scope.
Notation "' pat <- p ;; q" := (bind p (fun z => match z with pat => q end))
  (at level 61, pat pattern, p at next level, right associativity) : io_scope.

Definition ask_res (q : query) : io res :=
  Vis q (fun a => match a with ARes r => Ret r | _ => Fail FWrong end).
Definition ask_read (h : nat) (n : N) : io (res * bytes) :=
  Vis (QRead h n) (fun a => match a with ARead r bs => Ret (r, bs) | _ => Fail FWrong end).
Definition ask_unit (q : query) : io unit :=
  Vis q (fun a => match a with AUnit => Ret tt | _ => Fail FWrong end).
Definition ask_bool (q : query) : io bool :=
  Vis q (fun a => match a with ABool b => Ret b | _ => Fail FWrong end).
Definition ask_clock : io Z :=
  Vis QClock (fun a => match a with AClock t => Ret t | _ => Fail FWrong end).
Definition ask_entry (i : nat) : io (option entry) :=
  Vis (QRemove i) (fun a => match a with AEntry e => Ret e | _ => Fail FWrong end).

(** ** Semantics *)
Definition event := (query * ans)%type.
Definition trace := list event.

(** How a run ends: with a value, stuck, or cut short (crash, kill) at any
    query. *)
Inductive out (A : Type) :=
| Done (a : A)
| Stuck (f : fail)
| Cut.
Arguments Done {A} a.
Arguments Stuck {A} f.
Arguments Cut {A}.

(** [runs p tr o]: for some environment, [p] produces [tr] and ends in [o]. *)
Inductive runs {A} : io A -> trace -> out A -> Prop :=
| runs_ret a : runs (Ret a) [] (Done a)
| runs_fail f : runs (Fail f) [] (Stuck f)
| runs_cut q k : runs (Vis q k) [] Cut
| runs_vis q k a tr o : ans_ok q a -> runs (k a) tr o -> runs (Vis q k) ((q, a) :: tr) o.

(** Running against a deterministic environment with state [S]. *)
Fixpoint exec {S A} (h : S -> query -> S * ans) (s : S) (p : io A) : S * out A :=
  match p with
  | Ret a => (s, Done a)
  | Fail f => (s, Stuck f)
  | Vis q k => let (s', a) := h s q in exec h s' (k a)
  end.

(** Feeding a program a fixed list of answers: the trace and outcome, [Cut]
    when the answers run out, [None] if an answer is not allowed. *)
Definition ans_okb (q : query) (a : ans) : bool :=
  match q, a with
  | QOpen _, ARes _ | QClose _, ARes _ | QWrite _ _, ARes _ | QDestroy _, ARes _ => true
  | QRead _ n, ARead r bs => if res_eqb r r_success then (lenN bs =? n) else true
  | QIsoUb _, AUnit | QClock, AClock _ | QRemove _, AEntry _ | QShutting, ABool _
  | QWait _, ABool _ | QFree _, AUnit => true
  | _, _ => false
  end.

Fixpoint follow {A} (p : io A) (l : list ans) : option (trace * out A) :=
  match p with
  | Ret a => match l with [] => Some ([], Done a) | _ => None end
  | Fail f => match l with [] => Some ([], Stuck f) | _ => None end
  | Vis q k =>
      match l with
      | [] => Some ([], Cut)
      | a :: l' =>
          if ans_okb q a then
            match follow (k a) l' with
            | Some (tr, o) => Some ((q, a) :: tr, o)
            | None => None
            end
          else None
      end
  end.

(** Specification vocabulary for histories of API calls. *)
From Verif Require Import Bytes Spec SpecTrace SpecStream Io Control Rdwr Api.
Local Open Scope N_scope.

(** A transport object as handed to [fstrm_writer_init]/[fstrm_reader_init]:
    not yet opened, with the required methods and a destroy method. *)
Record fresh_rdwr (rw : rdwr) : Prop := {
  fr_closed : rw_opened rw = false;
  fr_destroy : rw_has_destroy rw = true;
  fr_open : rw_has_open rw = true;
  fr_close : rw_has_close rw = true
}.

(** [explained cs rs σs]: [rs] are the results of the first calls of [cs], and
    [σs] lists, call by call, the payloads the call put on the wire: an initial
    part of its payloads, all of them if it reported success.  The last element
    of [σs] may belong to a call interrupted by a crash. *)
Inductive explained : list wcall -> list res -> list (list bytes) -> Prop :=
| ex_nil cs : explained cs [] []
| ex_cut c cs σ : prefix σ (wpayloads c) -> explained (c :: cs) [] [σ]
| ex_call c cs r rs σ σs : prefix σ (wpayloads c) -> (r = r_success -> σ = wpayloads c) ->
    explained cs rs σs -> explained (c :: cs) (r :: rs) (σ :: σs).

(** The transport is open when destroy is called, the last event. *)
Definition left_open (tr : trace) : Prop :=
  exists tr' h a, tr = tr' ++ [(QDestroy h, a)] /\ transport_state tr' = Some TOpen.

(** The transport reported success. *)
Definition ev_ok (e : event) : Prop :=
  match e with
  | (_, ARes r) => r = r_success
  | (_, ARead r _) => r = r_success
  | _ => True
  end.

(** What the frame handed out by a writer for type [t] must be, given the trace
    [tr]: START opens the last session, READY lists the writer's content types,
    ACCEPT is what was received first since the last open. *)
Definition handed_out (bi : bool) (cts : list bytes) (tr : trace) (t : N) (c : control) : Prop :=
  c_type c = t /\
  (t = T_START -> exists ct ss s, c_cts c = optl ct /\ delivered tr = ss ++ [session_head bi cts ct ++ s]) /\
  (t = T_READY -> c_cts c = cts) /\
  (t = T_ACCEPT -> prefix (ctl_frame T_ACCEPT (c_cts c)) (received tr)) /\
  (t = T_FINISH -> c_cts c = []).

(** ** A transport that accepts everything, state = the sessions written. *)
Definition sink (ss : list bytes) (q : query) : list bytes * ans :=
  match q with
  | QOpen _ => (ss ++ [[]], ARes r_success)
  | QWrite _ iov => (add_last ss (concat iov), ARes r_success)
  | QRead _ _ => (ss, ARead r_failure [])
  | _ => (ss, ARes r_success)
  end.

(** ** What a uni-directional writer is expected to do on such a transport. *)
Inductive ustate := U_fresh | U_open | U_closed.

Definition u_open (cts : list bytes) (st : ustate) (ss : list bytes) : ustate * list bytes :=
  match st with
  | U_open => (st, ss)
  | _ => (U_open, ss ++ [start_frame (hd_error cts)])
  end.

Definition u_implicit (cts : list bytes) (st : ustate) (ss : list bytes) : ustate * list bytes :=
  match st with
  | U_fresh => u_open cts st ss
  | _ => (st, ss)
  end.

Definition u_step (cts : list bytes) (st : ustate) (ss : list bytes) (c : wcall)
  : res * ustate * list bytes :=
  match c with
  | WOpen => let (st, ss) := u_open cts st ss in (r_success, st, ss)
  | WGetControl t =>
      let (st, ss) := u_implicit cts st ss in
      ((if (t =? 1) || (t =? 2) || (t =? 4) || (t =? 5) then r_success else r_failure), st, ss)
  | WClose =>
      match st with
      | U_open => (r_success, U_closed, add_last ss stop_frame)
      | _ => (r_failure, st, ss)
      end
  | WWrite _ | WWritev _ =>
      match wpayloads c with
      | [] => (r_success, st, ss)
      | ps =>
          let (st, ss) := u_implicit cts st ss in
          match st with
          | U_closed => (r_failure, st, ss)
          | _ => (r_success, st, add_last ss (datas ps))
          end
      end
  end.

Fixpoint u_steps (cts : list bytes) (st : ustate) (ss : list bytes) (cs : list wcall)
  : list res * ustate * list bytes :=
  match cs with
  | [] => ([], st, ss)
  | c :: cs' =>
      match u_step cts st ss c with
      | (x, st, ss) =>
          match u_steps cts st ss cs' with
          | (xs, st, ss) => (x :: xs, st, ss)
          end
      end
  end.

(** The bytes of a session whose opening handshake was given up without the
    transport failing: the first control frame does not fit the size limits and
    was never written, or READY was written and no START followed. *)
Definition stalled_handshake (bi : bool) (cts : list bytes) (b : bytes) : Prop :=
  (b = [] /\ ~ (if bi then fits true T_READY cts else fits true T_START (optl (hd_error cts)))) \/
  (bi = true /\ b = ready_frame cts).

(** What a writer may expect of a capture server that stores its type. *)
From Verif Require Import Bytes Spec SpecTrace SpecStream Io Rdwr Writer Api SpecApi SpecDeliver Capture SpecCapture.
Local Open Scope N_scope.

(** The stage a writer is in after a call, and the call's result, when nothing
    goes wrong: opened by the first call that needs it, closed once, writing
    after close is refused, open opens again. *)
Definition stage_after (st : ustate) (c : wcall) : ustate :=
  match c, st with
  | WOpen, _ => U_open
  | WClose, U_open => U_closed
  | WClose, _ => st
  | WGetControl _, U_fresh => U_open
  | WGetControl _, _ => st
  | _, U_fresh => match wpayloads c with [] => st | _ => U_open end
  | _, _ => st
  end.
Definition stage_result (st : ustate) (c : wcall) : res :=
  match c with
  | WOpen => r_success
  | WClose => match st with U_open => r_success | _ => r_failure end
  | WGetControl t => if (t =? 1) || (t =? 2) || (t =? 4) || (t =? 5) then r_success else r_failure
  | _ => match wpayloads c, st with _ :: _, U_closed => r_failure | _, _ => r_success end
  end.
Fixpoint stage_results (st : ustate) (cs : list wcall) : list res :=
  match cs with
  | [] => []
  | c :: cs' => stage_result st c :: stage_results (stage_after st c) cs'
  end.

(** Writer and server agree if the writer names no type, or the server's first. *)
Definition agree (cts : list bytes) (ct : bytes) : Prop := cts = [] \/ hd_error cts = Some ct.

(** A writer [w] made with content types [cts] over a connection that can be
    read and written, about to make the calls [cs] with ordinary payloads, and a
    capture server [c] that has been through [H] and stores a type they agree on.
    The READY frame must fit the server's buffer for control frames, whose last
    byte it does not use; no read brings the server more than [m] bytes. *)
Record well_met (iovm : nat) (cts : list bytes) (rw : rdwr) (w : writer) (cs : list wcall)
  (e : env) (a : args) (m : N) (H : list ev) (c : ctx) : Prop := {
  wm_rdwr : fresh_rdwr rw;
  wm_both : rw_has_read rw = true;
  wm_iov : (0 < iovm)%nat;
  wm_init : writer_init iovm cts rw = Some w;
  wm_calls : Forall wcall_ok cs;
  wm_payloads : Forall (fun x => Forall ordinary (wpayloads x)) cs;
  wm_agree : agree cts (a_ctype a);
  wm_types : Forall (fun t => lenN t <= CT_MAX) cts;
  wm_ready : lenN (ready_frame cts) < 512;
  wm_type : lenN (a_ctype a) <= CT_MAX;
  wm_room : 512 <= capture_highwater a;
  wm_sends : sends e;
  wm_reach : reach e a H c;
  wm_reads : reads_below m H }.

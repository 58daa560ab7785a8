(** Specification vocabulary: histories in which an open failed. *)
From Verif Require Import Bytes Spec Io SpecTrace SpecStream Control Rdwr Api SpecApi SpecReader.
Local Open Scope N_scope.

(** ** Histories whose last reopen did not fail
    [seen]: the writer may have been opened; [good]: since then no open has
    failed, or one has succeeded after the last failure.  Opens that fail
    before anything else was tried do not count: the writer stays as it was. *)
Fixpoint no_failed_reopen (seen good : bool) (cs : list wcall) (xs : list res) : bool :=
  match cs, xs with
  | WOpen :: cs', x :: xs' =>
      if res_eqb x r_success then no_failed_reopen true true cs' xs'
      else no_failed_reopen seen (negb seen && good) cs' xs'
  | WClose :: cs', _ :: xs' => no_failed_reopen seen good cs' xs'
  | _ :: cs', _ :: xs' => no_failed_reopen true good cs' xs'
  | _, _ => good
  end.

(** No close failed. *)
Fixpoint no_failed_close (cs : list wcall) (xs : list res) : bool :=
  match cs, xs with
  | WClose :: cs', x :: xs' => res_eqb x r_success && no_failed_close cs' xs'
  | _ :: cs', _ :: xs' => no_failed_close cs' xs'
  | _, _ => true
  end.

(** The same for the calls of a reader. *)
Fixpoint no_failed_reopen_r (seen good : bool) (cs : list rcall) (xs : list (res * option bytes)) : bool :=
  match cs, xs with
  | ROpen :: cs', (x, _) :: xs' =>
      if res_eqb x r_success then no_failed_reopen_r true true cs' xs'
      else no_failed_reopen_r seen (negb seen && good) cs' xs'
  | RClose :: cs', _ :: xs' => no_failed_reopen_r seen good cs' xs'
  | _ :: cs', _ :: xs' => no_failed_reopen_r true good cs' xs'
  | _, _ => good
  end.

(** At some moment of [tr], everything received since the last open was a whole
    stream, from its handshake to its STOP frame. *)
Definition whole_stream_received (bi : bool) (wanted : list bytes) (max : N) (tr : trace) : Prop :=
  exists tr1 tr2 hd b ds, tr = tr1 ++ tr2 /\ reader_head bi wanted hd /\ carries max b ds /\ received tr1 = hd ++ b ++ stop_frame.

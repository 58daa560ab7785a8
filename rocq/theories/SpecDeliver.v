(** What a client may conclude from the results of its calls. *)
From Verif Require Import Bytes Spec SpecTrace SpecStream Io Control Rdwr Reader Writer Api SpecApi File Capture SpecCapture.
Local Open Scope N_scope.

(** The payloads of the calls that reported success since the last close,
    oldest first. *)
Fixpoint since_close (acc : list bytes) (cs : list wcall) (rs : list res) : list bytes :=
  match cs, rs with
  | WClose :: cs', _ :: rs' => since_close [] cs' rs'
  | c :: cs', r_success :: rs' => since_close (acc ++ wpayloads c) cs' rs'
  | _ :: cs', _ :: rs' => since_close acc cs' rs'
  | _, _ => acc
  end.

(** One connection of a writer to a capture server.  [tr] is what the writer's
    transport saw, [H] what happened to the server, which has got to [c].  The
    network delivers what the writer sent since it opened the connection, in
    order and unchanged, possibly not all of it yet; in the other direction the
    same holds for the answers. *)
Record connected (tr : trace) (id : nat) (H : list ev) (c : ctx) : Prop := {
  cn_out : exists before sent, attempted tr = before ++ [sent] /\ prefix (SpecCapture.received id H) sent;
  cn_in : prefix (SpecTrace.received tr) (concat (answers (acts_of id (x_log c))))
}.

(** The payloads small enough for the server's buffer. *)
Definition fit (a : args) (ds : list bytes) : list bytes :=
  filter (fun d => lenN (data_frame d) <=? capture_highwater a) ds.

(** Reading [data] as a file with reader [r]: the payloads [ds], then end of
    stream, then failures, and the file is left alone. *)
Definition reads_as (r : reader) (data : bytes) (ds : list bytes) : Prop :=
  forall fuel m, (length data <= fuel)%nat ->
  exec file_ops (mk_cfile false data None) (reader_life fuel r (repeat RRead (length ds + 1 + m))) =
  (mk_cfile false data None,
   Done (map (fun d => (r_success, Some d)) ds ++ (r_stop, None) :: repeat (r_failure, None) m, r_success)).

(** A writer on connection [id] whose close reported success, after the calls
    [cs] with results [rs]. *)
Inductive confirmed (H : list ev) (c : ctx) (id : nat) : list wcall -> list res -> Prop :=
| confirm iovm cts rw w cs rs tr w' :
    fresh_rdwr rw -> rw_has_read rw = true -> (0 < iovm)%nat -> writer_init iovm cts rw = Some w -> Forall wcall_ok cs ->
    runs (do_wcalls w (cs ++ [WClose])) tr (Done (rs ++ [r_success], w')) -> connected tr id H c ->
    confirmed H c id cs rs.

(** Payloads whose length field cannot wrap in the server. *)
Definition ordinary (d : bytes) : Prop := 1 <= lenN d /\ lenN d < 2 ^ 32 - 4.

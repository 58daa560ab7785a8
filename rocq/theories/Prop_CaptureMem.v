(** C90: memory, descriptors and files of fstrm_capture. *)
From Coq Require Import Permutation.
From Verif Require Import Bytes Mem SpecMem CaptureMem SpecCaptureMem CaptureMem_proofs.
Local Open Scope nat_scope.

(** Any events, whatever the peers send and the system answers, up to an exit():
    nothing is used or given back after it was given back, no NULL pointer is
    followed, and while the server runs the blocks that exist are, each once,
    those of the connections it serves, of the event loop and of the output
    file. *)
Theorem C90_accounted : forall std cal es o, exists r o' h, mserver std cal es o heap0 = MOk r o' h /\
  match r with
  | None => True
  | Some s => NoDup (h_live h) /\ NoDup (map fst (s_conns s)) /\
      Permutation (h_live h) (own_conns (s_conns s) ++ own_loop (s_cap s) ++ own_out (s_cap s))
  end.
Proof. exact accounted. Qed.
Print Assumptions C90_accounted.

(** When a connection ends everything it had is given back, and nothing else. *)
Theorem C90_gone : forall std cal es o s o1 h1 id c,
  mserver std cal es o heap0 = MOk (Some s) o1 h1 -> In (id, c) (s_conns s) ->
  exists s' o2 h2, mserver std cal (es ++ [ME_closed id]) o heap0 = MOk (Some s') o2 h2 /\
    s_cap s' = s_cap s /\ Permutation (s_conns s) ((id, c) :: s_conns s') /\ Permutation (h_live h1) (own_conn c ++ h_live h2).
Proof. exact gone_in. Qed.
Print Assumptions C90_gone.

(** Events of other connections, new connections and signals leave a connection
    and its blocks alone. *)
Theorem C90_others : forall std cal es o s o1 h1 id c e s' o2 h2,
  mserver std cal es o heap0 = MOk (Some s) o1 h1 -> In (id, c) (s_conns s) ->
  ~ In e [ME_data id; ME_written id; ME_closed id] -> mserver std cal (es ++ [e]) o heap0 = MOk (Some s') o2 h2 ->
  In (id, c) (s_conns s') /\ incl (own_conn c) (h_live h2).
Proof. exact others_in. Qed.
Print Assumptions C90_others.

(** The shutdown is defined too; after a successful one only the connections
    still open are left. *)
Theorem C90_end : forall std cal es o s o1 h1, mserver std cal es o heap0 = MOk (Some s) o1 h1 ->
  exists ok o2 h2, mshutdown s o1 h1 = MOk ok o2 h2 /\ (ok = true -> Permutation (h_live h2) (own_conns (s_conns s))).
Proof. exact ended. Qed.
Print Assumptions C90_end.

(** ** A case *)
(** The file is opened; two connections; on the first READY, then a data frame
    with which the file is rotated, then a bad length; data on the second; both
    signals. *)
Definition cm_open : list nat := [1; 1; 1; 1; 1; 1; 1].
Definition cm_rotate : list nat := [1; 1; 1] ++ cm_open.
Definition cm_events : list mevent := [ME_accept; ME_accept; ME_data 0; ME_data 1; ME_hup; ME_usr1].
Definition cm_ready : list nat := [0; 3; 0] ++ [1; 1; 1; 1; 2; 1] ++ [1; 1; 0] ++ [1; 1; 1; 1; 1] ++ [1; 1; 1; 1].
Definition cm_data : list nat := [0; 3; 1] ++ [0; 1; 1] ++ cm_rotate.
Definition cm_script : list nat :=
  cm_open ++ [1] ++ [1; 0] ++ [1; 0] ++ [3] ++ cm_ready ++ cm_data ++ [0; 1; 0; 1; 1] ++ [0] ++ cm_rotate.
(** One connection is left; the server ends, or the connection ends first. *)
Example C90_case :
  match mserver false true cm_events (cm_script ++ [1; 1; 1]) heap0 with
  | MOk (Some s) o h => map fst (s_conns s) = [1] /\ o = [1; 1; 1] /\ length (h_live h) = 14 /\ h_next h = 52 /\
      match mshutdown s o h with MOk ok _ h2 => ok = true /\ length (h_live h2) = 7 | MUb _ => False end
  | _ => False
  end /\
  match mserver false true (cm_events ++ [ME_closed 1]) (cm_script ++ [0; 0; 0; 1; 1; 1]) heap0 with
  | MOk (Some s) o h => match mshutdown s o h with MOk ok _ h2 => ok = true /\ h_live h2 = [] | MUb _ => False end
  | _ => False
  end.
Proof. vm_compute. repeat split. Qed.

(** What a running fstrm_capture owns. *)
From Verif Require Import Bytes Mem SpecMem CaptureMem.
Local Open Scope nat_scope.

(** A connection: its record, control frame object, bufferevent, input and
    descriptor. *)
Definition own_conn (c : mconn) : list blk := mc_blk c :: own_ctl (mc_ctl c) ++ [mc_bev c; mc_chain c; mc_fd c].
Definition own_conns (l : list (nat * mconn)) : list blk := concat (map (fun p => own_conn (snd p)) l).
(** The output file and its name. *)
Definition own_out (x : mcap) : list blk := own_opt own_blk (x_name x) ++ own_opt (fun f => [fst f; snd f]) (x_file x).
(** The event loop, the listener and the signal events. *)
Definition own_loop (x : mcap) : list blk := [x_base x; x_listener x; x_hup x; x_usr1 x].

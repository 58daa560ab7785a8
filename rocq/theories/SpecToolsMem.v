(** What fstrm_dump and fstrm_replay still hold, for C91. *)
From Verif Require Import Bytes Mem SpecMem ToolsMem.

(** Nothing after main() returned; otherwise the objects the program has variables for. *)
Definition left_of (t : tool) : list blk :=
  match t with
  | T_over => []
  | T_exit o r w => own_opt (fun o => own (O_wopt o)) o ++ own_opt own_reader r ++ own_opt own_writer w
  | T_busy f o r w => own_opt (fun f => own (O_path f)) f ++ own_opt (fun o => own (O_wopt o)) o ++ own_reader r ++ own_opt own_writer w
  end.

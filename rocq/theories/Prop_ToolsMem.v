(** C91: the memory of fstrm_dump and fstrm_replay. *)
From Coq Require Import Permutation.
From Verif Require Import Bytes Mem SpecMem ToolsMem SpecToolsMem ToolsMem_proofs Prop_Mem.
Local Open Scope nat_scope.

(** fstrm_dump, with and without an output file, whatever its input, its output and the
    system decide, however many frames: nothing is used or freed after it was freed.
    Its main() returns, and then nothing is left; as long as it goes on there is just
    what its variables own, nothing from earlier frames. *)
Theorem C91_dump : forall out n o, exists t o' h, dump out n o heap0 = MOk t o' h /\ NoDup (h_live h) /\
  Permutation (h_live h) (left_of t) /\ match t with T_exit _ _ _ => False | _ => True end.
Proof. exact dump_accounted. Qed.
Print Assumptions C91_dump.
(** fstrm_replay, with either kind of socket and any number of files: the same, nothing
    being left from earlier files either.  It may call exit() while it has objects. *)
Theorem C91_replay : forall unix ns o, exists t o' h, replay unix ns o heap0 = MOk t o' h /\ NoDup (h_live h) /\
  Permutation (h_live h) (left_of t).
Proof. exact replay_accounted. Qed.
Print Assumptions C91_replay.

(** ** Cases *)
(** START with a content type arrives.  The output is opened.  A frame is copied. *)
Definition tm_open : list nat := [1; 1; 1; 2; 1; 1; 1].
Definition tm_out : list nat := [1] ++ [1; 1; 1; 1].
Definition tm_frame : list nat := mo_data ++ [1; 1; 1].
(** fstrm_dump copies two frames and meets STOP; before STOP it owns 31 blocks; and a
    write that fails. *)
Example C91_dump_case :
  match dump true 3 (tm_open ++ tm_out ++ tm_frame ++ tm_frame ++ mo_stop ++ [1] ++ [1; 1; 1; 7]) heap0 with
  | MOk T_over o h => o = [7] /\ h_live h = [] /\ h_next h = 44
  | _ => False
  end /\
  match dump true 2 (tm_open ++ tm_out ++ tm_frame ++ tm_frame ++ [7]) heap0 with
  | MOk (T_busy (Some _) (Some _) _ (Some _)) o h => o = [7] /\ length (h_live h) = 31
  | _ => False
  end /\
  match dump true 2 (tm_open ++ tm_out ++ tm_frame ++ mo_data ++ [1; 0; 0] ++ [1] ++ [1; 1; 1; 7]) heap0 with
  | MOk T_over o h => o = [7] /\ h_live h = []
  | _ => False
  end.
Proof. vm_compute. auto 20. Qed.
(** fstrm_replay opens its socket; it sends two files of two frames each; it is in the
    second one; a write in the second file fails; a port that cannot be parsed. *)
Definition tm_sock : list nat := [1; 1] ++ [1; 1; 1; 1; 1; 0; 1; 1; 1; 1; 1; 1].
Definition tm_file : list nat := mo_open ++ [1] ++ tm_frame ++ tm_frame ++ mo_stop ++ [1].
Example C91_replay_case :
  match replay true [3; 3] (tm_sock ++ tm_file ++ tm_file ++ [1; 1; 1; 0; 1; 1; 1; 7]) heap0 with
  | MOk T_over o h => h_live h = [] /\ h_next h = 75
  | _ => False
  end /\
  match replay true [3; 2] (tm_sock ++ tm_file ++ mo_open ++ [1] ++ tm_frame ++ tm_frame ++ [7]) heap0 with
  | MOk (T_busy None None _ (Some _)) o h => o = [7] /\ length (h_live h) = 30
  | _ => False
  end /\
  match replay true [3; 2] (tm_sock ++ tm_file ++ mo_open ++ [1] ++ mo_data ++ [1; 0; 0] ++ [7]) heap0 with
  | MOk (T_exit None (Some _) (Some _)) o h => o = [7] /\ length (h_live h) = 30
  | _ => False
  end /\
  match replay false [1] [1; 0] heap0 with
  | MOk (T_exit (Some _) None None) _ h => length (h_live h) = 4
  | _ => False
  end.
Proof. vm_compute. auto 20. Qed.

(** C77: what the library allocates, who owns it and when it is released. *)
From Coq Require Import Permutation.
From Verif Require Import Bytes Spec Io Control Rdwr Reader Api Io_proofs Writer2_proofs Mem SpecMem Mem_proofs Mem2_proofs Prop_Writer Prop_Reader.
Local Open Scope nat_scope.

(** Any calls, whatever the data and the transports decide: no block is used or
    freed after it was freed, and at every moment the blocks that exist are, each
    once, those the variables own and the frames of [lost], one for each end of
    stream a reader reports after its first. *)
Theorem C77_accounted : forall cs o, exists rs s o' h lost,
  msteps [] cs o heap0 = MOk (rs, s) o' h /\ length rs = length cs /\ length s <= length cs /\ NoDup (h_live h) /\
  Permutation (h_live h) (owned s ++ concat (map own_ctl lost)) /\ length lost = repeated_stops (length s) cs rs.
Proof. exact accounted. Qed.
Print Assumptions C77_accounted.

(** Destroying every object gives back everything, if no reader reported the end
    of a stream twice. *)
Theorem C77_released_partial : forall cs o rs s o' h,
  msteps [] cs o heap0 = MOk (rs, s) o' h -> (forall i, stops i cs rs <= 1) ->
  exists rs2 s2 o2 h2, msteps [] (cs ++ map MC_destroy (seq 0 (length cs))) o heap0 = MOk (rs ++ rs2, s2) o2 h2 /\ h_live h2 = [].
Proof. exact destroy_all. Qed.
Print Assumptions C77_released_partial.

(** The same for programs that destroy their objects in any order at any time. *)
Theorem C77_nothing_left_partial : forall cs o rs s o' h,
  msteps [] cs o heap0 = MOk (rs, s) o' h -> (forall i, stops i cs rs <= 1) -> Forall (eq O_null) s -> h_live h = [].
Proof. exact no_leak. Qed.
Print Assumptions C77_nothing_left_partial.

(** Data handed out by a read exists until the next read from that reader or its
    destruction; opening or closing it, asking for control frames and anything
    done with other objects leave it alone. *)
Theorem C77_data_stays : forall cs i cs2 o rs b rs2 s o' h, length rs = length cs ->
  msteps [] (cs ++ MC_read i :: cs2) o heap0 = MOk (rs ++ MR_data b :: rs2, s) o' h ->
  Forall (fun c => c <> MC_read i /\ c <> MC_destroy i) cs2 -> In b (h_live h).
Proof. exact data_stays. Qed.
Print Assumptions C77_data_stays.

(** A control frame handed out exists, with its content types, until another call
    is made on the reader or writer. *)
Theorem C77_control_stays : forall cs i t cs2 o rs k rs2 s o' h, length rs = length cs ->
  msteps [] (cs ++ MC_get i t :: cs2) o heap0 = MOk (rs ++ MR_ctl (Some k) :: rs2, s) o' h ->
  Forall (fun c => concerns c i = false) cs2 -> incl (own_ctl k) (h_live h).
Proof. exact control_stays. Qed.
Print Assumptions C77_control_stays.

(** Objects a call does not concern keep all their blocks: options given to a
    reader, writer or transport stay the caller's. *)
Theorem C77_others_untouched : forall cs cs2 o rs s o1 h1 rs2 s2 o2 h2 i,
  msteps [] cs o heap0 = MOk (rs, s) o1 h1 -> msteps s cs2 o1 h1 = MOk (rs2, s2) o2 h2 ->
  i < length s -> Forall (fun c => concerns c i = false) cs2 -> var s2 i = var s i /\ incl (own (var s i)) (h_live h2).
Proof. exact untouched. Qed.
Print Assumptions C77_others_untouched.

(** ** Cases *)
(** Answers of a transport: opening succeeds, START arrives; a data frame
    arrives; STOP arrives. *)
Definition mo_open : list nat := [1; 1; 0; 1; 1; 1].
Definition mo_data : list nat := [1; 1; 1; 3; 1].
Definition mo_stop : list nat := [1; 1; 2; 1; 0; 1; 1].
(** Options with two types, a user's transport, a reader, two reads, the START
    frame, everything destroyed but the options. *)
Definition mo_cs : list mcall :=
  [MC_new N_ropt; MC_opt_add 0 true; MC_opt_add 0 true; MC_new (N_rdwr true true false); MC_reader (Some 0) (TR_rdwr 1); MC_read 2;
   MC_get 2 CT_start; MC_read 2; MC_close 2; MC_destroy 1; MC_destroy 2; MC_destroy 2].
Example C77_case : exists rs s o h b k c,
  msteps [] mo_cs (mo_open ++ mo_data ++ mo_stop) heap0 = MOk (rs, s) o h /\
  rs = [MR_done; MR_done; MR_done; MR_done; MR_done; MR_data b; MR_ctl (Some k); MR_stop; MR_done; MR_done; MR_done; MR_done] /\
  s = [O_ropt c; O_null; O_null] /\ own (O_ropt c) = [0; 1; 5; 3; 4] /\ h_live h = [5; 4; 3; 1; 0] /\ h_next h = 25.
Proof. eexists _, _, _, _, _, _, _. split; [vm_compute; reflexivity|]. repeat split. Qed.
(** A writer on a socket is opened, written to, closed and destroyed. *)
Example C77_writer_case : exists rs s o h,
  msteps [] [MC_new N_path; MC_path_set 0 false true; MC_path_set 0 true true; MC_new N_wopt; MC_opt_add 1 true; MC_writer (Some 1) (TR_tcp 0);
     MC_write 2; MC_get 2 CT_accept; MC_close 2; MC_destroy 0; MC_destroy 2; MC_destroy 1]
    ([1] ++ [1; 1; 1; 1; 1; 0; 1; 1; 1; 1; 1; 1] ++ [2; 1; 1] ++ [1; 1; 1; 0; 1; 1; 1]) heap0 = MOk (rs, s) o h /\
  s = [O_null; O_null; O_null] /\ h_live h = [] /\ nth 7 rs MR_done <> MR_ctl None.
Proof. eexists _, _, _, _. split; [vm_compute; reflexivity|]. repeat split. discriminate. Qed.

(** C77 as worded fails: a reader that is closed, opened again and reads a second
    end of stream forgets the frame of the first (reader.c:345), and destroying
    everything leaves its three blocks. *)
Definition mo_twice : list mcall :=
  [MC_new (N_rdwr false true false); MC_reader None (TR_rdwr 0); MC_read 1; MC_close 1; MC_open 1; MC_read 1; MC_destroy 1].
Theorem C77_released_refuted : exists rs s o h,
  msteps [] mo_twice (mo_open ++ mo_stop ++ [1] ++ mo_open ++ mo_stop ++ [1]) heap0 = MOk (rs, s) o h /\
  rs = [MR_done; MR_done; MR_stop; MR_done; MR_done; MR_stop; MR_done] /\ Forall (eq O_null) s /\ length (h_live h) = 3 /\
  stops 1 mo_twice rs = 2 /\ repeated_stops (length s) mo_twice rs = 1.
Proof. eexists _, _, _, _. split; [vm_compute; reflexivity|]. repeat split; repeat constructor. Qed.
Print Assumptions C77_released_refuted.
(** The same calls and results in the model of what a reader does. *)
Example C77_twice_really : exists tr r',
  runs (do_rcalls 5 (mk_r ex_ropt ex_rfile) [RRead; RClose; ROpen; RRead; RClose]) tr
       (Done ([(r_stop, None); (r_success, None); (r_success, None); (r_stop, None); (r_success, None)], r')).
Proof.
  eexists _, _. apply follow_sound with (l := [ok1] ++ ctl_reads T_START [[x61]] ++ ctl_reads T_STOP [] ++ [ok1; ok1] ++ ctl_reads T_START [[x61]] ++ ctl_reads T_STOP [] ++ [ok1]).
  vm_compute. reflexivity.
Qed.

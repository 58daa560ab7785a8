(** Who owns which block, for the memory management properties. *)
From Verif Require Import Bytes Mem.
Local Open Scope nat_scope.

Definition own_vec (x : bufvec) : list blk := bv_blk x :: bv_v x :: bv_items x.
Definition own_ctl (c : cobj) : list blk := c_blk c :: own_vec (c_vec c).
Definition own_opt {A} (f : A -> list blk) (x : option A) : list blk := match x with Some a => f a | None => [] end.
Definition own_blk (b : blk) : list blk := [b].
Definition own_tobj (t : tobj) : list blk :=
  match t with T_file f p => [f; p] | T_sock w => [w] | T_user u => own_opt own_blk u end.
Definition own_rdwr (x : robj) : list blk := rw_blk x :: own_tobj (rw_obj x).
Definition own_reader (r : mreader) : list blk :=
  mr_blk r :: own_vec (mr_vec r) ++ [ub_blk (mr_buf r); ub_v (mr_buf r)] ++ own_rdwr (mr_rdwr r) ++
  own_opt own_ctl (mr_start r) ++ own_opt own_ctl (mr_stop r) ++ own_opt own_ctl (mr_ready r) ++
  own_opt own_ctl (mr_accept r) ++ own_opt own_ctl (mr_tmp r).
Definition own_writer (w : mwriter) : list blk :=
  mw_blk w :: own_vec (mw_vec w) ++ own_rdwr (mw_rdwr w) ++ own_opt own_ctl (mw_ready w) ++
  own_opt own_ctl (mw_accept w) ++ own_opt own_ctl (mw_start w) ++ own_opt own_ctl (mw_finish w) ++ [mw_iovecs w; mw_lens w].
Definition own (x : obj) : list blk :=
  match x with
  | O_null => []
  | O_ctl c => own_ctl c
  | O_ropt x | O_wopt x => o_blk x :: own_opt own_vec (o_vec x)
  | O_path x => p_blk x :: own_opt own_blk (p_text x) ++ own_opt own_blk (p_port x)
  | O_rdwr x => own_rdwr x
  | O_reader r => own_reader r
  | O_writer w => own_writer w
  end.
(** Everything the variables of the program own. *)
Definition owned (s : vars) : list blk := concat (map own s).

(** How often the calls read the end of a stream from the reader in variable [i]. *)
Fixpoint stops (i : nat) (cs : list mcall) (rs : list mres) : nat :=
  match cs, rs with
  | c :: cs, r :: rs =>
      (match c, r with MC_read j, MR_stop => if Nat.eqb i j then 1 else 0 | _, _ => 0 end) + stops i cs rs
  | _, _ => 0
  end.
(** Ends of stream after the first one of each of the first [n] variables. *)
Fixpoint repeated_stops (n : nat) (cs : list mcall) (rs : list mres) : nat :=
  match n with O => 0 | S n => pred (stops n cs rs) + repeated_stops n cs rs end.

(** The variables a call changes or destroys. *)
Definition concerns (c : mcall) (i : nat) : bool :=
  match c with
  | MC_new _ => false
  | MC_destroy j | MC_ctl_reset j | MC_ctl_add j | MC_ctl_decode j | MC_opt_add j _ | MC_path_set j _ _
  | MC_open j | MC_read j | MC_write j | MC_close j | MC_get j _ => Nat.eqb i j
  | MC_ctl_read _ => false
  | MC_reader _ t | MC_writer _ t => match t with TR_rdwr j => Nat.eqb i j | _ => false end
  end.

(** When an I/O thread can be started, and on which clocks it runs. *)
From Coq Require Import Permutation.
From Verif Require Import Bytes Mem SpecMem Thread.
Local Open Scope nat_scope.

(** Clocks that do not jump, the best first. *)
Definition better (a b : clk) : Prop :=
  match a, b with
  | K_coarse, (K_raw | K_fast | K_mono) => True
  | K_raw, (K_fast | K_mono) => True
  | K_fast, K_mono => True
  | _, _ => False
  end.
Definition steady (c : clk) : Prop := c <> K_real.
(** [c] is the best steady clock with [ok]. *)
Definition best (ok : clk -> Prop) (c : clk) : Prop := steady c /\ ok c /\ forall d, better d c -> ~ ok d.
Definition readable (pf : platform) (c : clk) : Prop := pf_defined pf c = true /\ pf_reads pf c = true.
Definition waitable (pf : platform) (c : clk) : Prop := readable pf c /\ pf_waits pf c = true.

(** The clocks the build expects exist on the system. *)
Definition clocks_exist (pf : platform) : Prop :=
  pf_gettime pf = true -> (exists c, steady c /\ readable pf c) /\ (pf_setclock pf = true -> exists c, steady c /\ waitable pf c).
(** CLOCK_REALTIME can always be read. *)
Definition sane (pf : platform) : Prop := pf_reads pf K_real = true.
Definition startable (pf : platform) (n : nat) (size : N) : Prop :=
  clocks_exist pf /\ (n = 0 \/ exists k, (1 <= k)%N /\ size = (2 ^ k)%N).

(** The heap holds exactly the blocks [l], each once. *)
Definition holds (h : heap) (l : list blk) : Prop :=
  NoDup (h_live h) /\ Forall (fun b => b < h_next h) (h_live h) /\ Permutation (h_live h) l.

(** What a thread object owns. *)
Definition own_es (l : list entry) : list blk := concat (map (own_opt own_blk) l).
Definition own_q (q : qobj) : list blk := q_blk q :: q_data q :: own_opt own_blk (q_lock q) ++ own_es (q_items q).
Definition own_qs (l : list (option qobj)) : list blk := concat (map (own_opt own_q) l).
Definition own_th (t : thr) : list blk :=
  th_blk t :: own_opt own_blk (th_arr t) ++ own_qs (th_qs t) ++ own_opt own_blk (th_iov t) ++ own_opt own_blk (th_ents t) ++ own_es (th_out t) ++
  own_opt own_blk (option_map fst (th_cv t)) ++ own_opt own_blk (th_cvlock t) ++ own_opt own_blk (th_glock t) ++
  own_opt own_writer (th_writer t) ++ own_opt own_blk (th_run t).

(** Model of how the I/O thread of fstrm/iothr.c sleeps and is woken: the
    condition variable, fstrm_iothr_submit's signal, and the shutdown request.
    Threads interleave; a queue operation is one step (C28-C34, C65, C67 show
    that the queues behave so), the shutdown flag is read and written in order.
    The output side of the thread (opening, writing, flushing) is left out: it
    takes part in neither the queues' indices nor the condition variable. *)
From Verif Require Import Bytes Control Iothr Queue.
Local Open Scope N_scope.

(** Where the I/O thread is (fstrm/iothr.c:603-643).  [T_scan d i total]: in
    fstrm__iothr_process_queues, at queue [i]; [d]: in the shutdown branch (609).
    [T_about]: found nothing, not yet waiting (620-632).  [T_waiting]: in
    pthread_cond_timedwait (633).  [T_woken]: the condition variable was
    signalled. *)
Inductive tpc := T_top | T_scan (d : bool) (i : nat) (total : N) | T_about | T_waiting | T_woken | T_done.
(** fstrm_iothr_destroy: before 369, between 369 and 370, in pthread_join (371). *)
Inductive dpc := D_none | D_set | D_join.

(** What happens, in order.  [V_insert i sg]: a submission was accepted by queue
    [i], and is about to signal if [sg]. *)
Inductive wev :=
| V_insert (i : nat) (sg : bool) | V_refuse (i : nat) | V_signal | V_remove (i : nat)
| V_sleep | V_woken | V_timeout | V_spurious | V_flag | V_done.

Record wk := mk_wk {
  k_head : nat -> N; k_tail : nat -> N;                  (* of each queue *)
  k_prod : nat -> bool;                                  (* producer between lines 439 and 441 *)
  k_thr : tpc; k_flag : bool; k_des : dpc;
  k_log : list wev                                       (* newest first *)
}.

Inductive wact :=
| A_submit (p i : nat) (d : option bytes) (len : N) (hf : bool) (id : nat)   (* producer [p] submits to queue [i] *)
| A_signal (p : nat) | A_thread | A_timeout | A_spurious | A_destroy.

Definition upd {A} (f : nat -> A) (i : nat) (a : A) : nat -> A := fun j => if Nat.eqb i j then a else f j.

(** pthread_cond_signal: wakes a waiting thread, is lost otherwise. *)
Definition cond_signal (t : tpc) : tpc := match t with T_waiting => T_woken | t => t end.

(** my_queue_mb.c:103-121 and my_queue_mutex.c:123-142, the answers of insert. *)
Definition ring_insert (head tail size : N) : bool * N :=
  let space := q_space head tail size in
  if 1 <=? space then (true, space - 1) else (false, space).

Definition set_thr (s : wk) (t : tpc) (l : list wev) : wk :=
  mk_wk (k_head s) (k_tail s) (k_prod s) t (k_flag s) (k_des s) (l ++ k_log s).

(** fstrm/iothr.c:603-643, one step of the thread. *)
Definition thread_step (opt : iothr_options) (s : wk) : wk :=
  let size := io_input_queue_size opt in
  match k_thr s with
  | T_top => set_thr s (T_scan (k_flag s) 0 0) []
  | T_scan d i total =>
      if (i <? N.to_nat (io_num_input_queues opt))%nat then
        (* iothr.c:534-539; my_queue_mb.c:123-142 *)
        if 1 <=? q_count (k_head s i) (k_tail s i) size then
          mk_wk (k_head s) (upd (k_tail s) i (q_next (k_tail s i) size)) (k_prod s) (T_scan d (S i) (total + 1))
                (k_flag s) (k_des s) (V_remove i :: k_log s)
        else set_thr s (T_scan d (S i) total) []
      else if negb (total =? 0) then set_thr s (if d then T_scan true 0 0 else T_top) []
      else if d then set_thr s T_done [V_done]
      else set_thr s T_about []
  | T_about => set_thr s T_waiting [V_sleep]
  | T_waiting => s
  | T_woken => set_thr s T_top [V_woken]
  | T_done => s
  end.

Definition k_step (opt : iothr_options) (s : wk) (a : wact) : wk :=
  match a with
  | A_submit p i d len hf id =>
      if k_prod s p then s
      else
        match iothr_submit opt (k_flag s) d len hf id
                (fun _ => ring_insert (k_head s i) (k_tail s i) (io_input_queue_size opt)) with
        | (r_success, _, sg) =>
            mk_wk (upd (k_head s) i (q_next (k_head s i) (io_input_queue_size opt))) (k_tail s) (upd (k_prod s) p sg)
                  (k_thr s) (k_flag s) (k_des s) (V_insert i sg :: k_log s)
        | (r_again, _, _) => set_thr s (k_thr s) [V_refuse i]
        | _ => s
        end
  | A_signal p =>
      (* iothr.c:440-441 *)
      if k_prod s p then
        mk_wk (k_head s) (k_tail s) (upd (k_prod s) p false) (cond_signal (k_thr s)) (k_flag s) (k_des s) (V_signal :: k_log s)
      else s
  | A_thread => thread_step opt s
  | A_timeout => match k_thr s with T_waiting => set_thr s T_top [V_timeout] | _ => s end
  | A_spurious => match k_thr s with T_waiting => set_thr s T_top [V_spurious] | _ => s end
  | A_destroy =>
      match k_des s with
      | D_none => mk_wk (k_head s) (k_tail s) (k_prod s) (k_thr s) true D_set (V_flag :: k_log s)
      | D_set => mk_wk (k_head s) (k_tail s) (k_prod s) (cond_signal (k_thr s)) (k_flag s) D_join (V_signal :: k_log s)
      | D_join => s
      end
  end.

Definition k_init : wk := mk_wk (fun _ => 0) (fun _ => 0) (fun _ => false) T_top false D_none [].
Definition k_run (opt : iothr_options) (sch : list wact) : wk := fold_left (k_step opt) sch k_init.
Definition k_trace (s : wk) : list wev := rev (k_log s).

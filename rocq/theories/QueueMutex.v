(** Model of libmy/my_queue_mutex.c with any number of threads.  Every shared
    access is its own step; threads interleave arbitrarily.  (Memory is
    sequentially consistent here: all accesses are under the mutex.) *)
From Verif Require Import Bytes Queue.
Local Open Scope N_scope.

(** A call and its result: [my_queue_mutex_insert] with the reported space,
    [my_queue_mutex_remove] with the reported count. *)
Inductive mop := M_ins (x : bytes) | M_rem.
Inductive mres := R_ins (ok : bool) (space : N) | R_rem (x : option bytes) (count : N).

(** Where a thread is; lines are those of my_queue_mutex.c. *)
Inductive mpc :=
| M_idle
| M_lock (o : mop)                                        (* 126, 146: waiting for the lock *)
| M_head (o : mop)                                        (* 128, 148 *)
| M_tail (o : mop) (head : N)                             (* 129, 149 *)
| M_icopy (x : bytes) (head space : N) (k : nat)          (* 132: [k] bytes copied; then 133 *)
| M_rcopy (tail count : N) (got : bytes)                  (* 152; then 153 *)
| M_unlock (o : mop) (r : mres)                           (* 137, 157 *)
| M_return (o : mop) (r : mres).                          (* 138-140, 158-160 *)
Record mthread := mk_mt { m_todo : list mop; m_done : nat; m_pc : mpc }.

(** Calls are named by thread and number. *)
Definition callid := (nat * nat)%type.
Inductive mev :=
| ME_call (c : callid) (o : mop)
| ME_unlock (c : callid) (o : mop) (r : mres)
| ME_return (c : callid) (o : mop) (r : mres).

Record mstate := mk_m {
  m_sz : nat; m_num : N; m_data : bytes; m_hd : N; m_tl : N;
  m_lk : option nat; m_threads : list mthread; m_oob : bool; m_log : list mev }.

Definition m_thread (s : mstate) (i : nat) (t : mthread) : mstate :=
  mk_m (m_sz s) (m_num s) (m_data s) (m_hd s) (m_tl s) (m_lk s) (set_nth i t (m_threads s)) (m_oob s) (m_log s).
Definition m_set_lock (s : mstate) (l : option nat) : mstate :=
  mk_m (m_sz s) (m_num s) (m_data s) (m_hd s) (m_tl s) l (m_threads s) (m_oob s) (m_log s).
Definition m_set_log (s : mstate) (e : mev) : mstate :=
  mk_m (m_sz s) (m_num s) (m_data s) (m_hd s) (m_tl s) (m_lk s) (m_threads s) (m_oob s) (e :: m_log s).
Definition m_set_q (s : mstate) (d : bytes) (h t : N) (oob : bool) : mstate :=
  mk_m (m_sz s) (m_num s) d h t (m_lk s) (m_threads s) (m_oob s || oob) (m_log s).

(** One step of thread [i] (my_queue_mutex.c:123-161). *)
Definition m_step (s : mstate) (i : nat) : mstate :=
  match nth_error (m_threads s) i with
  | None => s
  | Some t =>
      let goto pc := mk_mt (m_todo t) (m_done t) pc in
      match m_pc t with
      | M_idle =>
          match m_todo t with
          | [] => s
          | o :: todo => m_set_log (m_thread s i (mk_mt todo (m_done t) (M_lock o))) (ME_call (i, m_done t) o)
          end
      | M_lock o =>
          match m_lk s with
          | None => m_set_lock (m_thread s i (goto (M_head o))) (Some i)
          | Some _ => s
          end
      | M_head o => m_thread s i (goto (M_tail o (m_hd s)))
      | M_tail o head =>
          match o with
          | M_ins x =>
              let space := q_space head (m_tl s) (m_num s) in
              if 1 <=? space then m_thread s i (goto (M_icopy x head space 0))
              else m_thread s i (goto (M_unlock o (R_ins false space)))
          | M_rem =>
              let tail := m_tl s in
              let count := q_count head tail (m_num s) in
              if 1 <=? count then m_thread s i (goto (M_rcopy tail count []))
              else m_thread s i (goto (M_unlock o (R_rem None count)))
          end
      | M_icopy x head space k =>
          if Nat.ltb k (m_sz s) then
            let a := q_addr head (N.of_nat (m_sz s)) k in
            m_set_q (m_thread s i (goto (M_icopy x head space (S k))))
              (put_byte a (nth k x x00) (m_data s)) (m_hd s) (m_tl s) (Nat.leb (length (m_data s)) a)
          else
            m_set_q (m_thread s i (goto (M_unlock (M_ins x) (R_ins true (space - 1)))))
              (m_data s) (q_next head (m_num s)) (m_tl s) false
      | M_rcopy tail count got =>
          if Nat.ltb (length got) (m_sz s) then
            let a := q_addr tail (N.of_nat (m_sz s)) (length got) in
            m_set_q (m_thread s i (goto (M_rcopy tail count (got ++ [nth a (m_data s) x00]))))
              (m_data s) (m_hd s) (m_tl s) (Nat.leb (length (m_data s)) a)
          else
            m_set_q (m_thread s i (goto (M_unlock M_rem (R_rem (Some got) (count - 1)))))
              (m_data s) (m_hd s) (q_next tail (m_num s)) false
      | M_unlock o r => m_set_log (m_set_lock (m_thread s i (goto (M_return o r))) None) (ME_unlock (i, m_done t) o r)
      | M_return o r => m_set_log (m_thread s i (mk_mt (m_todo t) (S (m_done t)) M_idle)) (ME_return (i, m_done t) o r)
      end
  end.

Definition m_run (s : mstate) (sch : list nat) : mstate := fold_left m_step sch s.

(** my_queue_mutex.c:65-78. *)
Definition m_init (num : N) (sz : nat) (todo : list (list mop)) : mstate :=
  mk_m sz num (repeat x00 (N.to_nat num * sz)) 0 0 None (map (fun t => mk_mt t 0 M_idle) todo) false [].
Definition m_trace (s : mstate) : list mev := rev (m_log s).

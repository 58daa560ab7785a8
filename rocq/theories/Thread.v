(** Model of creating and destroying an I/O thread, with its memory, its locks,
    its condition variable, its thread and its clocks (fstrm/iothr.c:232-385,
    436-445, 480-640; fstrm/time.c).

    A lock, a condition variable and a thread are tokens of the heap of Mem.v:
    initialising one makes a token, destroying or joining takes it away, using
    one needs it.  What the allocator zeroed and nobody initialised is [None]; an
    operation on it is undefined, and so is a failing assert().  What happens
    inside the thread between two calls is a sequence of whole steps; its
    concurrency is C36-C43 and C65-C67. *)
From Verif Require Import Bytes Queue Mem.
Local Open Scope nat_scope.
Local Notation "x <~ p ;; q" := (mbind p (fun x => q)) (at level 100, p at next level, right associativity).
Local Notation "p ;;; q" := (mbind p (fun _ => q)) (at level 100, right associativity).

(** ** Clocks *)
Inductive clk := K_coarse | K_raw | K_fast | K_mono | K_real.
(** The platform: which functions and clocks the headers offer (HAVE_CLOCK_GETTIME,
    HAVE_PTHREAD_CONDATTR_SETCLOCK, defined(CLOCK_...), MY_HAVE_MEMORY_BARRIERS),
    which clocks the running system can read and can wait on. *)
Record platform := mk_pf {
  pf_gettime : bool; pf_setclock : bool; pf_barriers : bool;
  pf_defined : clk -> bool; pf_reads : clk -> bool; pf_waits : clk -> bool }.
Definition preference : list clk := [K_coarse; K_raw; K_fast; K_mono].
(** time.c:88-114. *)
Definition best_gettime (pf : platform) : option clk := find (fun c => pf_defined pf c && pf_reads pf c) preference.
(** time.c:30-85. *)
Definition best_pthread (pf : platform) : option clk := find (fun c => pf_defined pf c && pf_reads pf c && pf_waits pf c) preference.
(** time.c:116-141 with iothr.c:272-281: the two clock ids, those never set being
    0 = CLOCK_REALTIME; [None] is the failure. *)
Definition best_clocks (pf : platform) : option (clk * clk) :=
  if pf_gettime pf then
    match best_gettime pf with
    | None => None
    | Some g => if pf_setclock pf then match best_pthread pf with None => None | Some p => Some (g, p) end else Some (g, K_real)
    end
  else Some (K_real, K_real).

Definition m_undef {A} : mem A := fun _ _ => MUb ub_contract.
Definition m_assert (b : bool) : mem unit := if b then mret tt else m_undef.
Definition m_use_opt (p : option blk) : mem unit := match p with Some b => m_use b | None => m_undef end.
Definition m_take_opt (p : option blk) : mem unit := match p with Some b => m_free b | None => m_undef end.

(** ** Queues *)
(** An entry is the block its free function releases, if it has one. *)
Definition entry := option blk.
Record qobj := mk_qo { q_blk : blk; q_data : blk; q_lock : option blk; q_items : list entry }.
(** my_queue_mb.c:62-73 / my_queue_mutex.c:65-78. *)
Definition qo_init (mutex : bool) (size : N) : mem (option qobj) :=
  if negb (queue_init_ok size) then mret None
  else
    q <~ m_alloc ;; d <~ m_alloc ;;
    l <~ (if mutex then l <~ m_alloc ;; mret (Some l) else mret None) ;;
    mret (Some (mk_qo q d l [])).
Definition qo_use (q : qobj) : mem unit :=
  m_use (q_blk q) ;;; (match q_lock q with Some l => m_use l | None => mret tt end) ;;; m_use (q_data q).
(** my_queue_mb.c:75-83 / my_queue_mutex.c:80-89. *)
Definition qo_destroy (q : qobj) : mem unit :=
  m_use (q_blk q) ;;; m_free_opt (q_lock q) ;;; m_free (q_data q) ;;; m_free (q_blk q).

(** ** The thread object *)
Record thr := mk_th {
  th_blk : blk; th_gclk : clk; th_pclk : clk;
  th_arr : option blk; th_qs : list (option qobj);
  th_iov : option blk; th_ents : option blk; th_out : list entry; th_opened : bool;
  th_cv : option (blk * clk); th_cvlock : option blk; th_glock : option blk;
  th_writer : option mwriter; th_run : option blk }.

(** The loop at iothr.c:286-291: the queues made, and whether all could be. *)
Fixpoint make_queues (mutex : bool) (size : N) (n : nat) : mem (bool * list (option qobj)) :=
  match n with
  | O => mret (true, [])
  | S n =>
      q <~ qo_init mutex size ;;
      match q with
      | None => mret (false, repeat None (S n))
      | Some _ => r <~ make_queues mutex size n ;; mret (fst r, q :: snd r)
      end
  end.

(** iothr.c:338-343. *)
Definition free_entry (e : entry) : mem unit := match e with Some b => m_free b | None => mret tt end.
Fixpoint free_entries (l : list entry) : mem unit :=
  match l with [] => mret tt | e :: r => free_entry e ;;; free_entries r end.
(** iothr.c:345-360; [remove] on a NULL queue dereferences it. *)
Fixpoint free_queues (l : list (option qobj)) : mem unit :=
  match l with
  | [] => mret tt
  | None :: _ => m_undef
  | Some q :: r => qo_use q ;;; free_entries (q_items q) ;;; qo_destroy q ;;; free_queues r
  end.

(** ** The thread's steps *)
Definition with_qs (t : thr) (qs : list (option qobj)) : thr :=
  mk_th (th_blk t) (th_gclk t) (th_pclk t) (th_arr t) qs (th_iov t) (th_ents t) (th_out t) (th_opened t) (th_cv t) (th_cvlock t) (th_glock t) (th_writer t) (th_run t).
Definition with_out (t : thr) (out : list entry) (opened : bool) (w : mwriter) : thr :=
  mk_th (th_blk t) (th_gclk t) (th_pclk t) (th_arr t) (th_qs t) (th_iov t) (th_ents t) out opened (th_cv t) (th_cvlock t) (th_glock t) (Some w) (th_run t).
Definition th_w {A} (t : thr) (k : mwriter -> mem A) : mem A := match th_writer t with None => m_undef | Some w => k w end.
(** iothr.c:448-455. *)
Definition th_close (t : thr) : mem thr :=
  if th_opened t then th_w t (fun w => w <~ mw_close w ;; mret (with_out t (th_out t) false w)) else mret t.
(** iothr.c:457-478; whether the write fails is left open. *)
Definition th_flush (t : thr) : mem thr :=
  t <~ (if th_opened t && negb (match th_out t with [] => true | _ => false end) then
          m_use_opt (th_iov t) ;;;
          th_w t (fun w => w <~ mw_write w ;; ok <~ m_flag ;;
                           let t := with_out t (th_out t) (th_opened t) w in if ok then mret t else th_close t)
        else mret t) ;;
  (match th_out t with [] => mret tt | _ => m_use_opt (th_ents t) end) ;;;
  free_entries (th_out t) ;;;
  mret (mk_th (th_blk t) (th_gclk t) (th_pclk t) (th_arr t) (th_qs t) (th_iov t) (th_ents t) [] (th_opened t) (th_cv t) (th_cvlock t) (th_glock t) (th_writer t) (th_run t)).
(** iothr.c:480-529; whether the output queue must be flushed first is left open. *)
Definition th_entry (t : thr) (e : entry) : mem thr :=
  if th_opened t then
    full <~ m_flag ;;
    t <~ (if full then th_flush t else mret t) ;;
    m_use_opt (th_ents t) ;;; m_use_opt (th_iov t) ;;;
    th_w t (fun w => mret (with_out t (th_out t ++ [e]) (th_opened t) w))
  else free_entry e ;;; mret t.
(** iothr.c:531-550: queues [pre] have been served. *)
Fixpoint th_process (t : thr) (pre qs : list (option qobj)) : mem thr :=
  match qs with
  | [] => mret t
  | None :: _ => m_undef
  | Some q :: r =>
      m_use_opt (th_arr t) ;;; qo_use q ;;;
      match q_items q with
      | [] => th_process t (pre ++ [Some q]) r
      | e :: l =>
          let q' := Some (mk_qo (q_blk q) (q_data q) (q_lock q) l) in
          t <~ th_entry (with_qs t (pre ++ q' :: r)) e ;; th_process t (pre ++ [q']) r
      end
  end.
(** iothr.c:552-591. *)
Definition th_maybe_open (pf : platform) (t : thr) : mem thr :=
  if th_opened t then mret t
  else
    (if pf_gettime pf then m_assert (pf_reads pf (th_gclk t)) else mret tt) ;;;
    due <~ m_flag ;;
    if due then th_w t (fun w => ow <~ mw_open w ;; mret (with_out t (th_out t) (fst ow) (snd ow))) else mret t.
(** The clock whose time is the base of the deadline (iothr.c:619-629). *)
Definition deadline_clock (pf : platform) (t : thr) : clk :=
  if pf_gettime pf then (if pf_setclock pf then th_pclk t else K_real) else K_real.
(** One round of the loop at iothr.c:603-643: nothing found, it waits; woken by
    the timeout, it flushes. *)
Definition th_round (pf : platform) (t : thr) : mem thr :=
  m_use (th_blk t) ;;;
  t <~ th_maybe_open pf t ;;
  t <~ th_process t [] (th_qs t) ;;
  idle <~ m_flag ;;
  if negb idle then mret t
  else
    (if pf_gettime pf then m_assert (pf_reads pf (deadline_clock pf t)) else mret tt) ;;;
    m_use_opt (th_cvlock t) ;;; m_use_opt (option_map fst (th_cv t)) ;;;
    timeout <~ m_flag ;;
    if timeout then th_flush t else mret t.
Fixpoint queued (l : list (option qobj)) : nat :=
  match l with [] => 0 | None :: r => queued r | Some q :: r => length (q_items q) + queued r end.
Fixpoint th_drain (n : nat) (t : thr) : mem thr :=
  match n with O => mret t | S n => t <~ th_process t [] (th_qs t) ;; th_drain n t end.
Fixpoint th_rounds (pf : platform) (n : nat) (t : thr) : mem thr :=
  match n with O => mret t | S n => t <~ th_round pf t ;; th_rounds pf n t end.
(** The end of the thread (iothr.c:607-612): rounds that began before the request
    was seen, then everything queued, flush, close. *)
Definition th_finish (pf : platform) (t : thr) : mem thr :=
  n <~ m_choose ;; t <~ th_rounds pf n t ;;
  m_use (th_blk t) ;;; t <~ th_drain (queued (th_qs t)) t ;; t <~ th_flush t ;; th_close t.

(** ** Creation and destruction *)
(** iothr.c:362-385; the pointer becomes NULL. *)
Definition th_destroy (pf : platform) (t : thr) : mem unit :=
  m_use (th_blk t) ;;;
  m_use_opt (option_map fst (th_cv t)) ;;;
  t <~ (match th_run t with None => m_undef | Some _ => th_finish pf t end) ;;
  m_take_opt (th_run t) ;;;
  m_take_opt (option_map fst (th_cv t)) ;;; m_take_opt (th_cvlock t) ;;; m_take_opt (th_glock t) ;;;
  (match th_writer t with None => mret tt | Some w => mw_destroy w end) ;;;
  (match th_qs t with [] => mret tt | _ => m_use_opt (th_arr t) end) ;;; free_queues (th_qs t) ;;; m_free_opt (th_arr t) ;;;
  m_free_opt (th_iov t) ;;; m_free_opt (th_ents t) ;;;
  m_free (th_blk t).
(** iothr.c:232-336, for [n] queues of [size] entries, the queue model being
    single-producer or not. *)
Definition th_init (pf : platform) (spsc : bool) (n : nat) (size : N) (w : mwriter) : mem (option thr) :=
  let mutex := negb (spsc && pf_barriers pf) in
  b <~ m_alloc ;;
  match best_clocks pf with
  | None =>
      th_destroy pf (mk_th b K_real K_real None (repeat None n) None None [] false None None None None None) ;;; mret None
  | Some (g, p) =>
      arr <~ m_alloc ;;
      r <~ make_queues mutex size n ;;
      if negb (fst r) then
        th_destroy pf (mk_th b g p (Some arr) (snd r) None None [] false None None None None None) ;;; mret None
      else
        iov <~ m_alloc ;; ents <~ m_alloc ;;
        (if pf_gettime pf && pf_setclock pf then m_assert (pf_waits pf p) else mret tt) ;;;
        cv <~ m_alloc ;; l1 <~ m_alloc ;; l2 <~ m_alloc ;;
        m_use (mw_blk w) ;;;
        run <~ m_alloc ;;
        mret (Some (mk_th b g p (Some arr) (snd r) (Some iov) (Some ents) [] false
                          (Some (cv, if pf_gettime pf && pf_setclock pf then p else K_real)) (Some l1) (Some l2) (Some w) (Some run)))
  end.

(** ** The calls of the program *)
(** Taking a queue (387-400); submitting (421-446) a block with or without a free
    function to queue [i], the caller keeping it if it is refused; and, between
    calls, rounds of the thread. *)
Inductive tcall := TC_get_queue | TC_submit (i : nat) (with_free : bool) | TC_round.
Fixpoint put_entry (l : list (option qobj)) (i : nat) (e : entry) : list (option qobj) :=
  match l, i with
  | [], _ => []
  | Some q :: r, O => Some (mk_qo (q_blk q) (q_data q) (q_lock q) (q_items q ++ [e])) :: r
  | None :: r, O => None :: r
  | q :: r, S i => q :: put_entry r i e
  end.
(** The caller's block is released by the caller: at once if it was refused, some
    time later if it has no free function (here: at once, its contents being of
    no interest). *)
Definition th_submit (t : thr) (i : nat) (with_free : bool) : mem thr :=
  match nth_error (th_qs t) i with
  | Some (Some q) =>
      d <~ m_alloc ;;
      m_use (th_blk t) ;;; qo_use q ;;;
      ok <~ m_flag ;;
      if negb ok then m_free d ;;; mret t
      else
        m_use_opt (option_map fst (th_cv t)) ;;;
        if with_free then mret (with_qs t (put_entry (th_qs t) i (Some d)))
        else m_free d ;;; mret (with_qs t (put_entry (th_qs t) i None))
  | _ => mret t
  end.
Definition th_call (pf : platform) (t : thr) (c : tcall) : mem thr :=
  match c with
  | TC_get_queue => m_use (th_blk t) ;;; m_use_opt (th_glock t) ;;; mret t
  | TC_submit i f => th_submit t i f
  | TC_round => th_round pf t
  end.
Fixpoint th_calls (pf : platform) (t : thr) (cs : list tcall) : mem thr :=
  match cs with [] => mret t | c :: cs => t <~ th_call pf t c ;; th_calls pf t cs end.
(** The life of an I/O thread: whether it could be created. *)
Definition th_life (pf : platform) (spsc : bool) (n : nat) (size : N) (w : mwriter) (cs : list tcall) : mem bool :=
  t <~ th_init pf spsc n size w ;;
  match t with None => mret false | Some t => t <~ th_calls pf t cs ;; th_destroy pf t ;;; mret true end.

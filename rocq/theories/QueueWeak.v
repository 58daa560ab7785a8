(** Model of libmy/my_queue_mb.c on weakly ordered memory: the other processor
    that libmy/my_memory_barrier.h:10-14 supports besides x86-64 is ia64, where
    stores of one thread may reach memory in any order and loads may be performed
    in any order, except as the [mf] instructions and acquire loads forbid.  One
    producer thread, one consumer thread.
    Simplified: stores stay in a buffer from which any of them may go to memory next,
    even two to the same place in the wrong order (more than a processor would do). *)
From Verif Require Import Bytes Queue.
Local Open Scope N_scope.

(** What the machine guarantees.  [o_acq]: loads through MY_ACCESS_ONCE
    (libmy/my_queue_mb.c:37, a volatile access) are acquire loads, that is, later
    loads are not performed before them, which is how GCC compiles volatile loads
    for ia64.  [o_wmb]: smp_wmb() waits for the stores before it. *)
Record ordering := mk_ord { o_acq : bool; o_wmb : bool }.

(** Where the producer is in my_queue_mb_insert (my_queue_mb.c:103-121). *)
Inductive wpc :=
| W_idle
| W_tail (x : bytes) (head : N)                    (* line 108: about to read tail *)
| W_copy (x : bytes) (head : N) (k : nat)          (* lines 111-112: [k] bytes stored *)
| W_done.                                          (* line 114: second smp_wmb() *)

(** Where the consumer is in my_queue_mb_remove (my_queue_mb.c:123-140).  [got]: the
    bytes of the element loaded so far; a processor may load them before it knows
    that it needs them. *)
Inductive wcpc :=
| WC_idle
| WC_look (tail : N) (head : option N) (got : list (option byte))
| WC_take (tail : N) (got : list (option byte)).

Record wstate := mk_w {
  w_sz : nat; w_num : N;
  w_data : bytes; w_head : N; w_tail : N;
  w_todo : list bytes; w_pc : wpc; w_pbuf : list pstore;
  w_cpc : wcpc; w_cbuf : list N;
  w_oob : bool;
  w_log : list qev
}.

Definition w_upd_prod (s : wstate) (todo : list bytes) (pc : wpc) (buf : list pstore) (l : list qev) : wstate :=
  mk_w (w_sz s) (w_num s) (w_data s) (w_head s) (w_tail s) todo pc buf (w_cpc s) (w_cbuf s) (w_oob s) (l ++ w_log s).
Definition w_upd_cons (s : wstate) (pc : wcpc) (buf : list N) (oob : bool) (l : list qev) : wstate :=
  mk_w (w_sz s) (w_num s) (w_data s) (w_head s) (w_tail s) (w_todo s) (w_pc s) (w_pbuf s) pc buf (w_oob s || oob) (l ++ w_log s).

(** my_queue_mb.c:103-121, one step of the producer.  The stores of line 111 and 113
    are executed after line 108's load: they depend on the value it returned. *)
Definition w_prod (o : ordering) (s : wstate) : wstate :=
  match w_pc s with
  | W_idle =>
      match w_todo s with
      | [] => s
      | x :: todo => w_upd_prod s todo (W_tail x (last_head (w_pbuf s) (w_head s))) (w_pbuf s) []
      end
  | W_tail x head =>
      let space := q_space head (w_tail s) (w_num s) in
      if 1 <=? space then w_upd_prod s (w_todo s) (W_copy x head 0) (w_pbuf s) [E_accept (space - 1)]
      else w_upd_prod s (w_todo s) W_idle (w_pbuf s) [E_refuse space]
  | W_copy x head k =>
      if Nat.ltb k (w_sz s) then
        w_upd_prod s (w_todo s) (W_copy x head (S k))
          (w_pbuf s ++ [PS_byte (q_addr head (N.of_nat (w_sz s)) k) (nth k x x00)]) []
      else
        match w_pbuf s with
        | _ :: _ => if o_wmb o then s
                    else w_upd_prod s (w_todo s) W_done (w_pbuf s ++ [PS_head (q_next head (w_num s))]) [E_inserted x]
        | [] => w_upd_prod s (w_todo s) W_done [PS_head (q_next head (w_num s))] [E_inserted x]
        end
  | W_done =>
      match w_pbuf s with
      | [] => w_upd_prod s (w_todo s) W_idle [] []
      | _ => if o_wmb o then s else w_upd_prod s (w_todo s) W_idle (w_pbuf s) []
      end
  end.

Fixpoint drop_nth {A} (n : nat) (l : list A) : list A :=
  match l, n with [], _ => [] | _ :: r, O => r | a :: r, S n' => a :: drop_nth n' r end.

(** Any pending store of the producer reaches memory. *)
Definition w_pflush (s : wstate) (n : nat) : wstate :=
  match nth_error (w_pbuf s) n with
  | None => s
  | Some (PS_byte a b) =>
      mk_w (w_sz s) (w_num s) (put_byte a b (w_data s)) (w_head s) (w_tail s) (w_todo s) (w_pc s) (drop_nth n (w_pbuf s))
        (w_cpc s) (w_cbuf s) (w_oob s || Nat.leb (length (w_data s)) a) (w_log s)
  | Some (PS_head h) =>
      mk_w (w_sz s) (w_num s) (w_data s) h (w_tail s) (w_todo s) (w_pc s) (drop_nth n (w_pbuf s))
        (w_cpc s) (w_cbuf s) (w_oob s) (E_published :: w_log s)
  end.

Fixpoint all_some {A} (l : list (option A)) : option (list A) :=
  match l with
  | [] => Some []
  | Some a :: r => match all_some r with Some r' => Some (a :: r') | None => None end
  | None :: _ => None
  end.

(** my_queue_mb.c:126-139, one step of the consumer other than the loads of line 127
    and 131: the call begins (its own [tail] is known to it), the decision of line
    130, and lines 132-133 once every byte is there and its stores are in memory. *)
Definition w_cons (s : wstate) : wstate :=
  match w_cpc s with
  | WC_idle => w_upd_cons s (WC_look (last_tail (w_cbuf s) (w_tail s)) None (repeat None (w_sz s))) (w_cbuf s) false []
  | WC_look tail None got => s
  | WC_look tail (Some head) got =>
      let count := q_count head tail (w_num s) in
      if 1 <=? count then w_upd_cons s (WC_take tail got) (w_cbuf s) false [E_take (count - 1)]
      else w_upd_cons s WC_idle (w_cbuf s) false [E_empty count]
  | WC_take tail got =>
      match all_some got, w_cbuf s with
      | Some x, [] => w_upd_cons s WC_idle [q_next tail (w_num s)] false [E_removed x]
      | _, _ => s
      end
  end.

(** my_queue_mb.c:127, the load of [head]. *)
Definition w_chead (s : wstate) : wstate :=
  match w_cpc s with
  | WC_look tail None got => w_upd_cons s (WC_look tail (Some (w_head s)) got) (w_cbuf s) false [E_chead]
  | _ => s
  end.

(** my_queue_mb.c:131, the load of byte [k] of the element.  No barrier stands between
    lines 127 and 131. *)
Definition w_load (s : wstate) (tail : N) (k : nat) : option byte * bool :=
  let a := q_addr tail (N.of_nat (w_sz s)) k in (Some (nth a (w_data s) x00), Nat.leb (length (w_data s)) a).
Definition w_cdata (o : ordering) (s : wstate) (k : nat) : wstate :=
  if negb (Nat.ltb k (w_sz s)) then s
  else match w_cpc s with
  | WC_look tail None got =>
      if o_acq o then s else
      let '(v, oob) := w_load s tail k in w_upd_cons s (WC_look tail None (set_nth k v got)) (w_cbuf s) oob []
  | WC_look tail (Some head) got =>
      match nth k got None with
      | Some _ => s
      | None => let '(v, oob) := w_load s tail k in w_upd_cons s (WC_look tail (Some head) (set_nth k v got)) (w_cbuf s) oob []
      end
  | WC_take tail got =>
      match nth k got None with
      | Some _ => s
      | None => let '(v, oob) := w_load s tail k in w_upd_cons s (WC_take tail (set_nth k v got)) (w_cbuf s) oob []
      end
  | WC_idle => s
  end.

(** The consumer's pending store reaches memory. *)
Definition w_cflush (s : wstate) : wstate :=
  match w_cbuf s with
  | [] => s
  | t :: r =>
      mk_w (w_sz s) (w_num s) (w_data s) (w_head s) t (w_todo s) (w_pc s) (w_pbuf s)
        (w_cpc s) r (w_oob s) (E_freed :: w_log s)
  end.

(** A schedule picks what happens next. *)
Inductive wact := WA_prod | WA_pflush (n : nat) | WA_cons | WA_chead | WA_cdata (k : nat) | WA_cflush.
Definition w_step (o : ordering) (s : wstate) (a : wact) : wstate :=
  match a with
  | WA_prod => w_prod o s
  | WA_pflush n => w_pflush s n
  | WA_cons => w_cons s
  | WA_chead => w_chead s
  | WA_cdata k => w_cdata o s k
  | WA_cflush => w_cflush s
  end.
Definition w_run (o : ordering) (s : wstate) (sch : list wact) : wstate := fold_left (w_step o) sch s.

(** my_queue_mb.c:62-73. *)
Definition w_init (num : N) (sz : nat) (todo : list bytes) : wstate :=
  mk_w sz num (repeat x00 (N.to_nat num * sz)) 0 0 todo W_idle [] WC_idle [] false [].
Definition w_trace (s : wstate) : list qev := rev (w_log s).

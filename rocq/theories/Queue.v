(** Model of the bounded queues: libmy/my_queue_mb.c (memory barriers) and
    libmy/my_queue_mutex.c (mutex).  [unsigned] is 32 bits. *)
From Verif Require Import Bytes.
Local Open Scope N_scope.

Definition wrap32 (n : N) : N := N.modulo n (2 ^ 32).

(** libmy/my_queue_mb.c:64-66 and my_queue_mutex.c:68-70: the size test, with
    [num_elems] a 32-bit value. *)
Definition queue_init_ok (num : N) : bool :=
  negb ((num <? 2) || negb (N.land (wrap32 (num + 2 ^ 32 - 1)) num =? 0)).

(** my_queue_mb.c:91-95 and my_queue_mutex.c:111-115, [(tail - (head + 1)) & (size - 1)]. *)
Definition q_space (head tail size : N) : N :=
  N.land (wrap32 (tail + 2 ^ 32 - wrap32 (head + 1))) (wrap32 (size + 2 ^ 32 - 1)).

(** my_queue_mb.c:97-101 and my_queue_mutex.c:117-121, [(head - tail) & (size - 1)]. *)
Definition q_count (head tail size : N) : N :=
  N.land (wrap32 (head + 2 ^ 32 - tail)) (wrap32 (size + 2 ^ 32 - 1)).

(** [(i + 1) & (size - 1)]. *)
Definition q_next (i size : N) : N := N.land (wrap32 (i + 1)) (wrap32 (size + 2 ^ 32 - 1)).

(** [&q->data[i * q->sizeof_elem] + k]: unsigned product, then pointer arithmetic. *)
Definition q_addr (i sz : N) (k : nat) : nat := (N.to_nat (wrap32 (i * sz)) + k)%nat.

(** Byte store into an array. *)
Fixpoint put_byte (a : nat) (b : byte) (m : bytes) : bytes :=
  match m, a with
  | [], _ => []
  | _ :: r, O => b :: r
  | c :: r, S a' => c :: put_byte a' b r
  end.

(** ** Memory barrier queue on x86-TSO *)

(** One producer thread: what it has to insert, where it is in
    my_queue_mb_insert, and its store buffer (oldest first). *)
Inductive pstore := PS_byte (a : nat) (b : byte) | PS_head (h : N).
Inductive ppc :=
| P_idle
| P_tail (x : bytes) (head : N)                          (* line 108: about to read tail *)
| P_copy (x : bytes) (head space : N) (k : nat).         (* lines 111-113: [k] bytes copied *)
Record producer := mk_prod { p_todo : list bytes; p_pc : ppc; p_buf : list pstore }.

(** The consumer thread; [C_copy t count got]: lines 131-133, bytes copied so far. *)
Inductive cpc :=
| C_idle
| C_tail (head : N)                                      (* line 128: about to read tail *)
| C_copy (tail count : N) (got : bytes).
Record consumer := mk_cons { c_pc : cpc; c_buf : list N }.

(** What happens, in order.  [E_accept]/[E_refuse]: insert read the consumer's
    position and decided (with the value it will report); [E_inserted]: insert
    issued its store to [head]; [E_published]: that store reached memory;
    [E_chead]: remove read the producer's position; [E_take]/[E_empty]: remove
    decided; [E_removed]: remove issued its store to [tail]; [E_freed]: that store
    reached memory. *)
Inductive qev :=
| E_accept (space : N) | E_refuse (space : N) | E_inserted (x : bytes) | E_published
| E_chead | E_take (count : N) | E_empty (count : N) | E_removed (x : bytes) | E_freed.

Record qstate := mk_q {
  q_sz : nat; q_num : N;
  q_data : bytes; q_head : N; q_tail : N;
  q_prods : list producer; q_cons : consumer;
  q_oob : bool;                                          (* an access left the array *)
  q_log : list qev                                       (* newest first *)
}.

(** Loads see the thread's own pending stores. *)
Fixpoint last_head (buf : list pstore) (h : N) : N :=
  match buf with [] => h | PS_head h' :: r => last_head r h' | PS_byte _ _ :: r => last_head r h end.
Definition last_tail (buf : list N) (t : N) : N := last buf t.

Definition upd_log (s : qstate) (l : list qev) : qstate :=
  mk_q (q_sz s) (q_num s) (q_data s) (q_head s) (q_tail s) (q_prods s) (q_cons s) (q_oob s) (l ++ q_log s).
Fixpoint set_nth {A} (i : nat) (a : A) (l : list A) : list A :=
  match l, i with [], _ => [] | _ :: r, O => a :: r | b :: r, S i' => b :: set_nth i' a r end.
Definition upd_prod (s : qstate) (i : nat) (p : producer) : qstate :=
  mk_q (q_sz s) (q_num s) (q_data s) (q_head s) (q_tail s) (set_nth i p (q_prods s)) (q_cons s) (q_oob s) (q_log s).
Definition upd_cons (s : qstate) (c : consumer) : qstate :=
  mk_q (q_sz s) (q_num s) (q_data s) (q_head s) (q_tail s) (q_prods s) c (q_oob s) (q_log s).

(** One memory access of producer [i] in my_queue_mb_insert (lines 103-121).
    smp_wmb() is a compiler barrier: TSO keeps stores in order. *)
Definition prod_step (s : qstate) (i : nat) : qstate :=
  match nth_error (q_prods s) i with
  | None => s
  | Some p =>
      match p_pc p with
      | P_idle =>
          match p_todo p with
          | [] => s
          | x :: todo => upd_prod s i (mk_prod todo (P_tail x (last_head (p_buf p) (q_head s))) (p_buf p))
          end
      | P_tail x head =>
          let space := q_space head (q_tail s) (q_num s) in
          if 1 <=? space then
            upd_log (upd_prod s i (mk_prod (p_todo p) (P_copy x head space 0) (p_buf p))) [E_accept (space - 1)]
          else
            upd_log (upd_prod s i (mk_prod (p_todo p) P_idle (p_buf p))) [E_refuse space]
      | P_copy x head space k =>
          if Nat.ltb k (q_sz s) then
            upd_prod s i (mk_prod (p_todo p) (P_copy x head space (S k))
                            (p_buf p ++ [PS_byte (q_addr head (N.of_nat (q_sz s)) k) (nth k x x00)]))
          else
            upd_log (upd_prod s i (mk_prod (p_todo p) P_idle (p_buf p ++ [PS_head (q_next head (q_num s))])))
              [E_inserted x]
      end
  end.

(** The oldest pending store of producer [i] reaches memory. *)
Definition prod_flush (s : qstate) (i : nat) : qstate :=
  match nth_error (q_prods s) i with
  | None => s
  | Some p =>
      match p_buf p with
      | [] => s
      | PS_byte a b :: r =>
          let s := upd_prod s i (mk_prod (p_todo p) (p_pc p) r) in
          mk_q (q_sz s) (q_num s) (put_byte a b (q_data s)) (q_head s) (q_tail s) (q_prods s) (q_cons s)
            (q_oob s || Nat.leb (length (q_data s)) a) (q_log s)
      | PS_head h :: r =>
          let s := upd_prod s i (mk_prod (p_todo p) (p_pc p) r) in
          upd_log (mk_q (q_sz s) (q_num s) (q_data s) h (q_tail s) (q_prods s) (q_cons s) (q_oob s) (q_log s))
            [E_published]
      end
  end.

(** One memory access of my_queue_mb_remove (lines 123-140).  smp_mb() waits for
    the consumer's own stores. *)
Definition cons_step (s : qstate) : qstate :=
  let c := q_cons s in
  match c_pc c with
  | C_idle => upd_log (upd_cons s (mk_cons (C_tail (q_head s)) (c_buf c))) [E_chead]
  | C_tail head =>
      let tail := last_tail (c_buf c) (q_tail s) in
      let count := q_count head tail (q_num s) in
      if 1 <=? count then
        upd_log (upd_cons s (mk_cons (C_copy tail count []) (c_buf c))) [E_take (count - 1)]
      else
        upd_log (upd_cons s (mk_cons C_idle (c_buf c))) [E_empty count]
  | C_copy tail count got =>
      if Nat.ltb (length got) (q_sz s) then
        let a := q_addr tail (N.of_nat (q_sz s)) (length got) in
        let s := upd_cons s (mk_cons (C_copy tail count (got ++ [nth a (q_data s) x00])) (c_buf c)) in
        mk_q (q_sz s) (q_num s) (q_data s) (q_head s) (q_tail s) (q_prods s) (q_cons s)
          (q_oob s || Nat.leb (length (q_data s)) a) (q_log s)
      else
        match c_buf c with
        | [] => upd_log (upd_cons s (mk_cons C_idle [q_next tail (q_num s)])) [E_removed got]
        | _ => s
        end
  end.

(** The oldest pending store of the consumer reaches memory. *)
Definition cons_flush (s : qstate) : qstate :=
  let c := q_cons s in
  match c_buf c with
  | [] => s
  | t :: r =>
      let s := upd_cons s (mk_cons (c_pc c) r) in
      upd_log (mk_q (q_sz s) (q_num s) (q_data s) (q_head s) t (q_prods s) (q_cons s) (q_oob s) (q_log s)) [E_freed]
  end.

(** A schedule picks who moves. *)
Inductive qact := A_prod (i : nat) | A_pflush (i : nat) | A_cons | A_cflush.
Definition q_step (s : qstate) (a : qact) : qstate :=
  match a with
  | A_prod i => prod_step s i
  | A_pflush i => prod_flush s i
  | A_cons => cons_step s
  | A_cflush => cons_flush s
  end.
Definition q_run (s : qstate) (sch : list qact) : qstate := fold_left q_step sch s.

(** my_queue_mb.c:62-73: calloc'ed array and indices; each producer thread with
    the elements it will insert. *)
Definition q_init (num : N) (sz : nat) (todo : list (list bytes)) : qstate :=
  mk_q sz num (repeat x00 (N.to_nat num * sz)) 0 0
    (map (fun t => mk_prod t P_idle []) todo) (mk_cons C_idle []) false [].
Definition q_trace (s : qstate) : list qev := rev (q_log s).

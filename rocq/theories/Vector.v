(** Model of libmy/vector.h (VECTOR_GENERATE), the growable arrays behind the
    content type lists and the reader's frame buffer.  Elements are opaque; [sz] is
    sizeof(type).  Cells of an allocation are [option A], [None] meaning never
    written.  Sizes are size_t: products and sums wrap at 2^64. *)
From Verif Require Import Bytes.
Local Open Scope N_scope.

Local Notation "x <~ p ;; q" := (obind p (fun x => q)) (at level 100, p at next level, right associativity).

Definition wrap64 (n : N) : N := N.modulo n (2 ^ 64).

(** vector.h:30-34.  [v_v] are the cells of the allocation [_v] points to and
    [v_blk] is its number: every call of the allocator returns a new one and
    frees the old.  [_p] is a pointer: the number of the allocation it points
    into, and an index. *)
Record vec (A : Type) := mk_vec { v_v : list (option A); v_blk : nat; v_p : nat * N; v_n : N; v_alloced : N; v_hint : N }.
Arguments mk_vec {A}. Arguments v_v {A}. Arguments v_blk {A}. Arguments v_p {A}. Arguments v_n {A}. Arguments v_alloced {A}. Arguments v_hint {A}.

(** libmy/my_alloc.h my_malloc/my_realloc: abort when the allocator fails; an
    allocator never satisfies a request above PTRDIFF_MAX.  [nbytes] bytes hold
    [nbytes / sz] whole elements; realloc keeps what fits. *)
Definition vec_alloc {A} (sz : N) (old : list (option A)) (nbytes : N) : outc (list (option A)) :=
  if 2 ^ 63 - 1 <? nbytes then Err FAbort
  else
    let k := N.to_nat (nbytes / sz) in
    Ok (firstn k old ++ repeat None (k - length old)%nat).

(** vector.h:36-46 and 48-56 (hint is an [unsigned]). *)
Definition vec_init {A} (sz hint : N) : outc (vec A) :=
  let hint := if hint =? 0 then 1 else hint in
  v <~ vec_alloc sz [] (wrap64 (hint * sz)) ;;
  Ok (mk_vec v 0 (0%nat, 0) 0 hint hint).

(** vector.h:58-68.  Returns the old array and its element count. *)
Definition vec_detach {A} (sz : N) (x : vec A) : outc (list (option A) * N * vec A) :=
  v <~ vec_alloc sz [] (wrap64 (v_hint x * sz)) ;;
  let b := S (v_blk x) in
  Ok (v_v x, v_n x, mk_vec v b (b, 0) 0 (v_hint x) (v_hint x)).

(** The growing loops of vector.h:79-90 and 92-104: [more] is the loop test. *)
Fixpoint vec_grow {A} (fuel : nat) (sz : N) (more : vec A -> bool) (x : vec A) : outc (vec A) :=
  if more x then
    match fuel with
    | O => Err FFuel
    | S f =>
        let a := wrap64 (v_alloced x * 2) in
        v <~ vec_alloc sz (v_v x) (wrap64 (a * sz)) ;;
        let b := S (v_blk x) in
        vec_grow f sz more (mk_vec v b (b, v_n x) (v_n x) a (v_hint x))
    end
  else Ok x.

(** size_t subtraction. *)
Definition sub64 (a b : N) : N := wrap64 (a + 2 ^ 64 - b).

(** vector.h:79-90. *)
Definition vec_reserve {A} (sz : N) (x : vec A) (k : N) : outc (vec A) :=
  vec_grow 64 sz (fun x => sub64 (v_alloced x) (v_n x) <? k) x.

(** Stores [l] from index [i] on; undefined outside the allocation. *)
Definition vec_put {A} (x : vec A) (i : N) (l : list A) : outc (list (option A)) :=
  let k := N.to_nat i in
  if lenN (v_v x) <? i + lenN l then Err (FUb ub_store_oob)
  else Ok (firstn k (v_v x) ++ map Some l ++ skipn (k + length l)%nat (v_v x)).

(** vector.h:92-104. *)
Definition vec_add {A} (sz : N) (x : vec A) (e : A) : outc (vec A) :=
  x <~ vec_grow 64 sz (fun x => v_alloced x <? wrap64 (v_n x + 1)) x ;;
  v <~ vec_put x (v_n x) [e] ;;
  let n := wrap64 (v_n x + 1) in
  Ok (mk_vec v (v_blk x) (v_blk x, n) n (v_alloced x) (v_hint x)).

(** vector.h:106-114; [l] are the elements at [elems].  vector.h:116-121 (extend by
    a different vector) is this with that vector's elements. *)
Definition vec_append {A} (sz : N) (x : vec A) (l : list A) : outc (vec A) :=
  x <~ vec_reserve sz x (lenN l) ;;
  v <~ vec_put x (v_n x) l ;;
  let n := wrap64 (v_n x + lenN l) in
  Ok (mk_vec v (v_blk x) (v_blk x, n) n (v_alloced x) (v_hint x)).

(** vector.h:123-134. *)
Definition vec_reset {A} (sz : N) (x : vec A) : outc (vec A) :=
  if v_hint x <? v_alloced x then
    v <~ vec_alloc sz (v_v x) (wrap64 (v_hint x * sz)) ;;
    let b := S (v_blk x) in
    Ok (mk_vec v b (b, 0) 0 (v_hint x) (v_hint x))
  else Ok (mk_vec (v_v x) (v_blk x) (v_blk x, 0) 0 (v_alloced x) (v_hint x)).

(** vector.h:136-144. *)
Definition vec_clip {A} (x : vec A) (k : N) : vec A :=
  if k <? v_n x then mk_vec (v_v x) (v_blk x) (v_blk x, k) k (v_alloced x) (v_hint x) else x.

(** vector.h:146-151, 153-157. *)
Definition vec_size {A} (x : vec A) : N := v_n x.
Definition vec_bytes {A} (sz : N) (x : vec A) : N := wrap64 (v_n x * sz).

(** Load of one cell. *)
Definition vec_load {A} (x : vec A) (i : N) : outc A :=
  match nth_error (v_v x) (N.to_nat i) with
  | None => Err (FUb ub_load_oob)
  | Some None => Err (FUb ub_uninit)
  | Some (Some a) => Ok a
  end.

(** vector.h:159-165. *)
Definition vec_value {A} (x : vec A) (i : N) : outc A :=
  if i <? v_n x then vec_load x i else Err FAbort.

(** vector.h:181-187. *)
Definition vec_advance {A} (x : vec A) (k : N) : outc (vec A) :=
  if k <=? sub64 (v_alloced x) (v_n x) then
    let n := wrap64 (v_n x + k) in
    Ok (mk_vec (v_v x) (v_blk x) (v_blk x, n) n (v_alloced x) (v_hint x))
  else Err FAbort.

(** What callers do through vector.h:167-172 ([_ptr]): store or load elements
    there (fstrm/reader.c:316-323).  Undefined if the pointer is into a freed
    allocation. *)
Definition vec_live {A} (x : vec A) (b : nat) : outc unit :=
  if Nat.eqb b (v_blk x) then Ok tt else Err (FUb ub_uaf).
Definition vec_store {A} (x : vec A) (l : list A) : outc (vec A) :=
  _ <~ vec_live x (fst (v_p x)) ;;
  v <~ vec_put x (snd (v_p x)) l ;;
  Ok (mk_vec v (v_blk x) (v_p x) (v_n x) (v_alloced x) (v_hint x)).
Fixpoint vec_loads {A} (x : vec A) (i : N) (k : nat) : outc (list A) :=
  match k with
  | O => Ok []
  | S k' => a <~ vec_load x i ;; l <~ vec_loads x (i + 1) k' ;; Ok (a :: l)
  end.
Definition vec_peek {A} (x : vec A) (k : nat) : outc (list A) :=
  _ <~ vec_live x (fst (v_p x)) ;; vec_loads x (snd (v_p x)) k.

(** vector.h:116-121 with both arguments the same vector: the source pointer is
    taken before [_append] reserves room. *)
Definition vec_extend_self {A} (sz : N) (x : vec A) : outc (vec A) :=
  let src := v_blk x in
  let k := v_n x in
  x <~ vec_reserve sz x k ;;
  _ <~ vec_live x src ;;
  l <~ vec_loads x 0 (N.to_nat k) ;;
  v <~ vec_put x (v_n x) l ;;
  let n := wrap64 (v_n x + k) in
  Ok (mk_vec v (v_blk x) (v_blk x, n) n (v_alloced x) (v_hint x)).

(** A use of the interface and what it returns. *)
Inductive vop (A : Type) :=
| V_reserve (k : N) | V_add (e : A) | V_append (l : list A) | V_reset | V_clip (k : N)
| V_advance (k : N) | V_store (l : list A) | V_peek (k : nat) | V_size | V_value (i : N) | V_detach.
Arguments V_reserve {A}. Arguments V_add {A}. Arguments V_append {A}. Arguments V_reset {A}. Arguments V_clip {A}.
Arguments V_advance {A}. Arguments V_store {A}. Arguments V_peek {A}. Arguments V_size {A}. Arguments V_value {A}. Arguments V_detach {A}.

Inductive vret (A : Type) := VR_unit | VR_n (n : N) | VR_elem (a : A) | VR_list (l : list A).
Arguments VR_unit {A}. Arguments VR_n {A}. Arguments VR_elem {A}. Arguments VR_list {A}.

(** A detached array is read by its new owner. *)
Definition vec_op {A} (sz : N) (x : vec A) (o : vop A) : outc (vec A * vret A) :=
  match o with
  | V_reserve k => x <~ vec_reserve sz x k ;; Ok (x, VR_unit)
  | V_add e => x <~ vec_add sz x e ;; Ok (x, VR_unit)
  | V_append l => x <~ vec_append sz x l ;; Ok (x, VR_unit)
  | V_reset => x <~ vec_reset sz x ;; Ok (x, VR_unit)
  | V_clip k => Ok (vec_clip x k, VR_unit)
  | V_advance k => x <~ vec_advance x k ;; Ok (x, VR_unit)
  | V_store l => x <~ vec_store x l ;; Ok (x, VR_unit)
  | V_peek k => l <~ vec_peek x k ;; Ok (x, VR_list l)
  | V_size => Ok (x, VR_n (vec_size x))
  | V_value i => a <~ vec_value x i ;; Ok (x, VR_elem a)
  | V_detach =>
      d <~ vec_detach sz x ;;
      let '(v, n, x') := d in
      l <~ vec_loads (mk_vec v 0 (0%nat, 0) n n 0) 0 (N.to_nat n) ;;
      Ok (x', VR_list l)
  end.

Fixpoint vec_ops {A} (sz : N) (x : vec A) (os : list (vop A)) : outc (vec A * list (vret A)) :=
  match os with
  | [] => Ok (x, [])
  | o :: os' =>
      r <~ vec_op sz x o ;;
      rs <~ vec_ops sz (fst r) os' ;;
      Ok (fst rs, snd r :: snd rs)
  end.

Definition vec_run {A} (sz hint : N) (os : list (vop A)) : outc (list (vret A)) :=
  x <~ vec_init sz hint ;;
  r <~ vec_ops sz x os ;;
  Ok (snd r).

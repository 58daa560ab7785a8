(** Model of the memory management of the library: which blocks each call
    allocates, uses and frees (fstrm/control.c, rdwr.c, reader.c, writer.c,
    file.c, unix_writer.c, tcp_writer.c, libmy/vector.h, my_alloc.h).

    Blocks are numbers; a block is never given out twice, and realloc always
    moves, so a stale pointer is always noticed.  Every decision that depends on
    data (what the transport answers, what a received frame contains, how long a
    buffer must be) is an arbitrary number taken from a script, so one model run
    stands for every data with the same decisions, and quantifying over scripts
    covers all data.  A failing allocator aborts the process (my_alloc.h:9-38) and
    is left out, as is malloc(0) = NULL, which would abort too.  FILE objects and
    descriptors belong to the transports (C11, C56). *)
From Verif Require Import Bytes.
Local Open Scope nat_scope.

Definition blk := nat.
Record heap := mk_heap { h_next : nat; h_live : list blk }.

Inductive mout (A : Type) := MOk (a : A) (o : list nat) (h : heap) | MUb (u : ub_reason).
Arguments MOk {A}. Arguments MUb {A}.
Definition mem (A : Type) := list nat -> heap -> mout A.
Definition mret {A} (a : A) : mem A := fun o h => MOk a o h.
Definition mbind {A B} (p : mem A) (f : A -> mem B) : mem B :=
  fun o h => match p o h with MOk a o' h' => f a o' h' | MUb u => MUb u end.
Local Notation "x <~ p ;; q" := (mbind p (fun x => q)) (at level 100, p at next level, right associativity).
Local Notation "p ;;; q" := (mbind p (fun _ => q)) (at level 100, right associativity).

Fixpoint inb (b : blk) (l : list blk) : bool :=
  match l with [] => false | x :: r => Nat.eqb x b || inb b r end.
Fixpoint take_out (b : blk) (l : list blk) : list blk :=
  match l with [] => [] | x :: r => if Nat.eqb x b then r else x :: take_out b r end.

(** libmy/my_alloc.h:8-38 my_calloc, my_malloc, my_strdup. *)
Definition m_alloc : mem blk := fun o h => MOk (h_next h) o (mk_heap (S (h_next h)) (h_next h :: h_live h)).
(** libmy/my_alloc.h:40 my_free of a pointer that is not NULL. *)
Definition m_free (b : blk) : mem unit := fun o h =>
  if inb b (h_live h) then MOk tt o (mk_heap (h_next h) (take_out b (h_live h))) else MUb ub_uaf.
Definition m_free_opt (p : option blk) : mem unit := match p with Some b => m_free b | None => mret tt end.
(** A dereference. *)
Definition m_use (b : blk) : mem unit := fun o h => if inb b (h_live h) then MOk tt o h else MUb ub_uaf.
Definition m_realloc (b : blk) : mem blk := m_free b ;;; m_alloc.
(** A decision that depends on data. *)
Definition m_choose : mem nat := fun o h => match o with [] => MOk 0 [] h | x :: r => MOk x r h end.
Definition m_flag : mem bool := x <~ m_choose ;; mret (negb (Nat.eqb x 0)).

(** ** libmy/vector.h: fs_bufvec (hint 1 everywhere) and ubuf *)
Record bufvec := mk_bv { bv_blk : blk; bv_v : blk; bv_alloced : nat; bv_items : list blk }.
(** vector.h:36-46. *)
Definition bv_init : mem bufvec := b <~ m_alloc ;; v <~ m_alloc ;; mret (mk_bv b v 1 []).
(** vector.h:89-101 (the capacity is at least the size, so one doubling is enough, see C53). *)
Definition bv_add (x : bufvec) (d : blk) : mem bufvec :=
  m_use (bv_blk x) ;;;
  v <~ (if bv_alloced x <? length (bv_items x) + 1 then m_realloc (bv_v x) else mret (bv_v x)) ;;
  m_use v ;;;
  mret (mk_bv (bv_blk x) v (if bv_alloced x <? length (bv_items x) + 1 then bv_alloced x * 2 else bv_alloced x) (bv_items x ++ [d])).
(** vector.h:118-128. *)
Definition bv_reset (x : bufvec) : mem bufvec :=
  m_use (bv_blk x) ;;;
  v <~ (if 1 <? bv_alloced x then m_realloc (bv_v x) else mret (bv_v x)) ;;
  mret (mk_bv (bv_blk x) v (if 1 <? bv_alloced x then 1 else bv_alloced x) []).
(** vector.h:69-77. *)
Definition bv_destroy (x : bufvec) : mem unit := m_use (bv_blk x) ;;; m_free (bv_v x) ;;; m_free (bv_blk x).
(** The loops that free the data of all elements (control.c:84-87, reader.c:72-75,
    168-171, writer.c:64-67, 139-142). *)
Fixpoint free_each (x : bufvec) (l : list blk) : mem unit :=
  match l with
  | [] => mret tt
  | d :: r => m_use (bv_blk x) ;;; m_use (bv_v x) ;;; m_free d ;;; free_each x r
  end.
Definition bv_free_items (x : bufvec) : mem unit := free_each x (bv_items x).
(** Reading elements of the array and their data. *)
Fixpoint use_each (x : bufvec) (l : list blk) : mem unit :=
  match l with
  | [] => mret tt
  | d :: r => m_use (bv_blk x) ;;; m_use (bv_v x) ;;; m_use d ;;; use_each x r
  end.
Definition bv_read (x : bufvec) : mem unit := m_use (bv_blk x) ;;; use_each x (bv_items x).

(** The reader's frame buffer (libmy/ubuf.h:35). *)
Record ubuf := mk_ub { ub_blk : blk; ub_v : blk }.
Definition ub_init : mem ubuf := b <~ m_alloc ;; v <~ m_alloc ;; mret (mk_ub b v).
(** vector.h:78-87, any number of doublings. *)
Fixpoint ub_grow (n : nat) (v : blk) : mem blk := match n with O => mret v | S n => w <~ m_realloc v ;; ub_grow n w end.
Definition ub_reserve (x : ubuf) : mem ubuf :=
  m_use (ub_blk x) ;;; n <~ m_choose ;; v <~ ub_grow n (ub_v x) ;; mret (mk_ub (ub_blk x) v).
Definition ub_destroy (x : ubuf) : mem unit := m_use (ub_blk x) ;;; m_free (ub_v x) ;;; m_free (ub_blk x).

(** ** fstrm/control.c *)
Record cobj := mk_co { c_blk : blk; c_vec : bufvec }.
(** control.c:61-68. *)
Definition co_init : mem cobj := b <~ m_alloc ;; v <~ bv_init ;; mret (mk_co b v).
(** control.c:80-90. *)
Definition co_reset (c : cobj) : mem cobj :=
  m_use (c_blk c) ;;; bv_free_items (c_vec c) ;;; v <~ bv_reset (c_vec c) ;; mret (mk_co (c_blk c) v).
(** control.c:70-78. *)
Definition co_destroy (c : option cobj) : mem unit :=
  match c with
  | None => mret tt
  | Some c => c <~ co_reset c ;; bv_destroy (c_vec c) ;;; m_free (c_blk c)
  end.
(** control.c:164-176. *)
Definition co_add (c : cobj) : mem cobj :=
  m_use (c_blk c) ;;; d <~ m_alloc ;; m_use d ;;; v <~ bv_add (c_vec c) d ;; mret (mk_co (c_blk c) v).
(** The fields of a frame (control.c:286-329): each is stored, or rejected before
    (0) or after (1) its copy was allocated. *)
Fixpoint co_fields (n : nat) (c : cobj) : mem (bool * cobj) :=
  match n with
  | O => ok <~ m_flag ;; mret (ok, c)
  | S n =>
      x <~ m_choose ;;
      match x with
      | 0 => mret (false, c)
      | 1 => d <~ m_alloc ;; m_use d ;;; m_free d ;;; mret (false, c)
      | _ => c <~ co_add c ;; co_fields n c
      end
  end.
(** control.c:236-351; the result: whether the frame was accepted. *)
Definition co_decode (c : cobj) : mem (bool * cobj) :=
  c <~ co_reset c ;; n <~ m_choose ;; co_fields n c.
(** Reading a frame object: encoding, matching, accessors (control.c:92-162, 178-234,
    353-495). *)
Definition co_read (c : cobj) : mem unit := m_use (c_blk c) ;;; bv_read (c_vec c).

(** ** Options *)
(** fstrm_reader_options (reader.c:50-103) and fstrm_writer_options
    (writer.c:36-91). *)
Record oobj := mk_oo { o_blk : blk; o_vec : option bufvec }.
Definition oo_init : mem oobj := b <~ m_alloc ;; mret (mk_oo b None).
(** reader.c:82-103, writer.c:74-91; [ok]: the length is allowed. *)
Definition oo_add (x : oobj) (ok : bool) : mem oobj :=
  if negb ok then mret x
  else
    m_use (o_blk x) ;;;
    v <~ (match o_vec x with Some v => mret v | None => bv_init end) ;;
    d <~ m_alloc ;; m_use d ;;; v <~ bv_add v d ;; mret (mk_oo (o_blk x) (Some v)).
(** reader.c:67-80, writer.c:59-72. *)
Definition oo_destroy (x : oobj) : mem unit :=
  m_use (o_blk x) ;;;
  (match o_vec x with Some v => bv_free_items v ;;; bv_destroy v | None => mret tt end) ;;;
  m_free (o_blk x).

(** fstrm_file_options (file.c:37-59), fstrm_unix_writer_options
    (unix_writer.c:43-66), fstrm_tcp_writer_options (tcp_writer.c:46-80): the
    first two have one text. *)
Record pobj := mk_po { p_blk : blk; p_text : option blk; p_port : option blk }.
Definition po_init : mem pobj := b <~ m_alloc ;; mret (mk_po b None None).
Definition po_set (x : pobj) (second given : bool) : mem pobj :=
  m_use (p_blk x) ;;;
  m_free_opt (if second then p_port x else p_text x) ;;;
  t <~ (if given then b <~ m_alloc ;; mret (Some b) else mret None) ;;
  mret (if second then mk_po (p_blk x) (p_text x) t else mk_po (p_blk x) t (p_port x)).
Definition po_destroy (x : pobj) : mem unit :=
  m_use (p_blk x) ;;; m_free_opt (p_text x) ;;; m_free_opt (p_port x) ;;; m_free (p_blk x).

(** ** Transports *)
(** The object of a transport: fstrm__file with its path, a socket writer, an
    object of the user freed by the destroy method. *)
Inductive tobj := T_file (f path : blk) | T_sock (w : blk) | T_user (u : option blk).
Record robj := mk_ro { rw_blk : blk; rw_obj : tobj; rw_read : bool; rw_write : bool }.
(** rdwr.c:27-34 after the allocation of the object; rdwr.c:118-151. *)
Definition ro_user (has_obj rd wr : bool) : mem robj :=
  u <~ (if has_obj then b <~ m_alloc ;; mret (Some b) else mret None) ;;
  b <~ m_alloc ;; mret (mk_ro b (T_user u) rd wr).
(** rdwr.c:36-46 with file.c:121-128, unix_writer.c:192-198, tcp_writer.c:206-212. *)
Definition ro_destroy (x : robj) : mem unit :=
  m_use (rw_blk x) ;;;
  (match rw_obj x with
   | T_file f path => m_use f ;;; m_free path ;;; m_free f
   | T_sock w => m_free w
   | T_user u => m_free_opt u
   end) ;;;
  m_free (rw_blk x).
(** A call of a method of the transport; the result: it succeeded. *)
Definition ro_call (x : robj) : mem bool :=
  m_use (rw_blk x) ;;;
  (match rw_obj x with
   | T_file f path => m_use f ;;; m_use path
   | T_sock w => m_use w
   | T_user (Some u) => m_use u
   | T_user None => mret tt
   end) ;;;
  m_flag.
(** file.c:130-150; NULL without a path. *)
Definition ro_file (x : pobj) (rd : bool) : mem (option robj) :=
  m_use (p_blk x) ;;;
  match p_text x with
  | None => mret None
  | Some t => f <~ m_alloc ;; m_use t ;;; p <~ m_alloc ;; b <~ m_alloc ;; mret (Some (mk_ro b (T_file f p) rd (negb rd)))
  end.
(** unix_writer.c:200-225: NULL without a path, or if it is too long. *)
Definition ro_unix (x : pobj) : mem (option robj) :=
  m_use (p_blk x) ;;;
  match p_text x with
  | None => mret None
  | Some t => m_use t ;;; ok <~ m_flag ;;
      if ok then w <~ m_alloc ;; m_use t ;;; b <~ m_alloc ;; mret (Some (mk_ro b (T_sock w) true true)) else mret None
  end.
(** tcp_writer.c:258-286: NULL without address or port; the object is freed again
    if these do not parse. *)
Definition ro_tcp (x : pobj) : mem (option robj) :=
  m_use (p_blk x) ;;;
  match p_text x, p_port x with
  | Some t, Some q =>
      w <~ m_alloc ;; m_use t ;;; m_use q ;;; ok <~ m_flag ;;
      if ok then b <~ m_alloc ;; mret (Some (mk_ro b (T_sock w) true true)) else m_free w ;;; mret None
  | _, _ => mret None
  end.

(** rdwr.c:153-204 [fstrm__rdwr_read_control_frame] into [c]: a read fails or the
    length is too large (0), or the frame is decoded. *)
Definition read_frame (x : robj) (c : cobj) : mem (bool * cobj) :=
  ok <~ ro_call x ;;
  if negb ok then mret (false, c) else co_decode c.
(** rdwr.c:206-226. *)
Definition read_ctl (x : robj) (c : option cobj) : mem (bool * cobj) :=
  c <~ (match c with Some c => mret c | None => co_init end) ;;
  rc <~ read_frame x c ;;
  let (ok, c) := rc in
  if negb ok then mret (false, c) else m_use (c_blk c) ;;; wanted <~ m_flag ;; mret (wanted, c).
(** rdwr.c:228-253. *)
Definition write_frame (x : robj) (c : cobj) : mem bool :=
  co_read c ;;; ok <~ m_flag ;; if negb ok then mret false else ro_call x.
(** rdwr.c:255-278; never called with a content type. *)
Definition write_ctl (x : robj) : mem bool :=
  c <~ co_init ;; ok <~ write_frame x c ;; co_destroy (Some c) ;;; mret ok.
(** "reset or allocate" (reader.c:221-225, writer.c:156-160, 206-210, 239-243). *)
Definition fresh (c : option cobj) : mem cobj := match c with Some c => co_reset c | None => co_init end.
(** Matching the types in [v] against a frame (reader.c:188-205, writer.c:182-202). *)
Definition match_ctl (v : bufvec) (c : cobj) : mem bool := bv_read v ;;; co_read c ;;; m_flag.
(** Adding some of [l], elements of [v], to a frame. *)
Fixpoint add_some (v : bufvec) (l : list blk) (c : cobj) : mem cobj :=
  match l with
  | [] => mret c
  | d :: r =>
      m_use (bv_blk v) ;;; m_use (bv_v v) ;;; m_use d ;;; yes <~ m_flag ;;
      c <~ (if yes then co_add c else mret c) ;; add_some v r c
  end.
(** Copying the types of an options object (reader.c:132-144, writer.c:106-118). *)
Fixpoint copy_each (v : bufvec) (l : list blk) (to : bufvec) : mem bufvec :=
  match l with
  | [] => mret to
  | d :: r =>
      m_use (bv_blk v) ;;; m_use (bv_v v) ;;; m_use d ;;;
      d' <~ m_alloc ;; to <~ bv_add to d' ;; copy_each v r to
  end.
Definition copy_types (o : option oobj) (to : bufvec) : mem bufvec :=
  match o with
  | None => mret to
  | Some o => m_use (o_blk o) ;;; match o_vec o with None => mret to | Some v => copy_each v (bv_items v) to end
  end.

(** ** fstrm/reader.c *)
Inductive rst := RS_opening | RS_opened | RS_closing | RS_closed | RS_failed.
Record mreader := mk_mr {
  mr_blk : blk; mr_state : rst; mr_vec : bufvec; mr_buf : ubuf; mr_rdwr : robj;
  mr_start : option cobj; mr_stop : option cobj; mr_ready : option cobj; mr_accept : option cobj; mr_tmp : option cobj }.

(** reader.c:115-149; NULL if the transport cannot read. *)
Definition mr_init (o : option oobj) (x : robj) : mem (option mreader) :=
  m_use (rw_blk x) ;;;
  if negb (rw_read x) then mret None
  else
    b <~ m_alloc ;; v <~ bv_init ;; u <~ ub_init ;; v <~ copy_types o v ;;
    mret (Some (mk_mr b RS_opening v u x None None None None None)).
Definition mr_set (r : mreader) (s : rst) : mreader :=
  mk_mr (mr_blk r) s (mr_vec r) (mr_buf r) (mr_rdwr r) (mr_start r) (mr_stop r) (mr_ready r) (mr_accept r) (mr_tmp r).
(** reader.c:178-209. *)
Definition mr_open_uni (r : mreader) : mem (bool * mreader) :=
  oc <~ read_ctl (mr_rdwr r) (mr_start r) ;;
  let (ok, c) := oc in
  let r := mk_mr (mr_blk r) (mr_state r) (mr_vec r) (mr_buf r) (mr_rdwr r) (Some c) (mr_stop r) (mr_ready r) (mr_accept r) (mr_tmp r) in
  if negb ok then mret (false, r)
  else m <~ match_ctl (mr_vec r) c ;; mret (m, if m then mr_set r RS_opened else r).
(** reader.c:211-252. *)
Definition mr_open_bi (r : mreader) : mem (bool * mreader) :=
  oc <~ read_ctl (mr_rdwr r) (mr_ready r) ;;
  let (ok, c) := oc in
  let r := mk_mr (mr_blk r) (mr_state r) (mr_vec r) (mr_buf r) (mr_rdwr r) (mr_start r) (mr_stop r) (Some c) (mr_accept r) (mr_tmp r) in
  if negb ok then mret (false, r)
  else
    a <~ fresh (mr_accept r) ;;
    co_read c ;;;
    a <~ add_some (mr_vec r) (bv_items (mr_vec r)) a ;;
    let r := mk_mr (mr_blk r) (mr_state r) (mr_vec r) (mr_buf r) (mr_rdwr r) (mr_start r) (mr_stop r) (mr_ready r) (Some a) (mr_tmp r) in
    ok <~ write_frame (mr_rdwr r) a ;;
    if negb ok then mret (false, r) else mr_open_uni r.
(** reader.c:254-281. *)
Definition mr_open (r : mreader) : mem (bool * mreader) :=
  m_use (mr_blk r) ;;;
  match mr_state r with
  | RS_opened => mret (false, r)
  | _ =>
      ok <~ ro_call (mr_rdwr r) ;;
      if negb ok then mret (false, r)
      else if rw_write (mr_rdwr r) then mr_open_bi r else mr_open_uni r
  end.
(** reader.c:296-360 [fstrm__reader_next_data]; at most [n] rounds, the last one
    failing.  A round reads nothing or an oversized length (0), a data frame (1)
    or a control frame. *)
Inductive rres := RR_data (b : blk) | RR_stop | RR_fail.
Fixpoint mr_next (n : nat) (r : mreader) : mem (rres * mreader) :=
  match n with
  | O => mret (RR_fail, mr_set r RS_failed)
  | S n =>
      ok <~ ro_call (mr_rdwr r) ;;
      if negb ok then mret (RR_fail, mr_set r RS_failed)
      else
        x <~ m_choose ;;
        match x with
        | 0 => mret (RR_fail, mr_set r RS_failed)
        | 1 =>
            u <~ ub_reserve (mr_buf r) ;;
            let r := mk_mr (mr_blk r) (mr_state r) (mr_vec r) u (mr_rdwr r) (mr_start r) (mr_stop r) (mr_ready r) (mr_accept r) (mr_tmp r) in
            m_use (ub_v u) ;;;
            ok <~ ro_call (mr_rdwr r) ;;
            if negb ok then mret (RR_fail, mr_set r RS_failed) else mret (RR_data (ub_v u), r)
        | _ =>
            c <~ (match mr_tmp r with Some c => mret c | None => co_init end) ;;
            rc <~ read_frame (mr_rdwr r) c ;;
            let (ok, c) := rc in
            let r1 := mk_mr (mr_blk r) (mr_state r) (mr_vec r) (mr_buf r) (mr_rdwr r) (mr_start r) (mr_stop r) (mr_ready r) (mr_accept r) (Some c) in
            if negb ok then mret (RR_fail, mr_set r1 RS_failed)
            else
              stop <~ m_flag ;;
              if stop then
                mret (RR_stop, mk_mr (mr_blk r) RS_closing (mr_vec r) (mr_buf r) (mr_rdwr r) (mr_start r) (Some c) (mr_ready r) (mr_accept r) None)
              else mr_next n r1
        end
  end.
(** reader.c:362-374. *)
Definition mr_maybe_open (r : mreader) : mem (bool * mreader) :=
  m_use (mr_blk r) ;;;
  match mr_state r with RS_opening => mr_open r | _ => mret (true, r) end.
(** reader.c:402-418. *)
Definition mr_read (r : mreader) : mem (rres * mreader) :=
  ro <~ mr_maybe_open r ;;
  let (ok, r) := ro in
  if negb ok then mret (RR_fail, r)
  else match mr_state r with RS_opened => n <~ m_choose ;; mr_next n r | _ => mret (RR_fail, r) end.
(** reader.c:376-400. *)
Definition mr_close (r : mreader) : mem mreader :=
  m_use (mr_blk r) ;;;
  match mr_state r with
  | RS_opened | RS_closing =>
      let r := mr_set r RS_closed in
      (if rw_write (mr_rdwr r) then ok <~ write_ctl (mr_rdwr r) ;; mret tt else mret tt) ;;;
      ok <~ ro_call (mr_rdwr r) ;; mret r
  | _ => mret r
  end.
(** reader.c:420-448; the frame handed out, if any. *)
Inductive cty := CT_accept | CT_start | CT_stop | CT_ready | CT_finish.
Definition mr_get (r : mreader) (t : cty) : mem (option cobj * mreader) :=
  ro <~ mr_maybe_open r ;;
  let (ok, r) := ro in
  if negb ok then mret (None, r)
  else mret (match t with CT_start => mr_start r | CT_stop => mr_stop r | CT_ready => mr_ready r
                        | CT_accept => mr_accept r | CT_finish => None end, r).
(** reader.c:151-176. *)
Definition mr_destroy (r : mreader) : mem unit :=
  m_use (mr_blk r) ;;;
  r <~ mr_close r ;;
  co_destroy (mr_tmp r) ;;; co_destroy (mr_accept r) ;;; co_destroy (mr_ready r) ;;;
  co_destroy (mr_stop r) ;;; co_destroy (mr_start r) ;;;
  ro_destroy (mr_rdwr r) ;;; ub_destroy (mr_buf r) ;;;
  bv_free_items (mr_vec r) ;;; bv_destroy (mr_vec r) ;;; m_free (mr_blk r).

(** ** fstrm/writer.c *)
Inductive wst := WS_opening | WS_opened | WS_closed.
Record mwriter := mk_mw {
  mw_blk : blk; mw_state : wst; mw_vec : bufvec; mw_rdwr : robj;
  mw_ready : option cobj; mw_accept : option cobj; mw_start : option cobj; mw_finish : option cobj;
  mw_iovecs : blk; mw_lens : blk }.
(** writer.c:93-124. *)
Definition mw_init (o : option oobj) (x : robj) : mem (option mwriter) :=
  m_use (rw_blk x) ;;;
  if negb (rw_write x) then mret None
  else
    b <~ m_alloc ;; v <~ bv_init ;; v <~ copy_types o v ;; i <~ m_alloc ;; l <~ m_alloc ;;
    mret (Some (mk_mw b WS_opening v x None None None None i l)).
Definition mw_set (w : mwriter) (s : wst) : mwriter :=
  mk_mw (mw_blk w) s (mw_vec w) (mw_rdwr w) (mw_ready w) (mw_accept w) (mw_start w) (mw_finish w) (mw_iovecs w) (mw_lens w).
Definition mw_ctl (w : mwriter) (ready accept start finish : option cobj) : mwriter :=
  mk_mw (mw_blk w) (mw_state w) (mw_vec w) (mw_rdwr w) ready accept start finish (mw_iovecs w) (mw_lens w).
(** writer.c:150-228. *)
Definition mw_open_bi (w : mwriter) : mem (bool * mwriter) :=
  c <~ fresh (mw_ready w) ;;
  c <~ add_some (mw_vec w) (bv_items (mw_vec w)) c ;;
  let w := mw_ctl w (Some c) (mw_accept w) (mw_start w) (mw_finish w) in
  ok <~ write_frame (mw_rdwr w) c ;;
  if negb ok then mret (false, w)
  else
    oa <~ read_ctl (mw_rdwr w) (mw_accept w) ;;
    let (ok, a) := oa in
    let w := mw_ctl w (mw_ready w) (Some a) (mw_start w) (mw_finish w) in
    if negb ok then mret (false, w)
    else
      m <~ match_ctl (mw_vec w) a ;;
      if negb m then mret (false, w)
      else
        s <~ fresh (mw_start w) ;;
        s <~ add_some (mw_vec w) (firstn 1 (bv_items (mw_vec w))) s ;;
        let w := mw_ctl w (mw_ready w) (mw_accept w) (Some s) (mw_finish w) in
        ok <~ write_frame (mw_rdwr w) s ;; mret (ok, w).
(** writer.c:230-264. *)
Definition mw_open_uni (w : mwriter) : mem (bool * mwriter) :=
  s <~ fresh (mw_start w) ;;
  s <~ add_some (mw_vec w) (firstn 1 (bv_items (mw_vec w))) s ;;
  let w := mw_ctl w (mw_ready w) (mw_accept w) (Some s) (mw_finish w) in
  ok <~ write_frame (mw_rdwr w) s ;; mret (ok, w).
(** writer.c:266-293. *)
Definition mw_open (w : mwriter) : mem (bool * mwriter) :=
  m_use (mw_blk w) ;;;
  match mw_state w with
  | WS_opened => mret (true, w)
  | _ =>
      ok <~ ro_call (mw_rdwr w) ;;
      if negb ok then mret (false, w)
      else
        ow <~ (if rw_read (mw_rdwr w) then mw_open_bi w else mw_open_uni w) ;;
        let (ok, w) := ow in
        mret (ok, if ok then mw_set w WS_opened else w)
  end.
(** writer.c:295-307. *)
Definition mw_maybe_open (w : mwriter) : mem (bool * mwriter) :=
  m_use (mw_blk w) ;;;
  match mw_state w with WS_opening => mw_open w | _ => mret (true, w) end.
(** writer.c:309-341. *)
Definition mw_close (w : mwriter) : mem mwriter :=
  m_use (mw_blk w) ;;;
  match mw_state w with
  | WS_opened =>
      let w := mw_set w WS_closed in
      ok <~ write_ctl (mw_rdwr w) ;;
      if negb ok then c <~ ro_call (mw_rdwr w) ;; mret w
      else if rw_read (mw_rdwr w) then
        oc <~ read_ctl (mw_rdwr w) (mw_finish w) ;;
        let (ok, c) := oc in
        cl <~ ro_call (mw_rdwr w) ;;
        mret (mw_ctl w (mw_ready w) (mw_accept w) (mw_start w) (Some c))
      else c <~ ro_call (mw_rdwr w) ;; mret w
  | _ => mret w
  end.
(** writer.c:343-418, any number of chunks; the buffers are the caller's. *)
Fixpoint mw_chunks (n : nat) (w : mwriter) : mem unit :=
  match n with
  | O => mret tt
  | S n => m_use (mw_lens w) ;;; m_use (mw_iovecs w) ;;; ok <~ ro_call (mw_rdwr w) ;; if negb ok then mret tt else mw_chunks n w
  end.
Definition mw_write (w : mwriter) : mem mwriter :=
  ow <~ mw_maybe_open w ;;
  let (ok, w) := ow in
  if negb ok then mret w
  else match mw_state w with WS_opened => n <~ m_choose ;; mw_chunks n w ;;; mret w | _ => mret w end.
(** writer.c:420-447. *)
Definition mw_get (w : mwriter) (t : cty) : mem (option cobj * mwriter) :=
  ow <~ mw_maybe_open w ;;
  let (ok, w) := ow in
  if negb ok then mret (None, w)
  else mret (match t with CT_accept => mw_accept w | CT_finish => mw_finish w | CT_ready => mw_ready w
                        | CT_start => mw_start w | CT_stop => None end, w).
(** writer.c:126-148. *)
Definition mw_destroy (w : mwriter) : mem unit :=
  m_use (mw_blk w) ;;;
  w <~ mw_close w ;;
  co_destroy (mw_finish w) ;;; co_destroy (mw_start w) ;;; co_destroy (mw_accept w) ;;; co_destroy (mw_ready w) ;;;
  ro_destroy (mw_rdwr w) ;;; bv_free_items (mw_vec w) ;;; bv_destroy (mw_vec w) ;;;
  m_free (mw_iovecs w) ;;; m_free (mw_lens w) ;;; m_free (mw_blk w).

(** ** A program that uses the library *)
(** Its variables; [O_null] is a NULL pointer. *)
Inductive obj :=
| O_null | O_ctl (c : cobj) | O_ropt (x : oobj) | O_wopt (x : oobj) | O_path (x : pobj)
| O_rdwr (x : robj) | O_reader (r : mreader) | O_writer (w : mwriter).
Definition vars := list obj.
Definition var (s : vars) (i : nat) : obj := nth i s O_null.
Fixpoint set (s : vars) (i : nat) (x : obj) : vars :=
  match s, i with
  | [], _ => []
  | _ :: r, O => x :: r
  | y :: r, S i => y :: set r i x
  end.

Inductive newk := N_ctl | N_ropt | N_wopt | N_path | N_rdwr (has_obj rd wr : bool).
Inductive transport := TR_rdwr (i : nat) | TR_file (i : nat) | TR_unix (i : nat) | TR_tcp (i : nat).
(** The calls; a call whose variables do not hold what it needs is not made. *)
Inductive mcall :=
| MC_new (k : newk)
| MC_destroy (i : nat)
| MC_ctl_reset (i : nat) | MC_ctl_add (i : nat) | MC_ctl_decode (i : nat) | MC_ctl_read (i : nat)
| MC_opt_add (i : nat) (ok : bool) | MC_path_set (i : nat) (second given : bool)
| MC_reader (opt : option nat) (t : transport) | MC_writer (opt : option nat) (t : transport)
| MC_open (i : nat) | MC_read (i : nat) | MC_write (i : nat) | MC_close (i : nat) | MC_get (i : nat) (t : cty).
(** What it reported. *)
Inductive mres := MR_done | MR_data (b : blk) | MR_stop | MR_ctl (c : option cobj).

Definition new_obj (k : newk) : mem obj :=
  match k with
  | N_ctl => c <~ co_init ;; mret (O_ctl c)
  | N_ropt => x <~ oo_init ;; mret (O_ropt x)
  | N_wopt => x <~ oo_init ;; mret (O_wopt x)
  | N_path => x <~ po_init ;; mret (O_path x)
  | N_rdwr h rd wr => x <~ ro_user h rd wr ;; mret (O_rdwr x)
  end.
(** A destroy function: NULL is ignored, and the variable becomes NULL. *)
Definition destroy_obj (x : obj) : mem unit :=
  match x with
  | O_null => mret tt
  | O_ctl c => co_destroy (Some c)
  | O_ropt x | O_wopt x => oo_destroy x
  | O_path x => po_destroy x
  | O_rdwr x => ro_destroy x
  | O_reader r => mr_destroy r
  | O_writer w => mw_destroy w
  end.
(** The options a creation is given: [None] if the variable holds something else. *)
Definition reader_opt (s : vars) (o : option nat) : option (option oobj) :=
  match o with None => Some None | Some i => match var s i with O_ropt x => Some (Some x) | _ => None end end.
Definition writer_opt (s : vars) (o : option nat) : option (option oobj) :=
  match o with None => Some None | Some i => match var s i with O_wopt x => Some (Some x) | _ => None end end.
(** file.c:152-173, unix_writer.c:200-225, tcp_writer.c:258-286: the transport, and
    the variables after it was handed over. *)
Definition get_transport (s : vars) (t : transport) (rd : bool) : mem (option (robj * vars)) :=
  match t with
  | TR_rdwr i => match var s i with O_rdwr x => mret (Some (x, set s i O_null)) | _ => mret None end
  | TR_file i => match var s i with O_path p => x <~ ro_file p rd ;; mret (option_map (fun x => (x, s)) x) | _ => mret None end
  | TR_unix i => match var s i with O_path p => if rd then mret None else x <~ ro_unix p ;; mret (option_map (fun x => (x, s)) x) | _ => mret None end
  | TR_tcp i => match var s i with O_path p => if rd then mret None else x <~ ro_tcp p ;; mret (option_map (fun x => (x, s)) x) | _ => mret None end
  end.

Definition mstep (s : vars) (c : mcall) : mem (mres * vars) :=
  match c with
  | MC_new k => x <~ new_obj k ;; mret (MR_done, s ++ [x])
  | MC_destroy i => destroy_obj (var s i) ;;; mret (MR_done, set s i O_null)
  | MC_ctl_reset i => match var s i with O_ctl c => c <~ co_reset c ;; mret (MR_done, set s i (O_ctl c)) | _ => mret (MR_done, s) end
  | MC_ctl_add i => match var s i with O_ctl c => c <~ co_add c ;; mret (MR_done, set s i (O_ctl c)) | _ => mret (MR_done, s) end
  | MC_ctl_decode i =>
      match var s i with O_ctl c => oc <~ co_decode c ;; mret (MR_done, set s i (O_ctl (snd oc))) | _ => mret (MR_done, s) end
  | MC_ctl_read i => match var s i with O_ctl c => co_read c ;;; mret (MR_done, s) | _ => mret (MR_done, s) end
  | MC_opt_add i ok =>
      match var s i with
      | O_ropt x => x <~ oo_add x ok ;; mret (MR_done, set s i (O_ropt x))
      | O_wopt x => x <~ oo_add x ok ;; mret (MR_done, set s i (O_wopt x))
      | _ => mret (MR_done, s)
      end
  | MC_path_set i second given =>
      match var s i with O_path x => x <~ po_set x second given ;; mret (MR_done, set s i (O_path x)) | _ => mret (MR_done, s) end
  | MC_reader o t =>
      match reader_opt s o with
      | None => mret (MR_done, s)
      | Some o =>
          xs <~ get_transport s t true ;;
          match xs with
          | None => mret (MR_done, s)
          | Some (x, s') => r <~ mr_init o x ;; mret (MR_done, match r with Some r => s' ++ [O_reader r] | None => s end)
          end
      end
  | MC_writer o t =>
      match writer_opt s o with
      | None => mret (MR_done, s)
      | Some o =>
          xs <~ get_transport s t false ;;
          match xs with
          | None => mret (MR_done, s)
          | Some (x, s') => w <~ mw_init o x ;; mret (MR_done, match w with Some w => s' ++ [O_writer w] | None => s end)
          end
      end
  | MC_open i =>
      match var s i with
      | O_reader r => x <~ mr_open r ;; mret (MR_done, set s i (O_reader (snd x)))
      | O_writer w => x <~ mw_open w ;; mret (MR_done, set s i (O_writer (snd x)))
      | _ => mret (MR_done, s)
      end
  | MC_read i =>
      match var s i with
      | O_reader r => x <~ mr_read r ;;
          mret (match fst x with RR_data b => MR_data b | RR_stop => MR_stop | RR_fail => MR_done end, set s i (O_reader (snd x)))
      | _ => mret (MR_done, s)
      end
  | MC_write i => match var s i with O_writer w => w <~ mw_write w ;; mret (MR_done, set s i (O_writer w)) | _ => mret (MR_done, s) end
  | MC_close i =>
      match var s i with
      | O_reader r => r <~ mr_close r ;; mret (MR_done, set s i (O_reader r))
      | O_writer w => w <~ mw_close w ;; mret (MR_done, set s i (O_writer w))
      | _ => mret (MR_done, s)
      end
  | MC_get i t =>
      match var s i with
      | O_reader r => x <~ mr_get r t ;; mret (MR_ctl (fst x), set s i (O_reader (snd x)))
      | O_writer w => x <~ mw_get w t ;; mret (MR_ctl (fst x), set s i (O_writer (snd x)))
      | _ => mret (MR_done, s)
      end
  end.
(** Any number of calls, with what they reported. *)
Fixpoint msteps (s : vars) (cs : list mcall) : mem (list mres * vars) :=
  match cs with
  | [] => mret ([], s)
  | c :: cs => xs <~ mstep s c ;; ys <~ msteps (snd xs) cs ;; mret (fst xs :: fst ys, snd ys)
  end.
Definition heap0 : heap := mk_heap 0 [].

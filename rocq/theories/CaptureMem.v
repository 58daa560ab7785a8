(** Model of the memory, descriptors and FILE objects of fstrm_capture
    (src/fstrm_capture.c): which ones each function creates, uses and gives back.

    As in Mem.v a block is never given out twice, and every decision that depends
    on data, the clock or the debug level is an arbitrary number from a script.
    Descriptors and FILE objects are blocks too, and so are libevent's objects: a
    bufferevent with the storage of its input buffer, which moves whenever it is
    filled, pulled up or drained, so that stale pointers into it are noticed.
    exit() ends the model's run.  The memory of the option parser is left out
    (argv_cleanup frees it), and allocations do not fail, except in
    bufferevent_socket_new() where the code provides for it. *)
From Verif Require Import Bytes Mem.
Local Open Scope nat_scope.
Local Notation "x <~ p ;; q" := (mbind p (fun x => q)) (at level 100, p at next level, right associativity).
Local Notation "p ;;; q" := (mbind p (fun _ => q)) (at level 100, right associativity).

(** A pointer that must not be NULL here. *)
Definition m_need (p : option blk) : mem blk :=
  match p with Some b => m_use b ;;; mret b | None => fun _ _ => MUb ub_null end.
Definition m_use_opt (p : option blk) : mem unit := match p with Some b => m_use b | None => mret tt end.

(** fstrm_capture.c:86-99 struct conn; [mc_field] is its member bev, [mc_bev],
    [mc_chain], [mc_fd] are the bufferevent that calls back with this conn, the
    storage of its input and its descriptor. *)
Record mconn := mk_mc { mc_blk : blk; mc_ctl : cobj; mc_field : option blk; mc_bev : blk; mc_chain : blk; mc_fd : blk }.
Definition set_ctl (c : mconn) (k : cobj) : mconn := mk_mc (mc_blk c) k (mc_field c) (mc_bev c) (mc_chain c) (mc_fd c).
Definition set_chain (c : mconn) (b : blk) : mconn := mk_mc (mc_blk c) (mc_ctl c) (mc_field c) (mc_bev c) b (mc_fd c).
Definition set_field (c : mconn) (b : option blk) : mconn := mk_mc (mc_blk c) (mc_ctl c) b (mc_bev c) (mc_chain c) (mc_fd c).

(** fstrm_capture.c:101-123 struct capture: output_fname, output_file (FILE and
    descriptor), ev_base, ev_connlistener, ev_sighup, ev_sigusr1. *)
Record mcap := mk_cap {
  x_name : option blk; x_file : option (blk * blk); x_base : blk; x_listener : blk; x_hup : blk; x_usr1 : blk }.
Definition set_name (x : mcap) (n : option blk) : mcap := mk_cap n (x_file x) (x_base x) (x_listener x) (x_hup x) (x_usr1 x).
Definition set_file (x : mcap) (f : option (blk * blk)) : mcap := mk_cap (x_name x) f (x_base x) (x_listener x) (x_hup x) (x_usr1 x).

(** fwrite(), fflush() on output_file. *)
Definition use_file (x : mcap) : mem unit :=
  match x_file x with Some (f, d) => m_use f ;;; m_use d | None => fun _ _ => MUb ub_null end.
Definition do_fclose (x : mcap) : mem mcap :=
  match x_file x with Some (f, d) => m_free d ;;; m_free f ;;; mret (set_file x None) | None => fun _ _ => MUb ub_null end.

(** ** The output file *)
(** fstrm_capture.c:427-462. *)
Definition close_stop (x : mcap) : mem bool :=
  k <~ co_init ;; m_use (c_blk k) ;;; ok <~ m_flag ;;
  if negb ok then co_destroy (Some k) ;;; mret false
  else
    co_read k ;;; ok <~ m_flag ;;
    if negb ok then co_destroy (Some k) ;;; mret false
    else use_file x ;;; ok <~ m_flag ;; co_destroy (Some k) ;;; mret ok.
(** fstrm_capture.c:464-507. *)
Definition open_start (x : mcap) : mem bool :=
  k <~ co_init ;; m_use (c_blk k) ;;; ok <~ m_flag ;;
  if negb ok then co_destroy (Some k) ;;; mret false
  else
    ok <~ m_flag ;;
    if negb ok then co_destroy (Some k) ;;; mret false
    else
      k <~ co_add k ;; co_read k ;;; ok <~ m_flag ;;
      if negb ok then co_destroy (Some k) ;;; mret false
      else
        use_file x ;;; ok <~ m_flag ;;
        (if ok then use_file x else mret tt) ;;;
        co_destroy (Some k) ;;; mret ok.
(** fstrm_capture.c:509-544 (my_free sets the pointer to NULL). *)
Definition new_name (x : mcap) : mem (bool * mcap) :=
  m_free_opt (x_name x) ;;; b <~ m_alloc ;; m_use b ;;; ok <~ m_flag ;;
  if ok then mret (true, set_name x (Some b)) else m_free b ;;; mret (false, set_name x None).
(** fstrm_capture.c:546-601; [std]: the name is a dash (stdout counts as made
    here), [cal]: the name is a strftime() format. *)
Definition open_file (std cal : bool) (x : mcap) : mem (bool * mcap) :=
  r <~ (if std then
          f <~ m_alloc ;; d <~ m_alloc ;; mret (true, set_file x (Some (f, d)))
        else
          n <~ (if cal then new_name x else mret (true, x)) ;;
          if negb (fst n) then mret n
          else
            let x := snd n in
            m_use_opt (if cal then x_name x else None) ;;;
            ok <~ m_flag ;;
            if negb ok then m_use_opt (if cal then x_name x else None) ;;; mret (false, x)
            else
              d <~ m_alloc ;; ok <~ m_flag ;;
              if negb ok then m_free d ;;; mret (false, set_file x None)
              else f <~ m_alloc ;; mret (true, set_file x (Some (f, d)))) ;;
  if negb (fst r) then mret r
  else
    let x := snd r in
    ok <~ open_start x ;;
    if ok then m_use_opt (if cal then x_name x else None) ;;; mret (true, x)
    else x <~ do_fclose x ;; mret (false, x).
(** fstrm_capture.c:603-624. *)
Definition close_file (x : mcap) : mem (bool * mcap) :=
  r <~ (match x_file x with
        | Some _ => ok <~ close_stop x ;; if ok then x <~ do_fclose x ;; mret (true, x) else mret (false, x)
        | None => mret (true, x)
        end) ;;
  if negb (fst r) then mret r else m_use_opt (x_name (snd r)) ;;; mret r.
(** fstrm_capture.c:675-697; None: exit(). *)
Definition rotate (std cal : bool) (x : mcap) : mem (option mcap) :=
  if std then mret (Some x)
  else
    r <~ close_file x ;;
    if negb (fst r) then mret None
    else r <~ open_file std cal (snd r) ;; mret (if fst r then Some (snd r) else None).
(** fstrm_capture.c:699-712. *)
Definition maybe (std cal : bool) (x : mcap) : mem (option mcap) :=
  now <~ m_flag ;; if now then rotate std cal x else mret (Some x).

(** ** Connections *)
(** fstrm_capture.c:238-255, 257-272; the flag: the level is high enough. *)
Definition log (c : mconn) : mem unit :=
  m_use (mc_blk c) ;;; say <~ m_flag ;; if say then m_use_opt (mc_field c) else mret tt.
Definition log_data (c : mconn) (data : option blk) : mem unit :=
  m_use (mc_blk c) ;;; say <~ m_flag ;; if say then m_need (mc_field c) ;;; m_use_opt data else mret tt.
(** fstrm_capture.c:274-298 with 228-235; bufferevent_free() of [bev] closes the
    descriptor. *)
Definition close_conn (x : mcap) (bev : blk) (c : mconn) : mem unit :=
  m_use (mc_blk c) ;;; bad <~ m_flag ;; (if bad then log c else mret tt) ;;; log c ;;;
  m_use bev ;;; m_free (mc_chain c) ;;; m_free (mc_fd c) ;;; m_free bev ;;;
  m_use (mc_blk c) ;;; co_destroy (Some (mc_ctl c)) ;;; m_free (mc_blk c) ;;;
  first <~ m_flag ;; if first then m_use (x_listener x) else mret tt.

(** conn->ev_input belongs to conn->bev. *)
Definition use_input (c : mconn) : mem unit := m_use (mc_blk c) ;;; m_need (mc_field c) ;;; m_use (mc_chain c).
(** evbuffer_drain(), evbuffer_pullup(), new data: the storage moves. *)
Definition move_input (c : mconn) : mem mconn :=
  m_use (mc_bev c) ;;; b <~ m_realloc (mc_chain c) ;; mret (set_chain c b).

(** fstrm_capture.c:626-673; false: exit(). *)
Definition data_frame (x : mcap) (c : mconn) : mem (bool * mconn) :=
  log c ;;; use_input c ;;; use_file x ;;; ok <~ m_flag ;;
  if negb ok then mret (false, c) else c <~ move_input c ;; m_use (mc_blk c) ;;; mret (true, c).
(** fstrm_capture.c:714-725, 744-770; the frame is on the stack. *)
Definition write_frame (c : mconn) : mem bool :=
  m_use (mc_blk c) ;;; co_read (mc_ctl c) ;;; ok <~ m_flag ;;
  if negb ok then mret false
  else
    co_read (mc_ctl c) ;;; log c ;;; log_data c None ;;;
    m_use (mc_blk c) ;;; m_need (mc_field c) ;;; ok <~ m_flag ;;
    (if ok then mret tt else log c) ;;; mret ok.
(** fstrm_capture.c:727-742. *)
Definition match_type (c : mconn) : mem bool :=
  m_use (mc_blk c) ;;; co_read (mc_ctl c) ;;; ok <~ m_flag ;; (if ok then mret tt else log c) ;;; mret ok.
(** fstrm_capture.c:785-796: pointers into the frame object. *)
Fixpoint log_each (c : mconn) (l : list blk) : mem bool :=
  match l with
  | [] => mret true
  | d :: r =>
      m_use (mc_blk c) ;;; co_read (mc_ctl c) ;;; ok <~ m_flag ;;
      if negb ok then mret false else log_data c (Some d) ;;; log_each c r
  end.
(** fstrm_capture.c:772-819. *)
Definition ctl_ready (c : mconn) : mem (bool * mconn) :=
  m_use (mc_blk c) ;;; m_use (c_blk (mc_ctl c)) ;;; ok <~ m_flag ;;
  if negb ok then mret (false, c)
  else
    ok <~ log_each c (bv_items (c_vec (mc_ctl c))) ;;
    if negb ok then mret (false, c)
    else
      ok <~ match_type c ;;
      if negb ok then mret (false, c)
      else
        m_use (mc_blk c) ;;; k <~ co_reset (mc_ctl c) ;; ok <~ m_flag ;;
        if negb ok then mret (false, set_ctl c k)
        else
          k <~ co_add k ;; ok <~ write_frame (set_ctl c k) ;; m_use (mc_blk c) ;;; mret (ok, set_ctl c k).
(** fstrm_capture.c:821-831. *)
Definition ctl_start (c : mconn) : mem (bool * mconn) := ok <~ match_type c ;; m_use (mc_blk c) ;;; mret (ok, c).
(** fstrm_capture.c:833-857. *)
Definition ctl_stop (c : mconn) : mem (bool * mconn) :=
  m_use (mc_blk c) ;;; k <~ co_reset (mc_ctl c) ;; ok <~ m_flag ;;
  if negb ok then mret (false, set_ctl c k)
  else ok <~ write_frame (set_ctl c k) ;; m_use (mc_blk c) ;;; mret (ok, set_ctl c k).
(** fstrm_capture.c:859-894. *)
Definition ctl_frame (c : mconn) : mem (bool * mconn) :=
  m_use (mc_blk c) ;;; m_use (c_blk (mc_ctl c)) ;;; ok <~ m_flag ;;
  if negb ok then mret (false, c)
  else
    log c ;;; what <~ m_choose ;;
    match what with 0 => ctl_ready c | 1 => ctl_start c | 2 => ctl_stop c | _ => mret (false, c) end.
(** fstrm_capture.c:896-933. *)
Definition load_frame (c : mconn) : mem (bool * mconn) :=
  m_use (mc_blk c) ;;; ok <~ m_flag ;;
  if negb ok then mret (false, c)
  else
    use_input c ;;; ok <~ m_flag ;;
    if negb ok then mret (false, c)
    else
      c <~ move_input c ;;
      let p := mc_chain c in
      log_data c (Some p) ;;; m_use p ;;; m_use (mc_blk c) ;;;
      r <~ co_decode (mc_ctl c) ;; m_use p ;;;
      let c := set_ctl c (snd r) in
      if negb (fst r) then mret (false, c)
      else use_input c ;;; c <~ move_input c ;; mret (true, c).
(** fstrm_capture.c:935-1008: whether a frame is there, and whether the
    connection was closed for a bad length. *)
Definition can_read (x : mcap) (c : mconn) : mem (bool * bool) :=
  m_use (mc_blk c) ;;; what <~ m_choose ;;
  match what with
  | 0 => mret (false, false)
  | 1 => use_input c ;;; b <~ m_need (mc_field c) ;; close_conn x b c ;;; mret (false, true)
  | 2 => use_input c ;;; log c ;;; log c ;;; m_use (mc_blk c) ;;; mret (false, false)
  | _ => use_input c ;;; mret (true, false)
  end.

Inductive served := S_open (x : mcap) (c : mconn) | S_over (x : mcap) | S_exit.
(** fstrm_capture.c:1032-1083, the loop of cb_read, [n] rounds. *)
Fixpoint read_loop (std cal : bool) (n : nat) (x : mcap) (c : mconn) : mem served :=
  match n with
  | O => m_use (mc_blk c) ;;; m_need (mc_field c) ;;; m_use (mc_blk c) ;;; mret (S_open x c)
  | S n =>
      m_use (mc_blk c) ;;; m_need (mc_field c) ;;; m_use (mc_blk c) ;;;
      skipping <~ m_flag ;;
      r <~ (if skipping then mret (true, false) else can_read x c) ;;
      if negb (fst r) then mret (if snd r : bool then S_over x else S_open x c)
      else
        m_use (mc_blk c) ;;;
        if skipping then log c ;;; use_input c ;;; c <~ move_input c ;; m_use (mc_blk c) ;;; read_loop std cal n x c
        else
          isdata <~ m_flag ;;
          if isdata then
            r <~ data_frame x c ;;
            if negb (fst r) then mret S_exit
            else
              let c := snd r in
              m_use (mc_blk c) ;;; r <~ maybe std cal x ;;
              match r with Some x => read_loop std cal n x c | None => mret S_exit end
          else
            r <~ load_frame c ;;
            let c := snd r in
            if negb (fst r) then m_use (mc_blk c) ;;; b <~ m_need (mc_field c) ;; close_conn x b c ;;; mret (S_over x)
            else
              r <~ ctl_frame c ;;
              let c := snd r in
              if negb (fst r) then m_use (mc_blk c) ;;; b <~ m_need (mc_field c) ;; close_conn x b c ;;; mret (S_over x)
              else read_loop std cal n x c
  end.
(** fstrm_capture.c:1022-1031; the loop runs for any number of rounds. *)
Definition on_read (std cal : bool) (x : mcap) (c : mconn) : mem served :=
  c <~ move_input c ;;
  m_use (mc_blk c) ;;; let c := set_field c (Some (mc_bev c)) in m_use (mc_bev c) ;;;
  n <~ m_choose ;; read_loop std cal n x c.
(** fstrm_capture.c:1010-1019; the flag: the state is STOPPED. *)
Definition on_write (x : mcap) (c : mconn) : mem served :=
  m_use (mc_bev c) ;;; m_use (mc_blk c) ;;; stopped <~ m_flag ;;
  if stopped then close_conn x (mc_bev c) c ;;; mret (S_over x) else mret (S_open x c).
Definition on_close (x : mcap) (c : mconn) : mem served :=
  m_use (mc_bev c) ;;; close_conn x (mc_bev c) c ;;; mret (S_over x).
(** fstrm_capture.c:1085-1113 with 217-226; None: the bufferevent could not be
    made. *)
Definition on_accept (x : mcap) : mem (option mconn) :=
  m_use (x_listener x) ;;; fd <~ m_alloc ;; m_use (x_base x) ;;; ok <~ m_flag ;;
  if negb ok then m_free fd ;;; mret None
  else
    bev <~ m_alloc ;; chain <~ m_alloc ;; b <~ m_alloc ;; m_use b ;;; k <~ co_init ;;
    m_use bev ;;; last <~ m_flag ;;
    (if last then m_use (x_listener x) else mret tt) ;;;
    mret (Some (mk_mc b k None bev chain fd)).

(** ** The server *)
(** Connections are numbered as they are accepted. *)
Record msrv := mk_srv { s_cap : mcap; s_next : nat; s_conns : list (nat * mconn) }.
Inductive mevent := ME_accept | ME_data (id : nat) | ME_written (id : nat) | ME_closed (id : nat) | ME_usr1 | ME_hup.

Fixpoint find_mc (id : nat) (l : list (nat * mconn)) : option mconn :=
  match l with [] => None | (i, c) :: r => if Nat.eqb i id then Some c else find_mc id r end.
Fixpoint drop_mc (id : nat) (l : list (nat * mconn)) : list (nat * mconn) :=
  match l with [] => [] | (i, c) :: r => if Nat.eqb i id then r else (i, c) :: drop_mc id r end.

(** libevent calls back for bufferevents that exist. *)
Definition on_conn (s : msrv) (id : nat) (f : mcap -> mconn -> mem served) : mem (option msrv) :=
  match find_mc id (s_conns s) with
  | None => mret (Some s)
  | Some c =>
      r <~ f (s_cap s) c ;;
      mret (match r with
            | S_open x c => Some (mk_srv x (s_next s) ((id, c) :: drop_mc id (s_conns s)))
            | S_over x => Some (mk_srv x (s_next s) (drop_mc id (s_conns s)))
            | S_exit => None
            end)
  end.
(** The callbacks; signals: fstrm_capture.c:1124-1144. *)
Definition mevent_step (std cal : bool) (s : msrv) (e : mevent) : mem (option msrv) :=
  match e with
  | ME_accept =>
      r <~ on_accept (s_cap s) ;;
      mret (Some (match r with
                  | Some c => mk_srv (s_cap s) (S (s_next s)) ((s_next s, c) :: s_conns s)
                  | None => s
                  end))
  | ME_data id => on_conn s id (on_read std cal)
  | ME_written id => on_conn s id on_write
  | ME_closed id => on_conn s id on_close
  | ME_usr1 =>
      m_use (x_usr1 (s_cap s)) ;;;
      match x_file (s_cap s) with
      | None => mret (Some s)
      | Some _ => r <~ rotate std cal (s_cap s) ;; mret (option_map (fun x => mk_srv x (s_next s) (s_conns s)) r)
      end
  | ME_hup =>
      m_use (x_hup (s_cap s)) ;;;
      match x_file (s_cap s) with None => mret tt | Some _ => use_file (s_cap s) end ;;; mret (Some s)
  end.
Fixpoint mevents (std cal : bool) (s : msrv) (es : list mevent) : mem (option msrv) :=
  match es with
  | [] => mret (Some s)
  | e :: es => r <~ mevent_step std cal s e ;; match r with Some s => mevents std cal s es | None => mret None end
  end.
(** fstrm_capture.c:1146-1182, 1249-1266: the output file is opened before the
    event loop exists; None: main() returns. *)
Definition msetup (std cal : bool) : mem (option msrv) :=
  r <~ open_file std cal (mk_cap None None 0 0 0 0) ;;
  if negb (fst r) then mret None
  else
    base <~ m_alloc ;; ok <~ m_flag ;;
    if negb ok then m_free base ;;; mret None
    else
      l <~ m_alloc ;; m_use l ;;; h <~ m_alloc ;; m_use h ;;; u <~ m_alloc ;; m_use u ;;; m_use base ;;;
      mret (Some (mk_srv (mk_cap (x_name (snd r)) (x_file (snd r)) base l h u) 0 [])).
(** fstrm_capture.c:1211-1225, 1271-1281: false: the exit status is a failure. *)
Definition mshutdown (s : msrv) : mem bool :=
  r <~ close_file (s_cap s) ;;
  if negb (fst r) then mret false
  else
    let x := snd r in
    m_free (x_hup x) ;;; m_free (x_usr1 x) ;;; m_free (x_listener x) ;;; m_free (x_base x) ;;; m_free_opt (x_name x) ;;; mret true.
Definition mserver (std cal : bool) (es : list mevent) : mem (option msrv) :=
  r <~ msetup std cal ;; match r with Some s => mevents std cal s es | None => mret None end.

(** Model of libmy/read_bytes.h and of the transport methods of
    fstrm/unix_writer.c (68-198).  fstrm/tcp_writer.c:82-212 has the same text for
    close, read, write and destroy, and an open that differs only in the address
    family.  The kernel's answers are given as a list; when the list is used up
    the call blocks. *)
From Verif Require Import Bytes.
Local Open Scope nat_scope.

(** ** read_bytes *)

(** Answers of read(2).  [KR_some k]: data is available and at most [k+1] bytes
    are delivered now (fewer if fewer were asked for or have arrived); if none
    will come any more this is end-of-file (0).  [KR_err]: -1 with errno other
    than EINTR. *)
Inductive kread := KR_some (k : nat) | KR_eintr | KR_err.

(** libmy/read_bytes.h:9-24.  [s]: the bytes the peer sends before end-of-file;
    [buf]: the bytes stored so far.  Result: [None] blocked, else the returned
    boolean, the buffer and what remains unread. *)
Fixpoint read_bytes (need : nat) (s buf : bytes) (ks : list kread) : option (bool * bytes * bytes) :=
  match need with
  | O => Some (true, buf, s)
  | _ =>
      match ks with
      | [] => None
      | KR_eintr :: ks' => read_bytes need s buf ks'
      | KR_err :: _ => Some (false, buf, s)
      | KR_some k :: ks' =>
          let n := Nat.min (S k) (Nat.min need (length s)) in
          match n with
          | O => Some (false, buf, s)
          | _ => read_bytes (need - n) (skipn n s) (buf ++ firstn n s) ks'
          end
      end
  end.

(** ** op_write *)

(** Answers of sendmsg(2): [KS_sent k]: [k] bytes were taken (at most what was
    offered), -1 with EINTR, -1 with another errno. *)
Inductive ksend := KS_sent (k : nat) | KS_eintr | KS_err.

Inductive wout :=
| W_ret (r : res) (wire : bytes)        (* returned *)
| W_ub (u : ub_reason) (wire : bytes)   (* undefined behaviour *)
| W_blocked (wire : bytes).

Definition wout_wire (o : wout) : bytes :=
  match o with W_ret _ w | W_ub _ w | W_blocked w => w end.

(** fstrm/unix_writer.c:178-179, [while (written >= msg_iov[cur].iov_len)
    written -= msg_iov[cur++].iov_len].  [rest] is the part of the array from
    [cur] on; [None]: the array was read out of bounds. *)
Fixpoint advance (rest : list bytes) (cur written : nat) : option (nat * nat) :=
  match rest with
  | [] => None
  | v :: rest' =>
      if length v <=? written then advance rest' (S cur) (written - length v)
      else Some (cur, written)
  end.

(** fstrm/unix_writer.c:184-186: the current element is shortened in place. *)
Fixpoint trim (iov : list bytes) (cur written : nat) : list bytes :=
  match iov, cur with
  | v :: r, O => skipn written v :: r
  | v :: r, S c => v :: trim r c written
  | [], _ => []
  end.

(** fstrm/unix_writer.c:168-187.  [msg_iov]/[msg_iovlen] always describe the whole
    array. *)
Fixpoint op_write_loop (ks : list ksend) (nbytes : nat) (iov : list bytes) (cur : nat) (wire : bytes) : wout :=
  match ks with
  | [] => W_blocked wire
  | KS_eintr :: ks' => op_write_loop ks' nbytes iov cur wire
  | KS_err :: _ => W_ret r_failure wire
  | KS_sent k :: ks' =>
      let written := Nat.min k (length (concat iov)) in
      let wire := wire ++ firstn written (concat iov) in
      if (cur =? 0) && (written =? nbytes) then W_ret r_success wire
      else
        match advance (skipn cur iov) cur written with
        | None => W_ub ub_load_oob wire
        | Some (cur, written) =>
            if cur =? length iov then W_ret r_success wire
            else op_write_loop ks' nbytes (trim iov cur written) cur wire
        end
  end.

(** fstrm/unix_writer.c:152-190.  (Sums fit ssize_t.) *)
Definition op_write (connected : bool) (iov : list bytes) (ks : list ksend) : wout :=
  if negb connected then W_ret r_failure []
  else op_write_loop ks (length (concat iov)) iov 0 [].

(** ** Connection state *)

(** fstrm/unix_writer.c:36-40; [fd]: the descriptor field (kept after close). *)
Record sockw := mk_sockw { s_connected : bool; s_fd : option nat }.

(** What the process does with descriptors. *)
Inductive fdev := FD_socket (n : nat) | FD_close (n : nat) | FD_free.

(** Kernel answers for open: socket() result, then whether setsockopt/connect
    succeeded. *)
Inductive kopen := KO_nosocket | KO_refused (n : nat) | KO_ok (n : nat).

(** fstrm/unix_writer.c:68-126. *)
Definition op_open (w : sockw) (k : kopen) : res * sockw * list fdev :=
  if s_connected w then (r_success, w, [])
  else
    match k with
    | KO_nosocket => (r_failure, mk_sockw false None, [])
    | KO_refused n => (r_failure, mk_sockw false (Some n), [FD_socket n; FD_close n])
    | KO_ok n => (r_success, mk_sockw true (Some n), [FD_socket n])
    end.

(** fstrm/unix_writer.c:128-139; [ok]: close(2) returned 0 (the descriptor is
    released either way). *)
Definition op_close (w : sockw) (ok : bool) : res * sockw * list fdev :=
  if s_connected w then
    let w' := mk_sockw false (s_fd w) in
    match s_fd w with
    | Some n => (if ok then r_success else r_failure, w', [FD_close n])
    | None => (r_failure, w', [])
    end
  else (r_failure, w, []).

(** fstrm/unix_writer.c:141-150. *)
Definition op_read (w : sockw) (need : nat) (s : bytes) (ks : list kread) : option (res * bytes * bytes) :=
  if s_connected w then
    match read_bytes need s [] ks with
    | Some (true, buf, s') => Some (r_success, buf, s')
    | Some (false, buf, s') => Some (r_failure, buf, s')
    | None => None
    end
  else Some (r_failure, [], s).

(** fstrm/unix_writer.c:192-198: only memory is released. *)
Definition op_destroy (w : sockw) : list fdev := [FD_free].

Inductive sockop := SO_open (k : kopen) | SO_close (ok : bool).
Definition do_sockop (w : sockw) (o : sockop) : res * sockw * list fdev :=
  match o with SO_open k => op_open w k | SO_close ok => op_close w ok end.
Fixpoint do_sockops (w : sockw) (os : list sockop) : list res * sockw * list fdev :=
  match os with
  | [] => ([], w, [])
  | o :: os' =>
      let '(r, w1, e1) := do_sockop w o in
      let '(rs, w2, e2) := do_sockops w1 os' in
      (r :: rs, w2, e1 ++ e2)
  end.
(** fstrm/unix_writer.c:200-224: calloc'ed. *)
Definition sock_init : sockw := mk_sockw false None.

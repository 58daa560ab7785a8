(** Specification vocabulary for sockets. *)
From Verif Require Import Bytes Socket.
Local Open Scope nat_scope.

(** Number of answers that deliver data. *)
Definition deliveries (ks : list kread) : nat :=
  length (filter (fun k => match k with KR_some _ => true | _ => false end) ks).

(** [a] is an initial part of [b]. *)
Definition initial_part (a b : bytes) : Prop := exists c, b = a ++ c.

(** Descriptors held by a process after a list of events; [None]: a descriptor
    was closed that was not held. *)
Fixpoint take_fd (n : nat) (l : list nat) : option (list nat) :=
  match l with
  | [] => None
  | m :: l' => if n =? m then Some l' else match take_fd n l' with Some r => Some (m :: r) | None => None end
  end.
Fixpoint fds_after (l : list nat) (ev : list fdev) : option (list nat) :=
  match ev with
  | [] => Some l
  | FD_socket n :: ev' => fds_after (n :: l) ev'
  | FD_close n :: ev' => match take_fd n l with Some l' => fds_after l' ev' | None => None end
  | FD_free :: ev' => fds_after l ev'
  end.

(** What open and close report, in order; [conn]: connected before. *)
Fixpoint sock_results (conn : bool) (os : list sockop) : list res :=
  match os with
  | [] => []
  | SO_open k :: os' =>
      let now := conn || match k with KO_ok _ => true | _ => false end in
      (if now then r_success else r_failure) :: sock_results now os'
  | SO_close ok :: os' => (if conn && ok then r_success else r_failure) :: sock_results false os'
  end.

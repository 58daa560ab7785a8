(** C97: a thread without a connection tries again. *)
From Coq Require Import ZArith.
From Verif Require Import Bytes Bytes_proofs Spec SpecTrace Io Io_proofs SpecStream Control Rdwr Writer Api SpecApi Queue
  Iothr SpecIothr Iothr_proofs SpecComeback Comeback_proofs Prop_Iothr.
Local Open Scope nat_scope.

(** Every round of the I/O thread that begins without a connection (never opened,
    refused, a failed write, a failed handshake) begins by trying to open one,
    unless the last attempt was less than the reopen interval ago; the attempt
    comes before anything is taken from the queues. *)
Theorem C97_tries_again : forall iov_max cts rw t cap fuel dfuel H s o, created iov_max cts rw t -> system cap fuel dfuel t H s o ->
  tries_again (Z.of_N (io_reopen_interval (t_opt t))) (thread_of H).
Proof. exact thread_tries. Qed.
Print Assumptions C97_tries_again.

(** A connection is gone with a call that fails or closes. *)
Lemma ex_lost l1 e l2 : ~ (ev_ok e /\ forall n, fst e <> QClose n) -> forallb (fun e => match fst e with QWrite _ _ => false | _ => true end) (e :: l2) = true ->
  ~ connected (l1 ++ e :: l2).
Proof.
  intros B N0 (k1 & hh & ct & k2 & E & F).
  assert (N : forall hh ct, ~ In (QWrite hh [start_frame ct], ARes r_success) (e :: l2)) by (intros hh' ct' X; apply (proj1 (forallb_forall _ _) N0) in X; discriminate).
  apply app_eq_app in E as (m & [[E1 E2]|[E1 E2]]).
  - destruct m as [|x m]; cbn in E2.
    + injection E2 as X _. apply (N hh ct). left. symmetry. exact X.
    + injection E2 as <- ->. apply B. apply (proj1 (Forall_forall _ _) F). apply in_or_app. right. left. reflexivity.
  - apply (N hh ct). rewrite E2. apply in_or_app. right. left. reflexivity.
Qed.
(** The write of the first batch fails at 10; the thread is without a connection at
    12, too early for a reopen interval of 5 seconds, and opens again at 15. *)
Example ex_reopen : let tr := thread_of ex_F in
  connected (firstn 4 tr) /\
  (round_begins (firstn 14 tr) /\ ~ connected (firstn 14 tr) /\ last_try (firstn 14 tr) = 10%Z /\
   firstn 2 (skipn 14 tr) = [(QClock, AClock 12); (QRemove 0, AEntry None)]) /\
  (round_begins (firstn 20 tr) /\ ~ connected (firstn 20 tr) /\ last_try (firstn 20 tr) = 10%Z /\
   firstn 2 (skipn 20 tr) = [(QClock, AClock 15); (QOpen 0, ARes r_success)]) /\
  io_reopen_interval (t_opt ex_t) = 5%N.
Proof.
  cbv zeta. split; [|split; [|split; [|reflexivity]]].
  - eexists [_; _], 0, (Some [x61]), [_]. split; [vm_compute; reflexivity|]. repeat constructor. discriminate.
  - split; [right; eexists (firstn 13 (thread_of ex_F)); vm_compute; reflexivity|]. split; [|split; vm_compute; reflexivity].
    replace (firstn 14 (thread_of ex_F)) with (firstn 9 (thread_of ex_F) ++ (QClose 0, ARes r_success) :: firstn 4 (skipn 10 (thread_of ex_F))) by (vm_compute; reflexivity).
    apply ex_lost; [intros [_ X]; exact (X 0 eq_refl)|]. vm_compute. reflexivity.
  - split; [right; eexists (firstn 19 (thread_of ex_F)); vm_compute; reflexivity|]. split; [|split; vm_compute; reflexivity].
    replace (firstn 20 (thread_of ex_F)) with (firstn 9 (thread_of ex_F) ++ (QClose 0, ARes r_success) :: firstn 10 (skipn 10 (thread_of ex_F))) by (vm_compute; reflexivity).
    apply ex_lost; [intros [_ X]; exact (X 0 eq_refl)|]. vm_compute. reflexivity.
Qed.
(** The thread of that history, and a statement it does not meet: the interval matters. *)
Example ex_reopen_interval : ~ tries_again 2 (thread_of ex_F).
Proof.
  intro T. destruct ex_reopen as (_ & (R & C & L & E) & _).
  specialize (T (firstn 14 (thread_of ex_F)) (skipn 14 (thread_of ex_F)) (eq_sym (firstn_skipn 14 _)) R C).
  revert E T. generalize (skipn 14 (thread_of ex_F)). unfold comes_back. rewrite L. clear.
  intros [|x [|y r]] E; try discriminate. injection E as -> ->. intro T. apply T. discriminate.
Qed.

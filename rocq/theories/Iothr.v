(** Model of fstrm/iothr.c, function by function. *)
From Verif Require Import Bytes Io Control Rdwr Writer Queue.
Local Open Scope N_scope.
Local Open Scope io_scope.

(** ** Options *)

(** fstrm/iothr.h:219-227 [fstrm_iothr_queue_model]; other values of the enum's
    integer type are [QM_other]. *)
Inductive qmodel := QM_spsc | QM_mpsc | QM_other (v : N).

(** fstrm/iothr.c:28-37. *)
Record iothr_options := mk_iopt {
  io_buffer_hint : N; io_flush_timeout : N; io_input_queue_size : N; io_num_input_queues : N;
  io_output_queue_size : N; io_notify_threshold : N; io_reopen_interval : N; io_queue_model : qmodel }.

(** fstrm/iothr.c:39-48, 117-124, with the constants of fstrm/iothr.h:101-303. *)
Definition iothr_options_default : iothr_options := mk_iopt 8192 1 512 1 64 32 5 QM_spsc.

(** fstrm/iothr.c:133-230.  Arguments are 32-bit unsigned numbers. *)
Definition set_buffer_hint (o : iothr_options) (v : N) : res * iothr_options :=
  if (v <? 1024) || (65536 <? v) then (r_failure, o)
  else (r_success, mk_iopt v (io_flush_timeout o) (io_input_queue_size o) (io_num_input_queues o)
                     (io_output_queue_size o) (io_notify_threshold o) (io_reopen_interval o) (io_queue_model o)).
Definition set_flush_timeout (o : iothr_options) (v : N) : res * iothr_options :=
  if (v <? 1) || (600 <? v) then (r_failure, o)
  else (r_success, mk_iopt (io_buffer_hint o) v (io_input_queue_size o) (io_num_input_queues o)
                     (io_output_queue_size o) (io_notify_threshold o) (io_reopen_interval o) (io_queue_model o)).
Definition set_input_queue_size (o : iothr_options) (v : N) : res * iothr_options :=
  if (v <? 2) || (16384 <? v) || N.odd v then (r_failure, o)
  else (r_success, mk_iopt (io_buffer_hint o) (io_flush_timeout o) v (io_num_input_queues o)
                     (io_output_queue_size o) (io_notify_threshold o) (io_reopen_interval o) (io_queue_model o)).
Definition set_num_input_queues (o : iothr_options) (v : N) : res * iothr_options :=
  if v <? 1 then (r_failure, o)
  else (r_success, mk_iopt (io_buffer_hint o) (io_flush_timeout o) (io_input_queue_size o) v
                     (io_output_queue_size o) (io_notify_threshold o) (io_reopen_interval o) (io_queue_model o)).
(** [iov_max] is the platform constant IOV_MAX. *)
Definition set_output_queue_size (iov_max : N) (o : iothr_options) (v : N) : res * iothr_options :=
  if (v <? 2) || (iov_max <? v) then (r_failure, o)
  else (r_success, mk_iopt (io_buffer_hint o) (io_flush_timeout o) (io_input_queue_size o) (io_num_input_queues o)
                     v (io_notify_threshold o) (io_reopen_interval o) (io_queue_model o)).
Definition set_queue_model (o : iothr_options) (v : qmodel) : res * iothr_options :=
  match v with
  | QM_other _ => (r_failure, o)
  | _ => (r_success, mk_iopt (io_buffer_hint o) (io_flush_timeout o) (io_input_queue_size o) (io_num_input_queues o)
                       (io_output_queue_size o) (io_notify_threshold o) (io_reopen_interval o) v)
  end.
Definition set_notify_threshold (o : iothr_options) (v : N) : res * iothr_options :=
  if v <? 1 then (r_failure, o)
  else (r_success, mk_iopt (io_buffer_hint o) (io_flush_timeout o) (io_input_queue_size o) (io_num_input_queues o)
                     (io_output_queue_size o) v (io_reopen_interval o) (io_queue_model o)).
Definition set_reopen_interval (o : iothr_options) (v : N) : res * iothr_options :=
  if (v <? 1) || (600 <? v) then (r_failure, o)
  else (r_success, mk_iopt (io_buffer_hint o) (io_flush_timeout o) (io_input_queue_size o) (io_num_input_queues o)
                     (io_output_queue_size o) (io_notify_threshold o) v (io_queue_model o)).

(** ** The object *)

(** fstrm/iothr.c:67-114.  [t_outq] is outq_entries[0..outq_idx) (outq_iov holds
    the same data pointers and lengths); the input queues, shutting_down and the
    condition variable are the environment's ([QRemove], [QShutting], [QWait]). *)
Record iothr := mk_iothr {
  t_opt : iothr_options;
  t_writer : writer;
  t_opened : bool;
  t_last_open : Z;
  t_outq : list entry;
  t_nbytes : N }.
Definition t_set_writer (t : iothr) (w : writer) : iothr :=
  mk_iothr (t_opt t) w (t_opened t) (t_last_open t) (t_outq t) (t_nbytes t).
Definition t_set_opened (t : iothr) (b : bool) : iothr :=
  mk_iothr (t_opt t) (t_writer t) b (t_last_open t) (t_outq t) (t_nbytes t).
Definition t_set_last (t : iothr) (l : Z) : iothr :=
  mk_iothr (t_opt t) (t_writer t) (t_opened t) l (t_outq t) (t_nbytes t).
Definition t_set_outq (t : iothr) (q : list entry) (n : N) : iothr :=
  mk_iothr (t_opt t) (t_writer t) (t_opened t) (t_last_open t) q n.

(** fstrm/iothr.c:232-336.  [clocks]: suitable clocks were found.  On the failure
    path fstrm_iothr_destroy is applied to the incomplete object: it joins a
    thread that was never created. *)
Definition iothr_init (iov_max : N) (clocks : bool) (oopt : option iothr_options) (w : writer) : outc iothr :=
  let opt := match oopt with Some o => o | None => iothr_options_default end in
  let opt := if iov_max <? io_output_queue_size opt
             then mk_iopt (io_buffer_hint opt) (io_flush_timeout opt) (io_input_queue_size opt) (io_num_input_queues opt)
                          iov_max (io_notify_threshold opt) (io_reopen_interval opt) (io_queue_model opt)
             else opt in
  if negb clocks then Err (FUb ub_contract)
  else if (1 <=? io_num_input_queues opt) && negb (queue_init_ok (io_input_queue_size opt)) then Err (FUb ub_contract)
  else Ok (mk_iothr opt w false 0 [] 0).

(** fstrm/iothr.c:387-400 with any number of threads calling it: [G_lock] waits
    for get_queue_lock, [G_check] is the test at 393, [G_incr] the increment at
    395, [G_unlock] the unlock; the result is the index of the queue.  Calls are
    logged in the order they unlock. *)
Inductive gpc := G_idle | G_lock | G_check | G_incr (q : N) | G_unlock (r : option N).
Record gstate := mk_g { g_idx : N; g_owner : option nat; g_pc : nat -> gpc; g_log : list (nat * option N) }.
Definition g_goto (s : gstate) (i : nat) (p : gpc) : nat -> gpc := fun j => if Nat.eqb i j then p else g_pc s j.
Definition g_step (num : N) (s : gstate) (i : nat) : gstate :=
  match g_pc s i with
  | G_idle => mk_g (g_idx s) (g_owner s) (g_goto s i G_lock) (g_log s)
  | G_lock =>
      match g_owner s with
      | None => mk_g (g_idx s) (Some i) (g_goto s i G_check) (g_log s)
      | Some _ => s
      end
  | G_check =>
      mk_g (g_idx s) (g_owner s) (g_goto s i (if g_idx s <? num then G_incr (g_idx s) else G_unlock None)) (g_log s)
  | G_incr q => mk_g (g_idx s + 1) (g_owner s) (g_goto s i (G_unlock (Some q))) (g_log s)
  | G_unlock r => mk_g (g_idx s) None (g_goto s i G_idle) (g_log s ++ [(i, r)])
  end.
Definition g_run (num : N) (sch : list nat) : gstate :=
  fold_left (g_step num) sch (mk_g 0 None (fun _ => G_idle) []).
(** fstrm/iothr.c:402-411. *)
Definition get_input_queue_idx (num idx : N) : option N :=
  if idx <? num then Some idx else None.

(** fstrm/iothr.c:420-446.  [insert] is the queue's answer (accepted? space
    left); result: code, entry handed to the queue, condition variable signalled. *)
Definition iothr_submit (opt : iothr_options) (shutting : bool) (data : option bytes) (len : N) (has_free : bool) (id : nat)
    (insert : entry -> bool * N) : res * option entry * bool :=
  if shutting then (r_failure, None, false)
  else
    match data with
    | None => (r_invalid, None, false)
    | Some d =>
        if (len <? 1) || (2 ^ 32 - 1 <=? len) then (r_invalid, None, false)
        else
          let e := mk_entry id (firstn (N.to_nat len) d) has_free in
          let (ok, space) := insert e in
          if ok then (r_success, Some e, space =? io_notify_threshold opt) else (r_again, None, false)
    end.

(** ** The I/O thread *)

(** fstrm/iothr.c:338-343. *)
Definition free_bytes (e : entry) : io unit := if e_free e then ask_unit (QFree e) else Ret tt.
Fixpoint free_all (es : list entry) : io unit :=
  match es with [] => Ret tt | e :: r => _ <- free_bytes e ;; free_all r end.

(** fstrm/iothr.c:448-455. *)
Definition iothr_close (t : iothr) : io iothr :=
  if t_opened t then
    ' (_, w) <- writer_close (t_writer t) ;; Ret (t_set_writer (t_set_opened t false) w)
  else Ret t.

(** fstrm/iothr.c:457-477. *)
Definition flush_output (t : iothr) : io iothr :=
  t <- (if t_opened t && negb (match t_outq t with [] => true | _ => false end) then
          ' (x, w) <- writer_writev (t_writer t) (map e_data (t_outq t)) ;;
          let t := t_set_writer t w in
          if negb (res_eqb x r_success) then iothr_close t else Ret t
        else Ret t) ;;
  _ <- free_all (t_outq t) ;;
  Ret (t_set_outq t [] 0).

(** fstrm/iothr.c:479-495.  outq_nbytes is 32 bits wide, the sum is a size_t. *)
Definition maybe_flush_output (t : iothr) (nbytes : N) : io iothr :=
  if io_output_queue_size (t_opt t) <? lenN (t_outq t) then Fail FAbort
  else match t_outq t with
       | [] => Ret t
       | _ =>
           if (io_output_queue_size (t_opt t) <=? lenN (t_outq t)) || (io_buffer_hint (t_opt t) <=? t_nbytes t + nbytes)
           then flush_output t else Ret t
       end.

(** fstrm/iothr.c:497-522.  Storing beyond the arrays is undefined. *)
Definition process_queue_entry (t : iothr) (e : entry) : io iothr :=
  if t_opened t then
    let nbytes := 4 + lenN (e_data e) in
    t <- maybe_flush_output t nbytes ;;
    if io_output_queue_size (t_opt t) <=? lenN (t_outq t) then Fail (FUb ub_store_oob)
    else Ret (t_set_outq t (t_outq t ++ [e]) (wrap32 (t_nbytes t + nbytes)))
  else _ <- free_bytes e ;; Ret t.

(** fstrm/iothr.c:524-542: queues [i], [i+1], ... ([n] of them). *)
Fixpoint process_queues_from (n i : nat) (t : iothr) (total : N) : io (N * iothr) :=
  match n with
  | O => Ret (total, t)
  | S n' =>
      oe <- ask_entry i ;;
      match oe with
      | Some e => t <- process_queue_entry t e ;; process_queues_from n' (S i) t (total + 1)
      | None => process_queues_from n' (S i) t total
      end
  end.
Definition process_queues (t : iothr) : io (N * iothr) :=
  process_queues_from (N.to_nat (io_num_input_queues (t_opt t))) 0 t 0.

(** fstrm/iothr.c:544-555. *)
Definition iothr_open (t : iothr) : io iothr :=
  ' (x, w) <- writer_open (t_writer t) ;;
  Ret (t_set_opened (t_set_writer t w) (res_eqb x r_success)).

(** fstrm/iothr.c:557-582; whole seconds. *)
Definition maybe_open (t : iothr) : io iothr :=
  if t_opened t then Ret t
  else
    now <- ask_clock ;;
    if (now - t_last_open t <? Z.of_N (io_reopen_interval (t_opt t)))%Z then Ret t
    else iothr_open (t_set_last t now).

(** fstrm/iothr.c:608: [fuel] bounds the rounds. *)
Fixpoint drain (fuel : nat) (t : iothr) : io iothr :=
  match fuel with
  | O => Fail FFuel
  | S fuel' => ' (n, t) <- process_queues t ;; if n =? 0 then Ret t else drain fuel' t
  end.

(** fstrm/iothr.c:603-640; the deadline is only passed to the wait. *)
Fixpoint thr_loop (fuel dfuel : nat) (t : iothr) : io iothr :=
  match fuel with
  | O => Fail FFuel
  | S fuel' =>
      sd <- ask_bool QShutting ;;
      if sd then
        t <- drain dfuel t ;;
        t <- flush_output t ;;
        iothr_close t
      else
        t <- maybe_open t ;;
        ' (n, t) <- process_queues t ;;
        if negb (n =? 0) then thr_loop fuel' dfuel t
        else
          _ <- ask_clock ;;
          timedout <- ask_bool (QWait (io_flush_timeout (t_opt t))) ;;
          if timedout then t <- flush_output t ;; thr_loop fuel' dfuel t
          else thr_loop fuel' dfuel t
  end.

(** fstrm/iothr.c:596-602. *)
Definition iothr_thr (fuel dfuel : nat) (t : iothr) : io iothr :=
  t <- maybe_open t ;; thr_loop fuel dfuel t.

(** fstrm/iothr.c:345-359. *)
Fixpoint free_queue (fuel i : nat) : io unit :=
  match fuel with
  | O => Fail FFuel
  | S fuel' =>
      oe <- ask_entry i ;;
      match oe with
      | Some e => _ <- free_bytes e ;; free_queue fuel' i
      | None => Ret tt
      end
  end.
Fixpoint free_queues (n i dfuel : nat) : io unit :=
  match n with
  | O => Ret tt
  | S n' => _ <- free_queue dfuel i ;; free_queues n' (S i) dfuel
  end.

(** The thread followed by what fstrm_iothr_destroy does after joining it
    (fstrm/iothr.c:361-385). *)
Definition iothr_life (fuel dfuel : nat) (t : iothr) : io unit :=
  t <- iothr_thr fuel dfuel t ;;
  _ <- writer_destroy (t_writer t) ;;
  free_queues (N.to_nat (io_num_input_queues (t_opt t))) 0 dfuel.

(** C89: what fstrm_capture says about its files and connections. *)
From Coq Require Import ZArith Lia.
From Verif Require Import Bytes Spec SpecTrace SpecStream Capture SpecCapture Capture5_proofs Prop_Capture
  CaptureSay SpecCaptureSay CaptureSay_proofs CaptureSay2_proofs CaptureSay3_proofs.
Import ListNotations.
Local Open Scope N_scope.

(** The model with messages makes the same runs as the one without. *)
Theorem C89_same_runs : forall e a debug H c, reach e a H c <-> exists t, speaks e a debug H c t.
Proof. exact same_runs. Qed.
Print Assumptions C89_same_runs.
Theorem C89_same_end : forall e a c t, plain (say_shutdown e a c t) = shutdown e c.
Proof. exact plain_shutdown. Qed.
Print Assumptions C89_same_end.

(** At any time, whatever the peers, signals, clock and failures: the files
    reported closed are all the finished ones, each under its name and in
    order, with the number of items in it, START and STOP included, and its
    length; the files reported opened are these and the current one. *)
Theorem C89_files : forall e a debug H c t, speaks e a debug H c t ->
  exists done name cur,
    x_outs c = map (fun f => (fst f, whole (a_ctype a) (snd f))) done ++ [(name, start_frame (Some (a_ctype a)) ++ concat cur)] /\
    concat (map snd done) ++ cur = stored (x_log c) /\
    files_said (t_said t) = map (due (a_ctype a)) done /\ names_said (t_said t) = map fst done ++ [name].
Proof. exact files_reported. Qed.
Print Assumptions C89_files.

(** After a successful end all files have been reported. *)
Theorem C89_all_files : forall e a debug H c t c' t', speaks e a debug H c t -> say_shutdown e a c t = SGo c' t' ->
  exists files,
    x_outs c' = map (fun f => (fst f, whole (a_ctype a) (snd f))) files /\
    concat (map snd files) = stored (x_log c) /\
    files_said (t_said t') = map (due (a_ctype a)) files /\ names_said (t_said t') = map fst files.
Proof. exact shutdown_reported. Qed.
Print Assumptions C89_all_files.

(** A connection is reported exactly when it is over and the level is INFO, once,
    with the number and total size of the items stored for it. *)
Theorem C89_connections : forall e a debug H c t, speaks e a debug H c t -> forall id,
  conns_said id (t_said t) =
  if (3 <=? debug)%Z && existsb (fun x => match x with E_accept i => Nat.eqb i id | _ => false end) H &&
     match find_conn id (x_conns c) with None => true | _ => false end
  then [(shown (lenN (stores (acts_of id (x_log c)))), shown (lenN (concat (stores (acts_of id (x_log c))))))] else [].
Proof. exact conns_reported. Qed.
Print Assumptions C89_connections.

(** Numbers below 2^63 are printed as they are. *)
Theorem C89_numbers : forall n, n < 2 ^ 63 -> shown n = Z.of_N n.
Proof. exact shown_small. Qed.
Print Assumptions C89_numbers.

(** The run of Prop_Capture.v at level INFO: two connections, the second closed,
    one rotation, a skipped frame; then the end of the server. *)
Example C89_run : exists t, speaks ex_env ex_args 3 ex_H ex_c t /\
  t_said t = [Opened [x66]; Accepted 1; Accepted 2; Skipping 1 84; Got_usr1; Closed [x66] 4 44; Opened [x66]; Closing 2 1 5] /\
  match say_shutdown ex_env ex_args ex_c t with
  | SGo _ t' => t_said t' = t_said t ++ [Going_down; Closed [x66] 3 40]
  | _ => False
  end.
Proof.
  destruct (tell_sound ex_env ex_args 3 ex_H ex_c ex_run) as (t & E & S). exists t. split; [exact S|].
  assert (X : match tell ex_env ex_args 3 ex_H with SGo _ t => t | _ => t end = t) by (rewrite E; reflexivity).
  rewrite <- X. clear X E S. vm_compute. split; reflexivity.
Qed.

(** At level WARNING and above each frame too large for the buffer is reported,
    once, as soon as its header is there, with its length; nothing else is, and
    below that level nothing.  [ps] is what the connection sent, cut into frames
    (and the first bytes of headers with lengths of 2^32-4 or more, see C26),
    and [rest] what is left of it: the beginning of a frame, or what the server
    hung up on. *)
Theorem C89_skips : forall e a debug H c t id, speaks e a debug H c t -> let hw := capture_highwater a in
  exists ps rest, Forall piece_ok ps /\ received id H = pieces ps ++ rest /\
    stores (acts_of id (x_log c)) = map piece_bytes (filter (kept_piece hw) ps) /\
    (incomplete rest \/ find_conn id (x_conns c) = None /\ refused hw rest) /\
    skips_said id (t_said t) =
      if (2 <=? debug)%Z then map (fun p => lenN (piece_bytes p)) (filter (too_large hw) ps) ++ begun hw rest else [].
Proof. exact skips_reported. Qed.
Print Assumptions C89_skips.
(** A frame of 84 bytes in three reads, one of 24, one of 104 of which only
    the header is there yet. *)
Definition ex_skips : list ev :=
  [E_accept 1; E_data 1 (be32 80 ++ repeat x01 30); E_data 1 (repeat x01 20);
   E_data 1 (repeat x01 30 ++ be32 20 ++ repeat x02 20 ++ be32 100)].
Definition ex_skips_c : ctx := match play0 ex_env ex_args ex_skips with Some c => c | None => ex_c end.
Example C89_skips_case : exists t, speaks ex_env ex_args 2 ex_skips ex_skips_c t /\ skips_said 1 (t_said t) = [84; 104] /\
  received 1 ex_skips = pieces [P_frame (F_data (repeat x01 80)); P_frame (F_data (repeat x02 20))] ++ be32 100 /\
  stores (acts_of 1 (x_log ex_skips_c)) = [data_frame (repeat x02 20)] /\ begun (capture_highwater ex_args) (be32 100) = [104].
Proof.
  destruct (tell_sound ex_env ex_args 2 ex_skips ex_skips_c) as (t & E & S); [apply play0_sound; vm_compute; reflexivity|].
  exists t. split; [exact S|].
  assert (X : match tell ex_env ex_args 2 ex_skips with SGo _ t => t | _ => t end = t) by (rewrite E; reflexivity).
  rewrite <- X. clear X E S. split; [vm_compute; reflexivity|]. split; [vm_compute; reflexivity|]. split; vm_compute; reflexivity.
Qed.

(** A server that gives up while running or at the start says why. *)
Theorem C89_failures_explained_partial :
  (forall e a debug H c t x c' t', speaks e a debug H c t -> legal a H c x -> say_step e a debug x c t = SExit c' t' ->
    exists l m, t_said t' = l ++ [m] /\ complaint m) /\
  (forall e a c' t', say_boot e a = SExit c' t' -> exists l m, t_said t' = l ++ [m] /\ complaint m).
Proof. split; [exact exit_explained|intros e a; exact (boot_explained e a 0%Z)]. Qed.
Print Assumptions C89_failures_explained_partial.

(** A disk that is full from the second fwrite() on. *)
Definition ex_full : env :=
  mk_env (fun n => Z.of_nat n) (fun t => Some (repeat x61 (Z.to_nat t))) (fun _ => true) (fun n => Nat.ltb n 2) (fun _ => true).
Example C89_explained_case : exists c t c' t', speaks ex_full ex_args 0 [E_accept 1] c t /\
  legal ex_args [E_accept 1] c (E_data 1 (data_frame [x01])) /\
  say_step ex_full ex_args 0 (E_data 1 (data_frame [x01])) c t = SExit c' t' /\ t_said t' = [Opened [x66]; Bad_fwrite].
Proof.
  eexists _, _, _, _. split.
  - change [E_accept 1] with ([] ++ [E_accept 1]). eapply speaks_step; [apply speaks_boot; vm_compute; reflexivity| |vm_compute; reflexivity].
    split; [reflexivity|]. intros [].
  - split; [split; [discriminate|]; eexists; split; vm_compute; [reflexivity|discriminate]|]. split; vm_compute; reflexivity.
Qed.

(** But not one that cannot finish its last file: its last words are those of
    every orderly end, and only the exit status tells. *)
Theorem C89_failures_explained_refuted :
  (forall e a debug H c t c' t', speaks e a debug H c t -> say_shutdown e a c t = SExit c' t' ->
    t_said t' = t_said t ++ [Going_down]) /\
  exists c t c' t', speaks ex_full ex_args 0 [E_accept 1] c t /\ say_shutdown ex_full ex_args c t = SExit c' t' /\
    t_said t' = [Opened [x66]; Going_down].
Proof.
  split; [exact shutdown_mute|]. eexists _, _, _, _. split.
  - change [E_accept 1] with ([] ++ [E_accept 1]). eapply speaks_step; [apply speaks_boot; vm_compute; reflexivity| |vm_compute; reflexivity].
    split; [reflexivity|]. intros [].
  - split; vm_compute; reflexivity.
Qed.
Print Assumptions C89_failures_explained_refuted.

(** What holds for every client of a writer holds for the I/O thread. *)
From Verif Require Import Bytes Spec Bytes_proofs Io Io_proofs SpecTrace SpecStream Control Rdwr Rdwr_proofs Writer Api SpecApi
  Writer_proofs Writer2_proofs Writer3_proofs Writer4_proofs Iothr SpecIothr SpecClient Iothr_proofs Iothr2_proofs Iothr7_proofs.
Local Open Scope nat_scope.

Lemma part_tsteps tr : forall s, tsteps s (writer_part tr) = tsteps s tr.
Proof.
  induction tr as [|[q a] r IH]; intro s; [reflexivity|]. unfold writer_part in *. cbn [filter].
  destruct q; cbn [of_writer fst tsteps tstep]; try apply IH; destruct (tstep _ _) || destruct a; try reflexivity; try apply IH;
    destruct s; try reflexivity; apply IH.
Qed.
Lemma part_state tr : transport_state (writer_part tr) = transport_state tr.
Proof. apply part_tsteps. Qed.

Lemma thread_legal iov_max cts rw t fuel dfuel tr o : created iov_max cts rw t -> runs (iothr_life fuel dfuel t) tr o ->
  transport_state tr <> None /\ (o = Done tt -> transport_state tr = Some TDestroyed).
Proof.
  intros C R. destruct (thread_is_client _ _ _ _ _ _ _ _ C R) as (iovm & w & cs & o' & Hi & Hw & F & RW & D).
  destruct C as (FR & _). destruct (writer_legal iovm cts rw w cs _ _ FR Hi Hw F RW) as [L K]. rewrite part_state in L, K.
  split; [exact L|]. intro E. destruct (D E) as (rs & x & ->). exact K.
Qed.
Lemma thread_left_open iov_max cts rw t fuel dfuel tr : created iov_max cts rw t -> runs (iothr_life fuel dfuel t) tr (Done tt) ->
  left_open (writer_part tr) -> exists ss b, delivered tr = ss ++ [b] /\ stalled_handshake (rw_has_read rw) cts b.
Proof.
  intros C R LO. destruct (thread_is_client _ _ _ _ _ _ _ _ C R) as (iovm & w & cs & o' & Hi & Hw & F & RW & D).
  destruct C as (FR & _). destruct (D eq_refl) as (rs & x & ->).
  destruct (writer_left_open iovm cts rw w cs _ _ _ FR Hi Hw F RW LO) as (ss & b & E & S). exists ss, b. split; [|exact S]. rewrite <- E.
  unfold delivered, sessions. clear. generalize (@nil bytes). induction tr as [|[q a] r IH]; intro s; [reflexivity|]. unfold writer_part in *. cbn [filter].
  destruct q; cbn [of_writer fst fold_left]; rewrite IH; try reflexivity; destruct a; reflexivity.
Qed.
Lemma thread_one_way iov_max cts rw t fuel dfuel tr : created iov_max cts rw t -> rw_has_read rw = false ->
  Forall (fun ct => (lenN ct <= CT_MAX)%N) cts -> runs (iothr_life fuel dfuel t) tr (Done tt) -> ~ left_open (writer_part tr).
Proof.
  intros C B L R. destruct (thread_is_client _ _ _ _ _ _ _ _ C R) as (iovm & w & cs & o' & Hi & Hw & F & RW & D).
  destruct C as (FR & _). destruct (D eq_refl) as (rs & x & ->). eapply writer_file_closed; eassumption.
Qed.

Lemma smallp_wclose w : smallp (writer_close w).
Proof. unfold writer_close. sml; try apply smallp_wcf; try apply smallp_close; apply smallp_rc. Qed.
Lemma smallp_do c w : smallp (do_wcall w c).
Proof.
  destruct c; cbn [do_wcall].
  - apply smallp_open.
  - unfold writer_write. sml; apply smallp_writev.
  - apply smallp_writev.
  - apply smallp_wclose.
  - unfold writer_get_control. sml; apply smallp_maybe_open.
Qed.
Lemma smallp_calls cs : forall w, smallp (do_wcalls w cs).
Proof. induction cs as [|c cs IH]; intro w; cbn [do_wcalls]; sml; [apply smallp_do|apply IH]. Qed.
Lemma smallp_life w cs : smallp (writer_life w cs).
Proof. unfold writer_life, writer_destroy, rdwr_destroy. sml; try apply smallp_calls; apply smallp_wclose. Qed.
Lemma thread_write_size iov_max cts rw t fuel dfuel tr o h iov a : created iov_max cts rw t -> runs (iothr_life fuel dfuel t) tr o ->
  In (QWrite h iov, a) tr -> length iov <= 256.
Proof.
  intros C R J. destruct (thread_is_client _ _ _ _ _ _ _ _ C R) as (iovm & w & cs & o' & _ & _ & _ & RW & _).
  pose proof (wp_sound _ _ _ _ _ (smallp_life w cs [] (Forall_nil _)) RW) as F. cbn in F. rewrite Forall_forall in F.
  apply (F (QWrite h iov, a)). apply filter_In. split; [exact J|reflexivity].
Qed.

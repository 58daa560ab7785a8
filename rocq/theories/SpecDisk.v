(** Specification vocabulary: runs in which no stdio call met an error. *)
From Verif Require Import Bytes Io Rdwr Stdio.
Local Open Scope nat_scope.

(** fclose() of the stream, if there is one, gets everything pending to the file. *)
Definition closes_well (D : nat -> dact) (f : dfile) : Prop :=
  match d_fp f with
  | Some buf => da_ok (D (d_tick f)) = true /\ length buf <= da_out (D (d_tick f))
  | None => True
  end.

(** No fwrite() meets an error (one of no bytes reports 0 members and the
    stream is closed). *)
Fixpoint writes_well (D : nat -> dact) (f : dfile) (iov : list bytes) : Prop :=
  match d_fp f, iov with
  | Some buf, b :: iov' =>
      let '(content, buf', _) := c_fwrite (D (d_tick f)) (d_content f) buf b in
      let f' := mk_dfile content (Some buf') (S (d_tick f)) in
      match b with
      | [] => closes_well D f'
      | _ => da_ok (D (d_tick f)) = true /\ writes_well D f' iov'
      end
  | _, _ => True
  end.

Definition goes_well (D : nat -> dact) (f : dfile) (q : query) : Prop :=
  match q with
  | QOpen _ => da_ok (D (d_tick f)) = true
  | QClose _ => closes_well D f
  | QWrite _ iov => writes_well D f iov
  | _ => True
  end.

Fixpoint no_disk_error (D : nat -> dact) (f : dfile) (tr : trace) : Prop :=
  match tr with
  | [] => True
  | (q, _) :: tr' => goes_well D f q /\ no_disk_error D (fst (disk_ops D f q)) tr'
  end.

(** Specification vocabulary for the messages of fstrm_capture. *)
From Coq Require Import ZArith.
From Verif Require Import Bytes Spec SpecTrace SpecStream Capture SpecCapture CaptureSay.
Import ListNotations.
Local Open Scope N_scope.

(** Runs, compare SpecCapture.v [reach]. *)
Inductive speaks (e : env) (a : args) (debug : Z) : list ev -> ctx -> tally -> Prop :=
| speaks_boot c t : say_boot e a = SGo c t -> speaks e a debug [] c t
| speaks_step H c t x c' t' : speaks e a debug H c t -> legal a H c x ->
    say_step e a debug x c t = SGo c' t' -> speaks e a debug (H ++ [x]) c' t'.

(** The same without the messages. *)
Definition plain {A} (x : sres A) : ores A :=
  match x with
  | SGo v _ => Go v
  | SExit c _ => Exit c
  | SHang => Hang
  | SBroke f => Broke f
  end.

(** How the number [n] is printed: as a signed number of 64 bits. *)
Definition shown (n : N) : Z := ((Z.of_N n + 2 ^ 63) mod 2 ^ 64 - 2 ^ 63)%Z.

(** The messages of one kind. *)
Definition files_said (l : list saying) : list (bytes * (Z * Z)) :=
  concat (map (fun m => match m with Closed n x y => [(n, (x, y))] | _ => [] end) l).
Definition names_said (l : list saying) : list bytes :=
  concat (map (fun m => match m with Opened n => [n] | _ => [] end) l).
Definition conns_said (id : nat) (l : list saying) : list (Z * Z) :=
  concat (map (fun m => match m with Closing i x y => if Nat.eqb i id then [(x, y)] else [] | _ => [] end) l).

Definition skips_said (id : nat) (l : list saying) : list N :=
  concat (map (fun m => match m with Skipping i n => if Nat.eqb i id then [n] else [] | _ => [] end) l).

(** The length, header included, of the frame that begins [bs], once its header
    is there (and the length can be one). *)
Definition announced (bs : bytes) : option N :=
  if lenN bs <? 4 then None
  else let n := be_value (firstn 4 bs) in
  if 2 ^ 32 - 4 <=? n then None
  else if 0 <? n then Some (4 + n)
  else if lenN bs <? 8 then None
  else let n := be_value (firstn 4 (skipn 4 bs)) in
  if (4 <=? n) && (n <=? CTL_MAX) then Some (8 + n) else None.
(** Frames too large for a buffer of [hw] bytes: among the pieces of a stream,
    and begun at its end. *)
Definition too_large (hw : N) (p : piece) : bool :=
  match p with P_frame f => hw <? lenN (wire1 f) | P_frag _ => false end.
Definition begun (hw : N) (bs : bytes) : list N :=
  match announced bs with Some n => if hw <? n then [n] else [] | None => [] end.
(** What the server hangs up on: an impossible header, or (in some states) a
    control frame. *)
Definition refused (hw : N) (bs : bytes) : Prop :=
  bad_header bs \/ exists p more, frame_ok (F_ctl p) /\ lenN (wire1 (F_ctl p)) <= hw /\ bs = wire1 (F_ctl p) ++ more.

(** A finished file named [fst f] holding the items [snd f], and the message due
    for it: START and STOP are counted. *)
Definition whole (ct : bytes) (items : list bytes) : bytes := start_frame (Some ct) ++ concat items ++ stop_frame.
Definition due (ct : bytes) (f : bytes * list bytes) : bytes * (Z * Z) :=
  (fst f, (shown (2 + lenN (snd f)), shown (lenN (whole ct (snd f))))).

(** A message telling what went wrong. *)
Definition complaint (m : saying) : Prop :=
  match m with
  | Bad_format | Bad_open _ | Bad_start _ | Bad_fwrite | Bad_close | Bad_reopen => True
  | _ => False
  end.

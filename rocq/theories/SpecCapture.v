(** What fstrm_capture is expected to do, stated over the bytes its peers send
    and the files it leaves, without reference to how it buffers them. *)
From Coq Require Import ZArith.
From Verif Require Import Bytes Spec SpecTrace SpecStream Capture.
Import ListNotations.
Local Open Scope N_scope.

(** ** The frames of a byte stream *)
Inductive frame := F_data (p : bytes) | F_ctl (p : bytes).
Definition wire1 (f : frame) : bytes :=
  match f with
  | F_data p => data_frame p
  | F_ctl p => be32 0 ++ be32 (lenN p) ++ p
  end.
Definition wire (fs : list frame) : bytes := concat (map wire1 fs).
Definition frame_ok (f : frame) : Prop :=
  match f with
  | F_data p => data_ok p
  | F_ctl p => 4 <= lenN p <= CTL_MAX
  end.
(** A control frame header announcing an impossible length. *)
Definition bad_header (bs : bytes) : Prop :=
  exists n more, bs = be32 0 ++ be32 n ++ more /\ n < 2 ^ 32 /\ (n < 4 \/ CTL_MAX < n).
(** Bytes that do not yet hold a frame. *)
Definition incomplete (bs : bytes) : Prop :=
  (forall f more, frame_ok f -> bs <> wire1 f ++ more) /\ ~ bad_header bs.
(** No frame of the stream announces a length of 2^32-4 or more. *)
Definition tame (bs : bytes) : Prop :=
  forall fs rest, Forall frame_ok fs -> bs = wire fs ++ rest ->
  4 <= lenN rest -> be_value (firstn 4 rest) < 2 ^ 32 - 4.

(** ** The reaction to a stream *)
Inductive phase := Ph_ready | Ph_start | Ph_data | Ph_stop.

(** A control frame that moves the handshake forward, for a server storing
    content type [ct]. *)
Inductive advance (ct : bytes) : phase -> bytes -> list act -> phase -> Prop :=
| ad_ready cts : ctl_ok T_READY cts -> cts = [] \/ In ct cts ->
    advance ct Ph_ready (ctl_payload T_READY cts) [Answer (ctl_frame T_ACCEPT [ct])] Ph_start
| ad_start cts : ctl_ok T_START cts -> cts = [] \/ In ct cts ->
    advance ct Ph_start (ctl_payload T_START cts) [] Ph_data
| ad_stop :
    advance ct Ph_data (ctl_payload T_STOP []) [Answer finish_frame] Ph_stop.

(** A server with read buffer [hw] stores data frames verbatim, answers the
    handshake, ignores frames too large for the buffer, and closes the
    connection on any other control frame (or one of 512 bytes and more with
    its header).  The last index is the phase reached, [None] = closed. *)
Inductive reacts (hw : N) (ct : bytes) : phase -> bytes -> list act -> option phase -> Prop :=
| re_wait ph bs : incomplete bs -> reacts hw ct ph bs [] (Some ph)
| re_skip ph f bs a q : frame_ok f -> hw < lenN (wire1 f) ->
    reacts hw ct ph bs a q -> reacts hw ct ph (wire1 f ++ bs) a q
| re_data ph p bs a q : data_ok p -> lenN (data_frame p) <= hw ->
    reacts hw ct ph bs a q ->
    reacts hw ct ph (data_frame p ++ bs) (Store (data_frame p) :: a) q
| re_ctl ph p x ph' bs a q : frame_ok (F_ctl p) -> lenN (wire1 (F_ctl p)) <= hw ->
    lenN (wire1 (F_ctl p)) < 512 -> advance ct ph p x ph' ->
    reacts hw ct ph' bs a q ->
    reacts hw ct ph (wire1 (F_ctl p) ++ bs) (x ++ a) q
| re_refuse ph p bs : frame_ok (F_ctl p) -> lenN (wire1 (F_ctl p)) <= hw ->
    (lenN (wire1 (F_ctl p)) < 512 -> ~ exists x ph', advance ct ph p x ph') ->
    reacts hw ct ph (wire1 (F_ctl p) ++ bs) [Hangup] None
| re_badlen ph bs : bad_header bs -> reacts hw ct ph bs [Hangup] None.

(** ** Runs of the server *)
Definition received (id : nat) (H : list ev) : bytes :=
  concat (map (fun x => match x with
                        | E_data i b => if Nat.eqb i id then b else []
                        | _ => [] end) H).
Definition accepted (id : nat) (H : list ev) : Prop := In (E_accept id) H.

(** What libevent promises: the listener's callback runs only while it is
    enabled (a connection gets a new identity), the others only for
    connections not yet closed; a read delivers at least one byte and never
    takes the input buffer beyond the read watermark
    (bufferevent_setwatermark, src/fstrm_capture.c:1104). *)
Definition legal (a : args) (H : list ev) (c : ctx) (x : ev) : Prop :=
  match x with
  | E_accept id => x_listen c = true /\ ~ accepted id H
  | E_data id chunk =>
      chunk <> [] /\
      exists k, find_conn id (x_conns c) = Some k /\ lenN (k_buf k ++ chunk) <= capture_highwater a
  | E_written id | E_gone id => find_conn id (x_conns c) <> None
  | E_sigusr1 | E_sighup => True
  end.

Inductive reach (e : env) (a : args) : list ev -> ctx -> Prop :=
| reach_boot c : boot e a = Go c -> reach e a [] c
| reach_step H c x c' : reach e a H c -> legal a H c x -> step e a x c = Go c' ->
    reach e a (H ++ [x]) c'.

(** What the server did for one connection, and what it stored altogether. *)
Definition acts_of (id : nat) (l : list (nat * act)) : list act :=
  concat (map (fun p => if Nat.eqb (fst p) id then [snd p] else []) l).
Definition stored (l : list (nat * act)) : list bytes :=
  concat (map (fun p => match snd p with Store b => [b] | _ => [] end) l).
Definition answers (l : list act) : list bytes :=
  concat (map (fun x => match x with Answer b => [b] | _ => [] end) l).
Definition stores (l : list act) : list bytes :=
  concat (map (fun x => match x with Store b => [b] | _ => [] end) l).

(** The phase of a connection still being served. *)
Definition phase_of (s : conn_state) : phase :=
  match s with
  | READING_READY => Ph_ready | READING_START => Ph_start
  | READING_DATA => Ph_data | STOPPED => Ph_stop
  end.

(** The contents of a finished output file. *)
Definition capture_file (ct : bytes) (ds : list bytes) : bytes :=
  start_frame (Some ct) ++ datas ds ++ stop_frame.

(** The frames of a stream that the server is to keep: data frames fitting
    its buffer. *)
Definition kept (hw : N) (f : frame) : bool :=
  match f with F_data p => lenN (data_frame p) <=? hw | F_ctl _ => false end.

(** Frames that take no part in the handshake: data, or too large. *)
Definition idle (hw : N) (f : frame) : Prop :=
  frame_ok f /\ match f with F_data _ => True | F_ctl _ => hw < lenN (wire1 f) end.

(** Every read delivers at most [m] bytes. *)
Definition reads_below (m : N) (H : list ev) : Prop :=
  forall id chunk, In (E_data id chunk) H -> lenN chunk <= m.

(** The environment lets the server answer its peers, resp. write its files. *)
Definition sends (e : env) : Prop := forall n, e_send e n = true.
Definition output_works (e : env) : Prop :=
  (forall n, e_fwrite e n = true) /\ (forall n, e_open e n = true) /\ (forall t, e_strftime e t <> None).

(** The clock does not go back; the time format tells times apart. *)
Definition steady (e : env) : Prop := forall n m, (n <= m)%nat -> (e_time e n <= e_time e m)%Z.
Definition telling (e : env) : Prop :=
  forall n m, e_strftime e (e_time e n) = e_strftime e (e_time e m) -> e_time e n = e_time e m.

(** The answers still to come from a phase. *)
Definition replies (ct : bytes) (ph : phase) : list bytes :=
  match ph with
  | Ph_ready => [ctl_frame T_ACCEPT [ct]; finish_frame]
  | Ph_start | Ph_data => [finish_frame]
  | Ph_stop => []
  end.

(** What remains on disk under a name: the last file opened under it, since
    opening truncates. *)
Fixpoint on_disk (name : bytes) (o : list (bytes * bytes)) : option bytes :=
  match o with
  | [] => None
  | (n, d) :: o' =>
      match on_disk name o' with
      | Some d' => Some d'
      | None => if bytes_eqb n name then Some d else None
      end
  end.

(** ** When files are begun *)
(** How often the operator asked for a new file. *)
Definition requests (H : list ev) : nat :=
  length (filter (fun x => match x with E_sigusr1 => true | _ => false end) H).
(** Times at least [d] seconds apart. *)
Fixpoint spaced (d : Z) (ts : list Z) : Prop :=
  match ts with
  | t1 :: ((t2 :: _) as r) => (t1 + d <= t2)%Z /\ spaced d r
  | _ => True
  end.

(** ** The reaction to any stream whatever *)
(** The next frame announces [n] bytes, so many that adding the length field
    exceeds 32 bits. *)
Definition huge (n : N) (bs : bytes) : Prop :=
  2 ^ 32 - 4 <= n < 2 ^ 32 /\ exists more, bs = be32 n ++ more.
Inductive fate := Open_at (ph : phase) | Shut | Endless.

(** As [reacts], but a frame announcing [n] >= 2^32-4 is taken for one of
    [n] - (2^32-4) bytes altogether: nothing at all for 2^32-4, which the server
    goes on storing for ever.  [lost]: answers may fail to be sent, which
    closes the connection. *)
Inductive reacts_any (lost : bool) (hw : N) (ct : bytes) : phase -> bytes -> list act -> fate -> Prop :=
| ra_wait ph bs : incomplete bs -> (forall n, ~ huge n bs) -> reacts_any lost hw ct ph bs [] (Open_at ph)
| ra_skip ph f bs a q : frame_ok f -> (forall n, ~ huge n (wire1 f)) -> hw < lenN (wire1 f) ->
    reacts_any lost hw ct ph bs a q -> reacts_any lost hw ct ph (wire1 f ++ bs) a q
| ra_data ph p bs a q : data_ok p -> (forall n, ~ huge n (data_frame p)) -> lenN (data_frame p) <= hw ->
    reacts_any lost hw ct ph bs a q ->
    reacts_any lost hw ct ph (data_frame p ++ bs) (Store (data_frame p) :: a) q
| ra_ctl ph p x ph' bs a q : frame_ok (F_ctl p) -> lenN (wire1 (F_ctl p)) <= hw ->
    lenN (wire1 (F_ctl p)) < 512 -> advance ct ph p x ph' ->
    reacts_any lost hw ct ph' bs a q ->
    reacts_any lost hw ct ph (wire1 (F_ctl p) ++ bs) (x ++ a) q
| ra_refuse ph p bs : frame_ok (F_ctl p) -> lenN (wire1 (F_ctl p)) <= hw ->
    (lenN (wire1 (F_ctl p)) < 512 -> ~ exists x ph', advance ct ph p x ph') ->
    reacts_any lost hw ct ph (wire1 (F_ctl p) ++ bs) [Hangup] Shut
| ra_lost ph p b ph' bs : lost = true -> frame_ok (F_ctl p) -> lenN (wire1 (F_ctl p)) <= hw ->
    lenN (wire1 (F_ctl p)) < 512 -> advance ct ph p [Answer b] ph' ->
    reacts_any lost hw ct ph (wire1 (F_ctl p) ++ bs) [Hangup] Shut
| ra_badlen ph bs : bad_header bs -> reacts_any lost hw ct ph bs [Hangup] Shut
| ra_wrap ph n r more a q : n = 2 ^ 32 - 4 + N.of_nat r -> (0 < r < 4)%nat ->
    reacts_any lost hw ct ph (skipn r (be32 n) ++ more) a q ->
    reacts_any lost hw ct ph (be32 n ++ more) (Store (firstn r (be32 n)) :: a) q
| ra_endless ph more : reacts_any lost hw ct ph (be32 (2 ^ 32 - 4) ++ more) [] Endless.

(** How such a stream is cut: into frames and, where an announced length
    wraps, into one to three bytes 0xff taken for a frame. *)
Inductive piece := P_frame (f : frame) | P_frag (r : nat).
Definition piece_bytes (p : piece) : bytes :=
  match p with P_frame f => wire1 f | P_frag r => repeat xff r end.
Definition pieces (ps : list piece) : bytes := concat (map piece_bytes ps).
Definition piece_ok (p : piece) : Prop :=
  match p with P_frame f => frame_ok f | P_frag r => (0 < r < 4)%nat end.
Definition kept_piece (hw : N) (p : piece) : bool :=
  match p with P_frame f => kept hw f | P_frag _ => true end.
Definition idle_piece (hw : N) (p : piece) : Prop :=
  match p with P_frame f => idle hw f | P_frag r => (0 < r < 4)%nat end.

(** What can get into a file: whole data frames that fit the buffer, and such
    fragments. *)
Definition storable (hw : N) (b : bytes) : Prop :=
  (exists p, data_ok p /\ lenN (data_frame p) <= hw /\ b = data_frame p) \/ exists r, (0 < r < 4)%nat /\ b = repeat xff r.

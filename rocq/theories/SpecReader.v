(** Specification vocabulary for readers: the meaning of a byte string as a
    stream, and the legal histories of reader calls. *)
From Verif Require Import Bytes Spec SpecTrace SpecStream Io Control Api.
Local Open Scope N_scope.

(** ** What a data section means, from the wire format alone *)
Inductive ending :=
| E_stop        (* a STOP frame *)
| E_eof         (* the input ended, between or inside frames *)
| E_badctl      (* something that is not a well-formed control frame *)
| E_oversize.   (* a data frame above the limit *)

(** [parse max inp ds e rest]: the data frames before the first stopping point
    of [inp] carry [ds]; the stopping point is of kind [e], and [rest] follows
    it (for [E_oversize], it follows the length). *)
Inductive parse (max : N) : bytes -> list bytes -> ending -> bytes -> Prop :=
| p_data p inp ds e rest : data_ok p -> lenN p <= max -> parse max inp ds e rest ->
    parse max (data_frame p ++ inp) (p :: ds) e rest
| p_skip t cts inp ds e rest : ctl_ok t cts -> t <> T_STOP -> parse max inp ds e rest ->
    parse max (ctl_frame t cts ++ inp) ds e rest
| p_stop rest : parse max (stop_frame ++ rest) [] E_stop rest
| p_eof_len inp : lenN inp < 4 -> parse max inp [] E_eof []
| p_eof_data n b : 1 <= n -> n <= max -> n < 2 ^ 32 -> lenN b < n ->
    parse max (be32 n ++ b) [] E_eof []
| p_eof_ctl_len b : lenN b < 4 -> parse max (be32 0 ++ b) [] E_eof []
| p_eof_ctl n b : n <= CTL_MAX -> lenN b < n -> parse max (be32 0 ++ be32 n ++ b) [] E_eof []
| p_over n rest : max < n -> 1 <= n -> n < 2 ^ 32 -> parse max (be32 n ++ rest) [] E_oversize rest
| p_ctl_long n rest : CTL_MAX < n -> n < 2 ^ 32 -> parse max (be32 0 ++ be32 n ++ rest) [] E_badctl rest
| p_ctl_bad p rest : lenN p <= CTL_MAX ->
    (forall t cts, ctl_ok t cts -> p <> ctl_payload t cts) ->
    parse max (be32 0 ++ be32 (lenN p) ++ p ++ rest) [] E_badctl rest.

(** What read reports at each kind of stopping point, on a transport that
    reports [eofr] at the end of its input. *)
Definition ending_result (eofr : res) (e : ending) : res :=
  match e with
  | E_stop => r_stop
  | E_eof => eofr
  | E_badctl => r_failure
  | E_oversize => r_success   (* and no data: see C20 *)
  end.

(** A transport delivering a fixed byte string, accepting all writes.  [eofr]
    is its end-of-input result; [zok] says whether a read of zero bytes
    succeeds (sockets) or fails (stdio files). *)
Definition source (eofr : res) (zok : bool) (s : bytes) (q : query) : bytes * ans :=
  match q with
  | QRead _ n =>
      if n =? 0 then (s, ARead (if zok then r_success else r_failure) [])
      else if lenN s <? n then ([], ARead eofr [])
      else (skipn (N.to_nat n) s, ARead r_success (firstn (N.to_nat n) s))
  | QIsoUb _ => (s, AUnit)
  | _ => (s, ARes r_success)
  end.

(** ** Received bytes that carry exactly the frames [ds] *)
Inductive carries (max : N) : bytes -> list bytes -> Prop :=
| c_nil : carries max [] []
| c_data b ds p : carries max b ds -> data_ok p -> lenN p <= max ->
    carries max (b ++ data_frame p) (ds ++ [p])
| c_ctl b ds t cts : carries max b ds -> ctl_ok t cts -> t <> T_STOP ->
    carries max (b ++ ctl_frame t cts) ds.

(** START frames acceptable to a reader that wants [wanted]. *)
Definition start_accepted (wanted st : list bytes) : Prop :=
  wanted = [] \/ st = [] \/ exists c, In c wanted /\ st = [c].

(** What a reader has received when its open succeeds. *)
Definition reader_head (bi : bool) (wanted : list bytes) (b : bytes) : Prop :=
  exists rdy st, ctl_ok T_READY rdy /\ ctl_ok T_START st /\ start_accepted wanted st /\
    b = (if bi then ctl_frame T_READY rdy else []) ++ ctl_frame T_START st.

(** What a reader may put on an opened transport: at most one ACCEPT, listing
    some of its own content types, then at most one FINISH. *)
Inductive reader_session (bi : bool) (wanted : list bytes) : bytes -> Prop :=
| rses cts (acc fin : bool) : (acc = true \/ fin = true -> bi = true) -> incl cts wanted ->
    reader_session bi wanted
      ((if acc then ctl_frame T_ACCEPT cts else []) ++ if fin then finish_frame else []).

(** ** Histories of reader calls
    Phases as the application sees them; [ds] are the payloads returned since
    the last successful open. *)
Inductive rphase :=
| P_fresh                                  (* never opened *)
| P_reading (ds : list bytes)
| P_stopped (ds : option (list bytes))     (* STOP was read; [None]: and a reopen failed since *)
| P_failed                                 (* a read failed *)
| P_closed.

Definition after_failed_open (p : rphase) : rphase :=
  match p with
  | P_stopped _ => P_stopped None
  | p => p
  end.

Inductive rstep : rphase -> rcall -> res * option bytes -> rphase -> Prop :=
| s_open_again ds : rstep (P_reading ds) ROpen (r_failure, None) (P_reading ds)
| s_open p : (forall ds, p <> P_reading ds) -> rstep p ROpen (r_success, None) (P_reading [])
| s_open_fail p x : (forall ds, p <> P_reading ds) -> x <> r_success ->
    rstep p ROpen (x, None) (after_failed_open p)
| s_read ds d : rstep (P_reading ds) RRead (r_success, Some d) (P_reading (ds ++ [d]))
| s_read_stop ds : rstep (P_reading ds) RRead (r_stop, None) (P_stopped (Some ds))
| s_read_end ds x : rstep (P_reading ds) RRead (x, None) P_failed
| s_read_implicit_fail x : x <> r_success -> rstep P_fresh RRead (x, None) P_fresh
| s_read_implicit x p : rstep (P_reading []) RRead x p -> rstep P_fresh RRead x p
| s_read_stopped ds : rstep (P_stopped ds) RRead (r_failure, None) (P_stopped ds)
| s_read_failed : rstep P_failed RRead (r_failure, None) P_failed
| s_read_closed : rstep P_closed RRead (r_stop, None) P_closed
| s_close ds x : rstep (P_reading ds) RClose (x, None) P_closed
| s_close_stopped ds x : rstep (P_stopped ds) RClose (x, None) P_closed
| s_close_failed : rstep P_failed RClose (r_failure, None) P_failed
| s_close_closed : rstep P_closed RClose (r_failure, None) P_closed
| s_close_fresh : rstep P_fresh RClose (r_failure, None) P_fresh
| s_ctl p t x : p <> P_fresh -> (x = r_success \/ x = r_failure) -> rstep p (RGetControl t) (x, None) p
| s_ctl_implicit_fail t x : x <> r_success -> rstep P_fresh (RGetControl t) (x, None) P_fresh
| s_ctl_implicit t x : (x = r_success \/ x = r_failure) -> rstep P_fresh (RGetControl t) (x, None) (P_reading []).

Inductive rsteps : rphase -> list rcall -> list (res * option bytes) -> rphase -> Prop :=
| ss_nil p : rsteps p [] [] p
| ss_cons p c x p1 cs xs p2 : rstep p c x p1 -> rsteps p1 cs xs p2 -> rsteps p (c :: cs) (x :: xs) p2.

(** What has been received in each phase. *)
Definition phase_received (bi : bool) (wanted : list bytes) (max : N) (ph : rphase) (rcv : bytes) : Prop :=
  match ph with
  | P_reading ds => exists hd b, reader_head bi wanted hd /\ carries max b ds /\ rcv = hd ++ b
  | P_stopped (Some ds) => exists hd b, reader_head bi wanted hd /\ carries max b ds /\ rcv = hd ++ b ++ stop_frame
  | _ => True
  end.

(** Bytes delivered by all successful reads of a trace. *)
Fixpoint total_read (tr : trace) : nat :=
  match tr with
  | [] => 0
  | (QRead _ _, ARead r_success bs) :: tr' => length bs + total_read tr'
  | _ :: tr' => total_read tr'
  end.

(** ** Histories without mishaps
    [good_history nl seen cs xs]: every explicit open succeeded, so did the
    implicit one ([seen]: the reader has been opened), and, if [nl], every
    later read returned data or stop. *)
Definition good_result (nl seen : bool) (c : rcall) (x : res) (d : option bytes) : Prop :=
  match c with
  | ROpen => x = r_success
  | RGetControl _ => x = r_success \/ seen = true
  | RClose => True
  | RRead => d <> None \/ (seen = true /\ (nl = true -> x = r_stop))
  end.

Definition opens (c : rcall) : bool := match c with RClose => false | _ => true end.

Fixpoint good_history (nl seen : bool) (cs : list rcall) (xs : list (res * option bytes)) : Prop :=
  match cs, xs with
  | [], [] => True
  | c :: cs', (x, d) :: xs' => good_result nl seen c x d /\ good_history nl (seen || opens c) cs' xs'
  | _, _ => False
  end.

(** What the frame handed out by a reader for type [t] must be. *)
Definition handed_out_r (bi : bool) (tr : trace) (t : N) (c : control) : Prop :=
  c_type c = t /\
  (t = T_START -> exists rdy, prefix ((if bi then ctl_frame T_READY rdy else []) ++ ctl_frame T_START (c_cts c)) (received tr)) /\
  (t = T_READY -> prefix (ctl_frame T_READY (c_cts c)) (received tr)) /\
  (t = T_ACCEPT -> exists ss s, delivered tr = ss ++ [ctl_frame T_ACCEPT (c_cts c) ++ s]) /\
  (t = T_STOP -> c_cts c = []).

(** The zero-length array is only met when the peer announced a control frame
    of length zero. *)
Definition iso_preceded (tr : trace) : Prop := forall tr1 n a tr2, tr = tr1 ++ (QIsoUb n, a) :: tr2 ->
  exists tr0 h, tr1 = tr0 ++ [(QRead h 4, ARead r_success (be32 0))].

(** What precedes the data section of a stream, as a reader receives it. *)
Definition head_of (bi : bool) (rdy st : list bytes) : bytes :=
  (if bi then ctl_frame T_READY rdy else []) ++ ctl_frame T_START st.

(** The call shows that the reader has been opened successfully. *)
Definition got_going (c : rcall) (x : res * option bytes) : Prop :=
  (c = ROpen /\ fst x = r_success) \/ snd x <> None.

(** ** What a reader may send, given what it has received
    The answer to a READY offering [rdy] (nothing offered: anything goes): the
    reader's own types, in its own order, as often as it listed them, that the
    peer offered. *)
Definition offered (rdy : list bytes) (ct : bytes) : Prop := rdy = [] \/ In ct rdy.

Inductive answer (rdy : list bytes) : list bytes -> list bytes -> Prop :=
| an_nil : answer rdy [] []
| an_take ct wanted acc : offered rdy ct -> answer rdy wanted acc -> answer rdy (ct :: wanted) (ct :: acc)
| an_skip ct wanted acc : ~ offered rdy ct -> answer rdy wanted acc -> answer rdy (ct :: wanted) acc.

(** A write of [b] when exactly [rcv] has been received on this connection. *)
Definition reader_write_ok (wanted : list bytes) (rcv b : bytes) : Prop :=
  (exists rdy acc, ctl_ok T_READY rdy /\ rcv = ctl_frame T_READY rdy /\
     answer rdy wanted acc /\ b = ctl_frame T_ACCEPT acc) \/
  b = finish_frame.

(** ** Streams a reader takes
    A handshake and data section as far as they have come, or up to STOP. *)
Definition taken (bi : bool) (wanted : list bytes) (max : N) (s : bytes) : Prop :=
  exists hd b ds, reader_head bi wanted hd /\ carries max b ds /\ (s = hd ++ b \/ s = hd ++ b ++ stop_frame).

(** Bytes no continuation of which it takes. *)
Definition refused (bi : bool) (wanted : list bytes) (max : N) (b : bytes) : Prop :=
  forall rest, ~ taken bi wanted max (b ++ rest).

(** Its own answer to the READY just received does not fit into a frame. *)
Definition unanswerable (wanted : list bytes) (b : bytes) : Prop :=
  exists rdy acc, ctl_ok T_READY rdy /\ b = ctl_frame T_READY rdy /\ answer rdy wanted acc /\ ~ fits true T_ACCEPT acc.

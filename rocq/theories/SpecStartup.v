(** What starting fstrm_capture is expected to do. *)
From Coq Require Import ZArith.
From Verif Require Import Bytes Spec SpecStream SpecMisc Misc Capture Startup.
Import ListNotations.
Local Open Scope N_scope.

(** The options as documented: a content type, a place to write to, one place to
    listen at ([--unix] wins over [--tcp]). *)
Definition port_ok (s : bytes) (n : N) : Prop := n <= 65535 /\ (port_text s n \/ s = [] /\ n = 0).
Definition listens_at (w : world) (m : cmdline) (l : listen) : Prop :=
  (m_addr m <> None -> m_port m <> None) /\
  match m_unix m with
  | Some p => (length p <= 107)%nat /\ l = L_unix p
  | None => exists a p n, m_addr m = Some a /\ m_port m = Some p /\ port_ok p n /\
      ((exists x, w_pton4 w a = Some x /\ l = L_tcp (Inet4 x) n) \/
       (w_pton4 w a = None /\ exists x, w_pton6 w a = Some x /\ l = L_tcp (Inet6 x) n))
  end.
Definition dash : bytes := [x2d].
Definition valid (w : world) (m : cmdline) : Prop :=
  m_help m = false /\ m_type m <> None /\
  (exists o, m_write m = Some o /\ (o = dash -> w_tty w = false /\ m_split m = 0%Z)) /\
  ~ (m_localtime m = true /\ m_gmtime m = true) /\
  (m_split m <> 0%Z -> m_localtime m = true \/ m_gmtime m = true) /\
  exists l, listens_at w m l.

(** Where the output goes: [Some None] is standard output, [None] is no name. *)
Definition output (w : world) (m : cmdline) : option (option bytes) :=
  match m_write m with
  | None => None
  | Some o =>
      if bytes_eqb o dash then Some None
      else if m_localtime m || m_gmtime m
           then match w_strftime w (w_time w) with Some n => Some (Some n) | None => None end
           else Some (Some o)
  end.

(** Paths that may change. *)
Definition named (w : world) (m : cmdline) (p : bytes) : Prop :=
  m_unix m = Some p \/ output w m = Some (Some p).

(** The socket's path can be cleared, the output file written, the socket bound. *)
Definition clearable (w : world) (f : fs) (l : listen) : Prop :=
  match l with L_unix p => w_rm w p = true /\ f p <> Some (NDir false) | _ => True end.
Definition writable (w : world) (f : fs) (l : listen) (out : option bytes) : Prop :=
  match out with
  | None => True
  | Some n => w_open w n = true /\ (l = L_unix n \/ f n = None \/ exists b, f n = Some (NFile b))
  end.
Definition bindable (w : world) (l : listen) (out : option bytes) : Prop :=
  w_base w = true /\
  match l with L_unix p => w_bind w p = true /\ out <> Some p | L_tcp i n => w_listen w i n = true end.

(** The file system after the output was opened, holding [b]; and once the server
    listens. *)
Definition cleared (f : fs) (l : listen) : fs :=
  fun q => match l with L_unix p => if bytes_eqb p q then None else f q | _ => f q end.
Definition with_output (f : fs) (out : option bytes) (b : bytes) : fs :=
  fun q => match out with Some n => if bytes_eqb n q then Some (NFile b) else f q | None => f q end.
Definition with_socket (f : fs) (l : listen) : fs :=
  fun q => match l with L_unix p => if bytes_eqb p q then Some NSock else f q | _ => f q end.
Definition same (f g : fs) : Prop := forall q, f q = g q.

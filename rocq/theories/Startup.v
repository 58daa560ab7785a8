(** Model of how fstrm_capture starts: src/fstrm_capture.c, [parse_args],
    [open_read_unix], [open_read_tcp], [setup_event_loop] and [main] up to the
    event loop, over a file system.

    Simplified: a path names a file of its own (no links, no "." or ".."), files
    are regular files, sockets and directories; fdopen() and sigaction() do not
    fail.  Not modelled: messages and warnings; the text of the command line
    (here the options are as argv_process() leaves them; see Argv.v). *)
From Coq Require Import ZArith.
From Verif Require Import Bytes Control Misc Capture.
Import ListNotations.
Local Open Scope N_scope.

(** src/fstrm_capture.c:123-136 [struct capture_args]. *)
Record cmdline := mk_cmd {
  m_help : bool;
  m_type : option bytes;     (* --type *)
  m_unix : option bytes;     (* --unix *)
  m_addr : option bytes;     (* --tcp *)
  m_port : option bytes;     (* --port *)
  m_write : option bytes;    (* --write *)
  m_buffer : Z;              (* --buffersize *)
  m_conns : Z;               (* --maxconns *)
  m_split : Z;               (* --split *)
  m_localtime : bool;
  m_gmtime : bool }.

(** src/fstrm_capture.c:310-356 [parse_args] after argv_process(); [None] = the
    usage message and exit(EXIT_FAILURE).  [tty] is isatty(STDOUT_FILENO). *)
Definition parse_args (tty : bool) (m : cmdline) : option args :=
  if m_help m then None else
  match m_type m with
  | None => None
  | Some ct =>
      if match m_unix m, m_addr m with None, None => true | _, _ => false end then None else
      if match m_addr m, m_port m with Some _, None => true | _, _ => false end then None else
      match m_write m with
      | None => None
      | Some o =>
          let a := mk_args ct o (m_buffer m) (m_conns m) (m_split m) (m_localtime m) (m_gmtime m) in
          if is_stdout a && tty then None
          else if args_accepted a then Some a else None
      end
  end.

(** The file system. *)
Inductive node := NFile (b : bytes) | NSock | NDir (empty : bool).
Definition fs := bytes -> option node.
Definition fs_set (f : fs) (p : bytes) (x : option node) : fs := fun q => if bytes_eqb p q then x else f q.

(** What else the calls depend on: permissions and the like. *)
Record world := mk_world {
  w_tty : bool;                          (* isatty(STDOUT_FILENO) *)
  w_pton4 : bytes -> option bytes;       (* inet_pton *)
  w_pton6 : bytes -> option bytes;
  w_rm : bytes -> bool;                  (* remove() is permitted there *)
  w_open : bytes -> bool;                (* open() is permitted there *)
  w_bind : bytes -> bool;                (* bind() is permitted there *)
  w_listen : inet -> N -> bool;          (* bind() to that address and port works *)
  w_time : Z;
  w_strftime : Z -> option bytes;        (* --write filtered at that time *)
  w_fwrite : bool;                       (* fwrite() succeeds *)
  w_base : bool }.                       (* event_base_new() succeeds *)

(** remove(): files and sockets are unlinked, empty directories removed; what does
    not exist gives ENOENT, which the program accepts. *)
Definition do_remove (w : world) (f : fs) (p : bytes) : bool * fs :=
  if negb (w_rm w p) then (false, f)
  else match f p with
       | None => (true, f)
       | Some (NDir false) => (false, f)
       | Some _ => (true, fs_set f p None)
       end.

(** open() with O_CREAT|O_WRONLY|O_TRUNC: only regular files and new ones. *)
Definition can_open (w : world) (f : fs) (p : bytes) : bool :=
  w_open w p && match f p with Some (NDir _) | Some NSock => false | _ => true end.

(** The listening address in [ctx->ss]. *)
Inductive listen := L_unix (p : bytes) | L_tcp (i : inet) (port : N).

(** src/fstrm_capture.c:358-392 [open_read_unix]; the address is the path (shown for
    the same construction in Misc.v, [unix_init]). *)
Definition open_read_unix (w : world) (f : fs) (p : bytes) : option listen * fs :=
  if (sun_path_size <? length p + 1)%nat then (None, f)
  else match do_remove w f p with
       | (true, f') => (Some (L_unix p), f')
       | (false, f') => (None, f')
       end.

(** src/fstrm_capture.c:394-425 [open_read_tcp]. *)
Definition open_read_tcp (w : world) (addr port : bytes) : option listen :=
  match parse_port port with
  | Some n =>
      match tcp_address (w_pton4 w) (w_pton6 w) addr with
      | Some i => Some (L_tcp i n)
      | None => None
      end
  | None => None
  end.

(** src/fstrm_capture.c:1237-1249 in [main]. *)
Definition open_input (w : world) (m : cmdline) (f : fs) : option listen * fs :=
  match m_unix m with
  | Some p => open_read_unix w f p
  | None =>
      match m_addr m, m_port m with
      | Some a, Some p => (open_read_tcp w a p, f)
      | _, _ => (None, f)
      end
  end.

(** The environment of the server's first steps (Capture.v). *)
Definition out_env (w : world) (a : args) (f : fs) : env :=
  mk_env (fun _ => w_time w) (w_strftime w)
    (fun _ => match (if has_calendar a then w_strftime w (w_time w) else Some (a_fname a)) with
              | Some n => can_open w f n
              | None => false
              end)
    (fun _ => w_fwrite w) (fun _ => true).

(** The files the server has opened so far, on disk: truncated when opened, then
    what was written (the START frame is flushed, src/fstrm_capture.c:497). *)
Definition on_fs (a : args) (c : ctx) (f : fs) : fs :=
  if is_stdout a then f else fold_left (fun f nd => fs_set f (fst nd) (Some (NFile (snd nd)))) (x_outs c) f.

(** src/fstrm_capture.c:1147-1182 [setup_event_loop]; bind() to a path creates the
    socket there and fails if anything exists. *)
Definition setup_event_loop (w : world) (l : listen) (f : fs) : option fs :=
  if negb (w_base w) then None
  else match l with
       | L_unix p => match f p with
                     | None => if w_bind w p then Some (fs_set f p (Some NSock)) else None
                     | Some _ => None
                     end
       | L_tcp i n => if w_listen w i n then Some f else None
       end.

(** src/fstrm_capture.c:1228-1266 [main] up to event_base_dispatch(). *)
Inductive sres :=
| SFail (f : fs)                          (* exit status 1 *)
| SRun (f : fs) (l : listen) (a : args) (c : ctx)
| SBroke.
Definition main_start (w : world) (m : cmdline) (f : fs) : sres :=
  match parse_args (w_tty w) m with
  | None => SFail f
  | Some a =>
      match open_input w m f with
      | (None, f1) => SFail f1
      | (Some l, f1) =>
          match boot (out_env w a f1) a with
          | Go c =>
              let f2 := on_fs a c f1 in
              match setup_event_loop w l f2 with
              | Some f3 => SRun f3 l a c
              | None => SFail f2
              end
          | Exit c => SFail (on_fs a c f1)
          | _ => SBroke
          end
      end
  end.

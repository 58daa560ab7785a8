(** Model of small helpers: libmy/my_time.h, libmy/print_string.h and the option
    checks of fstrm/tcp_writer.c and fstrm/unix_writer.c. *)
From Verif Require Import Bytes.
Local Open Scope Z_scope.

(** ** Time *)

(** struct timespec on a platform with 64-bit time_t and long. *)
Record timespec := mk_ts { tv_sec : Z; tv_nsec : Z }.

(** Result of a signed 64-bit operation. *)
Definition i64 (z : Z) : outc Z := if (- 2 ^ 63 <=? z) && (z <? 2 ^ 63) then Ok z else Err (FUb ub_overflow).

(** libmy/my_time.h:36-39, the normalising loop. *)
Fixpoint ts_carry (fuel : nat) (b : timespec) : outc timespec :=
  if 1000000000 <=? tv_nsec b then
    match fuel with
    | O => Err FFuel
    | S f => obind (i64 (tv_sec b + 1)) (fun s => ts_carry f (mk_ts s (tv_nsec b - 1000000000)))
    end
  else Ok b.

(** libmy/my_time.h:33-41; the loop budget covers every 64-bit value. *)
Definition timespec_add (a b : timespec) : outc timespec :=
  obind (i64 (tv_sec b + tv_sec a)) (fun s =>
  obind (i64 (tv_nsec b + tv_nsec a)) (fun n =>
  ts_carry (Z.to_nat (n / 1000000000)) (mk_ts s n))).

(** libmy/my_time.h:43-53. *)
Definition timespec_sub (a b : timespec) : outc timespec :=
  obind (i64 (tv_sec b - tv_sec a)) (fun s =>
  obind (i64 (tv_nsec b - tv_nsec a)) (fun n =>
  if n <? 0 then obind (i64 (s - 1)) (fun s => Ok (mk_ts s (n + 1000000000)))
  else Ok (mk_ts s n))).

(** Answers of nanosleep(2): slept the whole time, was interrupted after [slept]
    with the given remaining time, or failed otherwise. *)
Inductive knap := KN_done | KN_intr (rmt : timespec) | KN_err.

(** libmy/my_time.h:66-73.  The result lists the requests made; [None] if the
    answers run out while sleeping. *)
Fixpoint my_nanosleep (rqt : timespec) (ks : list knap) : option (list timespec) :=
  match ks with
  | [] => None
  | KN_intr rmt :: ks' => match my_nanosleep rmt ks' with Some l => Some (rqt :: l) | None => None end
  | _ :: _ => Some [rqt]
  end.

(** ** Printing *)
Local Open Scope N_scope.

(** isprint() in the C locale. *)
Definition isprint (c : byte) : bool := (32 <=? to_N c) && (to_N c <=? 126).

(** One digit of "%02x". *)
Definition hex_digit (n : N) : byte := byte_of_N (if n <? 10 then 48 + n else 87 + n).

(** libmy/print_string.h:37-46, one character. *)
Definition print_char (c : byte) : bytes :=
  if isprint c then
    if byte_eqb c x22 then [x5c; x22] else [c]
  else [x5c; x78; hex_digit (to_N c / 16); hex_digit (to_N c mod 16)].

(** libmy/print_string.h:31-48. *)
Definition print_string (s : bytes) : bytes := [x22] ++ flat_map print_char s ++ [x22].

(** src/fstrm_dump.c:85-93, what goes to stdout. *)
Definition print_data_frame (s : bytes) : bytes := [x20] ++ print_string s ++ [x0a].

(** ** Port and address options *)

(** isspace() in the C locale. *)
Definition isspace (c : byte) : bool := (to_N c =? 32) || ((9 <=? to_N c) && (to_N c <=? 13)).

Definition digit_val (c : byte) : N :=
  let n := to_N c in
  if (48 <=? n) && (n <=? 57) then n - 48
  else if (65 <=? n) && (n <=? 90) then n - 55
  else if (97 <=? n) && (n <=? 122) then n - 87
  else 255.

Fixpoint skip_space (s : bytes) : bytes :=
  match s with c :: r => if isspace c then skip_space r else s | [] => [] end.

(** The digits: value so far (not yet limited to 64 bits) and the rest. *)
Fixpoint scan_digits (base acc : N) (s : bytes) : N * bytes :=
  match s with
  | c :: r => if digit_val c <? base then scan_digits base (acc * base + digit_val c) r else (acc, s)
  | [] => (acc, [])
  end.

(** Base detection and digits; [None]: no digits. *)
Definition scan_number (s : bytes) : option (N * bytes) :=
  let dec base s :=
    match s with
    | c :: _ => if digit_val c <? base then Some (scan_digits base 0 s) else None
    | [] => None
    end in
  match s with
  | x30 :: x :: c :: r =>
      if (byte_eqb x x78 || byte_eqb x x58) && (digit_val c <? 16) then dec 16 (c :: r) else dec 8 s
  | x30 :: _ => dec 8 s
  | _ => dec 10 s
  end.

(** strtoul(s, &endptr, 0) of the C library (ISO C 7.22.1.4) with 64-bit unsigned
    long: the value and the text at [endptr]; without digits [endptr] is the
    start, out of range gives ULONG_MAX, a minus sign negates modulo 2^64. *)
Definition strtoul0 (s : bytes) : N * bytes :=
  let t := skip_space s in
  let '(neg, u) :=
    match t with
    | x2d :: r => (true, r)
    | x2b :: r => (false, r)
    | _ => (false, t)
    end in
  match scan_number u with
  | None => (0, s)
  | Some (v, rest) =>
      if 2 ^ 64 <=? v then (2 ^ 64 - 1, rest)
      else ((if neg then (2 ^ 64 - v) mod 2 ^ 64 else v), rest)
  end.

(** fstrm/tcp_writer.c:214-223: the number, or failure. *)
Definition parse_port (s : bytes) : option N :=
  let '(port, rest) := strtoul0 s in
  match rest with
  | [] => if port <=? 65535 then Some port else None
  | _ => None
  end.

(** fstrm/tcp_writer.c:214-285.  inet_pton for the two families is given as
    functions; the options are NULL or text. *)
Inductive inet := Inet4 (a : bytes) | Inet6 (a : bytes).
Definition tcp_address (pton4 pton6 : bytes -> option bytes) (s : bytes) : option inet :=
  match pton4 s with
  | Some a => Some (Inet4 a)
  | None => match pton6 s with Some a => Some (Inet6 a) | None => None end
  end.
Definition tcp_init (pton4 pton6 : bytes -> option bytes) (address port : option bytes) : option (inet * N) :=
  match address, port with
  | Some a, Some p =>
      match tcp_address pton4 pton6 a with
      | Some i => match parse_port p with Some n => Some (i, n) | None => None end
      | None => None
      end
  | _, _ => None
  end.

(** sizeof(sun_path), <sys/un.h>. *)
Definition sun_path_size : nat := 108.

(** fstrm/unix_writer.c:200-214; strncpy into a zeroed array.  The path is the text
    before its terminating NUL. *)
Definition unix_init (path : option bytes) : option bytes :=
  match path with
  | None => None
  | Some p =>
      if (sun_path_size <? length p + 1)%nat then None
      else
        let q := firstn (sun_path_size - 1) p in
        Some (q ++ repeat x00 (sun_path_size - length q))
  end.

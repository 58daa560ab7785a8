(** Specification vocabulary for replaying from stdin. *)
From Verif Require Import Bytes Spec SpecStream SpecReader Io Rdwr Reader Writer File Misc Tools SpecTools.
Local Open Scope N_scope.
Local Open Scope io_scope.

(** What a name stands for when stdin holds [d]. *)
Definition means (d : bytes) (n : option bytes) : bytes := match n with Some c => c | None => d end.

(** Endings after which stdin has been closed. *)
Definition closing (e : ending) : Prop := e = E_stop \/ e = E_eof.

(** Contents of stdin after the replay of which it is closed: a stream of
    another content type, or one that ends with STOP or at the end of the input. *)
Inductive ends_shut (ct : bytes) : bytes -> Prop :=
| es_match d st ds e : stream_file d st ds e -> start_accepted [ct] st -> closing e -> ends_shut ct d
| es_mismatch d st ds e : stream_file d st ds e -> ~ start_accepted [ct] st -> ends_shut ct d.

(** [names] contains "-" twice. *)
Definition twice (names : list (option bytes)) : Prop := exists a b c, names = a ++ None :: b ++ None :: c.

(** Like [hasty_copy], but with undefined behaviour in place of the end. *)
Definition hasty_then_ub (w : writer) (ds : list bytes) : io bool :=
  ' (x, w) <- writer_open w ;;
  if negb (res_eqb x r_success) then _ <- writer_destroy w ;; Ret false
  else
    ' (_, ok, w) <- write_each w ds ;;
    if negb ok then Ret false else Fail (FUb ub_uaf).

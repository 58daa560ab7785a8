(** Specification: the frames a history of calls leaves in a file. *)
From Verif Require Import Bytes Spec SpecTrace SpecStream Api SpecApi.

(** [kept_step (st, ds) c]: [ds] are the payloads written since the file was
    last opened (opening truncates it); writes after close are refused. *)
Definition kept_step (s : ustate * list bytes) (c : wcall) : ustate * list bytes :=
  let (st, ds) := s in
  match c with
  | WOpen => match st with U_open => s | _ => (U_open, []) end
  | WClose => match st with U_open => (U_closed, ds) | _ => s end
  | WGetControl _ => match st with U_fresh => (U_open, []) | _ => s end
  | WWrite _ | WWritev _ =>
      match wpayloads c, st with
      | [], _ => s
      | ps, U_fresh => (U_open, ps)
      | ps, U_open => (U_open, ds ++ ps)
      | _, U_closed => s
      end
  end.

(** [None]: the file was never opened. *)
Definition kept (cs : list wcall) : option (list bytes) :=
  match fold_left kept_step cs (U_fresh, []) with
  | (U_fresh, _) => None
  | (_, ds) => Some ds
  end.

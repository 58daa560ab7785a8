(** What option calls mean, from the documentation in fstrm/writer.h,
    fstrm/reader.h. *)
From Verif Require Import Bytes Spec SpecControl OptApi.
Local Open Scope N_scope.

(** Content types of at most 256 bytes are accepted, in order. *)
Definition type_fits (ct : bytes) : bool := lenN ct <=? CT_MAX.

(** A maximum frame size between 512 and 2^32 - 2 is accepted; the last one
    counts; the default is 1 MiB. *)
Definition size_fits (n : N) : bool := (512 <=? n) && (n <=? 4294967294).

Definition opt_fits (k : ropt_call) : bool :=
  match k with OAdd ct => type_fits ct | OMax n => size_fits n end.

Definition types_of (ks : list ropt_call) : list bytes :=
  flat_map (fun k => match k with OAdd ct => if type_fits ct then [ct] else [] | OMax _ => [] end) ks.

Definition limit_of (ks : list ropt_call) : N :=
  last (flat_map (fun k => match k with OAdd _ => [] | OMax n => if size_fits n then [n] else [] end) ks) 1048576.

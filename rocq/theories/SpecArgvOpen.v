(** What arguments say when some of them come from the standard input (C71). *)
From Coq Require Import String.
From Verif Require Import Bytes Control Argv SpecArgv.
Local Open Scope nat_scope.

(** As [says] of SpecArgv.v, with [i] on the standard input before and [j] after: the file
    named "-" is the standard input, which gives all it has the first time and nothing
    afterwards.  The depth [d] counts the files that are open at once, without it. *)
Inductive says_in (g : grid) (files : bytes -> option bytes) : nat -> nat -> list bytes -> list given -> bytes -> bytes -> Prop :=
| in_nil d i : says_in g files d 0 [] [] i i
| in_given d n x ws l i j : proper g x -> says_in g files d n ws l i j ->
    says_in g files d (own_value x + n) (words g x ++ ws) (x :: l) i j
| in_file_eq d m n p path c ls inner ws l i j k : file_name g p -> path <> txt "-" -> files path = Some c -> text_of ls c ->
    says_in g files d m ls inner i j -> says_in g files (S d) n ws l j k ->
    says_in g files (S d) (m + n) ((x2d :: x2d :: p ++ x3d :: path) :: ws) (inner ++ l) i k
| in_file_val d m n p path c ls inner ws l i j k : file_name g p -> value_arg path -> path <> txt "-" -> files path = Some c -> text_of ls c ->
    says_in g files d m ls inner i j -> says_in g files (S d) n ws l j k ->
    says_in g files (S d) (S m + n) ((x2d :: x2d :: p) :: path :: ws) (inner ++ l) i k
| in_dash_eq d m n p ls inner ws l i j k : file_name g p -> text_of ls i ->
    says_in g files d m ls inner [] j -> says_in g files d n ws l j k ->
    says_in g files d (m + n) ((x2d :: x2d :: p ++ x3d :: txt "-") :: ws) (inner ++ l) i k
| in_dash_val d m n p ls inner ws l i j k : file_name g p -> text_of ls i ->
    says_in g files d m ls inner [] j -> says_in g files d n ws l j k ->
    says_in g files d (S m + n) ((x2d :: x2d :: p) :: txt "-" :: ws) (inner ++ l) i k.

(** Client programs: histories of calls on options objects. *)
From Verif Require Import Bytes Reader Writer.

(** fstrm/writer.h, fstrm/reader.h: histories of calls on an options object. *)
Fixpoint do_wopts (o : list bytes) (ks : list bytes) : list res * list bytes :=
  match ks with
  | [] => ([], o)
  | k :: ks' =>
      let (x, o) := writer_options_add_content_type o k in
      let (xs, o) := do_wopts o ks' in
      (x :: xs, o)
  end.

Inductive ropt_call := OAdd (ct : bytes) | OMax (n : N).

Definition do_ropt (o : reader_options) (k : ropt_call) : res * reader_options :=
  match k with
  | OAdd ct => reader_options_add_content_type o ct
  | OMax n => reader_options_set_max_frame_size o n
  end.

Fixpoint do_ropts (o : reader_options) (ks : list ropt_call) : list res * reader_options :=
  match ks with
  | [] => ([], o)
  | k :: ks' =>
      let (x, o) := do_ropt o k in
      let (xs, o) := do_ropts o ks' in
      (x :: xs, o)
  end.

(** C85 for whole runs: settings whose texts are closed, and what is written. *)
From Coq Require Import Ascii String List Bool Arith.
From Verif Require Import Str Parse Prefix Options Generate SpecGenerate SpecCText.
Import ListNotations.

(** closed for a C compiler and for a C++ compiler *)
Definition all_closed (t : str) : Prop := forall cxx, closed cxx t.
(** the texts that are copied from the command line: macros and include directives are closed, the library's name can stand
    between quotes or, in the modes that do not quote it, by itself; the header's name can stand between quotes, and the date in
    a comment *)
Definition closed_settings (e : env) (s : settings) : Prop :=
  all_closed (o_defines s) /\
  (forall i, In i (o_includes s) -> all_closed ($"#include " ++ i ++ [nl])) /\
  (quotable (o_lib s) /\ forall m x, In m [$"nq:"; $"api:"] -> moded m (o_lib s) x -> word_text x) /\
  quotable (header_name s) /\
  (forall d, o_date s = true -> e_date e = Some d -> one_line_text d).
(** everything that was written is closed *)
Definition writes_closed (s : settings) (out : str) (w : world) : Prop :=
  if to_stdout s then exists t, w_out w = out ++ t /\ all_closed t
  else if separate s then
    exists t t', w_fs w (header_path s) = Some (Regular t) /\ w_fs w (body_path s) = Some (Regular t') /\ all_closed t /\ all_closed t'
  else exists t, w_fs w (o_output s) = Some (Regular t) /\ all_closed t.

(** Specification vocabulary for the program as a whole: dumped templates and errors. *)
From Coq Require Import Ascii String List Bool Arith NArith.
From Verif Require Import Str Substitute Data SpecData Options Generate SpecGenerate.
Import ListNotations.

(** where a template is saved *)
Definition dump_path (dir : str) (t : tname) : str := append_missing_separator dir ++ tfile t.
(** reading the saved text gives the template, with one empty line before the end (see C25) *)
Definition reloads (l : list entry) (file text : str) : Prop :=
  exists es, l = es ++ [end_mark] /\ load_from_file [] file false text = Ok (es ++ [blank_entry; end_mark]).

(** how messages name the input *)
Definition shown_name (input : str) : str := if str_eqb input $"-" then $"<STDIN>" else $"file: " ++ input.
(** the text of the input, if it can be opened; [-] is standard input, links are followed, and a directory has no text *)
Definition opened (e : env) (fs : str -> option node) (stdin input : str) : option str :=
  if str_eqb input $"-" then Some stdin
  else if e_readable e input then
    match fs input with
    | Some (Regular t) => Some t
    | Some (Directory _) => Some []
    | Some (Link q) => match fs q with Some (Regular t) => Some t | Some (Directory _) => Some [] | _ => None end
    | None => None
    end
  else None.

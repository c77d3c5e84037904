(** What the generated header defines in front of its code (C84). *)
From Coq Require Import Ascii String List Bool Arith.
From Verif Require Import Str.
Import ListNotations.

(** a macro: name without the prefix, value *)
Definition macro_line (upper : str) (m : str * str) : str :=
  $"#define " ++ upper ++ $"_" ++ fst m ++ (match snd m with [] => [] | v => $" " ++ v end) ++ [nl].
Definition macro_lines (upper : str) (l : list (str * str)) : str := concat (map (macro_line upper) l).
(** one macro for each name marked as taking a variable number of arguments *)
Definition variadic_macros (l : list (str * bool)) : list (str * str) :=
  map (fun n => ($"HAS_VA_ARGS_" ++ fst n, $"1")) (filter snd l).
(** a string literal *)
Definition quoted (p : str) : str := [dquote] ++ p ++ [dquote].

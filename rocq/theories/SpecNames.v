(** What C104 says: where the names of the recorded symbols come from. *)
From Coq Require Import Ascii String List Bool.
From Verif Require Import Str SpecParse.
Import ListNotations.

(** the text ends, or begins, with a letter, a digit or an underscore *)
Definition ends_in_word (s : str) : bool := match rev s with x :: _ => is_ident x | [] => false end.
Definition begins_in_word (s : str) : bool := match s with x :: _ => is_ident x | [] => false end.
(** [n] is a whole word of the text: letters, digits and underscores with none of them next to it on either side *)
Definition whole_word (text n : str) : Prop :=
  ident_word n /\ exists a b, text = a ++ n ++ b /\ ends_in_word a = false /\ begins_in_word b = false.
(** an identifier of C (C99 6.4.2.1), without universal character names *)
Definition c_identifier (n : str) : Prop := ident_word n /\ isdigit (str_front n) = false.

(** Specification vocabulary for the symbol prefix: texts as words and separators. *)
From Coq Require Import Ascii String List Bool Arith.
From Verif Require Import Str.
Import ListNotations.

(** A text cut at every character that cannot be part of an identifier: the first word, then separators each followed
    by a word (words may be empty). *)
Definition cut := (str * list (ascii * str))%type.
Definition cut_ok (t : cut) : Prop :=
  Forall (fun c => is_ident c = true) (fst t) /\
  Forall (fun p => is_ident (fst p) = false /\ Forall (fun c => is_ident c = true) (snd p)) (snd t).
Definition cut_text (t : cut) : str := fst t ++ concat (map (fun p => fst p :: snd p) (snd t)).
Definition map_words (f : str -> str) (t : cut) : cut := (f (fst t), map (fun p => (fst p, f (snd p))) (snd t)).
Definition cut_words (t : cut) : list str := fst t :: map snd (snd t).

(** what becomes of a word *)
Definition after (p w : str) : option str := if starts_with p w then Some (skipn (length p) w) else None.
Definition renamed_word (upper lower w : str) : str :=
  match after $"GDO_" w, after $"_GDO_" w, after $"gdo_" w, after $"_gdo_" w with
  | Some r, _, _, _ => upper ++ $"_" ++ r
  | _, Some r, _, _ => $"_" ++ upper ++ $"_" ++ r
  | _, _, Some r, _ => lower ++ $"_" ++ r
  | _, _, _, Some r => $"_" ++ lower ++ $"_" ++ r
  | _, _, _, _ => if str_eqb w $"gdo" then lower else w
  end.

(** two standalone [gdo] words in a row, that is with a single separator between them *)
Definition adjacent_gdo (l : list str) : Prop := exists a b, l = a ++ [$"gdo"; $"gdo"] ++ b.

(** identifier-only texts *)
Definition ident_text (s : str) : Prop := Forall (fun c => is_ident c = true) s.

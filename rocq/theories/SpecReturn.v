(** What C105 says: a wrapper hands back the result of the function. *)
From Coq Require Import Ascii String List Bool.
From Verif Require Import Str Parse SpecCLang SpecCProg SpecHeader.
Import ListNotations.

(** the function has no result (C99 6.7.2.2, 6.9.1: its type is void; C tells letter cases apart) *)
Definition no_result (e : proto) : Prop := p_type e = $"void".
(** [f] is the definition of a function that ends with the call of [e] through its pointer with its parameters, as a statement or behind return *)
Definition ends_calling (e : proto) (last : list tok) (f : list tok) : Prop :=
  exists before, f = before ++ [pn ";"] ++ last ++ pointer (p_symbol e) ++ [pn "("] ++ tokens_of (p_param_names e) ++ [pn ")"; pn ";"; pn "}"].
(** the result is handed back where there is one, and only there *)
Definition hands_back (e : proto) (f : list tok) : Prop :=
  (no_result e -> ends_calling e [] f) /\ (~ no_result e -> ends_calling e [wd "return"] f).
(** the type is not written like void with other letters *)
Definition ordinary_type (e : proto) : Prop := map tolower (p_type e) = $"void" -> p_type e = $"void".

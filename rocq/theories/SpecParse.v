(** Specification vocabulary for the parser properties.  Nothing here mentions the implementation:
    only tokens, C declarations as token sequences, and comma-separated lists. *)
From Coq Require Import Ascii String List Bool Arith ZArith.
From Verif Require Import Str.
Import ListNotations.

(** A token as the scanner delivers it: an identifier word, one of [* , ( ) [ ]], or the ellipsis. *)
Definition ident_word (t : str) : Prop := t <> [] /\ Forall (fun c => is_ident c = true) t.
Definition punct (t : str) : Prop :=
  In t [$"*"; $","; $"("; $")"; $"["; $"]"; $"..."].
Definition lexeme (t : str) : Prop := ident_word t \/ punct t.

(** type tokens of a declaration: an identifier, then identifiers and [*] in any order *)
Definition type_tok (t : str) : Prop := ident_word t \/ t = $"*".
Definition type_tokens (ty : list str) : Prop :=
  match ty with [] => False | t :: r => ident_word t /\ Forall type_tok r end.

(** Tokens written one after the other, each followed by a blank. *)
Definition spaced (ts : list str) : str := concat (map (fun t => t ++ $" ") ts).

(** A C declaration, as the abstract syntax a user has in mind. *)
Inductive decl :=
| DObject (ty : list str) (name : str)                       (* ty name *)
| DArray (ty : list str) (name : str) (inner : list str)     (* ty name [ inner ] *)
| DFunction (ty : list str) (name : str) (ps : list str)     (* ty name ( ps ) *)
| DFunctionParen (ty : list str) (name : str) (ps : list str)    (* ty ( name ) ( ps ) *)
| DFunctionParenPtr (two : bool) (ty : list str) (name : str) (ps : list str)  (* ty ( * name ( ps ) ), or ** *)
| DFunctionPointer (ty : list str) (name : str) (ps : list str). (* ty ( * name ) ( ps ) *)

Definition stars (two : bool) : list str := if two then [$"*"; $"*"] else [$"*"].

(** how the declaration is written *)
Definition written (d : decl) : list str :=
  match d with
  | DObject ty n => ty ++ [n]
  | DArray ty n i => ty ++ [n] ++ [$"["] ++ i ++ [$"]"]
  | DFunction ty n ps => ty ++ [n] ++ [$"("] ++ ps ++ [$")"]
  | DFunctionParen ty n ps => ty ++ [$"("; n; $")"; $"("] ++ ps ++ [$")"]
  | DFunctionParenPtr two ty n ps => ty ++ [$"("] ++ stars two ++ [n; $"("] ++ ps ++ [$")"; $")"]
  | DFunctionPointer ty n ps => ty ++ [$"("; $"*"; n; $")"; $"("] ++ ps ++ [$")"]
  end.

Definition decl_name (d : decl) : str :=
  match d with
  | DObject _ n | DArray _ n _ | DFunction _ n _ | DFunctionParen _ n _
  | DFunctionParenPtr _ _ n _ | DFunctionPointer _ n _ => n
  end.
Definition decl_type_tokens (d : decl) : list str :=
  match d with
  | DObject ty _ | DArray ty _ _ | DFunction ty _ _ | DFunctionParen ty _ _
  | DFunctionParenPtr _ ty _ _ | DFunctionPointer ty _ _ => ty
  end.

(** the type text the tool should record for the declared thing: the return type of a function, the
    type of an object with its brackets, or the abstract function pointer type *)
Definition decl_type (d : decl) : str :=
  match d with
  | DObject ty _ => spaced ty
  | DArray ty _ i => spaced (ty ++ [$"["] ++ i ++ [$"]"])
  | DFunction ty _ _ | DFunctionParen ty _ _ => spaced ty
  | DFunctionParenPtr two ty _ _ => spaced (ty ++ stars two)
  | DFunctionPointer ty _ ps => spaced ty ++ $"(*)" ++ spaced ([$"("] ++ ps ++ [$")"])
  end.

(** parameter tokens (functions only) *)
Definition decl_params (d : decl) : list str :=
  match d with
  | DFunction _ _ ps | DFunctionParen _ _ ps | DFunctionParenPtr _ _ _ ps => ps
  | _ => []
  end.

Definition str_dec (a b : str) : {a = b} + {a <> b} := list_eq_dec ascii_dec a b.
(** Opening minus closing parentheses of a token list. *)
Definition net (l : list str) : Z :=
  Z.of_nat (count_occ str_dec l $"(") - Z.of_nat (count_occ str_dec l $")").
(** balanced: every prefix opens at least as many parentheses as it closes, and all are closed at the end *)
Definition balanced (l : list str) : Prop :=
  net l = 0%Z /\ forall a b, l = a ++ b -> (0 <= net a)%Z.

(** a comma of [l] is at top level if the parentheses before it are all closed;
    [no_top_comma l]: no comma of [l] is at top level *)
Definition no_top_comma (l : list str) : Prop :=
  forall a b, l = a ++ [$","] ++ b -> net a <> 0%Z.

(** a list of token lists written with commas between them *)
Fixpoint comma_join (ls : list (list str)) : list str :=
  match ls with
  | [] => []
  | [l] => l
  | l :: ls' => l ++ [$","] ++ comma_join ls'
  end.

(** texts with a separator between them *)
Fixpoint join (sep : str) (l : list str) : str :=
  match l with
  | [] => []
  | [x] => x
  | x :: l' => x ++ sep ++ join sep l'
  end.
Definition unwords (l : list str) : str := join $" " l.

(** [insert_name n v w]: [w] is parameter [v] with the name [n] put where C wants it: after a plain type,
    after the [*] of a function pointer (replacing a name that is already there), before array brackets. *)
Inductive insert_name (n : str) : list str -> list str -> Prop :=
| ins_plain v : type_tokens v -> insert_name n v (v ++ [n])
| ins_fptr_named ty s ps : type_tokens ty -> ident_word s ->
    insert_name n (ty ++ [$"("; $"*"; s; $")"; $"("] ++ ps ++ [$")"])
                  (ty ++ [$"("; $"*"; n; $")"; $"("] ++ ps ++ [$")"])
| ins_fptr_anon ty ps : type_tokens ty ->
    insert_name n (ty ++ [$"("; $"*"; $")"; $"("] ++ ps ++ [$")"])
                  (ty ++ [$"("; $"*"; n; $")"; $"("] ++ ps ++ [$")"])
| ins_array ty i : type_tokens ty ->
    insert_name n (ty ++ [$"["] ++ i ++ [$"]"]) (ty ++ [n] ++ [$"["] ++ i ++ [$"]"]).

(** a declaration with a proper type and name *)
Definition decl_ok (d : decl) : Prop := type_tokens (decl_type_tokens d) /\ ident_word (decl_name d).
(** the declarator is written in parentheses *)
Definition paren_form (d : decl) : Prop :=
  match d with DFunctionParen _ _ _ | DFunctionParenPtr _ _ _ _ | DFunctionPointer _ _ _ => True | _ => False end.
(** the type is one word, or ends in [*] *)
Definition single_or_pointer (ty : list str) : Prop := length ty = 1%nat \/ exists ty', ty = ty' ++ [$"*"].
(** all groups but the last are closed *)
Definition closed_groups (gs : list (list str)) : Prop := Forall (fun g => net g = 0%Z) (removelast gs).
(** declarations a parameter can be *)
Definition param_form (d : decl) : Prop :=
  match d with DObject _ _ | DArray _ _ _ | DFunctionPointer _ _ _ => True | _ => False end.

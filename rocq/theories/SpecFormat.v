(** Specification vocabulary for formatting and literal replacement. *)
From Coq Require Import Ascii String List Bool Arith.
From Verif Require Import Str Parse Format SpecParse SpecTables.
Import ListNotations.

(** [from] occurs in [s] *)
Definition occurs (from s : str) : Prop := exists a b, s = a ++ from ++ b.

(** one occurrence of [from] is replaced by [to], everything else stays *)
Inductive rewrite1 (from to : str) : str -> str -> Prop :=
| Rewrite1 a b : rewrite1 from to (a ++ from ++ b) (a ++ to ++ b).
Inductive rewrites (from to : str) : str -> str -> Prop :=
| RewritesRefl s : rewrites from to s s
| RewritesStep s t u : rewrite1 from to s t -> rewrites from to t u -> rewrites from to s u.

(** [s'] is [s] without some blanks *)
Inductive unblank : str -> str -> Prop :=
| UnblankNil : unblank [] []
| UnblankKeep c s s' : unblank s s' -> unblank (c :: s) (c :: s')
| UnblankDrop c s s' : isspace c = true -> unblank s s' -> unblank (c :: s) s'.

(** the C tokens of a declaration text: maximal runs of letters, digits and underscores, and every other visible
    character on its own ([cur] is the word being read) *)
Definition flush (cur : str) (l : list str) : list str := match cur with [] => l | _ => cur :: l end.
Fixpoint tokens_from (cur : str) (s : str) : list str :=
  match s with
  | [] => flush cur []
  | c :: s' =>
      if is_ident c then tokens_from (cur ++ [c]) s'
      else flush cur (if isspace c then tokens_from [] s' else [c] :: tokens_from [] s')
  end.
Definition tokens (s : str) : list str := tokens_from [] s.

(** the cosmetic rules: where a blank must not be *)
Definition after_marks : str := ["("; ")"; "["; "]"; "*"]%char.
Definition before_marks : str := [")"; "["; "]"; ","]%char.
Definition tidy (s : str) : Prop :=
  (forall c, In c after_marks -> ~ occurs [c; sp] s) /\
  (forall c, In c before_marks -> ~ occurs [sp; c] s) /\
  (forall c r, s = c :: r -> isspace c = false) /\ (forall c r, s = r ++ [c] -> isspace c = false).

(** the typedef for a declared function pointer or array: its type with [name] at the declarator position *)
Definition typedef_text (d : decl) (name : str) : list str :=
  match d with
  | DFunctionPointer ty _ ps => [spaced ty ++ $"(*" ++ name ++ $")" ++ spaced ([$"("] ++ ps ++ [$")"])]
  | DArray ty _ i => [spaced ty ++ name ++ spaced ([$"["] ++ i ++ [$"]"])]
  | _ => []
  end.
(** the same declaration declaring [n] *)
Definition renamed (d : decl) (n : str) : decl :=
  match d with
  | DObject ty _ => DObject ty n
  | DArray ty _ i => DArray ty n i
  | DFunction ty _ ps => DFunction ty n ps
  | DFunctionParen ty _ ps => DFunctionParen ty n ps
  | DFunctionParenPtr b ty _ ps => DFunctionParenPtr b ty n ps
  | DFunctionPointer ty _ ps => DFunctionPointer ty n ps
  end.
(** three dots are one token for the parser *)
Definition split_dots (t : str) : list str := if str_eqb t $"..." then [$"."; $"."; $"."] else [t].

(** the name of the typedef for [symbol] *)
Definition td_name (pfx symbol : str) : str := pfx ++ $"_" ++ symbol ++ $"__t".

(** [p] is what the parser makes of declaration [d] *)
Definition describes (d : decl) (p : proto) : Prop :=
  p_kind p = decl_kind d /\ p_symbol p = decl_name d /\ p_type p = decl_type d.
Definition retyped (p : proto) (t : str) : proto :=
  mkproto (p_kind p) t (p_symbol p) (p_args p) (p_args_vec p) (p_param_names p).
(** function pointers and arrays are known by their typedef from now on *)
Definition with_typedef (pfx : str) (p : proto) : proto :=
  match p_kind p with
  | KFunctionPointer | KObjectArray => retyped p (td_name pfx (p_symbol p))
  | _ => p
  end.

(** a text after formatting, and an entry whose type and parameter text were formatted *)
Definition formatted (s t : str) : Prop := format_prototype s = Ok t.
Definition formatted_proto (p q : proto) : Prop :=
  formatted (p_type p) (p_type q) /\ formatted (p_args p) (p_args q) /\
  p_kind q = p_kind p /\ p_symbol q = p_symbol p /\ p_args_vec q = p_args_vec p /\ p_param_names q = p_param_names p.

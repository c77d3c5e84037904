(** C types as clang writes them, and the declaration of a name with such a type. *)
From Coq Require Import Ascii String List Bool Arith.
From Verif Require Import Str SpecParse.
Import ListNotations.

(** base type (its text, qualifiers included), qualified pointer, array with its bound, function *)
Inductive ctype :=
| CBase (text : str)
| CPtr (quals : str) (to : ctype)
| CArr (bound : str) (elem : ctype)
| CFun (result : ctype) (params : list ctype) (variadic : bool).

(** a base type, then the declarator, if there is one; clang puts no blank before a bracket *)
Definition after_base (b d : str) : str :=
  match d with
  | [] => b
  | c :: _ => if Ascii.eqb c "[" then b ++ d else b ++ $" " ++ d
  end.
(** a star with qualifiers before the rest of the declarator *)
Definition star (q d : str) : str := $"*" ++ match q with [] => d | _ => after_base q d end.
Definition composite (t : ctype) : bool := match t with CArr _ _ | CFun _ _ _ => true | _ => false end.
Definition param_list (ps : list str) (variadic : bool) : str :=
  match ps, variadic with
  | [], false => $"void"
  | [], true => $"..."
  | _, false => join $", " ps
  | _, true => join $", " ps ++ $", ..."
  end.

(** [declare t d]: the declaration of the declarator [d] with the type [t]; the type itself if [d] is empty *)
Fixpoint declare (t : ctype) (d : str) : str :=
  match t with
  | CBase b => after_base b d
  | CPtr q t' => declare t' (if composite t' then $"(" ++ star q d ++ $")" else star q d)
  | CArr n t' => declare t' (d ++ $"[" ++ n ++ $"]")
  | CFun r ps v => declare r (d ++ $"(" ++ param_list (map (fun p => declare p []) ps) v ++ $")")
  end.
Definition type_text (t : ctype) : str := declare t [].

(** the prototype of [n] with named parameters *)
Fixpoint declare_all (ts : list ctype) (ns : list str) : list str :=
  match ts, ns with
  | t :: ts', n :: ns' => declare t n :: declare_all ts' ns'
  | _, _ => []
  end.
Definition prototype (r : ctype) (n : str) (ps : list ctype) (v : bool) (names : list str) : str :=
  declare r (n ++ $"(" ++ param_list (declare_all ps names) v ++ $")").

(* ------------------------------------------------------------ classes of types *)

(** words separated by blanks, nothing else *)
Definition words (s : str) : Prop :=
  s <> [] /\ Forall (fun c => is_ident c = true \/ c = sp) s /\
  (forall c r, s = c :: r -> c <> sp) /\ (forall c r, s = r ++ [c] -> c <> sp).
Definition quals_ok (q : str) : Prop := q = [] \/ words q.

(** base types and pointers to them *)
Fixpoint simple (t : ctype) : Prop :=
  match t with
  | CBase b => words b
  | CPtr q t' => quals_ok q /\ simple t'
  | _ => False
  end.
(** the words written before the declared name are well-formed *)
Fixpoint spine_ok (t : ctype) : Prop :=
  match t with
  | CBase b => words b
  | CPtr q t' => quals_ok q /\ spine_ok t'
  | CArr _ t' => spine_ok t'
  | CFun r _ _ => spine_ok r
  end.
(** arrays and functions of simple types: nothing needs parentheses *)
Fixpoint flat (t : ctype) : Prop :=
  match t with
  | CArr _ t' => flat t'
  | CFun r _ _ => flat r
  | _ => simple t
  end.
(** an unqualified pointer to a function or an array *)
Definition pointer_to_composite (t : ctype) : Prop :=
  match t with CPtr [] t' => composite t' = true | _ => False end.
(** the types for which a parameter can be declared *)
Definition param_type (t : ctype) : Prop := simple t \/ spine_ok t /\ pointer_to_composite t.

(** Expressions of a program that uses the library's variables, for C98.  Definitions only. *)
From Coq Require Import Ascii String List Bool Arith.
From Verif Require Import Str Parse ParamNames Prefix Substitute SpecCLang SpecCProg SpecCRun SpecCMacro SpecBody SpecHeader SpecCRead SpecCSyntax.
Import ListNotations.

(** the variable in the loaded library: what the handle's field for it points to *)
Definition address (n : str) : expr := EField (EId $"gdo_hndl") ($"GDO_PTR_" ++ n).
(** the expression with the library's variables [vs] *)
Fixpoint meant_e (vs : list str) (e : expr) : expr :=
  match e with
  | ENone | EStr _ | EChr _ => e
  | EId x => if one_of x vs then EDeref (address x) else e
  | EParen e => EParen (meant_e vs e)
  | ECall f l => ECall f (map (meant_e vs) l)
  | EField e x => EField (meant_e vs e) x
  | EArrow e x => EArrow (meant_e vs e) x
  | EIndex e i => EIndex (meant_e vs e) (meant_e vs i)
  | ENot e => ENot (meant_e vs e)
  | ENeg e => ENeg (meant_e vs e)
  | EDeref e => EDeref (meant_e vs e)
  | EAddr e => EAddr (meant_e vs e)
  | ECast ty e => ECast ty (meant_e vs e)
  | EBin o a b => EBin o (meant_e vs a) (meant_e vs b)
  | ESet a b => ESet (meant_e vs a) (meant_e vs b)
  | ESizeof e => ESizeof (meant_e vs e)
  | ECat a b => ECat (meant_e vs a) (meant_e vs b)
  end.
(** the variables' names stand for the variables only, not for members, functions or types *)
Fixpoint only_variables (vs : list str) (e : expr) : bool :=
  match e with
  | ENone | EStr _ | EChr _ | EId _ => true
  | EParen e | ENot e | ENeg e | EDeref e | EAddr e => only_variables vs e
  | ESizeof e => negb (one_of $"sizeof" vs) && only_variables vs e
  | ECall f l => negb (one_of f vs) && forallb (only_variables vs) l
  | EField e x | EArrow e x => negb (one_of x vs) && only_variables vs e
  | ECast ty e => forallb (fun t => match t with TWord w => negb (one_of w vs) | _ => true end) ty && only_variables vs e
  | EIndex a b | EBin _ a b | ESet a b | ECat a b => only_variables vs a && only_variables vs b
  end.
(** no variable is followed by a member or an index *)
Definition not_one (vs : list str) (e : expr) : bool := match e with EId x => negb (one_of x vs) | _ => true end.
Fixpoint alone (vs : list str) (e : expr) : bool :=
  match e with
  | ENone | EStr _ | EChr _ | EId _ => true
  | EParen e | ENot e | ENeg e | EDeref e | EAddr e | ESizeof e | ECast _ e => alone vs e
  | ECall _ l => forallb (alone vs) l
  | EField e _ | EArrow e _ => not_one vs e && alone vs e
  | EIndex a i => not_one vs a && alone vs a && alone vs i
  | EBin _ a b | ESet a b | ECat a b => alone vs a && alone vs b
  end.
(** names that the generated files leave alone *)
Definition program_word (c : config) (x : str) : Prop := starts_with $"GDO_" x = false /\ ~ In x other_macros /\ x <> $"_countof" /\ ~ In x (symbol_names c).
(** an expression that a program may use: written as C reads it, with such names and the library's variables *)
Definition program_expr (tw : str -> bool) (c : config) (e : expr) : Prop :=
  let vs := map p_symbol (c_objs c) in
  fine_e e = true /\ named tw e = true /\ only_variables vs e = true /\ (forall x, In (TWord x) (print_e e) -> one_of x vs = true \/ program_word c x).
(** after the macros of a generated file *)
Definition used_as (tw : str -> bool) (m : macro_table) (e e' : expr) : Prop := exists l, becomes m (print_e e) l /\ reads_expr tw l e'.

(** Specification vocabulary for Clang AST input: what a dump looks like, what it declares, what should be
    selected and recorded.  Nothing here mentions the implementation. *)
From Coq Require Import Ascii String List Bool Arith NArith.
From Verif Require Import Str SpecParse SpecFormat Parse Format.
Import ListNotations.

(* ------------------------------------------------------------ dump lines *)

(** a terminal colour sequence: ESC [ digits and semicolons m *)
Definition sgr (s : str) : Prop :=
  exists p, s = esc :: "["%char :: p ++ ["m"%char] /\ Forall (fun c => isdigit c = true \/ c = ";"%char) p.
(** [n] or fewer colour sequences *)
Inductive sgrs : nat -> str -> Prop :=
| sgrs_nil n : sgrs n []
| sgrs_cons n q s : sgr q -> sgrs n s -> sgrs (S n) (q ++ s).
(** [coloured p s]: [s] is the text [p] with colour sequences put in anywhere *)
Inductive coloured : str -> str -> Prop :=
| col_nil : coloured [] []
| col_char c p s : c <> esc -> coloured p s -> coloured (c :: p) (c :: s)
| col_seq q p s : sgr q -> coloured p s -> coloured p (q ++ s).

(** text inside a line: no line break and no NUL *)
Definition line_text (s : str) : Prop := Forall (fun c => c <> nl /\ c <> cr /\ c <> nul) s.
Definition no_quote (s : str) : Prop := ~ In "'"%char s.

(** [node marks kw s l]: the line [l] is the tree marks [marks], the node kind [kw], then " 0x" and [s], coloured
    as clang does: a sequence before the marks, up to two before and after the kind, any in [s] *)
Definition node (marks kw s l : str) : Prop :=
  exists c1 c2 c3 s', l = c1 ++ marks ++ c2 ++ kw ++ c3 ++ $" 0x" ++ s' /\
    sgrs 1 c1 /\ sgrs 2 c2 /\ sgrs 2 c3 /\ coloured s s'.
(** the line with a carriage return at the end, or without *)
Definition maybe_cr (l l' : str) : Prop := l' = l \/ l' = l ++ [cr].

Definition top_marks (m : str) : Prop := In m [$"|-"; $"`-"].
Definition child_marks (m : str) : Prop := In m [$"| |-"; $"| `-"; $"  |-"; $"  `-"].

(** the line of a declaration at top level: address, location and so on in [j], then name and quoted type *)
Definition decl_line (kw name type l : str) : Prop :=
  exists m j t l0, top_marks m /\ maybe_cr l0 l /\
    node m kw (j ++ $" " ++ name ++ $" '" ++ type ++ $"'" ++ t) l0 /\
    line_text j /\ no_quote j /\ line_text type /\ no_quote type /\ line_text t.
(** the line of a parameter of a top-level declaration *)
Definition param_line (type l : str) : Prop :=
  exists m j t l0, child_marks m /\ maybe_cr l0 l /\
    node m $"ParmVarDecl" (j ++ $" '" ++ type ++ $"'" ++ t) l0 /\
    line_text j /\ no_quote j /\ line_text type /\ no_quote type /\ line_text t.
(** any other line *)
Definition other_line (l : str) : Prop :=
  ~ In nl l /\
  forall c1 m c2 kw c3 s, l = c1 ++ m ++ c2 ++ kw ++ c3 ++ $" 0x" ++ s -> sgrs 1 c1 -> sgrs 2 c2 -> sgrs 2 c3 ->
    ~ (top_marks m /\ (kw = $"FunctionDecl" \/ kw = $"VarDecl")) /\ ~ (child_marks m /\ kw = $"ParmVarDecl").
(** the first line of a dump *)
Definition first_line (l : str) : Prop :=
  ~ In nl l /\
  exists b c1 c2 s, l = b ++ c1 ++ $"TranslationUnitDecl" ++ c2 ++ $" 0x" ++ s /\
    (b = [] \/ b = ["239"; "187"; "191"]%char) /\ sgrs 1 c1 /\ sgrs 2 c2.

(* ------------------------------------------------------------ what a dump declares *)

(** a top-level function with the types of its parameters, or a top-level variable; types as clang writes them *)
Inductive item := IFunc (name type : str) (params : list str) | IVar (name type : str).
Definition item_name (i : item) : str := match i with IFunc n _ _ | IVar n _ => n end.

Inductive shows_params : list str -> list str -> Prop :=
| sp_nil : shows_params [] []
| sp_other ps l ls : other_line l -> shows_params ps ls -> shows_params ps (l :: ls)
| sp_param t ps l ls : param_line t l -> shows_params ps ls -> shows_params (t :: ps) (l :: ls).
Inductive shows : list item -> list str -> Prop :=
| sh_nil : shows [] []
| sh_other its l ls : other_line l -> shows its ls -> shows its (l :: ls)
| sh_var n t its l ls : ident_word n -> decl_line $"VarDecl" n t l -> shows its ls -> shows (IVar n t :: its) (l :: ls)
| sh_func n t ps its l lps ls : ident_word n -> decl_line $"FunctionDecl" n t l -> shows_params ps lps -> shows its ls ->
    shows (IFunc n t ps :: its) (l :: lps ++ ls).
(** [dump its text]: the text is a dump of a unit that declares [its] *)
Definition dump (its : list item) (text : str) : Prop :=
  exists l ls, first_line l /\ shows its ls /\ text = concat (map (fun x => x ++ [nl]) (l :: ls)).

(* ------------------------------------------------------------ selection *)

Definition has_prefix (pfx : list str) (n : str) : bool := existsb (fun p => starts_with p n) pfx.
Definition listed (syms : list str) (n : str) : bool := existsb (str_eqb n) syms.

(** the declarations to take: all of them, or those with a given prefix and the first of each listed name *)
Fixpoint chosen (all : bool) (pfx syms seen : list str) (its : list item) : list item :=
  match its with
  | [] => []
  | i :: its' =>
      let n := item_name i in
      let r := chosen all pfx syms (n :: seen) its' in
      if all || has_prefix pfx n || (listed syms n && negb (listed seen n)) then i :: r else r
  end.

(** the listed names that are not declared *)
Definition undeclared (syms : list str) (its : list item) : list str :=
  filter (fun s => negb (listed (map item_name its) s)) syms.
(** no declared name is asked for by both a prefix and the list *)
Definition no_overlap (pfx syms : list str) (its : list item) : Prop :=
  forall i, In i its -> In (item_name i) syms -> has_prefix pfx (item_name i) = false.

Definition is_func (i : item) : bool := match i with IFunc _ _ _ => true | IVar _ _ => false end.
(** the text of a function type has an opening parenthesis (it is not the name of a function type) *)
Definition spelled_out (i : item) : Prop := match i with IFunc _ t _ => In "("%char t | IVar _ _ => True end.

(* ------------------------------------------------------------ what is recorded *)

(** [b] is [a] without blanks at its ends *)
Definition trim_of (a b : str) : Prop :=
  exists l r, a = l ++ b ++ r /\ Forall (fun c => isspace c = true) l /\ Forall (fun c => isspace c = true) r /\
    match b with [] => True | c :: _ => isspace c = false /\ isspace (last b nul) = false end.

(** [put_name n t d]: the parameter declaration [d] made from the type [t] and the name [n] *)
Inductive put_name (n : str) : str -> str -> Prop :=
| pn_fptr a b : ~ occurs $"(*)" (a ++ $"(*") -> put_name n (a ++ $"(*)" ++ b) (a ++ $"(*" ++ n ++ $")" ++ b)
| pn_pointer a : ~ occurs $"(*)" (a ++ $"*") -> put_name n (a ++ $"*") (a ++ $"*" ++ n)
| pn_plain a : ~ occurs $"(*)" a -> last a sp <> "*"%char -> put_name n a (a ++ $" " ++ n).

(** the names a1, a2, ... *)
Definition arg_name (k : nat) : str := $"a" ++ nat_to_string k.
Fixpoint arg_names (k : nat) {A} (l : list A) : list str :=
  match l with [] => [] | _ :: l' => arg_name k :: arg_names (S k) l' end.

(** the kind of an object with the type [t]: function pointer, array or plain *)
Definition object_kind (t : str) (k : kind) : Prop :=
  occurs $"(*)" t /\ k = KFunctionPointer \/
  ~ occurs $"(*)" t /\ In "["%char t /\ k = KObjectArray \/
  ~ occurs $"(*)" t /\ ~ In "["%char t /\ k = KObject.

Inductive zip3 {A B C} (R : A -> B -> C -> Prop) : list A -> list B -> list C -> Prop :=
| zip3_nil : zip3 R [] [] []
| zip3_cons a b c la lb lc : R a b c -> zip3 R la lb lc -> zip3 R (a :: la) (b :: lb) (c :: lc).

(** the record of a declaration *)
Definition recorded (i : item) (p : proto) : Prop :=
  match i with
  | IVar n t => p_symbol p = n /\ trim_of t (p_type p) /\ object_kind t (p_kind p) /\ p_args p = [] /\ p_param_names p = []
  | IFunc n t ps =>
      p_symbol p = n /\ p_kind p = KFunction /\
      (exists ret rest, t = ret ++ $"(" ++ rest /\ ~ In "("%char ret /\ trim_of ret (p_type p)) /\
      p_param_names p = join $", " (arg_names 1 ps) /\
      exists ds, zip3 put_name (arg_names 1 ps) ps ds /\ p_args p = join $", " ds
  end.

(** a typedef can be made for the variable: if it counts as a function pointer, its first parenthesis is the one of
    the pointer *)
Definition typedef_ok (i : item) : Prop :=
  match i with
  | IVar _ t => forall a b, t = a ++ $"(*)" ++ b -> ~ occurs $"(*)" (a ++ $"(*") -> ~ In "("%char a
  | IFunc _ _ _ => True
  end.

(** what the program reports as missing: a listed name that is not declared, and (the finding) any listed name that also
    has one of the prefixes *)
Definition reported (pfx syms : list str) (its : list item) : list str :=
  filter (fun s => has_prefix pfx s || negb (listed (map item_name its) s)) syms.
(** the symbols made of the declarations [ch] *)
Definition tables_of (pl : str) (ch : list item) (y : symbols) : Prop :=
  exists objs, Forall2 recorded (filter is_func ch) (s_funcs y) /\ Forall2 recorded (filter (fun i => negb (is_func i)) ch) objs /\
    s_objs y = map (with_typedef pl) objs.

(** Syntax trees for the part of C in which the templates are written, how they are written down as tokens, and the replacement of
    macros, for C92.  Definitions only. *)
From Coq Require Import Ascii String List Bool Arith.
From Verif Require Import Str SpecCLang.
Import ListNotations.

Inductive expr :=
| ENone                               (* nothing: what an empty macro stands for *)
| EId (x : str)                       (* name or number *)
| EStr (s : str) | EChr (s : str)     (* literals, as written between the quotes *)
| EParen (e : expr)
| ECall (f : str) (args : list expr)
| EField (e : expr) (x : str) | EArrow (e : expr) (x : str) | EIndex (e i : expr)
| ENot (e : expr) | ENeg (e : expr) | EDeref (e : expr) | EAddr (e : expr)
| ECast (ty : list tok) (e : expr)
| EBin (op : str) (a b : expr)
| ESet (a b : expr)
| ESizeof (e : expr)
| ECat (a b : expr).                  (* literals that follow each other *)
Inductive stmt :=
| SExpr (e : expr)
| SDecl (ty : list tok) (x : str) (array : bool) (init : option expr)
| SIf (c : expr) (yes : list stmt) (no : option (list stmt))
| SReturn (e : option expr)
| SSwitch (e : expr) (body : list stmt)
| SCase (e : expr) | SDefault | SBreak.
(** a function: what stands before its name, parameters, body *)
Record func := mkfunc { f_head : list tok; f_name : str; f_params : list (list tok * str); f_body : list stmt }.
(** what a macro stands for: an expression, or words that are not looked at *)
Inductive mbody := MExpr (e : expr) | MRaw (l : list tok).
(** a macro with its parameters, the last of which may be an ellipsis *)
Record macro := mkmacro { m_params : option (list str * bool); m_body : mbody }.
Inductive citem :=
| IFunc (f : func)
| ICode (l : list tok)                (* declarations, and functions that are not looked at *)
| IMacro (x : str) (m : macro)
| IUndef (x : str).

(* ---------------------------------------------------------------- as tokens *)

Definition pn (s : string) : tok := TOp $s.
Definition wd (s : string) : tok := TWord $s.
Fixpoint with_commas (l : list (list tok)) : list tok :=
  match l with [] => [] | [x] => x | x :: r => x ++ pn "," :: with_commas r end.
Fixpoint print_e (e : expr) : list tok :=
  match e with
  | ENone => []
  | EId x => [TWord x]
  | EStr s => [TText s]
  | EChr s => [TChar s]
  | EParen e => pn "(" :: print_e e ++ [pn ")"]
  | ECall f args => TWord f :: pn "(" :: with_commas (map print_e args) ++ [pn ")"]
  | EField e x => print_e e ++ [pn "."; TWord x]
  | EArrow e x => print_e e ++ [pn "->"; TWord x]
  | EIndex e i => print_e e ++ pn "[" :: print_e i ++ [pn "]"]
  | ENot e => pn "!" :: print_e e
  | ENeg e => pn "-" :: print_e e
  | EDeref e => pn "*" :: print_e e
  | EAddr e => pn "&" :: print_e e
  | ECast ty e => pn "(" :: ty ++ pn ")" :: print_e e
  | EBin o a b => print_e a ++ TOp o :: print_e b
  | ESet a b => print_e a ++ pn "=" :: print_e b
  | ESizeof e => wd "sizeof" :: pn "(" :: print_e e ++ [pn ")"]
  | ECat a b => print_e a ++ print_e b
  end.
Fixpoint print_s (s : stmt) : list tok :=
  match s with
  | SExpr e => print_e e ++ [pn ";"]
  | SDecl ty x array init =>
      ty ++ TWord x :: (if array then [pn "["; pn "]"] else []) ++ match init with Some e => pn "=" :: print_e e | None => [] end ++ [pn ";"]
  | SIf c yes no =>
      wd "if" :: pn "(" :: print_e c ++ pn ")" :: pn "{" :: flat_map print_s yes ++ pn "}" ::
      match no with Some l => wd "else" :: pn "{" :: flat_map print_s l ++ [pn "}"] | None => [] end
  | SReturn e => wd "return" :: match e with Some e => print_e e | None => [] end ++ [pn ";"]
  | SSwitch e body => wd "switch" :: pn "(" :: print_e e ++ pn ")" :: pn "{" :: flat_map print_s body ++ [pn "}"]
  | SCase e => wd "case" :: print_e e ++ [pn ":"]
  | SDefault => [wd "default"; pn ":"]
  | SBreak => [wd "break"; pn ";"]
  end.
Definition print_params (l : list (list tok * str)) : list tok :=
  match l with [] => [wd "void"] | _ => with_commas (map (fun p => fst p ++ [TWord (snd p)]) l) end.
Definition print_f (f : func) : list tok :=
  f_head f ++ TWord (f_name f) :: pn "(" :: print_params (f_params f) ++ pn ")" :: pn "{" :: flat_map print_s (f_body f) ++ [pn "}"].
Definition dots : list tok := [pn "."; pn "."; pn "."].
Definition print_mparams (p : list str * bool) : list tok :=
  pn "(" :: with_commas (map (fun x => [TWord x]) (fst p) ++ if snd p then [dots] else []) ++ [pn ")"].
Definition print_m (m : macro) : bool * list tok :=
  let body := match m_body m with MExpr e => print_e e | MRaw l => l end in
  match m_params m with Some p => (true, print_mparams p ++ body) | None => (false, body) end.
Definition print_i (i : citem) : list pout :=
  match i with
  | IFunc f => map PTok (print_f f)
  | ICode l => map PTok l
  | IMacro x m => [PDefine x (fst (print_m m)) (snd (print_m m))]
  | IUndef x => [PUndef x]
  end.
(** a file *)
Definition print (p : list citem) : list pout := flat_map print_i p.

(* ---------------------------------------------------------------- well-formed trees: those that are read back as they are *)

(** how strongly an expression holds together: 1 names, literals, parentheses and what follows them, 2 unary, 3..7 binary, 8 assignment *)
Definition bin_level (o : str) : nat :=
  if str_eqb o $"*" || str_eqb o $"/" || str_eqb o $"%" then 3 else if str_eqb o $"+" || str_eqb o $"-" then 4
  else if str_eqb o $"<" || str_eqb o $">" || str_eqb o $"<=" || str_eqb o $">=" then 5
  else if str_eqb o $"==" || str_eqb o $"!=" then 6 else if str_eqb o $"&&" then 7 else 8.
Definition level (e : expr) : nat :=
  match e with
  | ENone => 20
  | ENot _ | ENeg _ | EDeref _ | EAddr _ | ECast _ _ => 2
  | EBin o _ _ => bin_level o
  | ESet _ _ => 9
  | _ => 1
  end.
Definition known_op (o : str) : bool := existsb (str_eqb o) [$"*"; $"/"; $"%"; $"+"; $"-"; $"<"; $">"; $"<="; $">="; $"=="; $"!="; $"&&"; $"||"].
(** string literals next to each other, from left to right; GDO_DEFAULT_LIB is a literal, c.h:84-90 *)
Definition is_piece (e : expr) : bool := match e with EStr _ => true | EId x => str_eqb x $"GDO_DEFAULT_LIB" | _ => false end.
Definition is_literal (e : expr) : bool := match e with ECat _ _ => true | _ => is_piece e end.
Fixpoint fine_e (e : expr) : bool :=
  match e with
  | ENone => false
  | EId _ | EStr _ | EChr _ => true
  | EParen e => fine_e e && (level e <=? 9)
  | ECall _ args => forallb (fun e => fine_e e && (level e <=? 9)) args
  | EField e _ | EArrow e _ => fine_e e && (level e <=? 1)
  | EIndex e i => fine_e e && (level e <=? 1) && fine_e i && (level i <=? 9)
  | ENot e | ENeg e | EDeref e | EAddr e | ECast _ e => fine_e e && (level e <=? 2)
  | EBin o a b => known_op o && fine_e a && fine_e b && (level a <=? bin_level o) && (level b <? bin_level o)
  | ESet a b => fine_e a && fine_e b && (level a <=? 2) && (level b <=? 9)
  | ESizeof e => fine_e e && (level e <=? 9)
  | ECat a b => fine_e a && fine_e b && is_literal a && is_piece b
  end.

(* ---------------------------------------------------------------- macros *)

Fixpoint zip {A B} (a : list A) (b : list B) : list (A * B) := match a, b with x :: a, y :: b => (x, y) :: zip a b | _, _ => [] end.
(** a macro's body for its arguments: [one] for the parameters, [rest] for the ellipsis *)
Fixpoint subst (one : list (str * expr)) (rest : list expr) (e : expr) : expr :=
  let args := flat_map (fun a => match a with EId x => if str_eqb x $"__VA_ARGS__" then rest else [subst one rest a] | _ => [subst one rest a] end) in
  match e with
  | ENone | EStr _ | EChr _ => e
  | EId x => match lookup x one with Some e => e | None => e end
  | EParen e => EParen (subst one rest e)
  | ECall f l => ECall f (args l)
  | EField e x => EField (subst one rest e) x
  | EArrow e x => EArrow (subst one rest e) x
  | EIndex e i => EIndex (subst one rest e) (subst one rest i)
  | ENot e => ENot (subst one rest e)
  | ENeg e => ENeg (subst one rest e)
  | EDeref e => EDeref (subst one rest e)
  | EAddr e => EAddr (subst one rest e)
  | ECast ty e => ECast ty (subst one rest e)
  | EBin o a b => EBin o (subst one rest a) (subst one rest b)
  | ESet a b => ESet (subst one rest a) (subst one rest b)
  | ESizeof e => ESizeof (subst one rest e)
  | ECat a b => ECat (subst one rest a) (subst one rest b)
  end.
(** replacement of the macros [macro_of]; the number bounds how often what was put in is looked at again *)
Section Expand.
Variable macro_of : str -> option macro.
Fixpoint expand (n : nat) (e : expr) {struct n} : expr :=
  match n with
  | O => e
  | S n =>
      (fix go (e : expr) : expr :=
         match e with
         | ENone | EStr _ | EChr _ => e
         | EId x => match macro_of x with Some (mkmacro None (MExpr b)) => expand n b | _ => e end
         | EParen e => EParen (go e)
         | ECall f l =>
             match macro_of f with
             | Some (mkmacro (Some (ps, _)) (MExpr b)) => expand n (subst (zip ps (map go l)) (skipn (length ps) (map go l)) b)
             | _ => ECall f (map go l)
             end
         | EField e x => EField (go e) x
         | EArrow e x => EArrow (go e) x
         | EIndex e i => EIndex (go e) (go i)
         | ENot e => ENot (go e)
         | ENeg e => ENeg (go e)
         | EDeref e => EDeref (go e)
         | EAddr e => EAddr (go e)
         | ECast ty e => ECast ty (go e)
         | EBin o a b => EBin o (go a) (go b)
         | ESet a b => ESet (go a) (go b)
         | ESizeof e => ESizeof (go e)
         | ECat a b => ECat (go a) (go b)
         end) e
  end.
Definition expand_e : expr -> expr := expand 8.
Fixpoint expand_s (s : stmt) : stmt :=
  match s with
  | SExpr e => SExpr (expand_e e)
  | SDecl ty x array init => SDecl ty x array (option_map expand_e init)
  | SIf c yes no => SIf (expand_e c) (map expand_s yes) (option_map (map expand_s) no)
  | SReturn e => SReturn (option_map expand_e e)
  | SSwitch e body => SSwitch (expand_e e) (map expand_s body)
  | SCase e => SCase (expand_e e)
  | SDefault => SDefault
  | SBreak => SBreak
  end.
Definition expand_f (f : func) : func := mkfunc (f_head f) (f_name f) (f_params f) (map expand_s (f_body f)).
End Expand.
(** the macros in force, newest definition first *)
Definition in_force (ms : list (str * option macro)) (x : str) : option macro := match lookup x ms with Some (Some m) => Some m | _ => None end.
(** the functions of a file with the macros replaced that are in force where they stand; [ms]: those defined before *)
Fixpoint functions (ms : list (str * option macro)) (p : list citem) : list func :=
  match p with
  | [] => []
  | IFunc f :: r => expand_f (in_force ms) f :: functions ms r
  | ICode _ :: r => functions ms r
  | IMacro x m :: r => functions ((x, Some m) :: ms) r
  | IUndef x :: r => functions ((x, None) :: ms) r
  end.

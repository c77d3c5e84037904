(** How a C compiler reads text, for C92: line splicing, comments, tokens, and the lines the preprocessor selects.  Definitions only.

    Simplifications: the operators [*=], [/=], [%=], [^=], [<<], [>>] and trigraphs are not known as such (they do not occur);
    numbers are read like words; a backslash that does not end a line is an error outside of literals. *)
From Coq Require Import Ascii String List Bool Arith NArith ZArith.
From Verif Require Import Str.
Import ListNotations.

(* ---------------------------------------------------------------- tokens *)

Inductive tok :=
| TWord (s : str)     (* identifier, keyword or number *)
| TText (s : str)     (* string literal: what stands between the quotes *)
| TChar (s : str)     (* character literal *)
| TOp (s : str)       (* operator or punctuation *)
| TEnd                (* end of a line *)
| TGlue               (* stands between a word and a parenthesis that follows it without a blank *)
| TBad.               (* what is no C text *)

(** where the next character is *)
Inductive cmode :=
| MCode
| MWord (w : str)               (* in a word *)
| MOp (c : ascii)               (* behind a character that may begin an operator of two characters *)
| MSlash
| MLine                         (* line comment *)
| MBlock | MStar                (* block comment; behind an asterisk in it *)
| MText (q : ascii) (w : str)   (* in a literal with the quote [q] *)
| MEsc (q : ascii) (w : str)    (* behind a backslash in a literal *)
| MBack (line : bool).          (* behind a backslash in code or in a line comment *)

Definition quote_tok (q : ascii) (w : str) : tok := if Ascii.eqb q dquote then TText w else TChar w.
(** operators of two characters *)
Definition pairs : list (ascii * ascii) :=
  [("=", "="); ("!", "="); ("<", "="); (">", "="); ("&", "&"); ("|", "|"); ("-", ">"); ("-", "-"); ("+", "+"); ("+", "="); ("-", "="); ("#", "#")]%char.
Definition can_pair (c : ascii) : bool := existsb (fun p => Ascii.eqb c (fst p)) pairs.
Definition is_pair (c d : ascii) : bool := existsb (fun p => Ascii.eqb c (fst p) && Ascii.eqb d (snd p)) pairs.
Definition blank_char (c : ascii) : bool := Ascii.eqb c sp || Ascii.eqb c tab.

(** a character of code at the beginning of a token *)
Definition fresh_char (c : ascii) : cmode * list tok :=
  if is_ident c then (MWord [c], [])
  else if blank_char c then (MCode, [])
  else if Ascii.eqb c nl then (MCode, [TEnd])
  else if Ascii.eqb c "/" then (MSlash, [])
  else if Ascii.eqb c dquote || Ascii.eqb c "'" then (MText c [], [])
  else if Ascii.eqb c bslash then (MBack false, [])
  else if can_pair c then (MOp c, [])
  else (MCode, [TOp [c]]).
(** the tokens [l] were finished *)
Definition after (l : list tok) (r : cmode * list tok) : cmode * list tok := (fst r, l ++ snd r).
(** one character *)
Definition lex_char (m : cmode) (c : ascii) : cmode * list tok :=
  match m with
  | MCode => fresh_char c
  | MWord w => if is_ident c then (MWord (w ++ [c]), []) else after (if Ascii.eqb c "(" then [TWord w; TGlue] else [TWord w]) (fresh_char c)
  | MOp d => if is_pair d c then (MCode, [TOp [d; c]]) else after [TOp [d]] (fresh_char c)
  | MSlash => if Ascii.eqb c "*" then (MBlock, []) else if Ascii.eqb c "/" then (MLine, []) else after [TOp $"/"] (fresh_char c)
  | MLine => if Ascii.eqb c nl then (MCode, [TEnd]) else if Ascii.eqb c bslash then (MBack true, []) else (MLine, [])
  | MBlock => (if Ascii.eqb c "*" then MStar else MBlock, [])
  | MStar => (if Ascii.eqb c "/" then MCode else if Ascii.eqb c "*" then MStar else MBlock, [])
  | MText q w => if Ascii.eqb c q then (MCode, [quote_tok q w])
                 else if Ascii.eqb c nl then (MCode, [TBad; TEnd])
                 else if Ascii.eqb c bslash then (MEsc q w, [])
                 else (MText q (w ++ [c]), [])
  | MEsc q w => if Ascii.eqb c nl then (MText q w, []) else (MText q (w ++ [bslash; c]), [])
  | MBack line => if Ascii.eqb c nl then (if line then MLine else MCode, [])
                  else if line then (if Ascii.eqb c bslash then MBack true else MLine, []) else after [TBad] (fresh_char c)
  end.
Fixpoint lex_from (m : cmode) (s : str) : cmode * list tok :=
  match s with
  | [] => (m, [])
  | c :: r => let '(m1, t1) := lex_char m c in let '(m2, t2) := lex_from m1 r in (m2, t1 ++ t2)
  end.
(** the tokens of a text that ends with a line *)
Definition c_tokens (s : str) : option (list tok) :=
  match lex_from MCode s with (MCode, t) => Some t | _ => None end.

(* ---------------------------------------------------------------- the preprocessor: which lines are used *)

(** conditions of [#if] *)
Inductive cexp := CDef (x : str) | CNot (a : cexp) | CAnd (a b : cexp) | COr (a b : cexp).
Fixpoint holds (def : str -> bool) (a : cexp) : bool :=
  match a with
  | CDef x => def x
  | CNot a => negb (holds def a)
  | CAnd a b => holds def a && holds def b
  | COr a b => holds def a || holds def b
  end.

(** [or : and ("||" and)*], [and : unary ("&&" unary)*], [unary : "!" unary | "(" or ")" | defined NAME | defined(NAME)
    | __has_builtin(NAME)]; whether there is a builtin function is told like whether there is a macro of the name __has_builtin(NAME); the first number bounds the depth *)
Definition is_op (o : str) (t : tok) : bool := match t with TOp s => str_eqb s o | _ => false end.
Fixpoint read_or (n : nat) (l : list tok) {struct n} : option (cexp * list tok) :=
  match n with
  | O => None
  | S n => match read_and n l with
           | Some (a, t :: r) => if is_op $"||" t then match read_or n r with Some (b, r') => Some (COr a b, r') | None => None end else Some (a, t :: r)
           | x => x
           end
  end
with read_and (n : nat) (l : list tok) {struct n} : option (cexp * list tok) :=
  match n with
  | O => None
  | S n => match read_unary n l with
           | Some (a, t :: r) => if is_op $"&&" t then match read_and n r with Some (b, r') => Some (CAnd a b, r') | None => None end else Some (a, t :: r)
           | x => x
           end
  end
with read_unary (n : nat) (l : list tok) {struct n} : option (cexp * list tok) :=
  match n with
  | O => None
  | S n => match l with
           | TOp o :: r =>
               if str_eqb o $"!" then match read_unary n r with Some (a, r') => Some (CNot a, r') | None => None end
               else if str_eqb o $"(" then match read_or n r with Some (a, t :: r') => if is_op $")" t then Some (a, r') else None | _ => None end
               else None
           | TWord w :: TOp a :: TWord x :: TOp b :: r =>
               if str_eqb a $"(" && str_eqb b $")" then
                 if str_eqb w $"defined" then Some (CDef x, r)
                 else if str_eqb w $"__has_builtin" then Some (CDef (w ++ a ++ x ++ b), r)
                 else None
               else None
           | TWord w :: TWord x :: r => if str_eqb w $"defined" then Some (CDef x, r) else None
           | _ => None
           end
  end.
Definition read_condition (l : list tok) : option cexp :=
  match read_or (3 * length l + 3) l with Some (a, []) => Some a | _ => None end.

(** what a line is: code, or a directive *)
Inductive line :=
| LCode (l : list tok)
| LIf (a : cexp) | LElif (a : cexp) | LElse | LEndif
| LDefine (x : str) (call : bool) (l : list tok)     (* [call]: a parenthesis follows the name; [l]: parameters and body *)
| LUndef (x : str)
| LOther.                                             (* include, pragma, error, line *)
Definition glue (t : tok) : bool := match t with TGlue => true | _ => false end.
Definition unglued (l : list tok) : list tok := filter (fun t => negb (glue t)) l.
Definition classify (l : list tok) : option line :=
  match l with
  | TOp h :: r =>
      if str_eqb h $"#" then
        match r with
        | [] => Some LOther
        | TWord w :: r =>
            if str_eqb w $"if" then option_map LIf (read_condition (unglued r))
            else if str_eqb w $"elif" then option_map LElif (read_condition (unglued r))
            else if str_eqb w $"else" then Some LElse
            else if str_eqb w $"endif" then Some LEndif
            else match r with
                 | TWord x :: r' =>
                     if str_eqb w $"ifdef" then Some (LIf (CDef x))
                     else if str_eqb w $"ifndef" then Some (LIf (CNot (CDef x)))
                     else if str_eqb w $"define" then Some (LDefine x (match r' with TGlue :: _ => true | _ => false end) (unglued r'))
                     else if str_eqb w $"undef" then Some (LUndef x)
                     else Some LOther
                 | _ => if existsb (str_eqb w) [$"ifdef"; $"ifndef"; $"define"; $"undef"] then None else Some LOther
                 end
        | _ => None
        end
      else Some (LCode (unglued l))
  | _ => Some (LCode (unglued l))
  end.
(** the lines of a list of tokens *)
Fixpoint split_lines (acc : list tok) (l : list tok) : list (list tok) :=
  match l with
  | [] => match acc with [] => [] | _ => [acc] end
  | TEnd :: r => acc :: split_lines [] r
  | t :: r => split_lines (acc ++ [t]) r
  end.

(** what comes out: tokens of code, and definitions of macros where they take effect *)
Inductive pout :=
| PTok (t : tok)
| PDefine (x : str) (call : bool) (l : list tok)
| PUndef (x : str).
(** an open conditional: whether its present group is used, and whether one of its groups was *)
Record group := mkgroup { b_used : bool; b_done : bool }.
Definition all_used (s : list group) : bool := forallb b_used s.
(** the open conditionals, innermost first; the macros defined (or undefined) in the text, newest first *)
Record pstate := mkp { p_groups : list group; p_macros : list (str * bool) }.
Fixpoint lookup {A} (x : str) (l : list (str * A)) : option A :=
  match l with [] => None | (y, v) :: r => if str_eqb x y then Some v else lookup x r end.
(** whether a macro is defined: [cfg] tells it for those from outside *)
Definition defined_in (cfg : str -> bool) (s : pstate) (x : str) : bool :=
  match lookup x (p_macros s) with Some b => b | None => cfg x end.
(** one line *)
Definition pp_line (cfg : str -> bool) (s : pstate) (l : line) : option (pstate * list pout) :=
  let here := all_used (p_groups s) in
  match l with
  | LCode t => Some (s, if here then map PTok t else [])
  | LIf a => let b := holds (defined_in cfg s) a in Some (mkp (mkgroup b b :: p_groups s) (p_macros s), [])
  | LElif a =>
      match p_groups s with
      | [] => None
      | g :: r => let b := holds (defined_in cfg s) a in Some (mkp (mkgroup (negb (b_done g) && b) (b_done g || b) :: r) (p_macros s), [])
      end
  | LElse =>
      match p_groups s with
      | [] => None
      | g :: r => Some (mkp (mkgroup (negb (b_done g)) true :: r) (p_macros s), [])
      end
  | LEndif => match p_groups s with [] => None | _ :: r => Some (mkp r (p_macros s), []) end
  | LDefine x c t => Some (if here then (mkp (p_groups s) ((x, true) :: p_macros s), [PDefine x c t]) else (s, []))
  | LUndef x => Some (if here then (mkp (p_groups s) ((x, false) :: p_macros s), [PUndef x]) else (s, []))
  | LOther => Some (s, [])
  end.
Fixpoint pp_lines (cfg : str -> bool) (s : pstate) (ls : list (list tok)) : option (pstate * list pout) :=
  match ls with
  | [] => Some (s, [])
  | l :: r =>
      match classify l with
      | None => None
      | Some l => match pp_line cfg s l with
                  | None => None
                  | Some (s1, t1) => match pp_lines cfg s1 r with Some (s2, t2) => Some (s2, t1 ++ t2) | None => None end
                  end
      end
  end.
(** what the compiler is given of a text; macros are not yet replaced *)
Definition preprocess (cfg : str -> bool) (s : str) : option (list pout) :=
  match c_tokens s with
  | Some t => match pp_lines cfg (mkp [] []) (split_lines [] t) with
              | Some (mkp [] _, out) => Some out
              | _ => None
              end
  | None => None
  end.

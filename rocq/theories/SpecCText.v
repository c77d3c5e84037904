(** The lexical structure of C text, for C85: comments, string literals, conditionals and brackets.

    A text is read character by character, by the rules of the C preprocessor: comments count as blanks, a backslash at the end of
    a line joins it with the next one, a line whose first character is [#] is a directive.  The brackets open at a place in a
    conditional must be the same whichever of its groups is chosen, so that they close for every definition of the macros the text
    asks for.  Only the macro [__cplusplus] is looked at: it is known to be defined or not, as the text is given to a compiler for
    C++ or for C. *)
From Coq Require Import Ascii String List Bool Arith.
From Verif Require Import Str Parse SpecParse.
Import ListNotations.

Definition backslash : ascii := "\"%char.
Definition apostrophe : ascii := "'"%char.

(** where the next character is *)
Inductive place :=
| Text                 (* code *)
| Slash                (* code, behind a slash *)
| LineComment
| BlockComment
| BlockStar            (* block comment, behind an asterisk *)
| Literal (q : ascii)  (* behind the quote [q] *)
| Escape (p : place).  (* behind a backslash *)
(** what the line is so far *)
Inductive lead :=
| Start                (* blank *)
| Hash                 (* [#] *)
| Word (w : str)       (* [#] and the beginning of the directive's name *)
| Asking (n : bool) (w : str)   (* [#ifdef] or [#ifndef], and the beginning of the macro's name *)
| Code                 (* something else *)
| Directive (open : str).  (* a directive whose name was read, with these brackets open in front of it *)
(** an open conditional: whether [#else] was read; the brackets open in front of it; those open at the end of its groups so far;
    whether the present group can be chosen; whether an earlier or the present group is known to be chosen *)
Record cond := mkcond { k_else : bool; k_before : str; k_after : option str; k_live : bool; k_taken : bool }.
Record state := mkstate { t_place : place; t_lead : lead; t_conds : list cond; t_open : str }.

(** the end of a group with the brackets [open] *)
Definition end_group (k : cond) (open : str) : option cond :=
  if k_live k then
    match k_after k with
    | None => Some (mkcond (k_else k) (k_before k) (Some open) (k_live k) (k_taken k))
    | Some a => if str_eqb a open then Some k else None
    end
  else Some k.
(** a conditional begins; [known] tells what its condition is, if known *)
Definition begin_cond (known : option bool) (open : str) : cond :=
  mkcond false open None (match known with Some false => false | _ => true end) (match known with Some true => true | _ => false end).
(** another group begins *)
Definition next_group (is_else : bool) (k : cond) (open : str) : option cond :=
  if k_else k then None
  else match end_group k open with
       | Some k' => Some (mkcond is_else (k_before k') (k_after k') (negb (k_taken k')) (k_taken k'))
       | None => None
       end.
(** the end of a conditional: the brackets that are open.  Without [#else] and without a group known to be chosen there may be
    nothing chosen *)
Definition end_cond (k : cond) (open : str) : option str :=
  match end_group k open with
  | Some k' => match (if k_else k' || k_taken k' then Some k' else end_group (mkcond (k_else k') (k_before k') (k_after k') true false) (k_before k')) with
               | Some k'' => k_after k''
               | None => None
               end
  | None => None
  end.

(** the name [w] of a directive was read *)
Definition directive_read (w : str) (s : state) : option state :=
  let go conds open := Some (mkstate Text (Directive open) conds open) in
  if str_eqb w $"if" then go (begin_cond None (t_open s) :: t_conds s) (t_open s)
  else if str_eqb w $"ifdef" then Some (mkstate Text (Asking true []) (t_conds s) (t_open s))
  else if str_eqb w $"ifndef" then Some (mkstate Text (Asking false []) (t_conds s) (t_open s))
  else if str_eqb w $"elif" || str_eqb w $"else" then
    match t_conds s with
    | k :: r => match next_group (str_eqb w $"else") k (t_open s) with Some k' => go (k' :: r) (k_before k') | None => None end
    | [] => None
    end
  else if str_eqb w $"endif" then
    match t_conds s with
    | k :: r => match end_cond k (t_open s) with Some o => go r o | None => None end
    | [] => None
    end
  else go (t_conds s) (t_open s).
(** the name [w] of the macro asked for by [#ifdef] or [#ifndef] was read *)
Definition asked (cxx n : bool) (w : str) (s : state) : option state :=
  match w with
  | [] => None
  | _ => let known := if str_eqb w $"__cplusplus" then Some (eqb n cxx) else None in
         Some (mkstate Text (Directive (t_open s)) (begin_cond known (t_open s) :: t_conds s) (t_open s))
  end.
(** the word before this character, if a directive or macro was being read, ends *)
Definition end_word (cxx : bool) (s : state) : option state :=
  match t_lead s with
  | Word w => directive_read w s
  | Asking n (c :: w) => asked cxx n (c :: w) s
  | _ => Some s
  end.

Definition matching (c : ascii) : option ascii :=
  if Ascii.eqb c ")" then Some "("%char else if Ascii.eqb c "]" then Some "["%char else if Ascii.eqb c "}" then Some "{"%char else None.
Definition opening (c : ascii) : bool := existsb (Ascii.eqb c) ["("; "["; "{"]%char.
(** the brackets open behind a character *)
Definition bracket (c : ascii) (open : str) : option str :=
  if opening c then Some (c :: open)
  else match matching c with
       | Some b => match open with o :: r => if Ascii.eqb o b then Some r else None | [] => None end
       | None => Some open
       end.
(** code other than blanks is read *)
Definition into_code (l : lead) : option lead :=
  match l with
  | Start | Code => Some Code
  | Directive o => Some (Directive o)
  | _ => None
  end.
(** the end of a line; the brackets in a directive must match *)
Definition end_line (s : state) : option state :=
  match t_lead s with
  | Directive o => if str_eqb o (t_open s) then Some (mkstate Text Start (t_conds s) (t_open s)) else None
  | Asking _ _ => None
  | _ => Some (mkstate Text Start (t_conds s) (t_open s))
  end.
Definition is_space (c : ascii) : bool := Ascii.eqb c " " || Ascii.eqb c "009".
Definition at_place (p : place) (s : state) : state := mkstate p (t_lead s) (t_conds s) (t_open s).
Definition with_lead (l : option lead) (s : state) : option state :=
  match l with Some l' => Some (mkstate Text l' (t_conds s) (t_open s)) | None => None end.
(** whether brackets count here: not in a group that is known not to be chosen *)
Definition counting (s : state) : bool := match t_conds s with k :: _ => k_live k | [] => true end.
(** a character of code *)
Definition read_code (cxx : bool) (c : ascii) (s : state) : option state :=
  if is_ident c then
    match t_lead s with
    | Hash => Some (mkstate Text (Word [c]) (t_conds s) (t_open s))
    | Word w => Some (mkstate Text (Word (w ++ [c])) (t_conds s) (t_open s))
    | Asking n w => Some (mkstate Text (Asking n (w ++ [c])) (t_conds s) (t_open s))
    | l => with_lead (into_code l) s
    end
  else match end_word cxx s with
       | None => None
       | Some s' =>
           if Ascii.eqb c nl then end_line s'
           else if is_space c then Some (at_place Text s')
           else if Ascii.eqb c "#" then with_lead (match t_lead s' with Start => Some Hash | l => into_code l end) s'
           else if Ascii.eqb c "/" then Some (at_place Slash s')
           else match into_code (t_lead s') with
                | None => None
                | Some l =>
                    if Ascii.eqb c dquote || Ascii.eqb c apostrophe then Some (mkstate (Literal c) l (t_conds s') (t_open s'))
                    else match (if counting s' then bracket c (t_open s') else Some (t_open s')) with
                         | Some o => Some (mkstate Text l (t_conds s') o)
                         | None => None
                         end
                end
       end.
(** a character that is not behind a backslash, and is no backslash *)
Definition read_char (cxx : bool) (p : place) (c : ascii) (s : state) : option state :=
  match p with
  | Text => read_code cxx c s
  | Slash => if Ascii.eqb c "*" then Some (at_place BlockComment s)
             else if Ascii.eqb c "/" then Some (at_place LineComment s)
             else match with_lead (into_code (t_lead s)) s with Some s' => read_code cxx c s' | None => None end
  | LineComment => if Ascii.eqb c nl then end_line s else Some (at_place LineComment s)
  | BlockComment => Some (at_place (if Ascii.eqb c "*" then BlockStar else BlockComment) s)
  | BlockStar => Some (at_place (if Ascii.eqb c "/" then Text else if Ascii.eqb c "*" then BlockStar else BlockComment) s)
  | Literal q => if Ascii.eqb c q then Some (at_place Text s) else if Ascii.eqb c nl then None else Some (at_place (Literal q) s)
  | Escape _ => None
  end.
Definition read (cxx : bool) (s : state) (c : ascii) : option state :=
  match t_place s with
  | Escape p =>
      if Ascii.eqb c nl then Some (at_place p s)
      else match p with
           | Literal q => Some (at_place p s)
           | LineComment | BlockComment | BlockStar => read_char cxx p c s
           | _ => None
           end
  | p => if Ascii.eqb c backslash then Some (at_place (Escape p) s) else read_char cxx p c s
  end.
Fixpoint read_text (cxx : bool) (s : state) (t : str) : option state :=
  match t with
  | [] => Some s
  | c :: r => match read cxx s c with Some s' => read_text cxx s' r | None => None end
  end.

(** at the beginning of a line of code, nothing open *)
Definition fresh : state := mkstate Text Start [] [].
(** every comment, literal, conditional and bracket of the text is closed, and it ends with a line *)
Definition closed (cxx : bool) (t : str) : Prop := read_text cxx fresh t = Some fresh.

(** the brackets of a text without literals and comments match *)
Fixpoint brackets (t : str) (open : str) : option str :=
  match t with
  | [] => Some open
  | c :: r => match bracket c open with Some o => brackets r o | None => None end
  end.
Definition matched (t : str) : Prop := brackets t [] = Some [].
(** the brackets in the type, the parameters and the parameter names of a symbol match *)
Definition matched_proto (e : proto) : Prop := matched (p_type e) /\ matched (p_args e) /\ matched (p_param_names e).
(** the brackets in a declaration match: those in its parameter list, and those in the brackets of an array *)
Definition matched_decl (d : decl) : Prop :=
  match d with
  | DObject _ _ => True
  | DArray _ _ i => matched (concat i)
  | DFunction _ _ ps | DFunctionParen _ _ ps | DFunctionParenPtr _ _ _ ps | DFunctionPointer _ _ ps => matched (concat ps)
  end.
(** a text that can stand in a comment to the end of the line, or between double quotes *)
Definition one_line_text (t : str) : Prop := Forall (fun c => c <> nl /\ c <> backslash) t.
Definition quotable (t : str) : Prop := one_line_text t /\ ~ In dquote t.
(** a text that can stand in a macro as it is *)
Definition word_char (c : ascii) : bool := is_ident c || existsb (Ascii.eqb c) ["."; "-"; "+"; ":"]%char.
Definition word_text (t : str) : Prop := Forall (fun c => word_char c = true) t.

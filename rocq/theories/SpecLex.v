(** Specification vocabulary for the scanner properties: comments, directives, words and white space. *)
From Coq Require Import Ascii String List Bool Arith NArith.
From Verif Require Import Str Lex.
Import ListNotations.

Definition spaces (w : str) : Prop := Forall (fun c => isspace c = true) w.

(** a line continuation as the scanner takes it: backslash, white space, newline *)
Definition line_split (w : str) : Prop := exists ws, spaces ws /\ w = [bslash] ++ ws ++ [nl].
Definition opt_split (w : str) : Prop := w = [] \/ line_split w.

(** [/*] and [*/], possibly with a line continuation between the two characters *)
Definition opener (w : str) : Prop := exists x, opt_split x /\ w = $"/" ++ x ++ $"*".
Definition closer (w : str) : Prop := exists x, opt_split x /\ w = $"*" ++ x ++ $"/".
Definition line_opener (w : str) : Prop := exists x, opt_split x /\ w = $"/" ++ x ++ $"/".

(** [cl] is the first closer in [body ++ cl]: none begins before it *)
Definition first_closer (body cl : str) : Prop :=
  closer cl /\ forall a c b, body ++ cl = a ++ c ++ b -> closer c -> length body <= length a.

(** text on one line that a line continuation does not end: no newline, and after every backslash
    there is something that is not white space *)
Definition one_line (body : str) : Prop :=
  ~ In nl body /\ forall a b, body = a ++ [bslash] ++ b -> exists c, In c b /\ isspace c = false.
(** no comment opens in it *)
Definition no_comment (body : str) : Prop :=
  forall a w b, body = a ++ w ++ b -> ~ opener w /\ ~ line_opener w.

(* ---------------------------------------------------------------- declaration text *)

(** A piece of a header file as gendlopen takes it (no blocks, no options, no Clang AST). *)
Inductive piece :=
| PWord (w : str)                 (* letters, digits, underscores *)
| PPunct (c : ascii)              (* one of * , ( ) [ ] *)
| PDots                           (* ... *)
| PSemi                           (* ; *)
| PBrace (c : ascii)              (* one of { } = *)
| PGap (w : str)                  (* white space *)
| PComment (op body cl : str)     (* /* ... */ *)
| PLine (op body : str)           (* // ... up to the end of the line *)
| PDirective (ws body : str).     (* # ... up to the end of the line *)

Definition piece_text (p : piece) : str :=
  match p with
  | PWord w => w
  | PPunct c | PBrace c => [c]
  | PDots => $"..."
  | PSemi => $";"
  | PGap w => w
  | PComment op body cl => op ++ body ++ cl
  | PLine op body => op ++ body ++ [nl]
  | PDirective ws body => ws ++ $"#" ++ body ++ [nl]
  end.

(** [TranslationUnitDecl] is excluded because it announces a Clang AST dump. *)
Definition piece_ok (p : piece) : Prop :=
  match p with
  | PWord w => w <> [] /\ Forall (fun c => is_ident c = true) w /\ w <> $"TranslationUnitDecl"
  | PPunct c => In c ["*"; ","; "("; ")"; "["; "]"]%char
  | PBrace c => In c ["{"; "}"; "="]%char
  | PDots | PSemi => True
  | PGap w => w <> [] /\ spaces w
  | PComment op body cl => opener op /\ first_closer body cl
  | PLine op body => line_opener op /\ one_line body
  | PDirective ws body => spaces ws /\ one_line body /\ no_comment body
  end.

(** does the text end a line? *)
Definition ends_line (w : str) : bool := ends_with [nl] w.

(** Two words must be separated, otherwise they would be one; white space is one piece; a directive
    needs its own line.  [bol]: the pieces start at the beginning of a line. *)
Fixpoint well_placed (bol : bool) (ps : list piece) : Prop :=
  match ps with
  | [] => True
  | p :: ps' =>
      match p, ps' with
      | PWord _, PWord _ :: _ => False
      | PGap _, PGap _ :: _ => False
      | PDirective _ _, _ => bol = true
      | _, _ => True
      end /\ well_placed (ends_line (piece_text p)) ps'
  end.

Definition text_of (ps : list piece) : str := concat (map piece_text ps).

(** The tokens a piece stands for ([line]: the line it is on): the keywords are tokens of their own,
    [extern] counts for nothing, any other word is an identifier, and white space, comments and
    directives are invisible. *)
Definition piece_token (line : N) (p : piece) : list token :=
  match p with
  | PWord w =>
      if str_eqb w $"extern" then []
      else if str_eqb w $"struct" then [T_STRUCT] else if str_eqb w $"union" then [T_UNION]
      else if str_eqb w $"enum" then [T_ENUM] else if str_eqb w $"typedef" then [T_TYPEDEF]
      else [T_ID w]
  | PPunct c => [T_OTHER [c]]
  | PDots => [T_OTHER $"..."]
  | PSemi => [T_SEMICOLON]
  | PBrace c => [if Ascii.eqb c "{" then T_CURLY_OPEN line else if Ascii.eqb c "}" then T_CURLY_CLOSE line else T_EQUAL line]
  | PGap _ | PComment _ _ _ | PLine _ _ | PDirective _ _ => []
  end.

(** number of line ends in a text *)
Definition line_ends (w : str) : N := N.of_nat (length (filter (Ascii.eqb nl) w)).

Fixpoint pieces_tokens (line : N) (ps : list piece) : list token :=
  match ps with
  | [] => []
  | p :: ps' => piece_token line p ++ pieces_tokens (line + line_ends (piece_text p)) ps'
  end.

(** Bytes that can begin something: white space, words, punctuation, braces, [=], [;], [...], comments
    and a UTF-8 byte order mark anywhere; directives, [%option] and colour codes (ESC) at the start of a line. *)
Definition can_begin (bol : bool) (c : ascii) : bool :=
  isspace c || is_ident c || existsb (Ascii.eqb c) ["*"; ","; "("; ")"; "["; "]"; "{"; "}"; "="; ";"; "."; "/"; "239"]%char
  || (bol && existsb (Ascii.eqb c) ["#"; "%"; "027"]%char).

(** the AST tokens, which only occur after a Clang AST header *)
Definition ast_token (t : token) : bool :=
  match t with T_AST_BEGIN | T_AST_FUNCVAR _ | T_AST_PARMVAR _ => true | _ => false end.

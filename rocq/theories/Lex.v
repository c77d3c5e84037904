(** The scanner: /repo/src/lex.l (flex), lex.h.  Definitions only. *)
From Coq Require Import Ascii String List Bool Arith NArith.
From Verif Require Import Str Regex.
Import ListNotations.

(* ------------------------------------------------------------ definitions, lex.l:44-57 *)

Definition bom_s : str := ["239"; "187"; "191"]%char.      (* "\xEF\xBB\xBF" *)
Definition bom : re := word bom_s.                        (* lex.l:44 *)
(** col  [\x1B][\[][0-9;]*[m]   (lex.l:45) *)
Definition col : re :=
  Cat (chr esc) (Cat (chr "[") (Cat (Star (Cls (fun c => isdigit c || Ascii.eqb c ";"))) (chr "m"))).
(** split  "\\"[[:space:]]*?"\n"   (lex.l:46); in flex [x*?] is (x* )? *)
Definition split_re : re := Cat (chr bslash) (Cat (opt (Star (Cls isspace))) (chr nl)).
(** the part of ast_begin after ^ (lex.l:47) *)
Definition ast_begin_re : re :=
  Cat (opt bom) (Cat (opt col) (Cat (word $"TranslationUnitDecl") (Cat (opt col) (Cat (opt col)
  (Cat (word $" 0x") (Star any)))))).
(** funcvar (lex.l:48), without ^ *)
Definition funcvar_re : re :=
  Cat (opt col) (Cat (Cls (fun c => Ascii.eqb c "|" || Ascii.eqb c "`")) (Cat (chr "-") (Cat (opt col) (Cat (opt col)
  (Cat (Alt (word $"Function") (word $"Var")) (Cat (word $"Decl") (Cat (opt col) (Cat (opt col)
  (Cat (word $" 0x") (Star any)))))))))).
(** parmvar (lex.l:49), without ^ *)
Definition parmvar_re : re :=
  Cat (opt col) (Cat (Cls (fun c => Ascii.eqb c "|" || Ascii.eqb c " ")) (Cat (chr " ")
  (Cat (Cls (fun c => Ascii.eqb c "|" || Ascii.eqb c "`")) (Cat (chr "-") (Cat (opt col) (Cat (opt col)
  (Cat (word $"ParmVarDecl") (Cat (opt col) (Cat (opt col) (Cat (word $" 0x") (Star any))))))))))).
(** option (lex.l:51), without ^ *)
Definition option_re : re := Cat (opt bom) (Cat (word $"%option") (Cls isspace)).
(** optstr (lex.l:52) *)
Definition optstr_re : re := plus (Cls (fun c => negb (isspace c))).
(** preproc (lex.l:54), without ^ *)
Definition preproc_re : re := Cat (opt bom) (Cat (opt (Star (Cls isspace))) (chr "#")).
(** identifier, other (lex.l:56-57) *)
Definition identifier_re : re := plus (Cls is_ident).
Definition is_other (c : ascii) : bool :=
  Ascii.eqb c "*" || Ascii.eqb c "," || Ascii.eqb c "(" || Ascii.eqb c ")" || Ascii.eqb c "[" || Ascii.eqb c "]".
Definition other_re : re := Cls is_other.

(* ------------------------------------------------------------ rules, lex.l:70-127 *)

(** start conditions (lex.l:61-66); all but INITIAL are exclusive (%x) *)
Inductive cond := INITIAL | AST | OPTION | COMMENT | C_COMMENT | PRE | PRE_COMMENT.

(** what a rule's action does *)
Inductive action :=
| Skip                     (* { } *)
| Begin (c : cond)         (* { BEGIN(c); } *)
| AstBegin                 (* { return handle_ast_begin(); } *)
| TokFuncVar | TokParmVar | TokOption
| TokStruct | TokUnion | TokEnum | TokTypedef
| TokId | TokOther
| TokCurlyOpen | TokCurlyClose | TokEqual | TokSemicolon
| TokIllegal               (* { set_illegal_char(); return LEX_ERROR; } *)
| Echo.                    (* flex default rule (rule 49 of lex.yy.c): ECHO *)

Record rule := mkrule { r_cond : cond; r_bol : bool; r_re : re; r_act : action }.

Definition rules : list rule :=
  [ mkrule INITIAL true ast_begin_re AstBegin                                       (* :70 *)
  ; mkrule AST true funcvar_re TokFuncVar                                           (* :71 *)
  ; mkrule AST true parmvar_re TokParmVar                                           (* :72 *)
  ; mkrule AST false (chr nl) Skip                                                  (* :73 *)
  ; mkrule AST false any Skip                                                       (* :74 *)
  ; mkrule INITIAL true option_re (Begin OPTION)                                    (* :76 *)
  ; mkrule OPTION false split_re Skip                                               (* :77 *)
  ; mkrule OPTION false optstr_re TokOption                                         (* :78 *)
  ; mkrule OPTION false (chr nl) (Begin INITIAL)                                    (* :79 *)
  ; mkrule OPTION false any Skip                                                    (* :80 *)
  ; mkrule INITIAL false (word $"//") (Begin COMMENT)                               (* :82 *)
  ; mkrule INITIAL false (Cat (chr "/") (Cat split_re (chr "/"))) (Begin COMMENT)   (* :83 *)
  ; mkrule COMMENT false split_re Skip                                              (* :84 *)
  ; mkrule COMMENT false (chr nl) (Begin INITIAL)                                   (* :85 *)
  ; mkrule COMMENT false any Skip                                                   (* :86 *)
  ; mkrule INITIAL false (word $"/*") (Begin C_COMMENT)                             (* :88 *)
  ; mkrule INITIAL false (Cat (chr "/") (Cat split_re (chr "*"))) (Begin C_COMMENT) (* :89 *)
  ; mkrule C_COMMENT false (word $"*/") (Begin INITIAL)                             (* :90 *)
  ; mkrule C_COMMENT false (Cat (chr "*") (Cat split_re (chr "/"))) (Begin INITIAL) (* :91 *)
  ; mkrule C_COMMENT false (chr nl) Skip                                            (* :92 *)
  ; mkrule C_COMMENT false any Skip                                                 (* :93 *)
  ; mkrule INITIAL true preproc_re (Begin PRE)                                      (* :95 *)
  ; mkrule PRE false (word $"/*") (Begin PRE_COMMENT)                               (* :96 *)
  ; mkrule PRE false (Cat (chr "/") (Cat split_re (chr "*"))) (Begin C_COMMENT)     (* :97 *)
  ; mkrule PRE false (word $"//") (Begin COMMENT)                                   (* :98 *)
  ; mkrule PRE false (Cat (chr "/") (Cat split_re (chr "/"))) (Begin COMMENT)       (* :99 *)
  ; mkrule PRE false split_re Skip                                                  (* :100 *)
  ; mkrule PRE false (chr nl) (Begin INITIAL)                                       (* :101 *)
  ; mkrule PRE false any Skip                                                       (* :102 *)
  ; mkrule PRE_COMMENT false (word $"*/") (Begin PRE)                               (* :104 *)
  ; mkrule PRE_COMMENT false (Cat (chr "*") (Cat split_re (chr "/"))) (Begin INITIAL) (* :105 *)
  ; mkrule PRE_COMMENT false (chr nl) (Begin C_COMMENT)                             (* :106 *)
  ; mkrule PRE_COMMENT false any Skip                                               (* :107 *)
  ; mkrule INITIAL false bom Skip                                                   (* :109 *)
  ; mkrule INITIAL false (Cls isspace) Skip                                         (* :110 *)
  ; mkrule INITIAL false (word $"extern") Skip                                      (* :112 *)
  ; mkrule INITIAL false (word $"struct") TokStruct                                 (* :113 *)
  ; mkrule INITIAL false (word $"union") TokUnion                                   (* :114 *)
  ; mkrule INITIAL false (word $"enum") TokEnum                                     (* :115 *)
  ; mkrule INITIAL false (word $"typedef") TokTypedef                               (* :116 *)
  ; mkrule INITIAL false identifier_re TokId                                        (* :118 *)
  ; mkrule INITIAL false other_re TokOther                                          (* :119 *)
  ; mkrule INITIAL false (word $"...") TokOther                                     (* :120 *)
  ; mkrule INITIAL false (word $"{") TokCurlyOpen                                   (* :122 *)
  ; mkrule INITIAL false (word $"}") TokCurlyClose                                  (* :123 *)
  ; mkrule INITIAL false (word $"=") TokEqual                                       (* :124 *)
  ; mkrule INITIAL false (word $";") TokSemicolon                                   (* :125 *)
  ; mkrule INITIAL false any TokIllegal                                             (* :127 *)
  ].

(* ------------------------------------------------------------ one match *)

Definition cond_eqb (a b : cond) : bool :=
  match a, b with
  | INITIAL, INITIAL | AST, AST | OPTION, OPTION | COMMENT, COMMENT
  | C_COMMENT, C_COMMENT | PRE, PRE | PRE_COMMENT, PRE_COMMENT => true
  | _, _ => false
  end.

(** A rule is active in its start condition; a rule with ^ only at the beginning of a line. *)
Definition active (c : cond) (bol : bool) (r : rule) : bool :=
  cond_eqb (r_cond r) c && (negb (r_bol r) || bol).

(** flex: the longest match wins, among equal lengths the earliest rule.  A match has length > 0.
    If no rule matches, the default rule echoes one byte. *)
Fixpoint best (rs : list rule) (s : str) : option (nat * action) :=
  match rs with
  | [] => None
  | r :: rs' =>
      match longest (r_re r) s, best rs' s with
      | Some (S n), Some (m, a) => if Nat.leb m (S n) then Some (S n, r_act r) else Some (m, a)
      | Some (S n), None => Some (S n, r_act r)
      | _, b => b
      end
  end.

Definition pick (c : cond) (bol : bool) (s : str) : nat * action :=
  match best (filter (active c bol) rules) s with
  | Some b => b
  | None => (1, Echo)
  end.

(* ------------------------------------------------------------ token stream *)

(** tokens returned by yylex(), lex.h:9-26, with yytext where it is used *)
Inductive token :=
| T_AST_BEGIN
| T_AST_FUNCVAR (text : str)
| T_AST_PARMVAR (text : str)
| T_OPTION (text : str)
| T_STRUCT | T_UNION | T_ENUM | T_TYPEDEF
| T_ID (text : str)
| T_OTHER (text : str)
| T_CURLY_OPEN (line : N) | T_CURLY_CLOSE (line : N) | T_EQUAL (line : N)   (* line: used by set_illegal_char *)
| T_SEMICOLON
| T_ERROR (msg : str).

(** scanner state: start condition, at-beginning-of-line flag, yylineno, and (ghost) text echoed to stdout *)
Record lstate := mkl { l_cond : cond; l_bol : bool; l_line : N }.
Definition lex_init : lstate := mkl INITIAL true 1.       (* yy_start INITIAL, yy_at_bol 1, yylineno 1 *)

Definition newlines (s : str) : N := N.of_nat (count_linefeed s).

(** two upper-case hex digits, as printed by %02X *)
Definition hexdigit (n : N) : ascii := if N.ltb n 10 then ascii_of_N (48 + n) else ascii_of_N (55 + n).
Definition hex2 (c : ascii) : str := [hexdigit (N.div (code c) 16); hexdigit (N.modulo (code c) 16)].

(** set_illegal_char, lex.l:146-156 (the text is far below the 128-byte buffer) *)
Definition illegal_char_msg (c : ascii) (line : N) : str :=
  if isgraph c then $"illegal character [" ++ [c] ++ $"] at line " ++ to_string line
  else $"illegal character [0x" ++ hex2 c ++ $"] at line " ++ to_string line.

(** handle_ast_begin, lex.l:132-143 *)
Definition ast_begin_msg (line : N) : str :=
  $"begin of Clang AST found at line " ++ to_string line ++ $" instead of line 1".

(** Effect of the action of a matched rule on text [t]; [line] is yylineno after the match
    (flex updates yylineno before running the action).  yytext handed to C++ as [const char*] ends at
    the first NUL ([lex::text()], lex.h:46-48). *)
Definition act_token (a : action) (t : str) (line : N) : option token :=
  match a with
  | Skip | Begin _ | Echo => None
  | AstBegin => if N.eqb line 1 then Some T_AST_BEGIN else Some (T_ERROR (ast_begin_msg line))
  | TokFuncVar => Some (T_AST_FUNCVAR (c_str t))
  | TokParmVar => Some (T_AST_PARMVAR (c_str t))
  | TokOption => Some (T_OPTION (c_str t))
  | TokStruct => Some T_STRUCT
  | TokUnion => Some T_UNION
  | TokEnum => Some T_ENUM
  | TokTypedef => Some T_TYPEDEF
  | TokId => Some (T_ID t)
  | TokOther => Some (T_OTHER t)
  | TokCurlyOpen => Some (T_CURLY_OPEN line)
  | TokCurlyClose => Some (T_CURLY_CLOSE line)
  | TokEqual => Some (T_EQUAL line)
  | TokSemicolon => Some T_SEMICOLON
  | TokIllegal => Some (T_ERROR (illegal_char_msg (str_front t) line))
  end.

Definition act_cond (a : action) (line : N) (c : cond) : cond :=
  match a with
  | Begin c' => c'
  | AstBegin => if N.eqb line 1 then AST else c
  | _ => c
  end.

(** yy_at_bol after a match of text t: YY_RULE_SETUP, lex.yy.c:896-900 *)
Definition ends_nl (t : str) : bool := ends_with [nl] t.

(** One match: matched text, action, rest of input, new state. *)
Record lstep := mkstep { s_text : str; s_act : action; s_tok : option token; s_rest : str; s_state : lstate }.
Definition lex_step (st : lstate) (s : str) : lstep :=
  let '(n, a) := pick (l_cond st) (l_bol st) s in
  let t := firstn n s in
  let line := (l_line st + newlines t)%N in
  mkstep t a (act_token a t line) (skipn n s) (mkl (act_cond a line (l_cond st)) (ends_nl t) line).

(** Every match until end of input or an error token.  [None]: out of fuel (excluded by lex_all_total). *)
Fixpoint lex_fuel (fuel : nat) (st : lstate) (s : str) : option (list lstep) :=
  match s with
  | [] => Some []                      (* EOF: yyterminate() in every start condition, lex.yy.c:1214-1221 *)
  | _ :: _ =>
    match fuel with
    | O => None
    | S f =>
        let x := lex_step st s in
        match s_tok x with
        | Some (T_ERROR _) => Some [x]
        | _ => match lex_fuel f (s_state x) (s_rest x) with
               | Some xs => Some (x :: xs)
               | None => None
               end
        end
    end
  end.

Fixpoint tokens_of (xs : list lstep) : list token :=
  match xs with
  | [] => []
  | x :: xs' => match s_tok x with Some t => t :: tokens_of xs' | None => tokens_of xs' end
  end.

(** the token sequence of an input file, up to the first error or end of file *)
Definition lex_run (st : lstate) (s : str) : list lstep :=
  match lex_fuel (length s) st s with Some xs => xs | None => [] end.
Definition lex_all (s : str) : list token := tokens_of (lex_run lex_init s).

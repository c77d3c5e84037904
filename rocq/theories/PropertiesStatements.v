(** Property C89: statements.  Proofs are in StatementFacts.v and StatementText.v. *)
From Coq Require Import Ascii String List Bool Arith NArith ZArith.
From Verif Require Import Str Lex SpecLex Tokenize SpecTokenize Parse ParamNames SpecParse SpecTables Format Prefix Options Generate.
From Verif Require Import ClangAst Frontend SpecEndToEnd EndToEnd SpecStatements StatementFacts StatementText.
Import ListNotations.

(** C89: whatever text is accepted (no Clang AST), it consists of statements, and every statement that does not begin with struct,
    union, enum or typedef is one well-formed declaration (after the clean-up of C06), the last one also without its semicolon.
    The declared names that are asked for - all of them without -P and -S - are exactly the symbols of the output. *)
Theorem C89_statements_partial : forall s input text s' y, ~ In T_AST_BEGIN (lex_all text) -> read_input s input text = Ok (s', y) ->
  exists ss e ds, made_of (lex_all text) ss e /\ Forall2 unwraps (declarations ss e) (map written ds) /\
    Forall decl_ok ds /\ NoDup (map decl_name ds) /\ ds <> [] /\
    (forall n, In n (o_symbol_list s') -> In n (declared_names ds)) /\
    map p_symbol (s_funcs y) = asked_for (o_prefix_list s') (o_symbol_list s') (function_names ds) /\
    map p_symbol (s_objs y) = asked_for (o_prefix_list s') (o_symbol_list s') (object_names ds).
Proof. exact nothing_lost. Qed.

(** at the level of tokens: an accepted input is statements, and each declaration among them is handed on as it is written *)
Theorem C89_collected_partial : forall ro ts vec opts, forallb (fun t => negb (ast_token t)) ts = true -> ~ In T_AST_BEGIN ts ->
  tokenize_stream ro ts = TS_eof vec opts ->
  exists ss e, made_of ts ss e /\ vec = declarations ss e /\ opts = if ro then option_texts ts else [].
Proof. exact statements_of. Qed.

(** a text with all kinds of statements *)
Example C89_example :
  let text := $"typedef int t; ; int f(t a);
struct s { int a; };
union u *g(void);
extern double d" in
  match read_input defaults $"x.h" text with
  | Ok (_, y) => map p_symbol (s_funcs y) = [$"f"] /\ map p_symbol (s_objs y) = [$"d"] /\ ~ In T_AST_BEGIN (lex_all text)
  | _ => False
  end.
Proof. vm_compute. split; [reflexivity|]. split; [reflexivity|]. intros H. repeat destruct H as [H|H]; try discriminate H. exact H. Qed.

(** C89, refuted in three ways.  A prototype that returns a structure, union or enumeration or a pointer to one is accepted and
    ignored: the result is as if it were not there. *)
Theorem C89_tagged_refuted : forall s input ds text kw tag name, header_with ds text -> In kw [$"struct"; $"union"; $"enum"] -> plain_name tag -> plain_name name ->
  read_input s input (text ++ tagged_prototype kw tag name) = read_input s input text.
Proof. exact tagged_lost. Qed.
(** a comment that is not closed hides all that follows, without a message *)
Theorem C89_open_comment_refuted : forall s input ds text rest, header_with ds text -> (forall a c b, rest = a ++ c ++ b -> ~ closer c) ->
  read_input s input (text ++ $"/*" ++ rest) = read_input s input text.
Proof. exact open_comment_lost. Qed.
(** so does a brace that is not closed *)
Theorem C89_open_block_refuted : forall s input ds text kw tag qs, header_with ds text -> In kw [$"struct"; $"union"; $"enum"] -> plain_name tag ->
  Forall piece_ok qs -> well_placed false qs -> ~ In (PBrace "}"%char) qs ->
  read_input s input (text ++ $"//" ++ [nl] ++ kw ++ $" " ++ tag ++ $"{" ++ text_of qs) = read_input s input text.
Proof. exact open_block_lost. Qed.

(** concrete texts in which a declared function is lost (see C47_example_header for the header) *)
Example C89_refuted_example :
  let text := $"struct s { int a; }; /* two symbols */
extern int f(int a);
#define X 1
double d;
" in
  let names t := match read_input defaults $"x.h" t with Ok (_, y) => map p_symbol (s_funcs y ++ s_objs y) | _ => [] end in
  header_with [DFunction [$"int"] $"f" [$"int"; $"a"]; DObject [$"double"] $"d"] text /\
  In $"struct" [$"struct"; $"union"; $"enum"] /\ plain_name $"tm" /\ plain_name $"gmtime" /\
  tagged_prototype $"struct" $"tm" $"gmtime" = $"//
struct tm *gmtime(void);" /\
  names (text ++ tagged_prototype $"struct" $"tm" $"gmtime") = [$"f"; $"d"] /\
  names (text ++ $"/*" ++ $" here: * / int g(void);") = [$"f"; $"d"] /\
  names (text ++ $"//" ++ [nl] ++ $"enum" ++ $" " ++ $"e" ++ $"{" ++ text_of [PWord $"A"; PSemi; PGap [nl]; PWord $"int"; PGap $" "; PWord $"g"; PPunct "("; PPunct ")"; PSemi]) = [$"f"; $"d"].
Proof.
  cbv zeta. split; [exact example_header|]. split; [now left|]. split; [split; [discriminate|split; [repeat constructor|discriminate]]|].
  split; [split; [discriminate|split; [repeat constructor|discriminate]]|]. vm_compute. repeat (split; [reflexivity|]). reflexivity.
Qed.

Print Assumptions C89_statements_partial.
Print Assumptions C89_collected_partial.
Print Assumptions C89_tagged_refuted.
Print Assumptions C89_open_comment_refuted.
Print Assumptions C89_open_block_refuted.

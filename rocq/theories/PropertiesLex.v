(** Scanner and statement properties C01-C06 and C49: statements.  Proofs are in LexProps.v. *)
From Coq Require Import Ascii String List Bool Arith NArith ZArith.
From Verif Require Import Str Lex SpecLex LexFacts LexComments LexWords LexJoin Tokenize SpecTokenize TokenizeFacts SpecParse Parse LexProps.
Import ListNotations.

(** tokens of the text [s] read in normal mode ([bol]: at the start of a line) *)
Definition scan (bol : bool) (line : N) (s : str) : list token := tokens_of (lex_run (mkl INITIAL bol line) s).

(* ------------------------------------------------------------ C01 *)

(** C01: the pieces matched, in order, are a prefix of the input and all of it unless an error token ended the
    run; each is non-empty; the echo rule is never used. *)
Theorem C01_scanning_total : forall s, exists rest,
  s = concat (map s_text (lex_run lex_init s)) ++ rest /\
  (run_failed (lex_run lex_init s) = false -> rest = []) /\
  Forall (fun x => s_text x <> [] /\ s_act x <> Echo) (lex_run lex_init s).
Proof. exact scan_covers. Qed.

Example C01_example : map s_text (lex_run lex_init ($"int a;" ++ [nl])) =
  [$"int"; $" "; $"a"; $";"; [nl]].
Proof. vm_compute. reflexivity. Qed.

(* ------------------------------------------------------------ C02 *)

(** C02: a comment where a token could start gives no token; scanning goes on after it (same tokens as
    scanning the rest on its own from there). *)
Theorem C02_c_comment_invisible : forall bol line op body cl rest,
  opener op -> first_closer body cl ->
  scan bol line (op ++ body ++ cl ++ rest) = scan false (line + newlines (op ++ body ++ cl)) rest.
Proof. exact c_comment_invisible. Qed.
Theorem C02_line_comment_invisible : forall bol line op body rest,
  line_opener op -> one_line body ->
  scan bol line (op ++ body ++ nl :: rest) = scan true (line + newlines (op ++ body ++ [nl])) rest.
Proof. exact line_comment_invisible. Qed.

Example C02_example : scan true 1 ($"/* struct { /* ** */int x; // y ;" ++ nl :: $"z") = [T_ID $"int"; T_ID $"x"; T_SEMICOLON; T_ID $"z"].
Proof. vm_compute. reflexivity. Qed.

(* ------------------------------------------------------------ C03 *)

(** C03: a line whose first visible character is [#] gives no token. *)
Theorem C03_directive_invisible : forall line ws body rest,
  spaces ws -> one_line body -> no_comment body ->
  scan true line (ws ++ $"#" ++ body ++ nl :: rest) = scan true (line + newlines ws + 1) rest.
Proof. exact directive_invisible. Qed.

Example C03_example : scan true 1 ($"  #define x {} = $" ++ nl :: $"int y") = [T_ID $"int"; T_ID $"y"].
Proof. vm_compute. reflexivity. Qed.

(* ------------------------------------------------------------ C04 *)

(** C04: text made of words, punctuation, white space, comments and directives is scanned into exactly its
    words and punctuation; an illegal byte after it gives an error naming that byte and its line, and the run fails. *)
Theorem C04_text_to_words : forall ps, Forall piece_ok ps -> well_placed true ps ->
  lex_all (text_of ps) = pieces_tokens 1 ps.
Proof. exact lex_pieces. Qed.
Theorem C04_illegal_byte_reported : forall ps c s, Forall piece_ok ps -> well_placed true ps -> can_begin true c = false ->
  lex_all (text_of ps ++ c :: s) = pieces_tokens 1 ps ++ [T_ERROR (illegal_char_msg c (1 + line_ends (text_of ps)))].
Proof. exact lex_pieces_illegal. Qed.
Theorem C04_illegal_byte_fails : forall ro ps c s, Forall piece_ok ps -> well_placed true ps -> can_begin true c = false ->
  exists m, tokenize_stream ro (lex_all (text_of ps ++ c :: s)) = TS_error m.
Proof. exact illegal_fails. Qed.
Theorem C04_scan_error_fails : forall ro s m, In (T_ERROR m) (lex_all s) -> ~ In T_AST_BEGIN (lex_all s) ->
  exists m', tokenize_stream ro (lex_all s) = TS_error m'.
Proof. exact scan_error_fails. Qed.
(** and what is collected consists of identifiers and punctuation only *)
Theorem C04_statements_of_lexemes : forall ro s vec opts,
  tokenize_stream ro (lex_all s) = TS_eof vec opts -> Forall (Forall lexeme) vec.
Proof. exact stream_lexemes. Qed.

Example C04_example :
  let ps := [PWord $"extern"; PGap $" "; PWord $"int"; PComment $"/*" $" c " $"*/"; PWord $"f"; PPunct "("; PWord $"int"; PPunct ",";
             PDots; PPunct ")"; PSemi; PGap [nl]; PDirective $" " $"define X"; PWord $"struct"] in
  Forall piece_ok ps /\ well_placed true ps /\
  pieces_tokens 1 ps = [T_ID $"int"; T_ID $"f"; T_OTHER $"("; T_ID $"int"; T_OTHER $","; T_OTHER $"..."; T_OTHER $")"; T_SEMICOLON; T_STRUCT].
Proof. exact words_example. Qed.
Example C04_example_illegal : can_begin true "$" = false /\ can_begin true "!" = false /\ can_begin true """" = false.
Proof. repeat split. Qed.

(* ------------------------------------------------------------ C05 *)

(** C05: a token stream made of declarations, struct/union/enum/typedef statements and lone semicolons, and
    possibly a last declaration without semicolon, yields exactly the declarations' tokens, in order. *)
Theorem C05_statements_collected : forall ro ss last,
  Forall stmt_ok ss ->
  (last = [] \/ exists t ts, last = t :: ts /\ is_keyword t = false /\ Forall (fun t => plain_text t <> None) last) ->
  tokenize_stream ro (flat_map stmt_tokens ss ++ last) =
  TS_eof (flat_map stmt_protos ss ++ match last with [] => [] | _ => [texts last] end) [].
Proof. exact statements_collected. Qed.
(** option tokens in between change nothing but are collected (if options are read from the file) *)
Theorem C05_options_transparent : forall ro ts, forallb (fun t => negb (ast_token t)) ts = true ->
  tokenize_stream ro ts =
  add_options (if ro then option_texts ts else []) (tokenize_stream ro (filter (fun t => negb (is_option t)) ts)).
Proof. exact options_collected. Qed.

Example C05_example :
  let s := SBlock T_STRUCT [T_ID $"a"; T_CURLY_OPEN 1; T_ID $"int"; T_ID $"x"; T_SEMICOLON; T_STRUCT; T_CURLY_OPEN 1; T_ID $"y"; T_SEMICOLON;
    T_CURLY_CLOSE 1; T_SEMICOLON; T_CURLY_CLOSE 1] in
  stmt_ok s /\ tokenize_stream false (stmt_tokens s ++ [T_ID $"int"; T_STRUCT]) = TS_eof [[$"int"; $"struct"]] [].
Proof. exact block_example. Qed.

(* ------------------------------------------------------------ C06 *)

(** C06 (part): the clean-up only rewrites [((..))] to [(..)], some number of times; hence it only leaves out
    parentheses, equally many of each kind, keeps all other tokens in order, and never removes all of them. *)
Theorem C06_cleanup_partial : forall v, Forall paren_token v ->
  let v' := remove_superfluous_parentheses v in
  unwraps v v' /\ subseq v' v /\
  filter (fun x => negb (is_paren x)) v' = filter (fun x => negb (is_paren x)) v /\
  count lparen v + count rparen v' = count lparen v' + count rparen v /\
  (In lparen v -> In lparen v') /\ (In rparen v -> In rparen v').
Proof. exact cleanup_facts. Qed.
(** it ends: more rounds than tokens change nothing *)
Theorem C06_cleanup_ends : forall n v, length v <= n -> remove_matching n v = remove_matching (length v) v.
Proof. exact cleanup_ends. Qed.
(** Balance is not kept: parentheses are paired by nesting depth, not by actual pairs. *)
Theorem C06_cleanup_balance_refuted : exists v, Forall lexeme v /\
  paren_balanced v = true /\ paren_balanced (remove_superfluous_parentheses v) = false.
Proof. exact cleanup_unbalances. Qed.
(** A legal prototype is broken by it: [void f(int ((a)[3]), int ((c)));] has two parameters, one after clean-up. *)
Theorem C06_cleanup_prototype_refuted : exists v p q, Forall lexeme v /\
  check_prototype v = Ok (Some p) /\ check_prototype (remove_superfluous_parentheses v) = Ok (Some q) /\
  length (p_args_vec p) = 2 /\ length (p_args_vec q) = 1.
Proof. exact cleanup_loses_parameter. Qed.

Example C06_example : remove_superfluous_parentheses [$"int"; $"("; $"("; $"("; $"x"; $")"; $")"; $")"] = [$"int"; $"("; $"x"; $")"].
Proof. vm_compute. reflexivity. Qed.

(* ------------------------------------------------------------ C49 *)

(** C49 (part): a backslash at the end of a directive or line comment joins the next line to it, if that line
    starts with something visible; scanning resumes on the line after. *)
Theorem C49_directive_continued_partial : forall line ws0 body ws next t,
  spaces ws0 -> one_line body -> spaces ws -> one_line next ->
  (match next with c :: _ => isspace c = false | [] => False end) ->
  no_comment (body ++ ([bslash] ++ ws ++ [nl]) ++ next) -> exists line',
  scan true line (ws0 ++ $"#" ++ body ++ ([bslash] ++ ws ++ [nl]) ++ next ++ nl :: t) = scan true line' t.
Proof. exact directive_join. Qed.
Theorem C49_comment_continued_partial : forall bol line op body ws next t,
  line_opener op -> one_line body -> spaces ws -> one_line next ->
  (match next with c :: _ => isspace c = false | [] => False end) -> exists line',
  scan bol line (op ++ body ++ ([bslash] ++ ws ++ [nl]) ++ next ++ nl :: t) = scan true line' t.
Proof. exact comment_join. Qed.
(** But blank lines after the backslash are swallowed and the first non-blank line, a declaration, is lost. *)
Theorem C49_blank_line_refuted : exists body blank decl,
  one_line body /\ no_comment body /\ blank = [nl] /\
  lex_all ($"#" ++ body ++ [bslash; nl] ++ blank ++ decl) = [] /\ lex_all decl <> [].
Proof. exact blank_swallows. Qed.

Print Assumptions C01_scanning_total.
Print Assumptions C02_c_comment_invisible.
Print Assumptions C02_line_comment_invisible.
Print Assumptions C03_directive_invisible.
Print Assumptions C04_text_to_words.
Print Assumptions C04_illegal_byte_reported.
Print Assumptions C04_illegal_byte_fails.
Print Assumptions C04_scan_error_fails.
Print Assumptions C04_statements_of_lexemes.
Print Assumptions C05_statements_collected.
Print Assumptions C05_options_transparent.
Print Assumptions C06_cleanup_partial.
Print Assumptions C06_cleanup_ends.
Print Assumptions C06_cleanup_balance_refuted.
Print Assumptions C06_cleanup_prototype_refuted.
Print Assumptions C49_directive_continued_partial.
Print Assumptions C49_comment_continued_partial.
Print Assumptions C49_blank_line_refuted.

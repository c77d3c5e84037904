(** Properties C90 and C91: preprocessor directives and option lines.  Proofs are in DirectiveFacts.v and OptionLines.v. *)
From Coq Require Import Ascii String List Bool Arith NArith ZArith.
From Verif Require Import Str Regex Lex SpecLex SpecDirective DirectiveFacts.
From Verif Require Import Tokenize SpecTokenize Parse Format Prefix Options Generate ClangAst Frontend SpecEndToEnd EndToEnd OptionLines.
Import ListNotations.

(* ---------------------------------------------------------------- C90 *)

(** C90: a directive - with slashes, backslashes, continued lines, comments on one line, and perhaps a comment [//] at its end -
    yields no token: the text behind it is scanned as if it began a file, but for the number of its first line. *)
Theorem C90_directive_partial : forall line ws l last rest, spaces ws -> segments_ok l last -> directive_end last ->
  tokens_of (lex_run (mkl INITIAL true line) (ws ++ $"#" ++ segments_text l ++ last ++ rest)) =
  tokens_of (lex_run (mkl INITIAL true (line + newlines (ws ++ $"#" ++ segments_text l ++ last))) rest).
Proof. exact directive_skipped. Qed.

(** What is missing: comments over several lines.  With them the rest of the directive is scanned as code. *)
Theorem C90_multiline_comment_refuted : forall line ws l b1 b2 cl rest, spaces ws -> segments_ok l ($"/*" ++ b1 ++ [nl] ++ b2 ++ cl) ->
  ~ In nl b1 -> first_closer (b1 ++ [nl] ++ b2) cl ->
  tokens_of (lex_run (mkl INITIAL true line) (ws ++ $"#" ++ segments_text l ++ $"/*" ++ b1 ++ [nl] ++ b2 ++ cl ++ rest)) =
  tokens_of (lex_run (mkl INITIAL false (line + newlines (ws ++ $"#" ++ segments_text l ++ $"/*" ++ b1 ++ [nl] ++ b2 ++ cl))) rest).
Proof. exact directive_cut. Qed.

(** a directive with everything in it *)
Example C90_example :
  let text := $"# define A(x) /* one */ (x / 2) \
  + '\n' // two
int f(void);" in
  exists ws l last rest, text = ws ++ $"#" ++ segments_text l ++ last ++ rest /\ spaces ws /\ segments_ok l last /\ directive_end last /\
  lex_all text = [T_ID $"int"; T_ID $"f"; T_OTHER $"("; T_ID $"void"; T_OTHER $")"; T_SEMICOLON].
Proof.
  exists [], [DText $" define A(x) "; DComment $" one "; DText $" (x "; DSlash; DText $" 2) "; DSplit []; DText $"  + '"; DBackslash; DText $"n' "],
    ($"// two" ++ [nl]), $"int f(void);".
  split; [reflexivity|]. split; [constructor|]. split; [|split; [|vm_compute; reflexivity]].
  - cbn [segments_ok]. split; [repeat constructor; discriminate|]. split; [split; [now apply is_in_false|apply plain_comment; now apply is_in_false]|].
    split; [repeat constructor; discriminate|]. split; [repeat split; discriminate|]. split; [repeat constructor; discriminate|].
    split; [split; [constructor|exists $"  ", "+"%char; eexists; split; [reflexivity|]; split; [repeat constructor; discriminate|reflexivity]]|].
    split; [repeat constructor; discriminate|]. split; [reflexivity|]. split; [repeat constructor; discriminate|exact I].
  - right. exists $" two". split; [apply plain_line; now apply is_in_false|reflexivity].
Qed.
(** a comment over two lines: the text of the definition becomes part of the next declaration, and this is accepted *)
Example C90_cut_example :
  let text := $"#define A /* two
lines */ 5
int f(void);" in
  (exists ws l b1 b2 cl rest, text = ws ++ $"#" ++ segments_text l ++ $"/*" ++ b1 ++ [nl] ++ b2 ++ cl ++ rest /\ spaces ws /\
    segments_ok l ($"/*" ++ b1 ++ [nl] ++ b2 ++ cl) /\ ~ In nl b1 /\ first_closer (b1 ++ [nl] ++ b2) cl) /\
  lex_all text = [T_ID $"5"; T_ID $"int"; T_ID $"f"; T_OTHER $"("; T_ID $"void"; T_OTHER $")"; T_SEMICOLON] /\
  match read_input defaults $"x.h" text with
  | Ok (_, y) => map p_symbol (s_funcs y) = [$"f"] /\ map p_type (s_funcs y) = [$"5 int"]
  | _ => False
  end.
Proof.
  split; [|vm_compute; repeat split; reflexivity].
  exists [], [DText $"define A "], $" two", $"lines ", $"*/", ($" 5" ++ [nl] ++ $"int f(void);").
  split; [reflexivity|]. split; [constructor|]. split; [split; [repeat constructor; discriminate|exact I]|].
  split; [now apply is_in_false|]. apply plain_comment. now apply is_in_false.
Qed.
(** a directive behind a comment on the same line is not recognised either *)
Theorem C90_behind_comment_refuted : exists text, text = $"/* x */ #define A
int f(void);" /\ lex_all text = [T_ERROR (illegal_char_msg "#" 1)].
Proof. eexists. split; [reflexivity|]. vm_compute. reflexivity. Qed.

(* ---------------------------------------------------------------- C91 *)

(** C91: the words of an option line, which may be continued on further lines, are its options, in order; the text behind it is
    scanned as if it began a file, but for the number of its first line. *)
Theorem C91_words_partial : forall line l rest, oparts_ok l [nl] ->
  tokens_of (lex_run (mkl INITIAL true line) (option_line l ++ rest)) =
  map T_OPTION (option_words l) ++ tokens_of (lex_run (mkl INITIAL true (line + newlines (option_line l))) rest).
Proof. exact option_line_read. Qed.

(** Option lines in front of a header act as if their options had been given before the header was read; with -ignore-options
    they do not matter at all. *)
Theorem C91_in_front : forall s input ls ds text, Forall (fun l => oparts_ok l [nl]) ls -> header_with ds text ->
  read_input s input (option_lines ls ++ text) =
  if o_read_options s then (s' <- parse_options (flat_map option_words ls) s ;; read_input s' input text) else read_input s input text.
Proof. exact options_in_front. Qed.

(** What is missing: the white space behind [%option] may be the end of the line.  Then the next line is taken for options. *)
Theorem C91_empty_line_refuted : forall line l rest, oparts_ok l [nl] ->
  tokens_of (lex_run (mkl INITIAL true line) ($"%option" ++ [nl] ++ oparts_text l ++ [nl] ++ rest)) =
  map T_OPTION (option_words l) ++ tokens_of (lex_run (mkl INITIAL true (line + newlines ([nl] ++ oparts_text l ++ [nl]))) rest).
Proof. exact (fun line l rest => option_words_read line nl l rest eq_refl). Qed.

(** And a continued line must be set off with a blank: otherwise the backslash belongs to the option and the line is not continued. *)
Theorem C91_backslash_refuted : forall line w rest, w <> [] -> Forall (fun c => isspace c = false /\ c <> nul) w ->
  tokens_of (lex_run (mkl INITIAL true line) ($"%option " ++ (w ++ [bslash]) ++ [nl] ++ rest)) =
  T_OPTION (w ++ [bslash]) :: tokens_of (lex_run (mkl INITIAL true (line + 1)) rest).
Proof. exact word_keeps_backslash. Qed.

(** options over two lines in front of the example header of C47 *)
Example C91_example : let l := [OBlanks $" "; OWord $"format=c++"; OBlanks $" "; OJoin $" "; OBlanks $"  "; OWord $"prefix=abc"] in
  Forall (fun l => oparts_ok l [nl]) [l; [OWord $"line"]] /\ option_line l = $"%option  format=c++ \ 
  prefix=abc
" /\ option_words l = [$"format=c++"; $"prefix=abc"] /\ (exists ds text, header_with ds text /\
  match read_input defaults $"x.h" (option_lines [l; [OWord $"line"]] ++ text) with
  | Ok (s, y) => o_format s = FmtCxx /\ o_pfx s = $"abc" /\ o_line s = true /\ s_funcs y <> []
  | _ => False
  end).
Proof.
  cbn zeta. split; [|split; [vm_compute; reflexivity|split; [reflexivity|]]].
  - constructor; [|constructor; [|constructor]]; [|cbn; repeat split; try discriminate; repeat constructor; discriminate].
    cbn [oparts_ok]. split; [repeat constructor; discriminate|]. split; [repeat split; try discriminate; repeat constructor; discriminate|].
    split; [repeat constructor; discriminate|]. split; [split; [repeat constructor|exists $"  ", "p"%char; eexists; split; [reflexivity|]; split; [repeat constructor; discriminate|reflexivity]]|].
    split; [repeat constructor; discriminate|]. split; [repeat split; try discriminate; repeat constructor; discriminate|exact I].
  - eexists _, _. split; [exact example_header|]. vm_compute. repeat split; discriminate.
Qed.
(** a declaration that is lost: it is taken for options, and these are refused (or, with -ignore-options, silently dropped) *)
Example C91_empty_line_example : let text := $"%option
int f(void);
int g(void);" in
  (exists m, read_input defaults $"x.h" text = Err m) /\
  match read_input (set_read_options false defaults) $"x.h" text with
  | Ok (_, y) => map p_symbol (s_funcs y) = [$"g"]
  | _ => False
  end.
Proof. vm_compute. split; [eexists; reflexivity|reflexivity]. Qed.

Print Assumptions C90_directive_partial.
Print Assumptions C90_multiline_comment_refuted.
Print Assumptions C90_behind_comment_refuted.
Print Assumptions C91_words_partial.
Print Assumptions C91_in_front.
Print Assumptions C91_empty_line_refuted.
Print Assumptions C91_backslash_refuted.

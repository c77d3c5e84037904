(** From the text of the input file to the symbol tables, and the whole program: gendlopen::tokenize in
    /repo/src/tokenize.cpp and main in /repo/src/main.cpp.  Definitions only. *)
From Coq Require Import Ascii String List Bool Arith.
From Verif Require Import Str Lex Tokenize Prefix Parse ParamNames Format Options Generate ClangAst.
Import ListNotations.
Local Notation "' p <- r ;; k" := (bind r (fun p => k)) (at level 100, p pattern, r at next level, right associativity).
Local Notation "x <~ m ;; k" := (Generate.seq m (fun x => k)) (at level 100, m at next level, right associativity).
Local Notation "' p <~ m ;; k" := (Generate.seq m (fun p => k)) (at level 100, p pattern, m at next level, right associativity).

(** input_name, tokenize.cpp:388-390 *)
Definition input_name (input : str) : str := if str_eqb input $"-" then $"<STDIN>" else $"file: " ++ input.

(** gendlopen::tokenize after the file was opened, tokenize.cpp:398-446.  lex::error() always has a message here
    ([T_ERROR] carries it) *)
Definition read_input (s : settings) (input text : str) : res (settings * symbols) :=
  match tokenize_stream (o_read_options s) (lex_all text) with
  | TS_error m => Err (input_name input ++ nl :: m)
  | TS_ast ts =>
      y <- ast_symbols (o_ast_all s) (o_prefix_list s) (o_symbol_list s) input (m_pfx_lower (o_pfxs s)) ts ;;
      Ok (s, y)
  | TS_eof vec opts =>
      s' <- (if o_read_options s then parse_options opts s else Ok s) ;;
      t <- gdo_parse (o_param s') (o_prefix_list s') (o_symbol_list s') (input_name input)
             (map remove_superfluous_parentheses vec) ;;
      y <- finish_tables (m_pfx_lower (o_pfxs s')) t ;;
      Ok (s', y)
  end.

(** gendlopen::tokenize, tokenize.cpp:372-447; [stdin]: what standard input holds *)
Definition tokenize (e : env) (s : settings) (input : option str) (stdin : str) : M (settings * symbols) :=
  match input with
  | None | Some [] => throw $"input file required"
  | Some input =>
      if str_eqb input $"-" && str_eqb (o_template s) $"-" then
        throw $"cannot read input file and custom template both from STDIN"
      else
        f <~ (if str_eqb input $"-" then ret (Some stdin) else read_file e input) ;;
        match f with
        | None => throw (input_name input ++ nl :: $"failed to open file for reading")
        | Some text => lift (read_input s input text)
        end
  end.

(** main, main.cpp:32-72, with the exits of parse_cmdline (options.cpp:89-101 and data.cpp:218-229).  [help]: the texts of
    -help, -full-help and -version, which are not modelled.  A thrown error ends the program with status 1; warnings go
    to standard error and are left out *)
Definition program (e : env) (help : exit_kind -> str) (argv : list str) (stdin : str) : M unit :=
  o <~ lift (parse_cmdline argv defaults) ;;
  match o with
  | Exited (EDump dir) => dump_templates e dir
  | Exited k => print_out (help k)
  | Done g =>
      '(s, y) <~ tokenize e (g_set g) (g_input g) stdin ;;
      run e s (s_funcs y) (s_objs y) (s_typedefs y) stdin
  end.

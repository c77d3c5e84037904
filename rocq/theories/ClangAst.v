(** Clang AST input: /repo/src/clang_ast.cpp and the AST branch of gendlopen::tokenize.  Definitions only. *)
From Coq Require Import Ascii String List Bool Arith NArith.
From Verif Require Import Str Lex Tokenize Parse Format.
Import ListNotations.

(* ------------------------------------------------------------ strip_line, clang_ast.cpp:76-86 *)

(** one match of the regular expression ESC, an opening bracket, digits and semicolons, m: its length after ESC *)
Fixpoint sgr_tail (s : str) : option nat :=
  match s with
  | [] => None
  | c :: s' =>
      if isdigit c || Ascii.eqb c ";" then option_map S (sgr_tail s')
      else if Ascii.eqb c "m" then Some 1 else None
  end.
Definition sgr_len (s : str) : option nat :=
  match s with
  | c :: s' => if Ascii.eqb c "[" then option_map S (sgr_tail s') else None
  | [] => None
  end.

(** std::regex_replace(s, reg, ""): leftmost matches removed; [skip] bytes of the current match are left *)
Fixpoint strip_ansi (skip : nat) (s : str) : str :=
  match s with
  | [] => []
  | c :: s' =>
      match skip with
      | S k => strip_ansi k s'
      | O => if Ascii.eqb c esc
             then match sgr_len s' with Some n => strip_ansi n s' | None => c :: strip_ansi 0 s' end
             else c :: strip_ansi 0 s'
      end
  end.

Definition strip_line (s : str) : str := strip_ansi 0 (delete_suffix s [cr]).

(* ------------------------------------------------------------ the line patterns *)

(** [.] of an ECMAScript regular expression *)
Definition reg_dot (c : ascii) : bool := negb (Ascii.eqb c nl || Ascii.eqb c cr).
Definition quote : ascii := "'".

(** the lazy type group: the text before the next quote *)
Fixpoint until_quote (s : str) : option str :=
  match s with
  | [] => None
  | c :: s' => if Ascii.eqb c quote then Some [] else option_map (cons c) (until_quote s')
  end.

(** the symbol group, a blank and the opening quote: symbol and text after the quote *)
Fixpoint ident_quote (s : str) : option (str * str) :=
  match s with
  | [] => None
  | c :: s' =>
      if is_ident c then match ident_quote s' with Some (i, r) => Some (c :: i, r) | None => None end
      else if starts_with [sp; quote] s then Some ([], skipn 2 s) else None
  end.

(** what follows "0x" in a function or variable line, clang_ast.cpp:140-150: the lazy gap takes as few bytes as
    possible, then blank, symbol, blank and the quoted type; anything may follow.  Symbol and type. *)
Fixpoint gap_symbol_type (s : str) : option (str * str) :=
  match s with
  | [] => None
  | c :: s' =>
      match (if Ascii.eqb c sp
             then match ident_quote s' with
                  | Some (i, r) => match until_quote r with Some t => Some (i, t) | None => None end
                  | None => None
                  end
             else None) with
      | Some x => Some x
      | None => gap_symbol_type s'
      end
  end.

(** what follows "0x" in a parameter line, clang_ast.cpp:95-98 *)
Fixpoint gap_type (s : str) : option str :=
  match s with
  | [] => None
  | c :: s' =>
      match (if starts_with [sp; quote] s then until_quote (skipn 2 s) else None) with
      | Some t => Some t
      | None => gap_type s'
      end
  end.

(** regex_match with reg_func ([kw] = FunctionDecl) or reg_var ([kw] = VarDecl), clang_ast.cpp:140-150.
    Every byte after the head is matched by [.], a blank, a quote or the symbol class, so no line break may occur. *)
Definition match_decl (kw line : str) : option (str * str) :=
  match line with
  | b :: r =>
      let head := $"-" ++ kw ++ $" 0x" in
      if (Ascii.eqb b "|" || Ascii.eqb b "`") && starts_with head r then
        let t := skipn (length head) r in
        if forallb reg_dot t then gap_symbol_type t else None
      else None
  | [] => None
  end.

(** regex_match of a parameter line, clang_ast.cpp:95-104 *)
Definition match_param (line : str) : option str :=
  match line with
  | b1 :: b2 :: b3 :: r =>
      let head := $"-ParmVarDecl 0x" in
      if (Ascii.eqb b1 "|" || Ascii.eqb b1 " ") && Ascii.eqb b2 " " && (Ascii.eqb b3 "|" || Ascii.eqb b3 "`")
         && starts_with head r then
        let t := skipn (length head) r in
        if forallb reg_dot t then gap_type t else None
      else None
  | _ => None
  end.

(* ------------------------------------------------------------ get_parameters, clang_ast.cpp:90-130 *)

(** proto.args, proto.param_names and param_count; None: returned false *)
Record params := mkpar { pr_args : str; pr_names : str; pr_count : nat }.
Definition get_parameters (text : str) (p : params) : option params :=
  match match_param (strip_line text) with
  | None => None
  | Some ty =>
      let name := "a"%char :: nat_to_string (pr_count p) in
      let args :=
        match find $"(*)" ty with
        | Some pos => pr_args p ++ insert_at (pos + 2) name ty ++ $", "
        | None =>
            let a := pr_args p ++ ty in
            (if ends_with $"*" a then a else a ++ $" ") ++ name ++ $", "
        end in
      Some (mkpar args (pr_names p ++ name ++ $", ") (S (pr_count p)))
  end.

(** "read next lines for parameters", clang_ast.cpp:212-217: also yields the text now in yytext and the tokens
    not read yet.  At end of file yytext is empty.  Other tokens do not occur in the AST start condition. *)
Fixpoint read_params (p : params) (ts : list token) : params * str * list token :=
  match ts with
  | T_AST_PARMVAR t :: r =>
      match get_parameters t p with
      | Some p' => read_params p' r
      | None => (p, t, r)
      end
  | T_AST_FUNCVAR t :: r => (p, t, r)
  | _ :: r => (p, [], r)
  | [] => (p, [], [])
  end.

(* ------------------------------------------------------------ get_declarations, clang_ast.cpp:136-243 *)

(** m_symbol_list, and m_prototypes with m_objects *)
Record ast_state := mkast { as_syms : list str; as_tab : tables }.

Definition erase_sym (sym : str) (l : list str) : list str := filter (fun x => negb (str_eqb sym x)) l.

(** the switch over the filter mode, clang_ast.cpp:171-196: None for [return 0], else the symbol list left *)
Definition ast_filter (mode : filter_mode) (pfx : list str) (sym : str) (syms : list str) : option (list str) :=
  match mode with
  | FPrefix => if is_prefixed sym pfx then Some syms else None
  | FList => if existsb (str_eqb sym) syms then Some (erase_sym sym syms) else None
  | FPfxList =>
      if is_prefixed sym pfx then Some syms
      else if existsb (str_eqb sym) syms then Some (erase_sym sym syms) else None
  | FNone => Some syms
  end.

(** The new state, and for [return 1] the text in yytext and the tokens not read yet.  [cur]: yytext. *)
Definition get_declarations (mode : filter_mode) (pfx : list str) (st : ast_state) (cur : str) (rest : list token)
  : ast_state * option (str * list token) :=
  let line := strip_line cur in
  let is_function := Ascii.eqb (str_at line 2) "F" in
  match match_decl (if is_function then $"FunctionDecl" else $"VarDecl") line with
  | None => (st, None)
  | Some (sym, ty) =>
      match ast_filter mode pfx sym (as_syms st) with
      | None => (st, None)
      | Some syms =>
          if is_function then
            match find $"(" ty with
            | None => (mkast syms (as_tab st), None)
            | Some pos =>
                let '(p, cur', rest') := read_params (mkpar [] [] 1) rest in
                let q := mkproto KFunction (strip_spaces (firstn pos ty)) sym
                           (delete_suffix (pr_args p) $", ") [] (delete_suffix (pr_names p) $", ") in
                (mkast syms (mktab (t_funcs (as_tab st) ++ [q]) (t_objs (as_tab st))), Some (cur', rest'))
            end
          else
            let k := if find $"(*)" ty then KFunctionPointer else if find $"[" ty then KObjectArray else KObject in
            let q := mkproto k (strip_spaces ty) sym [] [] [] in
            (mkast syms (mktab (t_funcs (as_tab st)) (t_objs (as_tab st) ++ [q])), None)
      end
  end.

(* ------------------------------------------------------------ parse_clang_ast, clang_ast.cpp:246-293 *)

(** while (get_declarations(mode) == 1) {}: the state and the tokens not read yet *)
Fixpoint ast_inner (fuel : nat) (mode : filter_mode) (pfx : list str) (st : ast_state) (cur : str) (rest : list token)
  : res (ast_state * list token) :=
  match fuel with
  | O => Fuel
  | S f =>
      match get_declarations mode pfx st cur rest with
      | (st', None) => Ok (st', rest)
      | (st', Some (cur', rest')) => ast_inner f mode pfx st' cur' rest'
      end
  end.

(** the loop over lines, clang_ast.cpp:260-275 *)
Fixpoint ast_outer (fuel : nat) (mode : filter_mode) (pfx : list str) (st : ast_state) (ts : list token)
  : res ast_state :=
  match fuel with
  | O => Fuel
  | S f =>
      match ts with
      | T_AST_PARMVAR _ :: r => ast_outer f mode pfx st r
      | T_AST_FUNCVAR t :: r =>
          x <- ast_inner (2 + length r) mode pfx st t r ;;
          match mode, as_syms (fst x) with
          | FList, [] => Ok (fst x)
          | _, _ => ast_outer f mode pfx (fst x) (snd x)
          end
      | _ => Ok st
      end
  end.

(** err_no_symbols, clang_ast.cpp:70-72 *)
Definition err_no_symbols : str :=
  $"Clang AST: no symbols provided to look for" ++ [nl] ++ $"use `-S', `-P' or `-ast-all-symbols'".

(** [all]: m_ast_all_symbols; [ts]: the tokens after LEX_AST_BEGIN *)
Definition parse_clang_ast (all : bool) (pfx syms : list str) (input : str) (ts : list token) : res tables :=
  let mode := if all then FNone else get_filter_mode pfx syms in
  match all, mode with
  | false, FNone => Err err_no_symbols
  | _, _ =>
      st <- ast_outer (S (length ts)) mode pfx (mkast syms no_tables) ts ;;
      match mode_list mode, as_syms st with
      | true, _ :: _ => Err (not_found_msg (as_syms st))
      | _, _ =>
          match t_funcs (as_tab st), t_objs (as_tab st) with
          | [], [] => Err ($"no function or object prototypes found in file: " ++ input)
          | _, _ => Ok (as_tab st)
          end
      end
  end.

(** the AST branch of gendlopen::tokenize, tokenize.cpp:411-416: no cosmetics follow *)
Definition ast_symbols (all : bool) (pfx syms : list str) (input pfx_lower : str) (ts : list token) : res symbols :=
  t <- parse_clang_ast all pfx syms input ts ;;
  td <- create_typedefs pfx_lower (t_objs t) ;;
  Ok (mksyms (t_funcs t) (snd td) (fst td)).

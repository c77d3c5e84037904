(** Command line: /repo/src/opt_parser.h, opt_parser++.hpp, options.cpp and the setters of gendlopen.{hpp,cpp}.
    Definitions only.  POSIX build: OPT_PREFIX_SHORT, OPT_PREFIX_LONG, OPT_SEPARATOR_EQUAL (options.cpp:32-38). *)
From Coq Require Import Ascii String List Bool Arith.
From Verif Require Import Str Prefix Parse ParamNames.
Import ListNotations.
Local Notation "' p <- r ;; k" := (bind r (fun p => k)) (at level 100, p pattern, r at next level, right associativity).

(* ------------------------------------------------------------ the settings *)

(** output::format, types.hpp *)
Inductive out_format := FmtC | FmtCxx | FmtMinimal | FmtMinimalCxx | FmtPlugin.

(** the members of class gendlopen set by options, gendlopen.hpp:75-165; [o_pfx] is m_pfx, [o_pfxs] the strings derived
    from it; -P and -S fill m_prefix_list and m_symbol_list *)
Record settings := mkset {
  o_output : str; o_format : out_format; o_param : param_mode; o_template : str; o_lib : str;
  o_force : bool; o_separate : bool; o_ast_all : bool; o_print : bool; o_read_options : bool;
  o_date : bool; o_line : bool; o_pragma : bool;
  o_prefix_list : list str; o_symbol_list : list str; o_includes : list str; o_defines : str;
  o_pfx : str; o_pfxs : prefixes; o_tpath : str
}.

(** the default values, gendlopen.hpp:75-87 and 126-141 *)
Definition defaults : settings :=
  mkset $"-" FmtC PRead [] [] false false false false true true false true [] [] [] []
        $"gdo" (mkpfx $"GDO" $"gdo" [] [] []) [].

(** the OPT setters, gendlopen.hpp:46-52 *)
Definition set_output v s := mkset v (o_format s) (o_param s) (o_template s) (o_lib s) (o_force s) (o_separate s)
  (o_ast_all s) (o_print s) (o_read_options s) (o_date s) (o_line s) (o_pragma s) (o_prefix_list s) (o_symbol_list s)
  (o_includes s) (o_defines s) (o_pfx s) (o_pfxs s) (o_tpath s).
Definition set_format v s := mkset (o_output s) v (o_param s) (o_template s) (o_lib s) (o_force s) (o_separate s)
  (o_ast_all s) (o_print s) (o_read_options s) (o_date s) (o_line s) (o_pragma s) (o_prefix_list s) (o_symbol_list s)
  (o_includes s) (o_defines s) (o_pfx s) (o_pfxs s) (o_tpath s).
Definition set_param v s := mkset (o_output s) (o_format s) v (o_template s) (o_lib s) (o_force s) (o_separate s)
  (o_ast_all s) (o_print s) (o_read_options s) (o_date s) (o_line s) (o_pragma s) (o_prefix_list s) (o_symbol_list s)
  (o_includes s) (o_defines s) (o_pfx s) (o_pfxs s) (o_tpath s).
Definition set_template v s := mkset (o_output s) (o_format s) (o_param s) v (o_lib s) (o_force s) (o_separate s)
  (o_ast_all s) (o_print s) (o_read_options s) (o_date s) (o_line s) (o_pragma s) (o_prefix_list s) (o_symbol_list s)
  (o_includes s) (o_defines s) (o_pfx s) (o_pfxs s) (o_tpath s).
Definition set_lib v s := mkset (o_output s) (o_format s) (o_param s) (o_template s) v (o_force s) (o_separate s)
  (o_ast_all s) (o_print s) (o_read_options s) (o_date s) (o_line s) (o_pragma s) (o_prefix_list s) (o_symbol_list s)
  (o_includes s) (o_defines s) (o_pfx s) (o_pfxs s) (o_tpath s).
Definition set_force v s := mkset (o_output s) (o_format s) (o_param s) (o_template s) (o_lib s) v (o_separate s)
  (o_ast_all s) (o_print s) (o_read_options s) (o_date s) (o_line s) (o_pragma s) (o_prefix_list s) (o_symbol_list s)
  (o_includes s) (o_defines s) (o_pfx s) (o_pfxs s) (o_tpath s).
Definition set_separate v s := mkset (o_output s) (o_format s) (o_param s) (o_template s) (o_lib s) (o_force s) v
  (o_ast_all s) (o_print s) (o_read_options s) (o_date s) (o_line s) (o_pragma s) (o_prefix_list s) (o_symbol_list s)
  (o_includes s) (o_defines s) (o_pfx s) (o_pfxs s) (o_tpath s).
Definition set_ast_all v s := mkset (o_output s) (o_format s) (o_param s) (o_template s) (o_lib s) (o_force s)
  (o_separate s) v (o_print s) (o_read_options s) (o_date s) (o_line s) (o_pragma s) (o_prefix_list s)
  (o_symbol_list s) (o_includes s) (o_defines s) (o_pfx s) (o_pfxs s) (o_tpath s).
Definition set_print v s := mkset (o_output s) (o_format s) (o_param s) (o_template s) (o_lib s) (o_force s)
  (o_separate s) (o_ast_all s) v (o_read_options s) (o_date s) (o_line s) (o_pragma s) (o_prefix_list s)
  (o_symbol_list s) (o_includes s) (o_defines s) (o_pfx s) (o_pfxs s) (o_tpath s).
Definition set_read_options v s := mkset (o_output s) (o_format s) (o_param s) (o_template s) (o_lib s) (o_force s)
  (o_separate s) (o_ast_all s) (o_print s) v (o_date s) (o_line s) (o_pragma s) (o_prefix_list s)
  (o_symbol_list s) (o_includes s) (o_defines s) (o_pfx s) (o_pfxs s) (o_tpath s).
Definition set_date v s := mkset (o_output s) (o_format s) (o_param s) (o_template s) (o_lib s) (o_force s)
  (o_separate s) (o_ast_all s) (o_print s) (o_read_options s) v (o_line s) (o_pragma s) (o_prefix_list s)
  (o_symbol_list s) (o_includes s) (o_defines s) (o_pfx s) (o_pfxs s) (o_tpath s).
Definition set_line v s := mkset (o_output s) (o_format s) (o_param s) (o_template s) (o_lib s) (o_force s)
  (o_separate s) (o_ast_all s) (o_print s) (o_read_options s) (o_date s) v (o_pragma s) (o_prefix_list s)
  (o_symbol_list s) (o_includes s) (o_defines s) (o_pfx s) (o_pfxs s) (o_tpath s).
Definition set_pragma v s := mkset (o_output s) (o_format s) (o_param s) (o_template s) (o_lib s) (o_force s)
  (o_separate s) (o_ast_all s) (o_print s) (o_read_options s) (o_date s) (o_line s) v (o_prefix_list s)
  (o_symbol_list s) (o_includes s) (o_defines s) (o_pfx s) (o_pfxs s) (o_tpath s).

(** add_pfx and add_sym, gendlopen.hpp:143-144 *)
Definition add_pfx v s := mkset (o_output s) (o_format s) (o_param s) (o_template s) (o_lib s) (o_force s)
  (o_separate s) (o_ast_all s) (o_print s) (o_read_options s) (o_date s) (o_line s) (o_pragma s)
  (o_prefix_list s ++ [v]) (o_symbol_list s) (o_includes s) (o_defines s) (o_pfx s) (o_pfxs s) (o_tpath s).
Definition add_sym v s := mkset (o_output s) (o_format s) (o_param s) (o_template s) (o_lib s) (o_force s)
  (o_separate s) (o_ast_all s) (o_print s) (o_read_options s) (o_date s) (o_line s) (o_pragma s)
  (o_prefix_list s) (o_symbol_list s ++ [v]) (o_includes s) (o_defines s) (o_pfx s) (o_pfxs s) (o_tpath s).
Definition push_include v s := mkset (o_output s) (o_format s) (o_param s) (o_template s) (o_lib s) (o_force s)
  (o_separate s) (o_ast_all s) (o_print s) (o_read_options s) (o_date s) (o_line s) (o_pragma s)
  (o_prefix_list s) (o_symbol_list s) (o_includes s ++ [v]) (o_defines s) (o_pfx s) (o_pfxs s) (o_tpath s).
Definition append_defines v s := mkset (o_output s) (o_format s) (o_param s) (o_template s) (o_lib s) (o_force s)
  (o_separate s) (o_ast_all s) (o_print s) (o_read_options s) (o_date s) (o_line s) (o_pragma s)
  (o_prefix_list s) (o_symbol_list s) (o_includes s) (o_defines s ++ v) (o_pfx s) (o_pfxs s) (o_tpath s).
Definition set_pfx v w s := mkset (o_output s) (o_format s) (o_param s) (o_template s) (o_lib s) (o_force s)
  (o_separate s) (o_ast_all s) (o_print s) (o_read_options s) (o_date s) (o_line s) (o_pragma s)
  (o_prefix_list s) (o_symbol_list s) (o_includes s) (o_defines s) v w (o_tpath s).
Definition set_tpath v s := mkset (o_output s) (o_format s) (o_param s) (o_template s) (o_lib s) (o_force s)
  (o_separate s) (o_ast_all s) (o_print s) (o_read_options s) (o_date s) (o_line s) (o_pragma s)
  (o_prefix_list s) (o_symbol_list s) (o_includes s) (o_defines s) (o_pfx s) (o_pfxs s) v.

(** add_inc, gendlopen.cpp:46-60: the text put after [#include] *)
Definition include_text (inc : str) : str :=
  if prefixed_and_longer_case inc $"nq:" then skipn 3 inc
  else if Nat.leb 2 (length inc) && (front_and_back inc $"<" $">" || front_and_back inc [dquote] [dquote]) then inc
  else dquote :: inc ++ [dquote].
Definition add_inc (inc : str) (s : settings) : settings := push_include (include_text inc) s.

(** add_def, gendlopen.cpp:64-83: the text appended to m_defines *)
Definition define_text (def : str) : str :=
  let '(name, value) := match find $"=" def with
                        | Some pos => (firstn pos def, sp :: skipn (pos + 1) def)
                        | None => (def, [])
                        end in
  let name := strip_spaces name in
  match name with
  | [] => []
  | _ => ($"#ifndef " ++ name ++ [nl]) ++ ($"# define " ++ name ++ value ++ [nl]) ++ ($"#endif" ++ [nl])
  end.
Definition add_def (def : str) (s : settings) : settings := append_defines (define_text def) s.

(** format, gendlopen.cpp:87-104 *)
Definition read_format (v : str) : res out_format :=
  let s := to_lower false v in
  if str_eqb s $"c" then Ok FmtC
  else if str_eqb s $"cxx" || str_eqb s $"c++" || str_eqb s $"cpp" then Ok FmtCxx
  else if str_eqb s $"minimal" || str_eqb s $"minimal-c" then Ok FmtMinimal
  else if str_eqb s $"minimal-cxx" || str_eqb s $"minimal-c++" || str_eqb s $"minimal-cpp" then Ok FmtMinimalCxx
  else if str_eqb s $"plugin" || str_eqb s $"plugin-c" then Ok FmtPlugin
  else Err ($"unknown output format: " ++ v).
Definition opt_format (v : str) (s : settings) : res settings := f <- read_format v ;; Ok (set_format f s).

(** parameter_names, gendlopen.cpp:108-119 *)
Definition read_param (v : str) : res param_mode :=
  if strcaseeq v $"skip" then Ok PSkip
  else if strcaseeq v $"create" then Ok PCreate
  else if strcaseeq v $"read" then Ok PRead
  else Err ($"parameter_names: unknown mode: " ++ v).
Definition opt_param (v : str) (s : settings) : res settings := m <- read_param v ;; Ok (set_param m s).

(** prefix, gendlopen.cpp:123-136 *)
Definition opt_prefix (v : str) (s : settings) : settings := set_pfx v (set_prefix v) s.

(** templates_path, gendlopen.cpp:168-174 *)
Definition opt_tpath (v : str) (s : settings) : settings := set_tpath (append_missing_separator v) s.

(* ------------------------------------------------------------ opt_parser.h *)

(** p[i] on a C string: the terminator may be read, nothing behind it *)
Definition char_at (p : str) (i : nat) : res ascii := if Nat.leb i (length p) then Ok (nth i p nul) else UB.
(** p + i *)
Definition ptr_add (p : str) (i : nat) : res str := if Nat.leb i (length p) then Ok (skipn i p) else UB.
(** argv[i]; entries up to argc may be read (argv[argc] is a null pointer and would not be usable) *)
Definition argv_at (argv : list str) (i : nat) : res str :=
  match nth_error argv i with Some a => Ok a | None => UB end.

(** the members iter, current and pfxlen of struct opt_args; [value] is returned by [get_arg] *)
Record opt_args := mkargs { a_iter : nat; a_current : str; a_pfxlen : nat }.

(** the prefix test of opt_iterate, opt_parser.h:242-273 *)
Definition prefix_len (p : str) : res nat :=
  c0 <- char_at p 0 ;;
  if Ascii.eqb c0 "-" then
    c1 <- char_at p 1 ;;
    if negb (Ascii.eqb c1 "-") && negb (Ascii.eqb c1 nul) then Ok 1
    else if Ascii.eqb c1 "-" then
      c2 <- char_at p 2 ;;
      if negb (Ascii.eqb c2 nul) then Ok 2 else Ok 0
    else Ok 0
  else Ok 0.

(** opt_iterate, opt_parser.h:226-275; None is a false return *)
Definition iterate (argv : list str) (a : opt_args) : res (option opt_args) :=
  let it := a_iter a + 1 in
  if Nat.leb (length argv) it then Ok None
  else
    cur <- argv_at argv it ;;
    n <- prefix_len cur ;;
    Ok (Some (mkargs it cur n)).

(** opt_arg_eq, opt_parser.h:279-291 *)
Definition flag (a : opt_args) (opt : str) : res bool :=
  match opt, a_pfxlen a with
  | [], _ => Ok false
  | _, O => Ok false
  | _, n => p <- ptr_add (a_current a) n ;; Ok (str_eqb p opt)
  end.

(** _opt_handle_error, opt_parser.h:295-312: snprintf into 128 bytes, then the callback throws (options.cpp:77-79) *)
Definition opt_error {A} (fmt1 pfx opt fmt2 : str) : res A := Err (firstn 127 (fmt1 ++ pfx ++ opt ++ fmt2)).

(** opt_get_arg after the prefix is skipped, opt_parser.h:346-376; the result is a->iter and, if true is returned, the
    value *)
Definition arg_value (argv : list str) (it : nat) (pfx p opt : str) : res (nat * option str) :=
  let len := length opt in
  if negb (starts_with opt p) then Ok (it, None)
  else
    c <- char_at p len ;;
    let check (it : nat) (v : str) : res (nat * option str) :=
      match v with
      | [] => opt_error $"option '" pfx opt $"' has an empty argument"
      | _ => Ok (it, Some v)
      end in
    if Ascii.eqb c nul then
      let it := it + 1 in
      if Nat.leb (length argv) it then opt_error $"option '" pfx opt $"' requires an argument"
      else v <- argv_at argv it ;; check it v
    else if Nat.eqb len 1 then v <- ptr_add p len ;; check it v
    else if Ascii.eqb c "=" then v <- ptr_add p (len + 1) ;; check it v
    else Ok (it, None).

(** opt_get_arg, opt_parser.h:316-377.  When the prefix is two characters long, pfx[1] is set to p[1] after p++
    (opt_parser.h:341-344), which is the character behind the prefix. *)
Definition get_arg (argv : list str) (a : opt_args) (opt : str) : res (nat * option str) :=
  match opt, a_pfxlen a with
  | [], _ => Ok (a_iter a, None)
  | _, O => Ok (a_iter a, None)
  | _, n =>
    if Nat.eqb (length opt) 1 && negb (Nat.eqb n 1) then Ok (a_iter a, None)
    else
      p0 <- char_at (a_current a) 0 ;;
      p1 <- ptr_add (a_current a) 1 ;;
      if Nat.eqb n 2 then
        x <- char_at p1 1 ;;
        q <- ptr_add p1 1 ;;
        arg_value argv (a_iter a) (c_str [p0; x]) q opt
      else arg_value argv (a_iter a) [p0] p1 opt
  end.

(* ------------------------------------------------------------ options.cpp *)

(** what an accepted option does: change the settings, or leave the program with std::exit(0) *)
Inductive exit_kind := EHelp | EFullHelp | EVersion | EDump (dir : str).
Inductive outcome (A : Type) := Done (a : A) | Exited (e : exit_kind).
Arguments Done {A}. Arguments Exited {A}.

(** one [else if] of parse_cmdline: [o.flag(name)] or [o.arg(p, name)] with its block *)
Inductive branch :=
| BFlag (name : str) (act : settings -> outcome settings)
| BArg (name : str) (act : str -> settings -> res (outcome settings)).

Definition sets (f : str -> settings -> settings) (v : str) (s : settings) : res (outcome settings) := Ok (Done (f v s)).
Definition setsR (f : str -> settings -> res settings) (v : str) (s : settings) : res (outcome settings) :=
  s' <- f v s ;; Ok (Done s').

(** the chain of options.cpp:88-139, in order *)
Definition branches : list branch := [
  BFlag $"?" (fun _ => Exited EHelp);
  BFlag $"help" (fun _ => Exited EHelp);
  BFlag $"full-help" (fun _ => Exited EFullHelp);
  BFlag $"ast-all-symbols" (fun s => Done (set_ast_all true s));
  BArg $"D" (sets add_def);
  BArg $"dump-templates" (fun v _ => Ok (Exited (EDump v)));
  BArg $"format" (setsR opt_format);
  BFlag $"force" (fun s => Done (set_force true s));
  BArg $"include" (sets add_inc);
  BFlag $"ignore-options" (fun s => Done (set_read_options false s));
  BArg $"library" (sets set_lib);
  BFlag $"line" (fun s => Done (set_line true s));
  BFlag $"no-date" (fun s => Done (set_date false s));
  BFlag $"no-pragma-once" (fun s => Done (set_pragma false s));
  BArg $"out" (sets set_output);
  BArg $"P" (sets add_pfx);
  BArg $"prefix" (sets opt_prefix);
  BArg $"param" (setsR opt_param);
  BFlag $"print-symbols" (fun s => Done (set_print true s));
  BArg $"S" (sets add_sym);
  BFlag $"separate" (fun s => Done (set_separate true s));
  BArg $"template" (sets set_template);
  BArg $"templates-path" (sets opt_tpath);
  BFlag $"version" (fun _ => Exited EVersion) ].

(** going down the chain; get_arg may move a->iter only when it returns true or throws *)
Fixpoint dispatch (argv : list str) (a : opt_args) (bs : list branch) (s : settings) : res (nat * outcome settings) :=
  match bs with
  | [] => Err ($"unknown option: " ++ a_current a)
  | BFlag name act :: bs' =>
      b <- flag a name ;;
      if b then Ok (a_iter a, act s) else dispatch argv a bs' s
  | BArg name act :: bs' =>
      '(it, v) <- get_arg argv a name ;;
      match v with
      | Some v => o <- act v s ;; Ok (it, o)
      | None => dispatch argv (mkargs it (a_current a) (a_pfxlen a)) bs' s
      end
  end.

(** what parse_cmdline has gathered: the settings, the input file and the ignored arguments (the warnings) *)
Record gathered := mkgat { g_set : settings; g_input : option str; g_ignored : list str }.

(** the while loop, options.cpp:86-140 *)
Fixpoint cmdline_loop (fuel : nat) (argv : list str) (a : opt_args) (g : gathered) : res (outcome gathered) :=
  match fuel with
  | O => Fuel
  | S fuel =>
    r <- iterate argv a ;;
    match r with
    | None => Ok (Done g)
    | Some a =>
      match a_pfxlen a with
      | O => match g_input g with
             | None => cmdline_loop fuel argv a (mkgat (g_set g) (Some (a_current a)) (g_ignored g))
             | Some _ => cmdline_loop fuel argv a (mkgat (g_set g) (g_input g) (g_ignored g ++ [a_current a]))
             end
      | _ =>
        '(it, o) <- dispatch argv a branches (g_set g) ;;
        match o with
        | Exited e => Ok (Exited e)
        | Done s => cmdline_loop fuel argv (mkargs it (a_current a) (a_pfxlen a)) (mkgat s (g_input g) (g_ignored g))
        end
      end
    end
  end.

(** gendlopen::parse_cmdline, options.cpp:75-154, for argc = length argv; the input file is returned beside the settings *)
Definition parse_cmdline (argv : list str) (s : settings) : res (outcome gathered) :=
  o <- cmdline_loop (S (length argv)) argv (mkargs 0 [] 0) (mkgat s None []) ;;
  match o with
  | Exited e => Ok (Exited e)
  | Done g =>
      match g_input g with
      | None => Err $"input file is required"
      | Some [] => Err $"input file is required"
      | Some _ => Ok (Done g)
      end
  end.

(** get_option_len, options.cpp:52-63; None is a NULL return *)
Definition get_option (token opt : str) : res (option str) :=
  if str_eqb (firstn (length opt) token) opt then
    if Nat.ltb (length opt) (length token) then Ok (Some (skipn (length opt) token))
    else Err ($"%option string requires an argument: " ++ token)
  else Ok None.

(** the chain of [get_option] tests of parse_options, options.cpp:169-180 *)
Definition option_args : list (str * (str -> settings -> res settings)) := [
  ($"D=", fun v s => Ok (add_def v s));
  ($"format=", opt_format);
  ($"include=", fun v s => Ok (add_inc v s));
  ($"library=", fun v s => Ok (set_lib v s));
  ($"param=", opt_param);
  ($"prefix=", fun v s => Ok (opt_prefix v s)) ].
Fixpoint try_options (token : str) (l : list (str * (str -> settings -> res settings))) (s : settings) : res settings :=
  match l with
  | [] => Err ($"unknown %option string: " ++ token)
  | (opt, act) :: l' =>
      v <- get_option token opt ;;
      match v with
      | Some v => act (c_str v) s
      | None => try_options token l' s
      end
  end.

(** gendlopen::parse_options, options.cpp:158-185 *)
Definition parse_option (token : str) (s : settings) : res settings :=
  if str_eqb token $"line" then Ok (set_line true s)
  else if str_eqb token $"no-date" then Ok (set_date false s)
  else if str_eqb token $"no-pragma-once" then Ok (set_pragma false s)
  else try_options token option_args s.
Fixpoint parse_options (tokens : list str) (s : settings) : res settings :=
  match tokens with
  | [] => Ok s
  | t :: ts => s' <- parse_option t s ;; parse_options ts s'
  end.

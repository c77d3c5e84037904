(** What a command line means, independently of the way it is scanned: the documented options (help.cpp), how each is
    written, and what each does. *)
From Coq Require Import Ascii String List Bool Arith.
From Verif Require Import Str Prefix ParamNames SpecData Options.
Import ListNotations.

(* ------------------------------------------------------------ the documented options *)

Inductive flag_opt := OQuestion | OHelp | OFullHelp | OAstAll | OForce | OIgnore | OLine | ONoDate | ONoPragma
                    | OPrint | OSeparate | OVersion.
Inductive value_opt := ODump | OFormat | OInclude | OLibrary | OOut | OPrefix | OParam | OTemplate | OTemplatesPath.
Inductive letter_opt := OLetterD | OLetterP | OLetterS.

Definition flag_name (o : flag_opt) : str :=
  match o with
  | OQuestion => $"?" | OHelp => $"help" | OFullHelp => $"full-help" | OAstAll => $"ast-all-symbols"
  | OForce => $"force" | OIgnore => $"ignore-options" | OLine => $"line" | ONoDate => $"no-date"
  | ONoPragma => $"no-pragma-once" | OPrint => $"print-symbols" | OSeparate => $"separate" | OVersion => $"version"
  end.
Definition value_name (o : value_opt) : str :=
  match o with
  | ODump => $"dump-templates" | OFormat => $"format" | OInclude => $"include" | OLibrary => $"library"
  | OOut => $"out" | OPrefix => $"prefix" | OParam => $"param" | OTemplate => $"template"
  | OTemplatesPath => $"templates-path"
  end.
Definition letter_name (o : letter_opt) : str :=
  match o with OLetterD => $"D" | OLetterP => $"P" | OLetterS => $"S" end.

(* ------------------------------------------------------------ the items of a command line *)

(** a file name; a flag; an option with its value, written with [=] or in the next argument; a one-letter option with
    its value, attached or in the next argument.  [long] tells whether two dashes are written. *)
Inductive item :=
| IFile (f : str)
| IFlag (long : bool) (o : flag_opt)
| IValue (long : bool) (o : value_opt) (eq : bool) (v : str)
| ILetter (o : letter_opt) (attached : bool) (v : str).

Definition dashes (long : bool) : str := if long then $"--" else $"-".

(** the arguments an item is written as *)
Definition spell (i : item) : list str :=
  match i with
  | IFile f => [f]
  | IFlag long o => [dashes long ++ flag_name o]
  | IValue long o true v => [dashes long ++ value_name o ++ $"=" ++ v]
  | IValue long o false v => [dashes long ++ value_name o; v]
  | ILetter o true v => [$"-" ++ letter_name o ++ v]
  | ILetter o false v => [$"-" ++ letter_name o; v]
  end.

(** [-] and [--] alone are file names, everything else that starts with a dash is an option *)
Definition option_like (a : str) : bool :=
  starts_with $"-" a && negb (str_eqb a $"-") && negb (str_eqb a $"--").

(** files do not look like options, values are not empty *)
Definition item_ok (i : item) : Prop :=
  match i with
  | IFile f => option_like f = false
  | IFlag _ _ => True
  | IValue _ _ _ v => v <> []
  | ILetter _ _ v => v <> []
  end.

(** an argument of a process holds no NUL *)
Definition argument (a : str) : Prop := ~ In nul a.

(** the arguments that can begin a documented option *)
Definition documented (a : str) : Prop :=
  (exists long o, a = dashes long ++ flag_name o) \/
  (exists long o, a = dashes long ++ value_name o) \/
  (exists long o v, a = dashes long ++ value_name o ++ $"=" ++ v) \/
  (exists o v, a = $"-" ++ letter_name o ++ v).

(** an argument list that begins with an option lacking its value *)
Inductive lacks_value : list str -> Prop :=
| value_missing long o : lacks_value [dashes long ++ value_name o]
| value_empty_next long o rest : lacks_value ((dashes long ++ value_name o) :: [] :: rest)
| value_empty long o rest : lacks_value ((dashes long ++ value_name o ++ $"=") :: rest)
| letter_missing o : lacks_value [$"-" ++ letter_name o]
| letter_empty_next o rest : lacks_value (($"-" ++ letter_name o) :: [] :: rest).

(** an argument list that cannot be read on: an unknown option, or an option lacking its value *)
Definition unreadable (args : list str) : Prop :=
  lacks_value args \/ exists a rest, args = a :: rest /\ option_like a = true /\ ~ documented a.

(* ------------------------------------------------------------ what they do *)

Definition flag_effect (o : flag_opt) (s : settings) : outcome settings :=
  match o with
  | OQuestion | OHelp => Exited EHelp
  | OFullHelp => Exited EFullHelp
  | OVersion => Exited EVersion
  | OAstAll => Done (set_ast_all true s)
  | OForce => Done (set_force true s)
  | OIgnore => Done (set_read_options false s)
  | OLine => Done (set_line true s)
  | ONoDate => Done (set_date false s)
  | ONoPragma => Done (set_pragma false s)
  | OPrint => Done (set_print true s)
  | OSeparate => Done (set_separate true s)
  end.
Definition value_effect (o : value_opt) (v : str) (s : settings) : res (outcome settings) :=
  match o with
  | ODump => Ok (Exited (EDump v))
  | OFormat => f <- read_format v ;; Ok (Done (set_format f s))
  | OParam => m <- read_param v ;; Ok (Done (set_param m s))
  | OInclude => Ok (Done (add_inc v s))
  | OLibrary => Ok (Done (set_lib v s))
  | OOut => Ok (Done (set_output v s))
  | OPrefix => Ok (Done (opt_prefix v s))
  | OTemplate => Ok (Done (set_template v s))
  | OTemplatesPath => Ok (Done (opt_tpath v s))
  end.
Definition letter_effect (o : letter_opt) (v : str) (s : settings) : settings :=
  match o with OLetterD => add_def v s | OLetterP => add_pfx v s | OLetterS => add_sym v s end.

(** the first file is the input, further ones are ignored with a warning *)
Definition effect (i : item) (g : gathered) : res (outcome gathered) :=
  let put (o : outcome settings) : outcome gathered :=
    match o with Done s => Done (mkgat s (g_input g) (g_ignored g)) | Exited e => Exited e end in
  match i with
  | IFile f =>
      match g_input g with
      | None => Ok (Done (mkgat (g_set g) (Some f) (g_ignored g)))
      | Some _ => Ok (Done (mkgat (g_set g) (g_input g) (g_ignored g ++ [f])))
      end
  | IFlag _ o => Ok (put (flag_effect o (g_set g)))
  | IValue _ o _ v => o <- value_effect o v (g_set g) ;; Ok (put o)
  | ILetter o _ v => Ok (put (Done (letter_effect o v (g_set g))))
  end.

(** left to right, until an item ends the run *)
Fixpoint interpret (is : list item) (g : gathered) : res (outcome gathered) :=
  match is with
  | [] => Ok (Done g)
  | i :: is' =>
      o <- effect i g ;;
      match o with Done g' => interpret is' g' | Exited e => Ok (Exited e) end
  end.

(** an input file is required *)
Definition need_input (g : gathered) : res (outcome gathered) :=
  match g_input g with
  | Some (_ :: _) => Ok (Done g)
  | _ => Err $"input file is required"
  end.
Definition finish (r : res (outcome gathered)) : res (outcome gathered) :=
  o <- r ;; match o with Done g => need_input g | Exited e => Ok (Exited e) end.

Definition start (s : settings) : gathered := mkgat s None [].

(** the option an item belongs to *)
Definition slot (i : item) : str :=
  match i with
  | IFile _ => []
  | IFlag _ o => flag_name o
  | IValue _ o _ _ => value_name o
  | ILetter o _ _ => letter_name o
  end.
Definition of_slot (n : str) (is : list item) : list item := filter (fun i => str_eqb (slot i) n) is.

(* ------------------------------------------------------------ %option strings *)

(** the options allowed in an input file, with the effect of the same option on the command line *)
Inductive file_option : str -> (settings -> res (outcome settings)) -> Prop :=
| file_line : file_option $"line" (fun s => Ok (flag_effect OLine s))
| file_no_date : file_option $"no-date" (fun s => Ok (flag_effect ONoDate s))
| file_no_pragma : file_option $"no-pragma-once" (fun s => Ok (flag_effect ONoPragma s))
| file_value o v : In o [OFormat; OInclude; OLibrary; OParam; OPrefix] -> v <> [] ->
    file_option (value_name o ++ $"=" ++ v) (value_effect o v)
| file_define v : v <> [] -> file_option ($"D=" ++ v) (fun s => Ok (Done (letter_effect OLetterD v s))).
(** ... and those that lack a value *)
Definition file_lacks_value (t : str) : Prop :=
  t = $"D=" \/ exists o, In o [OFormat; OInclude; OLibrary; OParam; OPrefix] /\ t = value_name o ++ $"=".

(* ------------------------------------------------------------ what the generated directives mean *)

(** macros defined so far, the newest first *)
Definition macros := list (str * str).
Definition is_defined (n : str) (m : macros) : bool := existsb (fun d => str_eqb (fst d) n) m.
Definition define_once (d : str * str) (m : macros) : macros := if is_defined (fst d) m then m else d :: m.

(** the preprocessor on the three directives used, each on a line of its own: the macros and, innermost first, whether
    the enclosing [#ifndef] groups are kept *)
Fixpoint until_space (s : str) : str * str :=
  match s with
  | [] => ([], [])
  | c :: s' => if Ascii.eqb c sp then ([], s') else let '(a, b) := until_space s' in (c :: a, b)
  end.
Definition pp_line (l : str) (st : macros * list bool) : macros * list bool :=
  let '(m, ifs) := st in
  if starts_with $"#ifndef " l then (m, negb (is_defined (skipn 8 l) m) :: ifs)
  else if starts_with $"# define " l then
    (if forallb (fun b => b) ifs then (until_space (skipn 9 l) :: m, ifs) else (m, ifs))
  else if str_eqb l $"#endif" then (m, tl ifs)
  else (m, ifs).
(** lines ending in a backslash are joined with the next *)
Fixpoint splice (s : str) : str :=
  match s with
  | [] => []
  | c :: s' => if Ascii.eqb c bslash then match s' with
                                          | d :: s'' => if Ascii.eqb d nl then splice s'' else c :: splice s'
                                          | [] => [c]
                                          end
               else c :: splice s'
  end.
Definition preprocess (text : str) (m : macros) : macros * list bool :=
  fold_left (fun st l => pp_line l st) (lines (splice text)) (m, []).

(** a macro name, and a value that stays on its line *)
Definition macro_name (n : str) : Prop := n <> [] /\ Forall (fun c => is_ident c = true) n.
Definition one_line (v : str) : Prop := ~ In nl v /\ ends_with [bslash] v = false.
Definition define_ok (d : str * option str) : Prop :=
  macro_name (fst d) /\ match snd d with Some v => one_line v | None => True end.

(** the argument of -D for a name with or without a value *)
Definition define_arg (d : str * option str) : str :=
  fst d ++ match snd d with Some v => $"=" ++ v | None => [] end.
Definition define_of (d : str * option str) : str * str :=
  (fst d, match snd d with Some v => v | None => [] end).

(** the name of an include: marked [nq:] (in any case), bracketed or quoted *)
Definition nq_marked (i f : str) : Prop := f <> [] /\ exists m, map tolower m = $"nq:" /\ i = m ++ f.
Definition enclosed (i : str) : Prop := exists f, i = $"<" ++ f ++ $">" \/ i = [dquote] ++ f ++ [dquote].

(** the words accepted by -format and -param, in any case *)
Definition format_words (f : out_format) : list str :=
  match f with
  | FmtC => [$"c"]
  | FmtCxx => [$"cxx"; $"c++"; $"cpp"]
  | FmtMinimal => [$"minimal"; $"minimal-c"]
  | FmtMinimalCxx => [$"minimal-cxx"; $"minimal-c++"; $"minimal-cpp"]
  | FmtPlugin => [$"plugin"; $"plugin-c"]
  end.
Definition param_word (m : param_mode) : str :=
  match m with PSkip => $"skip" | PCreate => $"create" | PRead => $"read" end.

(* ------------------------------------------------------------ the settings an accepted command line leaves *)

Definition files (is : list item) : list str := flat_map (fun i => match i with IFile f => [f] | _ => [] end) is.
Definition given (o : flag_opt) (is : list item) : bool := existsb (fun i => match i with IFlag _ _ => str_eqb (slot i) (flag_name o) | _ => false end) is.
Definition values (o : value_opt) (is : list item) : list str :=
  flat_map (fun i => match i with IValue _ _ _ v => if str_eqb (slot i) (value_name o) then [v] else [] | _ => [] end) is.
Definition letters (o : letter_opt) (is : list item) : list str :=
  flat_map (fun i => match i with ILetter _ _ v => if str_eqb (slot i) (letter_name o) then [v] else [] | _ => [] end) is.
(** a path prefix: one slash is added when it does not end in one *)
Definition as_directory (v : str) : str := if ends_with $"/" v then v else v ++ $"/".
(** single settings are set by the last option, lists grow in the order of the options *)
Record settings_of (s : settings) (is : list item) (t : settings) : Prop := {
  out_is : o_output t = last (values OOut is) (o_output s);
  template_is : o_template t = last (values OTemplate is) (o_template s);
  library_is : o_lib t = last (values OLibrary is) (o_lib s);
  tpath_is : o_tpath t = last (map as_directory (values OTemplatesPath is)) (o_tpath s);
  prefix_is : o_pfx t = last (values OPrefix is) (o_pfx s);
  prefixes_are : o_pfxs t = last (map set_prefix (values OPrefix is)) (o_pfxs s);
  format_is : match values OFormat is with [] => o_format t = o_format s | v :: l => In (map tolower (last l v)) (format_words (o_format t)) end;
  param_is : match values OParam is with [] => o_param t = o_param s | v :: l => map tolower (last l v) = param_word (o_param t) end;
  force_is : o_force t = o_force s || given OForce is;
  separate_is : o_separate t = o_separate s || given OSeparate is;
  ast_all_is : o_ast_all t = o_ast_all s || given OAstAll is;
  print_is : o_print t = o_print s || given OPrint is;
  options_is : o_read_options t = o_read_options s && negb (given OIgnore is);
  date_is : o_date t = o_date s && negb (given ONoDate is);
  line_is : o_line t = o_line s || given OLine is;
  pragma_is : o_pragma t = o_pragma s && negb (given ONoPragma is);
  selected_prefixes : o_prefix_list t = o_prefix_list s ++ letters OLetterP is;
  selected_symbols : o_symbol_list t = o_symbol_list s ++ letters OLetterS is;
  includes_are : o_includes t = o_includes s ++ map include_text (values OInclude is);
  defines_are : o_defines t = o_defines s ++ concat (map define_text (letters OLetterD is))
}.

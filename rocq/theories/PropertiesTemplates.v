(** Properties C47 and C75 to C77: statements.  Proofs are in ShippedFacts.v, ShippedProps.v, TablesClean.v, LoadCode.v and EndToEnd.v. *)
From Coq Require Import Ascii String List Bool Arith NArith.
From Verif Require Import Str Lex SpecLex Tokenize SpecTokenize Parse ParamNames SpecParse SpecTables Prefix SpecPrefix Substitute SpecSubstitute Options Generate SpecGenerate.
From Verif Require Import SpecTemplates Templates ClangAst Frontend SpecEndToEnd ShippedFacts ShippedProps TablesClean LoadCode EndToEnd GenerateProps6.
From Verif Require SpecClangAst ClangAstProps ClangAstSelect.
From Verif Require Import ClangAstFinal AstRun.
From Verif Require Import Format SpecFormat SubstFacts SubstFacts2 SubstProps.
Import ListNotations.

(* ------------------------------------------------------------ C75 *)

(** C75: every line of every template that comes with the program is filled in as its placeholders say, for any symbols and
    any usable prefix: a line without placeholder is written once, any other one once per symbol of its class *)
Theorem C75_every_line : forall c t e, usable_prefix (c_pfx c) -> In e (shipped t) -> ~ is_marker (e_data e) -> expands c e (expansion c (e_data e)).
Proof. exact shipped_line. Qed.
(** filling in the templates of any format succeeds and gives these texts *)
Theorem C75_filled : forall c ts, usable_prefix (c_pfx c) -> Forall clean_proto (c_funcs c) -> Forall clean_proto (c_objs c) -> c_funcs c ++ c_objs c <> [] ->
  Forall (fun t => In t source_templates) ts ->
  exists ws n, substitute c (map shipped ts) = Ok (ws, n) /\ Verif.SpecSubstitute.texts ws = filled_texts c (map shipped ts).
Proof. exact shipped_filled. Qed.
(** no placeholder is left in the output *)
Theorem C75_nothing_left : forall c ts, usable_prefix (c_pfx c) -> Forall clean_proto (c_funcs c) -> Forall clean_proto (c_objs c) ->
  Forall (fun t => In t source_templates) ts -> forall x h, In x (filled_texts c (map shipped ts)) -> ~ occurs (hole_text h) x.
Proof. exact filled_no_hole. Qed.
Example C75_example :
  let f := [mkproto KFunction $"char *" $"f" $"int x, char *y" [] $"x, y"; mkproto KFunction $"void" $"longer" $"void" [] []] in
  let c := mkcfg false PRead (set_prefix $"foo") f [] in
  expansion c $"#define GDO_RAWPTR_%%func_symbol_pad%% gdo_hndl.GDO_PTR_%%func_symbol%%" =
    [$"#define FOO_RAWPTR_f      foo_hndl.FOO_PTR_f"; $"#define FOO_RAWPTR_longer foo_hndl.FOO_PTR_longer"] /\
  expansion c $"    %%type%% (*GDO_PTR_%%func_symbol%%)(%%args%%);" = [$"    char *(*FOO_PTR_f)(int x, char *y);"; $"    void (*FOO_PTR_longer)(void);"] /\
  expansion c $"    %%obj_type%% *GDO_PTR_%%obj_symbol%%;" = [] /\
  existsb (fun e => str_eqb (e_data e) $"    %%type%% (*GDO_PTR_%%func_symbol%%)(%%args%%);") (shipped TCH) = true /\
  usable_prefix (c_pfx c) /\ Forall clean_proto f.
Proof.
  cbv zeta. split; [reflexivity|]. split; [reflexivity|]. split; [reflexivity|]. split; [vm_compute; reflexivity|].
  split; [right; exists $"foo"; split; [discriminate|split; reflexivity]|].
  repeat constructor; try discriminate; intros K; repeat (destruct K as [K|K]; [discriminate K|]); exact K.
Qed.

(* ------------------------------------------------------------ C76 *)

(** C76: whatever text is read, the tables hold only names, types and parameters made of the characters of declarations, each
    symbol once, and are not empty.  Missing from the full claim: input in the form of a Clang AST dump, see below. *)
Theorem C76_tables_plain_partial : forall s input text s' y vec opts, tokenize_stream (o_read_options s) (lex_all text) = TS_eof vec opts ->
  (forall p, In p [s; s'] -> ident_text (m_pfx_lower (o_pfxs p))) -> read_input s input text = Ok (s', y) ->
  Forall plain_proto (s_funcs y ++ s_objs y) /\ s_funcs y ++ s_objs y <> [] /\ NoDup (map p_symbol (s_funcs y ++ s_objs y)).
Proof. exact input_plain. Qed.
(** a Clang AST dump, if the types in it are ordinary: types are taken from the quoted text as they are *)
Theorem C76_ast_partial : forall s input its text s' y, SpecClangAst.dump its text -> Forall SpecClangAst.spelled_out its -> Forall plain_item its ->
  ident_text (m_pfx_lower (o_pfxs s)) -> read_input s input text = Ok (s', y) ->
  Forall plain_proto (s_funcs y ++ s_objs y) /\ s_funcs y ++ s_objs y <> [].
Proof. exact ast_plain. Qed.
(** full C76 is false of the code: the type text of an unnamed structure holds the path of the header, which may hold a
    placeholder (for repeated symbols see C67) *)
Theorem C76_ast_refuted : exists its s' y, SpecClangAst.dump its (ClangAstSelect.dump_text its) /\ Forall SpecClangAst.spelled_out its /\
  read_input (set_ast_all true defaults) $"a" (ClangAstSelect.dump_text its) = Ok (s', y) /\ ~ Forall plain_proto (s_funcs y ++ s_objs y).
Proof. exact ast_not_plain. Qed.
Example C76_example :
  let text := $"int f(char *a[3], ...); extern double d; // %%symbol%%
" in
  match tokenize_stream false (lex_all text) with TS_eof _ _ => True | _ => False end /\
  match read_input defaults $"x.h" text with
  | Ok (_, y) => map (fun e => (p_type e, p_symbol e, p_args e)) (s_funcs y ++ s_objs y) = [($"int", $"f", $"char *a[3], ..."); ($"double", $"d", [])]
  | _ => False
  end.
Proof. vm_compute. repeat split. Qed.

(* ------------------------------------------------------------ C77 *)

(** C77: with the templates of the program, any usable prefix and any plain symbols, a file is generated, and this is its text;
    one file, *)
Theorem C77_one_file : forall e s f o defs tdefs i fs out, ordinary_run e s -> Forall plain_proto (f ++ o) -> f ++ o <> [] -> all_defines s f o = Ok defs ->
  separate s = false -> to_stdout s = false -> o_output s <> [] -> creatable e s fs (o_output s) ->
  exists w' t, run e s f o tdefs i (started fs out) = (w', Ret tt) /\ w_fs w' (o_output s) = Some (Regular t) /\ header_of e s f o defs tdefs t /\
    same_except [o_output s] fs (w_fs w') /\ w_out w' = out.
Proof. exact generates_single. Qed.
(** header and body, *)
Theorem C77_two_files : forall e s f o defs tdefs i fs out, ordinary_run e s -> Forall plain_proto (f ++ o) -> f ++ o <> [] -> all_defines s f o = Ok defs ->
  separate s = true -> creatable e s fs (header_path s) -> creatable e s fs (body_path s) ->
  exists w' t t', run e s f o tdefs i (started fs out) = (w', Ret tt) /\
    w_fs w' (header_path s) = Some (Regular t) /\ header_of e s f o defs tdefs t /\
    w_fs w' (body_path s) = Some (Regular t') /\ body_of e s f o t' /\
    same_except [header_path s; body_path s] fs (w_fs w') /\ w_out w' = out.
Proof. exact generates_two. Qed.
(** or standard output *)
Theorem C77_standard_output : forall e s f o defs tdefs i fs out, ordinary_run e s -> Forall plain_proto (f ++ o) -> f ++ o <> [] -> all_defines s f o = Ok defs ->
  to_stdout s = true ->
  exists w' t, run e s f o tdefs i (started fs out) = (w', Ret tt) /\ w_fs w' = fs /\ w_out w' = out ++ t /\ header_of e s f o defs tdefs t.
Proof. exact generates_stdout. Qed.
(** the macros in front can always be made, if those for the library name can *)
Theorem C77_macros : forall s f o, (o_lib s = [] \/ exists x, format_libname (o_lib s) (m_pfx_upper (o_pfxs s)) = Ok x) -> exists defs, all_defines s f o = Ok defs.
Proof. exact defines_exist. Qed.

Definition shipped_env : env := mkenv shipped (fun _ => true) (fun _ => true) (fun _ => true) (fun _ => true) None.
Example C77_example :
  let s := demo_set $"d/x" false true true [] [] in
  ordinary_run shipped_env s /\ Forall plain_proto (demo_funcs ++ []) /\ separate s = true /\
  all_defines s demo_funcs [] = Ok ($"#define FOO_SEPARATE" ++ [nl] ++ $"#define FOO_COMMON_PREFIX " ++ [dquote; dquote; nl]) /\
  creatable shipped_env s (fun _ => None) (header_path s) /\ creatable shipped_env s (fun _ => None) (body_path s).
Proof.
  cbv zeta. split; [split; [reflexivity|repeat (split; [reflexivity|]); right; exists $"foo"; split; [discriminate|split; reflexivity]]|].
  split; [repeat (apply Forall_cons; [split; [|split; [|split; [|split; [|discriminate]]]]; repeat constructor|]); constructor|].
  split; [reflexivity|]. split; [vm_compute; reflexivity|]. split; (split; [reflexivity|left; reflexivity]).
Qed.

(* ------------------------------------------------------------ C47 *)

(** C47: a header whose declarations are simple is read without error, and its tables hold exactly the declared names that are
    asked for (all of them if there are no -P and -S options), in order *)
Theorem C47_tables : forall s input text ds, header_with ds text -> NoDup (map decl_name ds) -> Forall (simple_decl (o_param s)) ds ->
  (forall n, In n (o_symbol_list s) -> In n (declared_names ds)) -> asked_for (o_prefix_list s) (o_symbol_list s) (declared_names ds) <> [] ->
  exists y vec opts, tokenize_stream (o_read_options s) (lex_all text) = TS_eof vec opts /\ read_input s input text = Ok (s, y) /\
    map p_symbol (s_funcs y) = asked_for (o_prefix_list s) (o_symbol_list s) (function_names ds) /\
    map p_symbol (s_objs y) = asked_for (o_prefix_list s) (o_symbol_list s) (object_names ds).
Proof. exact read_simple. Qed.
(** the templates look up each symbol of the tables, by its name, and nothing else, at every place that loads symbols *)
Theorem C47_lookups : forall s f o, loader_code s f o (filled_texts (config_of s f o) (map shipped (loader_templates s))).
Proof. exact shipped_loader. Qed.
(** the whole program: the loader it writes looks up exactly the declared names that are asked for *)
Theorem C47_program : forall e help argv stdin fs out g input text ds,
  parse_cmdline argv defaults = Ok (Done g) -> g_input g = Some input -> input_is e fs stdin input text ->
  ordinary_run e (g_set g) -> (o_lib (g_set g) = [] \/ exists x, format_libname (o_lib (g_set g)) (m_pfx_upper (o_pfxs (g_set g))) = Ok x) -> can_write e (g_set g) fs ->
  header_with ds text -> NoDup (map decl_name ds) -> Forall (simple_decl (o_param (g_set g))) ds ->
  (forall n, In n (o_symbol_list (g_set g)) -> In n (declared_names ds)) ->
  asked_for (o_prefix_list (g_set g)) (o_symbol_list (g_set g)) (declared_names ds) <> [] ->
  exists w' f o, program e help argv stdin (started fs out) = (w', Ret tt) /\ holds_loader (g_set g) out w' f o /\
    map p_symbol f = asked_for (o_prefix_list (g_set g)) (o_symbol_list (g_set g)) (function_names ds) /\
    map p_symbol o = asked_for (o_prefix_list (g_set g)) (o_symbol_list (g_set g)) (object_names ds).
Proof. exact program_loads. Qed.
(** the same for a Clang AST dump: the declarations chosen by -ast-all, -P and -S *)
Theorem C47_ast_program : forall e help argv stdin fs out g input text its,
  parse_cmdline argv defaults = Ok (Done g) -> g_input g = Some input -> input_is e fs stdin input text ->
  ordinary_run e (g_set g) -> (o_lib (g_set g) = [] \/ exists x, format_libname (o_lib (g_set g)) (m_pfx_upper (o_pfxs (g_set g))) = Ok x) -> can_write e (g_set g) fs ->
  SpecClangAst.dump its text -> Forall SpecClangAst.spelled_out its -> Forall SpecClangAst.typedef_ok its -> Forall plain_item its ->
  (o_ast_all (g_set g) = true \/
   SpecClangAst.undeclared (o_symbol_list (g_set g)) its = [] /\ SpecClangAst.no_overlap (o_prefix_list (g_set g)) (o_symbol_list (g_set g)) its) ->
  SpecClangAst.chosen (o_ast_all (g_set g)) (o_prefix_list (g_set g)) (o_symbol_list (g_set g)) [] its <> [] ->
  exists w' f o, program e help argv stdin (started fs out) = (w', Ret tt) /\ holds_loader (g_set g) out w' f o /\
    let names k := map SpecClangAst.item_name (filter (fun i => Bool.eqb (SpecClangAst.is_func i) k)
                     (SpecClangAst.chosen (o_ast_all (g_set g)) (o_prefix_list (g_set g)) (o_symbol_list (g_set g)) [] its)) in
    map p_symbol f = names true /\ map p_symbol o = names false.
Proof. exact ast_program. Qed.
(** any input text that is read, also one that is not well-formed and one that sets options itself: the loader looks up the
    names of the tables *)
Theorem C47_any_input : forall e help argv stdin fs out g input text s y,
  parse_cmdline argv defaults = Ok (Done g) -> g_input g = Some input -> input_is e fs stdin input text -> o_template (g_set g) = [] ->
  read_input (g_set g) input text = Ok (s, y) -> Forall plain_proto (s_funcs y ++ s_objs y) -> s_funcs y ++ s_objs y <> [] ->
  ordinary_run e s -> (o_lib s = [] \/ exists x, format_libname (o_lib s) (m_pfx_upper (o_pfxs s)) = Ok x) -> can_write e s fs ->
  exists w', program e help argv stdin (started fs out) = (w', Ret tt) /\ holds_loader s out w' (s_funcs y) (s_objs y).
Proof. exact program_writes. Qed.

Example C47_example :
  let argv := [$"gendlopen"; $"-format=minimal"; $"-prefix=foo"; $"-"; $"-out=-"] in
  let text := $"struct s { int a; }; /* two symbols */
extern int f(int a);
#define X 1
double d;
" in
  let ds := [DFunction [$"int"] $"f" [$"int"; $"a"]; DObject [$"double"] $"d"] in
  match parse_cmdline argv defaults with
  | Ok (Done g) => g_input g = Some $"-" /\ ordinary_run shipped_env (g_set g) /\ o_lib (g_set g) = [] /\ asked_for (o_prefix_list (g_set g)) (o_symbol_list (g_set g)) (declared_names ds) = [$"f"; $"d"] /\
      o_line (g_set g) = false /\ can_write shipped_env (g_set g) (fun _ => None) /\ Forall (simple_decl (o_param (g_set g))) ds /\
      (let '(w, r) := program shipped_env (fun _ => []) argv text (started (fun _ => None) []) in r = Ret tt /\
       find $"
    /* f */
    foo_hndl.FOO_PTR_f =
        (int (*)(int a))
            _FOO_LOAD_SYM(""f"");
    if (!foo_hndl.FOO_PTR_f) {
        foo_free_library();
        return ""failed to load symbol: f"";
    }

    /* d */
    foo_hndl.FOO_PTR_d =
        (double *)
            _FOO_LOAD_SYM(""d"");
    if (!foo_hndl.FOO_PTR_d) {
        foo_free_library();
        return ""failed to load symbol: d"";
    }
" (w_out w) <> None)
  | _ => False
  end.
Proof.
  cbv zeta. destruct (parse_cmdline _ defaults) as [[g|]| | |] eqn:E; vm_compute in E; try discriminate E. injection E as <-.
  split; [reflexivity|]. split; [split; [reflexivity|repeat (split; [reflexivity|]); right; exists $"foo"; split; [discriminate|split; reflexivity]]|].
  repeat (split; [reflexivity|]). split.
  2:{ vm_compute. split; [reflexivity|discriminate]. }
  repeat apply Forall_cons; [..|apply Forall_nil].
  - split; [split; repeat constructor; discriminate|]. split; [intros []|]. split.
    + intros a b K. cbn [written app] in K. repeat (destruct a as [|? a]; [discriminate K|try discriminate K; injection K as _ K]).
    + exists [[$"int"; $"a"]]. split; [reflexivity|]. split; [|split; [constructor|split; [right; discriminate|]]].
      * repeat constructor. intros a b K. repeat (destruct a as [|? a]; [discriminate K|try discriminate K; injection K as _ K]).
      * right; right. exists [Some $"a"]. repeat constructor. exists (DObject [$"int"] $"a"). repeat split; repeat constructor; discriminate.
  - split; [split; repeat constructor; discriminate|]. split; [intros []|]. split.
    + intros a b K. cbn [written app] in K. repeat (destruct a as [|? a]; [discriminate K|try discriminate K; injection K as _ K]).
    + exists []. repeat constructor.
Qed.
Example C47_example_header :
  header_with [DFunction [$"int"] $"f" [$"int"; $"a"]; DObject [$"double"] $"d"] $"struct s { int a; }; /* two symbols */
extern int f(int a);
#define X 1
double d;
".
Proof. exact example_header. Qed.

(** with filters and -line, from a Clang AST dump *)
Example C47_ast_example :
  let argv := [$"gendlopen"; $"-format=C"; $"-prefix=foo"; $"-P"; $"foo_"; $"-S"; $"bar"; $"-line"; $"-"; $"-out=-"] in
  let its := [SpecClangAst.IFunc $"foo_open" $"int (const char *)" [$"const char *"]; SpecClangAst.IVar $"other" $"int"; SpecClangAst.IVar $"bar" $"char[10]"] in
  match parse_cmdline argv defaults with
  | Ok (Done g) => g_input g = Some $"-" /\ ordinary_run shipped_env (g_set g) /\ o_lib (g_set g) = [] /\ can_write shipped_env (g_set g) (fun _ => None) /\ o_line (g_set g) = true /\
      SpecClangAst.dump its (ClangAstSelect.dump_text its) /\ Forall SpecClangAst.spelled_out its /\ Forall SpecClangAst.typedef_ok its /\ Forall plain_item its /\
      SpecClangAst.undeclared (o_symbol_list (g_set g)) its = [] /\ SpecClangAst.no_overlap (o_prefix_list (g_set g)) (o_symbol_list (g_set g)) its /\
      map SpecClangAst.item_name (SpecClangAst.chosen (o_ast_all (g_set g)) (o_prefix_list (g_set g)) (o_symbol_list (g_set g)) [] its) = [$"foo_open"; $"bar"]
  | _ => False
  end.
Proof.
  cbv zeta. destruct (parse_cmdline _ defaults) as [[g|]| | |] eqn:E; vm_compute in E; try discriminate E. injection E as <-.
  split; [reflexivity|]. split; [split; [reflexivity|repeat (split; [reflexivity|]); right; exists $"foo"; split; [discriminate|split; reflexivity]]|].
  repeat (split; [reflexivity|]). split; [dump_ok|]. split; [spelled|]. split; [repeat constructor; apply typedef_ok_b; reflexivity|].
  split; [repeat constructor|]. split; [reflexivity|]. split; [apply no_overlap_b; reflexivity|reflexivity].
Qed.

Print Assumptions C75_every_line.
Print Assumptions C75_filled.
Print Assumptions C75_nothing_left.
Print Assumptions C76_tables_plain_partial.
Print Assumptions C76_ast_partial.
Print Assumptions C76_ast_refuted.
Print Assumptions C77_one_file.
Print Assumptions C77_two_files.
Print Assumptions C77_standard_output.
Print Assumptions C77_macros.
Print Assumptions C47_tables.
Print Assumptions C47_lookups.
Print Assumptions C47_program.
Print Assumptions C47_ast_program.
Print Assumptions C47_any_input.

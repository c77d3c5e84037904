(** Property C86: statements.  Proofs are in PrintLex.v, PrintText.v, PrintRun.v and PrintFinal.v. *)
From Coq Require Import Ascii String List Bool Arith NArith.
From Verif Require Import Str Lex SpecLex Tokenize SpecTokenize Parse ParamNames SpecParse SpecTables Format SpecFormat Prefix SpecPrefix Options Generate SpecGenerate.
From Verif Require Import SpecTemplates Templates ClangAst Frontend SpecEndToEnd ShippedFacts EndToEnd SpecSymbols PrintRun PrintFinal PropertiesTemplates.
Import ListNotations.

(** C86: with -print-symbols the program prints a header that declares the symbols asked for, objects first, and ends with their
    number; no file is written.  When the program reads what it printed, with the same options, it prints the same again, without
    the type definitions in front: there are none unless an array or a function pointer was declared. *)
Theorem C86_printed : forall e help argv stdin fs out g input text ds,
  parse_cmdline argv defaults = Ok (Done g) -> g_input g = Some input -> input_is e fs stdin input text ->
  o_print (g_set g) = true -> o_template (g_set g) = [] -> o_param (g_set g) <> PCreate -> usable_prefix (o_pfxs (g_set g)) ->
  header_with ds text -> NoDup (map decl_name ds) -> Forall (simple_decl (o_param (g_set g))) ds ->
  (forall n, In n (o_symbol_list (g_set g)) -> In n (declared_names ds)) ->
  asked_for (o_prefix_list (g_set g)) (o_symbol_list (g_set g)) (declared_names ds) <> [] ->
  exists w' front back,
    program e help argv stdin (started fs out) = (w', Ret tt) /\ w_fs w' = fs /\ w_out w' = out ++ front ++ back /\
    header_with (printed_decls (g_set g) ds) (front ++ back) /\
    (exists p, back = p ++ match_count (length (printed_decls (g_set g) ds))) /\
    (front = [] \/ exists d, In d ds /\ reprinted (m_pfx_lower (o_pfxs (g_set g))) d <> d /\ is_function_decl d = false) /\
    (forall fs' stdin' out', input_is e fs' stdin' input (front ++ back) ->
      exists w'', program e help argv stdin' (started fs' out') = (w'', Ret tt) /\ w_fs w'' = fs' /\ w_out w'' = out' ++ back).
Proof. exact program_prints. Qed.

(** C86: the symbols read from the printed text are the symbols that were printed: the functions are the same to the letter, and
    the objects are the same except that their types are names now. *)
Theorem C86_reread : forall s ds, NoDup (map decl_name ds) -> Forall (simple_decl (o_param s)) ds ->
  (forall n, In n (o_symbol_list s) -> In n (declared_names ds)) -> asked_for (o_prefix_list s) (o_symbol_list s) (declared_names ds) <> [] ->
  forall input text y, header_with ds text -> o_param s <> PCreate -> ident_text (m_pfx_lower (o_pfxs s)) -> read_input s input text = Ok (s, y) ->
  header_with (printed_decls s ds) (symbols_text (s_funcs y) (s_objs y) (s_typedefs y)) /\
  length (s_objs y) + length (s_funcs y) = length (printed_decls s ds) /\
  exists y', read_input s input (symbols_text (s_funcs y) (s_objs y) (s_typedefs y)) = Ok (s, y') /\
    s_funcs y' = s_funcs y /\ s_objs y' = map plain_object (s_objs y) /\ s_typedefs y' = [].
Proof. exact read_again. Qed.

(** a run to which the theorems apply (see C47_example_header for the header) *)
Example C86_example :
  let argv := [$"gendlopen"; $"-print-symbols"; $"-prefix=foo"; $"-"; $"-out=-"] in
  let text := $"struct s { int a; }; /* two symbols */
extern int f(int a);
#define X 1
double d;
" in
  let ds := [DFunction [$"int"] $"f" [$"int"; $"a"]; DObject [$"double"] $"d"] in
  match parse_cmdline argv defaults with
  | Ok (Done g) => g_input g = Some $"-" /\ o_print (g_set g) = true /\ o_template (g_set g) = [] /\ o_param (g_set g) <> PCreate /\ usable_prefix (o_pfxs (g_set g)) /\
      header_with ds text /\ asked_for (o_prefix_list (g_set g)) (o_symbol_list (g_set g)) (declared_names ds) = [$"f"; $"d"] /\ Forall (simple_decl (o_param (g_set g))) ds /\
      w_out (fst (program shipped_env (fun _ => []) argv text (started (fun _ => None) []))) = $"/* prototypes */
double d;
int f(int a);

/***  2 matches  ***/
"
  | _ => False
  end.
Proof.
  cbv zeta. destruct (parse_cmdline _ defaults) as [[g|]| | |] eqn:E; vm_compute in E; try discriminate E. injection E as <-.
  split; [reflexivity|]. split; [reflexivity|]. split; [reflexivity|]. split; [discriminate|]. split; [right; exists $"foo"; split; [discriminate|split; reflexivity]|].
  split; [exact example_header|]. split; [reflexivity|]. split; [|vm_compute; reflexivity].
  repeat apply Forall_cons; [..|apply Forall_nil].
  - split; [split; repeat constructor; discriminate|]. split; [intros []|]. split.
    + intros a b K. cbn [written app] in K. repeat (destruct a as [|? a]; [discriminate K|try discriminate K; injection K as _ K]).
    + exists [[$"int"; $"a"]]. split; [reflexivity|]. split; [|split; [constructor|split; [right; discriminate|]]].
      * repeat constructor. intros a b K. repeat (destruct a as [|? a]; [discriminate K|try discriminate K; injection K as _ K]).
      * right; right. exists [Some $"a"]. repeat constructor. exists (DObject [$"int"] $"a"). repeat split; repeat constructor; discriminate.
  - split; [split; repeat constructor; discriminate|]. split; [intros []|]. split.
    + intros a b K. cbn [written app] in K. repeat (destruct a as [|? a]; [discriminate K|try discriminate K; injection K as _ K]).
    + exists []. repeat constructor.
Qed.
(** what is printed for an array and a function pointer, and what is printed when that is read *)
Example C86_example_types :
  let argv := [$"gendlopen"; $"-print-symbols"; $"-prefix=foo"; $"-"; $"-out=-"] in
  let once := w_out (fst (program shipped_env (fun _ => []) argv $"char *(name)(void); int tab[3][2]; void (*hook)(int);" (started (fun _ => None) []))) in
  once = $"/* typedefs */
typedef int foo_tab__t[3][2];
typedef void (*foo_hook__t)(int);

/* prototypes */
foo_tab__t tab;
foo_hook__t hook;
char *name(void);

/***  3 matches  ***/
" /\
  w_out (fst (program shipped_env (fun _ => []) argv once (started (fun _ => None) []))) = $"/* prototypes */
foo_tab__t tab;
foo_hook__t hook;
char *name(void);

/***  3 matches  ***/
".
Proof. vm_compute. split; reflexivity. Qed.

Print Assumptions C86_printed.
Print Assumptions C86_reread.

(** Properties of the text of the generated files: C84, C85. *)
From Coq Require Import Ascii String List Bool Arith.
From Verif Require Import Str Parse ParamNames Format Prefix SpecPrefix Substitute SpecSubstitute Options Generate SpecGenerate SpecTemplates SpecEndToEnd SpecMacros MacrosProps SpecParse SpecTables Templates
  Frontend ClangAst SpecCText SpecCFiles CTextFile CTextTables CTextRun PropertiesTemplates.
Import ListNotations.

(* ------------------------------------------------------------ C84 *)

(** C84: the macros defined in front of the code are those of the -D options, PREFIX_SEPARATE for two files only, those for the
    library's name, PREFIX_COMMON_PREFIX with a text that begins every name (the longest, see C27), and PREFIX_HAS_VA_ARGS_name
    for exactly the functions whose parameters end in an ellipsis *)
Theorem C84_macros : forall s f o defs, all_defines s f o = Ok defs ->
  exists lib pre, (if match o_lib s with [] => true | _ => false end then lib = [] else format_libname (o_lib s) (m_pfx_upper (o_pfxs s)) = Ok lib) /\
    begins_all pre (map p_symbol (f ++ o)) /\ get_common_prefix (map p_symbol f) (map p_symbol o) = Ok pre /\
    defs = o_defines s ++
      macro_lines (m_pfx_upper (o_pfxs s)) (if separate s then [($"SEPARATE", [])] else []) ++ lib ++
      macro_lines (m_pfx_upper (o_pfxs s)) (($"COMMON_PREFIX", quoted pre) :: variadic_macros (map (fun e => (p_symbol e, ends_with $"..." (p_args e))) f)).
Proof. exact defines_all. Qed.

Example C84_example :
  let f := [mkproto KFunction $"int" $"av_log" $"const char * a, ..." [] $"a"; mkproto KFunction $"void" $"av_free" $"void *p" [] $"p"] in
  let s := mkset $"x" FmtC PRead [] $"nq:LIB" false true false false true true false true [] [] [] $"#define A 1
" $"gdo" (mkpfx $"GDO" $"gdo" [] [] []) [] in
  match all_defines s f [] with
  | Ok d => has $"#define A 1
#define GDO_SEPARATE
" d = true /\ has ($"#define GDO_COMMON_PREFIX ""av_""
#define GDO_HAS_VA_ARGS_av_log 1
") d = true /\ has $"HAS_VA_ARGS_av_free" d = false
  | _ => False
  end.
Proof. vm_compute. repeat split. Qed.
Print Assumptions C84_macros.

(* ------------------------------------------------------------ C85 *)

(** C85: in the generated header every comment, string literal, conditional and bracket is closed, for a C compiler and for a C++
    compiler, whatever macros are defined; so it can be included anywhere between two declarations *)
Theorem C85_header : forall e s f o defs tdefs t, usable_prefix (o_pfxs s) -> closed_settings e s -> Forall plain_proto (f ++ o) -> Forall matched_proto (f ++ o) ->
  f ++ o <> [] -> all_defines s f o = Ok defs -> Forall (fun d => declaration_text d /\ matched d) tdefs -> header_of e s f o defs tdefs t -> all_closed t.
Proof. intros e s f o defs tdefs t P C PF PM N A T H cxx. exact (header_closed cxx e s f o defs tdefs t P (settings_fine e s f o defs tdefs P C PF PM N A T cxx) H). Qed.
(** the same for the body *)
Theorem C85_body : forall e s f o defs tdefs t, usable_prefix (o_pfxs s) -> closed_settings e s -> Forall plain_proto (f ++ o) -> Forall matched_proto (f ++ o) ->
  f ++ o <> [] -> all_defines s f o = Ok defs -> Forall (fun d => declaration_text d /\ matched d) tdefs -> body_of e s f o t -> all_closed t.
Proof. intros e s f o defs tdefs t P C PF PM N A T H cxx. exact (body_closed cxx e s f o defs tdefs t P (settings_fine e s f o defs tdefs P C PF PM N A T cxx) H). Qed.
(** the symbols and typedefs read from a header have matching brackets, if the declarations in it have *)
Theorem C85_tables : forall s input text ds, header_with ds text -> NoDup (map decl_name ds) -> Forall (simple_decl (o_param s)) ds -> Forall matched_decl ds ->
  ident_text (m_pfx_lower (o_pfxs s)) -> (forall n, In n (o_symbol_list s) -> In n (declared_names ds)) -> asked_for (o_prefix_list s) (o_symbol_list s) (declared_names ds) <> [] ->
  exists y, read_input s input text = Ok (s, y) /\ Forall plain_proto (s_funcs y ++ s_objs y) /\ s_funcs y ++ s_objs y <> [] /\ Forall matched_proto (s_funcs y ++ s_objs y) /\
    Forall (fun t => declaration_text t /\ matched t) (s_typedefs y).
Proof. exact read_matched. Qed.
(** the whole program *)
Theorem C85_program : forall e help argv stdin fs out g input text ds,
  parse_cmdline argv defaults = Ok (Done g) -> g_input g = Some input -> input_is e fs stdin input text ->
  ordinary_run e (g_set g) -> (o_lib (g_set g) = [] \/ exists x, format_libname (o_lib (g_set g)) (m_pfx_upper (o_pfxs (g_set g))) = Ok x) -> can_write e (g_set g) fs ->
  header_with ds text -> NoDup (map decl_name ds) -> Forall (simple_decl (o_param (g_set g))) ds ->
  (forall n, In n (o_symbol_list (g_set g)) -> In n (declared_names ds)) ->
  asked_for (o_prefix_list (g_set g)) (o_symbol_list (g_set g)) (declared_names ds) <> [] ->
  Forall matched_decl ds -> closed_settings e (g_set g) ->
  exists w', program e help argv stdin (started fs out) = (w', Ret tt) /\ writes_closed (g_set g) out w'.
Proof. exact header_run_closed. Qed.

(** what the reader accepts and what it does not *)
Example C85_reader :
  let text := $"#ifdef A /* ( */
int f(char *a[3]); // {
#define X(a) do { a; } while(0)
#elif defined(B)
#define S ""a\"" b""
#else
#error ""no""
#endif
" in
  closed false text /\ closed true text /\
  Forall (fun t => ~ closed false t) [$"int f(int a;
"; $"#ifdef A
"; $"#endif
"; $"/* open
"; $"char *s = ""abc;
"; $"int x; // no end of line"; $"#if A
{
#endif
"; $"#define X (
"; $"#else
"; $"int f[3);
"] /\
  let brace := $"{
#ifdef __cplusplus
}
#endif
" in closed true brace /\ ~ closed false brace.
Proof.
  cbv zeta. split; [vm_compute; reflexivity|]. split; [vm_compute; reflexivity|]. split; [repeat (constructor; [vm_compute; discriminate|]); constructor|].
  split; vm_compute; [reflexivity|discriminate].
Qed.
(** a run to which the theorems apply *)
Example C85_example :
  let argv := [$"gendlopen"; $"-format=c"; $"-prefix=foo"; $"-D"; $"A=1"; $"-include=a.h"; $"-library=ext:libz"; $"-"; $"-out=-"] in
  let text := $"int f(int a[3], void (*cb)(char *));
double d[4];
" in
  let ds := [DFunction [$"int"] $"f" [$"int"; $"a"; $"["; $"3"; $"]"; $","; $"void"; $"("; $"*"; $"cb"; $")"; $"("; $"char"; $"*"; $")"]; DArray [$"double"] $"d" [$"4"]] in
  match parse_cmdline argv defaults with
  | Ok (Done g) => closed_settings shipped_env (g_set g) /\ ordinary_run shipped_env (g_set g) /\ Forall matched_decl ds /\ to_stdout (g_set g) = true /\
      (let '(w, r) := program shipped_env (fun _ => []) argv text (started (fun _ => None) []) in r = Ret tt /\ Nat.ltb 3000 (length (w_out w)) = true /\ all_closed (w_out w))
  | _ => False
  end.
Proof.
  cbv zeta. match goal with |- match ?p with _ => _ end => let r := eval vm_compute in p in replace p with r by (vm_compute; reflexivity) end. cbn [g_set].
  split; [|split; [split; [reflexivity|repeat (split; [reflexivity|]); right; exists $"foo"; split; [discriminate|split; reflexivity]]|]].
  - split; [intros []; vm_compute; reflexivity|]. split; [intros i [<- |[]] []; vm_compute; reflexivity|].
    split; [split; [split; [repeat constructor; discriminate|cbn; intuition discriminate]|]|split; [split; [repeat constructor; discriminate|cbn; intuition discriminate]|discriminate]].
    intros m x [<- |[<- |[]]] M; [destruct (GenerateFacts.moded_test $"nq:" _ x M eq_refl) as (E & _)|destruct (GenerateFacts.moded_test $"api:" _ x M eq_refl) as (E & _)]; discriminate E.
  - split; [repeat constructor|]. split; [reflexivity|]. destruct (program _ _ _ _ _) as (w, r) eqn:E.
    assert (B : (let '(w, r) := program shipped_env (fun _ => []) [$"gendlopen"; $"-format=c"; $"-prefix=foo"; $"-D"; $"A=1"; $"-include=a.h"; $"-library=ext:libz"; $"-"; $"-out=-"] $"int f(int a[3], void (*cb)(char *));
double d[4];
" (started (fun _ => None) []) in
      match r with Ret _ => Nat.ltb 3000 (length (w_out w)) && reads_closed true (w_out w) && reads_closed false (w_out w) | _ => false end) = true) by (vm_compute; reflexivity).
    rewrite E in B. destruct r as [[]| | | |]; try discriminate B. apply andb_true_iff in B as (B & B3). apply andb_true_iff in B as (B1 & B2).
    split; [reflexivity|]. split; [exact B1|]. intros []; now apply reads_closed_closed.
Qed.


Print Assumptions C85_header.
Print Assumptions C85_body.
Print Assumptions C85_tables.
Print Assumptions C85_program.

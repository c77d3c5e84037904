(** C93 to C96: the header for C: the handle, the wrappers, what the names of the library's functions stand for, and the whole library in
    one file.  Model: Templates.v, Substitute.v, CRuntime.v; specification: SpecCLang.v, SpecCMacro.v, SpecCProg.v, SpecCRun.v, SpecBody.v,
    SpecHeader.v; proofs: HTemplate.v to HSingle.v. *)
From Coq Require Import Ascii String List Bool Arith ZArith.
From Verif Require Import Str Parse ParamNames Prefix Substitute Data Generate SpecPrefix SpecSubstitute Templates SpecTemplates CRuntime
  SpecCRuntime SpecCLang SpecCProg SpecCRun SpecCMacro SpecBody SpecHeader CRuntimeProps2 HWrapper HSingle.
From Verif Require Options SpecGenerate.
Import ListNotations.

(* ------------------------------------------------------------ C93 *)

(** C93: the header declares, in this order, one number per symbol and a handle with one pointer per symbol that has the symbol's type *)
Theorem C93_handle : forall c cfg, usable c cfg -> exists pre post, preprocess cfg (header_text c) = Some (pre ++ map PTok (handle_text c) ++ post).
Proof. exact handle_there. Qed.
(** C93: behind the header the pointers have their names, and _T does nothing *)
Theorem C93_pointers : forall c cfg, usable c cfg -> own_names c ->
  exists out, preprocess cfg (header_text c) = Some out /\ (forall n, In n (symbol_names c) -> becomes (macros_of out) [TWord ($"GDO_RAWPTR_" ++ n)] (pointer n)) /\
    (~ In $"_T" (symbol_names c) -> macro_at (macros_of out) $"_T" = Some (mkdef (Some ([$"x"], false)) [wd "x"])).
Proof. exact header_pointers. Qed.

(** a function with a parameter, one without, and a variable *)
Definition demo_config : config :=
  mkcfg false PRead (set_prefix $"gdo") [mkproto KFunction $"int" $"foo_one" $"int a" [[$"int"; $"a"]] $"a"; mkproto KFunction $"void" $"foo_two" $"void" [] []]
    [mkproto KObject $"int" $"foo_var" [] [] []].
Definition set_macros (l : list string) (x : str) : bool := existsb (fun s => str_eqb x $s) l.
Lemma demo_usable l : (forall s, In s l -> In s ["__linux__"; "__GLIBC__"; "GDO_WRAP_FUNCTIONS"; "GDO_WRAP_VISIBILITY"; "GDO_SEPARATE"; "GDO_ENABLE_AUTOLOAD_LAZY"; "GDO_DEFAULT_LIB"]%string) ->
  usable demo_config (set_macros l).
Proof.
  intro L. assert (N : forall x, (forall s, In s ["__linux__"; "__GLIBC__"; "GDO_WRAP_FUNCTIONS"; "GDO_WRAP_VISIBILITY"; "GDO_SEPARATE"; "GDO_ENABLE_AUTOLOAD_LAZY"; "GDO_DEFAULT_LIB"]%string ->
      str_eqb x $s = false) -> set_macros l x = false).
  { intros x H. unfold set_macros. apply not_true_is_false. intro E. apply existsb_exists in E as (s & Is & E). rewrite H in E by now apply L. discriminate. }
  split.
  - reflexivity.
  - split; reflexivity.
  - split; repeat (apply Forall_cons; [split; [|split; [|split; [|split; [|discriminate]]]]; repeat constructor|]); constructor.
  - repeat constructor; cbn; intuition discriminate.
  - intros e [<-|[<-|[]]]; split; apply N; intros s Is; cbn [In] in Is; decompose [or] Is; subst; try contradiction; reflexivity.
  - intros x [<-|[<-|[<-|[<-|[<-|[]]]]]]; apply N; intros s Is; cbn [In] in Is; decompose [or] Is; subst; try contradiction; reflexivity.
Qed.
Lemma demo_own : own_names demo_config.
Proof. intros n [<-|[<-|[<-|[]]]]; split; reflexivity. Qed.
Example C93_example : usable demo_config (set_macros ["__linux__"]%string) /\ own_names demo_config /\ ~ In $"_T" (symbol_names demo_config) /\
  skipn 2 (firstn 14 (handle_text demo_config)) =
    [wd "GDO_LOAD_foo_one"; pn ","; wd "GDO_LOAD_foo_two"; pn ","; wd "GDO_LOAD_foo_var"; pn ","; wd "GDO_ENUM_LAST"; pn "}"; pn ";"; wd "typedef"; wd "struct"; wd "_gdo_handle"].
Proof.
  split; [apply demo_usable; intros s [<-|[]]; cbn; tauto|]. split; [exact demo_own|]. split; [|reflexivity]. cbn. intuition discriminate.
Qed.

(* ------------------------------------------------------------ C94 *)

(** C94: with GDO_WRAP_FUNCTIONS or one of the autoload macros the header defines a wrapper for each function: after macro replacement it
    has the function's type and parameters, checks the function's pointer under its number and name, calls the hook, and calls the
    pointer with the parameters; it is static, or visible under the function's own name with GDO_WRAP_VISIBILITY *)
Theorem C94_wrappers : forall c cfg e, usable c cfg -> c_param c <> PSkip -> wrapping cfg = true -> In e (c_funcs c) -> plain_names e -> plain_words e ->
  exists pre src post, preprocess cfg (header_text c) = Some (pre ++ map PTok src ++ post) /\ becomes (macros_of pre) src (wrapper (visible cfg) e).
Proof. exact header_wrapper. Qed.
Example C94_example : let e := mkproto KFunction $"int" $"foo_one" $"int a" [[$"int"; $"a"]] $"a" in
  usable demo_config (set_macros ["GDO_WRAP_FUNCTIONS"]%string) /\ In e (c_funcs demo_config) /\ plain_names e /\ plain_words e /\ wrapping (set_macros ["GDO_WRAP_FUNCTIONS"]%string) = true /\
  wrapper false e = [wd "static"; wd "inline"; wd "int"; wd "GDO_WRAP_foo_one"; pn "("; wd "int"; wd "a"; pn ")"; pn "{";
    wd "_gdo_wrap_check_loaded"; pn "("; pn "("; wd "void"; pn "*"; pn ")"; wd "gdo_hndl"; pn "."; wd "GDO_PTR_foo_one"; pn ","; wd "GDO_LOAD_foo_one"; pn ","; TText $"foo_one"; pn ")"; pn ";";
    wd "_gdo_noop"; pn "("; pn ")"; pn ";"; wd "return"; wd "gdo_hndl"; pn "."; wd "GDO_PTR_foo_one"; pn "("; wd "a"; pn ")"; pn ";"; pn "}"].
Proof.
  cbv zeta. split; [apply demo_usable; intros s [<-|[]]; cbn; tauto|]. split; [now left|]. split.
  { intros t I. replace (tokens_of _) with [wd "a"] in I by reflexivity. destruct I as [<-|[]]. right. eexists. reflexivity. }
  split.
  { split; [|discriminate]. intros w I. replace (_ ++ _) with [wd "int"; wd "int"; wd "a"; wd "a"; wd "foo_one"] in I by reflexivity.
    assert (J : In w [$"int"; $"a"; $"foo_one"]) by (cbn [In] in I |- *; unfold wd in I; decompose [or] I; try contradiction; match goal with H : TWord _ = TWord _ |- _ => injection H as <- end; tauto).
    destruct J as [<-|[<-|[<-|[]]]]; (split; [reflexivity|]); unfold other_macros; cbn [map In]; intuition discriminate. }
  split; reflexivity.
Qed.

(* ------------------------------------------------------------ C95 *)

(** C95, with separate files: behind the header a function's name stands for its wrapper, if there are wrappers, and else for its pointer;
    a variable's name stands for what its pointer points to *)
Theorem C95_separate : forall c cfg, usable c cfg -> own_names c -> cfg $"GDO_SEPARATE" = true -> cfg $"GDO_INCLUDED_IN_BODY" = false -> cfg $"GDO_DISABLE_ALIASING" = false ->
  exists out, preprocess cfg (header_text c) = Some out /\
    (forall n, In n (map p_symbol (c_funcs c)) -> (if visible cfg then wrapping cfg = true /\ ~ In n other_macros else wrapping cfg = true -> n <> $"DECL") ->
       becomes (macros_of out) [TWord n] (meant cfg n)) /\
    (forall n, In n (map p_symbol (c_objs c)) -> becomes (macros_of out) [TWord n] (pn "*" :: pointer n)).
Proof. exact header_meaning. Qed.
(** C95, in a single file: the same unless wrappers are made visible *)
Theorem C95_single_partial : forall c cfg, usable c cfg -> own_names c -> cfg $"GDO_SEPARATE" = false -> cfg $"GDO_DISABLE_ALIASING" = false -> cfg $"GDO_WRAP_IS_VISIBLE" = false ->
  (wrapping cfg = true -> visible cfg = false) ->
  exists out, preprocess cfg (single_text c) = Some out /\
    (forall n, In n (map p_symbol (c_funcs c)) -> (wrapping cfg = true -> n <> $"DECL") -> becomes (macros_of out) [TWord n] (meant cfg n)) /\
    (forall n, In n (map p_symbol (c_objs c)) -> becomes (macros_of out) [TWord n] (pn "*" :: pointer n)).
Proof. exact single_meant. Qed.
(** C95, refuted for visible wrappers in a single file: c.c:978 asks for GDO_WRAP_IS_VISIBLE, which is set nowhere, so that the name of every
    function stands for GDO_WRAP_x although the wrapper is called x *)
Theorem C95_visible_refuted : forall c cfg n, usable c cfg -> own_names c -> cfg $"GDO_SEPARATE" = false -> cfg $"GDO_DISABLE_ALIASING" = false -> cfg $"GDO_WRAP_IS_VISIBLE" = false ->
  wrapping cfg = true -> visible cfg = true -> In n (map p_symbol (c_funcs c)) -> n <> $"DECL" ->
  exists out, preprocess cfg (single_text c) = Some out /\ meant cfg n = [TWord n] /\ becomes (macros_of out) [TWord n] [TWord ($"GDO_WRAP_" ++ n)] /\ ~ becomes (macros_of out) [TWord n] (meant cfg n).
Proof. exact single_visible. Qed.
(** C95, refuted for -param=skip with GDO_WRAP_FUNCTIONS: there are no wrappers, but the name of the function stands for one *)
Theorem C95_skip_refuted : exists out, preprocess wrap_macros (single_text skip_config) = Some out /\
  becomes (macros_of out) [TWord $"foo_one"] [TWord $"GDO_WRAP_foo_one"] /\ existsb (names_wrapper $"foo_one") out = false.
Proof. exact single_skip. Qed.
Example C95_example : (forall l, In l [["__linux__"]; ["GDO_SEPARATE"; "GDO_WRAP_FUNCTIONS"]; ["GDO_WRAP_FUNCTIONS"; "GDO_WRAP_VISIBILITY"]]%string -> usable demo_config (set_macros l)) /\ own_names demo_config /\
  meant (set_macros ["__linux__"]%string) $"foo_one" = [wd "gdo_hndl"; pn "."; wd "GDO_PTR_foo_one"] /\
  meant (set_macros ["GDO_SEPARATE"; "GDO_WRAP_FUNCTIONS"]%string) $"foo_one" = [wd "GDO_WRAP_foo_one"] /\
  meant (set_macros ["GDO_WRAP_FUNCTIONS"; "GDO_WRAP_VISIBILITY"]%string) $"foo_one" = [wd "foo_one"] /\ c_param skip_config = PSkip /\ usable skip_config wrap_macros.
Proof.
  split. { intros l I. cbn [In] in I. decompose [or] I; subst; try contradiction; apply demo_usable; intros s Is; cbn [In] in *; tauto. }
  split; [exact demo_own|]. repeat (split; [reflexivity|]). apply skip_usable.
Qed.

(* ------------------------------------------------------------ C96 *)

(** C96: the whole library in one file, in terms of what the user and the compiler set: the header's two parts [h1] and [h2], with the
    functions of common.c between them, set the rest of the macros so that the functions do, on every system and for each sequence of
    calls that the header offers, exactly what CRuntime.v says, and never something undefined *)
Theorem C96_single_file : forall k c cfg, usable c cfg -> target k c cfg -> cfg $"GDO_SEPARATE" = false ->
  exists h1 p1 h2 p2, preprocess cfg (header_text c) = Some (h1 ++ h2) /\ preprocess cfg (single_text c) = Some (h1 ++ print p1 ++ h2 ++ print p2) /\
    let fs := functions (header_macros (symbol_names c)) (p1 ++ p2) in
    (forall w ops, Forall (fun o => offered c cfg o = true) ops -> c_run k w fs ops = run k w ops) /\
    (forall w ops, lib_printable k -> Forall (fun o => offered c cfg o = true) ops -> exists s, c_run k w fs ops = Ok s).
Proof. exact single_program. Qed.
(** C96, header and body in two files: the same of the body with the header that it includes *)
Theorem C96_body_file : forall k c cfg, usable c cfg -> target k c cfg -> cfg $"GDO_INCLUDED_IN_BODY" = true ->
  exists out prog, preprocess cfg (header_text c) = Some out /\ preprocess cfg (included_text c) = Some (out ++ print prog) /\
    let fs := functions (header_macros (symbol_names c)) prog in
    (forall w ops, Forall (fun o => offered c cfg o = true) ops -> c_run k w fs ops = run k w ops) /\
    (forall w ops, lib_printable k -> Forall (fun o => offered c cfg o = true) ops -> exists s, c_run k w fs ops = Ok s).
Proof. exact body_file. Qed.
(** C96: these are the templates that the tool fills in, in the order in which it writes them (SpecGenerate.v, C63) *)
Theorem C96_order : forall c s, Options.o_format s = Options.FmtC ->
  (separate s = false -> single_text c = concat (filled_texts c (map shipped (SpecGenerate.header_templates s)))) /\
  (separate s = true -> included_text c = concat (filled_texts c (map shipped (SpecGenerate.header_templates s))) ++ concat (filled_texts c (map shipped (SpecGenerate.body_templates s)))).
Proof. exact texts_in_order. Qed.
(** lazy loading on Linux *)
Definition two_config : config :=
  mkcfg false PRead (set_prefix $"gdo") [mkproto KFunction $"int" $"foo_one" $"int a" [[$"int"; $"a"]] $"a"; mkproto KFunction $"void" $"foo_two" $"void" [] []] [].
Definition lazy_macros : str -> bool := set_macros ["__linux__"; "__GLIBC__"; "GDO_ENABLE_AUTOLOAD_LAZY"; "GDO_DEFAULT_LIB"]%string.
Definition lazy_build : rconf := demo AutoLazy $"foo.so" 100.
Definition body_macros : str -> bool := set_macros ["__linux__"; "__GLIBC__"; "GDO_ENABLE_AUTOLOAD_LAZY"; "GDO_DEFAULT_LIB"; "GDO_SEPARATE"; "GDO_INCLUDED_IN_BODY"]%string.
Example C96_example : target lazy_build two_config lazy_macros /\ target lazy_build two_config body_macros /\ lazy_macros $"GDO_SEPARATE" = false /\ body_macros $"GDO_INCLUDED_IN_BODY" = true /\
  Forall (fun o => offered two_config lazy_macros o = true) [LoadLib; LoadSymbolName (Some $"foo_two"); Wrapped 0 [4]; LibraryPath; FreeLib; LastError; Wrapped 1 []] /\
  lazy_macros $"GDO_ENABLE_AUTOLOAD" = false /\ lazy_macros $"GDO_HAVE_DLINFO" = false /\ lib_printable lazy_build.
Proof.
  split. { split; try reflexivity. { apply demo_ok. repeat constructor. } intros x [<-|[<-|[<-|[<-|[<-|[]]]]]]; reflexivity. }
  split. { split; try reflexivity. { apply demo_ok. repeat constructor. } intros x [<-|[<-|[<-|[<-|[<-|[]]]]]]; reflexivity. }
  split; [reflexivity|]. split; [reflexivity|]. split; [repeat constructor|]. split; [reflexivity|]. split; [reflexivity|]. right. cbn. intuition discriminate.
Qed.

Print Assumptions C93_handle.
Print Assumptions C93_pointers.
Print Assumptions C94_wrappers.
Print Assumptions C95_separate.
Print Assumptions C95_single_partial.
Print Assumptions C95_visible_refuted.
Print Assumptions C95_skip_refuted.
Print Assumptions C96_single_file.
Print Assumptions C96_body_file.
Print Assumptions C96_order.

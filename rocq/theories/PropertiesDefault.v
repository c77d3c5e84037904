(** C103: the default library of the generated file.
    Model: Generate.v (the run), Templates.v, Substitute.v; specification: SpecGenerate.v, SpecEndToEnd.v, SpecCLang.v (the preprocessor), SpecCMacro.v (replacement),
    SpecFile.v, SpecFileName.v, SpecDefault.v; proofs: HFile.v, HFileMain.v, HFileName.v, HDefaults.v, HDefault.v. *)
From Coq Require Import Ascii String List Bool Arith.
From Verif Require Import Str Parse ParamNames Prefix Substitute Data Options Generate SpecPrefix SpecSubstitute SpecEndToEnd Templates SpecTemplates
  SpecCRuntime SpecCLang SpecCProg SpecCMacro SpecBody SpecHeader SpecFile SpecFileName SpecDefault HDefault PropertiesHeader PropertiesWhole PropertiesFile PropertiesFilePair.
From Verif Require SpecGenerate.
Import ListNotations.

(** C103: a run with -library that writes one C file succeeds, and for a C compiler that has read the whole file, GDO_DEFAULT_LIB is the name
    of the file that the option stands for, and GDO_COMMON_PREFIX the common beginning of the symbols' names; in a file, *)
Theorem C103_default_file : forall e s f o defs i fs out cfg pre file dl, let c := config_of s f o in
  ordinary_run e s -> Forall plain_proto (f ++ o) -> f ++ o <> [] -> all_defines s f o = Ok defs -> separate s = false -> to_stdout s = false -> o_output s <> [] -> SpecGenerate.creatable e s fs (o_output s) ->
  library_given e s cfg -> get_common_prefix (map p_symbol f) (map p_symbol o) = Ok pre -> names_library c cfg (o_lib s) file dl ->
  usable c (told s cfg (dl ++ standard_macros f pre)) -> own_names c -> ~ In $"__cplusplus" (symbol_names c) ->
  exists w' t, run e s f o [] i (SpecGenerate.started fs out) = (w', Ret tt) /\ w_fs w' (o_output s) = Some (Regular t) /\ opens_library cfg t file pre.
Proof. exact written_default. Qed.
(** or on standard output *)
Theorem C103_default_output : forall e s f o defs i fs out cfg pre file dl, let c := config_of s f o in
  ordinary_run e s -> Forall plain_proto (f ++ o) -> f ++ o <> [] -> all_defines s f o = Ok defs -> to_stdout s = true ->
  library_given e s cfg -> get_common_prefix (map p_symbol f) (map p_symbol o) = Ok pre -> names_library c cfg (o_lib s) file dl ->
  usable c (told s cfg (dl ++ standard_macros f pre)) -> own_names c -> ~ In $"__cplusplus" (symbol_names c) ->
  exists w' t, run e s f o [] i (SpecGenerate.started fs out) = (w', Ret tt) /\ w_out w' = out ++ t /\ opens_library cfg t file pre.
Proof. exact written_default_output. Qed.

(** or in a header and a body: behind the header, wherever it is included, and behind the body with the header in it *)
Theorem C103_default_pair : forall e s f o defs i fs out cfg pre file dl, let c := config_of s f o in let ds := PDefine $"GDO_SEPARATE" false [] :: dl ++ standard_macros f pre in
  ordinary_run e s -> Forall plain_proto (f ++ o) -> f ++ o <> [] -> all_defines s f o = Ok defs -> separate s = true -> SpecGenerate.creatable e s fs (header_path s) -> SpecGenerate.creatable e s fs (body_path s) ->
  library_given e s cfg -> get_common_prefix (map p_symbol f) (map p_symbol o) = Ok pre -> names_library c cfg (o_lib s) file dl ->
  usable c (told s cfg ds) -> usable c (told s (in_body cfg) ds) -> own_names c -> ~ In $"__cplusplus" (symbol_names c) -> told s (in_body cfg) ds $"GDO_INCLUDED_IN_BODY" = true ->
  exists w' t t', run e s f o [] i (SpecGenerate.started fs out) = (w', Ret tt) /\ w_fs w' (header_path s) = Some (Regular t) /\ w_fs w' (body_path s) = Some (Regular t') /\
    opens_library cfg t file pre /\ opens_library_with s cfg t t' file pre.
Proof. exact written_default_pair. Qed.

(** the macros of a compiler on Linux, without one for the default library *)
Definition bare_macros (x : str) : bool := negb (str_eqb x $"GDO_DEFAULT_LIB") && lazy_macros x.
(** -library=api:2:foo, -library=libfoo.so.2, -library=ext:libfoo, and -library=api:2:foo_one, which is also the name of a function, on Linux *)
Definition lib_settings (v : str) : settings := set_lib v plain_settings.
Example C103_example : let f := c_funcs two_config in forall v, In v [($"API:2:foo", $"libfoo.so.2"); ($"libfoo.so.2", $"libfoo.so.2"); ($"ext:libfoo", $"libfoo.so"); ($"api:2:foo_one", $"libfoo_one.so.2")] -> let s := lib_settings (fst v) in let c := config_of s f [] in
  exists dl, names_library c bare_macros (o_lib s) (snd v) dl /\ ordinary_run plain_env s /\ Forall plain_proto (f ++ []) /\ (exists defs, all_defines s f [] = Ok defs) /\
    SpecGenerate.creatable plain_env s (fun _ => None) (o_output s) /\ library_given plain_env s bare_macros /\ get_common_prefix (map p_symbol f) [] = Ok $"foo_" /\
    usable c (told s bare_macros (dl ++ standard_macros f $"foo_")) /\ own_names c /\ ~ In $"__cplusplus" (symbol_names c).
Proof.
  intros f v Iv s c. assert (P : Forall plain_proto (f ++ [])).
  { repeat (apply Forall_cons; [split; [|split; [|split; [|split; [|discriminate]]]]; repeat constructor|]); constructor. }
  assert (E : exists dl, names_library c bare_macros (o_lib s) (snd v) dl).
  { destruct Iv as [<-|[<-|[<-|[<-|[]]]]]; eexists.
    - apply (ByName c bare_macros $"API:" $"2" $"foo"); [reflexivity| |]; (split; [discriminate|]; split; [repeat constructor|]; repeat (split; [reflexivity|]); split; [vm_compute; intuition discriminate|split; [discriminate|intros _; discriminate]]).
    - apply (ByFile c bare_macros "l"%char $"ibfoo.so.2"); [vm_compute; intuition discriminate|]. repeat (constructor; [vm_compute; intuition discriminate|]). constructor.
    - apply (ByExtension c bare_macros $"ext:" $"libfoo"); [reflexivity|discriminate|]. repeat (constructor; [vm_compute; intuition discriminate|]). constructor.
    - apply (ByName c bare_macros $"api:" $"2" $"foo_one"); [reflexivity| |]; (split; [discriminate|]; split; [repeat constructor|]; repeat (split; [reflexivity|]); split; [vm_compute; intuition discriminate|split; [discriminate|intros _; discriminate]]). }
  destruct E as (dl & E). exists dl. split; [exact E|].
  split. { destruct Iv as [<-|[<-|[<-|[<-|[]]]]]; (split; [reflexivity|]; repeat (split; [reflexivity|]); left; reflexivity). }
  split; [exact P|]. split; [destruct Iv as [<-|[<-|[<-|[<-|[]]]]]; eexists; vm_compute; reflexivity|].
  split; [split; [reflexivity|left; reflexivity]|]. split.
  { repeat (split; [first [reflexivity|destruct Iv as [<-|[<-|[<-|[<-|[]]]]]; reflexivity]|]). split; [repeat constructor; discriminate|]. split; [reflexivity|]. split; [|split; [reflexivity|split; [reflexivity|split; [reflexivity|split; reflexivity]]]].
    constructor; [|constructor]. split; [vm_compute; intuition discriminate|]. exists [TOp $"<"; TWord $"foo"; TOp $"/"; TWord $"bar"; TOp $"."; TWord $"h"; TOp $">"]. split; [vm_compute; reflexivity|]. cbn. intuition discriminate. }
  split; [vm_compute; reflexivity|]. split.
  { split; [reflexivity|split; reflexivity|split; [|exact (Forall_nil _)]|refine (NoDup_cons _ _ (NoDup_cons _ _ (NoDup_nil _))); vm_compute; intuition discriminate|intros e [<-|[<-|[]]]; destruct E; split; reflexivity|].
    - rewrite <- (app_nil_r (c_funcs c)). exact P.
    - intros x I. cbn [absent In] in I. destruct E; decompose [or] I; subst; try contradiction; reflexivity. }
  split; [intros n [<-|[<-|[]]]; split; reflexivity|]. vm_compute. intuition discriminate.
Qed.

(** -library=ext:libfoo with a header and a body *)
Example C103_example_pair : let f := c_funcs two_config in let s := set_lib $"ext:libfoo" pair_settings in let c := config_of s f [] in
  exists dl, let ds := PDefine $"GDO_SEPARATE" false [] :: dl ++ standard_macros f $"foo_" in
    names_library c bare_macros (o_lib s) $"libfoo.so" dl /\ ordinary_run plain_env s /\ separate s = true /\ (exists defs, all_defines s f [] = Ok defs) /\
    SpecGenerate.creatable plain_env s (fun _ => None) (header_path s) /\ SpecGenerate.creatable plain_env s (fun _ => None) (body_path s) /\ library_given plain_env s bare_macros /\
    usable c (told s bare_macros ds) /\ usable c (told s (in_body bare_macros) ds) /\ own_names c /\ told s (in_body bare_macros) ds $"GDO_INCLUDED_IN_BODY" = true.
Proof.
  cbv zeta. assert (P : Forall plain_proto (c_funcs two_config ++ [])).
  { repeat (apply Forall_cons; [split; [|split; [|split; [|split; [|discriminate]]]]; repeat constructor|]); constructor. }
  eexists. split. { apply (ByExtension _ bare_macros $"ext:" $"libfoo"); [reflexivity|discriminate|]. repeat (constructor; [vm_compute; intuition discriminate|]). constructor. }
  split. { split; [reflexivity|]. repeat (split; [reflexivity|]). left. reflexivity. }
  split; [reflexivity|]. split; [eexists; vm_compute; reflexivity|]. split; [split; [reflexivity|left; reflexivity]|]. split; [split; [reflexivity|left; reflexivity]|]. split.
  { repeat (split; [reflexivity|]). split; [repeat constructor; discriminate|]. split; [reflexivity|]. split; [|split; [reflexivity|split; [reflexivity|split; [reflexivity|split; reflexivity]]]].
    constructor; [|constructor]. split; [vm_compute; intuition discriminate|]. exists [TOp $"<"; TWord $"foo"; TOp $"/"; TWord $"bar"; TOp $"."; TWord $"h"; TOp $">"]. split; [vm_compute; reflexivity|]. cbn. intuition discriminate. }
  assert (Pl : plain_config (config_of (set_lib $"ext:libfoo" pair_settings) (c_funcs two_config) [])) by (split; [|exact (Forall_nil _)]; rewrite <- (app_nil_r (c_funcs (config_of _ _ _))); exact P).
  split; [|split; [|split; [intros n [<-|[<-|[]]]; split; reflexivity|reflexivity]]];
    (split; [reflexivity|split; reflexivity|exact Pl|repeat constructor; cbn; intuition discriminate|intros e [<-|[<-|[]]]; split; reflexivity|intros x [<-|[<-|[<-|[<-|[<-|[]]]]]]; reflexivity]).
Qed.

Print Assumptions C103_default_file.
Print Assumptions C103_default_output.
Print Assumptions C103_default_pair.

(** C100: the file that the program writes, as a compiler reads it.
    Model: Generate.v (the run), Templates.v, Substitute.v, CRuntime.v; specification: SpecGenerate.v, SpecEndToEnd.v, SpecCLang.v, SpecCMacro.v, SpecCRun.v,
    SpecCRead.v, SpecHeader.v, SpecCWhole.v, SpecFile.v; proofs: HFile.v, HFileMain.v. *)
From Coq Require Import Ascii String List Bool Arith ZArith.
From Verif Require Import Str Parse ParamNames Prefix Substitute Data Options Generate SpecPrefix SpecSubstitute SpecEndToEnd Templates SpecTemplates
  SpecCRuntime SpecCLang SpecCProg SpecCRun SpecCMacro SpecBody SpecHeader SpecCRead SpecCSyntax SpecCWhole SpecFile HFileMain PropertiesHeader PropertiesWhole.
From Verif Require SpecGenerate CRuntimeProps2.
Import ListNotations.

(** C100: a run that writes one C file succeeds, and what a C compiler makes of the whole file (comments, include guard, macros for file
    names, the user's macros, headers and types, and the templates) is the library of C96 and C99; in a file, *)
Theorem C100_written_file : forall e s f o defs tdefs i fs out k cfg ds, ordinary_run e s -> Forall plain_proto (f ++ o) -> f ++ o <> [] -> all_defines s f o = Ok defs ->
  separate s = false -> to_stdout s = false -> o_output s <> [] -> SpecGenerate.creatable e s fs (o_output s) -> c_file e s cfg defs tdefs ds -> c_library k (config_of s f o) (told s cfg ds) ->
  exists w' t, run e s f o tdefs i (SpecGenerate.started fs out) = (w', Ret tt) /\ w_fs w' (o_output s) = Some (Regular t) /\ holds_library s k (config_of s f o) cfg ds t.
Proof. exact written_file. Qed.
(** or on standard output *)
Theorem C100_written_output : forall e s f o defs tdefs i fs out k cfg ds, ordinary_run e s -> Forall plain_proto (f ++ o) -> f ++ o <> [] -> all_defines s f o = Ok defs ->
  to_stdout s = true -> c_file e s cfg defs tdefs ds -> c_library k (config_of s f o) (told s cfg ds) ->
  exists w' t, run e s f o tdefs i (SpecGenerate.started fs out) = (w', Ret tt) /\ w_out w' = out ++ t /\ holds_library s k (config_of s f o) cfg ds t.
Proof. exact written_output. Qed.
(** C100: without -D, -library and typedefs, the texts in front of the templates are always read as the program's own macros *)
Theorem C100_standard_macros : forall s f o defs, m_pfx_upper (o_pfxs s) = $"GDO" -> is_cxx s = false -> separate s = false -> o_defines s = [] -> o_lib s = [] -> Forall header_spec (o_includes s) ->
  Forall plain_proto (f ++ o) -> f ++ o <> [] -> all_defines s f o = Ok defs ->
  exists pre, get_common_prefix (map p_symbol f) (map p_symbol o) = Ok pre /\ always_read (extra_text s defs []) (standard_macros f pre) /\ Forall option_macro (standard_macros f pre).
Proof. exact standard_read. Qed.

(** the settings of a run without options, but with an output file, an include guard and a header to include; loaded lazily on Linux *)
Definition plain_settings : settings := push_include $"<foo/bar.h>" (set_pragma false (set_output $"out/foo.h" defaults)).
Definition plain_env : env := mkenv shipped (fun _ => true) (fun _ => true) (fun _ => true) (fun _ => true) (Some $"Tue Nov 17 2026").
Definition plain_front : list pout := standard_macros (c_funcs two_config) $"foo_".
Example C100_example : let s := plain_settings in let f := c_funcs two_config in
  ordinary_run plain_env s /\ Forall plain_proto (f ++ []) /\ (exists defs, all_defines s f [] = Ok defs /\ c_file plain_env s lazy_macros defs [] plain_front) /\
  SpecGenerate.creatable plain_env s (fun _ => None) (o_output s) /\ guard_of s = $"_GDO_FOO_H_" /\ c_library lazy_build (config_of s f []) (told s lazy_macros plain_front) /\
  Forall (fun x => offered (config_of s f []) (told s lazy_macros plain_front) x = true) [CRuntime.LoadLib; CRuntime.LoadSymbolName (Some $"foo_two"); CRuntime.Wrapped 0 [4]; CRuntime.FreeLib].
Proof.
  cbv zeta. assert (P : Forall plain_proto (c_funcs two_config ++ [])).
  { repeat (apply Forall_cons; [split; [|split; [|split; [|split; [|discriminate]]]]; repeat constructor|]); constructor. }
  split. { split; [reflexivity|]. repeat (split; [reflexivity|]). left. reflexivity. }
  split; [exact P|]. split.
  { destruct (all_defines plain_settings (c_funcs two_config) []) as [defs| | |] eqn:E; try (vm_compute in E; discriminate). exists defs. split; [reflexivity|].
    destruct (standard_read plain_settings (c_funcs two_config) [] defs) as (pre & G & A & O); try reflexivity; try exact P; try discriminate; try exact E.
    - constructor; [|constructor]. split; [vm_compute; intuition discriminate|]. exists [TOp $"<"; TWord $"foo"; TOp $"/"; TWord $"bar"; TOp $"."; TWord $"h"; TOp $">"]. split; [vm_compute; reflexivity|]. cbn. intuition discriminate.
    - assert (pre = $"foo_") as ->; [vm_compute in G; injection G as <-; reflexivity|]. repeat (split; [reflexivity|]). split; [repeat constructor; discriminate|]. split; [exact A|]. split; [exact O|]. split; [reflexivity|reflexivity]. }
  split; [split; [reflexivity|left; reflexivity]|]. split; [reflexivity|]. split.
  - split; [|split; [|split; [reflexivity|split; [vm_compute; intuition discriminate|]]]].
    2: { split; try reflexivity. { apply CRuntimeProps2.demo_ok. repeat constructor. } intros x [<-|[<-|[<-|[<-|[<-|[]]]]]]; reflexivity. }
    + split; [reflexivity|split; reflexivity|split; [|constructor]|repeat constructor; cbn; intuition discriminate|intros e [<-|[<-|[]]]; split; reflexivity|intros x [<-|[<-|[<-|[<-|[<-|[]]]]]]; reflexivity].
      rewrite <- (app_nil_r (c_funcs (config_of _ _ _))). exact P.
    + exact (proj2 (proj2 C99_example)).
  - repeat constructor.
Qed.

Print Assumptions C100_written_file.
Print Assumptions C100_written_output.
Print Assumptions C100_standard_macros.

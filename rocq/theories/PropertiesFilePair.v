(** C101: the header and the body that the program writes with -separate, as a compiler reads them.
    Model: Generate.v (the run), Templates.v, Substitute.v, CRuntime.v; specification: SpecGenerate.v, SpecEndToEnd.v, SpecCLang.v, SpecCMacro.v, SpecCRun.v,
    SpecCRead.v, SpecHeader.v, SpecCWhole.v, SpecFile.v; proofs: HFile.v, HFileMain.v, HFilePair.v. *)
From Coq Require Import Ascii String List Bool Arith ZArith.
From Verif Require Import Str Parse ParamNames Prefix Substitute Data Options Generate SpecPrefix SpecSubstitute SpecEndToEnd Templates SpecTemplates
  SpecCRuntime SpecCLang SpecCProg SpecCRun SpecCMacro SpecBody SpecHeader SpecCRead SpecCSyntax SpecCWhole SpecFile HFilePair PropertiesHeader PropertiesWhole PropertiesFile.
From Verif Require SpecGenerate CRuntimeProps2.
Import ListNotations.

(** C101: a run that writes a header and a body succeeds.  The header, wherever it is included, is read as the program's macros and the
    header's templates (see C93 to C95 for what these declare).  The body includes the header, and with it is read as the library of C96 and C99 *)
Theorem C101_written_pair : forall e s f o defs tdefs i fs out k cfg ds, ordinary_run e s -> Forall plain_proto (f ++ o) -> f ++ o <> [] -> all_defines s f o = Ok defs ->
  separate s = true -> SpecGenerate.creatable e s fs (header_path s) -> SpecGenerate.creatable e s fs (body_path s) -> c_file e s cfg defs tdefs ds ->
  pair_library k (config_of s f o) (told s cfg ds) (told s (in_body cfg) ds) -> told s (in_body cfg) ds $"GDO_INCLUDED_IN_BODY" = true ->
  exists w' t t', run e s f o tdefs i (SpecGenerate.started fs out) = (w', Ret tt) /\ w_fs w' (header_path s) = Some (Regular t) /\ w_fs w' (body_path s) = Some (Regular t') /\
    holds_header s (config_of s f o) cfg ds t /\ holds_body s k (config_of s f o) cfg ds t t'.
Proof. exact written_pair. Qed.
(** C101: without -D, -library and typedefs, the texts in front of the templates are always read as the program's own macros, GDO_SEPARATE among them *)
Theorem C101_pair_macros : forall s f o defs, m_pfx_upper (o_pfxs s) = $"GDO" -> is_cxx s = false -> separate s = true -> o_defines s = [] -> o_lib s = [] -> Forall header_spec (o_includes s) ->
  Forall plain_proto (f ++ o) -> f ++ o <> [] -> all_defines s f o = Ok defs ->
  exists pre, let ds := PDefine $"GDO_SEPARATE" false [] :: standard_macros f pre in
    get_common_prefix (map p_symbol f) (map p_symbol o) = Ok pre /\ always_read (extra_text s defs []) ds /\ Forall option_macro ds.
Proof. exact pair_macros. Qed.

(** the settings of C100's example, in two files *)
Definition pair_settings : settings := set_separate true plain_settings.
Definition pair_front : list pout := PDefine $"GDO_SEPARATE" false [] :: plain_front.
Example C101_example : let s := pair_settings in let f := c_funcs two_config in
  ordinary_run plain_env s /\ separate s = true /\ (exists defs, all_defines s f [] = Ok defs /\ c_file plain_env s lazy_macros defs [] pair_front) /\
  SpecGenerate.creatable plain_env s (fun _ => None) (header_path s) /\ SpecGenerate.creatable plain_env s (fun _ => None) (body_path s) /\ header_path s <> body_path s /\
  pair_library lazy_build (config_of s f []) (told s lazy_macros pair_front) (told s (in_body lazy_macros) pair_front) /\ told s (in_body lazy_macros) pair_front $"GDO_INCLUDED_IN_BODY" = true /\
  Forall (fun x => offered (config_of s f []) (told s (in_body lazy_macros) pair_front) x = true) [CRuntime.LoadLib; CRuntime.LoadSymbolName (Some $"foo_two"); CRuntime.FreeLib].
Proof.
  cbv zeta. assert (P : Forall plain_proto (c_funcs two_config ++ [])).
  { repeat (apply Forall_cons; [split; [|split; [|split; [|split; [|discriminate]]]]; repeat constructor|]); constructor. }
  split. { split; [reflexivity|]. repeat (split; [reflexivity|]). left. reflexivity. }
  split; [reflexivity|]. split.
  { destruct (all_defines pair_settings (c_funcs two_config) []) as [defs| | |] eqn:E; try (vm_compute in E; discriminate). exists defs. split; [reflexivity|].
    destruct (pair_macros pair_settings (c_funcs two_config) [] defs) as (pre & G & A & O); try reflexivity; try exact P; try discriminate; try exact E.
    - constructor; [|constructor]. split; [vm_compute; intuition discriminate|]. exists [TOp $"<"; TWord $"foo"; TOp $"/"; TWord $"bar"; TOp $"."; TWord $"h"; TOp $">"]. split; [vm_compute; reflexivity|]. cbn. intuition discriminate.
    - assert (pre = $"foo_") as ->; [vm_compute in G; injection G as <-; reflexivity|]. repeat (split; [reflexivity|]). split; [repeat constructor; discriminate|]. split; [exact A|]. split; [exact O|]. split; [reflexivity|reflexivity]. }
  split; [split; [reflexivity|left; reflexivity]|]. split; [split; [reflexivity|left; reflexivity]|]. split; [vm_compute; discriminate|].
  assert (Pl : plain_config (config_of pair_settings (c_funcs two_config) [])) by (split; [|constructor]; rewrite <- (app_nil_r (c_funcs (config_of _ _ _))); exact P).
  split; [|split; [reflexivity|repeat constructor]].
  split; [|split; [|split; [|split; [vm_compute; intuition discriminate|]]]].
  3: { split; try reflexivity. { apply CRuntimeProps2.demo_ok. repeat constructor. } intros x [<-|[<-|[<-|[<-|[<-|[]]]]]]; reflexivity. }
  - split; [reflexivity|split; reflexivity|exact Pl|repeat constructor; cbn; intuition discriminate|intros e [<-|[<-|[]]]; split; reflexivity|intros x [<-|[<-|[<-|[<-|[<-|[]]]]]]; reflexivity].
  - split; [reflexivity|split; reflexivity|exact Pl|repeat constructor; cbn; intuition discriminate|intros e [<-|[<-|[]]]; split; reflexivity|intros x [<-|[<-|[<-|[<-|[<-|[]]]]]]; reflexivity].
  - exact (proj2 (proj2 C99_example)).
Qed.

Print Assumptions C101_written_pair.
Print Assumptions C101_pair_macros.

(** Proofs for C97, C98: a type that a variable hides, and what follows a variable's name. *)
From Coq Require Import Ascii String List Bool Arith ZArith Lia.
From Verif Require Import Str StrFacts Parse ParamNames Prefix Substitute Data Generate SpecPrefix SpecSubstitute Templates SpecTemplates CRuntime
  SpecCLang SpecCProg SpecCRun SpecBody SpecHeader CTemplate CTemplateText CTemplatePP CBody CBodyText CCode CBodyFuns CBodyFine HHeader2 SpecCRead SpecCSyntax CRead CReadS CReadCode CReadMain
  SpecCRuntime CRuntimeProps2.
Import ListNotations.

(** a library with one variable, of a type that is called like a parameter of the generated functions *)
Definition hidden_config : config := mkcfg false PRead (set_prefix $"gdo") [] [mkproto KObject $"symbol" $"foo_table" [] [] []].
Definition hidden_macros (x : str) : bool := existsb (str_eqb x) [$"__linux__"; $"GDO_HAVE_DLMOPEN"; $"GDO_HAVE_DLINFO"; $"GDO_HAVE_DLADDR"].
Definition hidden_build : rconf := mkrconf [$"foo_table"] $"foo_table" $"foo.so" 1%Z 100 true true true true AutoOff.

Lemma hidden_typed : c_line hidden_config = false /\ default_prefix hidden_config /\ plain_config hidden_config /\ build hidden_build hidden_config hidden_macros /\ typed_config hidden_config.
Proof.
  split; [reflexivity|]. split; [split; reflexivity|]. split.
  { split; [constructor|]. apply Forall_cons; [split; [|split; [|split; [|split; [|discriminate]]]]; repeat constructor|constructor]. }
  split.
  { split; try reflexivity; [split; cbn; [repeat constructor; intros []|repeat constructor; discriminate|repeat constructor; now exists []|repeat constructor]|]. intros x X. cbn in X. repeat (destruct X as [<-|X]; [reflexivity|]). destruct X. }
  apply Forall_cons; [|constructor]. split; [|split; reflexivity]. exists $"symbol", []. repeat split; reflexivity.
Qed.
Lemma hidden_unread : exists k c cfg, c_line c = false /\ default_prefix c /\ plain_config c /\ build k c cfg /\ typed_config c /\
  exists prog f, preprocess cfg (library_text c) = Some (print prog) /\
    find_func (functions (header_macros (symbol_names c)) prog) $"gdo_load_symbol_name" = Some f /\ forall g, ~ reads_function (type_in c f) (print_f f) g.
Proof.
  exists hidden_build, hidden_config, hidden_macros. destruct hidden_typed as (L & D & P & B & T). do 5 (split; [assumption|]).
  exists (inst hidden_macros hidden_config (body_of (c_param hidden_config))). eexists. split; [apply body_text; try assumption; apply (b_absent _ _ _ B)|]. split.
  - change (functions (header_macros (symbol_names hidden_config)) (inst hidden_macros hidden_config (body_of (c_param hidden_config)))) with (funs hidden_macros hidden_config (c_param hidden_config)).
    rewrite find_gdo_load_symbol_name. reflexivity.
  - intros g [n H]. specialize (H (400 + n) ltac:(lia)). vm_compute in H. discriminate.
Qed.

(** Proofs for C92: the text of the generated library, its functions and what they do, together. *)
From Coq Require Import Ascii String List Bool Arith ZArith.
From Verif Require Import Str Parse ParamNames Prefix Substitute Data Generate SpecPrefix SpecSubstitute Templates SpecTemplates CRuntime
  SpecCRuntime CRuntimeFacts CRuntimeProps SpecCLang SpecCProg SpecCRun SpecBody CTemplate CTemplateText CTemplatePP CBody CBodyText CBodyFuns CBodyProps CBodyFine.
Import ListNotations.

Lemma body_program k c cfg : c_line c = false -> default_prefix c -> plain_config c -> build k c cfg ->
  exists prog, preprocess cfg (concat (filled_texts c [shipped TCommonC; shipped TCC])) = Some (print prog) /\
    let fs := functions (header_macros (symbol_names c)) prog in
    (forall x f, find_func fs x = Some f -> fine_f f = true) /\
    (forall w ops, Forall (fun o => callable k c cfg o = true) ops -> c_run k w fs ops = run k w ops) /\
    (forall w ops s o, run k w ops = Ok s -> callable k c cfg o = true -> c_call k w fs o s = call k w o s) /\
    (forall w ops, lib_printable k -> Forall (fun o => callable k c cfg o = true) ops -> exists s, c_run k w fs ops = Ok s).
Proof.
  intros N D P B. exists (inst cfg c (body_of (c_param c))). split; [apply body_text; try assumption; apply (b_absent _ _ _ B)|].
  cbv zeta. change (functions (header_macros (symbol_names c)) (inst cfg c (body_of (c_param c)))) with (funs cfg c (c_param c)).
  split; [intros x f; apply all_fine|]. split; [intros w ops A; now apply run_same|]. split; [intros w ops s o R A; now apply (call_after k w c cfg ops)|].
  intros w ops L A. now apply never_wrong.
Qed.

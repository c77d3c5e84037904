(** C98: what the library's variables mean in the expressions of a program.
    Model: Templates.v, Substitute.v; specification: SpecCLang.v, SpecCMacro.v, SpecHeader.v, SpecCRead.v, SpecCUse.v; proofs: HSingle.v, HObject.v. *)
From Coq Require Import Ascii String List Bool Arith.
From Verif Require Import Str Parse ParamNames Prefix Substitute Data Generate SpecPrefix SpecSubstitute Templates SpecTemplates
  SpecCLang SpecCProg SpecCRun SpecCMacro SpecBody SpecHeader SpecCRead SpecCSyntax SpecCUse StrFacts HHeader2 HObject PropertiesHeader.
Import ListNotations.

(** C98, with separate files: in an expression the names of the library's variables stand for the variables in the loaded library, if
    none is followed directly by a member or an index *)
Theorem C98_separate_partial : forall c cfg, usable c cfg -> own_names c -> cfg $"GDO_SEPARATE" = true -> cfg $"GDO_INCLUDED_IN_BODY" = false -> cfg $"GDO_DISABLE_ALIASING" = false ->
  let vs := map p_symbol (c_objs c) in
  exists out, preprocess cfg (header_text c) = Some out /\
    forall tw e, tw $"gdo_hndl" = false -> program_expr tw c e -> alone vs e = true -> used_as tw (macros_of out) e (meant_e vs e).
Proof. exact header_alone. Qed.
(** C98, in a single file *)
Theorem C98_single_partial : forall c cfg, usable c cfg -> own_names c -> cfg $"GDO_SEPARATE" = false -> cfg $"GDO_DISABLE_ALIASING" = false -> cfg $"GDO_WRAP_IS_VISIBLE" = false ->
  let vs := map p_symbol (c_objs c) in
  exists out, preprocess cfg (single_text c) = Some out /\
    forall tw e, tw $"gdo_hndl" = false -> program_expr tw c e -> alone vs e = true -> used_as tw (macros_of out) e (meant_e vs e).
Proof. exact single_alone. Qed.
(** finding: n[i], n.x and n->x are, for every variable n of every library, not the element or the member of the variable: the macro has no
    brackets around the star, so [i], .x and ->x are applied to the pointer in the handle and the star to what comes out *)
Theorem C98_separate_refuted : forall c cfg, usable c cfg -> own_names c -> cfg $"GDO_SEPARATE" = true -> cfg $"GDO_INCLUDED_IN_BODY" = false -> cfg $"GDO_DISABLE_ALIASING" = false ->
  let vs := map p_symbol (c_objs c) in
  exists out, preprocess cfg (header_text c) = Some out /\
    forall tw n, tw $"gdo_hndl" = false -> In n vs ->
      (forall i, program_expr tw c (EIndex (EId n) i) -> alone vs i = true -> used_as tw (macros_of out) (EIndex (EId n) i) (EDeref (EIndex (address n) (meant_e vs i)))) /\
      (forall x, program_expr tw c (EField (EId n) x) -> used_as tw (macros_of out) (EField (EId n) x) (EDeref (EField (address n) x))) /\
      (forall x, program_expr tw c (EArrow (EId n) x) -> used_as tw (macros_of out) (EArrow (EId n) x) (EDeref (EArrow (address n) x))).
Proof. exact header_behind. Qed.
Theorem C98_single_refuted : forall c cfg, usable c cfg -> own_names c -> cfg $"GDO_SEPARATE" = false -> cfg $"GDO_DISABLE_ALIASING" = false -> cfg $"GDO_WRAP_IS_VISIBLE" = false ->
  let vs := map p_symbol (c_objs c) in
  exists out, preprocess cfg (single_text c) = Some out /\
    forall tw n, tw $"gdo_hndl" = false -> In n vs ->
      (forall i, program_expr tw c (EIndex (EId n) i) -> alone vs i = true -> used_as tw (macros_of out) (EIndex (EId n) i) (EDeref (EIndex (address n) (meant_e vs i)))) /\
      (forall x, program_expr tw c (EField (EId n) x) -> used_as tw (macros_of out) (EField (EId n) x) (EDeref (EField (address n) x))) /\
      (forall x, program_expr tw c (EArrow (EId n) x) -> used_as tw (macros_of out) (EArrow (EId n) x) (EDeref (EArrow (address n) x))).
Proof. exact single_behind. Qed.
(** an expression is read in one way only *)
Theorem C98_one_reading : forall tw l e e', reads_expr tw l e -> reads_expr tw l e' -> e = e'.
Proof. exact read_once. Qed.

Definition no_types (w : str) : bool := false.
(** foo_var = foo_var + a * 2, foo_var[a], foo_var.x *)
Example C98_example :
  let e := ESet (EId $"foo_var") (EBin $"+" (EId $"foo_var") (EBin $"*" (EId $"a") (EId $"2"))) in
  program_expr no_types demo_config e /\ alone [$"foo_var"] e = true /\
  meant_e [$"foo_var"] e = ESet (EDeref (address $"foo_var")) (EBin $"+" (EDeref (address $"foo_var")) (EBin $"*" (EId $"a") (EId $"2"))) /\
  program_expr no_types demo_config (EIndex (EId $"foo_var") (EId $"a")) /\ program_expr no_types demo_config (EField (EId $"foo_var") $"x") /\
  program_expr no_types demo_config (EArrow (EId $"foo_var") $"x") /\ map p_symbol (c_objs demo_config) = [$"foo_var"] /\
  meant_e [$"foo_var"] (EIndex (EId $"foo_var") (EId $"a")) = EIndex (EDeref (address $"foo_var")) (EId $"a").
Proof.
  assert (W : forall x, In x [$"a"; $"2"; $"x"] -> program_word demo_config x).
  { intros x I. split; [|split; [|split]]; cbn [In] in I; decompose [or] I; subst; try contradiction; try reflexivity; try discriminate;
      intro J; cbn in J; decompose [or] J; try contradiction; discriminate. }
  assert (P : forall e, fine_e e = true -> named no_types e = true -> only_variables [$"foo_var"] e = true ->
     forallb (fun t => match t with TWord x => existsb (str_eqb x) [$"foo_var"; $"a"; $"2"; $"x"] | _ => true end) (print_e e) = true -> program_expr no_types demo_config e).
  { intros e F N O L. split; [exact F|]. split; [exact N|]. split; [exact O|].
    intros x I. rewrite forallb_forall in L. specialize (L _ I). apply existsb_exists in L as (y & Y & E). apply str_eqb_eq in E. subst y. destruct Y as [<-|Y]; [now left|right; now apply W]. }
  cbv zeta. repeat split; try reflexivity; apply P; reflexivity.
Qed.
Print Assumptions C98_separate_partial.
Print Assumptions C98_single_partial.
Print Assumptions C98_separate_refuted.
Print Assumptions C98_single_refuted.
Print Assumptions C98_one_reading.

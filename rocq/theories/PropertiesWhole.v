(** C99: the functions of the library in one file, with the header's own macros.
    Model: Templates.v, Substitute.v, CRuntime.v; specification: SpecCLang.v, SpecCMacro.v (macro replacement), SpecCProg.v, SpecCRun.v, SpecCRead.v
    (the reader), SpecCSyntax.v, SpecHeader.v, SpecCWhole.v; proofs: CExpand.v, CExpandMain.v. *)
From Coq Require Import Ascii String List Bool Arith ZArith.
From Verif Require Import Str Parse ParamNames Prefix Substitute Data Generate SpecPrefix SpecSubstitute Templates SpecTemplates CRuntime
  SpecCRuntime SpecCLang SpecCProg SpecCRun SpecCMacro SpecBody SpecHeader SpecCRead SpecCSyntax SpecCWhole CExpandMain PropertiesHeader.
Import ListNotations.

(** C99: in the single file, each function is defined by a piece of the text.  With the macros that the text in front of it has defined,
    this piece is replaced by tokens that C's grammar reads as the function [f] ([written_as], SpecCWhole.v), and the functions [f] do
    what CRuntime.v says in each sequence of calls that the header offers.  Supposed of the declarations: brackets in types match,
    types begin with a name, none is called like a variable of the generated functions, and none is a macro of the header. *)
Theorem C99_single_replaced : forall k c cfg, usable c cfg -> target k c cfg -> cfg $"GDO_SEPARATE" = false -> plain_types c -> typed_config c -> no_variable c ->
  exists h1 p1 h2 p2, let out := h1 ++ print p1 ++ h2 ++ print p2 in preprocess cfg (header_text c) = Some (h1 ++ h2) /\ preprocess cfg (single_text c) = Some out /\
    let fs := functions (header_macros (symbol_names c)) (p1 ++ p2) in
    (forall x f, find_func fs x = Some f -> written_as c out x f) /\
    (forall w ops, Forall (fun o => offered c cfg o = true) ops -> c_run k w fs ops = run k w ops).
Proof. exact single_replaced. Qed.
(** C99, header and body in two files: the same of the body with the header that it includes *)
Theorem C99_body_replaced : forall k c cfg, usable c cfg -> target k c cfg -> cfg $"GDO_INCLUDED_IN_BODY" = true -> plain_types c -> typed_config c -> no_variable c ->
  exists h prog, preprocess cfg (header_text c) = Some h /\ preprocess cfg (included_text c) = Some (h ++ print prog) /\
    let fs := functions (header_macros (symbol_names c)) prog in
    (forall x f, find_func fs x = Some f -> written_as c (h ++ print prog) x f) /\
    (forall w ops, Forall (fun o => offered c cfg o = true) ops -> c_run k w fs ops = run k w ops).
Proof. exact body_replaced. Qed.
(** C99: macro replacement has one result *)
Theorem C99_one_text : forall m l r r', becomes m l r -> becomes m l r' -> r = r'.
Proof. exact becomes_one. Qed.

Example C99_example : target lazy_build two_config lazy_macros /\ target lazy_build two_config body_macros /\ plain_types two_config /\ typed_config two_config /\ no_variable two_config.
Proof.
  split; [exact (proj1 C96_example)|]. split; [exact (proj1 (proj2 C96_example))|]. split; [|split].
  - intros e w [<-|[<-|[]]] W; vm_compute in W; repeat (destruct W as [W|W]; [inversion W; subst; split; [reflexivity|]; split; [reflexivity|]; split; [intro X; vm_compute in X; intuition discriminate|discriminate]|]); destruct W.
  - apply Forall_cons; [|apply Forall_cons; [|constructor]]; (split; [|split; reflexivity]); eexists _, []; repeat split; reflexivity.
  - intros w W. vm_compute in W. destruct W as [<-|[<-|[]]]; reflexivity.
Qed.
(** what is replaced, with three of the macros of the header and of c.c *)
Example C99_replaced :
  let m := [($"_T", Some (mkdef (Some ([$"x"], false)) [wd "x"])); ($"GDO_RAWPTR_foo", Some (mkdef None [wd "gdo_hndl"; pn "."; wd "GDO_PTR_foo"]));
            ($"GDO_UNUSED_REF", Some (mkdef (Some ([$"x"], false)) [pn "("; wd "void"; pn ")"; pn "("; wd "x"; pn ")"]))] in
  becomes m [wd "GDO_UNUSED_REF"; pn "("; wd "f"; pn "("; wd "_T"; pn "("; TText $"no"; pn ")"; pn ","; wd "GDO_RAWPTR_foo"; pn ")"; pn ")"; pn ";"]
    [pn "("; wd "void"; pn ")"; pn "("; wd "f"; pn "("; TText $"no"; pn ","; wd "gdo_hndl"; pn "."; wd "GDO_PTR_foo"; pn ")"; pn ")"; pn ";"].
Proof. exists 60. eexists. split; vm_compute; reflexivity. Qed.

Print Assumptions C99_single_replaced.
Print Assumptions C99_body_replaced.
Print Assumptions C99_one_text.

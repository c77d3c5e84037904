(** C97: a C compiler reads the generated functions as they are meant.
    Model: Templates.v, Substitute.v; specification: SpecCLang.v, SpecCProg.v, SpecCRead.v (the reader), SpecCSyntax.v; proofs: CRead*.v. *)
From Coq Require Import Ascii String List Bool Arith ZArith.
From Verif Require Import Str Parse ParamNames Prefix Substitute Data Generate SpecPrefix SpecSubstitute Templates SpecTemplates CRuntime
  SpecCRuntime SpecCLang SpecCProg SpecCRun SpecBody SpecHeader SpecCRead SpecCSyntax CReadMain CReadNot PropertiesBody.
Import ListNotations.

(** C97: the text that common.c and c.c are filled in to is, after preprocessing, the text of a C program, and by C's grammar its
    functions are read from their tokens as exactly the functions that C92 runs: no operator, cast or else binds differently.
    Supposed of the declarations: brackets in types match, types begin with a name, and no type is called like a variable of the
    generated functions. *)
Theorem C97_code_read_partial : forall k c cfg, c_line c = false -> default_prefix c -> plain_config c -> build k c cfg -> typed_config c -> no_variable c ->
  exists prog, preprocess cfg (concat (filled_texts c [shipped TCommonC; shipped TCC])) = Some (print prog) /\
    forall x f, find_func (functions (header_macros (symbol_names c)) prog) x = Some f -> reads_function (type_in c f) (print_f f) f.
Proof. exact library_reads. Qed.
(** finding: with a type that is called like a parameter of a generated function, that function is not C: the parameter hides the
    type, and the cast to it is none *)
Theorem C97_hidden_type_refuted : exists k c cfg, c_line c = false /\ default_prefix c /\ plain_config c /\ build k c cfg /\ typed_config c /\
  exists prog f, preprocess cfg (concat (filled_texts c [shipped TCommonC; shipped TCC])) = Some (print prog) /\
    find_func (functions (header_macros (symbol_names c)) prog) $"gdo_load_symbol_name" = Some f /\ forall g, ~ reads_function (type_in c f) (print_f f) g.
Proof. exact hidden_unread. Qed.

Example C97_example : typed_config demo_config /\ no_variable demo_config.
Proof.
  split.
  - apply Forall_cons; [|apply Forall_cons; [|constructor]]; (split; [|split; reflexivity]); eexists _, []; repeat split; reflexivity.
  - intros w W. vm_compute in W. destruct W as [<-|[<-|[]]]; reflexivity.
Qed.
(** the reader, where T is a type and all else is not: what binds how, and what is no expression *)
Definition T_only (w : str) : bool := str_eqb w $"T".
Definition as_read (s : str) : option expr := match read_at T_only 60 9 (tokens_of s) with Some (e, []) => Some e | _ => None end.
Example C97_reader :
  as_read $"(T)a->b" = Some (ECast [wd "T"] (EArrow (EId $"a") $"b")) /\
  as_read $"*a[1]" = Some (EDeref (EIndex (EId $"a") (EId $"1"))) /\
  as_read $"(*a)[1]" = Some (EIndex (EParen (EDeref (EId $"a"))) (EId $"1")) /\
  as_read $"(T*)a" = Some (ECast [wd "T"; pn "*"] (EId $"a")) /\ as_read $"(x*)a" = None /\
  as_read $"(T*a)" = None /\ as_read $"(x*a)" = Some (EParen (EBin $"*" (EId $"x") (EId $"a"))) /\ as_read $"(x)-a" = Some (EBin $"-" (EParen (EId $"x")) (EId $"a")) /\ as_read $"(T)-a" = Some (ECast [wd "T"] (ENeg (EId $"a"))).
Proof. vm_compute. repeat split. Qed.
Print Assumptions C97_code_read_partial.
Print Assumptions C97_hidden_type_refuted.

(** C92: the C functions the templates are filled in to behave as CRuntime.v says.
    Model: Templates.v, Substitute.v, CRuntime.v; specification: SpecCLang.v, SpecCProg.v, SpecCRun.v, SpecBody.v; proofs: CBody*.v. *)
From Coq Require Import Ascii String List Bool Arith ZArith.
From Verif Require Import Str Parse ParamNames Prefix Substitute Data Generate SpecPrefix SpecSubstitute Templates SpecTemplates CRuntime
  SpecCRuntime SpecCLang SpecCProg SpecCRun SpecBody CRuntimeProps2 CBodyMain.
Import ListNotations.

(** C92: for every list of ordinary declarations, the text that common.c and c.c are filled in to is, after preprocessing, a C program
    whose expressions are read back as they are, and in which each sequence of calls does, on every system, exactly what CRuntime.v says *)
Theorem C92_generated_code : forall k c cfg, c_line c = false -> default_prefix c -> plain_config c -> build k c cfg ->
  exists prog, preprocess cfg (concat (filled_texts c [shipped TCommonC; shipped TCC])) = Some (print prog) /\
    let fs := functions (header_macros (symbol_names c)) prog in
    (forall x f, find_func fs x = Some f -> fine_f f = true) /\
    (forall w ops, Forall (fun o => callable k c cfg o = true) ops -> c_run k w fs ops = run k w ops) /\
    (forall w ops s o, run k w ops = Ok s -> callable k c cfg o = true -> c_call k w fs o s = call k w o s) /\
    (forall w ops, lib_printable k -> Forall (fun o => callable k c cfg o = true) ops -> exists s, c_run k w fs ops = Ok s).
Proof. exact body_program. Qed.

(** a build for Linux of two functions, with wrappers that load what is missing *)
Definition demo_config : config :=
  mkcfg false PRead (set_prefix $"gdo") [mkproto KFunction $"int" $"foo_one" $"int a" [[$"int"; $"a"]] $"a"; mkproto KFunction $"void" $"foo_two" $"void" [] []] [].
Definition demo_macros (x : str) : bool :=
  existsb (str_eqb x) [$"__linux__"; $"GDO_HAVE_DLMOPEN"; $"GDO_HAVE_DLINFO"; $"GDO_HAVE_DLADDR"; $"GDO_ENABLE_AUTOLOAD"; $"GDO_ENABLE_AUTOLOAD_LAZY"; $"GDO_DEFAULT_LIB"].
Definition demo_build : rconf := demo AutoLazy $"foo.so" 100.
Definition demo_calls : list op := [LoadLib; LoadSymbolName (Some $"foo_two"); Wrapped 0 [4]; LibraryPath; FreeLib; LastError; Wrapped 1 []].
Example C92_example : default_prefix demo_config /\ plain_config demo_config /\ build demo_build demo_config demo_macros /\
  Forall (fun o => callable demo_build demo_config demo_macros o = true) demo_calls /\
  exists s, run demo_build good demo_calls = Ok s /\ s_ptrs s = [None; Some 10] /\ s_handle s = Some 1.
Proof.
  split; [split; reflexivity|]. split.
  { split; [|constructor]. repeat (apply Forall_cons; [split; [|split; [|split; [|split; [|discriminate]]]]; repeat constructor|]); constructor. }
  split.
  { split; try reflexivity. { apply demo_ok. repeat constructor. }
    intros x [<-|[<-|[<-|[<-|[<-|[]]]]]]; reflexivity. }
  split; [repeat constructor|]. eexists. split; [vm_compute; reflexivity|]. split; reflexivity.
Qed.
Print Assumptions C92_generated_code.

(** C105: wrappers hand back results. *)
From Coq Require Import Ascii String List Bool.
From Verif Require Import Str Parse ParamNames Format Prefix Substitute Data Options Generate ClangAst Frontend SpecPrefix SpecSubstitute Templates SpecTemplates
  SpecCLang SpecCProg SpecCMacro SpecBody SpecHeader SpecReturn HWrapper HSingle HReturn PropertiesHeader.
Import ListNotations.

(** the wrapper of a function, after macro replacement, ends by calling the function's pointer, and returns the result if the function has one *)
Theorem C105_returns_partial : forall c cfg e, usable c cfg -> c_param c <> PSkip -> wrapping cfg = true -> In e (c_funcs c) -> plain_names e -> plain_words e -> ordinary_type e ->
  exists pre src post f, preprocess cfg (header_text c) = Some (pre ++ map PTok src ++ post) /\ becomes (macros_of pre) src f /\ hands_back e f.
Proof. exact returned. Qed.

Example C105_example : let e := mkproto KFunction $"int" $"foo_one" $"int a" [[$"int"; $"a"]] $"a" in
  usable demo_config (set_macros ["GDO_WRAP_FUNCTIONS"]%string) /\ In e (c_funcs demo_config) /\ plain_names e /\ plain_words e /\ wrapping (set_macros ["GDO_WRAP_FUNCTIONS"]%string) = true /\
  ordinary_type e /\ ~ no_result e.
Proof.
  cbv zeta. destruct C94_example as (U & I & N & P & W & _). split; [exact U|]. split; [exact I|]. split; [exact N|]. split; [exact P|]. split; [exact W|]. split; discriminate.
Qed.

(** ... but the result of a function whose type is called Void is lost *)
Theorem C105_returns_refuted : exists s' y e pre src post f, let c := config_of defaults (s_funcs y) (s_objs y) in let cfg := set_macros ["GDO_WRAP_FUNCTIONS"]%string in
  read_input defaults $"a.h" $"Void get(int a);" = Ok (s', y) /\ s_funcs y = [e] /\ ~ no_result e /\ usable c cfg /\
  preprocess cfg (header_text c) = Some (pre ++ map PTok src ++ post) /\ becomes (macros_of pre) src f /\ ~ In (wd "return") f /\ ends_calling e [] f.
Proof. exact lost_result. Qed.

Print Assumptions C105_returns_partial.
Print Assumptions C105_returns_refuted.

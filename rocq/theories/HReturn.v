(** Proofs for C105. *)
From Coq Require Import Ascii String List Bool.
From Verif Require Import Str StrFacts Parse ParamNames Format Prefix Substitute Data Options Generate ClangAst Frontend SpecPrefix SpecSubstitute Templates SpecTemplates SpecCLang SpecCProg SpecCMacro SpecBody SpecHeader SpecReturn HWrapper HSingle.
Import ListNotations.

Lemma wrapper_ends v e : ends_calling e (if void_type e then [] else [wd "return"]) (wrapper v e).
Proof.
  unfold ends_calling, wrapper. generalize (if void_type e then [] else [wd "return"]) (tokens_of (p_type e)) (tokens_of (p_args e)) (tokens_of (p_param_names e)) (pointer (p_symbol e)). intros r a b n q.
  exists ((if v then [wd "GDO_WRAP_VISIBILITY"] else [wd "static"; wd "inline"]) ++ a ++ [TWord (wrapper_name v (p_symbol e)); pn "("] ++ b ++ [pn ")"; pn "{"] ++
    [wd "_gdo_wrap_check_loaded"; pn "("; pn "("; wd "void"; pn "*"; pn ")"] ++ q ++ [pn ","; TWord ($"GDO_LOAD_" ++ p_symbol e); pn ","; TText (p_symbol e); pn ")"; pn ";"] ++ [wd "_gdo_noop"; pn "("; pn ")"]).
  rewrite <- !(app_assoc (A := tok)). reflexivity.
Qed.
Lemma no_nul t : declaration_text t -> c_str t = t.
Proof. intro D. induction D as [|x l X D IH]; [reflexivity|]. cbn [c_str]. destruct (Ascii.eqb x nul) eqn:E; [apply Ascii.eqb_eq in E; subst x; discriminate X|]. now rewrite IH. Qed.
Lemma wrapper_back v e : declaration_text (p_type e) -> ordinary_type e -> hands_back e (wrapper v e).
Proof.
  intros D O. pose proof (wrapper_ends v e) as W. unfold void_type, strcaseeq in W. rewrite (no_nul _ D) in W. unfold ordinary_type in O. split; intro N.
  - unfold no_result in N. rewrite N in W. exact W.
  - destruct (str_eqb _ _) eqn:E; [|exact W]. apply str_eqb_eq in E. elim N. now apply O.
Qed.
Theorem returned c cfg e : usable c cfg -> c_param c <> PSkip -> wrapping cfg = true -> In e (c_funcs c) -> plain_names e -> plain_words e -> ordinary_type e ->
  exists pre src post f, preprocess cfg (header_text c) = Some (pre ++ map PTok src ++ post) /\ becomes (macros_of pre) src f /\ hands_back e f.
Proof.
  intros U S W I N P O. destruct (header_wrapper c cfg e U S W I N P) as (pre & src & post & E & B). exists pre, src, post, (wrapper (visible cfg) e). split; [exact E|]. split; [exact B|].
  apply wrapper_back; [|exact O]. destruct (u_plain _ _ U) as (F & _). rewrite Forall_forall in F. exact (proj1 (F e I)).
Qed.
Definition void_proto : proto := mkproto KFunction $"Void" $"get" $"int a" [[$"int"; $"a"]] $"a".
Lemma lost_result : exists s' y e pre src post f, let c := config_of defaults (s_funcs y) (s_objs y) in let cfg := (fun x => existsb (fun s => str_eqb x (Str.lit s)) ["GDO_WRAP_FUNCTIONS"]%string) in
  read_input defaults $"a.h" $"Void get(int a);" = Ok (s', y) /\ s_funcs y = [e] /\ ~ no_result e /\ usable c cfg /\
  preprocess cfg (header_text c) = Some (pre ++ map PTok src ++ post) /\ becomes (macros_of pre) src f /\ ~ In (wd "return") f /\ ends_calling e [] f.
Proof.
  exists defaults, (mksyms [void_proto] [] []), void_proto. cbn [s_funcs s_objs]. set (c := config_of defaults [void_proto] []). set (cfg := fun x => existsb _ _).
  assert (U : usable c cfg).
  { split; [reflexivity|split; reflexivity| |repeat constructor; cbn; intuition discriminate|intros e [<-|[]]; split; reflexivity|intros x [<-|[<-|[<-|[<-|[<-|[]]]]]]; reflexivity].
    split; [|constructor]. constructor; [|constructor]. split; [|split; [|split; [|split; [|discriminate]]]]; repeat constructor. }
  destruct (header_wrapper c cfg void_proto U) as (pre & src & post & E & B); [discriminate|reflexivity|now left| | |].
  { intros t I. replace (tokens_of _) with [wd "a"] in I by reflexivity. destruct I as [<-|[]]. right. eexists. reflexivity. }
  { split; [|discriminate]. intros w I. replace (_ ++ _) with [wd "Void"; wd "int"; wd "a"; wd "a"; wd "get"] in I by reflexivity.
    assert (J : In w [$"Void"; $"int"; $"a"; $"get"]) by (cbn [In] in I |- *; unfold wd in I; decompose [or] I; try contradiction; match goal with H : TWord _ = TWord _ |- _ => injection H as <- end; tauto).
    destruct J as [<-|[<-|[<-|[<-|[]]]]]; (split; [reflexivity|]); unfold other_macros; cbn [map In]; intuition discriminate. }
  exists pre, src, post, (wrapper (visible cfg) void_proto). cbv zeta. split; [vm_compute; reflexivity|]. split; [reflexivity|]. split; [discriminate|]. split; [exact U|]. split; [exact E|]. split; [exact B|].
  split; [vm_compute; intuition discriminate|]. exact (wrapper_ends (visible cfg) void_proto).
Qed.

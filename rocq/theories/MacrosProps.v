(** Proofs for C84. *)
From Coq Require Import Ascii String List Bool Arith.
From Verif Require Import Str Parse ParamNames Prefix Data Options Generate SpecGenerate GenerateFacts GenerateProps SpecMacros.
Import ListNotations.

Lemma defines_list s f o defs : all_defines s f o = Ok defs ->
  exists lib pre, (if match o_lib s with [] => true | _ => false end then lib = [] else format_libname (o_lib s) (m_pfx_upper (o_pfxs s)) = Ok lib) /\
    get_common_prefix (map p_symbol f) (map p_symbol o) = Ok pre /\
    defs = o_defines s ++
      macro_lines (m_pfx_upper (o_pfxs s)) (if separate s then [($"SEPARATE", [])] else []) ++ lib ++
      macro_lines (m_pfx_upper (o_pfxs s)) (($"COMMON_PREFIX", quoted pre) :: variadic_macros (map (fun e => (p_symbol e, ends_with $"..." (p_args e))) f)).
Proof.
  unfold all_defines. set (u := m_pfx_upper (o_pfxs s)). intros H.
  destruct (match o_lib s with [] => Ok [] | l => format_libname l u end) as [lib| | |] eqn:L; try discriminate. cbn [bind] in H.
  destruct (get_common_prefix (map p_symbol f) (map p_symbol o)) as [pre| | |]; try discriminate. cbn [bind] in H. apply (f_equal (fun r => match r with Ok x => x | _ => [] end)) in H.
  exists lib, pre. split; [destruct (o_lib s); [now injection L as <-|exact L]|]. split; [reflexivity|]. rewrite <- H. clear H. f_equal.
  assert (L1 : macro_lines u (if separate s then [($"SEPARATE", [])] else []) = if separate s then $"#define " ++ u ++ $"_SEPARATE" ++ [nl] else []).
  { destruct (separate s); [|reflexivity]. unfold macro_lines. cbn [map concat]. rewrite app_nil_r. reflexivity. }
  assert (L2 : macro_line u ($"COMMON_PREFIX", quoted pre) = $"#define " ++ u ++ $"_COMMON_PREFIX " ++ [dquote] ++ pre ++ [dquote] ++ [nl]).
  { unfold macro_line, quoted. cbn [fst snd app]. do 2 f_equal. cbn. now rewrite <- app_assoc. }
  assert (L3 : forall n, macro_line u ($"HAS_VA_ARGS_" ++ n, $"1") = $"#define " ++ u ++ $"_HAS_VA_ARGS_" ++ n ++ $" 1" ++ [nl]).
  { intros n. unfold macro_line. cbn [fst snd]. rewrite <- !app_assoc. reflexivity. }
  rewrite L1. f_equal. f_equal. unfold macro_lines. cbn [map concat]. rewrite L2. f_equal.
  induction f as [|e f IH]; [reflexivity|]. cbn [map concat]. unfold variadic_macros. cbn [map filter snd fst].
  destruct (ends_with $"..." (p_args e)); cbn [map concat fst snd]; [rewrite L3; f_equal|]; exact IH.
Qed.

Lemma prefix_of_all f o pre : get_common_prefix f o = Ok pre -> begins_all pre (f ++ o).
Proof. intros H. destruct (prefix_defined f o) as (p & E & B & _). rewrite E in H. injection H as <-. exact B. Qed.

Lemma defines_all s f o defs : all_defines s f o = Ok defs ->
  exists lib pre, (if match o_lib s with [] => true | _ => false end then lib = [] else format_libname (o_lib s) (m_pfx_upper (o_pfxs s)) = Ok lib) /\
    begins_all pre (map p_symbol (f ++ o)) /\ get_common_prefix (map p_symbol f) (map p_symbol o) = Ok pre /\
    defs = o_defines s ++
      macro_lines (m_pfx_upper (o_pfxs s)) (if separate s then [($"SEPARATE", [])] else []) ++ lib ++
      macro_lines (m_pfx_upper (o_pfxs s)) (($"COMMON_PREFIX", quoted pre) :: variadic_macros (map (fun e => (p_symbol e, ends_with $"..." (p_args e))) f)).
Proof.
  intros H. destruct (defines_list s f o defs H) as (lib & pre & A & B & C). exists lib, pre.
  split; [exact A|]. split; [rewrite map_app; exact (prefix_of_all _ _ _ B)|]. split; [exact B|exact C].
Qed.

(** Proofs for C93, C95 and C96: the header alone, and the whole library in one file. *)
From Coq Require Import Ascii String List Bool Arith ZArith Lia.
From Verif Require Import Str StrFacts Parse ParamNames Prefix Substitute Data Generate SpecPrefix SpecSubstitute Templates SpecTemplates CRuntime SpecCRuntime SpecCLang SpecCProg SpecCRun SpecCMacro SpecBody SpecHeader
  CTemplate CTemplateText CTemplatePP CBody CBodyText CBodyMain HTemplate HTemplatePP HText HMacro HHeader HHeader2 HOrder HWrapper HAlias.
From Verif Require CBodyFuns CBodyProps Options SpecGenerate.
Import ListNotations.

Lemma eq_refl_str x : str_eqb x x = true.
Proof. now apply str_eqb_eq. Qed.
(** a macro that the header does not touch *)
Lemma untouched c cfg a x : front_facts (c_param c) a -> In x own_words -> last_def x (outs cfg c a) = None.
Proof. intros F I. destruct F as (_ & _ & _ & _ & _ & _ & _ & _ & _ & _ & _ & H). now rewrite (exact_def cfg c x a [] (own_none a x H I)). Qed.
Lemma unknown c cfg a x : set_facts a -> starts_with $"GDO_" x = false -> ~ In x other_macros -> last_def x (outs cfg c a) = None.
Proof.
  intros (K & _) G N. assert (filter (may true x) a = []) as E; [|now rewrite (exact_def cfg c x a [] E)].
  rewrite forallb_forall in K. induction a as [|g a IH]; [reflexivity|]. cbn [filter]. assert (M : may true x g = false).
  { specialize (K g (or_introl eq_refl)). unfold known_name in K. unfold may.
    assert (Y : forall y, starts_with $"GDO_" y || mem y other_macros = true -> str_eqb x y = false).
    { intros y H. apply str_eqb_neq. intros <-. rewrite G in H. cbn [orb] in H. unfold mem in H. apply existsb_exists in H as (z & Iz & Ez). apply str_eqb_eq in Ez. now subst. }
    destruct (snd g); auto. cbn [negb andb]. rewrite orb_false_r. apply not_true_is_false. intro E. apply starts_with_spec in E as [r ->]. rewrite (starts_app _ _ r K) in G. discriminate. }
  rewrite M. apply IH. intros y I. apply K. now right.
Qed.
Ltac own := unfold own_words, absent; cbn [map In app]; tauto.

(* ---------------------------------------------------------------- the header alone *)

Section Header.
Variables (c : config) (cfg : str -> bool).
Hypothesis U : usable c cfg.
Hypothesis O : own_names c.
Lemma own_ne n x : In n (symbol_names c) -> starts_with $"GDO_" x = true \/ starts_with $"gdo_" x = true -> str_eqb x n = false.
Proof. intros I H. apply str_eqb_neq. exact (own_not c n x O I H). Qed.
Lemma raw_ne n : In n (symbol_names c) -> str_eqb ($"GDO_RAWPTR_" ++ n) n = false.
Proof. intro I. apply own_ne; [exact I|left; now apply starts_app]. Qed.
Lemma wrap_ne n : In n (symbol_names c) -> str_eqb ($"GDO_WRAP_" ++ n) n = false.
Proof. intro I. apply own_ne; [exact I|left; now apply starts_app]. Qed.

(** the four macros behind any text that does not define them again *)
Lemma names_mean a rest m n : front_facts (c_param c) a -> (forall x, macro_at m x = macro_at (macros_of (hout c cfg a ++ rest)) x) -> In n (symbol_names c) ->
  (forall x, In x [$"GDO_FUNC_ALIAS"; $"GDO_RAWPTR_" ++ n; $"gdo_hndl"; $"GDO_PTR_" ++ n; $"GDO_WRAP_" ++ n] -> last_def x rest = None) ->
  becomes m [TWord ($"GDO_RAWPTR_" ++ n)] (pointer n) /\
  (macro_at m n = Some (mkdef None (object_alias n)) -> becomes m [TWord n] (pn "*" :: pointer n)) /\
  (macro_at m n = Some (mkdef None (named_alias n)) -> (wrapping cfg = true -> n <> $"DECL") -> becomes m [TWord n] (if wrapping cfg then [TWord ($"GDO_WRAP_" ++ n)] else pointer n)) /\
  (macro_at m n = Some (mkdef None (object_alias n)) -> forall l r, steps m l r -> steps m ((TWord n, []) :: l) (pn "*" :: pointer n ++ r)).
Proof.
  intros F M I R. pose proof (u_plain c cfg U) as P.
  assert (L : forall x, In x [$"GDO_FUNC_ALIAS"; $"GDO_RAWPTR_" ++ n; $"gdo_hndl"; $"GDO_PTR_" ++ n; $"GDO_WRAP_" ++ n] ->
            macro_at m x = match last_def x (hout c cfg a) with Some o => meaning o | None => None end).
  { intros x Ix. rewrite M, macro_at_def, last_def_app. now rewrite (R x Ix). }
  cbn [In] in L.
  assert (A : macro_at m $"GDO_FUNC_ALIAS" = Some (func_alias (wrapping cfg))).
  { rewrite L by tauto. rewrite h_alias by assumption. now destruct (wrapping cfg). }
  assert (B : macro_at m ($"GDO_RAWPTR_" ++ n) = Some (mkdef None (pointer n))) by (rewrite L by tauto; now rewrite h_ptr by assumption).
  assert (C : macro_at m $"gdo_hndl" = None) by (rewrite L by tauto; now rewrite h_hndl by assumption).
  assert (D : macro_at m ($"GDO_PTR_" ++ n) = None) by (rewrite L by tauto; now rewrite h_field by assumption).
  split; [now apply raw_pointer|]. split; [|split].
  - intro E. apply raw_object; try assumption. now apply raw_ne.
  - intros E W. apply raw_function; try assumption; [apply own_ne; [exact I|now left]|now apply raw_ne|].
    intro Wt. rewrite L by tauto. now rewrite (h_wrap c cfg a F P O) by now apply W.
  - intros E l r S. apply s_variable; try assumption. now apply raw_ne.
Qed.

Lemma header_pointers : exists out, preprocess cfg (header_text c) = Some out /\ (forall n, In n (symbol_names c) -> becomes (macros_of out) [TWord ($"GDO_RAWPTR_" ++ n)] (pointer n)) /\
  (~ In $"_T" (symbol_names c) -> macro_at (macros_of out) $"_T" = Some (mkdef (Some ([$"x"], false)) [wd "x"])).
Proof.
  destruct (header_reads c cfg U) as (a & F & _ & H). exists (hout c cfg a). split; [exact (header_out c cfg a H)|]. split.
  - intros n I. apply (names_mean a [] _ n F); [now rewrite app_nil_r|exact I|reflexivity].
  - intro N. rewrite macro_at_def, (tail_def c cfg a (u_plain c cfg U)) by (discriminate || exact N). now rewrite (h_text c cfg a F).
Qed.
Lemma header_names : cfg $"GDO_SEPARATE" = true -> cfg $"GDO_INCLUDED_IN_BODY" = false -> cfg $"GDO_DISABLE_ALIASING" = false ->
  exists out, preprocess cfg (header_text c) = Some out /\
    (forall n, In n (map p_symbol (c_funcs c)) -> (if visible cfg then wrapping cfg = true /\ ~ In n other_macros else wrapping cfg = true -> n <> $"DECL") ->
       becomes (macros_of out) [TWord n] (meant cfg n)) /\
    (forall n, In n (map p_symbol (c_objs c)) -> becomes (macros_of out) [TWord n] (pn "*" :: pointer n)) /\
    (forall n, In n (map p_symbol (c_objs c)) -> forall l r, steps (macros_of out) l r -> steps (macros_of out) ((TWord n, []) :: l) (pn "*" :: pointer n ++ r)).
Proof.
  intros E1 E2 E3. destruct (header_reads c cfg U) as (a & F & K & H). exists (hout c cfg a). split; [exact (header_out c cfg a H)|].
  assert (S : feval cfg f_sep = true) by (cbn [f_sep feval]; now rewrite E1, E2, E3).
  assert (L : forall n, In n (symbol_names c) -> last_def n (aliases c (negb (visible cfg)) true) <> None -> last_def n (hout c cfg a) = last_def n (aliases c (negb (visible cfg)) true)).
  { intros n I N. unfold hout, tail_of. rewrite !outs_app, !last_def_app, (h_names c cfg (u_plain c cfg U)), S. cbn [andb]. now destruct (last_def n (aliases _ _ _)). }
  pose proof (u_names c cfg U) as ND. split; [|split].
  - intros n I V. assert (Is : In n (symbol_names c)) by (unfold symbol_names; rewrite map_app; apply in_app_iff; now left).
    unfold meant. destruct (visible cfg) eqn:Vis.
    { destruct V as [W N]. rewrite W. cbn [wrapper_name]. apply becomes_steps. cbn [map]. apply s_word; [|apply s_nil]. rewrite macro_at_def.
      unfold hout, tail_of. rewrite !outs_app, !last_def_app, (h_names c cfg (u_plain c cfg U)), S, Vis, (alias_func c ND _ _ n I). cbn [andb negb].
      rewrite (exact_def cfg c n g_alias []) by (cbn [g_alias filter may snd]; now rewrite (proj2 (str_eqb_neq n $"GDO_FUNC_ALIAS") (fun E => own_not c n $"GDO_FUNC_ALIAS" O Is (or_introl eq_refl) (eq_sym E)))).
      rewrite wrapper_def, (unknown c cfg a n K (proj1 (O n Is)) N). reflexivity. }
    cbn [wrapper_name]. apply (names_mean a [] _ n F); [now rewrite app_nil_r|exact Is|reflexivity| |exact V].
    rewrite macro_at_def, L; [|exact Is|]; rewrite (alias_func c ND _ _ n I); cbn [negb]; [reflexivity|discriminate].
  - intros n I. assert (Is : In n (symbol_names c)) by (unfold symbol_names; rewrite map_app; apply in_app_iff; now right).
    refine (proj1 (proj2 (names_mean a [] _ n F _ Is _)) _); [now rewrite app_nil_r|reflexivity|].
    rewrite macro_at_def, L; [|exact Is|]; rewrite (alias_obj c _ n I); [reflexivity|discriminate].
  - intros n I. assert (Is : In n (symbol_names c)) by (unfold symbol_names; rewrite map_app; apply in_app_iff; now right).
    refine (proj2 (proj2 (proj2 (names_mean a [] _ n F _ Is _))) _); [now rewrite app_nil_r|reflexivity|].
    rewrite macro_at_def, L; [|exact Is|]; rewrite (alias_obj c _ n I); [reflexivity|discriminate].
Qed.
Lemma header_meaning : cfg $"GDO_SEPARATE" = true -> cfg $"GDO_INCLUDED_IN_BODY" = false -> cfg $"GDO_DISABLE_ALIASING" = false ->
  exists out, preprocess cfg (header_text c) = Some out /\
    (forall n, In n (map p_symbol (c_funcs c)) -> (if visible cfg then wrapping cfg = true /\ ~ In n other_macros else wrapping cfg = true -> n <> $"DECL") ->
       becomes (macros_of out) [TWord n] (meant cfg n)) /\
    (forall n, In n (map p_symbol (c_objs c)) -> becomes (macros_of out) [TWord n] (pn "*" :: pointer n)).
Proof. intros E1 E2 E3. destruct (header_names E1 E2 E3) as (out & H & A & B & _). exists out. auto. Qed.
End Header.

(* ---------------------------------------------------------------- the header and the body *)

Lemma included_reads c cfg : usable c cfg -> exists a, front_facts (c_param c) a /\ set_facts a /\ preprocess cfg (header_text c) = Some (hout c cfg a) /\
  ((forall x, In x absent -> defined_after cfg (hout c cfg a) x = false) ->
   preprocess cfg (included_text c) = Some (hout c cfg a ++ bout c (defined_after cfg (hout c cfg a)))).
Proof.
  intro U. destruct (header_reads c cfg U) as (a & F & S & H). exists a. split; [exact F|]. split; [exact S|]. split; [exact (header_out c cfg a H)|].
  intro A. unfold included_text. rewrite H. fold (hout c cfg a). unfold library_text. destruct U as [L D P ND Hk Ab].
  rewrite (body_text c (defined_after cfg (hout c cfg a)) L D P A). unfold bout. now rewrite program_ok.
Qed.
Lemma inst_app d c p q : inst d c (p ++ q) = inst d c p ++ inst d c q.
Proof. unfold inst. apply flat_map_app. Qed.
Lemma print_two a b : print (a ++ b) = print a ++ print b.
Proof. unfold print. apply flat_map_app. Qed.
Lemma behind_some o r x : behind o r = Some (o ++ x) -> r = Some x.
Proof. destruct r as [r|]; [|discriminate]. cbn [behind]. intro H. f_equal. apply (app_inv_head o). congruence. Qed.
(** tokens define nothing *)
Lemma common_def d c x a b : last_def x (a ++ print (inst d c common_part) ++ b) = last_def x (a ++ b).
Proof. destruct (common_tokens d c) as [l ->]. rewrite !last_def_app, toks_def. now destruct (last_def x b). Qed.
Lemma single_def d c p x h1 h2 : last_def x (h1 ++ print (inst d c common_part) ++ h2 ++ print (inst d c (other_part p))) = last_def x ((h1 ++ h2) ++ print (inst d c (body_of p))).
Proof. rewrite common_def, two_parts, inst_app, print_two, (common_def d c x (h1 ++ h2)). now rewrite app_assoc. Qed.
Lemma same_macros a b : (forall x, last_def x a = last_def x b) -> forall x, macro_at (macros_of a) x = macro_at (macros_of b) x.
Proof. intros H x. now rewrite !macro_at_def, H. Qed.
Section Single.
Variables (c : config) (cfg : str -> bool).
Hypothesis U : usable c cfg.
Hypothesis quiet : feval cfg f_sep = false.
Lemma no_aliases : outs cfg c g_aliases = [].
Proof. rewrite (alias_out cfg c (u_plain c cfg U)), quiet. reflexivity. Qed.
Lemma single_tail a x : x <> $"GDO_FUNC_ALIAS" -> last_def x (hout c cfg a) = last_def x (outs cfg c a).
Proof.
  intro N. unfold hout, tail_of. rewrite !outs_app, !last_def_app, no_aliases, wrapper_def. cbn [last_def].
  rewrite (exact_def cfg c x g_alias []); [reflexivity|]. cbn [g_alias filter may snd]. rewrite (proj2 (str_eqb_neq x $"GDO_FUNC_ALIAS") N). reflexivity.
Qed.
Lemma set_before a x : x <> $"GDO_FUNC_ALIAS" -> defined_after cfg (hout c cfg a) x = match last_def x (outs cfg c a) with Some o => is_define o | None => cfg x end.
Proof. intro N. now rewrite defined_def, single_tail. Qed.
Lemma kept a x : front_facts (c_param c) a -> In x own_words -> defined_after cfg (hout c cfg a) x = cfg x.
Proof.
  intros F I. rewrite set_before, (untouched c cfg a x F I); [reflexivity|]. unfold own_words, absent in I. cbn [map In app] in I. intros ->. decompose [or] I; try discriminate; contradiction.
Qed.
Lemma included_out : exists a, front_facts (c_param c) a /\ set_facts a /\ preprocess cfg (header_text c) = Some (hout c cfg a) /\
   preprocess cfg (included_text c) = Some (hout c cfg a ++ bout c (defined_after cfg (hout c cfg a))).
Proof.
  destruct (included_reads c cfg U) as (a & F & S & H & B). exists a. split; [exact F|]. split; [exact S|]. split; [exact H|]. apply B. intros x I. rewrite (kept a x F).
  - now apply (u_absent c cfg U).
  - unfold own_words. apply in_app_iff. now right.
Qed.
(** in a single file, the functions of common.c stand between the two headers *)
Lemma single_out : exists a h1 h2, front_facts (c_param c) a /\ set_facts a /\ preprocess cfg (header_text c) = Some (hout c cfg a) /\ hout c cfg a = h1 ++ h2 /\
   let d := defined_after cfg (hout c cfg a) in
   preprocess cfg (single_text c) = Some (h1 ++ print (inst d c common_part) ++ h2 ++ print (inst d c (other_part (c_param c)))).
Proof.
  destruct (header_reads c cfg U) as (a & F & S & H). destruct (order_reads c cfg U quiet) as (h1 & h2 & R1 & R2 & R3 & R4 & R5). exists a, h1, h2.
  assert (Hh : preprocess cfg (header_text c) = Some (hout c cfg a)) by exact (header_out c cfg a H).
  assert (E : hout c cfg a = h1 ++ h2).
  { pose proof Hh as E. rewrite (header_two c (u_line c cfg U)), R1 in E. rewrite <- (app_nil_r (text_of c TCH)), R4 in E. cbn in E. rewrite app_nil_r in E. congruence. }
  do 3 (split; [assumption|]). split; [exact E|]. cbv zeta. assert (D2 : forall x, defined_after (defined_after cfg h1) h2 x = defined_after cfg (hout c cfg a) x) by (intro x; rewrite E, !defined_def, last_def_app; now destruct (last_def x h2)).
  assert (Ab : forall x, In x absent -> defined_after cfg (hout c cfg a) x = false).
  { intros x I. rewrite (kept a x F); [now apply (u_absent c cfg U)|]. unfold own_words. apply in_app_iff. now right. }
  pose proof (body_text c (defined_after cfg (hout c cfg a)) (u_line c cfg U) (u_prefix c cfg U) (u_plain c cfg U) Ab) as B.
  change (preprocess (defined_after cfg (hout c cfg a)) (library_text c) = Some (print (inst (defined_after cfg (hout c cfg a)) c (body_of (c_param c))))) in B.
  rewrite (library_two c (u_line c cfg U)), (R2 _ _ Ab), two_parts, inst_app, print_two in B.
  assert (C : preprocess (defined_after cfg (hout c cfg a)) (text_of c TCC) = Some (print (inst (defined_after cfg (hout c cfg a)) c (other_part (c_param c))))) by (apply behind_some in B; exact B).
  rewrite (single_shown c (u_line c cfg U)), R1, (R2 _ _ R3), R4, <- defined_after_app, <- E, C. cbn [behind].
  rewrite (common_same (defined_after cfg h1) (defined_after cfg (hout c cfg a))); [reflexivity|]. intros x I. rewrite <- D2. symmetry. now apply R5.
Qed.
(** the names *)
Lemma single_names : own_names c -> cfg $"GDO_SEPARATE" = false -> cfg $"GDO_DISABLE_ALIASING" = false -> cfg $"GDO_WRAP_IS_VISIBLE" = false ->
  exists out, preprocess cfg (single_text c) = Some out /\
    (forall n, In n (symbol_names c) -> becomes (macros_of out) [TWord ($"GDO_RAWPTR_" ++ n)] (pointer n)) /\
    (forall n, In n (map p_symbol (c_funcs c)) -> (wrapping cfg = true -> n <> $"DECL") -> becomes (macros_of out) [TWord n] (if wrapping cfg then [TWord ($"GDO_WRAP_" ++ n)] else pointer n)) /\
    (forall n, In n (map p_symbol (c_objs c)) -> becomes (macros_of out) [TWord n] (pn "*" :: pointer n)) /\
    (forall n, In n (map p_symbol (c_objs c)) -> forall l r, steps (macros_of out) l r -> steps (macros_of out) ((TWord n, []) :: l) (pn "*" :: pointer n ++ r)).
Proof.
  intros O single E2 E3. destruct single_out as (a & h1 & h2 & F & S & _ & Eh & H). cbv zeta in H. eexists. split; [exact H|]. set (cfg2 := defined_after cfg (hout c cfg a)) in *. set (out := h1 ++ _).
  assert (Ld : forall x, last_def x out = last_def x (hout c cfg a ++ bout c cfg2)) by (intro x; unfold out; rewrite single_def, Eh; unfold bout; now rewrite program_ok).
  clearbody out. clear H.
  assert (B : forall x, In x [$"GDO_SEPARATE"; $"GDO_DISABLE_ALIASING"; $"GDO_WRAP_IS_VISIBLE"] -> cfg2 x = cfg x).
  { intros x I. apply (kept a x F). cbn [In] in I. decompose [or] I; subst; try contradiction; own. }
  assert (T : feval cfg2 f_single = true) by (cbn [f_single feval]; rewrite !B by (cbn [In]; tauto); now rewrite single, E2).
  assert (V : cfg2 $"GDO_WRAP_IS_VISIBLE" = false) by (rewrite B by (cbn [In]; tauto); exact E3). clearbody cfg2.
  pose proof (u_plain c cfg U) as P. pose proof (u_names c cfg U) as ND.
  assert (R : forall n x, In n (symbol_names c) -> In x [$"GDO_FUNC_ALIAS"; $"GDO_RAWPTR_" ++ n; $"gdo_hndl"; $"GDO_PTR_" ++ n; $"GDO_WRAP_" ++ n] -> last_def x (bout c cfg2) = None).
  { intros n x I J. apply body_other; [exact P| |].
    - apply not_own; [exact O|]. cbn [In] in J. decompose [or] J; subst; try contradiction; try (left; reflexivity); now right.
    - cbn [In] in J. intro K. unfold body_names in K. cbn [map In] in K. decompose [or] J; decompose [or] K; subst; try contradiction; discriminate. }
  assert (A : forall n p, In n (symbol_names c) -> last_def n (aliases c true true) = Some (PDefine n false p) -> last_def n (hout c cfg a ++ bout c cfg2) = Some (PDefine n false p)).
  { intros n p I D. rewrite last_def_app. destruct (body_def c cfg2 n P) as (l & -> & _).
    - intro E. exact (own_not c n $"GDO_SET_LAST_ERRNO" O I (or_introl eq_refl) (eq_sym E)).
    - intro E. exact (own_not c n $"GDO_SNPRINTF" O I (or_introl eq_refl) (eq_sym E)).
    - rewrite T, V. cbn [andb negb]. now rewrite D. }
  split; [|split; [|split]].
  - intros n I. exact (proj1 (names_mean c cfg U O a _ _ n F (same_macros _ _ Ld) I (fun x => R n x I))).
  - intros n I W. assert (Is : In n (symbol_names c)) by (unfold symbol_names; rewrite map_app; apply in_app_iff; now left).
    apply (names_mean c cfg U O a _ _ n F (same_macros _ _ Ld) Is (fun x => R n x Is)); [|exact W].
    rewrite macro_at_def, Ld, (A n (named_alias n) Is); [reflexivity|]. now rewrite (alias_func c ND _ _ n I).
  - intros n I. assert (Is : In n (symbol_names c)) by (unfold symbol_names; rewrite map_app; apply in_app_iff; now right).
    refine (proj1 (proj2 (names_mean c cfg U O a _ _ n F (same_macros _ _ Ld) Is (fun x => R n x Is))) _).
    rewrite macro_at_def, Ld, (A n (object_alias n) Is); [reflexivity|]. now rewrite (alias_obj c _ n I).
  - intros n I. assert (Is : In n (symbol_names c)) by (unfold symbol_names; rewrite map_app; apply in_app_iff; now right).
    refine (proj2 (proj2 (proj2 (names_mean c cfg U O a _ _ n F (same_macros _ _ Ld) Is (fun x => R n x Is)))) _).
    rewrite macro_at_def, Ld, (A n (object_alias n) Is); [reflexivity|]. now rewrite (alias_obj c _ n I).
Qed.
End Single.

(* ---------------------------------------------------------------- what the library does *)

Lemma one_set cfg c a x f : filter (may true x) a = [(f, GDef x false [])] -> (match last_def x (outs cfg c a) with Some o => is_define o | None => cfg x end) = forallb (feval cfg) f || cfg x.
Proof.
  intro E. rewrite (exact_def cfg c x a _ E), outs_one. destruct (forallb (feval cfg) f); [|reflexivity]. unfold iout; cbn [fst snd forallb last_def names_it named]. now rewrite eq_refl_str.
Qed.
Lemma target_build k c cfg a : usable c cfg -> feval cfg f_sep = false -> target k c cfg -> front_facts (c_param c) a -> set_facts a -> build k c (defined_after cfg (hout c cfg a)).
Proof.
  intros U Sg T F (_ & S1 & S2 & S3 & S4 & S5).
  assert (B : forall x, x <> $"GDO_FUNC_ALIAS" -> defined_after cfg (hout c cfg a) x = match last_def x (outs cfg c a) with Some o => is_define o | None => cfg x end) by (intros x Nx; exact (set_before c cfg U Sg a x Nx)).
  split.
  - exact (t_ok k c cfg T).
  - exact (t_names k c cfg T).
  - intros x I. rewrite (kept c cfg U Sg a x F); [now apply (t_absent k c cfg T)|]. unfold own_words. apply in_app_iff. now right.
  - rewrite B by discriminate. rewrite (one_set cfg c a _ _ S3), (t_dlmopen k c cfg T). cbn [forallb feval any_of existsb].
    unfold any_of; cbn [existsb]. now destruct (cfg $"GDO_HAVE_DLMOPEN"), (cfg $"__GLIBC__"), (cfg $"__sun").
  - rewrite B by discriminate. rewrite (one_set cfg c a _ _ S2), (t_dlinfo k c cfg T). cbn [forallb feval]. unfold any_of; cbn [existsb].
    rewrite ?orb_false_r, ?andb_true_r. destruct (cfg $"GDO_HAVE_DLINFO"); [reflexivity|]. cbn [negb andb orb]. now rewrite orb_false_r.
  - rewrite B by discriminate. rewrite (one_set cfg c a _ _ S1), (t_dladdr k c cfg T). reflexivity.
  - rewrite (kept c cfg U Sg a _ F) by own. symmetry. exact (t_linux k c cfg T).
  - rewrite B by discriminate. rewrite (one_set cfg c a _ _ S4), (t_auto k c cfg T). cbn [forallb feval].
    destruct (cfg $"GDO_ENABLE_AUTOLOAD_LAZY"), (cfg $"GDO_ENABLE_AUTOLOAD"); reflexivity.
  - intros _. rewrite (kept c cfg U Sg a _ F) by own. rewrite (t_auto k c cfg T). destruct (cfg $"GDO_ENABLE_AUTOLOAD_LAZY"); [reflexivity|]. now destruct (cfg $"GDO_ENABLE_AUTOLOAD").
  - exact (t_lib k c cfg T).
Qed.
Lemma target_offers k c cfg a o : usable c cfg -> feval cfg f_sep = false -> target k c cfg -> front_facts (c_param c) a -> set_facts a -> offered c cfg o = true -> callable k c (defined_after cfg (hout c cfg a)) o = true.
Proof.
  intros U Sg T F S. pose proof (target_build k c cfg a U Sg T F S) as B. destruct S as (_ & _ & _ & _ & _ & f & S5 & Ef).
  assert (D : defined_after cfg (hout c cfg a) $"GDO_DEFAULT_LIB" = default_lib cfg).
  { rewrite (set_before c cfg U Sg) by discriminate. rewrite (exact_def cfg c _ a _ S5), outs_one. unfold default_lib, any_of. cbn [forallb feval existsb]. subst f. cbn [feval].
    rewrite (u_absent c cfg U $"_WIN32"), (u_absent c cfg U $"GDO_WINAPI"), (u_absent c cfg U $"_GDO_TARGET_WIDECHAR") by (unfold absent; cbn [In]; tauto). cbn [andb orb negb]. rewrite !orb_false_r, !andb_true_r.
    destruct (cfg $"GDO_DEFAULT_LIB") eqn:E; cbn [negb andb]; [reflexivity|]. destruct (cfg $"GDO_DEFAULT_LIBA"), (cfg $"GDO_HARDCODED_DEFAULT_LIBA"); reflexivity. }
  destruct o; cbn [offered callable]; try reflexivity; try (now rewrite D).
  rewrite D, (b_auto _ _ _ B), (kept c cfg U Sg a _ F) by own. rewrite (t_auto k c cfg T). unfold wrapping.
  destruct (cfg $"GDO_WRAP_FUNCTIONS"), (cfg $"GDO_ENABLE_AUTOLOAD_LAZY"), (cfg $"GDO_ENABLE_AUTOLOAD"), (default_lib cfg), (c_param c); cbn; intro H; congruence.
Qed.
(** the functions behave in the same way whatever stands between them *)
Lemma library_runs k c cfg a : usable c cfg -> feval cfg f_sep = false -> target k c cfg -> front_facts (c_param c) a -> set_facts a ->
  let fs := functions (header_macros (symbol_names c)) (inst (defined_after cfg (hout c cfg a)) c (body_of (c_param c))) in
  (forall w ops, Forall (fun o => offered c cfg o = true) ops -> c_run k w fs ops = run k w ops) /\
  (forall w ops, lib_printable k -> Forall (fun o => offered c cfg o = true) ops -> exists s, c_run k w fs ops = Ok s).
Proof.
  intros U Sg T F S. pose proof (target_build k c cfg a U Sg T F S) as Bd.
  assert (A : forall ops, Forall (fun o => offered c cfg o = true) ops -> Forall (fun o => callable k c (defined_after cfg (hout c cfg a)) o = true) ops).
  { intros ops. apply Forall_impl. intros o. now apply target_offers. }
  cbv zeta. change (functions (header_macros (symbol_names c)) (inst (defined_after cfg (hout c cfg a)) c (body_of (c_param c)))) with (CBodyFuns.funs (defined_after cfg (hout c cfg a)) c (c_param c)). split; intros w ops.
  - intros Ho. apply CBodyProps.run_same; [exact Bd|exact (u_plain c cfg U)|now apply A].
  - intros L Ho. apply CBodyProps.never_wrong; [exact Bd|exact (u_plain c cfg U)|exact L|now apply A].
Qed.
Lemma single_quiet cfg : cfg $"GDO_SEPARATE" = false -> feval cfg f_sep = false.
Proof. intro H. cbn [f_sep feval]. now rewrite H. Qed.
Lemma body_quiet cfg : cfg $"GDO_INCLUDED_IN_BODY" = true -> feval cfg f_sep = false.
Proof. intro H. cbn [f_sep feval]. rewrite H. now destruct (cfg $"GDO_SEPARATE"). Qed.
Theorem single_program k c cfg : usable c cfg -> target k c cfg -> cfg $"GDO_SEPARATE" = false ->
  exists h1 p1 h2 p2, preprocess cfg (header_text c) = Some (h1 ++ h2) /\ preprocess cfg (single_text c) = Some (h1 ++ print p1 ++ h2 ++ print p2) /\
    let fs := functions (header_macros (symbol_names c)) (p1 ++ p2) in
    (forall w ops, Forall (fun o => offered c cfg o = true) ops -> c_run k w fs ops = run k w ops) /\
    (forall w ops, lib_printable k -> Forall (fun o => offered c cfg o = true) ops -> exists s, c_run k w fs ops = Ok s).
Proof.
  intros U T Sg. apply single_quiet in Sg. destruct (single_out c cfg U Sg) as (a & h1 & h2 & F & S & H & E & B). cbv zeta in B.
  eexists h1, _, h2, _. split; [now rewrite <- E|]. split; [exact B|]. cbv zeta. rewrite <- inst_app, <- two_parts. exact (library_runs k c cfg a U Sg T F S).
Qed.
Lemma texts_in_order : forall c s, Options.o_format s = Options.FmtC ->
  (separate s = false -> single_text c = concat (filled_texts c (map shipped (SpecGenerate.header_templates s)))) /\
  (separate s = true -> included_text c = concat (filled_texts c (map shipped (SpecGenerate.header_templates s))) ++ concat (filled_texts c (map shipped (SpecGenerate.body_templates s)))).
Proof.
  intros c s E. unfold included_text, header_text, library_text, single_text, SpecGenerate.header_templates, SpecGenerate.body_templates. rewrite E. cbn [SpecGenerate.format_sources].
  split; intros ->; cbn [map]; exact eq_refl.
Qed.
Theorem body_file k c cfg : usable c cfg -> target k c cfg -> cfg $"GDO_INCLUDED_IN_BODY" = true ->
  exists out prog, preprocess cfg (header_text c) = Some out /\ preprocess cfg (included_text c) = Some (out ++ print prog) /\
    let fs := functions (header_macros (symbol_names c)) prog in
    (forall w ops, Forall (fun o => offered c cfg o = true) ops -> c_run k w fs ops = run k w ops) /\
    (forall w ops, lib_printable k -> Forall (fun o => offered c cfg o = true) ops -> exists s, c_run k w fs ops = Ok s).
Proof.
  intros U T Sg. apply body_quiet in Sg. destruct (included_out c cfg U Sg) as (a & F & S & H & B). eexists _, _. split; [exact H|]. split; [rewrite B; unfold bout; rewrite program_ok; reflexivity|].
  exact (library_runs k c cfg a U Sg T F S).
Qed.

(* ---------------------------------------------------------------- the wrappers *)

Theorem header_wrapper c cfg e : usable c cfg -> c_param c <> PSkip -> wrapping cfg = true -> In e (c_funcs c) -> plain_names e -> plain_words e ->
  exists pre src post, preprocess cfg (header_text c) = Some (pre ++ map PTok src ++ post) /\ becomes (macros_of pre) src (wrapper (visible cfg) e).
Proof.
  intros U NS W I PN [PW ND].
  destruct (wrapper_there c cfg e U NS W I PN) as (a & pre & src & post & F & S & M & H & B). exists pre, src, post. split; [exact H|]. apply B. intros t w It ->. rewrite M. unfold at_front.
  rewrite !in_app_iff in It. cbn [In] in It. destruct (str_eqb w ($"GDO_WRAP_" ++ p_symbol e)) eqn:E.
  - apply str_eqb_eq in E as ->. destruct F as (_ & _ & _ & _ & _ & _ & _ & _ & _ & _ & G & _). rewrite (front_def cfg c _ (p_symbol e) a _ G).
    assert (E : $"GDO_WRAP_" ++ p_symbol e <> $"GDO_WRAP_DECL") by (intro E; apply ND; apply (app_inv_head $"GDO_WRAP_"); exact E).
    rewrite (exact_def cfg c ($"GDO_WRAP_" ++ p_symbol e) g_decl []); [reflexivity|]. unfold g_decl. cbn [filter may snd]. now rewrite (proj2 (str_eqb_neq _ _) E).
  - apply str_eqb_neq in E. destruct (PW w) as [P1 P2]; [|now rewrite (unknown c cfg a w S P1 P2)]. rewrite !in_app_iff. cbn [In].
    destruct It as [It|[It|[It|[It|[It|[]]]]]]; try tauto. congruence.
Qed.

(* ---------------------------------------------------------------- two cases where a name does not lead to the wrapper *)

Lemma becomes_unique m l r s : becomes m l r -> becomes m l s -> r = s.
Proof.
  intros (n1 & x1 & E1 & <-) (n2 & x2 & E2 & <-). pose proof (replace_mono m n1 (n1 + n2) _ _ E1 ltac:(lia)). pose proof (replace_mono m n2 (n1 + n2) _ _ E2 ltac:(lia)). congruence.
Qed.
Lemma single_meant c cfg : usable c cfg -> own_names c -> cfg $"GDO_SEPARATE" = false -> cfg $"GDO_DISABLE_ALIASING" = false -> cfg $"GDO_WRAP_IS_VISIBLE" = false ->
  (wrapping cfg = true -> visible cfg = false) ->
  exists out, preprocess cfg (single_text c) = Some out /\
    (forall n, In n (map p_symbol (c_funcs c)) -> (wrapping cfg = true -> n <> $"DECL") -> becomes (macros_of out) [TWord n] (meant cfg n)) /\
    (forall n, In n (map p_symbol (c_objs c)) -> becomes (macros_of out) [TWord n] (pn "*" :: pointer n)).
Proof.
  intros U O E1 E2 E3 V. destruct (single_names c cfg U (single_quiet cfg E1) O E1 E2 E3) as (out & H & _ & F & B & _). exists out. split; [exact H|]. split; [|exact B].
  intros n I W. specialize (F n I W). unfold meant. destruct (wrapping cfg) eqn:Wr; [|exact F]. now rewrite (V eq_refl).
Qed.
Lemma single_visible c cfg n : usable c cfg -> own_names c -> cfg $"GDO_SEPARATE" = false -> cfg $"GDO_DISABLE_ALIASING" = false -> cfg $"GDO_WRAP_IS_VISIBLE" = false ->
  wrapping cfg = true -> visible cfg = true -> In n (map p_symbol (c_funcs c)) -> n <> $"DECL" ->
  exists out, preprocess cfg (single_text c) = Some out /\ meant cfg n = [TWord n] /\ becomes (macros_of out) [TWord n] [TWord ($"GDO_WRAP_" ++ n)] /\ ~ becomes (macros_of out) [TWord n] (meant cfg n).
Proof.
  intros U O E1 E2 E3 W V I N. destruct (single_names c cfg U (single_quiet cfg E1) O E1 E2 E3) as (out & H & _ & F & _). exists out. split; [exact H|]. specialize (F n I (fun _ => N)). rewrite W in F.
  unfold meant. rewrite W, V. cbn [wrapper_name]. split; [reflexivity|]. split; [exact F|]. intro B. pose proof (becomes_unique _ _ _ _ F B) as E0. assert (E : $"GDO_WRAP_" ++ n = n) by congruence.
  assert (Is : In n (symbol_names c)) by (unfold symbol_names; rewrite map_app; apply in_app_iff; now left).
  pose proof (wrap_ne c O n Is) as Q. rewrite E, eq_refl_str in Q. discriminate.
Qed.

Definition skip_config : config := mkcfg false PSkip (set_prefix $"gdo") [mkproto KFunction $"int" $"foo_one" $"int" [[$"int"]] []] [].
Definition wrap_macros (x : str) : bool := existsb (str_eqb x) [$"__linux__"; $"__GLIBC__"; $"GDO_WRAP_FUNCTIONS"].
Lemma no_wrapper : match preprocess wrap_macros (single_text skip_config) with Some out => existsb (names_wrapper $"foo_one") out | None => true end = false.
Proof. vm_compute. reflexivity. Qed.
Lemma skip_usable : usable skip_config wrap_macros /\ own_names skip_config.
Proof.
  split; [split|].
  - reflexivity.
  - split; reflexivity.
  - split; [|constructor]. repeat (apply Forall_cons; [split; [|split; [|split; [|split; [|discriminate]]]]; repeat constructor|]); constructor.
  - repeat constructor. intros [].
  - intros e [<-|[]]. split; reflexivity.
  - intros x [<-|[<-|[<-|[<-|[<-|[]]]]]]; reflexivity.
  - intros n [<-|[]]. split; reflexivity.
Qed.
Lemma single_skip : exists out, preprocess wrap_macros (single_text skip_config) = Some out /\
  becomes (macros_of out) [TWord $"foo_one"] [TWord $"GDO_WRAP_foo_one"] /\ existsb (names_wrapper $"foo_one") out = false.
Proof.
  destruct skip_usable as [U O]. destruct (single_names skip_config wrap_macros U eq_refl O eq_refl eq_refl eq_refl) as (out & H & _ & F & _). exists out. split; [exact H|]. split.
  - exact (F $"foo_one" (or_introl eq_refl) (fun _ => ltac:(discriminate))).
  - pose proof no_wrapper as N. rewrite H in N. exact N.
Qed.

(** Proofs for C100: the file that the program writes, as a compiler reads it. *)
From Coq Require Import Ascii String List Bool Arith Lia.
From Verif Require Import Str StrFacts Parse ParamNames Prefix Substitute Data Options Generate SpecPrefix SpecSubstitute.
From Verif Require SpecGenerate SpecEndToEnd EndToEnd ShippedProps CTextFile CRuntime MacrosProps.
From Verif Require Import Templates SpecTemplates SpecCRuntime SpecCLang SpecCProg SpecCRun SpecCMacro SpecBody SpecHeader SpecCRead SpecCSyntax SpecCWhole SpecFile
  CTemplate CTemplateText CTemplatePP HTemplate HTemplatePP HText HMacro HHeader HOrder HSingle CExpandMain HFile.
Import ListNotations.

(* ---------------------------------------------------------------- macros that are set *)

Lemma preprocess_ext d d' t : (forall x, d x = d' x) -> preprocess d t = preprocess d' t.
Proof.
  intro H. unfold preprocess. destruct (c_tokens t) as [k|]; [|reflexivity].
  rewrite (under_lines d d' [] (fun x => eq_sym (H x)) (split_lines [] k) (mkp [] []) : pp_lines d (mkp [] []) _ = _).
  destruct (pp_lines d' (mkp [] []) (split_lines [] k)) as [[[g m] o]|]; [|reflexivity]. cbn [under p_groups p_macros]. now destruct g.
Qed.
Lemma own_defined names l : Forall (fun o => match o with PTok _ => False | PDefine x _ _ | PUndef x => In x names end) l -> forall x, ~ In x names -> last_def x l = None.
Proof.
  intros F x N. induction l as [|o l IH]; [reflexivity|]. inversion F as [|? ? H1 H2]; subst. cbn [last_def]. rewrite (IH H2).
  assert (names_it x o = false) as ->; [|reflexivity]. unfold names_it. destruct o as [t|y b k|y]; cbn; [reflexivity|apply str_eqb_neq; intros <-; contradiction|apply str_eqb_neq; intros <-; contradiction].
Qed.
Lemma mem_in x l : existsb (str_eqb x) l = true <-> In x l.
Proof. split; intro H; [apply existsb_exists in H as (y & I & E); apply str_eqb_eq in E; now subst|apply existsb_exists; exists x; split; [exact H|apply eq_refl_str]]. Qed.
Lemma fm_after cfg fm : Forall (fun o => match o with PTok _ => False | PDefine x _ _ | PUndef x => In x lib_names end) fm -> (forall x, In x lib_names -> defined_after cfg fm x = true) ->
  forall x, defined_after cfg fm x = existsb (str_eqb x) lib_names || cfg x.
Proof.
  intros F D x. destruct (existsb (str_eqb x) lib_names) eqn:E; [apply mem_in in E; now apply D|]. cbn [orb]. rewrite defined_def, (own_defined _ _ F); [reflexivity|].
  intro I. apply mem_in in I. congruence.
Qed.

(* ---------------------------------------------------------------- the texts around the templates *)

Lemma line_comment d r : Forall (fun c => c <> nl /\ c <> bslash) d -> lex_from MLine (d ++ r) = lex_from MLine r.
Proof.
  intro H. induction H as [|c d [A B] H IH]; [reflexivity|]. cbn [app lex_from lex_char]. apply Ascii.eqb_neq in A, B. rewrite A, B, IH. cbn [app]. now destruct (lex_from MLine r).
Qed.
Lemma note_lex date : match date with Some d => Forall (fun c => c <> nl /\ c <> bslash) d | None => True end -> lex_from MCode (note_text date) = (MCode, [TEnd; TEnd; TEnd; TEnd]).
Proof.
  intro H. unfold note_text.
  rewrite lex_app. change (lex_from MCode $"// Do not edit this file!") with (MLine, @nil tok). cbn [fst snd]. rewrite (lex_app MLine [nl]). change (lex_from MLine [nl]) with (MCode, [TEnd]). cbn [fst snd].
  rewrite lex_app. change (lex_from MCode $"// It was automatically generated by gendlopen") with (MLine, @nil tok). cbn [fst snd]. destruct date as [d|]; [|reflexivity].
  rewrite (line_comment ($" on " ++ d)); [reflexivity|]. apply Forall_app. split; [repeat constructor; discriminate|exact H].
Qed.
Lemma note_read cfg date : match date with Some d => Forall (fun c => c <> nl /\ c <> bslash) d | None => True end -> preprocess cfg (note_text date) = Some [].
Proof. intro H. unfold preprocess, c_tokens. rewrite (note_lex date H). reflexivity. Qed.
Lemma note_whole date : whole (note_text date).
Proof.
  right. unfold note_text. exists ($"// Do not edit this file!" ++ [nl] ++ $"// It was automatically generated by gendlopen" ++ match date with Some d => $" on " ++ d | None => [] end ++ $"." ++ [nl] ++ $"// All changes made will be lost."), nl.
  split; [|reflexivity]. now rewrite <- !app_assoc.
Qed.
Definition lic : str := license_text (shipped TLicense).
Lemma lic_end : match rev lic with n :: x :: _ => Ascii.eqb n nl && negb (Ascii.eqb x bslash) | _ => false end = true.
Proof. vm_compute. reflexivity. Qed.
Lemma rev_end (t : str) : match rev t with n :: x :: _ => Ascii.eqb n nl && negb (Ascii.eqb x bslash) | _ => false end = true -> whole t.
Proof.
  intro H. destruct (rev t) as [|n [|x r]] eqn:E; try discriminate. apply andb_true_iff in H as [H1 H2]. apply Ascii.eqb_eq in H1. apply negb_true_iff in H2. subst.
  right. exists (rev r), x. split; [|exact H2]. rewrite <- (rev_involutive t), E. cbn [rev]. now rewrite <- app_assoc.
Qed.
Lemma lic_lex : c_tokens lic = Some [TEnd].
Proof. vm_compute. reflexivity. Qed.
Lemma lic_read cfg : preprocess cfg lic = Some [].
Proof. unfold preprocess. rewrite lic_lex. reflexivity. Qed.
Lemma top_skipped cfg e s rest : plain_date e s -> preprocess cfg (SpecGenerate.top_text e s lic ++ rest) = preprocess cfg rest.
Proof.
  intro H. unfold SpecGenerate.top_text. rewrite <- app_assoc. rewrite (no_text cfg _ _ (note_whole _) (note_read cfg _ H)). exact (no_text cfg lic rest (rev_end lic lic_end) (lic_read cfg)).
Qed.
Definition extern_begin : str := $"#ifdef __cplusplus" ++ [nl] ++ $"extern " ++ [dquote] ++ $"C" ++ [dquote] ++ $" {" ++ [nl] ++ $"#endif" ++ [nl; nl].
Definition extern_end : str := $"#ifdef __cplusplus" ++ [nl] ++ $"} /* extern " ++ [dquote] ++ $"C" ++ [dquote] ++ $" */" ++ [nl] ++ $"#endif" ++ [nl].
Lemma in_cplusplus cfg t a b : c_tokens t = Some ([TOp $"#"; TWord $"ifdef"; TWord $"__cplusplus"; TEnd] ++ a ++ [TEnd; TOp $"#"; TWord $"endif"; TEnd] ++ b) -> ~ In TEnd a -> ~ In (TOp $"#") a -> b = [] \/ b = [TEnd] ->
  cfg $"__cplusplus" = false -> preprocess cfg t = Some [].
Proof.
  intros E A1 A2 B C. unfold preprocess. rewrite E.
  assert (split_lines [] ([TOp $"#"; TWord $"ifdef"; TWord $"__cplusplus"; TEnd] ++ a ++ [TEnd; TOp $"#"; TWord $"endif"; TEnd] ++ b) =
    [TOp $"#"; TWord $"ifdef"; TWord $"__cplusplus"] :: a :: [TOp $"#"; TWord $"endif"] :: split_lines [] b) as ->.
  { cbn [app split_lines]. f_equal. rewrite split_plain by exact A1. reflexivity. }
  cbn [pp_lines]. change (classify [TOp $"#"; TWord $"ifdef"; TWord $"__cplusplus"]) with (Some (LIf (CDef $"__cplusplus"))). cbn [pp_line p_groups p_macros holds]. unfold defined_in at 1 2. cbn [p_macros lookup]. rewrite C.
  rewrite (no_hash a A2). cbn [pp_line p_groups all_used forallb b_used andb]. destruct B as [-> | ->]; reflexivity.
Qed.
Lemma begin_read cfg : cfg $"__cplusplus" = false -> preprocess cfg extern_begin = Some [].
Proof. apply (in_cplusplus cfg extern_begin [TWord $"extern"; TText $"C"; TOp $"{"] [TEnd]); [vm_compute; reflexivity|cbn; intuition discriminate|cbn; intuition discriminate|now right]. Qed.
Lemma end_read cfg b : b = [] \/ b = [nl] -> cfg $"__cplusplus" = false -> preprocess cfg (extern_end ++ b) = Some [].
Proof.
  intros [-> | ->]; [apply (in_cplusplus cfg _ [TOp $"}"] [])|apply (in_cplusplus cfg _ [TOp $"}"] [TEnd])]; first [vm_compute; reflexivity|cbn; intuition discriminate|now left|now right].
Qed.
Lemma pragma_read cfg rest : preprocess cfg (([nl] ++ $"#pragma once" ++ [nl; nl]) ++ rest) = preprocess cfg rest.
Proof. apply no_text; [apply rev_end; reflexivity|reflexivity]. Qed.

(** the texts of the templates end with an empty line *)
Lemma texts_whole (L : list str) u : whole (concat (map (fun t => t ++ [nl]) (L ++ [u; []]))).
Proof. rewrite map_app, concat_app. cbn [map concat]. rewrite app_nil_r. right. exists (concat (map (fun t => t ++ [nl]) L) ++ u), nl. split; [rewrite <- !app_assoc; reflexivity|reflexivity]. Qed.
Definition ends_empty (l : list str) : bool := match rev l with [] :: x :: _ => match holes (parts 0 x) with [] => true | _ => false end | _ => false end.
Lemma last_lines : forallb (fun p => ends_empty (shown_lines p true (inner_lines (shipped TCC)))) [PSkip; PRead; PCreate] = true.
Proof. vm_compute. reflexivity. Qed.
Lemma expanded_whole c l l' : ends_empty l = true -> whole (concat (map (fun t => t ++ [nl]) (flat_map (expansion c) (l' ++ l)))).
Proof.
  unfold ends_empty. intro H. destruct (rev l) as [|y [|x r]] eqn:E; try discriminate; destruct y; try discriminate. destruct (holes (parts 0 x)) eqn:Hx; [|discriminate].
  assert (El : l = rev r ++ [x; []]) by (rewrite <- (rev_involutive l), E; cbn [rev]; now rewrite <- app_assoc). rewrite El, app_assoc, flat_map_app. cbn [flat_map]. unfold expansion at 2 3. rewrite Hx. cbn [parts holes app].
  apply texts_whole.
Qed.
Lemma single_whole c : c_line c = false -> whole (single_text c).
Proof.
  intro L. assert (forall p, ends_empty (shown_lines p true (inner_lines (shipped TCC))) = true) as E by (pose proof last_lines as H; rewrite forallb_forall in H; intro p; apply H; destruct p; cbn; tauto).
  specialize (E (c_param c)). unfold single_text, filled_texts. cbn [map flat_map]. unfold lines_shown at 4. rewrite L. cbn [app]. revert E. generalize (shown_lines (c_param c) true (inner_lines (shipped TCC))). intros l E.
  rewrite app_nil_r, !app_assoc. now apply expanded_whole.
Qed.
Lemma lines_end {A} (g : A -> str) l : forall u, exists u', (u ++ [nl]) ++ concat (map (fun e => g e ++ [nl]) l) = u' ++ [nl].
Proof.
  induction l as [|e l IH]; intro u; [exists u; apply app_nil_r|]. cbn [map concat]. destruct (IH ((u ++ [nl]) ++ g e)) as [u' E]. exists u'. rewrite <- E. now rewrite <- !app_assoc.
Qed.
Lemma lines_whole {A} (g : A -> str) l u : whole ((u ++ [nl]) ++ concat (map (fun e => g e ++ [nl]) l) ++ [nl]).
Proof. destruct (lines_end g l u) as [u' E]. rewrite app_assoc, E. right. exists u', nl. split; [now rewrite <- app_assoc|reflexivity]. Qed.
Lemma extra_whole s defs tdefs : is_cxx s = false -> whole (extra_text s defs tdefs).
Proof.
  intro X. unfold extra_text. rewrite X. assert (W : whole (includes_text (o_includes s) false)).
  { pose proof (lines_whole (fun e => $"#include " ++ e) (o_includes s) ($"/* extra headers */" ++ [nl] ++ $"#include <stddef.h>" ++ [nl] ++ $"#include <string.h>")) as W.
    unfold includes_text. match type of W with whole ?a => match goal with |- whole ?b => assert (b = a) as -> end end; [|exact W]. rewrite <- !app_assoc. reflexivity. }
  assert (T : typedefs_text tdefs = [] \/ whole (typedefs_text tdefs)).
  { destruct tdefs as [|e r]; [now left|right]. pose proof (lines_whole (fun e => $"typedef " ++ e ++ $";") (e :: r) $"/* typedefs */") as W2.
    unfold typedefs_text. match type of W2 with whole ?a => match goal with |- whole ?b => assert (b = a) as -> end end; [|exact W2]. rewrite <- !app_assoc. do 4 f_equal. apply map_ext. intro y. now rewrite <- !app_assoc. }
  destruct W as [W|(u & x & W & Ex)]; [apply (f_equal (@List.length ascii)) in W; unfold includes_text in W; rewrite !app_length in W; cbn in W; lia|].
  destruct T as [-> |[T|(u' & x' & T & E')]].
  - rewrite app_nil_r, W. right. exists (defines_text defs ++ u), x. split; [now rewrite <- app_assoc|exact Ex].
  - rewrite T, app_nil_r, W. right. exists (defines_text defs ++ u), x. split; [now rewrite <- app_assoc|exact Ex].
  - rewrite T. right. exists (defines_text defs ++ includes_text (o_includes s) false ++ u'), x'. split; [now rewrite <- !app_assoc|exact E'].
Qed.

(* ---------------------------------------------------------------- the inner part *)

(** a text that is read as [out], and does not disturb what follows it *)
Definition reads (d : str -> bool) (x : str) (out : list pout) : Prop := forall rest, preprocess d (x ++ rest) = behind out (preprocess (defined_after d out) rest).
Lemma reads_alone d x out : reads d x out -> preprocess d x = Some out.
Proof. intro R. specialize (R []). rewrite app_nil_r in R. rewrite R. cbn [behind]. change (preprocess (defined_after d out) []) with (Some (@nil pout)). cbn [behind]. now rewrite app_nil_r. Qed.
Lemma inner_read s x d0 d1 ds out b : is_cxx s = false -> default_prefix (config_of s [] []) -> o_line s = false -> d0 $"__cplusplus" = false -> b = [] \/ b = [nl] ->
  always_read (extra_text s (fst ds) (fst (snd ds))) (snd (snd ds)) ->
  (forall x, d1 x = defined_after (fun x => existsb (str_eqb x) lib_names || d0 x) (snd (snd ds)) x) ->
  reads d1 x out -> defined_after d1 out $"__cplusplus" = false ->
  exists fm, Forall (fun o => match o with PTok _ => False | PDefine x _ _ | PUndef x => In x lib_names end) fm /\
    preprocess d0 (extern_begin ++ macros_text (config_of s [] []) (shipped TFilenameMacros) ++ extra_text s (fst ds) (fst (snd ds)) ++ x ++ extern_end ++ b) = Some (fm ++ snd (snd ds) ++ out) /\
    (forall x, defined_after (defined_after d0 fm) (snd (snd ds)) x = d1 x) /\ preprocess d0 (macros_text (config_of s [] []) (shipped TFilenameMacros)) = Some fm.
Proof.
  destruct ds as (defs & tdefs & ds). cbn [fst snd]. intros X D Ol C B A Same P C2. destruct (fm_read _ D Ol eq_refl eq_refl) as (fm & R & F & Df). exists (fm d0). split; [apply F|].
  assert (Own : preprocess d0 (macros_text (config_of s [] []) (shipped TFilenameMacros)) = Some (fm d0)) by (apply reads_alone; intro rest; apply R).
  rewrite (no_text d0 extern_begin _ (rev_end extern_begin eq_refl) (begin_read d0 C)), R.
  rewrite (behind_text _ _ ds _ (extra_whole s defs tdefs X) (A _)).
  assert (Eq : forall x, defined_after (defined_after d0 (fm d0)) ds x = d1 x) by (intro y; rewrite Same; apply defined_after_ext; apply fm_after; auto).
  split; [|split; [exact Eq|exact Own]].
  rewrite (preprocess_ext _ d1 _ Eq), P, (end_read _ b B C2). cbn [behind]. now rewrite app_nil_r.
Qed.

(* ---------------------------------------------------------------- the file *)

Lemma nl_skip cfg rest : preprocess cfg ([nl] ++ rest) = preprocess cfg rest.
Proof.
  unfold preprocess, c_tokens. rewrite lex_app. change (lex_from MCode [nl]) with (MCode, [TEnd]). cbn [fst snd]. destruct (lex_from MCode rest) as [m k]. cbn [fst snd]. destruct m; try reflexivity.
  cbn [app split_lines pp_lines classify pp_line p_groups all_used forallb unglued filter map]. destruct (pp_lines cfg (mkp [] []) (split_lines [] k)) as [[[g pm] o]|]; reflexivity.
Qed.
Lemma whole_tail a b : match rev b with n :: x :: _ => Ascii.eqb n nl && negb (Ascii.eqb x bslash) | _ => false end = true -> whole (a ++ b).
Proof. intro H. destruct (rev_end b H) as [->|(u & x & -> & X)]; [discriminate|]. right. exists (a ++ u), x. split; [apply app_assoc|exact X]. Qed.
Lemma file_shape s c fmt defs tdefs u h : o_pragma s = false -> is_cxx s = false -> m_pfx_upper (o_pfxs s) = u -> header_name s = h ->
  SpecGenerate.middle_text s fmt defs tdefs c ++ SpecGenerate.bottom_text s =
  [nl] ++ $"#ifndef " ++ guard_name h u ++ [nl] ++ ($"#define " ++ guard_name h u ++ [nl] ++ [nl] ++ extern_begin ++ fmt ++ extra_text s defs tdefs ++ c ++ extern_end ++ [nl]) ++ $"#endif //" ++ ($"_" ++ u ++ $"_" ++ to_upper true h ++ $"_") ++ [nl].
Proof.
  intros P X <- <-. unfold SpecGenerate.middle_text, SpecGenerate.bottom_text, guard_begin_text, guard_end_text, extra_text, extern_begin, extern_end. rewrite P, X. rewrite <- !app_assoc. reflexivity.
Qed.
Lemma file_shape_once s c fmt defs tdefs : o_pragma s = true -> is_cxx s = false ->
  SpecGenerate.middle_text s fmt defs tdefs c ++ SpecGenerate.bottom_text s =
  ([nl] ++ $"#pragma once" ++ [nl; nl]) ++ extern_begin ++ fmt ++ extra_text s defs tdefs ++ c ++ extern_end ++ [].
Proof.
  intros P X. unfold SpecGenerate.middle_text, SpecGenerate.bottom_text, guard_begin_text, guard_end_text, extra_text, extern_begin, extern_end. rewrite P, X. rewrite <- !app_assoc. reflexivity.
Qed.
Lemma told_guard s cfg ds : o_pragma s = false -> forall x, told s cfg ds x = defined_after (fun x => existsb (str_eqb x) lib_names || defined_after cfg [PDefine (guard_of s) false []] x) ds x.
Proof.
  intros P x. unfold told, file_macros. rewrite P. apply defined_after_ext. intro y. change library_names with lib_names. cbn [app existsb].
  change (defined_after cfg [PDefine (guard_of s) false []] y) with (if str_eqb y (guard_of s) then true else cfg y). destruct (str_eqb y (guard_of s)); cbn [orb]; [now rewrite orb_true_r|reflexivity].
Qed.
Lemma told_once s cfg ds : o_pragma s = true -> forall x, told s cfg ds x = defined_after (fun x => existsb (str_eqb x) lib_names || cfg x) ds x.
Proof. intros P x. unfold told, file_macros. now rewrite P. Qed.
Lemma upper_text l : ident_text l -> Forall (fun c => Ascii.eqb c nl = false /\ Ascii.eqb c bslash = false) l.
Proof. apply Forall_impl. intros c H. split; apply not_true_is_false; intro E; apply Ascii.eqb_eq in E; subst; discriminate. Qed.
Lemma options_leave ds : Forall option_macro ds -> leaves_words ds.
Proof.
  intros F w W LA. induction ds as [|o ds IH]; [reflexivity|]. inversion F as [|? ? H1 H2]; subst. cbn [last_def]. rewrite (IH H2). destruct (names_it w o) eqn:N; [|reflexivity]. exfalso.
  unfold names_it in N. destruct o as [t|y b l|y]; cbn [named] in N; [discriminate| |]; apply str_eqb_eq in N; subst y; destruct H1 as (A & B & C); unfold wordok in W; rewrite A, B, C, LA in W; discriminate.
Qed.
Lemma own_leave s l : m_pfx_upper (o_pfxs s) = $"GDO" -> Forall (own_macro s) l -> leaves_words l.
Proof.
  intros U F w W LA. apply (own_defined (file_macros s)); [exact F|]. intro I. unfold file_macros in I. apply in_app_or in I as [I|I].
  - destruct (o_pragma s); [destruct I|]. destruct I as [<-|[]].
    revert W LA. unfold guard_of, guard_name. rewrite U. generalize (to_upper true (header_name s) ++ $"_"). intros r W LA. unfold wordok in W. rewrite LA in W. vm_compute in W. discriminate.
  - unfold library_names in I. cbn [map In] in I. repeat (destruct I as [<-|I]; [vm_compute in W; discriminate|]). destruct I.
Qed.
Lemma own_libs s l : Forall (fun o => match o with PTok _ => False | PDefine x _ _ | PUndef x => In x lib_names end) l -> Forall (own_macro s) l.
Proof. apply Forall_impl. intros [t|x b k|x] H; [exact H|apply in_or_app; now right|apply in_or_app; now right]. Qed.
Lemma leave_app a b : leaves_words a -> leaves_words b -> leaves_words (a ++ b).
Proof. intros A B w W LA. now rewrite last_def_app, (B w W LA), (A w W LA). Qed.
(** a text [x] in the place of the templates *)
Definition framed_text (s : settings) (defs : str) (tdefs : list str) (x : str) : str :=
  SpecGenerate.middle_text s (macros_text (config_of s [] []) (shipped TFilenameMacros)) defs tdefs x ++ SpecGenerate.bottom_text s.
Lemma told_cplusplus s cfg ds : usable_prefix (o_pfxs s) -> Forall option_macro ds -> cfg $"__cplusplus" = false -> told s cfg ds $"__cplusplus" = false.
Proof.
  intros Up Op Cx. unfold told. rewrite defined_def. assert (last_def $"__cplusplus" ds = None) as ->.
  { clear - Op. induction ds as [|y ds IH]; [reflexivity|]. inversion Op as [|? ? H1 H2]; subst. cbn [last_def]. rewrite (IH H2). unfold names_it. destruct y as [z|z b l|z]; cbn [named]; [reflexivity| |];
      destruct H1 as (H1 & _); assert (str_eqb $"__cplusplus" z = false) as -> by (apply str_eqb_neq; intros <-; discriminate); reflexivity. }
  rewrite Cx, orb_false_r. apply not_true_is_false. intro I. apply mem_in in I. unfold file_macros in I. apply in_app_or in I as [I|I].
  - destruct (o_pragma s); [destruct I|]. destruct I as [I|[]]. destruct (CTextFile.guard_word (header_name s) (o_pfxs s) Up) as (_ & _ & G). unfold guard_of in I. rewrite I in G. discriminate.
  - unfold library_names in I. cbn [map In] in I. repeat (destruct I as [I|I]; [discriminate|]). destruct I.
Qed.
Lemma frame_more s defs tdefs x cfg ds out : is_cxx s = false -> o_line s = false -> default_prefix (config_of s [] []) -> usable_prefix (o_pfxs s) ->
  always_read (extra_text s defs tdefs) ds -> (o_pragma s = false -> cfg (guard_of s) = false) -> cfg $"__cplusplus" = false ->
  reads (told s cfg ds) x out -> defined_after (told s cfg ds) out $"__cplusplus" = false ->
  exists own, preprocess cfg (framed_text s defs tdefs x) = Some (own ++ ds ++ out) /\ Forall (own_macro s) own /\ (forall y, defined_after (defined_after cfg own) ds y = told s cfg ds y) /\
    (o_pragma s = false -> forall d', d' (guard_of s) = true -> preprocess d' (framed_text s defs tdefs x) = Some []) /\
    (exists g fm d0, own = g ++ fm /\ preprocess d0 (macros_text (config_of s [] []) (shipped TFilenameMacros)) = Some fm /\ forall y, y <> guard_of s -> d0 y = cfg y).
Proof.
  intros X Ol Dp Up A Gd Cx P Ce. unfold framed_text. destruct (o_pragma s) eqn:Pg.
  - rewrite (file_shape_once _ _ _ _ _ Pg X), pragma_read.
    destruct (inner_read s x cfg (told s cfg ds) (defs, (tdefs, ds)) out [] X Dp Ol Cx (or_introl eq_refl) A (told_once s cfg ds Pg) P Ce) as (fm & F & R & Eq & Own). exists fm. split; [exact R|split; [exact (own_libs s fm F)|split; [exact Eq|split; [discriminate|exists [], fm, cfg; repeat split; exact Own]]]].
  - destruct (CTextFile.guard_word (header_name s) (o_pfxs s) Up) as (G1 & G2 & G3).
    assert (C0 : defined_after cfg [PDefine (guard_of s) false []] $"__cplusplus" = false).
    { change (defined_after cfg [PDefine (guard_of s) false []] $"__cplusplus") with (if str_eqb $"__cplusplus" (guard_of s) then true else cfg $"__cplusplus").
      assert (str_eqb $"__cplusplus" (guard_of s) = false) as ->; [|exact Cx]. apply str_eqb_neq. intro E. unfold guard_of in E. rewrite <- E in G3. discriminate. }
    destruct (inner_read s x _ (told s cfg ds) (defs, (tdefs, ds)) out [nl] X Dp Ol C0 (or_intror eq_refl) A (told_guard s cfg ds Pg) P Ce) as (fm & F & R & Eq & Own). cbn [fst snd] in R, Eq.
    rewrite (file_shape _ _ _ _ _ _ _ Pg X eq_refl eq_refl). change (guard_name (header_name s) (m_pfx_upper (o_pfxs s))) with (guard_of s) in *.
    match goal with |- context [_ ++ $"#ifndef " ++ _ ++ _ ++ ?t ++ $"#endif //" ++ _] => set (body := t) end.
    assert (Wb : whole body).
    { subst body. match goal with |- whole (?a ++ ?g ++ ?n ++ ?n2 ++ ?b ++ ?m ++ ?x ++ ?y ++ ?z) => replace (a ++ g ++ n ++ n2 ++ b ++ m ++ x ++ y ++ z) with ((a ++ g ++ n ++ n2 ++ b ++ m ++ x ++ y) ++ z) by (now rewrite <- !app_assoc) end.
      apply whole_tail. reflexivity. }
    assert (Pb : preprocess cfg body = Some ((PDefine (guard_of s) false [] :: fm) ++ ds ++ out)) by (subst body; rewrite (define_line cfg _ _ G2 G1), nl_skip, R; reflexivity).
    exists (PDefine (guard_of s) false [] :: fm). split; [|split; [constructor; [unfold own_macro, file_macros; rewrite Pg; now left|exact (own_libs s fm F)]|split; [exact Eq|split]]].
    + rewrite nl_skip. apply guarded; [exact G2|exact G1|exact (Gd eq_refl)|exact Wb|exact Pb|apply upper_text; exact G1].
    + intros _ d' Hg. rewrite nl_skip. apply (guarded_again cfg d' _ body _ _ G2 G1 Hg Wb Pb). apply upper_text. exact G1.
    + exists [PDefine (guard_of s) false []], fm, (defined_after cfg [PDefine (guard_of s) false []]). split; [reflexivity|]. split; [exact Own|]. intros y Ny.
      change (defined_after cfg [PDefine (guard_of s) false []] y) with (if str_eqb y (guard_of s) then true else cfg y). assert (str_eqb y (guard_of s) = false) as -> by (now apply str_eqb_neq). reflexivity.
Qed.
Lemma frame_read s defs tdefs x cfg ds out : is_cxx s = false -> o_line s = false -> default_prefix (config_of s [] []) -> usable_prefix (o_pfxs s) ->
  always_read (extra_text s defs tdefs) ds -> (o_pragma s = false -> cfg (guard_of s) = false) -> cfg $"__cplusplus" = false ->
  reads (told s cfg ds) x out -> defined_after (told s cfg ds) out $"__cplusplus" = false ->
  exists own, preprocess cfg (framed_text s defs tdefs x) = Some (own ++ ds ++ out) /\ Forall (own_macro s) own /\ (forall y, defined_after (defined_after cfg own) ds y = told s cfg ds y) /\
    (o_pragma s = false -> forall d', d' (guard_of s) = true -> preprocess d' (framed_text s defs tdefs x) = Some []).
Proof.
  intros X Ol Dp Up A Gd Cx P Ce. destruct (frame_more s defs tdefs x cfg ds out X Ol Dp Up A Gd Cx P Ce) as (own & R & Ow & Eq & Ag & _). exists own. auto.
Qed.
Lemma header_shape e s f o defs tdefs t : SpecEndToEnd.header_of e s f o defs tdefs t -> o_line s = false ->
  exists fill, fill = concat (filled_texts (config_of s f o) (map shipped (SpecGenerate.header_templates s))) /\ t = SpecGenerate.top_text e s lic ++ framed_text s defs tdefs fill.
Proof.
  intros (filled & n1 & n2 & (ws & n & _ & E1 & _ & E2) & ->) Ol. exists filled. split; [exact (E2 Ol)|]. unfold SpecGenerate.header_text. rewrite Ol. cbn [app]. reflexivity.
Qed.
Theorem file_read e s f o defs tdefs t k cfg ds : let c := config_of s f o in let d := told s cfg ds in
  SpecEndToEnd.header_of e s f o defs tdefs t -> separate s = false -> o_format s = FmtC -> o_line s = false -> usable_prefix (o_pfxs s) -> plain_date e s ->
  always_read (extra_text s defs tdefs) ds -> Forall option_macro ds -> (o_pragma s = false -> cfg (guard_of s) = false) ->
  cfg $"__cplusplus" = false -> ~ In $"__cplusplus" (symbol_names c) -> d $"GDO_SEPARATE" = false -> usable c d -> target k c d -> plain_types c -> typed_config c -> no_variable c ->
  exists own h1 p1 h2 p2, let out := own ++ ds ++ h1 ++ print p1 ++ h2 ++ print p2 in preprocess cfg t = Some out /\ (o_pragma s = false -> forall d', d' (guard_of s) = true -> preprocess d' t = Some []) /\
    Forall (own_macro s) own /\ preprocess d (header_text c) = Some (h1 ++ h2) /\
    let fs := functions (header_macros (symbol_names c)) (p1 ++ p2) in
    (forall x g, find_func fs x = Some g -> written_as c out x g) /\
    (forall w ops, Forall (fun x => offered c d x = true) ops -> c_run k w fs ops = CRuntime.run k w ops).
Proof.
  intros c d Hd Sp Fm Ol Up Dt A Op Gd Cx Ns Sg U T PT Ty Nv.
  assert (X : is_cxx s = false) by (unfold is_cxx; now rewrite Fm).
  assert (L : c_line c = false) by exact Ol.
  assert (Dp : default_prefix (config_of s [] [])) by exact (u_prefix _ _ U). assert (Ug : m_pfx_upper (o_pfxs s) = $"GDO") by exact (proj1 Dp).
  destruct (header_shape _ _ _ _ _ _ _ Hd Ol) as (fill & Ef & ->). assert (E2 : fill = single_text c) by (rewrite Ef; symmetry; exact (proj1 (texts_in_order c s Fm) Sp)). rewrite E2. clear Hd E2 Ef fill.
  pose proof (fun cfg rest => top_skipped cfg e s rest Dt) as Top. rewrite Top. clear Dt.
  pose proof (told_cplusplus s cfg ds Up Op Cx) as Cd. fold d in Cd.
  assert (B : forall own, Forall (own_macro s) own -> exists h1 p1 h2 p2, let out := h1 ++ print p1 ++ h2 ++ print p2 in preprocess d (header_text c) = Some (h1 ++ h2) /\ preprocess d (single_text c) = Some out /\
    let fs := functions (header_macros (symbol_names c)) (p1 ++ p2) in
    (forall x g, find_func fs x = Some g -> written_as c ((own ++ ds) ++ out) x g) /\
    (forall w ops, Forall (fun o => offered c d o = true) ops -> c_run k w fs ops = CRuntime.run k w ops) /\
    (~ In $"__cplusplus" (symbol_names c) -> last_def $"__cplusplus" out = None)).
  { intros own Ow. apply (single_behind k c d (own ++ ds) U T Sg); auto. apply leave_app; [exact (own_leave s own Ug Ow)|exact (options_leave ds Op)]. }
  assert (Pr : exists out, preprocess d (single_text c) = Some out /\ defined_after d out $"__cplusplus" = false).
  { destruct (B [] (Forall_nil _)) as (h1 & p1 & h2 & p2 & _ & P & _ & _ & N). eexists. split; [exact P|]. rewrite defined_def, (N Ns). exact Cd. }
  destruct Pr as (out & P & Ce).
  assert (Rd : reads d (single_text c) out) by (intro rest; apply behind_text; [exact (single_whole c L)|exact P]).
  destruct (frame_read s defs tdefs (single_text c) cfg ds out X Ol Dp Up A Gd Cx Rd Ce) as (own & R & Ow & _ & Ag).
  destruct (B own Ow) as (h1 & p1 & h2 & p2 & H & P2 & W & Rn & _). exists own, h1, p1, h2, p2. cbv zeta.
  rewrite P in P2. assert (Q : forall a b : list pout, Some a = Some b -> a = b) by (intros; congruence). apply Q in P2. subst out.
  split; [exact R|]. split; [intros Pg d' Hg; rewrite Top; now apply Ag|]. split; [exact Ow|]. split; [exact H|]. split; [|exact Rn]. intros x g E. specialize (W x g E). now rewrite <- app_assoc in W.
Qed.

(* ---------------------------------------------------------------- the texts in front when there are no options for them *)

Lemma always_app a b x y : whole a -> always_read a x -> always_read b y -> always_read (a ++ b) (x ++ y).
Proof. intros W A B d. rewrite (behind_text d a x b W (A d)), (B _). reflexivity. Qed.
Lemma text_run q w p r : Ascii.eqb q nl = false -> Forall (fun c => Ascii.eqb c q = false /\ Ascii.eqb c nl = false /\ Ascii.eqb c bslash = false) p -> lex_from (MText q w) (p ++ q :: r) = (fst (lex_from MCode r), quote_tok q (w ++ p) :: snd (lex_from MCode r)).
Proof.
  intros Q H. revert w. induction H as [|c p (A & B & C) H IH]; intro w.
  - cbn [app lex_from lex_char]. rewrite Ascii.eqb_refl, app_nil_r. now destruct (lex_from MCode r).
  - cbn [app lex_from lex_char]. rewrite A, B, C, IH, <- app_assoc. reflexivity.
Qed.
Lemma prefix_line pre : ident_text pre -> always_read ($"#define GDO_COMMON_PREFIX " ++ [dquote] ++ pre ++ [dquote] ++ [nl]) [PDefine $"GDO_COMMON_PREFIX" false [TText pre]].
Proof.
  intros I d. unfold preprocess, c_tokens. rewrite lex_app. change (lex_from MCode $"#define GDO_COMMON_PREFIX ") with (MCode, [TOp $"#"; TWord $"define"; TWord $"GDO_COMMON_PREFIX"]). cbn [fst snd].
  rewrite lex_app. change (lex_from MCode [dquote]) with (MText dquote [], @nil tok). cbn [fst snd]. change (pre ++ [dquote] ++ [nl]) with (pre ++ dquote :: [nl]). rewrite text_run; [reflexivity|reflexivity|].
  revert I. apply Forall_impl. intros c H. split; [|split]; apply not_true_is_false; intro E; apply Ascii.eqb_eq in E; subst; discriminate.
Qed.
Lemma args_line n : ident_text n -> always_read ($"#define GDO_HAS_VA_ARGS_" ++ n ++ $" 1" ++ [nl]) [PDefine ($"GDO_HAS_VA_ARGS_" ++ n) false [TWord $"1"]].
Proof.
  intros I d. unfold preprocess, c_tokens. rewrite lex_app. change (lex_from MCode $"#define GDO_HAS_VA_ARGS_") with (MWord $"GDO_HAS_VA_ARGS_", [TOp $"#"; TWord $"define"]). cbn [fst snd].
  rewrite lex_app, (word_run _ n I). cbn [fst snd]. reflexivity.
Qed.
Lemma args_lines f t ds : Forall plain_proto f -> always_read t ds -> always_read (concat (map (fun e => if ends_with $"..." (p_args e) then $"#define GDO_HAS_VA_ARGS_" ++ p_symbol e ++ $" 1" ++ [nl] else []) f) ++ t)
  (flat_map (fun e => if ends_with $"..." (p_args e) then [PDefine ($"GDO_HAS_VA_ARGS_" ++ p_symbol e) false [TWord $"1"]] else []) f ++ ds).
Proof.
  intros F T. induction F as [|e f P F IH]; [exact T|]. cbn [map concat flat_map]. destruct (ends_with $"..." (p_args e)); [|exact IH]. rewrite <- !app_assoc.
  replace ($"#define GDO_HAS_VA_ARGS_" ++ p_symbol e ++ $" 1" ++ [nl] ++ concat (map (fun e => if ends_with $"..." (p_args e) then $"#define GDO_HAS_VA_ARGS_" ++ p_symbol e ++ $" 1" ++ [nl] else []) f) ++ t)
    with (($"#define GDO_HAS_VA_ARGS_" ++ p_symbol e ++ $" 1" ++ [nl]) ++ concat (map (fun e => if ends_with $"..." (p_args e) then $"#define GDO_HAS_VA_ARGS_" ++ p_symbol e ++ $" 1" ++ [nl] else []) f) ++ t) by (now rewrite <- !app_assoc).
  apply always_app; [|apply args_line; apply P|exact IH]. right. exists ($"#define GDO_HAS_VA_ARGS_" ++ p_symbol e ++ $" "), "1"%char. split; [rewrite <- !app_assoc; reflexivity|reflexivity].
Qed.
Lemma include_line e : header_spec e -> always_read ($"#include " ++ e ++ [nl]) [] /\ whole ($"#include " ++ e ++ [nl]).
Proof.
  intros (Nb & k & L & N). split.
  - intro d. unfold preprocess, c_tokens. rewrite lex_app. change (lex_from MCode $"#include ") with (MCode, [TOp $"#"; TWord $"include"]). cbn [fst snd]. rewrite L. cbn [fst snd]. change ([TOp $"#"; TWord $"include"] ++ k ++ [TEnd]) with (([TOp $"#"; TWord $"include"] ++ k) ++ [TEnd]).
    rewrite split_plain by (intros [I|[I|I]]; [discriminate|discriminate|contradiction]). cbn [app split_lines pp_lines].
    assert (classify (TOp $"#" :: TWord $"include" :: k) = Some LOther) as ->; [|reflexivity]. destruct k as [|[] k]; reflexivity.
  - destruct e as [|c0 e0] eqn:Ee; [apply rev_end; reflexivity|]. destruct (exists_last (l := c0 :: e0)) as (u & x & E); [discriminate|]. rewrite E in *. right. exists ($"#include " ++ u), x. split; [now rewrite <- !app_assoc|].
    apply not_true_is_false. intro B. apply Ascii.eqb_eq in B. subst x. apply Nb. apply in_or_app. right. now left.
Qed.
Lemma includes_read incs : Forall header_spec incs -> always_read ([nl] ++ includes_text incs false) [].
Proof.
  intros H d. rewrite nl_skip. unfold includes_text.
  match goal with |- preprocess _ (?a ++ ?n ++ (?i ++ ?n2 ++ ?j ++ ?n3) ++ ?r) = _ => replace (a ++ n ++ (i ++ n2 ++ j ++ n3) ++ r) with ((a ++ n ++ i ++ n2 ++ j ++ n3) ++ r) by (now rewrite <- !app_assoc) end.
  rewrite no_text; [|apply rev_end; reflexivity|reflexivity]. induction H as [|e l E H IH]; [reflexivity|]. cbn [map concat]. destruct (include_line e E) as [A W]. rewrite <- app_assoc, (no_text d _ _ W (A d)). exact IH.
Qed.
Theorem standard_read s f o defs : m_pfx_upper (o_pfxs s) = $"GDO" -> is_cxx s = false -> separate s = false -> o_defines s = [] -> o_lib s = [] -> Forall header_spec (o_includes s) -> Forall plain_proto (f ++ o) -> f ++ o <> [] ->
  all_defines s f o = Ok defs -> exists pre, get_common_prefix (map p_symbol f) (map p_symbol o) = Ok pre /\ always_read (extra_text s defs []) (standard_macros f pre) /\ Forall option_macro (standard_macros f pre).
Proof.
  intros U X S D L I P N E. unfold all_defines in E. rewrite L, U, S, D in E. cbn [bind] in E.
  destruct (get_common_prefix (map p_symbol f) (map p_symbol o)) as [pre| | |] eqn:G; try discriminate. exists pre. split; [reflexivity|]. cbn [bind] in E. assert (Q : forall a b : str, Ok a = Ok b -> b = a) by (intros; congruence). apply Q in E. subst defs.
  assert (Ip : ident_text pre) by (apply (CTextFile.names_matter f o pre P); [rewrite map_app; now apply MacrosProps.prefix_of_all|exact N]).
  split.
  - unfold extra_text. rewrite X. cbn [typedefs_text]. rewrite app_nil_r. unfold standard_macros.
    pose proof (args_lines f ([nl] ++ includes_text (o_includes s) false) [] (proj1 (proj1 (Forall_app _ _ _) P)) (includes_read _ I)) as HV. rewrite app_nil_r in HV.
    match goal with |- always_read (defines_text ?x ++ ?y) _ => change (defines_text x) with ($"/* extra defines */" ++ [nl] ++ x ++ [nl]) end.
    match type of HV with always_read (?v ++ _) ?w => set (V := v) in *; set (W := w) in * end. clearbody W.
    match goal with |- always_read ?x _ => replace x with (($"/* extra defines */" ++ [nl]) ++ ($"#define GDO_COMMON_PREFIX " ++ [dquote] ++ pre ++ [dquote] ++ [nl]) ++ V ++ [nl] ++ includes_text (o_includes s) false) end.
    + change (PDefine $"GDO_COMMON_PREFIX" false [TText pre] :: W) with ([] ++ [PDefine $"GDO_COMMON_PREFIX" false [TText pre]] ++ W).
      apply always_app; [apply rev_end; reflexivity|intro d; reflexivity|]. apply always_app; [|now apply prefix_line|exact HV].
      right. exists ($"#define GDO_COMMON_PREFIX " ++ [dquote] ++ pre), dquote. split; [rewrite <- !app_assoc; reflexivity|reflexivity].
    + rewrite <- !app_assoc. reflexivity.
  - constructor; [repeat split|]. apply Forall_forall. intros x H. apply in_flat_map in H as (y & _ & H). destruct (ends_with $"..." (p_args y)); [|destruct H]. destruct H as [<-|[]]. repeat split.
Qed.

(* ---------------------------------------------------------------- the runs of the program *)

Lemma file_holds e s f o defs tdefs t k cfg ds : SpecEndToEnd.ordinary_run e s -> SpecEndToEnd.header_of e s f o defs tdefs t -> separate s = false -> c_file e s cfg defs tdefs ds -> c_library k (config_of s f o) (told s cfg ds) ->
  holds_library s k (config_of s f o) cfg ds t.
Proof.
  intros (_ & _ & _ & _ & Up) Hd Sp (Fm & Ol & Dt & A & Op & Gd & Cx) (U & T & Sg & Ns & PT & Ty & Nv). exact (file_read e s f o defs tdefs t k cfg ds Hd Sp Fm Ol Up Dt A Op Gd Cx Ns Sg U T PT Ty Nv).
Qed.
Theorem written_file e s f o defs tdefs i fs out k cfg ds : SpecEndToEnd.ordinary_run e s -> Forall plain_proto (f ++ o) -> f ++ o <> [] -> all_defines s f o = Ok defs ->
  separate s = false -> to_stdout s = false -> o_output s <> [] -> SpecGenerate.creatable e s fs (o_output s) -> c_file e s cfg defs tdefs ds -> c_library k (config_of s f o) (told s cfg ds) ->
  exists w' t, run e s f o tdefs i (SpecGenerate.started fs out) = (w', Ret tt) /\ w_fs w' (o_output s) = Some (Regular t) /\ holds_library s k (config_of s f o) cfg ds t.
Proof.
  intros O P N D Sp So Oo Cr F L. destruct (EndToEnd.generates_single e s f o defs tdefs i fs out O P N D Sp So Oo Cr) as (w' & t & R & W & H & _). exists w', t. split; [exact R|]. split; [exact W|].
  exact (file_holds e s f o defs tdefs t k cfg ds O H Sp F L).
Qed.
Theorem written_output e s f o defs tdefs i fs out k cfg ds : SpecEndToEnd.ordinary_run e s -> Forall plain_proto (f ++ o) -> f ++ o <> [] -> all_defines s f o = Ok defs ->
  to_stdout s = true -> c_file e s cfg defs tdefs ds -> c_library k (config_of s f o) (told s cfg ds) ->
  exists w' t, run e s f o tdefs i (SpecGenerate.started fs out) = (w', Ret tt) /\ w_out w' = out ++ t /\ holds_library s k (config_of s f o) cfg ds t.
Proof.
  intros O P N D So F L. destruct (EndToEnd.generates_stdout e s f o defs tdefs i fs out O P N D So) as (w' & t & R & _ & W & H). exists w', t. split; [exact R|]. split; [exact W|].
  apply (file_holds e s f o defs tdefs t k cfg ds O H); [|exact F|exact L]. unfold separate. rewrite So. cbn [negb]. now rewrite andb_false_r.
Qed.

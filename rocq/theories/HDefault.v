(** Proofs for C103: the option -library and what the generated code opens. *)
From Coq Require Import Ascii String List Bool Arith Lia.
From Verif Require Import Str StrFacts Parse ParamNames Prefix Substitute Data Options Generate SpecPrefix SpecSubstitute.
From Verif Require SpecGenerate SpecEndToEnd EndToEnd GenerateFacts CTextFile MacrosProps.
From Verif Require Import Templates SpecTemplates SpecCLang SpecCProg SpecCMacro SpecBody SpecHeader SpecFile SpecFileName SpecDefault
  CTemplate CTemplateText CTemplatePP CBody HTemplate HTemplatePP HText HMacro HHeader CBodyText HHeader2 HWrapper HAlias HOrder HSingle CExpand CExpandMain HFile HFileMain HFilePair HFileName HDefaults.
Import ListNotations.

(* ---------------------------------------------------------------- the lines for the option *)

Definition lib_line (x : string) (a : str) : str := $"#define GDO_HARDCODED_DEFAULT_" ++ $x ++ $" " ++ a ++ [nl].
Lemma lib_lines a w ta tw : whole (lib_line "LIBA" a) -> always_read (lib_line "LIBA" a) [PDefine $"GDO_HARDCODED_DEFAULT_LIBA" false ta] -> always_read (lib_line "LIBW" w) [PDefine $"GDO_HARDCODED_DEFAULT_LIBW" false tw] ->
  always_read (SpecGenerate.lib_macros $"GDO" a w) (default_macros ta tw).
Proof.
  intros W A B. change (default_macros ta tw) with ([PDefine $"GDO_HARDCODED_DEFAULT_LIBA" false ta] ++ [PDefine $"GDO_HARDCODED_DEFAULT_LIBW" false tw]).
  replace (SpecGenerate.lib_macros $"GDO" a w) with (lib_line "LIBA" a ++ lib_line "LIBW" w); [now apply always_app|]. unfold SpecGenerate.lib_macros, lib_line. rewrite <- !app_assoc. reflexivity.
Qed.
Lemma line_whole x a y : Ascii.eqb y bslash = false -> whole (lib_line x (a ++ [y])).
Proof. intro Y. right. exists ($"#define GDO_HARDCODED_DEFAULT_" ++ $x ++ $" " ++ a), y. split; [unfold lib_line; rewrite <- !app_assoc; reflexivity|exact Y]. Qed.
Lemma ident_start x : x <> [] -> ident_text x -> lex_from MCode x = (MWord x, @nil tok).
Proof.
  intros N I. destruct x as [|y x]; [contradiction|]. inversion I as [|? ? Y I']; subst. cbn [lex_from].
  assert (lex_char MCode y = (MWord [y], [])) as ->. { revert Y. clear. destruct y as [b0 b1 b2 b3 b4 b5 b6 b7]. destruct b0, b1, b2, b3, b4, b5, b6, b7; vm_compute; intro H; try discriminate; reflexivity. }
  rewrite (word_run [y] x I'). reflexivity.
Qed.
Lemma ident_code x rest : x <> [] -> ident_text x -> lex_from MCode (x ++ rest) = lex_from (MWord x) rest.
Proof. intros N I. rewrite lex_app, (ident_start x N I). cbn [fst snd app]. now destruct (lex_from (MWord x) rest). Qed.
Lemma call_line (f : string) g x n : (f = "LIBA" /\ g = "GDO_LIBNAMEA" \/ f = "LIBW" /\ g = "GDO_LIBNAMEW")%string -> x <> [] -> ident_text x -> n <> [] -> ident_text n ->
  always_read (lib_line f ($g ++ $"(" ++ x ++ $"," ++ n ++ $")")) [PDefine ($"GDO_HARDCODED_DEFAULT_" ++ $f) false (call g x n)].
Proof.
  intros G Nx Ix Nn In d. unfold preprocess, c_tokens.
  assert (E : lex_from MCode (lib_line f ($g ++ $"(" ++ x ++ $"," ++ n ++ $")")) = (MCode, [TOp $"#"; TWord $"define"; TWord ($"GDO_HARDCODED_DEFAULT_" ++ $f); TWord $g; TGlue; TOp $"("; TWord x; TOp $","; TWord n; TOp $")"; TEnd])).
  { unfold lib_line. replace ($"#define GDO_HARDCODED_DEFAULT_" ++ $f ++ $" " ++ ($g ++ $"(" ++ x ++ $"," ++ n ++ $")") ++ [nl]) with (($"#define GDO_HARDCODED_DEFAULT_" ++ $f ++ $" " ++ $g ++ $"(") ++ x ++ $"," ++ n ++ $")" ++ [nl]) by (rewrite <- !app_assoc; reflexivity).
    rewrite lex_app. assert (exists k, lex_from MCode ($"#define GDO_HARDCODED_DEFAULT_" ++ $f ++ $" " ++ $g ++ $"(") = (fst k, snd k) /\ fst k = MCode /\ snd k = [TOp $"#"; TWord $"define"; TWord ($"GDO_HARDCODED_DEFAULT_" ++ $f); TWord $g; TGlue; TOp $"("]) as (k & -> & E1 & E2).
    { destruct G as [[-> ->]|[-> ->]]; eexists (_, _); vm_compute; repeat split; reflexivity. }
    cbn [fst snd]. rewrite E1, E2, (ident_code x _ Nx Ix). change ($"," ++ n ++ $")" ++ [nl]) with (","%char :: n ++ $")" ++ [nl]). cbn [lex_from].
    change (lex_char (MWord x) ",") with (MCode, [TWord x; TOp $","]). cbn [fst snd]. rewrite (ident_code n _ Nn In). cbn [app lex_from]. change (lex_char (MWord n) ")") with (MCode, [TWord n; TOp $")"]). cbn [fst snd lex_from]. reflexivity. }
  rewrite E. clear E. destruct G as [[-> ->]|[-> ->]]; vm_compute; reflexivity.
Qed.
Lemma text_line (w b : bool) t : Forall (fun y => y <> dquote /\ y <> nl /\ y <> bslash) t ->
  always_read (lib_line (if w then "LIBW" else "LIBA") ((if w then $"L" else []) ++ [dquote] ++ t ++ [dquote] ++ (if b then $(if w then " GDO_LIBEXTW" else " GDO_LIBEXTA") else [])))
    [PDefine ($"GDO_HARDCODED_DEFAULT_" ++ $(if w then "LIBW" else "LIBA")) false ((if w then [TWord $"L"] else []) ++ [TText t] ++ (if b then [TWord $(if w then "GDO_LIBEXTW" else "GDO_LIBEXTA")] else []))].
Proof.
  intros F d. unfold preprocess, c_tokens.
  assert (E : lex_from MCode (lib_line (if w then "LIBW" else "LIBA") ((if w then $"L" else []) ++ [dquote] ++ t ++ [dquote] ++ (if b then $(if w then " GDO_LIBEXTW" else " GDO_LIBEXTA") else []))) =
    (MCode, [TOp $"#"; TWord $"define"; TWord ($"GDO_HARDCODED_DEFAULT_" ++ $(if w then "LIBW" else "LIBA"))] ++ (if w then [TWord $"L"] else []) ++ [TText t] ++ (if b then [TWord $(if w then "GDO_LIBEXTW" else "GDO_LIBEXTA")] else []) ++ [TEnd])).
  { unfold lib_line. set (r := if b then _ else _). replace ($"#define GDO_HARDCODED_DEFAULT_" ++ $(if w then "LIBW" else "LIBA") ++ $" " ++ ((if w then $"L" else []) ++ [dquote] ++ t ++ [dquote] ++ r) ++ [nl]) with (($"#define GDO_HARDCODED_DEFAULT_" ++ $(if w then "LIBW" else "LIBA") ++ $" " ++ (if w then $"L" else []) ++ [dquote]) ++ t ++ dquote :: r ++ [nl]) by (rewrite <- !app_assoc; reflexivity).
    rewrite lex_app. assert (lex_from MCode ($"#define GDO_HARDCODED_DEFAULT_" ++ $(if w then "LIBW" else "LIBA") ++ $" " ++ (if w then $"L" else []) ++ [dquote]) = (MText dquote [], [TOp $"#"; TWord $"define"; TWord ($"GDO_HARDCODED_DEFAULT_" ++ $(if w then "LIBW" else "LIBA"))] ++ (if w then [TWord $"L"] else []))) as -> by (destruct w; vm_compute; reflexivity).
    cbn [fst snd]. rewrite text_run; [|reflexivity|].
    - subst r. destruct w, b; vm_compute; reflexivity.
    - revert F. apply Forall_impl. intros y (A & B & C). repeat split; apply not_true_is_false; intro E; apply Ascii.eqb_eq in E; congruence. }
  rewrite E. clear E. destruct w, b; vm_compute; reflexivity.
Qed.
Lemma no_quotes u : Forall (fun y => y <> dquote /\ y <> nl /\ y <> bslash) u -> ~ SpecGenerate.in_quotes u /\ ~ SpecGenerate.in_wide_quotes u.
Proof.
  intro F. assert (Q : ~ In dquote u) by (intro I; rewrite Forall_forall in F; destruct (F _ I) as (K & _); contradiction).
  split; intros (x & E); apply Q; rewrite E; [now left|right; now left].
Qed.
Lemma no_colon n : ident_text n -> ~ In ":"%char n.
Proof. intros H I. unfold ident_text in H. rewrite Forall_forall in H. specialize (H _ I). discriminate. Qed.
Lemma ident_line n : ident_text n -> ~ In nl n /\ ~ In cr n.
Proof. intros H. unfold ident_text in H. rewrite Forall_forall in H. split; intro I; specialize (H _ I); discriminate. Qed.
Lemma option_read c d v file ds : names_library c d v file ds -> exists t, format_libname v $"GDO" = Ok t /\ always_read t ds /\ whole t /\ v <> [].
Proof.
  intros [m n x M (Nn & In & _) (Nx & Ix & _)|h r Nh F|m x M Nx F].
  - eexists. split; [|split; [|split]].
    + apply (GenerateFacts.libname_api $"GDO" _ n x); [exists m; split; [reflexivity|split; [exact M|now destruct n]]|exact (no_colon n In)|].
      destruct (ident_line n In) as [A B], (ident_line x Ix) as [A' B']. split; intro J; apply in_app_or in J as [J|J]; try contradiction; destruct J as [J|J]; try discriminate; contradiction.
    + apply lib_lines; [|apply (call_line "LIBA" "GDO_LIBNAMEA"); auto|apply (call_line "LIBW" "GDO_LIBNAMEW"); auto].
      replace ($"GDO" ++ $"_LIBNAMEA(" ++ x ++ $"," ++ n ++ $")") with (($"GDO" ++ $"_LIBNAMEA(" ++ x ++ $"," ++ n) ++ [")"%char]) by (now rewrite <- !app_assoc). now apply line_whole.
    + unfold SpecGenerate.lib_macros. right. exists ($"#define " ++ $"GDO" ++ $"_HARDCODED_DEFAULT_LIBA " ++ ($"GDO" ++ $"_LIBNAMEA(" ++ x ++ $"," ++ n ++ $")") ++ [nl] ++ $"#define " ++ $"GDO" ++ $"_HARDCODED_DEFAULT_LIBW " ++ ($"GDO" ++ $"_LIBNAMEW(" ++ x ++ $"," ++ n)), ")"%char.
      split; [rewrite <- !app_assoc; reflexivity|reflexivity].
    + destruct m; [discriminate|discriminate].
  - set (u := h :: r) in *. destruct (no_quotes u F) as [Nq Nw].
    eexists. split; [|split; [|split]].
    + apply GenerateFacts.libname_plain; [exact Nh|constructor 2; exact Nq|constructor 3; [exact Nw|exact Nq]].
    + apply lib_lines; [|exact (text_line false false u F)|exact (text_line true false u F)].
      exact (line_whole "LIBA" ([dquote] ++ u) dquote eq_refl).
    + unfold SpecGenerate.lib_macros. right. exists ($"#define " ++ $"GDO" ++ $"_HARDCODED_DEFAULT_LIBA " ++ ([dquote] ++ u ++ [dquote]) ++ [nl] ++ $"#define " ++ $"GDO" ++ $"_HARDCODED_DEFAULT_LIBW " ++ ($"L" ++ [dquote] ++ u)), dquote.
      split; [rewrite <- !app_assoc; reflexivity|reflexivity].
    + discriminate.
  - destruct (no_quotes x F) as [Nq Nw]. eexists. split; [|split; [|split]].
    + apply (GenerateFacts.libname_ext $"GDO" _ x); [exists m; split; [reflexivity|split; [exact M|exact Nx]]|constructor 2; exact Nq|constructor 3; [exact Nw|exact Nq]].
    + replace (([dquote] ++ x ++ [dquote]) ++ $" " ++ $"GDO" ++ $"_LIBEXTA") with ([dquote] ++ x ++ [dquote] ++ $" GDO_LIBEXTA") by (now rewrite <- !app_assoc).
      replace (($"L" ++ [dquote] ++ x ++ [dquote]) ++ $" " ++ $"GDO" ++ $"_LIBEXTW") with ($"L" ++ [dquote] ++ x ++ [dquote] ++ $" GDO_LIBEXTW") by (now rewrite <- !app_assoc).
      apply lib_lines; [|exact (text_line false true x F)|exact (text_line true true x F)].
      replace ([dquote] ++ x ++ [dquote] ++ $" GDO_LIBEXTA") with (([dquote] ++ x ++ [dquote] ++ $" GDO_LIBEXT") ++ ["A"%char]) by (now rewrite <- !app_assoc). now apply line_whole.
    + unfold SpecGenerate.lib_macros. right. exists ($"#define " ++ $"GDO" ++ $"_HARDCODED_DEFAULT_LIBA " ++ (([dquote] ++ x ++ [dquote]) ++ $" " ++ $"GDO" ++ $"_LIBEXTA") ++ [nl] ++ $"#define " ++ $"GDO" ++ $"_HARDCODED_DEFAULT_LIBW " ++ ($"L" ++ [dquote] ++ x ++ [dquote]) ++ $" " ++ $"GDO" ++ $"_LIBEXT"), "W"%char.
      split; [rewrite <- !app_assoc; reflexivity|reflexivity].
    + destruct m; discriminate.
Qed.

(* ---------------------------------------------------------------- the texts in front of the templates *)

Lemma library_read s f o defs c d file dl : m_pfx_upper (o_pfxs s) = $"GDO" -> is_cxx s = false -> separate s = false -> o_defines s = [] -> names_library c d (o_lib s) file dl -> Forall header_spec (o_includes s) -> Forall plain_proto (f ++ o) -> f ++ o <> [] ->
  all_defines s f o = Ok defs -> exists pre, get_common_prefix (map p_symbol f) (map p_symbol o) = Ok pre /\ always_read (extra_text s defs []) (dl ++ standard_macros f pre) /\ Forall option_macro (dl ++ standard_macros f pre).
Proof.
  intros U X S D L I P N E. destruct (option_read _ _ _ _ _ L) as (t & Ft & At & Wt & Nv). unfold all_defines in E. rewrite U, S, D in E.
  assert (El : match o_lib s with [] => Ok [] | _ :: _ => format_libname (o_lib s) $"GDO" end = Ok t) by (destruct (o_lib s); [contradiction|exact Ft]).
  assert (E' : bind (Ok t) (fun lib => bind (get_common_prefix (map p_symbol f) (map p_symbol o)) (fun pre => Ok ([] ++ [] ++ lib ++ ($"#define " ++ $"GDO" ++ $"_COMMON_PREFIX " ++ [dquote] ++ pre ++ [dquote] ++ [nl]) ++
      concat (map (fun f => if ends_with $"..." (p_args f) then $"#define " ++ $"GDO" ++ $"_HAS_VA_ARGS_" ++ p_symbol f ++ $" 1" ++ [nl] else []) f)))) = Ok defs) by (rewrite <- E, <- El; destruct (o_lib s); reflexivity).
  clear E El. cbn [bind] in E'. destruct (get_common_prefix (map p_symbol f) (map p_symbol o)) as [pre| | |] eqn:G; try discriminate. exists pre. split; [reflexivity|]. cbn [bind] in E'. assert (Q : forall a b : str, Ok a = Ok b -> b = a) by (intros; congruence). apply Q in E'. subst defs.
  assert (Ip : ident_text pre) by (apply (CTextFile.names_matter f o pre P); [rewrite map_app; now apply MacrosProps.prefix_of_all|exact N]).
  split.
  - unfold extra_text. rewrite X. cbn [typedefs_text]. rewrite app_nil_r. unfold standard_macros.
    pose proof (args_lines f ([nl] ++ includes_text (o_includes s) false) [] (proj1 (proj1 (Forall_app _ _ _) P)) (includes_read _ I)) as HV. rewrite app_nil_r in HV.
    match goal with |- always_read (defines_text ?x ++ ?y) _ => assert (defines_text x = $"/* extra defines */" ++ [nl] ++ x ++ [nl]) as -> by (destruct t; reflexivity) end.
    match type of HV with always_read (?v ++ _) ?w => set (V := v) in *; set (W := w) in * end. clearbody W.
    match goal with |- always_read ?x _ => replace x with (($"/* extra defines */" ++ [nl]) ++ t ++ ($"#define GDO_COMMON_PREFIX " ++ [dquote] ++ pre ++ [dquote] ++ [nl]) ++ V ++ [nl] ++ includes_text (o_includes s) false) end.
    + change (PDefine $"GDO_COMMON_PREFIX" false [TText pre] :: W) with ([PDefine $"GDO_COMMON_PREFIX" false [TText pre]] ++ W).
      change (dl ++ ?x) with ([] ++ dl ++ x). apply always_app; [apply rev_end; reflexivity|intro y; reflexivity|]. apply always_app; [exact Wt|exact At|]. apply always_app; [|now apply prefix_line|exact HV].
      right. exists ($"#define GDO_COMMON_PREFIX " ++ [dquote] ++ pre), dquote. split; [rewrite <- !app_assoc; reflexivity|reflexivity].
    + rewrite <- !app_assoc. reflexivity.
  - apply Forall_app. split; [destruct L; repeat constructor|]. constructor; [repeat split|]. apply Forall_forall. intros x H. apply in_flat_map in H as (y & _ & H). destruct (ends_with $"..." (p_args y)); [|destruct H]. destruct H as [<-|[]]. repeat split.
Qed.

(* ---------------------------------------------------------------- the macros behind the single file *)

Lemma default_defined c d h : usable c d -> own_names c -> preprocess d (header_text c) = Some h -> from_options d -> last_def $"GDO_DEFAULT_LIB" h = Some (PDefine $"GDO_DEFAULT_LIB" false [TWord $"GDO_DEFAULT_LIBA"]).
Proof.
  intros U O E (D1 & D2 & D3). destruct (header_reads c d U) as (a & F & (_ & _ & _ & _ & _ & f & S & Ef) & R). apply (reads_alone d) in R. rewrite R in E. assert (Q : forall a b : list pout, Some a = Some b -> b = a) by (intros; congruence). apply Q in E. subst h.
  rewrite (plain_tail c d a _ (u_plain _ _ U) O); [|reflexivity|discriminate]. rewrite (exact_def d c _ a _ S). subst f.
  unfold outs, iout. cbn [flat_map fst snd forallb feval]. assert (A : forall x, In x absent -> d x = false) by exact (u_absent _ _ U).
  rewrite D1, D2, D3, (A $"_WIN32"), (A $"GDO_WINAPI"), (A $"_GDO_TARGET_WIDECHAR") by (unfold absent; cbn [In]; tauto). reflexivity.
Qed.
Lemma single_last c d out : usable c d -> d $"GDO_SEPARATE" = false -> preprocess d (single_text c) = Some out -> exists h, preprocess d (header_text c) = Some h /\
  (forall x, ~ In x (symbol_names c) -> ~ In x body_names -> last_def x out = last_def x h) /\ (forall x, starts_with $"GDO_" x = false -> ~ In x other_macros -> last_def x h = None) /\
  exists a b, set_facts a /\ h = hout c d a /\ forall x, last_def x out = last_def x (h ++ bout c b).
Proof.
  intros U Sg P. apply single_quiet in Sg. destruct (single_out c d U Sg) as (a & h1 & h2 & F & St & H & Eh & B). cbv zeta in B. exists (hout c d a). split; [exact H|].
  rewrite P in B. assert (Q : forall a b : list pout, Some a = Some b -> a = b) by (intros; congruence). apply Q in B. subst out. split; [|split].
  - intros x I J. rewrite single_def, <- Eh, <- CBodyText.program_ok. fold (bout c (defined_after d (hout c d a))). now rewrite last_def_app, (body_other c _ _ (u_plain c d U) I J).
  - intros x G O. rewrite (single_tail c d U Sg a x) by (intros ->; discriminate). exact (unknown c d a x St G O).
  - exists a, (defined_after d (hout c d a)). split; [exact St|]. split; [reflexivity|]. intro x. now rewrite single_def, <- Eh, <- CBodyText.program_ok.
Qed.
Lemma none_keeps l : (forall x, In x library_names -> last_def x l = None) -> Forall keeps_names l.
Proof.
  induction l as [|o l IH]; intro H; [constructor|]. assert (T : forall x, In x library_names -> last_def x l = None /\ names_it x o = false).
  { intros x I. specialize (H x I). cbn [last_def] in H. destruct (last_def x l); [discriminate|]. destruct (names_it x o); [discriminate|]. now split. }
  constructor; [|apply IH; intros x I; apply T; exact I]. unfold keeps_names. destruct o as [t|y b k|y]; [exact Logic.I| |]; intro I; destruct (T y I) as [_ N]; unfold names_it in N; cbn [named] in N; rewrite eq_refl_str in N; discriminate.
Qed.
Lemma args_last f x : starts_with $"GDO_HAS_VA_ARGS_" x = false -> last_def x (flat_map (fun e => if ends_with $"..." (p_args e) then [PDefine ($"GDO_HAS_VA_ARGS_" ++ p_symbol e) false [TWord $"1"]] else []) f) = None.
Proof.
  intro S. apply last_def_none. intros o I. apply in_flat_map in I as (e & _ & I). destruct (ends_with $"..." (p_args e)); [|destruct I]. destruct I as [<-|[]]. unfold names_it. cbn [named]. apply str_eqb_neq. intros ->. 
  rewrite starts_with_app in S. discriminate.
Qed.
Lemma file_same d d' n a : (forall x, starts_with $"_GDO_" x = false -> starts_with $"GDO_" x = false -> d x = d' x) -> library_file d n a = library_file d' n a.
Proof. intro H. unfold library_file. now rewrite !H by reflexivity. Qed.
Lemma extension_same d d' : (forall x, starts_with $"_GDO_" x = false -> starts_with $"GDO_" x = false -> d x = d' x) -> library_extension d = library_extension d'.
Proof. intro H. unfold library_extension. now rewrite !H by reflexivity. Qed.

(* ---------------------------------------------------------------- the file *)

Lemma extends m d : (forall x v, In (x, v) (fm_meanings d) -> macro_at m x = v) -> forall h, mem $"GDO_LIBEXTA" h = false -> exists r, steps m [(TWord $"GDO_LIBEXTA", h)] r /\ is_text false r (library_extension d).
Proof.
  intros M h H. exists [TText (library_extension d)]. split; [|exists (library_extension d), []; split; [reflexivity|apply app_nil_r]]. eapply s_object; [exact H|apply M; do 3 right; left; reflexivity|].
  apply (s_plain m (TText _, _)); [exact Logic.I|apply s_nil].
Qed.
Definition hidden : list str := [$"GDO_HARDCODED_DEFAULT_LIBA"; $"GDO_DEFAULT_LIBA"; $"GDO_DEFAULT_LIB"].
Lemma default_text c m d v file ds a w : (forall x v, In (x, v) (fm_meanings d) -> macro_at m x = v) -> (forall x, free_word c x -> exists l, goes m [(TWord x, hidden)] l) ->
  names_library c d v file ds -> ds = default_macros a w ->
  macro_at m $"GDO_DEFAULT_LIB" = Some (mkdef None [TWord $"GDO_DEFAULT_LIBA"]) -> macro_at m $"GDO_DEFAULT_LIBA" = Some (mkdef None [TWord $"GDO_HARDCODED_DEFAULT_LIBA"]) -> macro_at m $"GDO_HARDCODED_DEFAULT_LIBA" = Some (mkdef None a) ->
  makes_text m false [TWord $"GDO_DEFAULT_LIB"] file.
Proof.
  intros M Fr N E L1 L2 L3. set (hs := hidden).
  assert (K : forall r, steps m (hide hs (put_in [] false [] [] [] a) ++ []) r -> becomes m [TWord $"GDO_DEFAULT_LIB"] r).
  { intros r R. apply (s_object m $"GDO_DEFAULT_LIB" [] _ [] r eq_refl L1). apply (s_object m $"GDO_DEFAULT_LIBA" [$"GDO_DEFAULT_LIB"] _ [] r eq_refl L2). exact (s_object m $"GDO_HARDCODED_DEFAULT_LIBA" [$"GDO_DEFAULT_LIBA"; $"GDO_DEFAULT_LIB"] _ [] r eq_refl L3 R). }
  destruct N as [p n x _ Fn Fx|h r _ _|p x _ _ _]; injection E as <- _.
  - assert (R : exists r, steps m [(TWord $"GDO_LIBNAMEA", hs); (TOp $"(", hs); (TWord x, hs); (TOp $",", hs); (TWord n, hs); (TOp $")", hs)] r /\ is_text false r (library_file d x n)).
    { destruct (Fr x Fx) as (l & Gl), (Fr n Fn) as (l' & Gl'). eapply (narrow m d M); [reflexivity|exact Gl|exact Gl']. }
    destruct R as (r & R & T). exists r. split; [apply K; exact R|exact T].
  - exists [TText (h :: r)]. split; [apply K; apply (s_plain m (TText (h :: r), hs)); [exact Logic.I|apply s_nil]|]. exists (h :: r), []. split; [reflexivity|apply app_nil_r].
  - destruct (extends m d M hs eq_refl) as (r & R & ps & q & -> & T). exists (TText x :: map TText (ps :: q)). split; [apply K; apply (s_plain m (TText x, hs)); [exact Logic.I|exact R]|]. exists x, (ps :: q). split; [reflexivity|]. cbn [concat] in *. now rewrite <- T.
Qed.
Lemma front_last c d v file dl f pre : names_library c d v file dl ->
  (forall x, (In x library_names \/ starts_with $"GDO_" x = false \/ starts_with $"GDO_PTR_" x = true \/ starts_with $"GDO_WRAP_" x = true \/ In x [$"GDO_DEFAULT_LIB"; $"GDO_DEFAULT_LIBA"; $"GDO_SEPARATE"]) -> last_def x (dl ++ standard_macros f pre) = None) /\
  last_def $"GDO_COMMON_PREFIX" (dl ++ standard_macros f pre) = Some (PDefine $"GDO_COMMON_PREFIX" false [TText pre]) /\
  exists a w, dl = default_macros a w /\ last_def $"GDO_HARDCODED_DEFAULT_LIBA" (dl ++ standard_macros f pre) = Some (PDefine $"GDO_HARDCODED_DEFAULT_LIBA" false a).
Proof.
  intro N. assert (exists a w, dl = default_macros a w) as (a & w & ->) by (destruct N; eexists _, _; reflexivity). clear N. split; [|split].
  - intros x H. assert (S : starts_with $"GDO_HAS_VA_ARGS_" x = false /\ ~ In x [$"GDO_COMMON_PREFIX"; $"GDO_HARDCODED_DEFAULT_LIBA"; $"GDO_HARDCODED_DEFAULT_LIBW"]).
    { destruct H as [H|[H|[H|[H|H]]]].
      - unfold library_names in H. cbn [map In] in H. decompose [or] H; subst; try contradiction; (split; [reflexivity|cbn [In]; intuition discriminate]).
      - split; [|cbn [In]; intuition (subst; discriminate)]. apply not_true_is_false. intro K. apply starts_with_spec in K as (r & ->). discriminate H.
      - apply starts_with_spec in H as (r & ->). split; [reflexivity|cbn [In]; intuition discriminate].
      - apply starts_with_spec in H as (r & ->). split; [reflexivity|cbn [In]; intuition discriminate].
      - cbn [In] in H. decompose [or] H; subst; try contradiction; (split; [reflexivity|cbn [In]; intuition discriminate]). }
    destruct S as [S T]. unfold standard_macros. rewrite last_def_app. cbn [last_def]. rewrite (args_last f x S). unfold default_macros. cbn [last_def]. cbn [In] in T. unfold names_it. cbn [named].
    assert (str_eqb x $"GDO_COMMON_PREFIX" = false) as -> by (apply str_eqb_neq; intros ->; tauto). assert (str_eqb x $"GDO_HARDCODED_DEFAULT_LIBA" = false) as -> by (apply str_eqb_neq; intros ->; tauto).
    assert (str_eqb x $"GDO_HARDCODED_DEFAULT_LIBW" = false) as -> by (apply str_eqb_neq; intros ->; tauto). reflexivity.
  - unfold standard_macros. rewrite last_def_app. cbn [last_def]. rewrite args_last by reflexivity. reflexivity.
  - exists a, w. split; [reflexivity|]. unfold standard_macros. rewrite last_def_app. cbn [last_def]. rewrite args_last by reflexivity. reflexivity.
Qed.
Lemma names_same c d d' v file dl : (forall x, starts_with $"_GDO_" x = false -> starts_with $"GDO_" x = false -> d x = d' x) -> names_library c d v file dl -> names_library c d' v file dl.
Proof. intros H [p n x E1 E2 E3|k r E1 E2|p x E1 E2 E3]; [rewrite (file_same d d' x n H); now apply ByName|now apply ByFile|rewrite (extension_same d d' H); now apply ByExtension]. Qed.
(** [ds] sets the macros for the library, and leaves alone those that the file sets for it *)
Definition front_sets (ds : list pout) (a : list tok) (pre : str) : Prop :=
  (forall x, (In x library_names \/ starts_with $"GDO_" x = false \/ starts_with $"GDO_PTR_" x = true \/ starts_with $"GDO_WRAP_" x = true \/ In x [$"GDO_DEFAULT_LIB"; $"GDO_DEFAULT_LIBA"]) -> last_def x ds = None) /\
  last_def $"GDO_COMMON_PREFIX" ds = Some (PDefine $"GDO_COMMON_PREFIX" false [TText pre]) /\ last_def $"GDO_HARDCODED_DEFAULT_LIBA" ds = Some (PDefine $"GDO_HARDCODED_DEFAULT_LIBA" false a).
(** the tokens [out] behind them mean for the library's macros what the header [h] makes of them *)
Definition aliased (n : str) (o : option pout) : Prop := o = None \/ o = Some (PDefine n false (named_alias n)) \/ o = Some (PDefine n false (object_alias n)).
Definition out_leaves (c : config) (out h : list pout) : Prop :=
  (forall x, ~ In x (symbol_names c) -> ~ In x body_names -> last_def x out = last_def x h) /\ (forall x, starts_with $"GDO_" x = false -> ~ In x other_macros -> ~ In x (symbol_names c) -> last_def x h = None) /\
  (forall n, In n (symbol_names c) -> ~ In n other_macros -> n <> $"_countof" -> aliased n (last_def n out)).
(** the macros that names of symbols go through *)
Definition alias_macros (c : config) (h : list pout) : Prop :=
  (exists w : bool, last_def $"GDO_FUNC_ALIAS" h = Some (PDefine $"GDO_FUNC_ALIAS" true (x_params ++ if w then [wd "GDO_WRAP_"; pn "##"; wd "x"] else [wd "GDO_RAWPTR_"; pn "##"; wd "x"]))) /\ last_def $"gdo_hndl" h = None /\
  forall n, In n (symbol_names c) -> last_def ($"GDO_RAWPTR_" ++ n) h = Some (PDefine ($"GDO_RAWPTR_" ++ n) false (pointer n)) /\ last_def ($"GDO_PTR_" ++ n) h = None /\ (n <> $"DECL" -> last_def ($"GDO_WRAP_" ++ n) h = None).
Lemma last_in x l o : last_def x l = Some o -> In o l /\ names_it x o = true.
Proof. induction l as [|y l IH]; [discriminate|]. cbn [last_def]. destruct (last_def x l) as [z|]; [intro E; injection E as <-; split; [right|]; now apply IH|]. destruct (names_it x y) eqn:N; [|discriminate]. intro E. injection E as <-. split; [now left|exact N]. Qed.
Lemma aliases_aliased c p q n : aliased n (last_def n (aliases c p q)).
Proof.
  destruct (last_def n (aliases c p q)) as [o|] eqn:E; [right|now left]. apply last_in in E as (I & N). unfold aliases in I. apply in_app_or in I as [I|I].
  - destruct p; [|destruct I]. apply in_map_iff in I as (y & <- & _). unfold names_it in N. cbn [named] in N. apply str_eqb_eq in N. subst y. now left.
  - destruct q; [|destruct I]. apply in_map_iff in I as (y & <- & _). unfold names_it in N. cbn [named] in N. apply str_eqb_eq in N. subst y. now right.
Qed.
Lemma body_aliased c d n : plain_config c -> starts_with $"GDO_" n = false -> n <> $"_countof" -> aliased n (last_def n (bout c d)).
Proof.
  intros P G N. destruct (body_def c d n P) as (l & -> & L); try (intros ->; discriminate). destruct (aliases_aliased c (feval d f_single && negb (d $"GDO_WRAP_IS_VISIBLE")) (feval d f_single) n) as [E|E].
  - rewrite E. left. apply last_def_none. intros o Io. destruct (L o Io) as (y & b & v & -> & Iy). unfold names_it. cbn [named]. apply str_eqb_neq. intros ->. unfold body_names in Iy. cbn [map In] in Iy. decompose [or] Iy; subst; solve [discriminate|contradiction].
  - destruct E as [E|E]; rewrite E; right; [now left|now right].
Qed.
Lemma header_aliased c d a n : plain_config c -> set_facts a -> starts_with $"GDO_" n = false -> ~ In n other_macros -> aliased n (last_def n (hout c d a)).
Proof.
  intros P St G O. unfold hout, tail_of. rewrite !outs_app, !last_def_app, (h_names c d P). destruct (aliases_aliased c (feval d f_sep && negb (visible d)) (feval d f_sep) n) as [E|[E|E]]; rewrite E; [|right; now left|right; now right]. left.
  rewrite (exact_def d c n g_alias []); [|cbn [g_alias filter may snd]; rewrite (proj2 (str_eqb_neq n $"GDO_FUNC_ALIAS")) by (intros ->; discriminate); reflexivity]. rewrite wrapper_def. exact (unknown c d a n St G O).
Qed.
Lemma aliased_app n a b : aliased n (last_def n a) -> aliased n (last_def n b) -> aliased n (last_def n (a ++ b)).
Proof. intros A B. rewrite last_def_app. destruct (last_def n b); assumption. Qed.
Lemma header_alias c d h : usable c d -> own_names c -> preprocess d (header_text c) = Some h -> alias_macros c h.
Proof.
  intros U O H. destruct (header_reads c d U) as (a & F & St & R). apply (reads_alone d) in R. rewrite R in H. assert (Q : forall a b : list pout, Some a = Some b -> b = a) by (intros; congruence). apply Q in H. subst h.
  split; [exists (wrapping d); exact (h_alias c d a (u_plain _ _ U) O)|]. split; [exact (h_hndl c d a F (u_plain _ _ U) O)|].
  intros n I. split; [exact (h_ptr c d a F (u_plain _ _ U) O n I)|]. split; [exact (h_field c d a F (u_plain _ _ U) O n)|intro N; exact (h_wrap c d a F (u_plain _ _ U) O n N)].
Qed.
Lemma steps_goes m l r : steps m l r -> exists x, goes m l x.
Proof. intros (n & x & E & _). exists x, n. exact E. Qed.
Lemma symbol_goes (m : macro_table) (w : bool) (n : str) : macro_at m $"GDO_FUNC_ALIAS" = Some (mkdef (Some ([$"x"], false)) (if w then [wd "GDO_WRAP_"; pn "##"; wd "x"] else [wd "GDO_RAWPTR_"; pn "##"; wd "x"])) ->
  macro_at m ($"GDO_RAWPTR_" ++ n) = Some (mkdef None (pointer n)) -> macro_at m $"gdo_hndl" = None -> macro_at m ($"GDO_PTR_" ++ n) = None -> macro_at m ($"GDO_WRAP_" ++ n) = None -> starts_with $"GDO_" n = false ->
  macro_at m n = None \/ macro_at m n = Some (mkdef None (named_alias n)) \/ macro_at m n = Some (mkdef None (object_alias n)) -> exists l, goes m [(TWord n, hidden)] l.
Proof.
  intros A P H F W G C. assert (Nh : mem n hidden = false) by (apply not_true_is_false; intro I; apply mem_in in I; cbn [hidden In] in I; decompose [or] I; subst; solve [discriminate|contradiction]).
  assert (E2 : str_eqb ($"GDO_RAWPTR_" ++ n) n = false) by (apply str_eqb_neq; intro E; rewrite <- E in G; discriminate).
  assert (E1 : str_eqb $"GDO_FUNC_ALIAS" n = false) by (apply str_eqb_neq; intro E; rewrite <- E in G; discriminate).
  destruct C as [C|[C|C]]; [exists [(TWord n, hidden)]; now apply stays| |].
  - apply (steps_goes m _ (if w then [TWord ($"GDO_WRAP_" ++ n)] else pointer n)). apply s_object with (b := named_alias n); [exact Nh|exact C|]. unfold named_alias.
    cbn [put_in]. repeat match goal with |- context [str_eqb (Str.lit ?a) (Str.lit ?b)] => change (str_eqb (Str.lit a) (Str.lit b)) with false end.
    cbn [argument parameter app hide map fst snd]. unfold wd, pn.
    eapply s_call; [unfold mem; cbn [app snd existsb]; rewrite E1; reflexivity|exact A|exact (one_argument [(TWord n, _)] _ [] [] ltac:(repeat constructor; discriminate))| |].
    { constructor; [|constructor]. constructor; [|constructor]. left. unfold mem; cbn [app snd existsb]. now rewrite (proj2 (str_eqb_eq n n) eq_refl). }
    cbn [app]. destruct w.
    + match goal with |- context [put_in ?pa ?pb ?pc ?pd ?pe ?pf] => change (put_in pa pb pc pd pe pf) with [(TWord ($"GDO_WRAP_" ++ n), @nil str)] end.
      cbn [hide map fst snd app]. apply s_word; [exact W|apply s_nil].
    + match goal with |- context [put_in ?pa ?pb ?pc ?pd ?pe ?pf] => change (put_in pa pb pc pd pe pf) with [(TWord ($"GDO_RAWPTR_" ++ n), @nil str)] end.
      cbn [hide map fst snd app]. rewrite <- (app_nil_r (pointer n)). apply (s_raw m n P H F); [|apply s_nil].
      apply not_true_is_false. intro I. apply mem_in in I. rewrite app_nil_r in I. destruct I as [I|I]; [discriminate|]. apply filter_In in I as (I & _). destruct I as [I|I]; [rewrite <- I, eq_refl_str in E2; discriminate|]. cbn [hidden app In] in I. decompose [or] I; solve [discriminate|contradiction].
  - apply (steps_goes m _ (pn "*" :: pointer n)). apply s_object with (b := object_alias n); [exact Nh|exact C|]. unfold object_alias.
    cbn [put_in]. change (str_eqb $"*" $"##") with false. change (str_eqb $"*" $"#") with false. cbn [argument parameter app hide map fst snd]. unfold pn. apply s_op.
    rewrite <- (app_nil_r (pointer n)). apply (s_raw m n P H F); [|apply s_nil]. 
    apply not_true_is_false. intro I. apply mem_in in I. cbn [app snd] in I. rewrite ?app_nil_r in I. destruct I as [I|I]; [rewrite <- I, eq_refl_str in E2; discriminate|]. cbn [hidden app In] in I. decompose [or] I; solve [discriminate|contradiction].
Qed.
Lemma file_names s x : m_pfx_upper (o_pfxs s) = $"GDO" -> In x (file_macros s) -> In x library_names \/ starts_with $"_GDO_" x = true.
Proof.
  intros Ug I. unfold file_macros in I. apply in_app_or in I as [I|I]; [|now left]. destruct (o_pragma s); [destruct I|]. destruct I as [<-|[]]. right. unfold guard_of, guard_name. rewrite Ug. reflexivity.
Qed.
Lemma options_told s cfg ds a pre : m_pfx_upper (o_pfxs s) = $"GDO" -> front_sets ds a pre -> no_default cfg -> from_options (told s cfg ds).
Proof.
  intros Ug (Fl & Fp & Fa) (Na & Nd). assert (Dn : forall x, In x [$"GDO_DEFAULT_LIB"; $"GDO_DEFAULT_LIBA"] -> told s cfg ds x = cfg x).
  { intros x I. unfold told. rewrite defined_def, Fl by (do 4 right; exact I). assert (existsb (str_eqb x) (file_macros s) = false) as ->; [|reflexivity]. apply not_true_is_false. intro J. apply mem_in in J. apply (file_names s x Ug) in J.
    cbn [In] in I. decompose [or] I; subst; try contradiction; (destruct J as [J|J]; [unfold library_names in J; cbn [map In] in J; decompose [or] J; solve [discriminate|contradiction]|discriminate]). }
  split; [|split; rewrite Dn by (cbn [In]; tauto); assumption]. unfold told. rewrite defined_def, Fa. reflexivity.
Qed.
Lemma macros_meant s c cfg d first own g fm d0 ds out h v file dl a w pre : m_pfx_upper (o_pfxs s) = $"GDO" -> default_prefix (config_of s [] []) -> o_line s = false -> first = [] \/ first = [PDefine $"GDO_INCLUDED_IN_BODY" false []] ->
  Forall (own_macro s) own -> own = g ++ fm -> preprocess d0 (macros_text (config_of s [] []) (shipped TFilenameMacros)) = Some fm -> (forall y, y <> guard_of s -> starts_with $"GDO_" y = false -> d0 y = cfg y) ->
  front_sets ds a pre -> dl = default_macros a w -> names_library c cfg v file dl -> usable c d -> own_names c -> preprocess d (header_text c) = Some h -> from_options d -> out_leaves c out h ->
  let m := macros_of (first ++ own ++ ds ++ out) in makes_text m false [TWord $"GDO_DEFAULT_LIB"] file /\ makes_text m false [TWord $"GDO_COMMON_PREFIX"] pre.
Proof.
  intros Ug Dp Ol Hf Ow Eo Pf Same (Fl & Fp & Fa) Ed Nl U On H Fo (Lh & Lo & La) m.
  assert (Gu : starts_with $"_GDO_" (guard_of s) = true) by (unfold guard_of, guard_name; rewrite Ug; reflexivity).
  assert (Gq : forall x, starts_with $"GDO_" x = true -> ~ In x (symbol_names c)) by (intros x G I; destruct (On x I) as (K & _); congruence).
  destruct (header_quiet c d h U On H) as (Q1 & Q2). specialize (Q2 Fo). pose proof (default_defined c d h U On H Fo) as Q3.
  destruct (fm_macros (config_of s [] []) d0 Dp Ol eq_refl eq_refl) as (fm' & Pf' & Hm). rewrite Pf in Pf'. assert (Q : forall a b : list pout, Some a = Some b -> a = b) by (intros; congruence). apply Q in Pf'. subst fm'.
  assert (Lq : forall x, In x quiet_names -> last_def x out = None).
  { intros x I. rewrite Lh; [now apply Q1|apply Gq|]; unfold quiet_names, library_names in I; cbn [map In app] in I; repeat (destruct I as [<-|I]; [solve [reflexivity|unfold body_names; cbn [map In]; intuition discriminate]|]); destruct I. }
  assert (M : forall x v, In (x, v) (fm_meanings d0) -> macro_at m x = v).
  { intros x u I. unfold m. rewrite Eo, <- app_assoc, app_assoc. apply (still_meant (first ++ g) fm (ds ++ out) d0 x u Hm); [|exact I]. apply none_keeps. intros y J. rewrite last_def_app, Lq by (apply in_or_app; now left). apply Fl. now left. }
  assert (Nr : forall x, In x [$"GDO_DEFAULT_LIB"; $"GDO_DEFAULT_LIBA"] -> last_def x out = last_def x h).
  { intros x I. apply Lh; [apply Gq|]; cbn [In] in I; repeat (destruct I as [<-|I]; [solve [reflexivity|unfold body_names; cbn [map In]; intuition discriminate]|]); destruct I. }
  destruct (header_alias c d h U On H) as ((wr & A1) & A2 & A3).
  assert (Nf : forall x, x <> $"GDO_INCLUDED_IN_BODY" -> ~ In x library_names -> starts_with $"_GDO_" x = false -> last_def x (first ++ own) = None).
  { intros x K1 K2 K3. rewrite last_def_app, (own_defined (file_macros s) own Ow) by (intro W; apply (file_names s x Ug) in W as [W|W]; [contradiction|congruence]).
    destruct Hf as [-> | ->]; [reflexivity|]. cbn [last_def]. unfold names_it. cbn [named]. assert (str_eqb x $"GDO_INCLUDED_IN_BODY" = false) as -> by (now apply str_eqb_neq). reflexivity. }
  assert (Nm : forall x, x <> $"GDO_INCLUDED_IN_BODY" -> ~ In x library_names -> starts_with $"_GDO_" x = false -> last_def x ds = None -> macro_at m x = match last_def x out with Some o => meaning o | None => None end).
  { intros x K1 K2 K3 K4. pose proof (Nf x K1 K2 K3) as K5. unfold m. rewrite app_assoc, macro_at_def, last_def_app, last_def_app, K4, K5. now destruct (last_def x out). }
  assert (Lb : forall x, ~ starts_with $"GDO_LIB" x = true -> ~ In x library_names) by (intros x K W; apply K; unfold library_names in W; cbn [map In] in W; decompose [or] W; subst; solve [reflexivity|contradiction]).
  assert (Bn : forall x, starts_with $"GDO_" x = false -> x <> $"_countof" -> ~ In x body_names) by (intros x K1 K2 W; unfold body_names in W; cbn [map In] in W; decompose [or] W; subst; solve [discriminate|contradiction]).
  assert (Nw : forall x, free_word c x -> macro_at m x = match last_def x out with Some o => meaning o | None => None end).
  { intros x (_ & _ & G & G' & _). apply Nm; [intros ->; discriminate| |exact G'|apply Fl; right; now left]. intro W. unfold library_names in W. cbn [map In] in W. decompose [or] W; subst; solve [discriminate|contradiction]. }
  assert (Gp : forall p n, In p [$"GDO_PTR_"; $"GDO_WRAP_"; $"GDO_RAWPTR_"] -> ~ In (p ++ n) (symbol_names c) /\ ~ In (p ++ n) body_names).
  { intros p n I. cbn [In] in I. decompose [or] I; subst; try contradiction; (split; [apply Gq; reflexivity|intro W; unfold body_names in W; cbn [map In] in W; decompose [or] W; solve [discriminate|contradiction]]). }
  assert (Gn : forall p n, In p [$"GDO_PTR_"; $"GDO_WRAP_"] -> last_def (p ++ n) h = None -> macro_at m (p ++ n) = None).
  { intros p n I E. destruct (Gp p n) as (K1 & K2); [cbn [In] in *; tauto|]. rewrite Nm, Lh by assumption || (cbn [In] in I; decompose [or] I; subst; try contradiction; solve [discriminate|reflexivity|apply Lb; discriminate|apply Fl; rewrite !starts_with_app; auto]). now rewrite E. }
  assert (Fr : forall x, free_word c x -> exists l, goes m [(TWord x, hidden)] l).
  { intros x Fx. pose proof (Nw x Fx) as Ex. destruct Fx as (_ & _ & G & G' & J & K & D). destruct (in_dec (list_eq_dec ascii_dec) x (symbol_names c)) as [I|I].
    - destruct (A3 x I) as (B1 & B2 & B3). specialize (B3 (D I)). apply (symbol_goes m wr x).
      + unfold m. rewrite macro_at_def, !last_def_app, Lh, A1; [now destruct wr|now apply Gq|unfold body_names; cbn [map In]; intuition discriminate].
      + destruct (Gp $"GDO_RAWPTR_" x) as (K1 & K2); [cbn [In]; tauto|]. unfold m. rewrite macro_at_def, !last_def_app, Lh, B1 by assumption. reflexivity.
      + rewrite Nm, Lh, A2; try reflexivity; try discriminate; [apply not_own; [exact On|now right]|unfold body_names; cbn [map In]; intuition discriminate|apply Lb; discriminate|apply Fl; right; now left].
      + apply Gn; [cbn [In]; tauto|exact B2].
      + apply Gn; [cbn [In]; tauto|exact B3].
      + exact G.
      + rewrite Ex. destruct (La x I J K) as [E|[E|E]]; rewrite E; [now left|right; now left|right; now right].
    - exists [(TWord x, hidden)]. apply stays. rewrite Ex, Lh, (Lo x G J I) by (auto; now apply Bn). reflexivity. }
  assert (Fs : names_library c d0 v file dl) by (apply (names_same c cfg d0); [|exact Nl]; intros z Z Z'; symmetry; apply Same; [intros ->; congruence|exact Z']).
  split.
  - apply (default_text c m d0 v file dl a w M Fr Fs Ed); unfold m.
    + now rewrite macro_at_def, !last_def_app, Nr, Q3 by (cbn [In]; tauto).
    + now rewrite macro_at_def, !last_def_app, Nr, Q2 by (cbn [In]; tauto).
    + rewrite macro_at_def, !last_def_app, Lq, Fa; [reflexivity|]. apply in_or_app. right. now left.
  - exists [TText pre]. split; [|exists pre, []; split; [reflexivity|apply app_nil_r]].
    apply (s_object _ $"GDO_COMMON_PREFIX" [] [TText pre] [] _ eq_refl); [|apply (s_plain _ (TText pre, _)); [exact Logic.I|apply s_nil]].
    unfold m. rewrite macro_at_def, !last_def_app, Lq, Fp; [reflexivity|]. apply in_or_app. right. right. now left.
Qed.
Theorem file_default e s f o defs t cfg pre file dl : let c := config_of s f o in let ds := dl ++ standard_macros f pre in let d := told s cfg ds in
  SpecEndToEnd.header_of e s f o defs [] t -> separate s = false -> o_format s = FmtC -> o_line s = false -> usable_prefix (o_pfxs s) -> plain_date e s ->
  always_read (extra_text s defs []) ds -> Forall option_macro ds -> (o_pragma s = false -> cfg (guard_of s) = false) -> cfg $"__cplusplus" = false -> cfg $"GDO_SEPARATE" = false -> no_default cfg ->
  names_library c cfg (o_lib s) file dl -> usable c d -> own_names c -> ~ In $"__cplusplus" (symbol_names c) -> opens_library cfg t file pre.
Proof.
  intros c ds d Hd Sp Fm Ol Up Dt A Op Gd Cx Cs No Nl U On Ns.
  assert (X : is_cxx s = false) by (unfold is_cxx; now rewrite Fm).
  assert (L : c_line c = false) by exact Ol.
  assert (Dp : default_prefix (config_of s [] [])) by exact (u_prefix _ _ U). assert (Ug : m_pfx_upper (o_pfxs s) = $"GDO") by exact (proj1 Dp).
  destruct (header_shape _ _ _ _ _ _ _ Hd Ol) as (fill & Ef & ->). assert (E2 : fill = single_text c) by (rewrite Ef; symmetry; exact (proj1 (texts_in_order c s Fm) Sp)). rewrite E2. clear Hd E2 Ef fill.
  pose proof (told_cplusplus s cfg ds Up Op Cx) as Cd. fold d in Cd.
  destruct (front_last c cfg (o_lib s) file dl f pre Nl) as (Fl & Fp & a & w & Ed & Fa). fold ds in Fl, Fp, Fa.
  assert (Fs : front_sets ds a pre) by (split; [|split; assumption]; intros x I; apply Fl; cbn [In] in *; tauto).
  assert (Sg : d $"GDO_SEPARATE" = false).
  { unfold d, told. rewrite defined_def, Fl by (cbn [In]; tauto). rewrite Cs, orb_false_r. apply not_true_is_false. intro J. apply mem_in in J. apply (file_names s _ Ug) in J as [J|J]; [|discriminate].
    unfold library_names in J; cbn [map In] in J; decompose [or] J; solve [discriminate|contradiction]. }
  assert (Pr : exists out, preprocess d (single_text c) = Some out) by (destruct (single_out c d U (single_quiet d Sg)) as (a0 & h1 & h2 & _ & _ & _ & _ & B); eexists; exact B).
  destruct Pr as (out & P). destruct (single_last c d out U Sg P) as (h & H & Lh & Lo & a1 & b1 & St & Eh1 & Lall).
  assert (Ce : defined_after d out $"__cplusplus" = false).
  { rewrite defined_def, Lh; [|exact Ns|unfold body_names; cbn [map In]; intuition discriminate]. rewrite Lo; [exact Cd|reflexivity|]. intro J. unfold other_macros in J. cbn [map In] in J. decompose [or] J; solve [discriminate|contradiction]. }
  assert (Rd : reads d (single_text c) out) by (intro rest; apply behind_text; [exact (single_whole c L)|exact P]).
  destruct (frame_more s defs [] (single_text c) cfg ds out X Ol Dp Up A Gd Cx Rd Ce) as (own & R & Ow & _ & _ & g & fm & d0 & Eo & Pf & Same). exists (own ++ ds ++ out). split; [rewrite (top_skipped cfg e s _ Dt); exact R|].
  apply (macros_meant s c cfg d [] own g fm d0 ds out h (o_lib s) file dl a w pre); auto; [now apply (options_told s cfg ds a pre)|]. split; [exact Lh|]. split; [auto|]. intros n I J K. rewrite Lall, Eh1. destruct (On n I) as (G & _).
  apply aliased_app; [now apply (header_aliased c d a1 n (u_plain _ _ U))|now apply (body_aliased c b1 n (u_plain _ _ U))].
Qed.

(* ---------------------------------------------------------------- the header and the body *)

Lemma pair_lines s f o defs c d file dl : m_pfx_upper (o_pfxs s) = $"GDO" -> is_cxx s = false -> separate s = true -> o_defines s = [] -> names_library c d (o_lib s) file dl -> Forall header_spec (o_includes s) -> Forall plain_proto (f ++ o) -> f ++ o <> [] ->
  all_defines s f o = Ok defs -> exists pre, let ds := PDefine $"GDO_SEPARATE" false [] :: dl ++ standard_macros f pre in get_common_prefix (map p_symbol f) (map p_symbol o) = Ok pre /\ always_read (extra_text s defs []) ds /\ Forall option_macro ds.
Proof.
  intros U X S D L I P N E. destruct (option_read _ _ _ _ _ L) as (t & Ft & At & Wt & Nv). unfold all_defines in E. rewrite U, S, D in E.
  assert (El : match o_lib s with [] => Ok [] | _ :: _ => format_libname (o_lib s) $"GDO" end = Ok t) by (destruct (o_lib s); [contradiction|exact Ft]).
  assert (E' : bind (Ok t) (fun lib => bind (get_common_prefix (map p_symbol f) (map p_symbol o)) (fun pre => Ok ([] ++ ($"#define " ++ $"GDO" ++ $"_SEPARATE" ++ [nl]) ++ lib ++ ($"#define " ++ $"GDO" ++ $"_COMMON_PREFIX " ++ [dquote] ++ pre ++ [dquote] ++ [nl]) ++
      concat (map (fun f => if ends_with $"..." (p_args f) then $"#define " ++ $"GDO" ++ $"_HAS_VA_ARGS_" ++ p_symbol f ++ $" 1" ++ [nl] else []) f)))) = Ok defs) by (rewrite <- E, <- El; destruct (o_lib s); reflexivity).
  clear E El. cbn [bind] in E'. destruct (get_common_prefix (map p_symbol f) (map p_symbol o)) as [pre| | |] eqn:G; try discriminate. exists pre. cbv zeta. split; [reflexivity|]. cbn [bind] in E'. assert (Q : forall a b : str, Ok a = Ok b -> b = a) by (intros; congruence). apply Q in E'. subst defs.
  assert (Ip : ident_text pre) by (apply (CTextFile.names_matter f o pre P); [rewrite map_app; now apply MacrosProps.prefix_of_all|exact N]).
  split.
  - unfold extra_text. rewrite X. cbn [typedefs_text]. rewrite app_nil_r. unfold standard_macros.
    pose proof (args_lines f ([nl] ++ includes_text (o_includes s) false) [] (proj1 (proj1 (Forall_app _ _ _) P)) (includes_read _ I)) as HV. rewrite app_nil_r in HV.
    match goal with |- always_read (defines_text ?x ++ ?y) _ => change (defines_text x) with ($"/* extra defines */" ++ [nl] ++ x ++ [nl]) end.
    match type of HV with always_read (?v ++ _) ?w => set (V := v) in *; set (W := w) in * end. clearbody W.
    match goal with |- always_read ?x _ => replace x with (($"/* extra defines */" ++ [nl]) ++ ($"#define GDO_SEPARATE" ++ [nl]) ++ t ++ ($"#define GDO_COMMON_PREFIX " ++ [dquote] ++ pre ++ [dquote] ++ [nl]) ++ V ++ [nl] ++ includes_text (o_includes s) false) end.
    + change (PDefine $"GDO_SEPARATE" false [] :: dl ++ PDefine $"GDO_COMMON_PREFIX" false [TText pre] :: W) with ([] ++ [PDefine $"GDO_SEPARATE" false []] ++ dl ++ [PDefine $"GDO_COMMON_PREFIX" false [TText pre]] ++ W).
      apply always_app; [apply rev_end; reflexivity|intro y; reflexivity|]. apply always_app; [apply rev_end; reflexivity|intro y; reflexivity|]. apply always_app; [exact Wt|exact At|]. apply always_app; [|now apply prefix_line|exact HV].
      right. exists ($"#define GDO_COMMON_PREFIX " ++ [dquote] ++ pre), dquote. split; [rewrite <- !app_assoc; reflexivity|reflexivity].
    + rewrite <- !app_assoc. reflexivity.
  - constructor; [repeat split|]. apply Forall_app. split; [destruct L; repeat constructor|]. constructor; [repeat split|]. apply Forall_forall. intros x H. apply in_flat_map in H as (y & _ & H). destruct (ends_with $"..." (p_args y)); [|destruct H]. destruct H as [<-|[]]. repeat split.
Qed.
Lemma header_leaves c d h : usable c d -> own_names c -> preprocess d (header_text c) = Some h -> out_leaves c h h.
Proof.
  intros U On H. destruct (header_reads c d U) as (a & F & St & R). apply (reads_alone d) in R. rewrite R in H. assert (Q : forall a b : list pout, Some a = Some b -> b = a) by (intros; congruence). apply Q in H. subst h.
  split; [reflexivity|]. split.
  - intros x G O I. transitivity (last_def x (outs d c a)); [|exact (unknown c d a x St G O)]. exact (tail_def c d a (u_plain _ _ U) x ltac:(intros ->; discriminate) I).
  - intros n I J _. exact (header_aliased c d a n (u_plain _ _ U) St (proj1 (On n I)) J).
Qed.
Theorem pair_default e s f o defs t t' cfg pre file dl : let c := config_of s f o in let ds := PDefine $"GDO_SEPARATE" false [] :: dl ++ standard_macros f pre in
  SpecEndToEnd.header_of e s f o defs [] t -> SpecEndToEnd.body_of e s f o t' -> separate s = true -> o_format s = FmtC -> o_line s = false -> usable_prefix (o_pfxs s) -> plain_date e s ->
  always_read (extra_text s defs []) ds -> Forall option_macro ds -> (o_pragma s = false -> cfg (guard_of s) = false) -> cfg $"__cplusplus" = false -> no_default cfg ->
  names_library c cfg (o_lib s) file dl -> usable c (told s cfg ds) -> usable c (told s (in_body cfg) ds) -> own_names c -> ~ In $"__cplusplus" (symbol_names c) -> told s (in_body cfg) ds $"GDO_INCLUDED_IN_BODY" = true ->
  opens_library cfg t file pre /\ opens_library_with s cfg t t' file pre.
Proof.
  intros c ds Hd Hb Sp Fm Ol Up Dt A Op Gd Cx No Nl U U' On Ns Sg.
  assert (Dp : default_prefix (config_of s [] [])) by exact (u_prefix _ _ U). assert (Ug : m_pfx_upper (o_pfxs s) = $"GDO") by exact (proj1 Dp).
  destruct (front_last c cfg (o_lib s) file dl f pre Nl) as (Fl & Fp & a & w & Ed & Fa).
  assert (Fs : front_sets ds a pre).
  { assert (K : forall x, x <> $"GDO_SEPARATE" -> last_def x ds = last_def x (dl ++ standard_macros f pre)).
    { intros x N. unfold ds. cbn [last_def]. destruct (last_def x (dl ++ standard_macros f pre)); [reflexivity|]. unfold names_it. cbn [named]. assert (str_eqb x $"GDO_SEPARATE" = false) as -> by (now apply str_eqb_neq). reflexivity. }
    split; [|split; rewrite K by discriminate; assumption]. intros x I. rewrite K; [apply Fl; cbn [In] in *; tauto|]. intros ->. destruct I as [I|[I|[I|[I|I]]]]; [|discriminate|discriminate|discriminate|cbn [In] in I; intuition discriminate].
    unfold library_names in I. cbn [map In] in I. intuition discriminate. }
  split.
  - destruct (header_alone e s f o defs [] t cfg ds Hd Sp Fm Ol Up Dt A Op Gd Cx Ns U) as (own & h & R & Ow & Rd & _ & _ & _ & g & fm & d0 & Eo & Pf & Same). apply reads_alone in Rd. exists (own ++ ds ++ h). split; [exact R|].
    apply (macros_meant s c cfg (told s cfg ds) [] own g fm d0 ds h h (o_lib s) file dl a w pre); auto; [now apply (options_told s cfg ds a pre)|exact (header_leaves c _ h U On Rd)].
  - assert (Gd' : o_pragma s = false -> in_body cfg (guard_of s) = false).
    { intro Pg. unfold in_body. rewrite (Gd Pg), orb_false_r. apply str_eqb_neq. intro E. destruct (CTextFile.guard_word (header_name s) (o_pfxs s) Up) as (_ & _ & G). unfold guard_of in E. rewrite E in G. discriminate. }
    set (d := told s (in_body cfg) ds) in *.
    destruct (header_alone e s f o defs [] t (in_body cfg) ds Hd Sp Fm Ol Up Dt A Op Gd' Cx Ns U') as (own & h & R & Ow & Rd & Eq & _ & Wt & g & fm & d0 & Eo & Pf & Same). fold c d in Rd, Eq.
    destruct (included_out c d U' (body_quiet d Sg)) as (b & F & St & H & B). pose proof (reads_alone _ _ _ Rd) as Rh.
    assert (Eh : hout c d b = h) by (assert (Q : forall a b : list pout, Some a = Some b -> a = b) by (intros; congruence); apply Q; rewrite <- H, <- Rh; reflexivity). rewrite Eh in B.
    pose proof (behind_reads _ _ _ _ _ Rd B) as Lib. set (z := bout c (defined_after d h)) in *.
    destruct Hb as (filled & (ws & n & _ & E1 & _ & E2) & ->). assert (E3 : filled = library_text c) by (rewrite (E2 Ol); exact (proj2 (templates_apart s c Fm Sp))). rewrite E3. clear E1 E2 E3 filled.
    exists (SpecGenerate.top_text e s lic ++ [nl] ++ $"#define " ++ $"GDO_INCLUDED_IN_BODY" ++ [nl]), ([nl] ++ library_text c).
    split; [unfold SpecGenerate.body_text, include_header_text; rewrite Ug; fold lic; rewrite <- !app_assoc; reflexivity|].
    assert (Wi : $"GDO_INCLUDED_IN_BODY" <> [] /\ ident_text $"GDO_INCLUDED_IN_BODY") by (split; [discriminate|repeat constructor]).
    assert (Df : forall rest, preprocess cfg ((SpecGenerate.top_text e s lic ++ [nl] ++ $"#define " ++ $"GDO_INCLUDED_IN_BODY" ++ [nl]) ++ rest) = behind [PDefine $"GDO_INCLUDED_IN_BODY" false []] (preprocess (in_body cfg) rest)).
    { intro rest. rewrite <- !app_assoc, (top_skipped cfg e s _ Dt), nl_skip, (define_line cfg _ _ (proj1 Wi) (proj2 Wi)). reflexivity. }
    exists ([PDefine $"GDO_INCLUDED_IN_BODY" false []] ++ own ++ ds ++ h ++ z). split.
    + rewrite Df, (behind_text _ _ _ _ Wt R), nl_skip, (preprocess_ext _ (defined_after d h)); [rewrite Lib; cbn [behind app]; now rewrite <- !app_assoc|]. intro y. rewrite !defined_after_app. now apply defined_after_ext.
    + apply (macros_meant s c cfg d _ own g fm d0 ds (h ++ z) h (o_lib s) file dl a w pre); auto.
      * intros y N G. rewrite (Same y N). unfold in_body. assert (str_eqb y $"GDO_INCLUDED_IN_BODY" = false) as -> by (apply str_eqb_neq; intros ->; discriminate). reflexivity.
      * apply (options_told s (in_body cfg) ds a pre Ug Fs). exact No.
      * destruct (header_leaves c d h U' On Rh) as (_ & K & K'). split; [|split; [exact K|]].
        { intros x I J. unfold z. now rewrite last_def_app, (body_other c _ x (u_plain _ _ U') I J). }
        intros y I J N. apply aliased_app; [now apply K'|apply (body_aliased c _ y (u_plain _ _ U')); [exact (proj1 (On y I))|exact N]].
Qed.

(* ---------------------------------------------------------------- the runs of the program *)

Lemma default_file e s f o defs t cfg pre file dl : let c := config_of s f o in
  SpecEndToEnd.ordinary_run e s -> Forall plain_proto (f ++ o) -> f ++ o <> [] -> all_defines s f o = Ok defs -> SpecEndToEnd.header_of e s f o defs [] t -> separate s = false ->
  library_given e s cfg -> get_common_prefix (map p_symbol f) (map p_symbol o) = Ok pre -> names_library c cfg (o_lib s) file dl ->
  usable c (told s cfg (dl ++ standard_macros f pre)) -> own_names c -> ~ In $"__cplusplus" (symbol_names c) -> opens_library cfg t file pre.
Proof.
  intros c (_ & _ & _ & _ & Up) P N D H Sp (Fm & Ol & Dt & Od & I & Gd & Cx & Cs & Nd) G Nl U On Ns.
  assert (Ug : m_pfx_upper (o_pfxs s) = $"GDO") by exact (proj1 (u_prefix _ _ U)). assert (X : is_cxx s = false) by (unfold is_cxx; now rewrite Fm).
  destruct (library_read s f o defs c cfg file dl Ug X Sp Od Nl I P N D) as (pre' & G' & A & Op). rewrite G in G'. injection G' as <-.
  exact (file_default e s f o defs t cfg pre file dl H Sp Fm Ol Up Dt A Op Gd Cx Cs Nd Nl U On Ns).
Qed.
Theorem written_default e s f o defs i fs out cfg pre file dl : let c := config_of s f o in
  SpecEndToEnd.ordinary_run e s -> Forall plain_proto (f ++ o) -> f ++ o <> [] -> all_defines s f o = Ok defs -> separate s = false -> to_stdout s = false -> o_output s <> [] -> SpecGenerate.creatable e s fs (o_output s) ->
  library_given e s cfg -> get_common_prefix (map p_symbol f) (map p_symbol o) = Ok pre -> names_library c cfg (o_lib s) file dl ->
  usable c (told s cfg (dl ++ standard_macros f pre)) -> own_names c -> ~ In $"__cplusplus" (symbol_names c) ->
  exists w' t, run e s f o [] i (SpecGenerate.started fs out) = (w', Ret tt) /\ w_fs w' (o_output s) = Some (Regular t) /\ opens_library cfg t file pre.
Proof.
  intros c O P N D Sp So Oo Cr L G Nl U On Ns. destruct (EndToEnd.generates_single e s f o defs [] i fs out O P N D Sp So Oo Cr) as (w' & t & R & W & H & _). exists w', t. split; [exact R|]. split; [exact W|].
  exact (default_file e s f o defs t cfg pre file dl O P N D H Sp L G Nl U On Ns).
Qed.
Theorem written_default_output e s f o defs i fs out cfg pre file dl : let c := config_of s f o in
  SpecEndToEnd.ordinary_run e s -> Forall plain_proto (f ++ o) -> f ++ o <> [] -> all_defines s f o = Ok defs -> to_stdout s = true ->
  library_given e s cfg -> get_common_prefix (map p_symbol f) (map p_symbol o) = Ok pre -> names_library c cfg (o_lib s) file dl ->
  usable c (told s cfg (dl ++ standard_macros f pre)) -> own_names c -> ~ In $"__cplusplus" (symbol_names c) ->
  exists w' t, run e s f o [] i (SpecGenerate.started fs out) = (w', Ret tt) /\ w_out w' = out ++ t /\ opens_library cfg t file pre.
Proof.
  intros c O P N D So L G Nl U On Ns. destruct (EndToEnd.generates_stdout e s f o defs [] i fs out O P N D So) as (w' & t & R & _ & W & H). exists w', t. split; [exact R|]. split; [exact W|].
  apply (default_file e s f o defs t cfg pre file dl O P N D H); try assumption. unfold separate. rewrite So. cbn [negb]. now rewrite andb_false_r.
Qed.
Theorem written_default_pair e s f o defs i fs out cfg pre file dl : let c := config_of s f o in let ds := PDefine $"GDO_SEPARATE" false [] :: dl ++ standard_macros f pre in
  SpecEndToEnd.ordinary_run e s -> Forall plain_proto (f ++ o) -> f ++ o <> [] -> all_defines s f o = Ok defs -> separate s = true -> SpecGenerate.creatable e s fs (header_path s) -> SpecGenerate.creatable e s fs (body_path s) ->
  library_given e s cfg -> get_common_prefix (map p_symbol f) (map p_symbol o) = Ok pre -> names_library c cfg (o_lib s) file dl ->
  usable c (told s cfg ds) -> usable c (told s (in_body cfg) ds) -> own_names c -> ~ In $"__cplusplus" (symbol_names c) -> told s (in_body cfg) ds $"GDO_INCLUDED_IN_BODY" = true ->
  exists w' t t', run e s f o [] i (SpecGenerate.started fs out) = (w', Ret tt) /\ w_fs w' (header_path s) = Some (Regular t) /\ w_fs w' (body_path s) = Some (Regular t') /\
    opens_library cfg t file pre /\ opens_library_with s cfg t t' file pre.
Proof.
  intros c ds O P N D Sp C1 C2 (Fm & Ol & Dt & Od & I & Gd & Cx & Cs & Nd) G Nl U U' On Ns Sg.
  destruct (EndToEnd.generates_two e s f o defs [] i fs out O P N D Sp C1 C2) as (w' & t & t' & R & W & H & W' & H' & _). exists w', t, t'. split; [exact R|]. split; [exact W|]. split; [exact W'|].
  assert (Ug : m_pfx_upper (o_pfxs s) = $"GDO") by exact (proj1 (u_prefix _ _ U)). assert (X : is_cxx s = false) by (unfold is_cxx; now rewrite Fm).
  destruct (pair_lines s f o defs c cfg file dl Ug X Sp Od Nl I P N D) as (pre' & G' & A & Op). rewrite G in G'. injection G' as <-. destruct O as (_ & _ & _ & _ & Up).
  exact (pair_default e s f o defs t t' cfg pre file dl H H' Sp Fm Ol Up Dt A Op Gd Cx Nd Nl U U' On Ns Sg).
Qed.

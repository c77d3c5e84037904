(** Proofs for C101: the header and the body that the program writes, as a compiler reads them. *)
From Coq Require Import Ascii String List Bool Arith Lia.
From Verif Require Import Str StrFacts Parse ParamNames Prefix Substitute Data Options Generate SpecPrefix SpecSubstitute.
From Verif Require SpecGenerate SpecEndToEnd EndToEnd ShippedProps CTextFile CRuntime MacrosProps.
From Verif Require Import Templates SpecTemplates SpecCRuntime SpecCLang SpecCProg SpecCRun SpecCMacro SpecBody SpecHeader SpecCRead SpecCSyntax SpecCWhole SpecFile
  CTemplate CTemplateText CTemplatePP HTemplate HTemplatePP HText HMacro HHeader HOrder HHeader2 HAlias HSingle CExpandMain HFile HFileMain.
Import ListNotations.

(** the templates of the header, at the beginning of a text *)
Lemma header_first c d : usable c d -> exists h, reads d (header_text c) h /\ (~ In $"__cplusplus" (symbol_names c) -> last_def $"__cplusplus" h = None).
Proof.
  intro U. destruct (header_reads c d U) as (a & F & St & H). exists (hout c d a). split.
  - intro rest. rewrite H. unfold behind, hout. reflexivity.
  - intro I. rewrite tail_def; [|exact (u_plain _ _ U)|discriminate|exact I]. apply unknown; [exact St|reflexivity|]. intro J. unfold other_macros in J. cbn [map In] in J. decompose [or] J; solve [discriminate|contradiction].
Qed.
Lemma templates_apart s c : o_format s = FmtC -> separate s = true ->
  concat (filled_texts c (map shipped (SpecGenerate.header_templates s))) = header_text c /\ concat (filled_texts c (map shipped (SpecGenerate.body_templates s))) = library_text c.
Proof. intros E S. unfold header_text, library_text, SpecGenerate.header_templates, SpecGenerate.body_templates. rewrite E, S. cbn [SpecGenerate.format_sources]. split; exact eq_refl. Qed.
Lemma framed_whole s defs tdefs x : is_cxx s = false -> usable_prefix (o_pfxs s) -> whole (framed_text s defs tdefs x).
Proof.
  intros X Up. unfold framed_text, SpecGenerate.bottom_text, guard_end_text. rewrite X. destruct (o_pragma s).
  - match goal with |- whole (_ ++ ?b) => apply whole_tail end. reflexivity.
  - match goal with |- whole ?t => assert (E : exists u, t = u ++ ["_"%char; nl]) end.
    { change ($"_" ++ [nl]) with ["_"%char; nl]. rewrite !app_assoc. eexists. reflexivity. }
    destruct E as (u & ->). apply whole_end. reflexivity.
Qed.
(** the header *)
Lemma header_alone e s f o defs tdefs t cfg ds : let c := config_of s f o in let d := told s cfg ds in
  SpecEndToEnd.header_of e s f o defs tdefs t -> separate s = true -> o_format s = FmtC -> o_line s = false -> usable_prefix (o_pfxs s) -> plain_date e s ->
  always_read (extra_text s defs tdefs) ds -> Forall option_macro ds -> (o_pragma s = false -> cfg (guard_of s) = false) -> cfg $"__cplusplus" = false -> ~ In $"__cplusplus" (symbol_names c) -> usable c d ->
  exists own h, preprocess cfg t = Some (own ++ ds ++ h) /\ Forall (own_macro s) own /\ reads d (header_text c) h /\ (forall y, defined_after (defined_after cfg own) ds y = d y) /\
    (o_pragma s = false -> forall d', d' (guard_of s) = true -> preprocess d' t = Some []) /\ whole t /\
    (exists g fm d0, own = g ++ fm /\ preprocess d0 (macros_text (config_of s [] []) (shipped TFilenameMacros)) = Some fm /\ forall y, y <> guard_of s -> d0 y = cfg y).
Proof.
  intros c d Hd Sp Fm Ol Up Dt A Op Gd Cx Ns U. assert (X : is_cxx s = false) by (unfold is_cxx; now rewrite Fm).
  assert (Dp : default_prefix (config_of s [] [])) by exact (u_prefix _ _ U).
  destruct (header_shape _ _ _ _ _ _ _ Hd Ol) as (fill & Ef & ->). assert (E2 : fill = header_text c) by (rewrite Ef; exact (proj1 (templates_apart s c Fm Sp))). rewrite E2. clear Hd E2 Ef fill.
  destruct (header_first c d U) as (h & Rd & N).
  assert (Ce : defined_after d h $"__cplusplus" = false) by (rewrite defined_def, (N Ns); exact (told_cplusplus s cfg ds Up Op Cx)).
  destruct (frame_more s defs tdefs (header_text c) cfg ds h X Ol Dp Up A Gd Cx Rd Ce) as (own & R & Ow & Eq & Ag & More). exists own, h.
  split; [rewrite (top_skipped cfg e s _ Dt); exact R|]. split; [exact Ow|]. split; [exact Rd|]. split; [exact Eq|]. split; [intros Pg d' Hg; rewrite (top_skipped d' e s _ Dt); now apply Ag|].
  split; [|exact More]. clear More.
  destruct (framed_whole s defs tdefs (header_text c) X Up) as [W|(u & y & W & Ey)].
  - exfalso. unfold framed_text, SpecGenerate.bottom_text, guard_end_text in W. apply app_eq_nil in W as (_ & W). rewrite X in W. apply app_eq_nil in W as (W & _). discriminate.
  - rewrite W. right. exists (SpecGenerate.top_text e s lic ++ u), y. split; [apply app_assoc|exact Ey].
Qed.
Lemma behind_reads d x out y z : reads d x out -> preprocess d (x ++ y) = Some (out ++ z) -> preprocess (defined_after d out) y = Some z.
Proof. intros R P. rewrite R in P. now apply behind_some in P. Qed.
Theorem body_read e s f o defs tdefs t t' k cfg ds : let c := config_of s f o in let d := told s (in_body cfg) ds in
  SpecEndToEnd.header_of e s f o defs tdefs t -> SpecEndToEnd.body_of e s f o t' -> separate s = true -> o_format s = FmtC -> o_line s = false -> usable_prefix (o_pfxs s) -> plain_date e s ->
  always_read (extra_text s defs tdefs) ds -> Forall option_macro ds -> (o_pragma s = false -> cfg (guard_of s) = false) -> cfg $"__cplusplus" = false -> ~ In $"__cplusplus" (symbol_names c) ->
  d $"GDO_INCLUDED_IN_BODY" = true -> usable c d -> target k c d -> plain_types c -> typed_config c -> no_variable c -> holds_body s k c cfg ds t t'.
Proof.
  intros c d Hd Hb Sp Fm Ol Up Dt A Op Gd Cx Ns Sg U T PT Ty Nv. assert (Ug : m_pfx_upper (o_pfxs s) = $"GDO") by exact (proj1 (u_prefix _ _ U)).
  assert (Gd' : o_pragma s = false -> in_body cfg (guard_of s) = false).
  { intro Pg. unfold in_body. rewrite (Gd Pg), orb_false_r. apply str_eqb_neq. intro E. destruct (CTextFile.guard_word (header_name s) (o_pfxs s) Up) as (_ & _ & G). unfold guard_of in E. rewrite E in G. discriminate. }
  destruct (header_alone e s f o defs tdefs t (in_body cfg) ds Hd Sp Fm Ol Up Dt A Op Gd' Cx Ns U) as (own & h & R & Ow & Rd & Eq & _ & Wt & _). fold c d in Rd, Eq.
  assert (Lw : leaves_words ((PDefine $"GDO_INCLUDED_IN_BODY" false [] :: own) ++ ds)).
  { apply leave_app; [|exact (options_leave ds Op)]. apply (leave_app [PDefine $"GDO_INCLUDED_IN_BODY" false []]); [|exact (own_leave s own Ug Ow)]. apply options_leave. constructor; [repeat split|constructor]. }
  destruct (body_behind k c d _ U T Sg Lw PT Ty Nv) as (h' & p & Ph & Pp & W & Rn).
  assert (h' = h) as -> by (rewrite (reads_alone _ _ _ Rd) in Ph; congruence).
  pose proof (behind_reads _ _ _ _ _ Rd Pp) as Lib.
  destruct Hb as (filled & (ws & n & _ & E1 & _ & E2) & ->). assert (E3 : filled = library_text c) by (rewrite (E2 Ol); exact (proj2 (templates_apart s c Fm Sp))). rewrite E3. clear E1 E2 E3 filled.
  exists (SpecGenerate.top_text e s lic ++ [nl] ++ $"#define " ++ $"GDO_INCLUDED_IN_BODY" ++ [nl]), ([nl] ++ library_text c), own, h, p. cbv zeta.
  assert (Wi : $"GDO_INCLUDED_IN_BODY" <> [] /\ ident_text $"GDO_INCLUDED_IN_BODY") by (split; [discriminate|repeat constructor]).
  assert (Df : forall rest, preprocess cfg ((SpecGenerate.top_text e s lic ++ [nl] ++ $"#define " ++ $"GDO_INCLUDED_IN_BODY" ++ [nl]) ++ rest) = behind [PDefine $"GDO_INCLUDED_IN_BODY" false []] (preprocess (in_body cfg) rest)).
  { intro rest. rewrite <- !app_assoc, (top_skipped cfg e s _ Dt), nl_skip, (define_line cfg _ _ (proj1 Wi) (proj2 Wi)). reflexivity. }
  split; [|split; [|split; [|split; [exact Ow|split; [exact (reads_alone _ _ _ Rd)|split; [|exact Rn]]]]]].
  - unfold SpecGenerate.body_text, include_header_text. rewrite Ug. fold lic. rewrite <- !app_assoc. reflexivity.
  - specialize (Df []). rewrite app_nil_r in Df. rewrite Df. reflexivity.
  - rewrite Df, (behind_text _ _ _ _ Wt R), nl_skip, (preprocess_ext _ (defined_after d h)).
    + rewrite Lib. cbn [behind app]. now rewrite <- !app_assoc.
    + intro y. rewrite !defined_after_app. now apply defined_after_ext.
  - intros x g E. specialize (W x g E). cbn [app] in W |- *. now rewrite <- !app_assoc in W.
Qed.

(* ---------------------------------------------------------------- the runs of the program *)

Theorem written_pair e s f o defs tdefs i fs out k cfg ds : SpecEndToEnd.ordinary_run e s -> Forall plain_proto (f ++ o) -> f ++ o <> [] -> all_defines s f o = Ok defs ->
  separate s = true -> SpecGenerate.creatable e s fs (header_path s) -> SpecGenerate.creatable e s fs (body_path s) -> c_file e s cfg defs tdefs ds ->
  pair_library k (config_of s f o) (told s cfg ds) (told s (in_body cfg) ds) -> told s (in_body cfg) ds $"GDO_INCLUDED_IN_BODY" = true ->
  exists w' t t', run e s f o tdefs i (SpecGenerate.started fs out) = (w', Ret tt) /\ w_fs w' (header_path s) = Some (Regular t) /\ w_fs w' (body_path s) = Some (Regular t') /\
    holds_header s (config_of s f o) cfg ds t /\ holds_body s k (config_of s f o) cfg ds t t'.
Proof.
  intros O P N D Sp C1 C2 (Fm & Ol & Dt & A & Op & Gd & Cx) (U & U' & T & Ns & PT & Ty & Nv) Sg.
  destruct (EndToEnd.generates_two e s f o defs tdefs i fs out O P N D Sp C1 C2) as (w' & t & t' & R & W & H & W' & H' & _). exists w', t, t'. split; [exact R|]. split; [exact W|]. split; [exact W'|].
  destruct O as (_ & _ & _ & _ & Up). split.
  - destruct (header_alone e s f o defs tdefs t cfg ds H Sp Fm Ol Up Dt A Op Gd Cx Ns U) as (own & h & R1 & R2 & R3 & _ & R4 & _). exists own, h. split; [exact R1|]. split; [exact R2|]. split; [exact (reads_alone _ _ _ R3)|exact R4].
  - exact (body_read e s f o defs tdefs t t' k cfg ds H H' Sp Fm Ol Up Dt A Op Gd Cx Ns Sg U' T PT Ty Nv).
Qed.

(** the texts in front of the templates, with the program's own macros only *)
Theorem pair_macros s f o defs : m_pfx_upper (o_pfxs s) = $"GDO" -> is_cxx s = false -> separate s = true -> o_defines s = [] -> o_lib s = [] -> Forall header_spec (o_includes s) -> Forall plain_proto (f ++ o) -> f ++ o <> [] ->
  all_defines s f o = Ok defs -> exists pre, let ds := PDefine $"GDO_SEPARATE" false [] :: standard_macros f pre in
    get_common_prefix (map p_symbol f) (map p_symbol o) = Ok pre /\ always_read (extra_text s defs []) ds /\ Forall option_macro ds.
Proof.
  intros U X S D L I P N E. unfold all_defines in E. rewrite L, U, S, D in E. cbn [bind] in E.
  destruct (get_common_prefix (map p_symbol f) (map p_symbol o)) as [pre| | |] eqn:G; try discriminate. exists pre. cbv zeta. split; [reflexivity|]. cbn [bind] in E. assert (Q : forall a b : str, Ok a = Ok b -> b = a) by (intros; congruence). apply Q in E. subst defs.
  assert (Ip : ident_text pre) by (apply (CTextFile.names_matter f o pre P); [rewrite map_app; now apply MacrosProps.prefix_of_all|exact N]).
  split.
  - unfold extra_text. rewrite X. cbn [typedefs_text]. rewrite app_nil_r. unfold standard_macros.
    pose proof (args_lines f ([nl] ++ includes_text (o_includes s) false) [] (proj1 (proj1 (Forall_app _ _ _) P)) (includes_read _ I)) as HV. rewrite app_nil_r in HV.
    match goal with |- always_read (defines_text ?x ++ ?y) _ => change (defines_text x) with ($"/* extra defines */" ++ [nl] ++ x ++ [nl]) end.
    match type of HV with always_read (?v ++ _) ?w => set (V := v) in *; set (W := w) in * end. clearbody W.
    match goal with |- always_read ?x _ => replace x with (($"/* extra defines */" ++ [nl]) ++ ($"#define GDO_SEPARATE" ++ [nl]) ++ ($"#define GDO_COMMON_PREFIX " ++ [dquote] ++ pre ++ [dquote] ++ [nl]) ++ V ++ [nl] ++ includes_text (o_includes s) false) end.
    + change (PDefine $"GDO_SEPARATE" false [] :: PDefine $"GDO_COMMON_PREFIX" false [TText pre] :: W) with ([] ++ [PDefine $"GDO_SEPARATE" false []] ++ [PDefine $"GDO_COMMON_PREFIX" false [TText pre]] ++ W).
      apply always_app; [apply rev_end; reflexivity|intro d; reflexivity|]. apply always_app; [apply rev_end; reflexivity|intro d; reflexivity|]. apply always_app; [|now apply prefix_line|exact HV].
      right. exists ($"#define GDO_COMMON_PREFIX " ++ [dquote] ++ pre), dquote. split; [rewrite <- !app_assoc; reflexivity|reflexivity].
    + rewrite <- !app_assoc. reflexivity.
  - constructor; [repeat split|]. constructor; [repeat split|]. apply Forall_forall. intros x H. apply in_flat_map in H as (y & _ & H). destruct (ends_with $"..." (p_args y)); [|destruct H]. destruct H as [<-|[]]. repeat split.
Qed.

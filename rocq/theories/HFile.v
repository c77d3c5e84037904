(** Proofs for C100: the parts of a generated file, one behind the other. *)
From Coq Require Import Ascii String List Bool Arith Lia.
From Verif Require Import Str StrFacts Parse ParamNames Prefix Substitute Data Generate SpecPrefix SpecSubstitute Templates SpecTemplates SpecCLang SpecCProg SpecCMacro SpecBody SpecHeader
  CTemplate CTemplateText CTemplatePP HTemplate HTemplatePP HText HMacro HHeader HOrder.
Import ListNotations.

(* ---------------------------------------------------------------- text that ends with a whole line *)

Definition whole (t : str) : Prop := t = [] \/ exists u x, t = u ++ [x; nl] /\ Ascii.eqb x bslash = false.
Lemma whole_app a b : whole b -> whole a -> whole (a ++ b).
Proof. intros [->|(u & x & -> & X)] A; [now rewrite app_nil_r|]. right. exists (a ++ u), x. split; [now rewrite app_assoc|exact X]. Qed.
Lemma whole_end a x : Ascii.eqb x bslash = false -> whole (a ++ [x; nl]).
Proof. intro X. right. now exists a, x. Qed.
Lemma fresh_no_back c : Ascii.eqb c bslash = false -> forall b, fst (fresh_char c) <> MBack b.
Proof. intros H b. unfold fresh_char. destruct (is_ident c), (blank_char c), (Ascii.eqb c nl), (Ascii.eqb c "/"), (Ascii.eqb c dquote || Ascii.eqb c "'"), (can_pair c); rewrite ?H; discriminate. Qed.
Lemma fresh_no_esc c : forall q w, fst (fresh_char c) <> MEsc q w.
Proof. intros q w. unfold fresh_char. destruct (is_ident c), (blank_char c), (Ascii.eqb c nl), (Ascii.eqb c "/"), (Ascii.eqb c dquote || Ascii.eqb c "'"), (Ascii.eqb c bslash), (can_pair c); discriminate. Qed.
Lemma char_no_back m c : Ascii.eqb c bslash = false -> (forall b, fst (lex_char m c) <> MBack b) /\ (forall q w, fst (lex_char m c) <> MEsc q w).
Proof.
  intro H. pose proof (fresh_no_back c H) as F. pose proof (fresh_no_esc c) as G.
  destruct m; cbn [lex_char]; rewrite ?H; repeat match goal with |- context [if ?b then _ else _] => destruct b end; cbn [fst after]; split; intros; try discriminate; auto.
Qed.
Definition quote_ok (m : cmode) : Prop := match m with MText q _ | MEsc q _ => Ascii.eqb nl q = false | _ => True end.
Lemma fresh_quote c : quote_ok (fst (fresh_char c)).
Proof.
  unfold fresh_char. destruct (is_ident c), (blank_char c), (Ascii.eqb c nl) eqn:N, (Ascii.eqb c "/"), (Ascii.eqb c dquote || Ascii.eqb c "'"), (Ascii.eqb c bslash), (can_pair c); try exact Logic.I;
    cbn [fst quote_ok]; now rewrite Ascii.eqb_sym.
Qed.
Lemma char_quote m c : quote_ok m -> quote_ok (fst (lex_char m c)).
Proof.
  intro H. pose proof (fresh_quote c) as F. destruct m; cbn [lex_char]; repeat match goal with |- context [if ?b then _ else _] => destruct b end; cbn [fst after]; auto; try exact Logic.I.
Qed.
Lemma lex_quote s : forall m, quote_ok m -> quote_ok (fst (lex_from m s)).
Proof.
  induction s as [|c s IH]; intros m H; [exact H|]. cbn [lex_from]. pose proof (char_quote m c H) as Q. destruct (lex_char m c) as [m1 t1]. cbn [fst] in Q. specialize (IH m1 Q).
  destruct (lex_from m1 s) as [m2 t2]. exact IH.
Qed.
Lemma nl_ends m : (forall b, m <> MBack b) -> (forall q w, m <> MEsc q w) -> quote_ok m -> forall t, lex_char m nl = (MCode, t) -> exists t', t = t' ++ [TEnd].
Proof.
  intros A B Q t E. destruct m; cbn [lex_char] in E.
  - injection E as <-. now exists [].
  - injection E as <-. now exists [TWord w].
  - destruct (is_pair c nl) eqn:P.
    + unfold is_pair in P. apply existsb_exists in P as (p & I & R). apply andb_true_iff in R as [_ R]. apply Ascii.eqb_eq in R. unfold pairs in I. cbn [In] in I.
      repeat (destruct I as [<-|I]; [discriminate|]). destruct I.
    + injection E as <-. now exists [TOp [c]].
  - injection E as <-. now exists [TOp $"/"].
  - injection E as <-. now exists [].
  - discriminate.
  - discriminate.
  - cbn [quote_ok] in Q. rewrite Q in E. injection E as <-. now exists [TBad].
  - now destruct (B q w).
  - now destruct (A line).
Qed.
Lemma lex_one1 m c : lex_from m [c] = lex_char m c.
Proof. cbn [lex_from]. destruct (lex_char m c) as [m1 t1]. now rewrite app_nil_r. Qed.
Lemma whole_lex t k : whole t -> lex_from MCode t = (MCode, k) -> k = [] \/ exists k', k = k' ++ [TEnd].
Proof.
  intros [->|(u & x & -> & X)] E; [left; cbn in E; congruence|]. right. rewrite lex_app in E. pose proof (lex_quote u MCode Logic.I) as Q.
  destruct (lex_from MCode u) as [m1 t1]. cbn [fst snd] in E, Q. change [x; nl] with ([x] ++ [nl]) in E. rewrite lex_app, !lex_one1 in E.
  pose proof (char_no_back m1 x X) as [B1 B2]. pose proof (char_quote m1 x Q) as Q2. destruct (lex_char m1 x) as [m2 t2]. cbn [fst snd] in *.
  destruct (lex_char m2 nl) as [m3 t3] eqn:E3. cbn [fst snd] in E. injection E as -> <-. destruct (nl_ends m2 B1 B2 Q2 t3 E3) as [t' ->]. exists (t1 ++ t2 ++ t'). now rewrite !app_assoc.
Qed.
Lemma split_end a : forall acc b, split_lines acc ((a ++ [TEnd]) ++ b) = split_lines acc (a ++ [TEnd]) ++ split_lines [] b.
Proof. induction a as [|t a IH]; intros acc b; [reflexivity|]. cbn [app split_lines]. destruct t; try apply IH. cbn [app]. f_equal. apply IH. Qed.
Lemma whole_split t k b : whole t -> lex_from MCode t = (MCode, k) -> split_lines [] (k ++ b) = split_lines [] k ++ split_lines [] b.
Proof. intros W E. destruct (whole_lex t k W E) as [->|[k' ->]]; [reflexivity|apply split_end]. Qed.

(* ---------------------------------------------------------------- one text behind another *)

Lemma behind_text cfg t o rest : whole t -> preprocess cfg t = Some o -> preprocess cfg (t ++ rest) = behind o (preprocess (defined_after cfg o) rest).
Proof.
  intros W P. unfold preprocess, c_tokens in P |- *. destruct (lex_from MCode t) as [m k] eqn:E. destruct m; try discriminate.
  destruct (pp_lines cfg (mkp [] []) (split_lines [] k)) as [[[g pm] o']|] eqn:Q; [|discriminate]. destruct g; [|discriminate]. injection P as ->.
  rewrite lex_app, E. cbn [fst snd]. destruct (lex_from MCode rest) as [m r]. destruct m; try reflexivity. cbn [fst snd].
  rewrite (whole_split t k r W E), pp_app, Q. pose proof (lines_defs _ _ _ _ _ Q) as DF.
  rewrite (under_lines cfg (defined_after cfg o) pm (fun x => eq_sym (DF x)) (split_lines [] r) (mkp [] []) : pp_lines cfg (mkp [] pm) _ = _).
  destruct (pp_lines (defined_after cfg o) (mkp [] []) (split_lines [] r)) as [[[g2 m2] o2]|]; [|reflexivity].
  cbn [under p_groups p_macros]. now destruct g2.
Qed.
Lemma behind_nil r : behind [] r = r.
Proof. now destruct r. Qed.
Lemma behind_behind a b r : behind a (behind b r) = behind (a ++ b) r.
Proof. destruct r; [|reflexivity]. cbn [behind]. now rewrite app_assoc. Qed.
Lemma no_text cfg t rest : whole t -> preprocess cfg t = Some [] -> preprocess cfg (t ++ rest) = preprocess cfg rest.
Proof. intros W P. rewrite (behind_text cfg t [] rest W P). apply behind_nil. Qed.

(* ---------------------------------------------------------------- what is preprocessed may stand in a group that is used *)

Section Frame.
Variables (cfg : str -> bool) (gs0 : list group).
Hypothesis used : all_used gs0 = true.
Definition framed (s : pstate) : pstate := mkp (p_groups s ++ gs0) (p_macros s).
Lemma framed_used s : all_used (p_groups (framed s)) = all_used (p_groups s).
Proof. unfold all_used, framed in *; cbn [p_groups]. rewrite forallb_app, used. apply andb_true_r. Qed.
Lemma framed_line s l s' o : pp_line cfg s l = Some (s', o) -> pp_line cfg (framed s) l = Some (framed s', o).
Proof.
  intro H. destruct s as [gs m]. destruct l; cbn [pp_line] in *; rewrite ?framed_used; change (defined_in cfg (framed (mkp gs m))) with (defined_in cfg (mkp gs m)); unfold framed in *; cbn [p_groups p_macros] in *.
  - injection H as <- <-. reflexivity.
  - injection H as <- <-. reflexivity.
  - destruct gs; [discriminate|]. injection H as <- <-. reflexivity.
  - destruct gs; [discriminate|]. injection H as <- <-. reflexivity.
  - destruct gs; [discriminate|]. injection H as <- <-. reflexivity.
  - injection H as H. destruct (all_used gs); inversion H; subst; reflexivity.
  - injection H as H. destruct (all_used gs); inversion H; subst; reflexivity.
  - injection H as <- <-. reflexivity.
Qed.
Lemma framed_lines ls : forall s s' o, pp_lines cfg s ls = Some (s', o) -> pp_lines cfg (framed s) ls = Some (framed s', o).
Proof.
  induction ls as [|l ls IH]; intros s s' o H; cbn [pp_lines] in *; [injection H as <- <-; reflexivity|]. destruct (classify l) as [k|]; [|discriminate].
  destruct (pp_line cfg s k) as [[s1 t1]|] eqn:E; [|discriminate]. rewrite (framed_line _ _ _ _ E). destruct (pp_lines cfg s1 ls) as [[s2 t2]|] eqn:E2; [|discriminate].
  rewrite (IH _ _ _ E2). injection H as <- <-. reflexivity.
Qed.
End Frame.
(** a line on its own, before the rest of a text *)
Lemma word_line (k g : str) (m : tok) rest : lex_from MCode k = (MCode, [TOp $"#"; m]) -> g <> [] -> ident_text g ->
  lex_from MCode (k ++ g ++ [nl] ++ rest) = (fst (lex_from MCode rest), [TOp $"#"; m; TWord g; TEnd] ++ snd (lex_from MCode rest)).
Proof.
  intros K N I. rewrite lex_app, K. cbn [fst snd]. rewrite lex_app, (word_start g N I). cbn [fst snd]. rewrite lex_app, lex_one1.
  change (lex_char (MWord g) nl) with (MCode, [TWord g; TEnd]). reflexivity.
Qed.
(** the include guard: [#ifndef] and [#endif] with a comment around a text *)
Lemma guarded cfg g t o e : g <> [] -> ident_text g -> cfg g = false -> whole t -> preprocess cfg t = Some o -> Forall (fun c => Ascii.eqb c nl = false /\ Ascii.eqb c bslash = false) e ->
  preprocess cfg ($"#ifndef " ++ g ++ [nl] ++ t ++ $"#endif //" ++ e ++ [nl]) = Some o.
Proof.
  intros N I G W P E. unfold preprocess, c_tokens in P |- *. destruct (lex_from MCode t) as [m k] eqn:L. destruct m; try discriminate.
  destruct (pp_lines cfg (mkp [] []) (split_lines [] k)) as [[[gr pm] o']|] eqn:Q; [|discriminate]. destruct gr; [|discriminate]. injection P as ->.
  assert (LE : lex_from MCode ($"#endif //" ++ e ++ [nl]) = (MCode, [TOp $"#"; TWord $"endif"; TEnd])).
  { rewrite lex_app. change (lex_from MCode $"#endif //") with (MLine, [TOp $"#"; TWord $"endif"]). cbn [fst snd].
    assert (X : lex_from MLine (e ++ [nl]) = (MCode, [TEnd])); [|now rewrite X]. clear -E. induction E as [|c e [A B] E IH]; [reflexivity|]. cbn [app lex_from lex_char]. rewrite A, B, IH. reflexivity. }
  rewrite (word_line $"#ifndef " g (TWord $"ifndef") _ eq_refl N I), lex_app, L. cbn [fst snd]. rewrite LE. cbn [fst snd].
  change (split_lines [] ([TOp $"#"; TWord $"ifndef"; TWord g; TEnd] ++ k ++ [TOp $"#"; TWord $"endif"; TEnd])) with
    ([TOp $"#"; TWord $"ifndef"; TWord g] :: split_lines [] (k ++ [TOp $"#"; TWord $"endif"; TEnd])).
  rewrite (whole_split t k _ W L). cbn [pp_lines].
  change (classify [TOp $"#"; TWord $"ifndef"; TWord g]) with (Some (LIf (CNot (CDef g)))). cbn [pp_line p_groups p_macros holds]. unfold defined_in at 1 2. cbn [p_macros lookup]. rewrite G. cbn [negb].
  rewrite pp_app. assert (U : all_used [mkgroup true true] = true) by reflexivity.
  pose proof (framed_lines cfg [mkgroup true true] U _ _ _ _ Q) as R. unfold framed in R at 1. cbn [p_groups p_macros app] in R. rewrite R.
  unfold framed. cbn [p_groups p_macros app]. cbn. now rewrite !app_nil_r.
Qed.
(** the same where the guard is set: nothing of the text is used *)
Section Skip.
Variables (cfg cfg' : str -> bool).
Definition skipping (s s' : pstate) : Prop := exists gs, p_groups s' = gs ++ [mkgroup false false] /\ length gs = length (p_groups s).
Lemma skipping_not s s' : skipping s s' -> all_used (p_groups s') = false.
Proof. intros (gs & E & _). unfold all_used. rewrite E, forallb_app. cbn. apply andb_false_r. Qed.
Lemma skip_line s s' l s1 o : skipping s s' -> pp_line cfg s l = Some (s1, o) -> exists s2, pp_line cfg' s' l = Some (s2, []) /\ skipping s1 s2.
Proof.
  intros K H. pose proof (skipping_not _ _ K) as N. destruct K as (gs & E & L). destruct l; cbn [pp_line] in *; rewrite ?N.
  - injection H as <- <-. exists s'. split; [reflexivity|]. now exists gs.
  - injection H as <- <-. eexists. split; [reflexivity|]. eexists (_ :: gs). cbn [p_groups]. rewrite E. split; [reflexivity|]. cbn. now rewrite L.
  - destruct (p_groups s) as [|g r]; [discriminate|]. destruct gs as [|g' gs]; [discriminate|]. rewrite E. cbn [app]. injection H as <- <-. eexists. split; [reflexivity|]. eexists (_ :: gs). split; [reflexivity|]. cbn in *. lia.
  - destruct (p_groups s) as [|g r]; [discriminate|]. destruct gs as [|g' gs]; [discriminate|]. rewrite E. cbn [app]. injection H as <- <-. eexists. split; [reflexivity|]. eexists (_ :: gs). split; [reflexivity|]. cbn in *. lia.
  - destruct (p_groups s) as [|g r]; [discriminate|]. destruct gs as [|g' gs]; [discriminate|]. rewrite E. cbn [app]. injection H as <- <-. eexists. split; [reflexivity|]. exists gs. split; [reflexivity|]. cbn in *. lia.
  - exists s'. split; [reflexivity|]. exists gs. split; [exact E|]. destruct (all_used (p_groups s)); injection H as <- <-; exact L.
  - exists s'. split; [reflexivity|]. exists gs. split; [exact E|]. destruct (all_used (p_groups s)); injection H as <- <-; exact L.
  - injection H as <- <-. exists s'. split; [reflexivity|]. now exists gs.
Qed.
Lemma skip_lines ls : forall s s' s1 o, skipping s s' -> pp_lines cfg s ls = Some (s1, o) -> exists s2, pp_lines cfg' s' ls = Some (s2, []) /\ skipping s1 s2.
Proof.
  induction ls as [|l ls IH]; intros s s' s1 o K H; cbn [pp_lines] in *; [injection H as <- <-; now exists s'|]. destruct (classify l) as [x|]; [|discriminate].
  destruct (pp_line cfg s x) as [[s2 t1]|] eqn:E; [|discriminate]. destruct (skip_line _ _ _ _ _ K E) as (s3 & E3 & K3). rewrite E3. destruct (pp_lines cfg s2 ls) as [[s4 t2]|] eqn:E4; [|discriminate]. injection H as <- <-.
  destruct (IH _ _ _ _ K3 E4) as (s5 & E5 & K5). rewrite E5. now exists s5.
Qed.
End Skip.
Lemma guarded_again cfg d g t o e : g <> [] -> ident_text g -> d g = true -> whole t -> preprocess cfg t = Some o -> Forall (fun c => Ascii.eqb c nl = false /\ Ascii.eqb c bslash = false) e ->
  preprocess d ($"#ifndef " ++ g ++ [nl] ++ t ++ $"#endif //" ++ e ++ [nl]) = Some [].
Proof.
  intros N I G W P E. unfold preprocess, c_tokens in P |- *. destruct (lex_from MCode t) as [m k] eqn:L. destruct m; try discriminate.
  destruct (pp_lines cfg (mkp [] []) (split_lines [] k)) as [[[gr pm] o']|] eqn:Q; [|discriminate]. destruct gr; [|discriminate]. injection P as ->.
  assert (LE : lex_from MCode ($"#endif //" ++ e ++ [nl]) = (MCode, [TOp $"#"; TWord $"endif"; TEnd])).
  { rewrite lex_app. change (lex_from MCode $"#endif //") with (MLine, [TOp $"#"; TWord $"endif"]). cbn [fst snd].
    assert (X : lex_from MLine (e ++ [nl]) = (MCode, [TEnd])); [|now rewrite X]. clear -E. induction E as [|c e [A B] E IH]; [reflexivity|]. cbn [app lex_from lex_char]. rewrite A, B, IH. reflexivity. }
  rewrite (word_line $"#ifndef " g (TWord $"ifndef") _ eq_refl N I), lex_app, L. cbn [fst snd]. rewrite LE. cbn [fst snd].
  change (split_lines [] ([TOp $"#"; TWord $"ifndef"; TWord g; TEnd] ++ k ++ [TOp $"#"; TWord $"endif"; TEnd])) with
    ([TOp $"#"; TWord $"ifndef"; TWord g] :: split_lines [] (k ++ [TOp $"#"; TWord $"endif"; TEnd])).
  rewrite (whole_split t k _ W L). cbn [pp_lines].
  change (classify [TOp $"#"; TWord $"ifndef"; TWord g]) with (Some (LIf (CNot (CDef g)))). cbn [pp_line p_groups p_macros holds]. unfold defined_in at 1 2. cbn [p_macros lookup]. rewrite G. cbn [negb].
  rewrite pp_app. assert (K : skipping (mkp [] []) (mkp [mkgroup false false] [])) by (exists []; split; reflexivity).
  destruct (skip_lines cfg d _ _ _ _ _ K Q) as ([g2 m2] & R & (gs & E2 & L2)). cbn [p_groups length] in E2, L2. destruct gs; [|discriminate]. cbn [app] in E2. subst g2. rewrite R. reflexivity.
Qed.
Lemma define_line cfg g rest : g <> [] -> ident_text g -> preprocess cfg ($"#define " ++ g ++ [nl] ++ rest) = behind [PDefine g false []] (preprocess (defined_after cfg [PDefine g false []]) rest).
Proof.
  intros N I. replace ($"#define " ++ g ++ [nl] ++ rest) with (($"#define " ++ g ++ [nl]) ++ rest) by (now rewrite <- !app_assoc). apply behind_text.
  - right. destruct (exists_last N) as (g' & x & ->). exists ($"#define " ++ g'), x. split; [now rewrite <- !app_assoc|]. apply Forall_app in I as [_ I]. inversion I as [|? ? Ix _]; subst. apply not_true_is_false. intro B. apply Ascii.eqb_eq in B. subst. discriminate.
  - unfold preprocess, c_tokens. pose proof (word_line $"#define " g (TWord $"define") [] eq_refl N I) as X. rewrite (app_nil_r [nl] : [nl] ++ [] = [nl]) in X. rewrite X. cbn [lex_from fst snd app]. cbn. reflexivity.
Qed.

(* ---------------------------------------------------------------- the macros for file names *)

Definition fm_lines : list str := inner_lines (shipped TFilenameMacros).
Definition lib_names : list str := [$"GDO_LIBEXTA"; $"GDO_LIBNAMEA"; $"GDO_LIBEXTW"; $"GDO_LIBNAMEW"; $"GDO_LIBEXT"; $"GDO_LIBNAME"].
Definition fm_known (g : gel) : bool := match snd g with GDef y _ _ | GUndef y => existsb (str_eqb y) lib_names | _ => false end.
Lemma fm_reads : exists o, hread [] fm_lines = Some o /\ forallb fm_known o = true.
Proof. eexists. split; [vm_compute; reflexivity|vm_compute; reflexivity]. Qed.
Lemma fm_defines o : hread [] fm_lines = Some o -> forall cfg c x, In x lib_names -> match last_def x (outs cfg c o) with Some d => is_define d | None => false end = true.
Proof.
  intro R. vm_compute in R. assert (Q : forall a b : list gel, Some a = Some b -> b = a) by (intros; congruence). apply Q in R. subst o. intros cfg c x I. unfold lib_names in I. cbn [In] in I.
  repeat (destruct I as [<-|I]; [match goal with |- context [last_def ?x (outs cfg c ?l)] => let f := eval vm_compute in (filter (may true x) l) in rewrite (exact_def cfg c x l f ltac:(vm_compute; reflexivity)) end; unfold outs, iout; cbn [flat_map fst snd forallb feval];
    repeat match goal with |- context [cfg ?w] => destruct (cfg w) end; vm_compute; reflexivity|]). destruct I.
Qed.
Lemma fm_fine : texts_fine fm_lines = true /\ forallb (fun s => match holes (parts 0 s) with [] => true | _ => false end) fm_lines = true.
Proof. split; vm_compute; reflexivity. Qed.
Lemma no_holes c l : forallb (fun s => match holes (parts 0 s) with [] => true | _ => false end) l = true -> flat_map (expansion c) l = map (rename (m_pfx_upper (c_pfx c)) (m_pfx_lower (c_pfx c))) l.
Proof.
  induction l as [|s l IH]; intro H; [reflexivity|]. cbn [forallb] in H. apply andb_true_iff in H as [H1 H2]. cbn [flat_map map]. unfold expansion at 1.
  destruct (holes (parts 0 s)); [|discriminate]. cbn [app]. f_equal. exact (IH H2).
Qed.
Lemma fm_expanded c l : forallb (fun s => match holes (parts 0 s) with [] => true | _ => false end) l = true ->
  concat (map (fun s => rename (m_pfx_upper (c_pfx c)) (m_pfx_lower (c_pfx c)) s ++ [nl]) l) = expanded c l.
Proof. intro H. unfold expanded. rewrite (no_holes c l H), map_map. reflexivity. Qed.
Lemma fm_text c l lines : c_line c = false -> inner_lines l = lines -> forallb (fun s => match holes (parts 0 s) with [] => true | _ => false end) lines = true -> macros_text c l = expanded c lines.
Proof. intros L <- H. unfold macros_text. rewrite L. exact (fm_expanded c _ H). Qed.
Lemma fm_read c : default_prefix c -> c_line c = false -> c_funcs c = [] -> c_objs c = [] -> exists fm : (str -> bool) -> list pout,
  (forall cfg rest, preprocess cfg (macros_text c (shipped TFilenameMacros) ++ rest) = behind (fm cfg) (preprocess (defined_after cfg (fm cfg)) rest)) /\
  (forall cfg, Forall (fun o => match o with PTok _ => False | PDefine x _ _ | PUndef x => In x lib_names end) (fm cfg)) /\
  (forall cfg x, In x lib_names -> defined_after cfg (fm cfg) x = true).
Proof.
  intros D L Ef Eo. destruct fm_reads as (o & R & K). exists (fun cfg => outs cfg c o). split; [|split].
  - intros cfg rest. rewrite (fm_text c _ fm_lines L eq_refl (proj2 fm_fine)). apply (hread_text c cfg [] fm_lines o D); [|exact (proj1 fm_fine)|..|exact R].
    + unfold plain_config. rewrite Ef, Eo. split; constructor.
    + intros p v [].
    + unfold envs; cbn. rewrite Ef. constructor.
    + intros k v h I. exfalso. destruct k; cbn in I; rewrite ?Ef, ?Eo in I; exact I.
  - clear R. intro cfg. apply Forall_forall. intros x I. unfold outs in I. apply in_flat_map in I as (g & Ig & I). rewrite forallb_forall in K. specialize (K g Ig). unfold fm_known in K. unfold iout in I.
    destruct (forallb (feval cfg) (fst g)); [|destruct I]. destruct (snd g); try discriminate; destruct I as [<-|[]]; apply existsb_exists in K as (y & Iy & Ey); apply str_eqb_eq in Ey; now subst.
  - intros cfg x I. pose proof (fm_defines o R cfg c x I) as H. clear R. rewrite defined_def. destruct (last_def x (outs cfg c o)); [exact H|discriminate].
Qed.

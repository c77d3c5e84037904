(** Proofs for C93 to C96: what the header's macros stand for. *)
From Coq Require Import Ascii String List Bool Arith Lia.
From Verif Require Import Str StrFacts Parse ParamNames Prefix Substitute Data Generate SpecPrefix SpecSubstitute Templates SpecTemplates SpecCLang SpecCProg SpecCMacro SpecBody SpecHeader
  CTemplate CTemplateText CTemplatePP CBodyText HTemplate HTemplatePP HText HMacro HHeader.
Import ListNotations.

Lemma shown_create l : forall b, shown_lines PCreate b l = shown_lines PRead b l.
Proof. induction l as [|s l IH]; intro b; [reflexivity|]. cbn [shown_lines]. destruct (marker_of s) as [[]|]; cbn [opens]; now rewrite IH. Qed.
Lemma header_create : header_lines PCreate = header_lines PRead.
Proof. unfold header_lines. cbn [flat_map]. generalize (inner_lines (shipped TCommonH)) (inner_lines (shipped TCH)). intros a b. now rewrite !shown_create. Qed.
Lemma header_facts p : header_fact p.
Proof.
  destruct p; [exact header_read| |exact header_skip]. unfold header_fact. rewrite header_create. pose proof header_read as H. unfold header_fact in H.
  generalize dependent (header_lines PRead). intros l H. exact H.
Qed.

(* ---------------------------------------------------------------- values of placeholders *)

Lemma no_hash_text s : declaration_text s -> ~ In (TOp $"#") (own_tokens s).
Proof.
  intro D. assert (H : forall m, m = MCode \/ (exists w, m = MWord w) -> ~ In (TOp $"#") (snd (lex_from m s))).
  { induction D as [|c s Hc Hs IH]; intros m Hm; [now intros []|].
    assert (F : (is_ident c = true /\ fresh_char c = (MWord [c], [])) \/ (is_ident c = false /\ fst (fresh_char c) = MCode /\ ~ In (TOp $"#") (snd (fresh_char c)))).
    { unfold declaration_char in Hc. destruct (is_ident c) eqn:I; [left; split; [reflexivity|]; unfold fresh_char; now rewrite I|]. right.
      cbn [orb] in Hc. apply existsb_exists in Hc as (d & D' & E). apply Ascii.eqb_eq in E; subst d.
      repeat (destruct D' as [<-|D']; [split; [reflexivity|split; [reflexivity|cbn; intuition discriminate]]|]). contradiction. }
    assert (S : (fst (lex_char m c) = MCode \/ exists w, fst (lex_char m c) = MWord w) /\ ~ In (TOp $"#") (snd (lex_char m c))).
    { destruct Hm as [->|[w ->]]; cbn [lex_char].
      - destruct F as [[_ ->]|(_ & -> & N)]; [cbn; split; [right; now eexists|now intros []]|split; [now left|exact N]].
      - destruct F as [[-> _]|(-> & E & N)]; [cbn; split; [right; now eexists|now intros []]|]. unfold after; cbn [fst snd]. rewrite E. split; [now left|].
        intro I. apply in_app_iff in I as [I|I]; [|contradiction]. destruct (Ascii.eqb c "("); cbn in I; intuition discriminate. }
    destruct S as [S1 S2]. cbn [lex_from]. destruct (lex_char m c) as [m1 t1]. cbn [fst snd] in *. specialize (IH m1 S1). destruct (lex_from m1 s) as [m2 t2]. cbn [snd] in *.
    intro I. apply in_app_iff in I as [I|I]; contradiction. }
  unfold own_tokens. intro I. apply in_app_iff in I as [I|I]; [exact (H MCode (or_introl eq_refl) I)|]. destruct (fst (lex_from MCode s)); cbn in I; intuition discriminate.
Qed.
Lemma value_decl n e h : plain_proto e -> declaration_text (value_of n e h).
Proof.
  intros (T & A & P & I & N). assert (D : forall s, forallb declaration_char s = true -> declaration_text s) by (intros s E; apply Forall_forall; now apply forallb_forall).
  destruct h; cbn [value_of]; try assumption; try (now apply ident_decl); try (apply decl_app; [now apply ident_decl|apply blanks_decl]); [|constructor]. destruct (void_type e); now apply D.
Qed.
Lemma symbol_decl b e h : plain_proto e -> declaration_text (symbol_value b e h).
Proof.
  intro P. destruct h; try (exact (value_decl 0 e _ P)). destruct P as (T & A & _). cbn [symbol_value]. unfold pointer_to. apply decl_app; [exact T|]. apply decl_app.
  - destruct (pointer_type e); repeat constructor.
  - destruct b; [|repeat constructor]. change ($"(*)(" ++ p_args e ++ $")") with (["("; "*"; ")"; "("]%char ++ p_args e ++ [")"]%char).
    apply decl_app; [repeat constructor|]. apply decl_app; [exact A|repeat constructor].
Qed.
Lemma env_no_hash c k v h : plain_config c -> In v (envs c k) -> ~ In (TOp $"#") (own_tokens (v h)).
Proof.
  intros [F O] I. rewrite Forall_forall in F, O. apply no_hash_text.
  destruct k; cbn [envs] in I; rewrite ?in_app_iff, ?in_map_iff in I; [destruct I as (e & <- & I); now apply value_decl, F|destruct I as (e & <- & I); now apply value_decl, O|].
  destruct I as [(e & <- & I)|(e & <- & I)]; apply symbol_decl; [now apply F|now apply O].
Qed.
Lemma func_names c : map (fun v => v HFunc) (envs c CFunction) = map p_symbol (c_funcs c).
Proof. cbn [envs]. rewrite map_map. reflexivity. Qed.
Lemma NoDup_left {A} (a b : list A) : NoDup (a ++ b) -> NoDup a.
Proof. induction a as [|x a IH]; intro H; [constructor|]. cbn [app] in H. inversion H; subst. constructor; [|now apply IH]. intro I. apply H2. apply in_app_iff. now left. Qed.

(* ---------------------------------------------------------------- the text of the header *)

Definition tail_of (p : param_mode) : list gel := wraps p g_wrapper ++ g_alias ++ g_aliases.
Lemma header_shown c : c_line c = false -> header_text c = expanded c (header_lines (c_param c)).
Proof.
  intro L. unfold header_text, filled_texts, expanded. rewrite (shown_two c _ _ L). unfold header_lines. cbn [flat_map].
  generalize (inner_lines (shipped TCommonH)) (inner_lines (shipped TCH)). reflexivity.
Qed.
Lemma header_reads c cfg : usable c cfg -> exists a, front_facts (c_param c) a /\ set_facts a /\
  forall rest, preprocess cfg (header_text c ++ rest) =
    match preprocess (defined_after cfg (outs cfg c (a ++ tail_of (c_param c)))) rest with Some r => Some (outs cfg c (a ++ tail_of (c_param c)) ++ r) | None => None end.
Proof.
  intros [L D P N H A]. rewrite (header_shown c L). destruct (header_facts (c_param c)) as [F T]. generalize dependent (header_lines (c_param c)). intros lines F T.
  destruct (hread free_names lines) as [o|] eqn:E; [|contradiction]. cbv zeta in F. destruct F as (F1 & F2 & F3). fold (tail_of (c_param c)) in F1, F2, F3.
  eexists. split; [exact F2|]. split; [exact F3|]. intro rest.
  assert (O : outs cfg c (firstn (length (flat_map (pruned absent) o) - length (tail_of (c_param c))) (flat_map (pruned absent) o) ++ tail_of (c_param c)) = outs cfg c o).
  { rewrite <- F1 at 2. rewrite firstn_skipn. now apply pruned_ok. }
  rewrite O. apply (hread_text c cfg free_names lines o D P T); [| | |exact E].
  - intros p v Ip Iv. cbn [envs] in Iv. apply in_map_iff in Iv as (e & <- & Ie). destruct (H e Ie) as [H1 H2]. destruct Ip as [<-|[<-|[]]]; assumption.
  - rewrite func_names. unfold symbol_names in N. rewrite map_app in N. now apply NoDup_left in N.
  - intros k v h Iv. now apply env_no_hash with (c := c) (k := k).
Qed.
Lemma preprocess_nil cfg : preprocess cfg [] = Some [].
Proof. reflexivity. Qed.
Lemma header_out c cfg a : (forall rest, preprocess cfg (header_text c ++ rest) =
    match preprocess (defined_after cfg (outs cfg c (a ++ tail_of (c_param c)))) rest with Some r => Some (outs cfg c (a ++ tail_of (c_param c)) ++ r) | None => None end) ->
  preprocess cfg (header_text c) = Some (outs cfg c (a ++ tail_of (c_param c))).
Proof. intro H. specialize (H []). rewrite preprocess_nil, !app_nil_r in H. exact H. Qed.

(* ---------------------------------------------------------------- tokens *)

Lemma utoks_hole v h l : utoks v (KHole h :: l) = tokens_of (v h) ++ utoks v l.
Proof. unfold utoks, itoks; cbn [flat_map itok]. rewrite unglued_app. f_equal. unfold tokens_of, own_tokens, pending. now destruct (lex_from MCode (v h)). Qed.
Lemma utoks_glue v l : utoks v (KGlue :: l) = utoks v l.
Proof. reflexivity. Qed.
Lemma iname_w v s h : iname v (map SC $s ++ [SH h]) = $s ++ v h.
Proof. rewrite iname_app, iname_lit. cbn [iname flat_map ichar]. now rewrite app_nil_r. Qed.
Lemma iname_one v h : iname v [SH h] = v h.
Proof. cbn [iname flat_map ichar]. apply app_nil_r. Qed.
Ltac ut := unfold ko, kw, w_lit; repeat (rewrite ?utoks_op, ?utoks_word, ?utoks_hole, ?utoks_glue, ?utoks_nil, ?iname_lit, ?iname_w, ?iname_one, <- ?app_assoc; cbn [app]).
Lemma return_tokens e : tokens_of (if void_type e then [] else $"return") = if void_type e then [] else [wd "return"].
Proof. now destruct (void_type e). Qed.

Section Out.
Variables (cfg : str -> bool) (c : config).
Lemma outs_one g o : outs cfg c [(g, o)] = if forallb (feval cfg) g then iout cfg c ([], o) else [].
Proof. unfold outs; cbn [flat_map]. rewrite app_nil_r. unfold iout; cbn [fst snd forallb]. reflexivity. Qed.
Lemma outs_cons g l : outs cfg c (g :: l) = outs cfg c [g] ++ outs cfg c l.
Proof. change (g :: l) with ([g] ++ l). apply outs_app. Qed.
Lemma feval_wrap : feval cfg f_wrap = wrapping cfg.
Proof. cbn [f_wrap feval]. unfold wrapping. destruct (cfg $"GDO_WRAP_FUNCTIONS"), (cfg $"GDO_ENABLE_AUTOLOAD_LAZY"), (cfg $"GDO_ENABLE_AUTOLOAD"); reflexivity. Qed.
Lemma one_word s : s <> [] -> ident_text s -> own_tokens s = [TWord s].
Proof. intros N I. rewrite <- (app_nil_r s) at 1. exact (pad_tokens s 0 N I). Qed.

(** the pointers *)
Lemma pointers_out : outs cfg c g_pointers = map (fun n => PDefine ($"GDO_RAWPTR_" ++ n) false (pointer n)) (symbol_names c).
Proof.
  unfold g_pointers. rewrite outs_cons, !outs_one. cbn [forallb iout fst snd envs]. unfold iout; cbn [fst snd forallb envs]. rewrite !flat_map_map. unfold symbol_names. rewrite map_app, map_app, !map_map.
  f_equal; apply flat_map_one; intro e; cbn [itok w_lit]; unfold w_lit; rewrite iname_w; do 2 f_equal; ut; reflexivity.
Qed.
Lemma pointer_def n : In n (symbol_names c) -> last_def ($"GDO_RAWPTR_" ++ n) (outs cfg c g_pointers) = Some (PDefine ($"GDO_RAWPTR_" ++ n) false (pointer n)).
Proof.
  intro I. rewrite pointers_out. destruct (each_some $"GDO_RAWPTR_" (fun n => n) pointer false (symbol_names c) n) as (v & _ & -> & E); [now rewrite map_id|exact E].
Qed.
(** the aliases *)
Hypothesis plain : plain_config c.
Lemma alias_out : outs cfg c g_aliases =
  (if feval cfg f_sep && negb (visible cfg) then map (fun n => PDefine n false [wd "GDO_FUNC_ALIAS"; pn "("; TWord n; pn ")"]) (map p_symbol (c_funcs c)) else []) ++
  (if feval cfg f_sep then map (fun n => PDefine n false [pn "*"; TWord ($"GDO_RAWPTR_" ++ n)]) (map p_symbol (c_objs c)) else []).
Proof.
  destruct plain as [PF PO]. unfold g_aliases. rewrite outs_cons, !outs_one. cbn [forallb]. rewrite !andb_true_r.
  change (feval cfg (FNot f_vis)) with (negb (visible cfg)). f_equal.
  - destruct (_ && _); [|reflexivity]. unfold iout; cbn [fst snd forallb envs]. rewrite flat_map_map, map_map.
    induction PF as [|e l Pe _ IH]; [reflexivity|]. cbn [flat_map map]. rewrite <- IH. destruct Pe as (_ & _ & _ & I & N). cbn [itok value_of]. rewrite pad_tokens by assumption.
    cbn [app]. do 2 f_equal. ut. reflexivity.
  - destruct (feval cfg f_sep); [|reflexivity]. unfold iout; cbn [fst snd forallb envs]. rewrite flat_map_map, map_map.
    induction PO as [|e l Pe _ IH]; [reflexivity|]. cbn [flat_map map]. rewrite <- IH. destruct Pe as (_ & _ & _ & I & N). cbn [itok value_of]. rewrite pad_tokens by assumption.
    cbn [app]. do 2 f_equal. ut. reflexivity.
Qed.
Lemma not_alias x : ~ In x (symbol_names c) -> last_def x (outs cfg c g_aliases) = None.
Proof.
  intro H. rewrite alias_out. unfold symbol_names in H. rewrite map_app, in_app_iff in H. apply last_def_none. intros o I. apply in_app_iff in I.
  destruct I as [I|I]; [destruct (_ && _)|destruct (feval cfg f_sep)]; try contradiction; apply in_map_iff in I as (n & <- & I); cbn [names_it named];
    apply not_true_is_false; intro E; apply str_eqb_eq in E; subst n; apply H; tauto.
Qed.
End Out.

(** Proofs for C93 and C94: the handle, and the wrappers of functions. *)
From Coq Require Import Ascii String List Bool Arith Lia.
From Verif Require Import Str StrFacts Parse ParamNames Prefix Substitute Data Generate SpecPrefix SpecSubstitute Templates SpecTemplates SpecCLang SpecCProg SpecCMacro SpecBody SpecHeader
  CTemplate CTemplateText CTemplatePP CBodyText HTemplate HTemplatePP HText HMacro HHeader HHeader2.
Import ListNotations.
Ltac ut := unfold ko, kw, w_lit; repeat (rewrite ?utoks_op, ?utoks_word, ?utoks_hole, ?utoks_glue, ?utoks_nil, ?iname_lit, ?iname_w, ?iname_one, <- ?app_assoc; cbn [app]).

(* ---------------------------------------------------------------- the handle *)

Section Handle.
Variables (cfg : str -> bool) (c : config).
Lemma each_out k l : outs cfg c [([], GEach k l)] = map PTok (flat_map (fun v => utoks v l) (envs c k)).
Proof. rewrite outs_one. cbn [forallb]. unfold iout; cbn [fst snd forallb]. apply map_ptok_flat. Qed.
Lemma plain_out l : outs cfg c (at_ [] l) = map PTok (utoks no_value l).
Proof. exact (outs_at cfg c [] l). Qed.
Lemma handle_out : outs cfg c g_handle = map PTok (handle_text c).
Proof.
  unfold g_handle. rewrite !outs_app, !each_out, !plain_out, <- !map_app. f_equal. unfold handle_text. repeat rewrite app_assoc. 
  repeat match goal with |- _ ++ _ = _ ++ _ => apply f_equal2 end; try reflexivity; cbn [envs]; rewrite ?flat_map_app, ?flat_map_map.
  - unfold symbol_names. rewrite map_app, flat_map_app, !flat_map_map. f_equal; apply flat_map_ext; intro e; ut; reflexivity.
  - apply flat_map_ext; intro e; ut; reflexivity.
  - apply flat_map_ext; intro e; ut; reflexivity.
Qed.
End Handle.
Lemma handle_there c cfg : usable c cfg -> exists pre post, preprocess cfg (header_text c) = Some (pre ++ map PTok (handle_text c) ++ post).
Proof.
  intro U. destruct (header_reads c cfg U) as (a & F & _ & H). rewrite (header_out c cfg a H). destruct F as [F _].
  set (n := first_each 0 a - 2) in *. exists (outs cfg c (firstn n a)), (outs cfg c (skipn (length g_handle) (skipn n a) ++ tail_of (c_param c))).
  assert (E : a = firstn n a ++ g_handle ++ skipn (length g_handle) (skipn n a)) by (rewrite <- F at 1; now rewrite firstn_skipn, firstn_skipn).
  f_equal. rewrite <- (handle_out cfg c), <- !outs_app. f_equal. rewrite E at 1. now rewrite <- !app_assoc.
Qed.

(* ---------------------------------------------------------------- the macros before the wrappers *)

Lemma own_none a x : flat_map (fun x => filter (may true x) a) own_words = [] -> In x own_words -> filter (may true x) a = [].
Proof. intros H I. apply in_split in I as (l & r & E). rewrite E, flat_map_app in H. apply app_eq_nil in H as [_ H]. cbn [flat_map] in H. now apply app_eq_nil in H as [H _]. Qed.
Lemma two_defs cfg c f x b l1 l2 : last_def x (outs cfg c [([f], GDef x b l1); ([FNot f], GDef x b l2)]) = Some (PDefine x b (if feval cfg f then l1 else l2)).
Proof.
  rewrite outs_cons, !outs_one. cbn [forallb feval]. rewrite !andb_true_r. destruct (feval cfg f); cbn [negb]; unfold iout; cbn [fst snd forallb app last_def names_it named];
    now rewrite (proj2 (str_eqb_eq x x) eq_refl).
Qed.
Section Macros.
Variables (cfg : str -> bool) (c : config) (p : param_mode) (a : list gel).
Hypothesis F : front_facts p a.
Definition at_front (x : str) : option mdef := match last_def x (outs cfg c a) with Some o => meaning o | None => None end.
Lemma own_word x : In x own_words -> at_front x = None.
Proof. intro I. unfold at_front. destruct F as (_ & _ & _ & _ & _ & _ & _ & _ & _ & _ & _ & H). rewrite (exact_def cfg c x a [] (own_none a x H I)). reflexivity. Qed.
Lemma m_pointer n : In n (symbol_names c) -> at_front ($"GDO_RAWPTR_" ++ n) = Some (mkdef None (pointer n)).
Proof. intro I. unfold at_front. destruct F as (_ & H & _). now rewrite (front_def cfg c _ n a _ H), pointer_def. Qed.
Lemma m_load n : at_front ($"GDO_LOAD_" ++ n) = None.
Proof. unfold at_front. destruct F as (_ & _ & _ & _ & _ & _ & _ & H & _). now rewrite (front_def cfg c _ n a _ H). Qed.
Lemma m_ptr n : at_front ($"GDO_PTR_" ++ n) = None.
Proof. unfold at_front. destruct F as (_ & _ & _ & _ & _ & _ & _ & _ & H & _). now rewrite (front_def cfg c _ n a _ H). Qed.
Lemma m_text : at_front $"_T" = Some (mkdef (Some ([$"x"], false)) [wd "x"]).
Proof. unfold at_front. destruct F as (_ & _ & _ & _ & H & _). rewrite (exact_def cfg c _ a _ H). unfold g_text. rewrite outs_cons, !outs_one. reflexivity. Qed.
Lemma m_decl : at_front $"GDO_WRAP_DECL" = Some (mkdef None (if visible cfg then [wd "GDO_WRAP_VISIBILITY"] else [wd "static"; wd "inline"])).
Proof.
  unfold at_front. destruct F as (_ & _ & _ & _ & _ & H & _). rewrite (exact_def cfg c _ a _ H). unfold g_decl. rewrite two_defs. cbn [meaning read_macro].
  change (feval cfg f_vis) with (visible cfg). now destruct (visible cfg).
Qed.
Lemma m_name : at_front $"GDO_WRAP" = Some (mkdef (Some ([$"x"], false)) (if visible cfg then [wd "x"] else [wd "GDO_WRAP_"; pn "##"; wd "x"])).
Proof.
  unfold at_front. destruct F as (_ & _ & _ & _ & _ & _ & H & _). rewrite (exact_def cfg c _ a _ H). unfold g_name. rewrite two_defs. cbn [meaning].
  change (feval cfg f_vis) with (visible cfg). now destruct (visible cfg).
Qed.
Hypothesis not_skip : p <> PSkip.
Hypothesis on : wrapping cfg = true.
Definition check_body : list tok :=
  [wd "_gdo_wrap_check_loaded"; pn "("; pn "("; wd "void"; pn "*"; pn ")"; wd "GDO_RAWPTR_"; pn "##"; wd "SYMBOL";
     pn ","; wd "GDO_LOAD_"; pn "##"; wd "SYMBOL"; pn ","; wd "_T"; pn "("; pn "#"; wd "SYMBOL"; pn ")"; pn ")"].
Lemma wraps_all {A} (l : list A) : wraps p l = l.
Proof. destruct p; [reflexivity|reflexivity|now destruct not_skip]. Qed.
Lemma m_check : at_front $"_GDO_WRAP_CHECK_LOADED" = Some (mkdef (Some ([$"SYMBOL"], false)) check_body).
Proof.
  unfold at_front. destruct F as (_ & _ & _ & H & _). rewrite wraps_all in H. rewrite (exact_def cfg c _ a _ H). unfold g_check. rewrite outs_one. cbn [forallb]. rewrite feval_wrap, on. reflexivity.
Qed.
Lemma hook_out : outs cfg c g_hook = map (fun n => PDefine ($"GDO_HOOK_" ++ n) true [pn "("; pn "."; pn "."; pn "."; pn ")"; wd "_gdo_noop"; pn "("; pn ")"]) (map p_symbol (c_funcs c)).
Proof.
  unfold g_hook. rewrite outs_one. cbn [forallb]. rewrite feval_wrap, on. cbn [andb]. unfold iout; cbn [fst snd forallb envs]. rewrite flat_map_map, map_map.
  apply flat_map_one. intro e. cbn [itok w_lit]. unfold w_lit. now rewrite iname_w.
Qed.
Lemma m_hook n : In n (map p_symbol (c_funcs c)) -> at_front ($"GDO_HOOK_" ++ n) = Some (mkdef (Some ([], true)) [wd "_gdo_noop"; pn "("; pn ")"]).
Proof.
  intro I. unfold at_front. destruct F as (_ & _ & H & _). rewrite wraps_all in H. rewrite (front_def cfg c _ n a _ H), hook_out.
  destruct (each_some $"GDO_HOOK_" (fun n => n) (fun _ => [pn "("; pn "."; pn "."; pn "."; pn ")"; wd "_gdo_noop"; pn "("; pn ")"]) true (map p_symbol (c_funcs c)) n) as (v & _ & _ & E);
    [now rewrite map_id|]. unfold str in *. rewrite E. reflexivity.
Qed.

(* ---------------------------------------------------------------- one wrapper *)

Variable m : macro_table.
Hypothesis same : forall x, macro_at m x = at_front x.
Definition mk (l : list tok) : list htok := map (fun t => (t, [])) l.
Lemma mk_fst l : map fst (mk l) = l.
Proof. unfold mk. rewrite map_map. apply map_id. Qed.
Lemma hidden_fst h l : map fst (hide h l) = map fst l.
Proof. unfold hide. rewrite map_map. reflexivity. Qed.
Lemma plain_mk l : (forall w, In (TWord w) l -> macro_at m w = None) -> Forall (plain_tok m) (mk l).
Proof. intro H. unfold mk. apply Forall_forall. intros t I. apply in_map_iff in I as (t' & <- & I). destruct t'; try exact Logic.I. right. now apply H. Qed.
Lemma s_own x h l r : In x own_words -> steps m l r -> steps m ((TWord x, h) :: l) (TWord x :: r).
Proof. intros I S. apply (s_plain m (TWord x, h)); [|exact S]. right. rewrite same. now apply own_word. Qed.
Lemma s_op x h l r : steps m l r -> steps m ((TOp x, h) :: l) (TOp x :: r).
Proof. apply (s_plain m (TOp x, h)). exact Logic.I. Qed.
Lemma s_word x h l r : macro_at m x = None -> steps m l r -> steps m ((TWord x, h) :: l) (TWord x :: r).
Proof. intro N. apply (s_plain m (TWord x, h)). now right. Qed.
Lemma s_text x h l r : steps m l r -> steps m ((TText x, h) :: l) (TText x :: r).
Proof. apply (s_plain m (TText x, h)). exact Logic.I. Qed.
Lemma s_list a' l r : (forall w, In (TWord w) a' -> macro_at m w = None) -> steps m l r -> steps m (mk a' ++ l) (a' ++ r).
Proof. intros H S. rewrite <- (mk_fst a') at 2. apply s_plains; [now apply plain_mk|exact S]. Qed.

Ltac own := unfold own_words, absent; cbn [map In app]; tauto.
Lemma s_pointer n h l r : In n (symbol_names c) -> mem ($"GDO_RAWPTR_" ++ n) h = false -> steps m l r -> steps m ((TWord ($"GDO_RAWPTR_" ++ n), h) :: l) (pointer n ++ r).
Proof.
  intros I H S. apply s_object with (b := pointer n); [exact H|rewrite same; now apply m_pointer|]. unfold pointer. cbn [put_in]. change (str_eqb $"." $"##") with false. change (str_eqb $"." $"#") with false.
  cbn [argument parameter app hide map fst snd]. apply s_own; [own|]. apply s_op. apply s_word; [rewrite same; apply m_ptr|exact S].
Qed.
Lemma s_check f l r : In f (symbol_names c) -> macro_at m f = None -> steps m l r ->
  steps m ((TWord $"_GDO_WRAP_CHECK_LOADED", []) :: (TOp $"(", []) :: (TWord f, []) :: (TOp $")", []) :: l)
    ([wd "_gdo_wrap_check_loaded"; pn "("; pn "("; wd "void"; pn "*"; pn ")"] ++ pointer f ++ [pn ","; TWord ($"GDO_LOAD_" ++ f); pn ","; TText f; pn ")"] ++ r).
Proof.
  intros I N S. eapply s_call; [reflexivity|rewrite same; exact m_check|exact (one_argument [(TWord f, [])] [] l [] ltac:(repeat constructor; discriminate))| |].
  { constructor; [|constructor]. constructor; [|constructor]. now right. }
  cbn [app]. set (h := $"_GDO_WRAP_CHECK_LOADED" :: filter (fun z => mem z []) []).
  match goal with |- context [put_in ?pa ?pb ?pc ?pd ?pe ?pf] => change (put_in pa pb pc pd pe pf) with (mk ([wd "_gdo_wrap_check_loaded"; pn "("; pn "("; wd "void"; pn "*"; pn ")"; TWord ($"GDO_RAWPTR_" ++ f); pn ","; TWord ($"GDO_LOAD_" ++ f); pn ","; wd "_T"; pn "("; TText f; pn ")"; pn ")"])) end. unfold mk, hide. cbn [map fst snd]. unfold wd, pn. cbn [app].
  apply s_own; [own|]. apply s_op, s_op. apply s_own; [own|]. apply s_op, s_op. apply s_pointer; [exact I|reflexivity|]. apply s_op.
  apply s_word; [rewrite same; apply m_load|]. apply s_op.
  eapply s_call; [reflexivity|rewrite same; exact m_text|exact (one_argument [(TText f, _)] _ _ [] ltac:(repeat constructor; discriminate))| |].
  { constructor; [|constructor]. constructor; [exact Logic.I|constructor]. }
  cbn [app]. cbn [put_in argument parameter]. change (str_eqb $"x" $"x") with true. cbv iota. cbn [app hide map fst snd]. apply s_text, s_op. exact S.
Qed.
Lemma s_name f l r : macro_at m f = None -> macro_at m ($"GDO_WRAP_" ++ f) = None -> steps m l r ->
  steps m ((TWord $"GDO_WRAP", []) :: (TOp $"(", []) :: (TWord f, []) :: (TOp $")", []) :: l) (TWord (wrapper_name (visible cfg) f) :: r).
Proof.
  intros N W S. eapply s_call; [reflexivity|rewrite same; exact m_name|exact (one_argument [(TWord f, [])] [] l [] ltac:(repeat constructor; discriminate))| |].
  { constructor; [|constructor]. constructor; [|constructor]. now right. }
  cbn [app]. unfold wrapper_name. destruct (visible cfg).
  - cbn [put_in argument parameter]. change (str_eqb $"x" $"x") with true. cbv iota. cbn [app hide map fst snd]. now apply s_word.
  - match goal with |- context [put_in ?pa ?pb ?pc ?pd ?pe ?pf] => change (put_in pa pb pc pd pe pf) with (mk [TWord ($"GDO_WRAP_" ++ f)]) end. unfold mk, hide. cbn [map fst snd app]. now apply s_word.
Qed.
Lemma s_hook f ns l r : In f (map p_symbol (c_funcs c)) -> (forall t, In t ns -> t = pn "," \/ exists w, t = TWord w) -> (forall w, In (TWord w) ns -> macro_at m w = None) -> steps m l r ->
  steps m ((TWord ($"GDO_HOOK_" ++ f), []) :: (TOp $"(", []) :: mk ns ++ (TOp $")", []) :: l) ([wd "_gdo_noop"; pn "("; pn ")"] ++ r).
Proof.
  intros I P N S. destruct (some_arguments (mk ns) [] l []) as (raw & E & G).
  { apply Forall_forall. intros t J. apply in_map_iff in J as (t' & <- & J). cbn [fst]. destruct (P t' J) as [-> | [w ->]]; split; discriminate. }
  eapply s_call; [reflexivity|rewrite same; now apply m_hook|exact E| |].
  { apply Forall_forall. intros b Ib. apply Forall_forall. intros t It. specialize (G b t Ib It). cbn [app] in G. pose proof (plain_mk ns N) as Q. rewrite Forall_forall in Q. now apply Q. }
  match goal with |- context [put_in ?pa ?pb ?pc ?pd ?pe ?pf] => change (put_in pa pb pc pd pe pf) with (mk [wd "_gdo_noop"; pn "("; pn ")"]) end. unfold mk, hide. cbn [map fst snd]. unfold wd, pn. cbn [app]. apply s_own; [own|]. apply s_op, s_op. exact S.
Qed.
Lemma s_decl l r : steps m l r -> steps m ((TWord $"GDO_WRAP_DECL", []) :: l) ((if visible cfg then [wd "GDO_WRAP_VISIBILITY"] else [wd "static"; wd "inline"]) ++ r).
Proof.
  intro S. eapply s_object; [reflexivity|rewrite same; exact m_decl|]. destruct (visible cfg); cbn [put_in argument parameter app hide map fst snd andb]; unfold wd.
  - now apply s_own; [own|].
  - apply s_own; [own|]. now apply s_own; [own|].
Qed.

Lemma wrapper_becomes n e : In e (c_funcs c) -> plain_names e -> not_macros m e -> becomes m (utoks (value_of n e) k_wrapper) (wrapper (visible cfg) e).
Proof.
  intros I PN NM.
  assert (W : forall l, incl l (tokens_of (p_type e) ++ tokens_of (p_args e) ++ tokens_of (p_param_names e) ++ [TWord (p_symbol e); TWord ($"GDO_WRAP_" ++ p_symbol e)]) ->
              forall w, In (TWord w) l -> macro_at m w = None) by (intros l L w J; exact (NM (TWord w) w (L _ J) eq_refl)).
  assert (Nf : macro_at m (p_symbol e) = None) by (apply (W [TWord (p_symbol e)]); [intros t [<-|[]]; rewrite !in_app_iff; cbn [In]; tauto|now left]).
  assert (Nw : macro_at m ($"GDO_WRAP_" ++ p_symbol e) = None) by (apply (W [TWord ($"GDO_WRAP_" ++ p_symbol e)]); [intros t [<-|[]]; rewrite !in_app_iff; cbn [In]; tauto|now left]).
  assert (Is : In (p_symbol e) (symbol_names c)) by (unfold symbol_names; apply in_map, in_app_iff; now left).
  assert (If : In (p_symbol e) (map p_symbol (c_funcs c))) by now apply in_map.
  apply becomes_steps. unfold k_wrapper. ut. cbn [value_of]. rewrite return_tokens. unfold wrapper.
  set (T := tokens_of (p_type e)) in *. set (A := tokens_of (p_args e)) in *. set (N := tokens_of (p_param_names e)) in *.
  cbn [map]. repeat (rewrite map_app; cbn [map]). fold (mk T) (mk A) (mk N).
  apply s_decl. apply s_list; [apply W; intros t J; rewrite !in_app_iff; tauto|].
  apply s_name; [exact Nf|exact Nw|]. apply s_op. apply s_list; [apply W; intros t J; rewrite !in_app_iff; tauto|]. apply s_op, s_op.
  apply s_check; [exact Is|exact Nf|]. apply s_op.
  apply s_hook; [exact If|exact PN|apply W; intros t J; rewrite !in_app_iff; tauto|]. apply s_op.
  assert (R : forall l r, steps m l r -> steps m (map (fun t => (t, [])) (if void_type e then [] else [wd "return"]) ++ l) ((if void_type e then [] else [wd "return"]) ++ r)).
  { intros l r S. destruct (void_type e); [exact S|]. cbn [map app]. unfold wd. apply s_own; [own|exact S]. }
  apply R. apply s_pointer; [exact Is|reflexivity|]. apply s_op. apply s_list; [apply W; intros t J; rewrite !in_app_iff; tauto|].
  apply s_op, s_op, s_op, s_nil.
Qed.
End Macros.

Lemma toks_def x l : last_def x (map PTok l) = None.
Proof. apply last_def_none. intros o I. apply in_map_iff in I as (t & <- & _). reflexivity. Qed.
Lemma wrapper_there c cfg e : usable c cfg -> c_param c <> PSkip -> wrapping cfg = true -> In e (c_funcs c) -> plain_names e ->
  exists a pre src post, front_facts (c_param c) a /\ set_facts a /\ (forall x, macro_at (macros_of pre) x = at_front cfg c a x) /\ preprocess cfg (header_text c) = Some (pre ++ map PTok src ++ post) /\
    (not_macros (macros_of pre) e -> becomes (macros_of pre) src (wrapper (visible cfg) e)).
Proof.
  intros U NS W I PN. destruct (header_reads c cfg U) as (a & F & S & H). rewrite (header_out c cfg a H). exists a.
  apply in_split in I as (f1 & f2 & Ef). set (w := longest (class_names c CFunction)).
  exists (outs cfg c a ++ map PTok (flat_map (fun e => utoks (value_of w e) k_wrapper) f1)), (utoks (value_of w e) k_wrapper),
    (map PTok (flat_map (fun e => utoks (value_of w e) k_wrapper) f2) ++ outs cfg c (g_alias ++ g_aliases)).
  assert (M : forall x, macro_at (macros_of (outs cfg c a ++ map PTok (flat_map (fun e => utoks (value_of w e) k_wrapper) f1))) x = at_front cfg c a x).
  { intro x. rewrite macro_at_def, last_def_app, toks_def. reflexivity. }
  split; [exact F|]. split; [exact S|]. split; [exact M|]. split.
  - f_equal. unfold tail_of. rewrite (wraps_all _ a F NS), !outs_app, <- !app_assoc. f_equal. rewrite !app_assoc. f_equal. unfold g_wrapper. f_equal. rewrite outs_one. cbn [forallb].
    rewrite feval_wrap, W. cbn [andb]. unfold iout; cbn [fst snd forallb envs]. rewrite map_ptok_flat, flat_map_map. fold w. rewrite Ef, flat_map_app. cbn [flat_map].
    now rewrite !map_app, <- !app_assoc.
  - intro NM. apply (wrapper_becomes cfg c (c_param c) a F NS W); [exact M|rewrite Ef; apply in_app_iff; right; now left|exact PN|exact NM].
Qed.

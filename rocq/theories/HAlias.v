(** Proofs for C93 and C95: the pointers and the names of the library's functions. *)
From Coq Require Import Ascii String List Bool Arith Lia.
From Verif Require Import Str StrFacts Parse ParamNames Prefix Substitute Data Generate SpecPrefix SpecSubstitute Templates SpecTemplates CRuntime SpecCRuntime SpecCLang SpecCProg SpecCMacro SpecBody SpecHeader
  CTemplate CTemplateText CTemplatePP CBody CBodyText HTemplate HTemplatePP HText HMacro HHeader HHeader2 HWrapper.
Import ListNotations.

Definition defines (g : gel) : bool := match snd g with GDef _ _ _ | GEachDef _ _ _ _ | GUndef _ => true | _ => false end.
Lemma defines_def cfg c x l : last_def x (outs cfg c l) = last_def x (outs cfg c (filter defines l)).
Proof.
  induction l as [|g l IH]; [reflexivity|]. change (g :: l) with ([g] ++ l). rewrite outs_app, last_def_app, IH, filter_app, outs_app, last_def_app.
  destruct (last_def _ (outs cfg c (filter defines l))); [reflexivity|]. cbn [filter]. destruct (defines g) eqn:D; [reflexivity|].
  apply last_def_none. intros o I. unfold outs, iout in I; cbn [flat_map] in I. rewrite app_nil_r in I. destruct (forallb _ (fst g)); [|contradiction].
  unfold defines in D. destruct (snd g); try discriminate.
  - apply in_map_iff in I as (t0 & <- & _). reflexivity.
  - apply in_flat_map in I as (v & _ & I). apply in_map_iff in I as (t0 & <- & _). reflexivity.
Qed.

(* ---------------------------------------------------------------- what the names stand for *)

Section Names.
Variables (m : macro_table) (w : bool) (n : str).
Hypothesis alias : macro_at m $"GDO_FUNC_ALIAS" = Some (mkdef (Some ([$"x"], false)) (if w then [wd "GDO_WRAP_"; pn "##"; wd "x"] else [wd "GDO_RAWPTR_"; pn "##"; wd "x"])).
Hypothesis ptr : macro_at m ($"GDO_RAWPTR_" ++ n) = Some (mkdef None (pointer n)).
Hypothesis hndl : macro_at m $"gdo_hndl" = None.
Hypothesis field : macro_at m ($"GDO_PTR_" ++ n) = None.
Lemma s_raw h l r : mem ($"GDO_RAWPTR_" ++ n) h = false -> steps m l r -> steps m ((TWord ($"GDO_RAWPTR_" ++ n), h) :: l) (pointer n ++ r).
Proof.
  intros H S. apply s_object with (b := pointer n); [exact H|exact ptr|]. unfold pointer. cbn [put_in]. change (str_eqb $"." $"##") with false. change (str_eqb $"." $"#") with false.
  cbn [argument parameter app hide map fst snd]. unfold wd, pn. apply (s_plain m (TWord $"gdo_hndl", _)); [now right|]. apply s_op. apply s_word; [exact field|exact S].
Qed.
Lemma raw_pointer : becomes m [TWord ($"GDO_RAWPTR_" ++ n)] (pointer n).
Proof. apply becomes_steps. cbn [map]. rewrite <- (app_nil_r (pointer n)). apply s_raw; [reflexivity|apply s_nil]. Qed.
Lemma raw_object : str_eqb ($"GDO_RAWPTR_" ++ n) n = false -> macro_at m n = Some (mkdef None [pn "*"; TWord ($"GDO_RAWPTR_" ++ n)]) -> becomes m [TWord n] (pn "*" :: pointer n).
Proof.
  intros E D. apply becomes_steps. cbn [map]. apply s_object with (b := [pn "*"; TWord ($"GDO_RAWPTR_" ++ n)]); [reflexivity|exact D|].
  cbn [put_in]. change (str_eqb $"*" $"##") with false. change (str_eqb $"*" $"#") with false. cbn [argument parameter app hide map fst snd]. unfold pn. apply s_op.
  rewrite <- (app_nil_r (pointer n)). apply s_raw; [unfold mem; cbn [app snd existsb]; now rewrite E|apply s_nil].
Qed.
Lemma s_variable l r : str_eqb ($"GDO_RAWPTR_" ++ n) n = false -> macro_at m n = Some (mkdef None [pn "*"; TWord ($"GDO_RAWPTR_" ++ n)]) -> steps m l r ->
  steps m ((TWord n, []) :: l) (pn "*" :: pointer n ++ r).
Proof.
  intros E D S. apply s_object with (b := [pn "*"; TWord ($"GDO_RAWPTR_" ++ n)]); [reflexivity|exact D|].
  cbn [put_in]. change (str_eqb $"*" $"##") with false. change (str_eqb $"*" $"#") with false. cbn [argument parameter app hide map fst snd]. unfold pn. apply s_op.
  apply s_raw; [unfold mem; cbn [app snd existsb]; now rewrite E|exact S].
Qed.
Lemma raw_function : str_eqb $"GDO_FUNC_ALIAS" n = false -> str_eqb ($"GDO_RAWPTR_" ++ n) n = false -> (w = true -> macro_at m ($"GDO_WRAP_" ++ n) = None) ->
  macro_at m n = Some (mkdef None [wd "GDO_FUNC_ALIAS"; pn "("; TWord n; pn ")"]) -> becomes m [TWord n] (if w then [TWord ($"GDO_WRAP_" ++ n)] else pointer n).
Proof.
  intros E1 E2 W D. apply becomes_steps. cbn [map]. apply s_object with (b := [wd "GDO_FUNC_ALIAS"; pn "("; TWord n; pn ")"]); [reflexivity|exact D|].
  cbn [put_in]. repeat match goal with |- context [str_eqb (Str.lit ?a) (Str.lit ?b)] => change (str_eqb (Str.lit a) (Str.lit b)) with false end.
  cbn [argument parameter app hide map fst snd]. unfold wd, pn.
  eapply s_call; [unfold mem; cbn [app snd existsb]; now rewrite E1|exact alias|exact (one_argument [(TWord n, _)] _ [] [] ltac:(repeat constructor; discriminate))| |].
  { constructor; [|constructor]. constructor; [|constructor]. left. unfold mem; cbn [app snd existsb]. now rewrite (proj2 (str_eqb_eq n n) eq_refl). }
  cbn [app]. destruct w.
  - match goal with |- context [put_in ?pa ?pb ?pc ?pd ?pe ?pf] => change (put_in pa pb pc pd pe pf) with [(TWord ($"GDO_WRAP_" ++ n), @nil str)] end.
    cbn [hide map fst snd app]. apply s_word; [now apply W|apply s_nil].
  - match goal with |- context [put_in ?pa ?pb ?pc ?pd ?pe ?pf] => change (put_in pa pb pc pd pe pf) with [(TWord ($"GDO_RAWPTR_" ++ n), @nil str)] end.
    cbn [hide map fst snd app]. rewrite <- (app_nil_r (pointer n)). apply s_raw; [|apply s_nil]. unfold mem; cbn [app snd existsb filter].
    rewrite (proj2 (str_eqb_eq n n) eq_refl). cbn [orb filter existsb app]. now rewrite E2.
Qed.
End Names.

(* ---------------------------------------------------------------- lookups in the header *)

Lemma own_not c n x : own_names c -> In n (symbol_names c) -> starts_with $"GDO_" x = true \/ starts_with $"gdo_" x = true -> x <> n.
Proof. intros O I H ->. destruct (O n I). destruct H; congruence. Qed.
Lemma not_own c x : own_names c -> starts_with $"GDO_" x = true \/ starts_with $"gdo_" x = true -> ~ In x (symbol_names c).
Proof. intros O H I. exact (own_not c x x O I H eq_refl). Qed.
Lemma starts_app a b x : starts_with a b = true -> starts_with a (b ++ x) = true.
Proof. intro H. apply starts_with_spec in H as [r ->]. apply starts_with_spec. exists (r ++ x). now rewrite <- app_assoc. Qed.

Section Aliases.
Variable c : config.
Definition named_alias (n : str) : list tok := [wd "GDO_FUNC_ALIAS"; pn "("; TWord n; pn ")"].
Definition object_alias (n : str) : list tok := [pn "*"; TWord ($"GDO_RAWPTR_" ++ n)].
Lemma map_def h l n : In n l -> last_def n (map (fun n => PDefine n false (h n)) l) = Some (PDefine n false (h n)).
Proof. intros I. destruct (each_some [] (fun n => n) h false l n) as (v & _ & -> & E); [now rewrite map_id|exact E]. Qed.
Lemma map_undef h l n : ~ In n l -> last_def n (map (fun n => PDefine n false (h n)) l) = None.
Proof. intros I. apply (each_none [] (fun n => n) h false l n). now rewrite map_id. Qed.
Lemma first_only {A} (l1 l2 : list A) n : NoDup (l1 ++ l2) -> In n l1 -> ~ In n l2.
Proof. intros ND I J. apply in_split in I as (x & y & ->). rewrite <- app_assoc in ND. cbn [app] in ND. apply NoDup_remove_2 in ND. apply ND. rewrite !in_app_iff. tauto. Qed.
Definition aliases (p q : bool) : list pout :=
  (if p then map (fun n => PDefine n false (named_alias n)) (map p_symbol (c_funcs c)) else []) ++ (if q then map (fun n => PDefine n false (object_alias n)) (map p_symbol (c_objs c)) else []).
Hypothesis ND : NoDup (symbol_names c).
Lemma alias_func p q n : In n (map p_symbol (c_funcs c)) -> last_def n (aliases p q) = if p then Some (PDefine n false (named_alias n)) else None.
Proof.
  intro I. unfold symbol_names in ND. rewrite map_app in ND. pose proof (first_only _ _ n ND I) as J. unfold aliases. rewrite last_def_app.
  replace (last_def n (if q then map _ (map p_symbol (c_objs c)) else [])) with (@None pout) by (destruct q; [now rewrite map_undef|reflexivity]).
  destruct p; [now apply map_def|reflexivity].
Qed.
Lemma alias_obj p n : In n (map p_symbol (c_objs c)) -> last_def n (aliases p true) = Some (PDefine n false (object_alias n)).
Proof. intro I. unfold aliases. now rewrite last_def_app, map_def. Qed.
Lemma alias_other p q x : ~ In x (symbol_names c) -> last_def x (aliases p q) = None.
Proof.
  intro H. unfold symbol_names in H. rewrite map_app, in_app_iff in H. unfold aliases. rewrite last_def_app.
  destruct p, q; cbn [last_def]; rewrite ?map_undef; tauto.
Qed.
End Aliases.

Section Header.
Variables (c : config) (cfg : str -> bool) (a : list gel).
Hypothesis F : front_facts (c_param c) a.
Hypothesis plain : plain_config c.
Hypothesis O : own_names c.
Definition hout : list pout := outs cfg c (a ++ tail_of (c_param c)).
Lemma wrapper_def x : last_def x (outs cfg c (wraps (c_param c) g_wrapper)) = None.
Proof. clear F. rewrite defines_def. now destruct (c_param c). Qed.
Lemma tail_def x : x <> $"GDO_FUNC_ALIAS" -> ~ In x (symbol_names c) -> last_def x hout = last_def x (outs cfg c a).
Proof.
  intros N I. unfold hout, tail_of. rewrite !outs_app, !last_def_app, (not_alias cfg c plain x I), wrapper_def.
  rewrite (exact_def cfg c x g_alias []); [reflexivity|]. cbn [g_alias filter may snd]. rewrite (proj2 (str_eqb_neq x $"GDO_FUNC_ALIAS") N). reflexivity.
Qed.
Hypothesis ND : NoDup (symbol_names c).
Definition func_alias (w : bool) : mdef := mkdef (Some ([$"x"], false)) (if w then [wd "GDO_WRAP_"; pn "##"; wd "x"] else [wd "GDO_RAWPTR_"; pn "##"; wd "x"]).
Lemma own_GDO s x : starts_with $"GDO_" $s = true -> ~ In ($s ++ x) (symbol_names c).
Proof. intro H. apply not_own; [exact O|left; now apply starts_app]. Qed.
(** the macros that names stand for, in the header *)
Definition in_header (x : str) : option mdef := match last_def x hout with Some o => meaning o | None => None end.
Lemma h_alias : last_def $"GDO_FUNC_ALIAS" hout = Some (PDefine $"GDO_FUNC_ALIAS" true (x_params ++ if wrapping cfg then [wd "GDO_WRAP_"; pn "##"; wd "x"] else [wd "GDO_RAWPTR_"; pn "##"; wd "x"])).
Proof.
  unfold hout, tail_of. rewrite !outs_app, !last_def_app, (not_alias cfg c plain) by exact (own_GDO "GDO_FUNC_ALIAS" [] eq_refl).
  unfold g_alias. rewrite two_defs, feval_wrap. now destruct (wrapping cfg).
Qed.
Lemma h_ptr n : In n (symbol_names c) -> last_def ($"GDO_RAWPTR_" ++ n) hout = Some (PDefine ($"GDO_RAWPTR_" ++ n) false (pointer n)).
Proof.
  intro I. rewrite tail_def by (discriminate || apply own_GDO; reflexivity). destruct F as (_ & H & _). now rewrite (front_def cfg c _ n a _ H), pointer_def.
Qed.
Lemma h_field n : last_def ($"GDO_PTR_" ++ n) hout = None.
Proof.
  rewrite tail_def by (discriminate || apply own_GDO; reflexivity). destruct F as (_ & _ & _ & _ & _ & _ & _ & _ & H & _). now rewrite (front_def cfg c _ n a _ H).
Qed.
Lemma h_wrap n : n <> $"DECL" -> last_def ($"GDO_WRAP_" ++ n) hout = None.
Proof.
  intro N. assert (E : $"GDO_WRAP_" ++ n <> $"GDO_WRAP_DECL") by (intro E; apply N; apply (app_inv_head $"GDO_WRAP_"); exact E).
  rewrite tail_def by (discriminate || apply own_GDO; reflexivity). destruct F as (_ & _ & _ & _ & _ & _ & _ & _ & _ & _ & H & _). rewrite (front_def cfg c _ n a _ H).
  apply (exact_def cfg c ($"GDO_WRAP_" ++ n) g_decl []). unfold g_decl. cbn [filter may snd]. now rewrite (proj2 (str_eqb_neq _ _) E).
Qed.
Lemma h_hndl : last_def $"gdo_hndl" hout = None.
Proof.
  rewrite tail_def; [|discriminate|apply not_own; [exact O|now right]]. destruct F as (_ & _ & _ & _ & _ & _ & _ & _ & _ & _ & _ & H).
  rewrite (exact_def cfg c _ a [] (own_none a _ H ltac:(unfold own_words; cbn [map In app]; tauto))). reflexivity.
Qed.
Lemma h_text : last_def $"_T" (outs cfg c a) = Some (PDefine $"_T" true (x_params ++ [wd "x"])).
Proof. destruct F as (_ & _ & _ & _ & H & _). rewrite (exact_def cfg c _ a _ H). unfold g_text. rewrite outs_cons, !outs_one. reflexivity. Qed.
Lemma h_names n : last_def n (outs cfg c g_aliases) = last_def n (aliases c (feval cfg f_sep && negb (visible cfg)) (feval cfg f_sep)).
Proof. now rewrite (alias_out cfg c plain). Qed.

(* ---------------------------------------------------------------- lookups behind the body *)

Variable cfg2 : str -> bool.
Definition f_single : form := FAnd (FNot (FDef $"GDO_SEPARATE")) (FNot (FDef $"GDO_DISABLE_ALIASING")).
Definition b_aliases : list gel :=
  [([f_single; FNot (FDef $"GDO_WRAP_IS_VISIBLE")], GEachDef CFunction (KHole HFuncPad) false [kw "GDO_FUNC_ALIAS"; ko "("; KWord [SH HFunc]; ko ")"]);
   ([f_single], GEachDef CObject (KHole HObjPad) false [ko "*"; w_lit "GDO_RAWPTR_" HObj])].
Definition body_names : list str := map (fun s => $s) ["GDO_XHS"; "GDO_LINKAGE"; "GDO_OBJ_LINKAGE"; "GDO_UNUSED_REF"; "_countof"; "GDO_SNPRINTF"; "GDO_SET_LAST_ERRNO"]%string.
Definition body_checked (p : param_mode) : Prop :=
  let l := filter defines (pprogram (body_of p)) in
  skipn (length l - 4) l = b_aliases ++ [([], GUndef $"GDO_SET_LAST_ERRNO"); ([], GUndef $"GDO_SNPRINTF")] /\
  forallb (fun g => match snd g with GDef y _ _ => mem y body_names | _ => false end) (firstn (length l - 4) l) = true.
End Header.
Lemma body_defines p : body_checked p.
Proof. destruct p; vm_compute; split; reflexivity. Qed.

Lemma body_aliases_out c cfg : plain_config c -> outs cfg c b_aliases = aliases c (feval cfg f_single && negb (cfg $"GDO_WRAP_IS_VISIBLE")) (feval cfg f_single).
Proof.
  intros [PF PO]. unfold b_aliases. rewrite outs_cons, !outs_one. cbn [forallb]. rewrite !andb_true_r.
  change (feval cfg (FNot (FDef $"GDO_WRAP_IS_VISIBLE"))) with (negb (cfg $"GDO_WRAP_IS_VISIBLE")). unfold aliases. f_equal.
  - destruct (_ && _); [|reflexivity]. unfold iout; cbn [fst snd forallb envs]. rewrite flat_map_map, map_map.
    induction PF as [|e l Pe _ IH]; [reflexivity|]. cbn [flat_map map]. rewrite <- IH. destruct Pe as (_ & _ & _ & I & N). cbn [itok value_of]. rewrite pad_tokens by assumption.
    cbn [app]. do 2 f_equal. ut. reflexivity.
  - destruct (feval cfg f_single); [|reflexivity]. unfold iout; cbn [fst snd forallb envs]. rewrite flat_map_map, map_map.
    induction PO as [|e l Pe _ IH]; [reflexivity|]. cbn [flat_map map]. rewrite <- IH. destruct Pe as (_ & _ & _ & I & N). cbn [itok value_of]. rewrite pad_tokens by assumption.
    cbn [app]. do 2 f_equal. ut. reflexivity.
Qed.
Definition bout (c : config) (cfg : str -> bool) : list pout := outs cfg c (pprogram (body_of (c_param c))).
Lemma body_def c cfg x : plain_config c -> x <> $"GDO_SET_LAST_ERRNO" -> x <> $"GDO_SNPRINTF" ->
  exists l, last_def x (bout c cfg) = match last_def x (aliases c (feval cfg f_single && negb (cfg $"GDO_WRAP_IS_VISIBLE")) (feval cfg f_single)) with Some o => Some o | None => last_def x l end /\
    forall o, In o l -> exists y b v, o = PDefine y b v /\ In y body_names.
Proof.
  intros P N1 N2. destruct (body_defines (c_param c)) as [E1 E2]. unfold bout. rewrite defines_def.
  set (l := filter defines (pprogram (body_of (c_param c)))) in *. clearbody l. exists (outs cfg c (firstn (length l - 4) l)). split.
  - rewrite <- (firstn_skipn (length l - 4) l) at 1. rewrite E1, !outs_app, !last_def_app, (body_aliases_out c cfg P).
    rewrite (exact_def cfg c x [([], GUndef _); ([], GUndef _)] []); [reflexivity|]. cbn [filter may snd].
    now rewrite (proj2 (str_eqb_neq _ _) N1), (proj2 (str_eqb_neq _ _) N2).
  - intros o I. unfold outs in I. apply in_flat_map in I as (g & Ig & I). rewrite forallb_forall in E2. specialize (E2 g Ig). unfold iout in I. destruct (forallb _ (fst g)); [|contradiction].
    destruct (snd g) as [t|k t|y b t|k t b r|y]; try discriminate. destruct I as [<-|[]]. exists y, b, t. split; [reflexivity|].
    unfold mem in E2. apply existsb_exists in E2 as (z & Iz & Ez). apply str_eqb_eq in Ez. now subst.
Qed.
Lemma body_other c cfg x : plain_config c -> ~ In x (symbol_names c) -> ~ In x body_names -> last_def x (bout c cfg) = None.
Proof.
  intros P I J. destruct (body_def c cfg x P) as (l & -> & L); try (intros ->; apply J; unfold body_names; cbn [map In]; tauto).
  rewrite (alias_other c) by exact I. apply last_def_none. intros o Io. destruct (L o Io) as (y & b & v & -> & Iy). cbn [names_it named]. apply str_eqb_neq. intros ->. contradiction.
Qed.

(** Proofs for C103: the macros of the default library behind the header. *)
From Coq Require Import Ascii String List Bool Arith Lia.
From Verif Require Import Str StrFacts Parse ParamNames Prefix Substitute Data Options Generate SpecPrefix SpecSubstitute.
From Verif Require Import Templates SpecTemplates SpecCLang SpecCProg SpecCMacro SpecBody SpecHeader SpecFile SpecFileName
  CTemplate CTemplateText CTemplatePP HTemplate HTemplatePP HText HMacro HHeader CBodyText HHeader2 HAlias HOrder CExpand HFile HFileName.
Import ListNotations.

Definition front_at (p : param_mode) (lines : list str) : list gel :=
  match hread free_names lines with Some o => firstn (length (flat_map (pruned absent) o) - length (tail_of p)) (flat_map (pruned absent) o) | None => [] end.
Lemma header_here c cfg : usable c cfg -> preprocess cfg (header_text c) = Some (outs cfg c (front_at (c_param c) (header_lines (c_param c)) ++ tail_of (c_param c))).
Proof.
  intros [L D P N H A]. rewrite <- (app_nil_r (header_text c)). rewrite (header_shown c L). destruct (header_facts (c_param c)) as [F T]. generalize dependent (header_lines (c_param c)). intros lines F T.
  unfold front_at. destruct (hread free_names lines) as [o|] eqn:E; [|contradiction]. cbv zeta in F. destruct F as (F1 & F2 & F3). fold (tail_of (c_param c)) in F1, F2, F3. clear F2 F3.
  assert (O : outs cfg c (firstn (length (flat_map (pruned absent) o) - length (tail_of (c_param c))) (flat_map (pruned absent) o) ++ tail_of (c_param c)) = outs cfg c o).
  { rewrite <- F1 at 2. rewrite firstn_skipn. now apply pruned_ok. }
  rewrite O. rewrite (hread_text c cfg free_names lines o D P T); [| | | |exact E].
  - change (preprocess (defined_after cfg (outs cfg c o)) []) with (Some (@nil pout)). cbn [behind]. clear. now rewrite app_nil_r.
  - intros p v Ip Iv. cbn [envs] in Iv. apply in_map_iff in Iv as (e & <- & Ie). destruct (H e Ie) as [H1 H2]. destruct Ip as [<-|[<-|[]]]; assumption.
  - rewrite func_names. unfold symbol_names in N. rewrite map_app in N. now apply NoDup_left in N.
  - intros k v h Iv. now apply env_no_hash with (c := c) (k := k).
Qed.
Definition quiet_names : list str := library_names ++ [$"GDO_HARDCODED_DEFAULT_LIBA"; $"GDO_COMMON_PREFIX"].
(** when the default library comes from the program's options only *)
Definition from_options (cfg : str -> bool) : Prop := cfg $"GDO_HARDCODED_DEFAULT_LIBA" = true /\ cfg $"GDO_DEFAULT_LIBA" = false /\ cfg $"GDO_DEFAULT_LIB" = false.
Definition quiet_at (p : param_mode) (l : list str) : Prop :=
  let a := front_at p l in flat_map (fun x => filter (may true x) a) quiet_names = [] /\
    exists f, filter (may true $"GDO_DEFAULT_LIBA") a = [([FAnd (FNot (FDef $"GDO_DEFAULT_LIBA")) (FDef $"GDO_HARDCODED_DEFAULT_LIBA")], GDef $"GDO_DEFAULT_LIBA" false [TWord $"GDO_HARDCODED_DEFAULT_LIBA"])] ++ f /\
      (forall cfg, from_options cfg -> forall g, In g f -> forallb (feval cfg) (fst g) = false).
Definition quiet_fact (p : param_mode) : Prop := quiet_at p (header_lines p).
Ltac quiet_by := vm_compute; split; [reflexivity|]; eexists; split; [reflexivity|]; unfold from_options; intros cfg (H1 & H2 & H3) g [<-|[]]; cbn [fst forallb feval]; vm_compute in H1, H2, H3; rewrite ?H1, ?H2, ?H3; cbn [andb orb negb]; 
  repeat match goal with |- context [cfg ?w] => destruct (cfg w); cbn [andb orb negb] end; reflexivity.
Lemma quiet_read : quiet_fact PRead. Proof. quiet_by. Qed.
Lemma quiet_skip : quiet_fact PSkip. Proof. quiet_by. Qed.
Lemma quiet_same l : quiet_at PRead l -> quiet_at PCreate l.
Proof. exact (fun H => H). Qed.
Lemma quiet_facts p : quiet_fact p.
Proof. destruct p; [exact quiet_read| |exact quiet_skip]. unfold quiet_fact. rewrite header_create. apply quiet_same. exact quiet_read. Qed.
Lemma flat_nil {A B} (f : A -> list B) l : flat_map f l = [] -> forall x, In x l -> f x = [].
Proof. induction l as [|a l IH]; intros H x I; [destruct I|]. cbn [flat_map] in H. apply app_eq_nil in H as (H1 & H2). destruct I as [<-|I]; [exact H1|now apply IH]. Qed.
Lemma plain_tail c cfg a x : plain_config c -> own_names c -> starts_with $"GDO_" x = true -> x <> $"GDO_FUNC_ALIAS" -> last_def x (outs cfg c (a ++ tail_of (c_param c))) = last_def x (outs cfg c a).
Proof. intros P O G N. apply (tail_def c cfg a P); [exact N|]. intro I. destruct (O x I) as (H & _). congruence. Qed.
Lemma header_quiet c cfg h : usable c cfg -> own_names c -> preprocess cfg (header_text c) = Some h ->
  (forall x, In x quiet_names -> last_def x h = None) /\ (from_options cfg -> last_def $"GDO_DEFAULT_LIBA" h = Some (PDefine $"GDO_DEFAULT_LIBA" false [TWord $"GDO_HARDCODED_DEFAULT_LIBA"])).
Proof.
  intros U O E. rewrite (header_here c cfg U) in E. assert (Q : forall a b : list pout, Some a = Some b -> b = a) by (intros; congruence). apply Q in E. subst h.
  pose proof (quiet_facts (c_param c)) as F. unfold quiet_fact, quiet_at in F. cbv zeta in F. generalize dependent (front_at (c_param c) (header_lines (c_param c))). intros a (F1 & f & F2 & F3).
  assert (T : forall x, In x ($"GDO_DEFAULT_LIBA" :: quiet_names) -> last_def x (outs cfg c (a ++ tail_of (c_param c))) = last_def x (outs cfg c a)).
  { intros x I. apply (plain_tail c cfg a x (u_plain _ _ U) O); unfold quiet_names, library_names in I; cbn [map In app] in I; repeat (destruct I as [<-|I]; [solve [reflexivity|discriminate]|]); destruct I. }
  split.
  - intros x I. rewrite T by (right; exact I). now rewrite (exact_def cfg c x a [] (flat_nil _ _ F1 x I)).
  - intro D. rewrite T by (now left). rewrite (exact_def cfg c _ a _ F2). rewrite outs_app, last_def_app. assert (outs cfg c f = []) as ->.
    { unfold outs. specialize (F3 cfg D). clear - F3. induction f as [|g f IH]; [reflexivity|]. cbn [flat_map]. rewrite IH by (intros g' I; apply F3; now right). unfold iout. now rewrite (F3 g (or_introl eq_refl)). }
    destruct D as (D1 & D2 & _). unfold outs, iout. cbn [flat_map fst snd forallb feval]. rewrite D1, D2. reflexivity.
Qed.

(** Proofs for C98: what the names of variables stand for in a program's expressions. *)
From Coq Require Import Ascii String List Bool Arith Lia.
From Verif Require CBodyText.
From Verif Require Import Str StrFacts Parse ParamNames Prefix Substitute Data Generate SpecPrefix SpecSubstitute Templates SpecTemplates SpecCLang SpecCProg SpecCRun SpecCMacro SpecBody SpecHeader
  HText HMacro HHeader HHeader2 HWrapper HAlias HSingle SpecCRead SpecCSyntax SpecCUse CRead CReadMain.
Import ListNotations.

Definition swap (vs : list str) (t : tok) : list tok := match t with TWord x => if one_of x vs then pn "*" :: pointer x else [t] | _ => [t] end.
Definition object_stands (m : macro_table) (n : str) : Prop := forall l r, steps m l r -> steps m ((TWord n, []) :: l) (pn "*" :: pointer n ++ r).

Lemma swap_steps m vs l : (forall n, In n vs -> object_stands m n) -> (forall x, In (TWord x) l -> one_of x vs = true \/ macro_at m x = None) -> becomes m l (flat_map (swap vs) l).
Proof.
  intros O H. apply becomes_steps. induction l as [|t l IH]; [apply s_nil|]. cbn [map flat_map].
  assert (IH' := IH (fun x I => H x (or_intror I))). clear IH.
  assert (keep : plain_tok m (t, []) -> steps m ((t, []) :: map (fun t : tok => (t, [])) l) (t :: flat_map (swap vs) l)) by (intro P; now apply (s_plain m (t, []))).
  destruct t; cbn [swap]; try (now apply keep). destruct (one_of s vs) eqn:E.
  - cbn [app]. apply O; [now apply one_of_in|exact IH'].
  - cbn [app]. apply keep. destruct (H s (or_introl eq_refl)) as [K|K]; [congruence|]. now right.
Qed.

Section Use.
Variables (tw : str -> bool) (vs : list str).
Hypothesis hndl : tw $"gdo_hndl" = false.
Hypothesis plain : one_of $"GDO_DEFAULT_LIB" vs = false.
Notation sw := (flat_map (swap vs)).
Lemma sw_commas ls : sw (with_commas ls) = with_commas (map (fun l => sw l) ls).
Proof. induction ls as [|a [|b l] IH]; [reflexivity|reflexivity|]. cbn [with_commas map] in *. rewrite flat_map_app. cbn [flat_map swap app]. now rewrite <- IH. Qed.
Lemma sw_type ty : forallb (fun t => match t with TWord w => negb (one_of w vs) | _ => true end) ty = true -> sw ty = ty.
Proof.
  induction ty as [|t l IH]; [reflexivity|]. cbn [forallb flat_map]. rewrite andb_true_iff. intros [A B]. rewrite IH by exact B. destruct t; try reflexivity. cbn [swap]. destruct (one_of s vs); [discriminate|reflexivity].
Qed.
Lemma print_meant : forall e, only_variables vs e = true -> print_e (meant_e vs e) = sw (print_e e).
Proof.
  fix IH 1. intros e O. destruct e; cbn [only_variables] in O; cbn [meant_e print_e]; unfold pn, wd.
  - reflexivity.
  - cbn [flat_map swap]. destruct (one_of x vs) eqn:E; reflexivity.
  - reflexivity.
  - reflexivity.
  - cbn [flat_map swap app]. rewrite flat_map_app, (IH e O). reflexivity.
  - apply andb_true_iff in O as [O1 O2]. apply negb_true_iff in O1. cbn [flat_map swap]. rewrite O1. cbn [app]. rewrite flat_map_app, sw_commas, !map_map. do 2 f_equal. f_equal. f_equal.
    clear -IH O2. induction args as [|a l IHl]; [reflexivity|]. cbn [forallb map] in *. rewrite andb_true_iff in O2. destruct O2 as [A B]. rewrite IHl by exact B. f_equal. now apply IH.
  - apply andb_true_iff in O as [O1 O2]. apply negb_true_iff in O1. rewrite flat_map_app, (IH e O2). cbn [flat_map swap app]. now rewrite O1.
  - apply andb_true_iff in O as [O1 O2]. apply negb_true_iff in O1. rewrite flat_map_app, (IH e O2). cbn [flat_map swap app]. now rewrite O1.
  - apply andb_true_iff in O as [O1 O2]. rewrite flat_map_app, (IH e1 O1), (IH e2 O2). cbn [flat_map swap app]. now rewrite flat_map_app.
  - cbn [flat_map swap app]. now rewrite (IH e O).
  - cbn [flat_map swap app]. now rewrite (IH e O).
  - cbn [flat_map swap app]. now rewrite (IH e O).
  - cbn [flat_map swap app]. now rewrite (IH e O).
  - apply andb_true_iff in O as [O1 O2]. cbn [flat_map swap app]. rewrite flat_map_app, (sw_type ty O1). cbn [flat_map swap app]. now rewrite (IH e O2).
  - apply andb_true_iff in O as [O1 O2]. rewrite flat_map_app. cbn [flat_map swap app]. now rewrite (IH e1 O1), (IH e2 O2).
  - apply andb_true_iff in O as [O1 O2]. rewrite flat_map_app. cbn [flat_map swap app]. now rewrite (IH e1 O1), (IH e2 O2).
  - apply andb_true_iff in O as [O1 O2]. apply negb_true_iff in O1. cbn [flat_map swap]. rewrite O1. cbn [app]. rewrite flat_map_app. now rewrite (IH e O2).
  - apply andb_true_iff in O as [O1 O2]. rewrite flat_map_app. now rewrite (IH e1 O1), (IH e2 O2).
Qed.
Lemma named_meant : forall e, named tw e = true -> named tw (meant_e vs e) = true.
Proof.
  fix IH 1. intros e N. destruct e; cbn [meant_e]; cbn [named] in *; rewrite ?andb_true_iff in *; try (now apply IH); try (split; destruct N; try assumption; now apply IH).
  - destruct (one_of x vs); [|exact N]. cbn [named address]. unfold address, name_ok. cbn [named]. unfold name_ok. now rewrite hndl.
  - destruct N as [N1 N2]. split; [exact N1|]. clear N1. induction args as [|a l IHl]; [reflexivity|]. cbn [forallb map] in *. rewrite andb_true_iff in *. destruct N2. split; [now apply IH|now apply IHl].
Qed.
Lemma level_meant e : level (meant_e vs e) = level e \/ (not_one vs e = false /\ level e = 1 /\ level (meant_e vs e) = 2).
Proof. destruct e; try (now left). cbn [meant_e not_one]. destruct (one_of x vs); [now right|now left]. Qed.
Lemma level_alone e : not_one vs e = true -> level (meant_e vs e) = level e.
Proof. intro H. destruct (level_meant e) as [E|(E & _)]; [exact E|congruence]. Qed.
Lemma level_within e k : 2 <= k -> level e <= k -> level (meant_e vs e) <= k.
Proof. intros K H. destruct (level_meant e) as [E|(_ & _ & E)]; rewrite E; lia. Qed.
Lemma piece_same e : is_piece e = true -> meant_e vs e = e.
Proof. destruct e; try discriminate; [|reflexivity]. cbn [is_piece meant_e]. intro E. apply str_eqb_eq in E. subst. now rewrite plain. Qed.
Lemma literal_same e : is_literal e = true -> is_literal (meant_e vs e) = true.
Proof.
  destruct e; try discriminate; try reflexivity. cbn [is_literal]. intro H. rewrite (piece_same (EId x) H). exact H.
Qed.
Lemma fine_meant : forall e, fine_e e = true -> alone vs e = true -> fine_e (meant_e vs e) = true.
Proof.
  fix IH 1. intros e F A. destruct e; cbn [fine_e] in F; cbn [alone] in A; cbn [meant_e fine_e].
  - discriminate.
  - destruct (one_of x vs); reflexivity.
  - reflexivity.
  - reflexivity.
  - rewrite andb_true_iff, Nat.leb_le in *. destruct F as [F1 F2]. split; [now apply IH|apply level_within; lia].
  - induction args as [|a l IHl]; [reflexivity|]. cbn [forallb map] in *. rewrite !andb_true_iff, Nat.leb_le in *. destruct F as [[F1 F2] F3], A as [A1 A2].
    split; [|now apply IHl]. split; [now apply IH|apply level_within; lia].
  - rewrite andb_true_iff, Nat.leb_le in *. destruct A as [A1 A2], F as [F1 F2]. rewrite level_alone by exact A1. split; [now apply IH|exact F2].
  - rewrite andb_true_iff, Nat.leb_le in *. destruct A as [A1 A2], F as [F1 F2]. rewrite level_alone by exact A1. split; [now apply IH|exact F2].
  - rewrite !andb_true_iff, !Nat.leb_le in *. destruct F as [[[F1 F2] F3] F4], A as [[A1 A2] A3]. rewrite level_alone by exact A1. repeat split; [now apply IH|exact F2|now apply IH|apply level_within; lia].
  - rewrite andb_true_iff, Nat.leb_le in *. destruct F as [F1 F2]. split; [now apply IH|apply level_within; lia].
  - rewrite andb_true_iff, Nat.leb_le in *. destruct F as [F1 F2]. split; [now apply IH|apply level_within; lia].
  - rewrite andb_true_iff, Nat.leb_le in *. destruct F as [F1 F2]. split; [now apply IH|apply level_within; lia].
  - rewrite andb_true_iff, Nat.leb_le in *. destruct F as [F1 F2]. split; [now apply IH|apply level_within; lia].
  - rewrite andb_true_iff, Nat.leb_le in *. destruct F as [F1 F2]. split; [now apply IH|apply level_within; lia].
  - rewrite !andb_true_iff, Nat.leb_le, Nat.ltb_lt in *. destruct F as [[[[F1 F2] F3] F4] F5], A as [A1 A2]. pose proof (bin_levels op) as B.
    repeat split; [exact F1|now apply IH|now apply IH|apply level_within; lia|]. enough (level (meant_e vs e2) <= pred (bin_level op)) by lia. apply level_within; lia.
  - rewrite !andb_true_iff, !Nat.leb_le in *. destruct F as [[[F1 F2] F3] F4], A as [A1 A2]. repeat split; try (now apply IH); apply level_within; lia.
  - rewrite andb_true_iff, Nat.leb_le in *. destruct F as [F1 F2]. split; [now apply IH|apply level_within; lia].
  - rewrite !andb_true_iff in *. destruct F as [[[F1 F2] F3] F4], A as [A1 A2]. repeat split; try (now apply IH); [now apply literal_same|]. now rewrite (piece_same _ F4).
Qed.

Variable m : macro_table.
Definition use_ok (e : expr) : Prop := fine_e e = true /\ named tw e = true /\ only_variables vs e = true /\ (forall x, In (TWord x) (print_e e) -> one_of x vs = true \/ macro_at m x = None).
Hypothesis stands : forall n, In n vs -> object_stands m n.
Lemma use_alone e : use_ok e -> alone vs e = true -> used_as tw m e (meant_e vs e).
Proof.
  intros (F & N & O & W) A. exists (sw (print_e e)). split; [now apply swap_steps|]. rewrite <- print_meant by exact O. apply whole_read; [now apply fine_meant|now apply named_meant].
Qed.
(** what follows a variable's name goes with its pointer *)
Lemma use_index n i : In n vs -> use_ok (EIndex (EId n) i) -> alone vs i = true -> used_as tw m (EIndex (EId n) i) (EDeref (EIndex (address n) (meant_e vs i))).
Proof.
  intros I (F & N & O & W) A. exists (sw (print_e (EIndex (EId n) i))). split; [now apply swap_steps|].
  assert (E : sw (print_e (EIndex (EId n) i)) = print_e (EDeref (EIndex (address n) (meant_e vs i)))).
  { cbn [only_variables] in O. apply andb_true_iff in O as [_ O]. cbn [print_e address]. rewrite print_meant by exact O. rewrite flat_map_app. cbn [flat_map swap app]. rewrite (proj2 (one_of_in n vs) I).
    rewrite flat_map_app. reflexivity. }
  rewrite E. cbn [fine_e named level] in F, N. rewrite !andb_true_iff, !Nat.leb_le in F. rewrite andb_true_iff in N. destruct F as [[[_ _] F3] F4], N as [N1 N2]. apply whole_read.
  - cbn [fine_e level address]. rewrite fine_meant by assumption. cbn [andb Nat.leb]. rewrite andb_true_r. apply Nat.leb_le. apply level_within; lia.
  - cbn [named address]. unfold address. cbn [named]. unfold name_ok. rewrite hndl. cbn [negb andb]. now apply named_meant.
Qed.
Lemma use_field n x : In n vs -> use_ok (EField (EId n) x) -> used_as tw m (EField (EId n) x) (EDeref (EField (address n) x)).
Proof.
  intros I (F & N & O & W). exists (sw (print_e (EField (EId n) x))). split; [now apply swap_steps|].
  cbn [only_variables] in O. rewrite andb_true_r, negb_true_iff in O. cbn [print_e app flat_map swap]. rewrite O, (proj2 (one_of_in n vs) I).
  apply (whole_read tw (EDeref (EField (address n) x))); [reflexivity|]. unfold address. cbn [named]. unfold name_ok. now rewrite hndl.
Qed.
Lemma use_arrow n x : In n vs -> use_ok (EArrow (EId n) x) -> used_as tw m (EArrow (EId n) x) (EDeref (EArrow (address n) x)).
Proof.
  intros I (F & N & O & W). exists (sw (print_e (EArrow (EId n) x))). split; [now apply swap_steps|].
  cbn [only_variables] in O. rewrite andb_true_r, negb_true_iff in O. cbn [print_e app flat_map swap]. rewrite O, (proj2 (one_of_in n vs) I).
  apply (whole_read tw (EDeref (EArrow (address n) x))); [reflexivity|]. unfold address. cbn [named]. unfold name_ok. now rewrite hndl.
Qed.
End Use.

(* ---------------------------------------------------------------- behind the generated files *)

Lemma own_variables_plain c : own_names c -> one_of $"GDO_DEFAULT_LIB" (map p_symbol (c_objs c)) = false.
Proof.
  intro O. destruct (one_of _ _) eqn:E; [|reflexivity]. apply one_of_in in E.
  assert (Is : In $"GDO_DEFAULT_LIB" (symbol_names c)) by (unfold symbol_names; rewrite map_app; apply in_app_iff; now right). exfalso. exact (own_not c _ $"GDO_DEFAULT_LIB" O Is (or_introl eq_refl) eq_refl).
Qed.
Lemma program_ok tw c m e : (forall x, program_word c x -> macro_at m x = None) -> program_expr tw c e -> use_ok tw (map p_symbol (c_objs c)) m e.
Proof. intros H (F & N & O & W). do 3 (split; [assumption|]). intros x I. destruct (W x I); auto. Qed.
Lemma header_use c cfg : usable c cfg -> own_names c -> cfg $"GDO_SEPARATE" = true -> cfg $"GDO_INCLUDED_IN_BODY" = false -> cfg $"GDO_DISABLE_ALIASING" = false ->
  exists out, preprocess cfg (header_text c) = Some out /\ (forall n, In n (map p_symbol (c_objs c)) -> object_stands (macros_of out) n) /\ (forall x, program_word c x -> macro_at (macros_of out) x = None).
Proof.
  intros U O E1 E2 E3. destruct (header_names c cfg U O E1 E2 E3) as (out & H & _ & _ & S). exists out. split; [exact H|]. split; [exact S|].
  destruct (header_reads c cfg U) as (a & F & K & P). pose proof (header_out c cfg a P) as P'. intros x (G & M & _ & I). pose proof (eq_trans (eq_sym H) P') as Q. injection Q as ->.
  rewrite macro_at_def, (tail_def c cfg a (u_plain c cfg U)); [|intros ->; discriminate|exact I]. now rewrite (unknown c cfg a x K G M).
Qed.
Lemma single_use c cfg : usable c cfg -> own_names c -> cfg $"GDO_SEPARATE" = false -> cfg $"GDO_DISABLE_ALIASING" = false -> cfg $"GDO_WRAP_IS_VISIBLE" = false ->
  exists out, preprocess cfg (single_text c) = Some out /\ (forall n, In n (map p_symbol (c_objs c)) -> object_stands (macros_of out) n) /\ (forall x, program_word c x -> macro_at (macros_of out) x = None).
Proof.
  intros U O E1 E2 E3. destruct (single_names c cfg U (single_quiet cfg E1) O E1 E2 E3) as (out & H & _ & _ & _ & S). exists out. split; [exact H|]. split; [exact S|].
  destruct (single_out c cfg U (single_quiet cfg E1)) as (a & h1 & h2 & F & K & _ & Eh & P). cbv zeta in P. intros x (G & M & N & I). assert (Q : forall a b : list pout, Some a = Some b -> a = b) by (intros; congruence). rewrite (Q _ _ (eq_trans (eq_sym H) P)). clear Q P.
  rewrite macro_at_def, single_def, <- Eh, <- CBodyText.program_ok. fold (bout c (defined_after cfg (hout c cfg a))). rewrite last_def_app, (body_other c _ x (u_plain c cfg U) I); [|intro J; unfold body_names in J; cbn [map In] in J; decompose [or] J; subst; try discriminate; contradiction].
  rewrite (tail_def c cfg a (u_plain c cfg U)); [|intros ->; discriminate|exact I]. now rewrite (unknown c cfg a x K G M).
Qed.
Lemma read_once tw l e e' : reads_expr tw l e -> reads_expr tw l e' -> e = e'.
Proof. intros [n A] [k B]. specialize (A (n + k) ltac:(lia)). specialize (B (n + k) ltac:(lia)). congruence. Qed.
Lemma header_alone : forall c cfg, usable c cfg -> own_names c -> cfg $"GDO_SEPARATE" = true -> cfg $"GDO_INCLUDED_IN_BODY" = false -> cfg $"GDO_DISABLE_ALIASING" = false ->
  let vs := map p_symbol (c_objs c) in
  exists out, preprocess cfg (header_text c) = Some out /\
    forall tw e, tw $"gdo_hndl" = false -> program_expr tw c e -> alone vs e = true -> used_as tw (macros_of out) e (meant_e vs e).
Proof.
  intros c cfg U O E1 E2 E3. destruct (header_use c cfg U O E1 E2 E3) as (out & H & S & W). exists out. split; [exact H|]. intros tw e T P A. exact (use_alone tw _ T (own_variables_plain c O) _ S e (program_ok tw c _ e W P) A).
Qed.
Lemma single_alone : forall c cfg, usable c cfg -> own_names c -> cfg $"GDO_SEPARATE" = false -> cfg $"GDO_DISABLE_ALIASING" = false -> cfg $"GDO_WRAP_IS_VISIBLE" = false ->
  let vs := map p_symbol (c_objs c) in
  exists out, preprocess cfg (single_text c) = Some out /\
    forall tw e, tw $"gdo_hndl" = false -> program_expr tw c e -> alone vs e = true -> used_as tw (macros_of out) e (meant_e vs e).
Proof.
  intros c cfg U O E1 E2 E3. destruct (single_use c cfg U O E1 E2 E3) as (out & H & S & W). exists out. split; [exact H|]. intros tw e T P A. exact (use_alone tw _ T (own_variables_plain c O) _ S e (program_ok tw c _ e W P) A).
Qed.
Lemma header_behind : forall c cfg, usable c cfg -> own_names c -> cfg $"GDO_SEPARATE" = true -> cfg $"GDO_INCLUDED_IN_BODY" = false -> cfg $"GDO_DISABLE_ALIASING" = false ->
  let vs := map p_symbol (c_objs c) in
  exists out, preprocess cfg (header_text c) = Some out /\
    forall tw n, tw $"gdo_hndl" = false -> In n vs ->
      (forall i, program_expr tw c (EIndex (EId n) i) -> alone vs i = true -> used_as tw (macros_of out) (EIndex (EId n) i) (EDeref (EIndex (address n) (meant_e vs i)))) /\
      (forall x, program_expr tw c (EField (EId n) x) -> used_as tw (macros_of out) (EField (EId n) x) (EDeref (EField (address n) x))) /\
      (forall x, program_expr tw c (EArrow (EId n) x) -> used_as tw (macros_of out) (EArrow (EId n) x) (EDeref (EArrow (address n) x))).
Proof.
  intros c cfg U O E1 E2 E3. destruct (header_use c cfg U O E1 E2 E3) as (out & H & S & W). exists out. split; [exact H|]. intros tw n T I. split; [|split].
  - intros i P A. exact (use_index tw _ T (own_variables_plain c O) _ S n i I (program_ok tw c _ _ W P) A).
  - intros x P. exact (use_field tw _ T _ S n x I (program_ok tw c _ _ W P)).
  - intros x P. exact (use_arrow tw _ T _ S n x I (program_ok tw c _ _ W P)).
Qed.
Lemma single_behind : forall c cfg, usable c cfg -> own_names c -> cfg $"GDO_SEPARATE" = false -> cfg $"GDO_DISABLE_ALIASING" = false -> cfg $"GDO_WRAP_IS_VISIBLE" = false ->
  let vs := map p_symbol (c_objs c) in
  exists out, preprocess cfg (single_text c) = Some out /\
    forall tw n, tw $"gdo_hndl" = false -> In n vs ->
      (forall i, program_expr tw c (EIndex (EId n) i) -> alone vs i = true -> used_as tw (macros_of out) (EIndex (EId n) i) (EDeref (EIndex (address n) (meant_e vs i)))) /\
      (forall x, program_expr tw c (EField (EId n) x) -> used_as tw (macros_of out) (EField (EId n) x) (EDeref (EField (address n) x))) /\
      (forall x, program_expr tw c (EArrow (EId n) x) -> used_as tw (macros_of out) (EArrow (EId n) x) (EDeref (EArrow (address n) x))).
Proof.
  intros c cfg U O E1 E2 E3. destruct (single_use c cfg U O E1 E2 E3) as (out & H & S & W). exists out. split; [exact H|]. intros tw n T I. split; [|split].
  - intros i P A. exact (use_index tw _ T (own_variables_plain c O) _ S n i I (program_ok tw c _ _ W P) A).
  - intros x P. exact (use_field tw _ T _ S n x I (program_ok tw c _ _ W P)).
  - intros x P. exact (use_arrow tw _ T _ S n x I (program_ok tw c _ _ W P)).
Qed.

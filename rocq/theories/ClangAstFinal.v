(** Clang AST: the statements of the properties and the counterexamples. *)
From Coq Require Import Ascii String List Bool Arith.
From Verif Require Import Str StrFacts SpecParse Prefix Parse Format FormatFacts Options Frontend SpecFormat SpecClangAst SpecClangType
  ClangAstFacts2 ClangAstProps ClangAstSelect ClangTypeFacts.
Import ListNotations.

Lemma selection_actual s input its text :
  dump its text -> Forall spelled_out its -> Forall typedef_ok its ->
  o_ast_all s = false -> (o_prefix_list s <> [] \/ o_symbol_list s <> []) ->
  match reported (o_prefix_list s) (o_symbol_list s) its, chosen false (o_prefix_list s) (o_symbol_list s) [] its with
  | _ :: _, _ => read_input s input text = Err (not_found_msg (reported (o_prefix_list s) (o_symbol_list s) its))
  | [], [] => read_input s input text = Err ($"no function or object prototypes found in file: " ++ input)
  | [], ch => exists y, read_input s input text = Ok (s, y) /\ tables_of (m_pfx_lower (o_pfxs s)) ch y
  end.
Proof.
  intros H1 H2 H3 Ha Hm. assert (K := read_dump s input its text H1 H2 H3 (or_intror Hm)). rewrite Ha in K. exact K.
Qed.
Lemma selection_no_overlap s input its text :
  dump its text -> Forall spelled_out its -> Forall typedef_ok its ->
  o_ast_all s = false -> (o_prefix_list s <> [] \/ o_symbol_list s <> []) -> no_overlap (o_prefix_list s) (o_symbol_list s) its ->
  match undeclared (o_symbol_list s) its, chosen false (o_prefix_list s) (o_symbol_list s) [] its with
  | _ :: _, _ => read_input s input text = Err (not_found_msg (undeclared (o_symbol_list s) its))
  | [], [] => read_input s input text = Err ($"no function or object prototypes found in file: " ++ input)
  | [], ch => exists y, read_input s input text = Ok (s, y) /\ tables_of (m_pfx_lower (o_pfxs s)) ch y
  end.
Proof.
  intros H1 H2 H3 Ha Hm Ho. assert (K := selection_actual s input its text H1 H2 H3 Ha Hm).
  rewrite (reported_undeclared _ _ _ Ho) in K. exact K.
Qed.
Lemma selection_all s input its text :
  dump its text -> Forall spelled_out its -> Forall typedef_ok its -> o_ast_all s = true -> its <> [] ->
  exists y, read_input s input text = Ok (s, y) /\ tables_of (m_pfx_lower (o_pfxs s)) its y.
Proof.
  intros H1 H2 H3 Ha Hn. assert (K := read_dump s input its text H1 H2 H3 (or_introl Ha)). rewrite Ha, chosen_all in K.
  destruct its; [congruence|exact K].
Qed.
Lemma selection_sound s input its text s' y n :
  dump its text -> Forall spelled_out its -> read_input s input text = Ok (s', y) ->
  In n (map p_symbol (s_funcs y ++ s_objs y)) ->
  In n (map item_name its) /\ (o_ast_all s = true \/ has_prefix (o_prefix_list s) n = true \/ In n (o_symbol_list s)).
Proof.
  intros Hd Hs E Hn. destruct (read_dump_ok _ _ _ _ _ _ Hd Hs E) as (_ & T & _). apply tables_names in T. destruct T as [T1 T2].
  rewrite map_app, T1, T2, <- map_app in Hn. apply in_map_iff in Hn. destruct Hn as (i & <- & Hi).
  assert (K : In i (chosen (o_ast_all s) (o_prefix_list s) (o_symbol_list s) [] its)).
  { apply in_app_or in Hi. destruct Hi as [Hi|Hi]; apply filter_In in Hi; apply Hi. }
  apply chosen_In in K. destruct K as [K1 K2]. split; [apply in_map, K1|exact K2].
Qed.

(* ------------------------------------------------------------ deciders for concrete cases *)

Definition typedef_okb (i : item) : bool :=
  match i with
  | IVar _ t => match find $"(*)" t with Some k => negb (existsb (Ascii.eqb "(") (firstn k t)) | None => true end
  | IFunc _ _ _ => true
  end.
Lemma typedef_ok_b i : typedef_okb i = true -> typedef_ok i.
Proof.
  destruct i as [n t ps|n t]; [exact (fun _ => I)|]. cbn [typedef_okb typedef_ok]. intros H a b E N K.
  pose proof (find_spec $"(*)" t) as F. destruct (find $"(*)" t) as [k|]; [|exact (F a b E)].
  destruct F as [(x & y & Ex & L) M]. apply negb_true_iff in H.
  assert (L2 : k <= length a) by (apply (M a b E)).
  assert (L3 : length a <= k).
  { destruct (Nat.le_gt_cases (length a) k) as [X|X]; [exact X|]. exfalso. apply N. exists x.
    assert (Q : x ++ $"(*)" ++ y = a ++ $"(*)" ++ b) by congruence.
    assert (Q' : (x ++ $"(*)") ++ y = (a ++ $"(*") ++ $")" ++ b) by (rewrite <- !app_assoc; exact Q).
    destruct (app_eq_app _ _ _ _ Q') as (z & [[E1 _]|[E1 _]]); [|exists z; rewrite E1, <- app_assoc; reflexivity].
    exists []. apply (f_equal (@length _)) in E1 as E2. rewrite !app_length in E2. cbn [length lit list_ascii_of_string] in E2.
    assert (length z = 0) by Lia.lia. destruct z; [|discriminate]. rewrite !app_nil_r in *. symmetry. exact E1. }
  assert (Ea : firstn k t = a) by (rewrite E; replace k with (length a) by Lia.lia; apply firstn_app_exact). rewrite Ea in H.
  assert (X : existsb (Ascii.eqb "(") a = true) by (apply existsb_exists; exists "("%char; split; [exact K|reflexivity]). congruence.
Qed.
Lemma no_overlap_b pfx syms its : forallb (fun i => negb (listed syms (item_name i) && has_prefix pfx (item_name i))) its = true -> no_overlap pfx syms its.
Proof.
  rewrite forallb_forall. intros H i Hi Hs. apply H in Hi. apply listed_In in Hs. rewrite Hs in Hi. destruct (has_prefix pfx (item_name i)); [discriminate|reflexivity].
Qed.
Definition wordsb (s : str) : bool :=
  match s with
  | [] => false
  | c :: _ => forallb (fun c => is_ident c || Ascii.eqb c sp) s && negb (Ascii.eqb c sp) && negb (Ascii.eqb (last s sp) sp)
  end.
Lemma words_b s : wordsb s = true -> words s.
Proof.
  destruct s as [|c s]; [discriminate|]. cbn [wordsb]. rewrite !andb_true_iff. intros [[H1 H2] H3]. split; [discriminate|]. split; [|split].
  - apply Forall_forall. intros d Hd. rewrite forallb_forall in H1. apply H1 in Hd. apply orb_true_iff in Hd. destruct Hd as [Hd|Hd]; [auto|].
    apply Ascii.eqb_eq in Hd. auto.
  - intros d r E. injection E as <- _. apply negb_true_iff, Ascii.eqb_neq in H2. exact H2.
  - intros d r E. rewrite E, last_last in H3. apply negb_true_iff, Ascii.eqb_neq in H3. exact H3.
Qed.

(* ------------------------------------------------------------ counterexamples *)

Ltac dump_ok := apply dump_text_ok; vm_compute; reflexivity.
Ltac spelled := repeat (apply Forall_cons || apply Forall_nil); vm_compute; auto 40.

Lemma overlap_refuted : exists s its, let text := dump_text its in
  dump its text /\ Forall spelled_out its /\ Forall typedef_ok its /\ o_ast_all s = false /\
  undeclared (o_symbol_list s) its = [] /\
  read_input s $"a.ast" text = Err $"the following symbols were not found: foo_x".
Proof.
  exists (add_sym $"foo_x" (add_pfx $"foo_" defaults)), [IVar $"foo_x" $"int"]. cbv zeta. split; [dump_ok|]. split; [spelled|].
  split; [repeat constructor; apply typedef_ok_b; reflexivity|]. repeat split; vm_compute; reflexivity.
Qed.
Lemma named_type_refuted : exists s its y, let text := dump_text its in
  dump its text /\ Forall typedef_ok its /\ o_ast_all s = false /\ o_prefix_list s = [] /\
  In $"cb" (o_symbol_list s) /\ In $"cb" (map item_name its) /\
  read_input s $"a.ast" text = Ok (s, y) /\ ~ In $"cb" (map p_symbol (s_funcs y ++ s_objs y)).
Proof.
  exists (add_sym $"v" (add_sym $"cb" defaults)), [IFunc $"cb" $"callback_t" [$"int"]; IVar $"v" $"int"].
  exists (mksyms [] [mkproto KObject $"int" $"v" [] [] []] []). cbv zeta. split; [dump_ok|].
  split; [repeat constructor; apply typedef_ok_b; reflexivity|]. split; [reflexivity|]. split; [reflexivity|].
  split; [left; reflexivity|]. split; [left; reflexivity|]. split; [vm_compute; reflexivity|]. intros [K|[]]. discriminate.
Qed.

Definition keeps (n : str) (r : ctype) (ps : list ctype) (v : bool) : Prop :=
  forall input y s, read_input (set_ast_all true defaults) input (dump_text [IFunc n (type_text (CFun r ps v)) (map type_text ps)]) = Ok (s, y) ->
  exists p, s_funcs y = [p] /\ p_type p = type_text r /\ p_args p = param_list (declare_all ps (arg_names 1 ps)) v.
Lemma keeps_not n r ps v p : read_input (set_ast_all true defaults) $"a" (dump_text [IFunc n (type_text (CFun r ps v)) (map type_text ps)]) =
    Ok (set_ast_all true defaults, mksyms [p] [] []) ->
  (p_type p <> type_text r \/ p_args p <> param_list (declare_all ps (arg_names 1 ps)) v) -> ~ keeps n r ps v.
Proof. intros E H K. destruct (K _ _ _ E) as (q & Eq & H1 & H2). cbn [s_funcs] in Eq. injection Eq as <-. destruct H; congruence. Qed.
Lemma variadic_refuted : ~ keeps $"f" (CBase $"int") [CPtr [] (CBase $"const char")] true.
Proof. eapply keeps_not; [vm_compute; reflexivity|]. right. vm_compute. discriminate. Qed.
Lemma returned_fptr_refuted : ~ keeps $"f" (CPtr [] (CFun (CBase $"void") [CBase $"int"] false)) [CBase $"int"] false.
Proof. eapply keeps_not; [vm_compute; reflexivity|]. left. vm_compute. discriminate. Qed.
Lemma double_pointer_refuted : ~ keeps $"f" (CBase $"int") [CPtr [] (CPtr [] (CFun (CBase $"void") [CBase $"int"] false))] false.
Proof. eapply keeps_not; [vm_compute; reflexivity|]. right. vm_compute. discriminate. Qed.
Lemma no_parameters_refuted : ~ keeps $"f" (CBase $"int") [] false.
Proof. eapply keeps_not; [vm_compute; reflexivity|]. right. vm_compute. discriminate. Qed.

Lemma var_double_pointer_refuted : exists t y p, t = CPtr [] (CPtr [] (CFun (CBase $"void") [CBase $"int"] false)) /\
  read_input (set_ast_all true defaults) $"a" (dump_text [IVar $"v" (type_text t)]) = Ok (set_ast_all true defaults, y) /\
  s_objs y = [p] /\ s_typedefs y = [] /\ p_kind p = KObject /\ tokens (p_type p ++ $" v") <> tokens (declare t $"v").
Proof.
  eexists _, (mksyms [] [mkproto KObject $"void (**)(int)" $"v" [] [] []] []), _. split; [reflexivity|]. split; [vm_compute; reflexivity|].
  split; [reflexivity|]. split; [reflexivity|]. split; [reflexivity|]. vm_compute. discriminate.
Qed.
Lemma var_array_refuted : exists t m, 
  t = CArr $"3" (CPtr [] (CFun (CBase $"int") [CPtr [] (CFun (CBase $"void") [CBase $"int"] false)] false)) /\
  read_input (set_ast_all true defaults) $"a" (dump_text [IVar $"v" (type_text t)]) = Err m /\
  m = $"failed to create typedef for symbol `v'".
Proof. eexists _, _. split; [reflexivity|]. split; [vm_compute; reflexivity|reflexivity]. Qed.
Lemma ast_duplicates_refuted : exists s its y, dump its (dump_text its) /\ Forall spelled_out its /\ o_ast_all s = false /\
  read_input s $"a" (dump_text its) = Ok (s, y) /\ ~ NoDup (map p_symbol (s_funcs y ++ s_objs y)).
Proof.
  exists (add_pfx $"f" defaults), [IFunc $"f" $"int (int)" [$"int"]; IFunc $"f" $"int (int)" [$"int"]].
  eexists (mksyms [mkproto KFunction $"int" $"f" $"int a1" [] $"a1"; mkproto KFunction $"int" $"f" $"int a1" [] $"a1"] [] []).
  split; [dump_ok|]. split; [spelled|]. split; [reflexivity|]. split; [vm_compute; reflexivity|].
  cbn. intros H. inversion H as [|x l K _]; subst. apply K. left. reflexivity.
Qed.

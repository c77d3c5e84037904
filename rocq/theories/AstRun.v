(** From a Clang AST dump to the generated loader: proofs for C47 and C76. *)
From Coq Require Import Ascii String List Bool Arith NArith Lia.
From Verif Require Import Str StrFacts SpecParse Parse Format SpecFormat Prefix SpecPrefix Options Generate SpecGenerate Frontend.
From Verif Require Import SpecTemplates Templates ShippedFacts TablesClean SpecEndToEnd EndToEnd.
From Verif Require Import SpecClangAst ClangAstFacts2 ClangAstProps ClangAstSelect ClangAstFinal.
Import ListNotations.

Lemma trim_dt a b : trim_of a b -> dt a -> dt b.
Proof. intros (l & r & -> & _) D. rewrite !dt_app in D. tauto. Qed.
Lemma put_dt n t d : put_name n t d -> dt n -> dt t -> dt d.
Proof. intros H N T. inversion H; subst; rewrite !dt_app in *; intuition; dt_lit. Qed.
Lemma arg_name_dt k : dt (arg_name k).
Proof. exact (dt_name k). Qed.
Lemma arg_names_dt {A} (l : list A) : forall k, Forall dt (arg_names k l).
Proof. induction l; intros k; constructor; [apply arg_name_dt|auto]. Qed.
Lemma zip_dt ns ts ds : zip3 put_name ns ts ds -> Forall dt ns -> Forall dt ts -> Forall dt ds.
Proof. induction 1; intros N T; [constructor|]. inversion N; inversion T; subst. constructor; [|auto]. eapply put_dt; eassumption. Qed.

Lemma recorded_item_plain i p : ident_word (item_name i) -> plain_item i -> recorded i p -> plain_proto p.
Proof.
  intros (W1 & W2) P R. unfold plain_proto. destruct i as [n t ps|n t]; cbn [recorded plain_item item_name] in *.
  - destruct R as (-> & _ & (ret & rest & -> & _ & T) & -> & ds & Z & ->). destruct P as [P1 P2]. rewrite !dt_app in P1.
    split; [apply (trim_dt _ _ T); tauto|]. split; [apply dt_join; [dt_lit|]; eapply zip_dt; [exact Z|apply arg_names_dt|exact P2]|].
    split; [apply dt_join; [dt_lit|apply arg_names_dt]|]. split; assumption.
  - destruct R as (-> & T & _ & -> & ->). split; [exact (trim_dt _ _ T P)|]. split; [constructor|]. split; [constructor|]. split; assumption.
Qed.
Lemma recorded_items_plain ch ps : Forall (fun i => ident_word (item_name i)) ch -> Forall plain_item ch -> Forall2 recorded ch ps -> Forall plain_proto ps.
Proof. intros W P R. induction R; [constructor|]. inversion W; inversion P; subst. constructor; [eapply recorded_item_plain; eassumption|auto]. Qed.

Lemma dump_words its text : dump its text -> Forall (fun i => ident_word (item_name i)) its.
Proof. intros D. destruct (dump_stream false its text D) as (ts & S & _). eapply tshow_names. exact S. Qed.
Lemma tables_plain_items pl ch y : ident_text pl -> Forall (fun i => ident_word (item_name i)) ch -> Forall plain_item ch -> tables_of pl ch y ->
  Forall plain_proto (s_funcs y ++ s_objs y).
Proof.
  intros I W P (objs & R1 & R2 & ->).
  assert (F : forall (g : item -> bool) (Q : item -> Prop), Forall Q ch -> Forall Q (filter g ch)).
  { intros g Q H. apply Forall_forall. intros x X. apply filter_In in X as [X _]. rewrite Forall_forall in H. auto. }
  apply Forall_app. split; [eapply recorded_items_plain; [| |exact R1]; apply F; assumption|].
  apply Forall_map. eapply Forall_impl; [intros p; apply (typedef_plain pl p I)|]. eapply recorded_items_plain; [| |exact R2]; apply F; assumption.
Qed.
Lemma chosen_sub all pfx syms its : forall seen i, In i (chosen all pfx syms seen its) -> In i its.
Proof.
  induction its as [|x its IH]; intros seen i; cbn [chosen In]; [tauto|]. destruct (_ || _); cbn [In]; intros H; [destruct H as [H|H]; [auto|]|]; right; eapply IH; exact H.
Qed.
Lemma tables_nonempty pl ch y : tables_of pl ch y -> ch <> [] -> s_funcs y ++ s_objs y <> [].
Proof.
  intros T N E. apply tables_names in T as [T1 T2]. apply app_eq_nil in E as [E1 E2]. rewrite E1 in T1. rewrite E2 in T2. cbn in T1, T2.
  destruct ch as [|i ch]; [congruence|]. cbn [filter] in T1, T2. destruct (is_func i); discriminate.
Qed.
Lemma dump_chosen s input its text s' y : dump its text -> Forall spelled_out its -> read_input s input text = Ok (s', y) ->
  chosen (o_ast_all s) (o_prefix_list s) (o_symbol_list s) [] its <> [].
Proof.
  intros Hd Hs. destruct (dump_stream (o_read_options s) its text Hd) as (ts & Sh & E). unfold read_input. rewrite E. unfold ClangAst.ast_symbols. rewrite (parse_show _ _ _ input its ts Sh Hs).
  destruct (negb (o_ast_all s) && _); [discriminate|]. destruct (if o_ast_all s then [] else _); [|discriminate].
  destruct (chosen _ _ _ _ _); [discriminate|]. discriminate.
Qed.
Lemma ast_plain s input its text s' y : dump its text -> Forall spelled_out its -> Forall plain_item its -> ident_text (m_pfx_lower (o_pfxs s)) ->
  read_input s input text = Ok (s', y) -> Forall plain_proto (s_funcs y ++ s_objs y) /\ s_funcs y ++ s_objs y <> [].
Proof.
  intros D S P I R. pose proof (dump_chosen _ _ _ _ _ _ D S R) as N. destruct (read_dump_ok _ _ _ _ _ _ D S R) as (_ & T & _). pose proof (dump_words _ _ D) as W.
  split; [|eapply tables_nonempty; [exact T|exact N]].
  eapply tables_plain_items; [exact I| | |exact T]; apply Forall_forall; intros i X; apply chosen_sub in X; [rewrite Forall_forall in W|rewrite Forall_forall in P]; auto.
Qed.

(** the whole program *)
Lemma ast_program e help argv stdin fs out g input text its :
  parse_cmdline argv defaults = Ok (Done g) -> g_input g = Some input -> input_is e fs stdin input text ->
  ordinary_run e (g_set g) -> (o_lib (g_set g) = [] \/ exists x, format_libname (o_lib (g_set g)) (m_pfx_upper (o_pfxs (g_set g))) = Ok x) -> can_write e (g_set g) fs ->
  dump its text -> Forall spelled_out its -> Forall typedef_ok its -> Forall plain_item its ->
  (o_ast_all (g_set g) = true \/ undeclared (o_symbol_list (g_set g)) its = [] /\ no_overlap (o_prefix_list (g_set g)) (o_symbol_list (g_set g)) its) ->
  chosen (o_ast_all (g_set g)) (o_prefix_list (g_set g)) (o_symbol_list (g_set g)) [] its <> [] ->
  exists w' f o, program e help argv stdin (started fs out) = (w', Ret tt) /\ holds_loader (g_set g) out w' f o /\
    let names k := map item_name (filter (fun i => Bool.eqb (is_func i) k) (chosen (o_ast_all (g_set g)) (o_prefix_list (g_set g)) (o_symbol_list (g_set g)) [] its)) in
    map p_symbol f = names true /\ map p_symbol o = names false.
Proof.
  intros C I Ii R Lib W D S T P O N. set (s := g_set g) in *.
  assert (E : exists y, read_input s input text = Ok (s, y) /\ tables_of (m_pfx_lower (o_pfxs s)) (chosen (o_ast_all s) (o_prefix_list s) (o_symbol_list s) [] its) y).
  { destruct O as [O|(O1 & O2)].
    - rewrite O, chosen_all in *. exact (selection_all s input its text D S T O N).
    - destruct (o_ast_all s) eqn:A; [rewrite chosen_all in *; exact (selection_all s input its text D S T A N)|].
      assert (M : o_prefix_list s <> [] \/ o_symbol_list s <> []).
      { destruct (o_prefix_list s), (o_symbol_list s); try (left; discriminate); try (right; discriminate). exfalso. apply N. clear.
        assert (G : forall seen, chosen false [] [] seen its = []) by (induction its as [|i l IH]; intros seen; [reflexivity|]; cbn; apply IH). apply G. }
      pose proof (selection_no_overlap s input its text D S T A M O2) as K. rewrite O1 in K. destruct (chosen false _ _ [] its); [congruence|exact K]. }
  destruct E as (y & Ri & Ty).
  assert (Pf : ident_text (m_pfx_lower (o_pfxs s))) by (destruct R as (_ & _ & _ & _ & U); now destruct (usable _ U) as (_ & X & _)).
  destruct (ast_plain s input its text s y D S P Pf Ri) as (Pl & Ne). pose proof R as (_ & _ & Tm & _).
  destruct (program_writes e help argv stdin fs out g input text s y C I Ii Tm Ri Pl Ne R Lib W) as (w' & P1 & P2).
  exists w', (s_funcs y), (s_objs y). split; [exact P1|]. split; [exact P2|]. cbv zeta. apply tables_names in Ty as [T1 T2]. rewrite T1, T2.
  split; f_equal; apply filter_ext; intros i; now destruct (is_func i).
Qed.

(** an unnamed structure: its type text holds the path of the header *)
Definition unnamed : list item := [IVar $"v" $"struct (unnamed struct at inc/%%symbol%%.h:3:1)"].
Lemma ast_not_plain : exists its s' y, dump its (dump_text its) /\ Forall spelled_out its /\
  read_input (set_ast_all true defaults) $"a" (dump_text its) = Ok (s', y) /\ ~ Forall plain_proto (s_funcs y ++ s_objs y).
Proof.
  destruct (read_input (set_ast_all true defaults) $"a" (dump_text unnamed)) as [[s' y]| | |] eqn:E; vm_compute in E; try discriminate E.
  exists unnamed, s', y. split; [dump_ok|]. split; [spelled|]. split; [rewrite <- E; vm_compute; reflexivity|].
  injection E as <- <-. cbn [s_funcs s_objs app]. intros H. inversion H as [|? ? (X & _) _]. unfold declaration_text in X. rewrite Forall_forall in X.
  specialize (X "/"%char). assert (K : declaration_char "/" = true) by (apply X; vm_compute; tauto). discriminate K.
Qed.

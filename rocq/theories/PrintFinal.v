(** Proofs for C86, continued. *)
From Coq Require Import Ascii String List Bool Arith NArith ZArith Lia.
From Verif Require Import Str StrFacts NumFacts Lex SpecLex Tokenize SpecTokenize Parse ParamNames SpecParse SpecTables ParseFacts2 ParamFacts2 SelectFacts ParseProps.
From Verif Require Import Format SpecFormat FormatFacts FormatProps TypedefFacts Prefix SpecPrefix Options Generate SpecGenerate SpecTemplates ClangAst Frontend SpecEndToEnd EndToEnd ShippedFacts SpecSymbols PrintLex PrintText PrintRun.
Import ListNotations.

Lemma asked_in pfx syms ds d : In d (asked_decls pfx syms ds) -> In d ds.
Proof. unfold asked_decls. destruct pfx, syms; auto; rewrite in_app_iff, !filter_In; tauto. Qed.
Lemma Forall2_lines {A} (ds : list decl) (f : decl -> A) (R : A -> proto -> Prop) (S : decl -> proto -> Prop) qs :
  Forall2 R (map f ds) qs -> (forall d q, In d ds -> R (f d) q -> S d q) -> Forall2 S ds qs.
Proof.
  revert qs. induction ds as [|d ds IH]; intros qs F H; cbn [map] in F; inversion F; subst; constructor; [apply H; [now left|assumption]|]. apply IH; [assumption|]. intros e q I. apply H. now right.
Qed.
Lemma Forall2_and {A B} (P : A -> B -> Prop) (Q : A -> Prop) l m : Forall2 (fun a b => P a b /\ Q a) l m -> Forall2 P l m /\ Forall Q l.
Proof. induction 1 as [|a b l m (H1 & H2) _ (I1 & I2)]; split; constructor; auto. Qed.
Lemma Forall2_mapped {A B C} (f : A -> C) (g : B -> str) (P : C -> str -> Prop) l m : Forall2 (fun a b => P (f a) (g b)) l m -> Forall2 P (map f l) (map g m).
Proof. induction 1; cbn [map]; constructor; auto. Qed.

(** the printed text is a header with the printed declarations *)
Lemma printed_is_header s ds y es : Forall (fun d => clean_words (written d)) ds -> Forall (simple_decl (o_param s)) ds -> o_param s <> PCreate -> ident_text (m_pfx_lower (o_pfxs s)) ->
  Forall2 formatted_proto (map (entry_of (o_param s)) (asked_of s (functions_of ds))) (s_funcs y) ->
  Forall2 formatted_proto (map (with_typedef (m_pfx_lower (o_pfxs s))) (map (entry_of (o_param s)) (asked_of s (objects_of ds)))) (s_objs y) ->
  Forall (fun d => decl_ok d /\ In (written d) (map written ds)) es ->
  Forall2 formatted (flat_map (fun d => typedef_text d (td_name (m_pfx_lower (o_pfxs s)) (decl_name d))) es) (s_typedefs y) ->
  header_with (printed_decls s ds) (symbols_text (s_funcs y) (s_objs y) (s_typedefs y)).
Proof.
  intros C D M P F1 F2 E F3. set (pl := m_pfx_lower (o_pfxs s)) in *. rewrite Forall_forall in C, D.
  destruct (typedef_lines pl ds es _ P ltac:(now apply Forall_forall) E F3) as (tss & T).
  assert (K1 : forall d, In d (asked_of s (functions_of ds)) -> In d ds /\ is_function_decl d = true) by (intros d I; apply asked_in in I; now apply filter_In in I).
  assert (K2 : forall d, In d (asked_of s (objects_of ds)) -> In d ds /\ is_function_decl d = false) by (intros d I; apply asked_in in I; apply filter_In in I as (I & X); split; [exact I|now destruct (is_function_decl d)]).
  rewrite map_map in F2.
  pose proof (Forall2_lines _ (fun d => with_typedef pl (entry_of (o_param s) d)) _ (fun d q => line_of (written (reprinted pl d)) (object_line q) /\ (forall x r, written (reprinted pl d) = x :: r -> ~ In x keywords)) _ F2) as G2.
  pose proof (Forall2_lines _ (entry_of (o_param s)) _ (fun d q => line_of (written (reprinted pl d)) (function_line q) /\ (forall x r, written (reprinted pl d) = x :: r -> ~ In x keywords)) _ F1) as G1.
  assert (H2 : Forall2 (fun d q => line_of (written (reprinted pl d)) (object_line q) /\ (forall x r, written (reprinted pl d) = x :: r -> ~ In x keywords)) (asked_of s (objects_of ds)) (s_objs y)).
  { apply G2. intros d q I X. destruct (K2 d I) as (I' & B). apply (object_laid (o_param s) pl d q P); auto. destruct (D d I') as (Z & _). exact Z. }
  assert (H1 : Forall2 (fun d q => line_of (written (reprinted pl d)) (function_line q) /\ (forall x r, written (reprinted pl d) = x :: r -> ~ In x keywords)) (asked_of s (functions_of ds)) (s_funcs y)).
  { apply G1. intros d q I X. destruct (K1 d I) as (I' & B). apply (function_laid (o_param s) pl d q M); auto. }
  apply Forall2_and in H1 as (H1 & W1). apply Forall2_and in H2 as (H2 & W2).
  apply (printed_header tss); [exact T| |].
  - unfold printed_decls. rewrite map_app. apply Forall2_app; [exact (Forall2_mapped (reprinted pl) object_line (fun d t => line_of (written d) t) _ _ H2)|exact (Forall2_mapped (reprinted pl) function_line (fun d t => line_of (written d) t) _ _ H1)].
  - unfold printed_decls. rewrite map_app. apply Forall_app. split; apply Forall_map; assumption.
Qed.

(* ------------------------------------------------------------ reading it again *)

Section Again.
Variable s : settings.
Variable ds : list decl.
Hypothesis U : NoDup (map decl_name ds).
Hypothesis D : Forall (simple_decl (o_param s)) ds.
Hypothesis Al : forall n, In n (o_symbol_list s) -> In n (declared_names ds).
Hypothesis So : asked_for (o_prefix_list s) (o_symbol_list s) (declared_names ds) <> [].
Let pl := m_pfx_lower (o_pfxs s).

Lemma reprinted_name d : decl_name (reprinted pl d) = decl_name d.
Proof. now destruct d. Qed.
Lemma reprinted_function d : is_function_decl (reprinted pl d) = is_function_decl d.
Proof. now destruct d. Qed.
Lemma asked_map pfx syms l : asked_decls pfx syms (map (reprinted pl) l) = map (reprinted pl) (asked_decls pfx syms l).
Proof.
  unfold asked_decls. destruct pfx, syms; [reflexivity|..]; rewrite map_app; f_equal; apply filter_map_comm; intros d _; now rewrite reprinted_name.
Qed.
Lemma filter_twice {A} (f : A -> bool) l : filter f (filter f l) = filter f l.
Proof. induction l as [|x l IH]; [reflexivity|]. cbn [filter]. destruct (f x) eqn:E; [|exact IH]. cbn [filter]. now rewrite E, IH. Qed.
Lemma filter_never {A} (f g : A -> bool) l : (forall x, g x = true -> f x = false) -> filter f (filter g l) = [].
Proof. intros H. induction l as [|x l IH]; [reflexivity|]. cbn [filter]. destruct (g x) eqn:E; [|exact IH]. cbn [filter]. now rewrite (H x E), IH. Qed.
Lemma filter_always {A} (f g : A -> bool) l : (forall x, g x = true -> f x = true) -> filter f (filter g l) = filter g l.
Proof. intros H. induction l as [|x l IH]; [reflexivity|]. cbn [filter]. destruct (g x) eqn:E; [|exact IH]. cbn [filter]. now rewrite (H x E), IH. Qed.
Lemma asked_twice pfx syms l : asked_decls pfx syms (asked_decls pfx syms l) = asked_decls pfx syms l.
Proof.
  unfold asked_decls. destruct pfx, syms; [reflexivity|..]; rewrite !filter_app, !filter_twice; rewrite filter_never, filter_never; try reflexivity; try (rewrite app_nil_r; reflexivity);
  intros d; try (intros X; rewrite X, andb_false_r; reflexivity); rewrite andb_true_iff, negb_true_iff; tauto.
Qed.
Lemma asked_again l : asked_of s (map (reprinted pl) (asked_of s l)) = map (reprinted pl) (asked_of s l).
Proof. unfold asked_of. now rewrite asked_map, asked_twice. Qed.
Lemma printed_parts : functions_of (printed_decls s ds) = map (reprinted pl) (asked_of s (functions_of ds)) /\ objects_of (printed_decls s ds) = map (reprinted pl) (asked_of s (objects_of ds)).
Proof.
  clear U D Al So. unfold printed_decls, functions_of, objects_of. fold (asked_of s). fold pl. rewrite !map_app, !filter_app.
  assert (A1 : forall d, In d (asked_of s (filter is_function_decl ds)) -> is_function_decl d = true) by (intros d I; apply asked_in in I; now apply filter_In in I).
  assert (A2 : forall d, In d (asked_of s (filter (fun d => negb (is_function_decl d)) ds)) -> is_function_decl d = false) by (intros d I; apply asked_in in I; apply filter_In in I as (_ & X); now destruct (is_function_decl d)).
  assert (F : forall (g : decl -> bool) l b, (forall d, In d l -> g (reprinted pl d) = b) -> filter g (map (reprinted pl) l) = if b then map (reprinted pl) l else []).
  { intros g l b. clear. induction l as [|d l IH]; intros H; [now destruct b|]. cbn [map filter]. rewrite (H d) by now left. rewrite IH by (intros x I; apply H; now right). now destruct b. }
  split.
  - rewrite (F _ _ false), (F _ _ true); [reflexivity|intros d I; rewrite reprinted_function; now apply A1|intros d I; rewrite reprinted_function; now apply A2].
  - rewrite (F _ _ true), (F _ _ false); [apply app_nil_r|intros d I; rewrite reprinted_function; now rewrite (A1 d I)|intros d I; rewrite reprinted_function; now rewrite (A2 d I)].
Qed.
Lemma NoDup_image {A B} (f : A -> B) l : NoDup (map f l) -> forall m, NoDup m -> incl m l -> NoDup (map f m).
Proof.
  intros N. assert (J : forall x y, In x l -> In y l -> f x = f y -> x = y).
  { clear - N. induction l as [|a l IH]; intros x y X Y E; [destruct X|]. cbn [map] in N. inversion N as [|? ? N1 N2]; subst.
    destruct X as [-> |X], Y as [-> |Y]; auto; [exfalso; apply N1; rewrite E; now apply in_map|exfalso; apply N1; rewrite <- E; now apply in_map]. }
  induction 1 as [|x m X M IH]; intros I; [constructor|]. cbn [map]. constructor; [|apply IH; intros z Z; apply I; now right].
  intros H. apply in_map_iff in H as (z & E & Z). apply X. rewrite <- (J z x); auto; apply I; [now right|now left].
Qed.
Lemma NoDup_asked pfx syms l : NoDup l -> NoDup (asked_decls pfx syms l).
Proof.
  intros N. unfold asked_decls. assert (X : forall f g : decl -> bool, (forall d, f d = true -> g d = false) -> NoDup (filter f l ++ filter g l)).
  { intros f g H. clear - N H. induction N as [|a l A N IH]; [constructor|]. cbn [filter].
    assert (Nf : forall k : decl -> bool, ~ In a (filter k l)) by (intros k I; apply filter_In in I; tauto).
    destruct (f a) eqn:F; [rewrite (H a F); cbn [app]; constructor; [|exact IH]; rewrite in_app_iff; intros [I|I]; now apply Nf in I|].
    destruct (g a); [|exact IH]. apply NoDup_Add with (a := a) (l := filter f l ++ filter g l); [apply Add_app|]. split; [exact IH|]. rewrite in_app_iff. intros [I|I]; now apply Nf in I. }
  destruct pfx, syms; auto; apply X; intros d E; now rewrite E, andb_false_r.
Qed.
Lemma printed_names : NoDup (map decl_name (printed_decls s ds)).
Proof.
  unfold printed_decls. fold pl. rewrite map_map. erewrite map_ext; [|intros d; apply reprinted_name]. pose proof (NoDup_map_inv _ _ U) as N.
  apply (NoDup_image decl_name ds U).
  - assert (Dj : forall d, In d (asked_of s (objects_of ds)) -> ~ In d (asked_of s (functions_of ds))).
    { intros d I1 I2. apply asked_in in I1, I2. apply filter_In in I1 as (_ & I1), I2 as (_ & I2). now rewrite I2 in I1. }
    fold (asked_of s). fold (objects_of ds) (functions_of ds). assert (N1 : NoDup (asked_of s (objects_of ds))) by (apply NoDup_asked; now apply NoDup_filter).
    assert (N2 : NoDup (asked_of s (functions_of ds))) by (apply NoDup_asked; now apply NoDup_filter).
    revert Dj. induction N1 as [|d l A N1 IH]; intros Dj; [exact N2|]. cbn [app]. constructor; [rewrite in_app_iff; intros [I|I]; [contradiction|]; now apply (Dj d (or_introl eq_refl))|]. apply IH. intros x X. apply Dj. now right.
  - intros d I. apply in_app_iff in I as [I|I]; apply asked_in in I; now apply filter_In in I.
Qed.
Lemma stars_type ty two : type_tokens ty -> type_tokens (ty ++ stars two).
Proof. destruct ty as [|t r]; [intros []|]. intros (A & B). split; [exact A|]. apply Forall_app. split; [exact B|]. destruct two; repeat constructor; now right. Qed.
Lemma after_word (x : str) l a b : x <> lparen -> x :: l = a ++ lparen :: lparen :: b -> exists a', l = a' ++ lparen :: lparen :: b.
Proof. intros X E. destruct a as [|y a]; [injection E as -> _; now elim X|]. injection E as -> E. eauto. Qed.
Lemma after_words (v : list str) l : Forall (fun x => x <> lparen) v -> forall a b, v ++ l = a ++ lparen :: lparen :: b -> exists a', l = a' ++ lparen :: lparen :: b.
Proof. induction 1 as [|x v X _ IH]; intros a b E; [eauto|]. apply (after_word x _ _ _ X) in E as (a' & E). exact (IH _ _ E). Qed.
Lemma word_not_paren x : ident_word x -> x <> lparen.
Proof. intros (_ & W) ->. inversion W; discriminate. Qed.
Lemma reprinted_simple m d : ident_text pl -> simple_decl m d -> simple_decl m (reprinted pl d).
Proof.
  intros P ((Dt & Dn) & _ & Np & gs & G1 & G2). assert (Tn : forall n, ident_word n -> ident_word (td_name pl n)) by (intros n W; now destruct (td_fine pl n P W)).
  assert (Ty : forall ty, type_tokens ty -> Forall (fun x => x <> lparen) ty).
  { intros ty T. destruct ty as [|t r]; [constructor|]. destruct T as (A & B). constructor; [now apply word_not_paren|]. eapply Forall_impl; [|exact B]. intros x [W| ->]; [now apply word_not_paren|discriminate]. }
  split; [|split; [|split]].
  - split; [|rewrite reprinted_name; exact Dn]. destruct d; cbn [reprinted decl_type_tokens decl_name] in *; auto; try (now apply stars_type); split; try apply Tn; auto.
  - intros X. now destruct d.
  - intros a b E. destruct d as [ty n|ty n i|ty n ps|ty n ps|two ty n ps|ty n ps]; cbn [reprinted written decl_type_tokens decl_name] in *.
    + exact (Np _ _ E).
    + apply (after_words [td_name pl n; n] []) in E as (a' & E); [now destruct a'|]. constructor; [now apply word_not_paren, Tn|]. constructor; [now apply word_not_paren|constructor].
    + exact (Np _ _ E).
    + assert (E0 : (ty ++ [n]) ++ [$"("] ++ ps ++ [$")"] = a ++ lparen :: lparen :: b) by (rewrite <- app_assoc; exact E).
      apply after_words in E0 as (a' & E0); [|apply Forall_app; split; [now apply Ty|constructor; [now apply word_not_paren|constructor]]].
      apply (Np (ty ++ [$"("; n; $")"] ++ a') b). rewrite <- !app_assoc, <- E0. reflexivity.
    + assert (E0 : ((ty ++ stars two) ++ [n]) ++ [$"("] ++ ps ++ [$")"] = a ++ lparen :: lparen :: b) by (rewrite <- app_assoc; exact E).
      apply after_words in E0 as (a' & E0); [|rewrite !Forall_app; split; [split; [now apply Ty|destruct two; repeat constructor; discriminate]|constructor; [now apply word_not_paren|constructor]]].
      apply (Np (ty ++ [$"("] ++ stars two ++ [n] ++ a') (b ++ [$")"])). rewrite <- !app_assoc.
      change (a' ++ lparen :: lparen :: b ++ [$")"]) with (a' ++ (lparen :: lparen :: b) ++ [$")"]). rewrite (app_assoc a'), <- E0. rewrite <- !app_assoc. reflexivity.
    + apply (after_words [td_name pl n; n] []) in E as (a' & E); [now destruct a'|]. constructor; [now apply word_not_paren, Tn|]. constructor; [now apply word_not_paren|constructor].
  - destruct d; cbn [reprinted decl_params] in *; exists gs; auto.
Qed.
Lemma asked_names l : map decl_name (asked_decls (o_prefix_list s) (o_symbol_list s) l) = asked_for (o_prefix_list s) (o_symbol_list s) (map decl_name l).
Proof.
  clear U D Al So.
  unfold asked_decls, asked_for. assert (F : forall f : str -> bool, map decl_name (filter (fun d => f (decl_name d)) l) = filter f (map decl_name l)) by (intros f; symmetry; now apply filter_map_comm).
  destruct (o_prefix_list s), (o_symbol_list s); [reflexivity|..]; rewrite map_app; f_equal; try apply F; apply (F (fun n => listed_in _ n && negb (prefixed_by _ n))).
Qed.
Lemma asked_for_in n l : In n (asked_for (o_prefix_list s) (o_symbol_list s) l) <->
  In n l /\ ((o_prefix_list s = [] /\ o_symbol_list s = []) \/ prefixed_by (o_prefix_list s) n = true \/ listed_in (o_symbol_list s) n = true).
Proof.
  clear. unfold asked_for. destruct (o_prefix_list s) as [|p ps], (o_symbol_list s) as [|x xs]; [tauto|..]; rewrite in_app_iff, !filter_In, andb_true_iff, negb_true_iff;
  (destruct (prefixed_by _ n) eqn:E; [intuition congruence|]; intuition congruence).
Qed.
Lemma printed_declared : declared_names (printed_decls s ds) = asked_for (o_prefix_list s) (o_symbol_list s) (function_names ds) ++ asked_for (o_prefix_list s) (o_symbol_list s) (object_names ds).
Proof.
  clear U D Al So.
  unfold declared_names, function_names, object_names. destruct printed_parts as (E1 & E2). unfold functions_of, objects_of in *. rewrite E1, E2, !map_map.
  rewrite !(map_ext _ decl_name reprinted_name), <- !asked_names. reflexivity.
Qed.
Lemma printed_asked n : In n (declared_names (printed_decls s ds)) <-> In n (asked_for (o_prefix_list s) (o_symbol_list s) (declared_names ds)).
Proof. clear U D Al So. rewrite printed_declared, in_app_iff, !asked_for_in. unfold declared_names. rewrite in_app_iff. tauto. Qed.
Lemma printed_all : (forall n, In n (o_symbol_list s) -> In n (declared_names (printed_decls s ds))) /\
  asked_for (o_prefix_list s) (o_symbol_list s) (declared_names (printed_decls s ds)) <> [].
Proof.
  split.
  - intros n I. apply printed_asked, asked_for_in. split; [now apply Al|]. right. right. unfold listed_in. apply existsb_exists. exists n. split; [exact I|]. now apply str_eqb_eq.
  - intros E. destruct (asked_for _ _ (declared_names ds)) as [|n r] eqn:Q; [now elim So|]. assert (I : In n (asked_for (o_prefix_list s) (o_symbol_list s) (declared_names ds))) by (rewrite Q; now left).
    assert (X : In n (asked_for (o_prefix_list s) (o_symbol_list s) (declared_names (printed_decls s ds)))) by (apply asked_for_in; split; [now apply printed_asked|now apply asked_for_in in I]).
    rewrite E in X. destruct X.
Qed.
Lemma function_entry m d : is_function_decl d = true -> entry_of m (reprinted pl d) = entry_of m d.
Proof. intros F. unfold entry_of. replace (proto_of (reprinted pl d)) with (proto_of d); [reflexivity|]. destruct d; try discriminate F; reflexivity. Qed.
Lemma formatted_same p q q' : formatted_proto p q -> formatted_proto p q' -> q = q'.
Proof.
  unfold formatted_proto, formatted. intros (A1 & A2 & A3 & A4 & A5 & A6) (B1 & B2 & B3 & B4 & B5 & B6). destruct q, q'; cbn in *. rewrite A1 in B1. rewrite A2 in B2. injection B1 as ->. injection B2 as ->. congruence.
Qed.
Lemma formatted_all ps qs qs' : Forall2 formatted_proto ps qs -> Forall2 formatted_proto ps qs' -> qs = qs'.
Proof. intros F. revert qs'. induction F as [|p q ps qs H _ IH]; intros qs' F'; inversion F'; subst; [reflexivity|]. f_equal; [now apply (formatted_same p)|now apply IH]. Qed.
Lemma object_entry m d q q' : ident_text pl -> decl_ok d -> is_function_decl d = false -> formatted_proto (with_typedef pl (entry_of m d)) q -> formatted_proto (with_typedef pl (entry_of m (reprinted pl d))) q' -> q' = plain_object q.
Proof.
  intros P (_ & Dn) F. rewrite !entry_object by (rewrite ?reprinted_function; exact F). intros H H'.
  assert (Td : forall n, n = decl_name d -> proto_of (reprinted pl d) = proto_of (DObject [td_name pl n] n) -> p_type (with_typedef pl (proto_of d)) = td_name pl n -> p_args (with_typedef pl (proto_of d)) = [] ->
     p_args_vec (with_typedef pl (proto_of d)) = [] -> p_param_names (with_typedef pl (proto_of d)) = [] -> p_symbol (with_typedef pl (proto_of d)) = n -> q' = plain_object q).
  { intros n -> E E1 E2 E3 E4 E5. destruct (td_fine pl _ P Dn) as (W & _). pose proof (lexeme_solid _ (or_introl W)) as S. rewrite E in H'. destruct H as (H1 & H2 & _ & H4 & H5 & H6), H' as (K1 & K2 & K3 & K4 & K5 & K6).
    rewrite E1 in H1. rewrite E2 in H2. rewrite E3 in H5. rewrite E4 in H6. rewrite E5 in H4. apply (solid_laid _ _ S) in H1. apply (solid_spaced _ _ S) in K1. unfold formatted in H2, K2.
    change (format_prototype [] = Ok (p_args q')) in K2. rewrite H2 in K2. injection K2 as K2. cbn in K3, K4, K5, K6. unfold plain_object. rewrite H1, H4, H5, H6, K2. destruct q'; cbn in *; congruence. }
  destruct d; try discriminate F.
  - rewrite (formatted_same _ _ _ H' H). destruct H as (_ & _ & K & _). cbn in K. unfold plain_object. destruct q; cbn in *; congruence.
  - now apply (Td name).
  - now apply (Td name).
Qed.
Lemma read_again input text y : header_with ds text -> o_param s <> PCreate -> ident_text pl -> read_input s input text = Ok (s, y) ->
  header_with (printed_decls s ds) (symbols_text (s_funcs y) (s_objs y) (s_typedefs y)) /\
  length (s_objs y) + length (s_funcs y) = length (printed_decls s ds) /\
  exists y', read_input s input (symbols_text (s_funcs y) (s_objs y) (s_typedefs y)) = Ok (s, y') /\
    s_funcs y' = s_funcs y /\ s_objs y' = map plain_object (s_objs y) /\ s_typedefs y' = [].
Proof.
  intros H M P R. destruct (read_entries s input text ds H U D Al So) as (y0 & es & R0 & F1 & F2 & E1 & E2 & F3). rewrite R in R0. injection R0 as <-.
  pose proof (printed_is_header s ds y es (header_words ds text H) D M P F1 F2 E2 F3) as H'. split; [exact H'|]. split.
  { unfold printed_decls. rewrite map_length, app_length. assert (L1 : length (map (entry_of (o_param s)) (asked_of s (functions_of ds))) = length (s_funcs y)) by (eapply Forall2_length; exact F1).
    assert (L2 : length (map (with_typedef pl) (map (entry_of (o_param s)) (asked_of s (objects_of ds)))) = length (s_objs y)) by (eapply Forall2_length; exact F2). rewrite !map_length in *. now rewrite <- L1, <- L2. }
  assert (D' : Forall (simple_decl (o_param s)) (printed_decls s ds)).
  { unfold printed_decls. apply Forall_map. apply Forall_forall. intros d I. apply reprinted_simple; [exact P|]. rewrite Forall_forall in D. apply D.
    apply in_app_iff in I as [I|I]; apply asked_in in I; now apply filter_In in I. }
  destruct printed_all as (Al' & So'). destruct printed_parts as (P1 & P2).
  destruct (read_entries s input _ _ H' printed_names D' Al' So') as (y' & es' & R' & G1 & G2 & G3 & G4 & G5). exists y'. split; [exact R'|].
  rewrite P1 in G1. rewrite P2 in G2, G3. rewrite asked_again in G1, G2, G3. rewrite !map_map in *.
  assert (K1 : forall d, In d (asked_of s (functions_of ds)) -> is_function_decl d = true) by (intros d I; apply asked_in in I; now apply filter_In in I).
  assert (K2 : forall d, In d (asked_of s (objects_of ds)) -> In d ds /\ is_function_decl d = false) by (intros d I; apply asked_in in I; apply filter_In in I as (I & X); split; [exact I|now destruct (is_function_decl d)]).
  split; [|split].
  - rewrite (map_ext_in _ (entry_of (o_param s))) in G1 by (intros d I; apply function_entry; now apply K1). symmetry. exact (formatted_all _ _ _ F1 G1).
  - clear - F2 G2 K2 P D. fold pl in F2, G2. revert F2 G2. generalize (s_objs y) (s_objs y'). induction (asked_of s (objects_of ds)) as [|d l IH]; intros qs qs' F2 G2; cbn [map] in F2, G2; inversion F2; inversion G2; subst; [reflexivity|].
    cbn [map]. f_equal; [|apply IH; auto; intros x X; apply K2; now right]. destruct (K2 d (or_introl eq_refl)) as (I & X). rewrite Forall_forall in D. destruct (D d I) as (Dk & _).
    match goal with H1 : formatted_proto _ ?q, H2 : formatted_proto _ ?q' |- ?q' = plain_object ?q => exact (object_entry _ _ _ _ P Dk X H1 H2) end.
  - assert (Z : flat_map (fun d => typedef_text d (td_name (m_pfx_lower (o_pfxs s)) (decl_name d))) es' = []).
    { clear - G3 K2. revert G3 K2. generalize (asked_of s (objects_of ds)). intros l. revert es'. induction l as [|d l IH]; intros es' G3 K2; cbn [map] in G3; inversion G3 as [|e p es1 ps1 Q1 Q2]; subst; [reflexivity|].
      cbn [flat_map]. rewrite IH by (auto; intros x X; apply K2; now right). rewrite app_nil_r. destruct Q1 as (Q1 & _). rewrite (proj1 (entry_same _ _)) in Q1. destruct (K2 d (or_introl eq_refl)) as (_ & X).
      destruct d; try discriminate X; cbn in Q1; destruct e; try discriminate Q1; reflexivity. }
    rewrite Z in G5. inversion G5. reflexivity.
Qed.
End Again.

(* ------------------------------------------------------------ the whole program *)

Lemma program_reads e help argv stdin fs out g input text s y :
  parse_cmdline argv defaults = Ok (Done g) -> g_input g = Some input -> input_is e fs stdin input text -> o_template (g_set g) = [] ->
  read_input (g_set g) input text = Ok (s, y) ->
  program e help argv stdin (started fs out) = run e s (s_funcs y) (s_objs y) (s_typedefs y) stdin (started fs out).
Proof.
  intros C I (In0 & In1) Tm Ri. unfold program, Generate.seq, lift. rewrite C, I. unfold tokenize, Generate.seq, lift. destruct input as [|c0 input0]; [now elim In0|]. set (input := c0 :: input0) in *.
  rewrite Tm. replace (str_eqb input $"-" && str_eqb [] $"-") with false by now rewrite andb_false_r.
  destruct In1 as [(E1 & E2)|(E1 & E2 & E3)].
  - rewrite E1 in *. cbn [str_eqb ret]. change (str_eqb $"-" $"-") with true. unfold ret. rewrite <- E2, Ri. reflexivity.
  - rewrite (proj2 (str_eqb_neq input $"-") E1). unfold read_file. rewrite E2. cbn [started w_fs]. rewrite E3, Ri. reflexivity.
Qed.
Lemma same_lines (g : proto -> str) ps : (forall p, g (plain_object p) = g p) -> map g (map plain_object ps) = map g ps.
Proof. intros H. rewrite map_map. now apply map_ext. Qed.
Lemma printed_again f o td : exists front, symbols_text f o td = front ++ symbols_text f (map plain_object o) [] /\ (td = [] -> front = []).
Proof.
  exists (match td with [] => [] | _ => $"/* typedefs */" ++ [nl] ++ concat (map (fun t => $"typedef " ++ t ++ $";" ++ [nl]) td) ++ [nl] end). split; [|now intros ->].
  unfold symbols_text. rewrite (same_lines (fun o => print_type (p_type o) ++ p_symbol o ++ $";" ++ [nl])) by reflexivity. rewrite map_length. reflexivity.
Qed.
Lemma program_prints e help argv stdin fs out g input text ds :
  parse_cmdline argv defaults = Ok (Done g) -> g_input g = Some input -> input_is e fs stdin input text ->
  o_print (g_set g) = true -> o_template (g_set g) = [] -> o_param (g_set g) <> PCreate -> usable_prefix (o_pfxs (g_set g)) ->
  header_with ds text -> NoDup (map decl_name ds) -> Forall (simple_decl (o_param (g_set g))) ds ->
  (forall n, In n (o_symbol_list (g_set g)) -> In n (declared_names ds)) ->
  asked_for (o_prefix_list (g_set g)) (o_symbol_list (g_set g)) (declared_names ds) <> [] ->
  exists w' front back,
    program e help argv stdin (started fs out) = (w', Ret tt) /\ w_fs w' = fs /\ w_out w' = out ++ front ++ back /\
    header_with (printed_decls (g_set g) ds) (front ++ back) /\
    (exists p, back = p ++ match_count (length (printed_decls (g_set g) ds))) /\
    (front = [] \/ exists d, In d ds /\ reprinted (m_pfx_lower (o_pfxs (g_set g))) d <> d /\ is_function_decl d = false) /\
    (forall fs' stdin' out', input_is e fs' stdin' input (front ++ back) -> 
      exists w'', program e help argv stdin' (started fs' out') = (w'', Ret tt) /\ w_fs w'' = fs' /\ w_out w'' = out' ++ back).
Proof.
  intros C I Ii Pr Tm Pm Px H U D Al So. set (s := g_set g) in *. destruct (usable _ Px) as (_ & Pl & _).
  destruct (PrintRun.read_entries s input text ds H U D Al So) as (y & es & R & F1 & F2 & E1 & E2 & F3).
  destruct (read_again s ds U D Al So input text y H Pm Pl R) as (H' & L & y' & R' & Q1 & Q2 & Q3).
  destruct (printed_again (s_funcs y) (s_objs y) (s_typedefs y)) as (front & P1 & P2). exists (fst (print_symbols (s_funcs y) (s_objs y) (s_typedefs y) (started fs out))), front, (symbols_text (s_funcs y) (map plain_object (s_objs y)) []).
  rewrite <- P1. assert (T : program e help argv stdin (started fs out) = print_symbols (s_funcs y) (s_objs y) (s_typedefs y) (started fs out)).
  { rewrite (program_reads e help argv stdin fs out g input text s y C I Ii Tm R). unfold run. now rewrite Pr. }
  split; [exact T|]. split; [reflexivity|]. split; [reflexivity|]. split; [exact H'|]. split.
  { rewrite symbols_sections, map_length, L. cbn [app]. eexists. reflexivity. }
  split.
  { destruct (s_typedefs y) as [|t0 tds] eqn:Et; [left; now apply P2|]. right.
    assert (Z : exists d, In d es /\ typedef_text d (td_name (m_pfx_lower (o_pfxs s)) (decl_name d)) <> []).
    { clear - F3. induction es as [|d es IH]; cbn [flat_map] in F3; [inversion F3|]. destruct (typedef_text d (td_name (m_pfx_lower (o_pfxs s)) (decl_name d))) as [|x l] eqn:X; [destruct (IH F3) as (d' & J & K); exists d'; split; [now right|exact K]|exists d; split; [now left|rewrite X; discriminate]]. }
    destruct Z as (d & J & K).
    assert (V : exists d', In d' ds /\ written d' = written d).
    { rewrite Forall_forall in E2. destruct (E2 d J) as (_ & V). apply in_map_iff in V as (d' & V1 & V2). exists d'. auto. }
    assert (W : exists d', In d' ds /\ is_function_decl d' = false /\ (forall ty n, d' <> DObject ty n)).
    { assert (Y : exists d0, In d0 (asked_of s (objects_of ds)) /\ describes d (entry_of (o_param s) d0)).
      { clear - E1 J. revert E1. generalize (asked_of s (objects_of ds)). intros l. revert l. induction es as [|e es IH]; intros l E1; [destruct J|]. destruct l as [|d0 l]; cbn [map] in E1; inversion E1; subst. destruct J as [-> |J]; [exists d0; split; [now left|assumption]|]. destruct (IH J l) as (d1 & X1 & X2); [assumption|]. exists d1. split; [now right|exact X2]. }
      destruct Y as (d0 & Y1 & Y2). apply asked_in in Y1. apply filter_In in Y1 as (Y1 & Y3). exists d0. split; [exact Y1|]. split; [now destruct (is_function_decl d0)|].
      intros ty n ->. apply K. destruct Y2 as (Y2 & _). rewrite (proj1 (entry_same _ _)) in Y2. cbn in Y2. destruct d; try discriminate Y2; reflexivity. }
    destruct W as (d' & W1 & W2 & W3). exists d'. split; [exact W1|]. split; [|exact W2]. clear - W2 W3. destruct d' as [ty n|ty n i|ty n ps|ty n ps|two ty n ps|ty n ps]; try discriminate W2; [now elim (W3 ty n)|intros X; cbn [reprinted] in X; discriminate X|intros X; cbn [reprinted] in X; discriminate X]. }
  intros fs' stdin' out' Ii'. exists (fst (print_symbols (s_funcs y') (s_objs y') (s_typedefs y') (started fs' out'))).
  split; [rewrite (program_reads e help argv stdin' fs' out' g input _ s y' C I Ii' Tm R'); unfold run; now rewrite Pr|]. split; [reflexivity|]. unfold print_symbols, print_out. cbn [fst w_out started]. now rewrite Q1, Q2, Q3.
Qed.

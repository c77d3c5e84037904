(** Proofs for C86: what -print-symbols prints is read back as the same symbols. *)
From Coq Require Import Ascii String List Bool Arith NArith ZArith Lia.
From Verif Require Import Str StrFacts NumFacts Lex SpecLex Tokenize SpecTokenize TokenizeFacts LexProps Parse ParamNames SpecParse SpecTables ParseFacts ParseFacts2 ParamFacts ParamFacts2 SelectFacts ParseProps.
From Verif Require Import Format SpecFormat FormatFacts FormatProps TypedefFacts Prefix SpecPrefix Substitute Options Generate ShippedFacts SpecTemplates ClangAst Frontend SpecEndToEnd EndToEnd SpecSymbols PrintLex PrintText.
Import ListNotations.

(* ------------------------------------------------------------ the words of a header *)

Definition keywords : list str := [$"struct"; $"union"; $"enum"; $"typedef"].
Lemma piece_facts ps : Forall piece_ok ps -> forall n t x, In t (pieces_tokens n ps) -> plain_text t = Some x -> good_tok x /\ (is_keyword t = false -> ~ In x keywords).
Proof.
  induction 1 as [|p ps P _ IH]; intros n t x I X; [destruct I|]. cbn [pieces_tokens] in I. apply in_app_iff in I as [I|I]; [|exact (IH _ _ _ I X)].
  destruct p; cbn [piece_token] in I; try (destruct I as [<- |[]]); try discriminate X; try contradiction.
  - destruct P as (N & W & U). assert (G : x = w -> w <> $"extern" -> good_tok x) by (intros -> E; split; [left; split; auto|auto]).
    destruct (str_eqb w $"extern") eqn:E0; [contradiction|]. assert (E0' : w <> $"extern") by (intros ->; discriminate).
    destruct (str_eqb w $"struct") eqn:E1; [apply str_eqb_eq in E1; subst w; destruct I as [<- |[]]; injection X as <-; split; [now apply G|discriminate]|].
    destruct (str_eqb w $"union") eqn:E2; [apply str_eqb_eq in E2; subst w; destruct I as [<- |[]]; injection X as <-; split; [now apply G|discriminate]|].
    destruct (str_eqb w $"enum") eqn:E3; [apply str_eqb_eq in E3; subst w; destruct I as [<- |[]]; injection X as <-; split; [now apply G|discriminate]|].
    destruct (str_eqb w $"typedef") eqn:E4; [apply str_eqb_eq in E4; subst w; destruct I as [<- |[]]; injection X as <-; split; [now apply G|discriminate]|].
    destruct I as [<- |[]]. apply (f_equal (fun o => match o with Some y => y | None => [] end)) in X. cbn [plain_text] in X. subst x. split; [now apply G|]. intros _ H. unfold keywords in H. cbn [In] in H.
    destruct H as [<- |[<- |[<- |[<- |[]]]]]; discriminate.
  - apply (f_equal (fun o => match o with Some y => y | None => [] end)) in X. cbn [plain_text] in X. subst x. cbn [piece_ok In] in P.
    repeat (destruct P as [<- |P]; [split; [split; [right; cbn; tauto|split; discriminate]|intros _ H; cbn in H; repeat destruct H as [H|H]; try discriminate; exact H]|]). destruct P.
  - apply (f_equal (fun o => match o with Some y => y | None => [] end)) in X. cbn [plain_text] in X. subst x.
    split; [split; [right; cbn; tauto|split; discriminate]|intros _ H; cbn in H; repeat destruct H as [H|H]; try discriminate; exact H].
  - destruct (Ascii.eqb c "{"); [discriminate|]. destruct (Ascii.eqb c "}"); discriminate.
Qed.
Definition clean_words (v : list str) : Prop := Forall good_tok v /\ forall x r, v = x :: r -> ~ In x keywords.
Lemma header_words ds text : header_with ds text -> Forall (fun d => clean_words (written d)) ds.
Proof.
  intros (ps & ss & P1 & _ & _ & P3 & S1 & S2). rewrite <- (Forall_map written clean_words), <- S2.
  assert (T : forall t x, In t (flat_map stmt_tokens ss) -> plain_text t = Some x -> good_tok x /\ (is_keyword t = false -> ~ In x keywords)).
  { intros t x I. rewrite <- P3 in I. now apply (piece_facts ps P1 1%N). }
  clear - T S1. induction S1 as [|s ss S _ IH]; [constructor|]. cbn [flat_map] in *. apply Forall_app. split; [|apply IH; intros t x I; apply T; apply in_app_iff; now right].
  destruct s as [t ts| |]; try constructor; [|constructor]. destruct S as (K & F).
  assert (T' : forall u x, In u (t :: ts) -> plain_text u = Some x -> good_tok x /\ (is_keyword u = false -> ~ In x keywords)).
  { intros u x I. apply T. apply in_app_iff. left. cbn [stmt_tokens]. rewrite app_comm_cons. apply in_app_iff. now left. }
  clear T IH. split.
  - apply Forall_forall. intros x I. unfold texts in I. apply in_flat_map in I as (u & I & X). destruct (plain_text u) as [y|] eqn:Y; [|destruct X]. destruct X as [<- |[]]. now apply (T' u y).
  - intros x r E. unfold texts in E. cbn [flat_map] in E. inversion F as [|? ? F1 _]; subst. destruct (plain_text t) as [y|] eqn:Y; [|now elim F1]. injection E as -> _.
    apply (T' t x); [now left|exact Y|exact K].
Qed.

(* ------------------------------------------------------------ reading, with the entries *)

Definition entry_of (m : param_mode) (d : decl) : proto := match do_params m (proto_of d) with Ok p => p | _ => proto_of d end.
Lemma entries_known m ds : forall bs, mapR (do_params m) (map proto_of ds) = Ok bs -> bs = map (entry_of m) ds.
Proof.
  induction ds as [|d ds IH]; intros bs E; cbn [map mapR] in E; [now injection E as <-|]. destruct (do_params m (proto_of d)) as [p| | |] eqn:P; try discriminate. cbn [bind] in E.
  destruct (mapR (do_params m) (map proto_of ds)) as [ps| | |] eqn:Q; try discriminate. cbn [bind] in E. injection E as <-. cbn [map]. rewrite (IH ps eq_refl). unfold entry_of at 2. now rewrite P.
Qed.
Lemma do_params_same m p q : do_params m p = Ok q -> p_kind q = p_kind p /\ p_symbol q = p_symbol p.
Proof.
  unfold do_params, get_parameter_names, create_parameter_names. intros H.
  assert (V : forall p', param_void_or_empty p = Some p' -> p_kind p' = p_kind p /\ p_symbol p' = p_symbol p).
  { intros p'. unfold param_void_or_empty. destruct (p_args_vec p) as [|[|t [|]] [|]]; try discriminate; [now intros [= <-]|]. destruct (strcaseeq t _); [|discriminate]. now intros [= <-]. }
  destruct m, (negb (is_function_kind p)); try (injection H as <-; auto; fail); destruct (param_void_or_empty p) as [p'|]; try (injection H as <-; now apply V);
  try (injection H as <-; auto; fail).
  - destruct (read_names_loop _ _ _); try discriminate. cbn [bind] in H. injection H as <-. auto.
  - destruct (create_loop _ _ _ _ _) as [[]| | |]; try discriminate. cbn [bind] in H. injection H as <-. auto.
Qed.
Lemma entry_same m d : p_kind (entry_of m d) = decl_kind d /\ p_symbol (entry_of m d) = decl_name d.
Proof. unfold entry_of. destruct (do_params m (proto_of d)) as [q| | |] eqn:E; try (split; reflexivity). apply do_params_same in E. exact E. Qed.
Lemma known_tables m name ds t : Forall decl_ok ds -> Forall (fun d => paren_form d -> single_or_pointer (decl_type_tokens d)) ds -> NoDup (map decl_name ds) ->
  gdo_parse m [] [] name (map written ds) = Ok t -> t = tables_of (map (entry_of m) ds).
Proof.
  intros D1 D2 U G. unfold gdo_parse in G. rewrite parse_tokens_accepts in G by assumption. cbn [bind] in G. destruct (map proto_of ds) as [|p0 l0] eqn:E0; [discriminate|]. rewrite <- E0 in *.
  rewrite multiple_definitions_NoDup in G by now rewrite map_map. destruct (mapR (do_params m) (map proto_of ds)) as [bs| | |] eqn:Q; try discriminate. cbn [with_prefix bind] in G.
  pose proof (entries_known m ds bs Q) as B. rewrite select_spec in G.
  - cbn [missing filter selected] in G. subst bs. destruct (map (entry_of m) ds); [discriminate|]. now injection G as <-.
  - subst bs. rewrite map_map. erewrite map_ext; [exact U|]. intros d. apply entry_same.
Qed.
Lemma filter_map_comm {A B} (f : A -> B) g h (l : list A) : (forall x, In x l -> h (f x) = g x) -> filter h (map f l) = map f (filter g l).
Proof. induction l as [|x l IH]; intros H; [reflexivity|]. cbn [map filter]. rewrite (H x) by now left. rewrite IH by (intros y I; apply H; now right). now destruct (g x). Qed.
Lemma picked_entries m pfx syms ds : Forall (fun d => decl_name d <> []) ds ->
  pick pfx syms (map (entry_of m) ds) = map (entry_of m) (asked_decls pfx syms ds).
Proof.
  intros N. assert (B : forall d, In d ds -> by_prefix pfx (entry_of m d) = prefixed_by pfx (decl_name d)).
  { intros d I. rewrite Forall_forall in N. specialize (N d I). unfold by_prefix, is_prefixed, prefixed_by. destruct (entry_same m d) as (_ & ->). destruct (decl_name d); [congruence|]. destruct pfx; reflexivity. }
  unfold pick, asked_decls. destruct pfx, syms; [reflexivity|..]; rewrite map_app; f_equal; apply filter_map_comm; auto; intros d I; rewrite B by exact I; unfold by_list, listed_in; now rewrite (proj2 (entry_same m d)).
Qed.
Lemma tables_entries m ds : filter isf (map (entry_of m) ds) = map (entry_of m) (filter is_function_decl ds) /\
  filter isn (map (entry_of m) ds) = map (entry_of m) (filter (fun d => negb (is_function_decl d)) ds).
Proof.
  assert (K : forall d, isf (entry_of m d) = is_function_decl d) by (intros d; unfold isf, is_function_kind, is_function_decl; now rewrite (proj1 (entry_same m d))).
  split; apply filter_map_comm; intros d _; [apply K|]. unfold isn. f_equal. apply K.
Qed.

Definition asked_of (s : settings) := asked_decls (o_prefix_list s) (o_symbol_list s).
Definition objects_of (ds : list decl) := filter (fun d => negb (is_function_decl d)) ds.
Definition functions_of (ds : list decl) := filter is_function_decl ds.
Lemma read_entries s input text ds : header_with ds text -> NoDup (map decl_name ds) -> Forall (simple_decl (o_param s)) ds ->
  (forall n, In n (o_symbol_list s) -> In n (declared_names ds)) -> asked_for (o_prefix_list s) (o_symbol_list s) (declared_names ds) <> [] ->
  exists y es, read_input s input text = Ok (s, y) /\
    Forall2 formatted_proto (map (entry_of (o_param s)) (asked_of s (functions_of ds))) (s_funcs y) /\
    Forall2 formatted_proto (map (with_typedef (m_pfx_lower (o_pfxs s))) (map (entry_of (o_param s)) (asked_of s (objects_of ds)))) (s_objs y) /\
    Forall2 describes es (map (entry_of (o_param s)) (asked_of s (objects_of ds))) /\ Forall (fun d => decl_ok d /\ In (written d) (map written ds)) es /\
    Forall2 formatted (flat_map (fun d => typedef_text d (td_name (m_pfx_lower (o_pfxs s)) (decl_name d))) es) (s_typedefs y).
Proof.
  intros H U D Al So. destruct (read_simple s input text ds H U D Al So) as (y & vec & opts & T & R & _).
  assert (N : ds <> []). { intros ->. apply So. unfold declared_names. cbn. now destruct (o_prefix_list s), (o_symbol_list s). }
  destruct (read_all s input text ds H N U D) as (bs & T' & C & G & _). rewrite T in T'. injection T' as -> ->.
  assert (L : Forall (Forall lexeme) (map written ds)) by exact (stream_lexemes _ _ _ _ T).
  apply known_tables in G; [|eapply Forall_impl; [|exact D]; now intros d (X & _)|eapply Forall_impl; [|exact D]; now intros d (_ & X & _)|exact U].
  destruct (read_all s input text ds H N U D) as (bs' & _ & _ & G' & _).
  pose proof R as R'. unfold read_input in R'. rewrite T in R'. replace (if o_read_options s then parse_options [] s else Ok s) with (Ok s) in R' by (now destruct (o_read_options s)). cbn [bind] in R'.
  rewrite C in R'. destruct (gdo_parse (o_param s) (o_prefix_list s) (o_symbol_list s) (input_name input) (map written ds)) as [t| | |] eqn:P; try discriminate R'. cbn [bind] in R'.
  destruct (filtered_run _ _ _ _ _ _ L P) as (t0 & G0 & P1 & P2 & _). rewrite G' in G0. injection G0 as <-.
  apply known_tables in G'; [|eapply Forall_impl; [|exact D]; now intros d (X & _)|eapply Forall_impl; [|exact D]; now intros d (_ & X & _)|exact U].
  rewrite G' in P1, P2. cbn [tables_of t_funcs t_objs] in P1, P2. destruct (tables_entries (o_param s) ds) as (E1 & E2). rewrite E1 in P1. rewrite E2 in P2.
  assert (Ne : forall g, Forall (fun d => decl_name d <> []) (filter g ds)).
  { intros g. apply Forall_forall. intros d I. apply filter_In in I as (I & _). rewrite Forall_forall in D. destruct (D d I) as ((_ & (X & _)) & _). exact X. }
  rewrite picked_entries in P1, P2 by apply Ne.
  destruct (typedefs_of_input _ _ _ _ _ _ (m_pfx_lower (o_pfxs s)) L P) as (es & y' & D1 & D2 & F & F1 & F2 & F3). rewrite F in R'. cbn [bind] in R'. injection R' as ->.
  exists y, es. split; [exact R|]. rewrite P1 in F1. rewrite P2 in F2, D1. auto.
Qed.

(* ------------------------------------------------------------ the lines *)

Lemma not_same_end a b e : ends_with e a = true -> ends_with e b = false -> a <> b.
Proof. intros A B ->. congruence. Qed.
Lemma td_ends pl n : ends_with $"__t" (td_name pl n) = true.
Proof. unfold td_name, ends_with. rewrite !rev_app_distr. reflexivity. Qed.
Lemma td_fine pl n : ident_text pl -> ident_word n -> ident_word (td_name pl n) /\ good_tok (td_name pl n) /\ ~ In (td_name pl n) keywords.
Proof.
  intros P (_ & N). assert (W : ident_word (td_name pl n)).
  { split; [intros E; pose proof (td_ends pl n) as X; rewrite E in X; discriminate X|]. unfold td_name. apply Forall_app. split; [exact P|]. constructor; [reflexivity|]. apply Forall_app. split; [exact N|repeat constructor]. }
  split; [exact W|]. split; [split; [now left|]; split; now apply (not_same_end _ _ $"__t" (td_ends pl n))|].
  intros I. unfold keywords in I. cbn [In] in I. assert (forall k, ends_with $"__t" k = false -> k <> td_name pl n) as X by (intros k K E; symmetry in E; revert E; now apply (not_same_end _ _ $"__t" (td_ends pl n))).
  destruct I as [I|[I|[I|[I|[]]]]]; revert I; now apply X.
Qed.
Lemma good_lexemes v : Forall good_tok v -> Forall lexeme v.
Proof. apply Forall_impl. intros x (H & _). exact H. Qed.
Lemma solid_laid x y : Forall (fun c => isspace c = false) x -> formatted x y -> y = x.
Proof.
  intros S F. destruct (format_spec x) as (u & E & U & _ & _). unfold formatted in F. rewrite F in E. injection E as <-. rewrite <- (app_nil_r x) in U. destruct (unblank_solid x S _ _ U) as (t & -> & U'). inversion U'. apply app_nil_r.
Qed.
Lemma solid_spaced x y : Forall (fun c => isspace c = false) x -> formatted (spaced [x]) y -> y = x.
Proof.
  intros S F. destruct (format_spec (spaced [x])) as (u & E & U & _ & (_ & _ & _ & T)). unfold formatted in F. rewrite F in E. injection E as <-. rewrite spaced_cons in U. cbn [spaced map concat] in U.
  destruct (unblank_solid x S _ _ U) as (t & -> & U'). destruct (unblank_sp _ _ U') as (g & t' & -> & [-> | ->] & U2); inversion U2; subst; [apply app_nil_r|]. cbn [app] in T. specialize (T sp x eq_refl). discriminate T.
Qed.
Lemma formatted_tidy s t : formatted s t -> tidy t.
Proof. intros F. destruct (format_spec s) as (u & E & _ & _ & T). unfold formatted in F. rewrite F in E. injection E as <-. exact T. Qed.
Lemma typedef_laid d n t : decl_ok d -> Forall lexeme (written d) -> ident_word n -> In t (typedef_text d n) -> laid (written (renamed d n)) t.
Proof.
  intros D L N I. split; [|now apply typedef_text_tokens]. destruct d; cbn [typedef_text] in I; try contradiction; destruct I as [<- |[]]; cbn [renamed written].
  - rewrite spaced_app. apply unblank_app; [apply unblank_refl|]. rewrite spaced_app. apply unblank_app; [|apply unblank_refl]. rewrite spaced_cons. apply (unblank_spaces n [sp]). repeat constructor.
  - rewrite spaced_app. apply unblank_app; [apply unblank_refl|].
    change ([$"("; $"*"; n; $")"; $"("] ++ ps ++ [$")"]) with ([$"("] ++ [$"*"] ++ [n] ++ [$")"] ++ [$"("] ++ ps ++ [$")"]). rewrite (spaced_app [$"("]), (spaced_app [$"*"]), (spaced_app [n]), (spaced_app [$")"]).
    change ($"(*") with ($"(" ++ $"*"). rewrite <- app_assoc. apply unblank_app; [repeat constructor|]. apply unblank_app; [repeat constructor|].
    apply unblank_app; [rewrite spaced_cons; apply (unblank_spaces n [sp]); repeat constructor|]. apply unblank_app; [repeat constructor|apply unblank_refl].
Qed.
Lemma renamed_good d n : Forall good_tok (written d) -> good_tok n -> Forall good_tok (written (renamed d n)).
Proof.
  intros G N. destruct d; cbn [renamed written] in *; rewrite !Forall_app, ?Forall_cons_iff in *; tauto.
Qed.
Lemma typedef_lines pl ds es tds : ident_text pl -> Forall (fun d => clean_words (written d)) ds -> Forall (fun d => decl_ok d /\ In (written d) (map written ds)) es ->
  Forall2 formatted (flat_map (fun d => typedef_text d (td_name pl (decl_name d))) es) tds -> exists tss, Forall2 line_of tss tds.
Proof.
  intros P C E F. revert tds F. induction E as [|d es (D & I) _ IH]; intros tds F; cbn [flat_map] in F; [inversion F; exists []; constructor|].
  apply Forall2_app_inv_l in F as (t1 & t2 & F1 & F2 & ->). destruct (IH _ F2) as (tss & H).
  assert (G : Forall good_tok (written d)). { apply in_map_iff in I as (d0 & E0 & I). rewrite Forall_forall in C. destruct (C d0 I) as (X & _). now rewrite E0 in X. }
  pose proof D as (_ & Dn). destruct (td_fine pl (decl_name d) P Dn) as (W & Gn & _).
  assert (X : exists ts1, Forall2 line_of ts1 t1).
  { assert (Z : forall t, In t (typedef_text d (td_name pl (decl_name d))) -> forall t', formatted t t' -> line_of (written (renamed d (td_name pl (decl_name d)))) t').
    { intros t It t' Ft. split; [destruct d; cbn [renamed written]; intros A; apply app_eq_nil in A as (_ & A); discriminate A|]. split; [now apply renamed_good|]. apply (laid_formatted _ t); [|exact Ft]. apply typedef_laid; auto. now apply good_lexemes. }
    clear - F1 Z. induction F1 as [|t t' l l' Ft F1 IH]; [exists []; constructor|]. destruct IH as (ts & H); [intros u Iu; apply Z; now right|]. exists (written (renamed d (td_name pl (decl_name d))) :: ts). constructor; [|exact H]. apply (Z t); [now left|exact Ft]. }
  destruct X as (ts1 & X). exists (ts1 ++ tss). now apply Forall2_app.
Qed.
Lemma entry_object m d : is_function_decl d = false -> entry_of m d = proto_of d.
Proof.
  intros K. unfold entry_of, do_params, get_parameter_names, create_parameter_names, is_function_kind. cbn [proto_of p_kind]. unfold is_function_decl in K. destruct (decl_kind d); try discriminate; now destruct m.
Qed.
(** objects *)
Lemma object_laid m pl d q : ident_text pl -> decl_ok d -> clean_words (written d) -> is_function_decl d = false -> formatted_proto (with_typedef pl (entry_of m d)) q ->
  line_of (written (reprinted pl d)) (object_line q) /\ (forall x r, written (reprinted pl d) = x :: r -> ~ In x keywords).
Proof.
  intros P (Dt & Dn) (G & K) F. rewrite (entry_object m d F). intros (F1 & _ & _ & F4 & _).
  assert (Td : forall n, n = decl_name d -> p_type (with_typedef pl (proto_of d)) = td_name pl n -> p_symbol q = n -> line_of (written (DObject [td_name pl n] n)) (object_line q) /\ (forall x r, written (DObject [td_name pl n] n) = x :: r -> ~ In x keywords)).
  { intros n -> Ht Hs. destruct (td_fine pl (decl_name d) P Dn) as (W & Gt & Kt). rewrite Ht in F1. assert (E : p_type q = td_name pl (decl_name d)) by (apply (solid_laid _ _ (lexeme_solid _ (or_introl W)) F1)).
    assert (Gn : good_tok (decl_name d)).
    { rewrite Forall_forall in G. apply G. destruct d; cbn [written decl_name]; rewrite ?in_app_iff; cbn [In]; tauto. }
    split; [|cbn [written app]; intros x r [= <- _]; exact Kt].
    split; [discriminate|]. split; [constructor; [exact Gt|]; constructor; [exact Gn|constructor]|]. cbn [written]. unfold object_line. rewrite Hs. apply laid_type; [discriminate|rewrite E; now apply laid_word|exact (formatted_tidy _ _ F1)|now apply laid_word]. }
  destruct d; try discriminate F; cbn [reprinted].
  - split; [|exact K]. split; [cbn [written]; intros A; apply app_eq_nil in A as (_ & A); discriminate A|]. split; [exact G|]. cbn [written] in *. unfold object_line.
    change (formatted (spaced ty) (p_type q)) in F1. change (p_symbol q = name) in F4. rewrite F4. pose proof G as G'. apply Forall_app in G' as (G1 & _). apply laid_type.
    + intros ->. exact Dt.
    + apply (laid_formatted _ (spaced ty)); [apply laid_spaced; now apply good_lexemes|exact F1].
    + exact (formatted_tidy _ _ F1).
    + now apply laid_word.
  - apply Td; auto.
  - apply Td; auto.
Qed.
(** functions *)
Definition function_type (d : decl) : list str := match d with DFunctionParenPtr two ty _ _ => ty ++ stars two | _ => decl_type_tokens d end.
Lemma entry_recorded m d : simple_decl m d -> Forall lexeme (written d) -> recorded m d (entry_of m d).
Proof.
  intros (_ & _ & _ & gs & G1 & G2 & G3 & G4 & G5) L. destruct (fit_params m d gs G1 L G2 G3 G4 G5) as (p & E). pose proof (mapR_recorded m [d]) as R. cbn [map mapR] in R. rewrite E in R. cbn [bind] in R.
  specialize (R (Forall_cons _ L (Forall_nil _))). inversion R; subst. unfold entry_of. now rewrite E.
Qed.
Lemma function_laid m pl d q : m <> PCreate -> simple_decl m d -> clean_words (written d) -> is_function_decl d = true -> formatted_proto (entry_of m d) q ->
  line_of (written (reprinted pl d)) (function_line q) /\ (forall x r, written (reprinted pl d) = x :: r -> ~ In x keywords).
Proof.
  intros M S (G & K) F (F1 & F2 & _ & F4 & _). pose proof (good_lexemes _ G) as L. pose proof S as ((Dt & Dn) & _ & _ & gs & G1 & G2 & G3 & G4 & _). destruct (entry_recorded m d S L) as (R1 & R2 & R3 & R4).
  assert (Kd : decl_kind d = KFunction) by (unfold is_function_decl in F; now destruct (decl_kind d)). rewrite Kd in R4. destruct R4 as (_ & R4).
  assert (Lp : Forall lexeme (decl_params d)) by (destruct d; cbn [written decl_params] in *; try constructor; rewrite !Forall_app in L; tauto).
  assert (V : copy_parameters (decl_params d) = gs) by (rewrite G1; apply copy_parameters_join; auto; apply groups_lexemes; now rewrite <- G1). rewrite V in R4.
  assert (A : p_args (entry_of m d) = unwords (decl_params d)).
  { rewrite G1. destruct R4 as [(-> & -> & _)|[(t & -> & _ & -> & _)|(_ & _ & R4)]]; [reflexivity|reflexivity|]. destruct m; [apply R4|now elim M|apply R4]. }
  assert (W : written (reprinted pl d) = function_type d ++ [decl_name d] ++ [$"("] ++ decl_params d ++ [$")"]) by (destruct d; try discriminate F; reflexivity).
  assert (T : decl_type d = spaced (function_type d)) by (destruct d; try discriminate F; reflexivity).
  assert (Gt : Forall good_tok (function_type d) /\ good_tok (decl_name d) /\ Forall good_tok (decl_params d)).
  { destruct d; try discriminate F; cbn [written function_type decl_type_tokens decl_name decl_params] in *; rewrite !Forall_app, ?Forall_cons_iff in *; tauto. }
  destruct Gt as (T1 & T2 & T3). assert (N : function_type d <> []) by (destruct d; try discriminate F; cbn [function_type decl_type_tokens] in *; intros X; try (apply app_eq_nil in X as (X & _)); rewrite X in Dt; destruct Dt).
  rewrite W. split.
  - split; [destruct (function_type d); [now elim N|discriminate]|]. split.
    + rewrite !Forall_app. split; [exact T1|]. split; [now constructor|]. split; [constructor; [|constructor]; split; [right; cbn; tauto|split; discriminate]|]. split; [exact T3|constructor; [|constructor]; split; [right; cbn; tauto|split; discriminate]].
    + unfold function_line. rewrite F4, R2. rewrite R3, T in F1. rewrite A in F2. apply laid_type; [exact N| |exact (formatted_tidy _ _ F1)|].
      * apply (laid_formatted _ (spaced (function_type d))); [apply laid_spaced; now apply good_lexemes|exact F1].
      * apply laid_call; [exact Dn|]. apply (laid_formatted _ (unwords (decl_params d))); [now apply laid_unwords|exact F2].
  - intros x r E. destruct (function_type d) as [|z f] eqn:Ef; [now elim N|]. injection E as -> _.
    destruct d; try discriminate F; cbn [function_type decl_type_tokens written] in *; try (rewrite Ef in K; now apply (K x _ eq_refl)).
    destruct ty as [|t ty]; [destruct Dt|]. injection Ef as -> _. now apply (K x _ eq_refl).
Qed.

(** From the text of a header to the generated loader: proofs for C47 and C77. *)
From Coq Require Import Ascii String List Bool Arith NArith Lia.
From Verif Require Import Str Lex SpecLex Tokenize SpecTokenize TokenizeFacts LexWords LexJoin LexProps CheckPattern Parse ParamNames SpecParse SpecTables ParseFacts ParseFacts2 ParamFacts ParamFacts2 SelectFacts ParseProps.
From Verif Require Import Format SpecFormat FormatFacts FormatProps Prefix SpecPrefix Substitute SpecSubstitute SubstFacts SubstFacts2 Options Generate SpecGenerate GenerateFacts GenerateProps3 GenerateProps4 GenerateProps5 GenerateProps6.
From Verif Require Import SpecTemplates Templates ShippedFacts ShippedProps TablesClean ClangAst Frontend SpecEndToEnd LoadCode StrFacts.
Import ListNotations.

(* ---- reading *)

Lemma cleanup_same v : Forall lexeme v -> (forall a b, v <> a ++ lparen :: lparen :: b) -> remove_superfluous_parentheses v = v.
Proof.
  intros L N. assert (U : unwraps v (remove_superfluous_parentheses v)) by (apply remove_superfluous_unwraps; eapply Forall_impl; [|exact L]; apply lexeme_paren).
  inversion U as [w E1 E2|u w w' H1 H2 E1 E2]; [congruence|]. exfalso. inversion H1; subst. eapply N. reflexivity.
Qed.

Lemma groups_lexemes gs : Forall lexeme (comma_join gs) -> Forall (Forall lexeme) gs.
Proof.
  induction gs as [|g [|g1 gs] IH]; intros H; [constructor|repeat constructor; exact H|]. change (Forall lexeme (g ++ [$","] ++ comma_join (g1 :: gs))) in H.
  rewrite !Forall_app in H. constructor; tauto.
Qed.
Lemma fit_params m d gs : decl_params d = comma_join gs -> Forall lexeme (written d) -> Forall no_top_comma gs -> closed_groups gs ->
  (gs = [] \/ last gs [] <> []) -> params_fit m gs -> exists p, do_params m (proto_of d) = Ok p.
Proof.
  intros E L T C Z F. destruct (decl_kind d) eqn:K.
  - assert (Lp : Forall lexeme (decl_params d)) by (destruct d; cbn [written decl_params] in *; try constructor; rewrite !Forall_app in L; tauto).
    rewrite E in Lp. apply groups_lexemes in Lp. assert (V : p_args_vec (proto_of d) = gs) by (unfold proto_of; cbn [p_args_vec]; rewrite K, E; now apply copy_parameters_join).
    pose proof (param_void_or_empty_spec (proto_of d)) as Y. 
    assert (F' : param_void_or_empty (proto_of d) = None -> match m with PSkip => True | PRead => exists ns, Forall2 rd_param gs ns | PCreate => Forall nameable gs end).
    { intros N. rewrite N, V in Y. destruct Y as [Y1 Y2]. destruct F as [F|[F|F]]; [now elim Y1|now elim Y2|exact F]. }
    destruct m; cbn [do_params]; unfold get_parameter_names, create_parameter_names, is_function_kind; cbn [proto_of p_kind]; rewrite K; cbn [negb].
    all: change (mkproto (decl_kind d) (decl_type d) (decl_name d) [] _ []) with (proto_of d) in *.
    all: rewrite ?V.
    all: destruct (param_void_or_empty (proto_of d)) as [q|] eqn:N; [eauto|]; specialize (F' eq_refl).
    all: try (eexists; reflexivity).
    all: first [destruct F' as (ns & R); rewrite (read_loop_accepts _ _ R); cbn [bind]; eexists; reflexivity
               |destruct (create_accepts gs Lp F' (p_symbol (proto_of d)) 1 (p_args (proto_of d)) (p_param_names (proto_of d))) as (A & B & R); rewrite R; cbn [bind]; eexists; reflexivity].
  - exists (proto_of d). unfold do_params, get_parameter_names, create_parameter_names, is_function_kind. cbn [proto_of p_kind]. rewrite K. now destruct m.
  - exists (proto_of d). unfold do_params, get_parameter_names, create_parameter_names, is_function_kind. cbn [proto_of p_kind]. rewrite K. now destruct m.
  - exists (proto_of d). unfold do_params, get_parameter_names, create_parameter_names, is_function_kind. cbn [proto_of p_kind]. rewrite K. now destruct m.
Qed.

Lemma mapR_all {A B} (f : A -> res B) l : Forall (fun a => exists b, f a = Ok b) l -> exists bs, mapR f l = Ok bs.
Proof. induction 1 as [|a l (b & E) _ (bs & IH)]; cbn [mapR]; [eauto|]. rewrite E. cbn [bind]. rewrite IH. cbn [bind]. eauto. Qed.

Lemma formatted_names a b : Forall2 formatted_proto a b -> map p_symbol b = map p_symbol a.
Proof. induction 1 as [|p q a b H _ IH]; [reflexivity|]. cbn [map]. rewrite IH. destruct H as (_ & _ & _ & -> & _). reflexivity. Qed.

Lemma recorded_tables m ds ps : Forall2 (recorded m) ds ps ->
  map p_symbol (filter isf ps) = function_names ds /\ map p_symbol (filter isn ps) = object_names ds.
Proof.
  unfold function_names, object_names, isf, isn, is_function_kind, is_function_decl. induction 1 as [|d p ds ps (K & S & _) _ (I1 & I2)]; [split; reflexivity|].
  cbn [filter]. rewrite K. destruct (decl_kind d); cbn [negb map]; rewrite ?I1, ?I2, ?S; split; reflexivity.
Qed.

Lemma read_all s input text ds : header_with ds text -> ds <> [] -> NoDup (map decl_name ds) -> Forall (simple_decl (o_param s)) ds ->
  exists bs, tokenize_stream (o_read_options s) (lex_all text) = TS_eof (map written ds) [] /\ map remove_superfluous_parentheses (map written ds) = map written ds /\
    gdo_parse (o_param s) [] [] (input_name input) (map written ds) = Ok (tables_of bs) /\ map p_symbol bs = map decl_name ds /\
    map p_symbol (filter isf bs) = function_names ds /\ map p_symbol (filter isn bs) = object_names ds /\ Forall2 (recorded (o_param s)) ds bs.
Proof.
  intros (ps & ss & P1 & P2 & -> & P3 & S1 & S2) N U D.
  assert (T : tokenize_stream (o_read_options s) (lex_all (text_of ps)) = TS_eof (map written ds) []).
  { rewrite (lex_pieces ps P1 P2), P3. pose proof (statements_collected (o_read_options s) ss [] S1 (or_introl eq_refl)) as C. rewrite !app_nil_r, S2 in C. exact C. }
  assert (L : Forall (Forall lexeme) (map written ds)) by exact (stream_lexemes _ _ _ _ T).
  assert (R : map remove_superfluous_parentheses (map written ds) = map written ds).
  { rewrite map_map. apply map_ext_in. intros d I. apply cleanup_same; [rewrite Forall_map, Forall_forall in L; auto|]. rewrite Forall_forall in D. now destruct (D d I) as (_ & _ & X & _). }
  assert (Q : exists bs, mapR (do_params (o_param s)) (map proto_of ds) = Ok bs).
  { apply mapR_all. apply Forall_map. apply Forall_forall. intros d I. rewrite Forall_forall in D. destruct (D d I) as (_ & _ & _ & gs & G1 & G2 & G3 & G4 & G5).
    apply (fit_params _ _ gs); auto. rewrite Forall_map, Forall_forall in L. auto. }
  destruct Q as (bs & Q).
  assert (Rec : Forall2 (recorded (o_param s)) ds bs). { pose proof (mapR_recorded (o_param s) ds) as X. rewrite Q in X. apply X. now rewrite Forall_map in L. }
  assert (Nm : map p_symbol bs = map decl_name ds). { clear - Rec. induction Rec as [|d p ds ps Hd X IH]; cbn; [easy|]. destruct Hd as (_ & -> & _). now rewrite IH. }
  assert (Nb : bs <> []). { intros ->. inversion Rec; subst. now apply N. }
  assert (G : gdo_parse (o_param s) [] [] (input_name input) (map written ds) = Ok (tables_of bs)).
  { unfold gdo_parse. rewrite parse_tokens_accepts; [|eapply Forall_impl; [|exact D]; now intros d (X & _)|eapply Forall_impl; [|exact D]; now intros d (_ & X & _)].
    cbn [bind]. destruct (map proto_of ds) as [|p0 l0] eqn:E0; [destruct ds; [now elim N|discriminate]|]. rewrite <- E0 in *.
    rewrite multiple_definitions_NoDup by now rewrite map_map. rewrite Q. cbn [with_prefix bind]. rewrite select_spec by now rewrite Nm.
    cbn [missing filter selected]. destruct bs; [now elim Nb|reflexivity]. }
  destruct (recorded_tables _ _ _ Rec) as (N1 & N2). exists bs. auto 10.
Qed.
Lemma names_picked pfx syms l : Forall (fun p => p_symbol p <> []) l -> map p_symbol (pick pfx syms l) = asked_for pfx syms (map p_symbol l).
Proof.
  intros H. assert (B : forall p, In p l -> by_prefix pfx p = prefixed_by pfx (p_symbol p)).
  { intros p I. rewrite Forall_forall in H. specialize (H p I). unfold by_prefix, is_prefixed, prefixed_by. destruct (p_symbol p); [congruence|]. destruct pfx; reflexivity. }
  assert (F : forall (g : proto -> bool) (h : str -> bool), (forall p, In p l -> g p = h (p_symbol p)) -> map p_symbol (filter g l) = filter h (map p_symbol l)).
  { intros g h. clear. induction l as [|p l IH]; intros E; [reflexivity|]. cbn [filter map]. rewrite <- (E p) by now left. destruct (g p); cbn [map]; rewrite IH; auto; intros q Q; apply E; now right. }
  unfold pick, asked_for. destruct pfx, syms; try reflexivity; rewrite map_app; f_equal; apply F; intros p I; unfold by_list; rewrite B by exact I; reflexivity.
Qed.
Lemma asked_wanted pfx syms n names : n <> [] -> In n (asked_for pfx syms names) -> wanted pfx syms n /\ In n names.
Proof.
  intros N. assert (P : prefixed_by pfx n = true -> exists x r, In x pfx /\ n = x ++ r).
  { unfold prefixed_by. intros H. apply existsb_exists in H as (x & I & H). apply starts_with_spec in H as (r & ->). eauto. }
  assert (L : listed_in syms n = true -> In n syms).
  { unfold listed_in. intros H. apply existsb_exists in H as (x & I & H). apply str_eqb_eq in H. now subst. }
  unfold asked_for, wanted. destruct pfx, syms; [auto|..]; rewrite in_app_iff, !filter_In, ?andb_true_iff; intuition.
Qed.
Lemma read_simple s input text ds : header_with ds text -> NoDup (map decl_name ds) -> Forall (simple_decl (o_param s)) ds ->
  (forall n, In n (o_symbol_list s) -> In n (declared_names ds)) -> asked_for (o_prefix_list s) (o_symbol_list s) (declared_names ds) <> [] ->
  exists y vec opts, tokenize_stream (o_read_options s) (lex_all text) = TS_eof vec opts /\ read_input s input text = Ok (s, y) /\
    map p_symbol (s_funcs y) = asked_for (o_prefix_list s) (o_symbol_list s) (function_names ds) /\
    map p_symbol (s_objs y) = asked_for (o_prefix_list s) (o_symbol_list s) (object_names ds).
Proof.
  intros H U D Al So.
  assert (N : ds <> []). { intros ->. apply So. unfold declared_names. cbn. now destruct (o_prefix_list s), (o_symbol_list s). }
  destruct (read_all s input text ds H N U D) as (bs & T & R & G & Nm & N1 & N2 & _).
  assert (L : Forall (Forall lexeme) (map written ds)) by exact (stream_lexemes _ _ _ _ T).
  assert (Ne : Forall (fun p => p_symbol p <> []) bs).
  { apply Forall_forall. intros p I. apply (in_map p_symbol) in I. rewrite Nm in I. apply in_map_iff in I as (d & <- & I). rewrite Forall_forall in D.
    destruct (D d I) as ((_ & (X & _)) & _). exact X. }
  assert (Dn : names_of (tables_of bs) = declared_names ds).
  { unfold names_of, declared_names. cbn [tables_of t_funcs t_objs]. rewrite map_app. f_equal; [exact N1|exact N2]. }
  destruct (filtered_errors _ _ _ (o_prefix_list s) (o_symbol_list s) _ L G) as (_ & _ & E). rewrite Dn in E.
  destruct E as (t & E); [exact Al| |].
  { destruct (asked_for _ _ (declared_names ds)) as [|n r] eqn:Q; [now elim So|]. exists n.
    assert (I : In n (asked_for (o_prefix_list s) (o_symbol_list s) (declared_names ds))) by (rewrite Q; now left).
    assert (X : n <> []).
    { assert (Z : In n (declared_names ds)) by (revert I; unfold asked_for; destruct (o_prefix_list s), (o_symbol_list s); rewrite ?in_app_iff, ?filter_In; tauto).
      rewrite <- Dn in Z. unfold names_of in Z. apply in_map_iff in Z as (p & <- & Z). apply (proj1 (tables_In _ _)) in Z. rewrite Forall_forall in Ne. auto. }
    destruct (asked_wanted _ _ _ _ X I). auto. }
  destruct (filtered_run _ _ _ _ _ _ L E) as (t0 & G0 & P1 & P2 & _). rewrite G in G0. injection G0 as <-. cbn [tables_of t_funcs t_objs] in P1, P2.
  destruct (typedefs_of_input _ _ _ _ _ _ (m_pfx_lower (o_pfxs s)) L E) as (es & y & _ & _ & F & F1 & F2 & _).
  exists y, (map written ds), []. split; [exact T|]. split.
  - unfold read_input. rewrite T. replace (if o_read_options s then parse_options [] s else Ok s) with (Ok s) by (now destruct (o_read_options s)). cbn [bind].
    rewrite R, E. cbn [bind]. rewrite F. reflexivity.
  - assert (Sub : forall g : proto -> bool, Forall (fun p => p_symbol p <> []) (filter g bs)).
    { intros g. apply Forall_forall. intros p I. apply filter_In in I as [I _]. rewrite Forall_forall in Ne. auto. }
    rewrite (formatted_names _ _ F1), (formatted_names _ _ F2), map_map, P1, P2. rewrite (names_picked _ _ _ (Sub isf)), <- N1. split; [reflexivity|].
    rewrite <- N2, <- (names_picked _ _ _ (Sub isn)). apply map_ext. intros p. unfold with_typedef. now destruct (p_kind p).
Qed.

(* ---- writing *)

(** without -line there are no directives *)
Definition no_lines (ws : list write) : Prop := Forall (fun w => match w with WText _ => True | WLine _ => False end) ws.
Lemma no_lines_output ws : no_lines ws -> output ws = concat (Verif.SpecSubstitute.texts ws).
Proof. induction 1 as [|w ws H _ IH]; [reflexivity|]. destruct w; [now elim H|]. unfold output in *. cbn [map concat write_text Verif.SpecSubstitute.texts flat_map app]. now rewrite IH. Qed.
Lemma copies_no_lines c n cs : c_line c = false -> no_lines (flat_map (print_copy c n) cs).
Proof. intros L. induction cs as [|t cs IH]; [constructor|]. cbn [flat_map]. apply Forall_app. split; [|exact IH]. unfold print_copy. rewrite L. repeat constructor. Qed.
Lemma line_no_lines c n sk e ws m sk' : c_line c = false -> substitute_line c n sk e = Ok (ws, m, sk') -> no_lines ws.
Proof.
  intros L. unfold substitute_line.
  assert (P : forall r, (forall w k, r = Ok (w, k) -> no_lines w) -> bind r (fun wn => Ok (fst wn, snd wn, sk)) = Ok (ws, m, sk') -> no_lines ws).
  { intros [[w k]| | |] H E; try discriminate E. cbn [bind fst snd] in E. injection E as <- _ _. eauto. }
  assert (A : forall lineno entry r w k, print_all c lineno entry r = Ok (w, k) -> no_lines w).
  { intros lineno entry [cs| | |] w k E; try discriminate E. cbn [print_all bind] in E. injection E as <- _. now apply copies_no_lines. }
  destruct (e_data e) as [|a d] eqn:D.
  - destruct sk; intros E; injection E as <- _ _; repeat constructor.
  - rewrite <- D. destruct (if e_kw e then check_skip_keyword (e_data e) (c_param c) else None) as [b|].
    + rewrite L, andb_false_r. intros E. injection E as <- _ _. constructor.
    + destruct sk; [intros E; injection E as <- _ _; constructor|]. cbv zeta. rewrite L. set (buf := if str_eqb _ _ then _ else _).
      destruct (e_kw e && has $"%%" buf); [|intros E; injection E as <- _ _; repeat constructor].
      destruct (find_keyword function_keywords buf), (find_keyword object_keywords buf), (find_keyword symbol_keywords buf); try discriminate;
      try (intros E; injection E as <- _ _; repeat constructor; fail).
      * destruct (c_funcs c) eqn:F; [intros E; injection E as <- _ _; constructor|]. apply P. intros w k. apply A.
      * destruct (c_objs c) eqn:F; [intros E; injection E as <- _ _; constructor|]. apply P. intros w k. apply A.
      * apply P. intros w k. apply A.
Qed.
Lemma entries_no_lines c : c_line c = false -> forall l n sk ws m sk', substitute_entries c n sk l = Ok (ws, m, sk') -> no_lines ws.
Proof.
  intros L. induction l as [|e l IH]; intros n sk ws m sk' E; [discriminate|]. cbn [substitute_entries] in E.
  destruct (Nat.eqb (e_count e) 0); [injection E as <- _ _; constructor|].
  destruct (substitute_line c n sk e) as [[[w k] s1]| | |] eqn:R; try discriminate E. cbn [bind] in E.
  destruct (substitute_entries c (n + e_count e) s1 l) as [[[w' k'] s2]| | |] eqn:R'; try discriminate E. cbn [bind] in E. injection E as <- _ _.
  apply Forall_app. split; [exact (line_no_lines _ _ _ _ _ _ _ L R)|exact (IH _ _ _ _ _ R')].
Qed.
Lemma templates_no_lines c : c_line c = false -> forall vec sk ws m, substitute_templates c sk vec = Ok (ws, m) -> no_lines ws.
Proof.
  intros L. induction vec as [|l vec IH]; intros sk ws m E; cbn [substitute_templates] in E; [injection E as <- _; constructor|].
  destruct (substitute_entries c 0 sk (template_start c l)) as [[[w k] s1]| | |] eqn:R; try discriminate E. cbn [bind] in E.
  destruct (substitute_templates c s1 vec) as [[w' k']| | |] eqn:R'; try discriminate E. cbn [bind fst snd] in E. injection E as <- _.
  apply Forall_app. split; [exact (entries_no_lines _ L _ _ _ _ _ _ R)|exact (IH _ _ _ R')].
Qed.
Lemma substitute_no_lines c vec ws m : c_line c = false -> substitute c vec = Ok (ws, m) -> no_lines ws.
Proof.
  intros L E. unfold substitute in E. destruct vec; [injection E as <- _; constructor|].
  destruct (c_funcs c), (c_objs c); try discriminate E; exact (templates_no_lines _ L _ _ _ _ E).
Qed.

Lemma plain_clean_all l : Forall plain_proto l -> Forall clean_proto l.
Proof. intros H. eapply Forall_impl; [|exact H]. intros p Hp. now apply plain_clean. Qed.

Lemma ordinary_runs e s f o defs : ordinary_run e s -> Forall plain_proto (f ++ o) -> f ++ o <> [] -> all_defines s f o = Ok defs ->
  exists hdr bdy n, runs e s f o (license_text (shipped TLicense)) (macros_text (config_of s [] []) (shipped TFilenameMacros)) defs hdr bdy n /\
    filled_in (config_of s f o) (header_templates s) (output hdr) /\ (separate s = true -> filled_in (config_of s f o) (body_templates s) (output bdy)).
Proof.
  intros (B & Pr & T & Tp & P) F N D. rewrite Forall_app in F. destruct F as [F O].
  destruct (shipped_runs e s f o defs B Pr T Tp P (plain_clean_all _ F) (plain_clean_all _ O) N D) as (hdr & bdy & n & R & H1 & H2).
  exists hdr, bdy, n. split; [exact R|]. split.
  - exists hdr, n. split; [|split; [reflexivity|]].
    + rewrite <- (r_hdr _ _ _ _ _ _ _ _ _ _ R). f_equal. apply map_ext. intros x. symmetry. apply B.
    + split; [exact H1|]. intros L. rewrite <- H1. apply no_lines_output. exact (substitute_no_lines _ _ _ _ L (r_hdr _ _ _ _ _ _ _ _ _ _ R)).
  - intros S. destruct (r_bdy _ _ _ _ _ _ _ _ _ _ R) as (k & Hk). exists bdy, k. split; [|split; [reflexivity|]].
    + rewrite <- (Hk S). f_equal. apply map_ext. intros x. symmetry. apply B.
    + split; [exact H2|]. intros L. rewrite <- H2. apply no_lines_output. exact (substitute_no_lines _ _ _ _ L (Hk S)).
Qed.

Lemma generates_single e s f o defs tdefs i fs out : ordinary_run e s -> Forall plain_proto (f ++ o) -> f ++ o <> [] -> all_defines s f o = Ok defs ->
  separate s = false -> to_stdout s = false -> o_output s <> [] -> creatable e s fs (o_output s) ->
  exists w' t, run e s f o tdefs i (started fs out) = (w', Ret tt) /\ w_fs w' (o_output s) = Some (Regular t) /\ header_of e s f o defs tdefs t /\
    same_except [o_output s] fs (w_fs w') /\ w_out w' = out.
Proof.
  intros H F N D S O E C. destruct (ordinary_runs _ _ _ _ _ H F N D) as (hdr & bdy & n & R & Fh & _).
  destruct (single_layout e s f o tdefs i fs out _ _ _ _ _ _ R S O E C) as (w' & R1 & R2 & R3 & R4).
  exists w'. eexists. split; [exact R1|]. split; [exact R2|]. split; [|split; assumption]. exists (output hdr). do 2 eexists. split; [exact Fh|reflexivity].
Qed.
Lemma generates_two e s f o defs tdefs i fs out : ordinary_run e s -> Forall plain_proto (f ++ o) -> f ++ o <> [] -> all_defines s f o = Ok defs ->
  separate s = true -> creatable e s fs (header_path s) -> creatable e s fs (body_path s) ->
  exists w' t t', run e s f o tdefs i (started fs out) = (w', Ret tt) /\
    w_fs w' (header_path s) = Some (Regular t) /\ header_of e s f o defs tdefs t /\
    w_fs w' (body_path s) = Some (Regular t') /\ body_of e s f o t' /\
    same_except [header_path s; body_path s] fs (w_fs w') /\ w_out w' = out.
Proof.
  intros H F N D S C C'. destruct (ordinary_runs _ _ _ _ _ H F N D) as (hdr & bdy & n & R & Fh & Fb). specialize (Fb S).
  destruct (separate_layout e s f o tdefs i fs out _ _ _ _ _ _ R S C C') as (w' & R1 & R2 & R2' & R3 & R4).
  exists w'. do 2 eexists. split; [exact R1|]. split; [exact R2|]. split; [exists (output hdr); do 2 eexists; split; [exact Fh|reflexivity]|].
  split; [exact R2'|]. split; [exists (output bdy); split; [exact Fb|reflexivity]|]. split; assumption.
Qed.
Lemma generates_stdout e s f o defs tdefs i fs out : ordinary_run e s -> Forall plain_proto (f ++ o) -> f ++ o <> [] -> all_defines s f o = Ok defs ->
  to_stdout s = true ->
  exists w' t, run e s f o tdefs i (started fs out) = (w', Ret tt) /\ w_fs w' = fs /\ w_out w' = out ++ t /\ header_of e s f o defs tdefs t.
Proof.
  intros H F N D S. destruct (ordinary_runs _ _ _ _ _ H F N D) as (hdr & bdy & n & R & Fh & _).
  destruct (stdout_layout e s f o tdefs i fs out _ _ _ _ _ _ R S) as (w' & R1 & R2 & R3).
  exists w'. eexists. split; [exact R1|]. split; [exact R2|]. split; [exact R3|]. exists (output hdr). do 2 eexists. split; [exact Fh|reflexivity].
Qed.

Lemma defines_exist s f o : (o_lib s = [] \/ exists x, format_libname (o_lib s) (m_pfx_upper (o_pfxs s)) = Ok x) -> exists defs, all_defines s f o = Ok defs.
Proof.
  intros H. unfold all_defines. destruct (prefix_defined (map p_symbol f) (map p_symbol o)) as (p & -> & _).
  assert (X : exists x, match o_lib s with [] => Ok [] | l => format_libname l (m_pfx_upper (o_pfxs s)) end = Ok x).
  { destruct H as [->|H]; [eauto|]. destruct (o_lib s); eauto. }
  destruct X as (x & X). rewrite X. cbn [bind]. eauto.
Qed.

(** the loader code is in the output *)
Lemma output_interleaved ws : interleaved (Verif.SpecSubstitute.texts ws) (output ws).
Proof.
  induction ws as [|w ws IH]; [constructor|]. unfold output, Verif.SpecSubstitute.texts in *. cbn [map concat flat_map]. destruct w; cbn [write_text app].
  - repeat rewrite <- app_assoc. constructor. exact IH.
  - constructor. exact IH.
Qed.
Definition in_text (s : settings) (f o : list proto) (t : str) : Prop :=
  exists A code filled B, t = A ++ filled ++ B /\ loader_code s f o code /\ interleaved code filled /\ (o_line s = false -> filled = concat code).
Lemma header_holds e s f o defs tdefs t : separate s = false -> header_of e s f o defs tdefs t -> in_text s f o t.
Proof.
  intros S (filled & n1 & n2 & (ws & m & _ & -> & T & F) & ->). unfold header_text, middle_text, in_text. set (X := macros_text _ _). clearbody X.
  set (c := filled_texts _ _) in *. assert (L : loader_code s f o c).
  { subst c. pose proof (shipped_loader s f o) as L. unfold loader_templates in L. now rewrite S in L. }
  assert (K : interleaved c (output ws)) by (rewrite <- T; apply output_interleaved).
  cbv zeta. set (a := if o_line s then directive n1 _ else []). set (b := if o_line s then directive n2 _ else []). clearbody a b.
  do 3 eexists. exists (b ++ bottom_text s). split; [|split; [exact L|split; [exact K|exact F]]]. rewrite ?app_assoc. reflexivity.
Qed.
Lemma body_holds e s f o t : separate s = true -> body_of e s f o t -> in_text s f o t.
Proof.
  intros S (filled & (ws & m & _ & -> & T & F) & ->). unfold body_text, in_text.
  set (c := filled_texts _ _) in *. assert (L : loader_code s f o c).
  { subst c. pose proof (shipped_loader s f o) as L. unfold loader_templates in L. now rewrite S in L. }
  assert (K : interleaved c (output ws)) by (rewrite <- T; apply output_interleaved).
  do 3 eexists. exists []. split; [|split; [exact L|split; [exact K|exact F]]]. rewrite app_nil_r, ?app_assoc. reflexivity.
Qed.

Lemma stdout_not_separate s : to_stdout s = true -> separate s = false.
Proof. intros H. unfold separate. rewrite H. cbn [negb]. now rewrite andb_false_r. Qed.

(** whatever was read, if it is plain the loader for it is written *)
Lemma program_writes e help argv stdin fs out g input text s y :
  parse_cmdline argv defaults = Ok (Done g) -> g_input g = Some input -> input_is e fs stdin input text -> o_template (g_set g) = [] ->
  read_input (g_set g) input text = Ok (s, y) -> Forall plain_proto (s_funcs y ++ s_objs y) -> s_funcs y ++ s_objs y <> [] ->
  ordinary_run e s -> (o_lib s = [] \/ exists x, format_libname (o_lib s) (m_pfx_upper (o_pfxs s)) = Ok x) -> can_write e s fs ->
  exists w', program e help argv stdin (started fs out) = (w', Ret tt) /\ holds_loader s out w' (s_funcs y) (s_objs y).
Proof.
  intros C I (In0 & In1) Tm Ri Pl Ne R Lib W.
  destruct (defines_exist s (s_funcs y) (s_objs y) Lib) as (defs & Df).
  assert (Pg : program e help argv stdin (started fs out) = run e s (s_funcs y) (s_objs y) (s_typedefs y) stdin (started fs out)).
  { unfold program, Generate.seq, lift. rewrite C, I. unfold tokenize, Generate.seq, lift. destruct input as [|c0 input0]; [now elim In0|]. set (input := c0 :: input0) in *.
    rewrite Tm. replace (str_eqb input $"-" && str_eqb [] $"-") with false by now rewrite andb_false_r.
    destruct In1 as [(E1 & E2)|(E1 & E2 & E3)].
    - rewrite E1 in *. cbn [str_eqb ret]. change (str_eqb $"-" $"-") with true. unfold ret. rewrite <- E2, Ri. reflexivity.
    - rewrite (proj2 (str_eqb_neq input $"-") E1). unfold read_file. rewrite E2. cbn [started w_fs]. rewrite E3, Ri. reflexivity. }
  unfold can_write in W. unfold holds_loader, written_to. rewrite Pg. destruct (to_stdout s) eqn:So.
  - pose proof (stdout_not_separate _ So) as Sp. destruct (generates_stdout e s _ _ _ (s_typedefs y) stdin fs out R Pl Ne Df So) as (w' & t & R1 & _ & R2 & R3).
    destruct (header_holds _ _ _ _ _ _ _ Sp R3) as (A & code & fl & B & -> & K). exists w'. split; [exact R1|]. exists A, code, fl, B. auto.
  - destruct (separate s) eqn:Sp.
    + destruct W as (W1 & W2). destruct (generates_two e s _ _ _ (s_typedefs y) stdin fs out R Pl Ne Df Sp W1 W2) as (w' & t & t' & R1 & _ & _ & R2 & R3 & _).
      destruct (body_holds _ _ _ _ _ Sp R3) as (A & code & fl & B & -> & K). exists w'. split; [exact R1|]. exists A, code, fl, B. auto.
    + destruct W as (W1 & W2). destruct (generates_single e s _ _ _ (s_typedefs y) stdin fs out R Pl Ne Df Sp So W1 W2) as (w' & t & R1 & R2 & R3 & _).
      destruct (header_holds _ _ _ _ _ _ _ Sp R3) as (A & code & fl & B & -> & K). exists w'. split; [exact R1|]. exists A, code, fl, B. auto.
Qed.
Lemma program_loads e help argv stdin fs out g input text ds :
  parse_cmdline argv defaults = Ok (Done g) -> g_input g = Some input -> input_is e fs stdin input text ->
  ordinary_run e (g_set g) -> (o_lib (g_set g) = [] \/ exists x, format_libname (o_lib (g_set g)) (m_pfx_upper (o_pfxs (g_set g))) = Ok x) -> can_write e (g_set g) fs ->
  header_with ds text -> NoDup (map decl_name ds) -> Forall (simple_decl (o_param (g_set g))) ds ->
  (forall n, In n (o_symbol_list (g_set g)) -> In n (declared_names ds)) ->
  asked_for (o_prefix_list (g_set g)) (o_symbol_list (g_set g)) (declared_names ds) <> [] ->
  exists w' f o, program e help argv stdin (started fs out) = (w', Ret tt) /\ holds_loader (g_set g) out w' f o /\
    map p_symbol f = asked_for (o_prefix_list (g_set g)) (o_symbol_list (g_set g)) (function_names ds) /\
    map p_symbol o = asked_for (o_prefix_list (g_set g)) (o_symbol_list (g_set g)) (object_names ds).
Proof.
  intros C I Ii R Lib W H U D Al So. set (s := g_set g) in *.
  destruct (read_simple s input text ds H U D Al So) as (y & vec & opts & T & Ri & Nf & No).
  assert (Pl : Forall plain_proto (s_funcs y ++ s_objs y) /\ s_funcs y ++ s_objs y <> [] /\ NoDup (map p_symbol (s_funcs y ++ s_objs y))).
  { apply (input_plain s input text s y vec opts T); [|exact Ri]. destruct R as (_ & _ & _ & _ & P). destruct (usable _ P) as (_ & X & _). intros p [<-|[<-|[]]]; exact X. }
  destruct Pl as (Pl & Ne & _). pose proof R as (_ & _ & Tm & _).
  destruct (program_writes e help argv stdin fs out g input text s y C I Ii Tm Ri Pl Ne R Lib W) as (w' & P1 & P2).
  exists w', (s_funcs y), (s_objs y). auto.
Qed.

(* ---- example *)

Lemma example_header :
  header_with [DFunction [$"int"] $"f" [$"int"; $"a"]; DObject [$"double"] $"d"] $"struct s { int a; }; /* two symbols */
extern int f(int a);
#define X 1
double d;
".
Proof.
  exists [PWord $"struct"; PGap $" "; PWord $"s"; PGap $" "; PBrace "{"; PGap $" "; PWord $"int"; PGap $" "; PWord $"a"; PSemi; PGap $" "; PBrace "}"; PSemi;
    PGap $" "; PComment $"/*" $" two symbols " $"*/"; PGap [nl]; PWord $"extern"; PGap $" "; PWord $"int"; PGap $" "; PWord $"f"; PPunct "(";
    PWord $"int"; PGap $" "; PWord $"a"; PPunct ")"; PSemi; PGap [nl]; PDirective [] $"define X 1"; PWord $"double"; PGap $" "; PWord $"d"; PSemi; PGap [nl]].
  exists [SBlock T_STRUCT [T_ID $"s"; T_CURLY_OPEN 1; T_ID $"int"; T_ID $"a"; T_SEMICOLON; T_CURLY_CLOSE 1]; SProto (T_ID $"int") [T_ID $"f"; T_OTHER $"("; T_ID $"int"; T_ID $"a"; T_OTHER $")"];
    SProto (T_ID $"double") [T_ID $"d"]].
  split; [|split; [|split; [|split; [|split]]]].
  - assert (W : forall w, forallb is_ident w && negb (str_eqb w []) && negb (str_eqb w $"TranslationUnitDecl") = true -> piece_ok (PWord w)).
    { intros w H. rewrite !andb_true_iff, !negb_true_iff in H. destruct H as ((H1 & H2) & H3). apply str_eqb_neq in H2, H3.
      split; [easy|]. split; [|easy]. apply Forall_forall. now apply forallb_forall. }
    assert (G : forall w, forallb isspace w && negb (str_eqb w []) = true -> piece_ok (PGap w)).
    { intros w H. rewrite !andb_true_iff, !negb_true_iff in H. destruct H as (H1 & H2). apply str_eqb_neq in H2.
      split; [easy|]. apply Forall_forall. now apply forallb_forall. }
    repeat (apply Forall_cons; [first [apply W; reflexivity|apply G; reflexivity|idtac]|]); try apply Forall_nil; try exact I;
      try (cbn; tauto).
    + split; [exists []; split; [now left|easy]|]. split; [exists []; split; [now left|easy]|].
      intros a c b E (x & Hx & ->). cbn [app lit list_ascii_of_string] in E. do 13 (destruct a as [|? a]; [discriminate E|cbn [app] in E; injection E as _ E]). cbn; lia.
    + split; [repeat constructor|]. split.
      * split; [cbn; intro H; repeat destruct H as [H|H]; easy|].
        intros a b E. exfalso. assert (X : In bslash $"define X 1") by (rewrite E; apply in_app_iff; right; now left).
        cbn in X. repeat destruct X as [X|X]; easy.
      * intros a w b E. split; intros (x & _ & ->);
        (assert (X : In "/"%char $"define X 1") by (rewrite E; apply in_app_iff; right; now left);
         cbn in X; repeat destruct X as [X|X]; easy).
  - vm_compute. repeat split.
  - reflexivity.
  - reflexivity.
  - repeat apply Forall_cons; [..|apply Forall_nil].
    + split; [easy|]. split; [easy|]. split; [|cbn; lia].
      intros a b E. do 7 (destruct a as [|? a]; [cbn in E; try discriminate E; injection E; intros; subst; cbn; lia|]; cbn [app] in E;
        try discriminate E; injection E as <- E).
    + split; [easy|]. repeat constructor; discriminate.
    + split; [easy|]. repeat constructor; discriminate.
  - reflexivity.
Qed.

(** Proofs for C104: every recorded symbol is a whole word of the input. *)
From Coq Require Import Ascii String List Bool Arith NArith ZArith Lia.
From Verif Require Import Str StrFacts Regex RegexFacts CheckPattern Parse ParamNames Format Prefix Lex LexFacts Tokenize SpecParse SpecLex SpecTokenize SpecTables SpecFormat SpecPrefix SpecSubstitute
  ParseFacts ParseFacts2 ParamFacts ParamFacts2 ParseProps SelectFacts TypedefFacts FormatFacts FormatProps LexProps TokenizeFacts SpecTemplates Options Generate ClangAst Frontend SpecNames.
Import ListNotations.

Lemma ends_app a b : b <> [] -> ends_in_word (a ++ b) = ends_in_word b.
Proof. intro N. unfold ends_in_word. rewrite rev_app_distr. destruct (rev b) as [|x l] eqn:E; [|reflexivity]. apply (f_equal (@rev ascii)) in E. rewrite rev_involutive in E. now elim N. Qed.
Lemma ends_last a x : ends_in_word (a ++ [x]) = is_ident x.
Proof. now rewrite ends_app by discriminate. Qed.
Lemma space_break c : isspace c = true -> is_ident c = false.
Proof. destruct c as [[] [] [] [] [] [] [] []]; vm_compute; congruence. Qed.
Lemma other_break c : is_other c = true -> is_ident c = false.
Proof. destruct c as [[] [] [] [] [] [] [] []]; vm_compute; congruence. Qed.
Lemma cat_last a b x t : matches (Cat a (Cat b (chr x))) t -> ends_in_word t = is_ident x.
Proof.
  intro M. apply inv_cat in M as (u & v & -> & _ & M). apply inv_cat in M as (v1 & v2 & -> & _ & M). apply inv_cls in M as (y & -> & E). apply Ascii.eqb_eq in E. subst y.
  rewrite app_assoc. apply ends_last.
Qed.
Lemma chr_last x t : matches (chr x) t -> ends_in_word t = is_ident x.
Proof. intro M. apply inv_cls in M as (y & -> & E). apply Ascii.eqb_eq in E. subst y. reflexivity. Qed.
Lemma ident_rule b : In (mkrule INITIAL false identifier_re TokId) (filter (active INITIAL b) rules).
Proof. apply filter_In. split; [unfold rules; cbn [In]; tauto|reflexivity]. Qed.
(** a match never ends inside a word *)
Lemma longest_word b n s rs : filter (active INITIAL b) rules = rs -> n < length s \/ n = length s -> ident_word (firstn n s) ->
  (forall r' m, In r' rs -> n < m <= length s -> ~ matches (r_re r') (firstn m s)) -> begins_in_word (skipn n s) = false.
Proof.
  intros E L (W1 & W2) M. destruct (skipn n s) as [|y t] eqn:K; [reflexivity|]. cbn [begins_in_word]. destruct (is_ident y) eqn:Y; [|reflexivity]. exfalso.
  assert (Ln : n < length s) by (destruct L as [L|L]; [exact L|]; rewrite skipn_all2 in K by lia; discriminate).
  apply (M (mkrule INITIAL false identifier_re TokId) (S n)); [rewrite <- E; apply ident_rule|lia|]. cbn [r_re]. unfold identifier_re. apply plus_cls.
  assert (F : firstn (S n) s = firstn n s ++ [y]).
  { rewrite <- (firstn_skipn n s) at 1. rewrite K. rewrite firstn_app, firstn_firstn, firstn_length. replace (Nat.min (S n) n) with n by lia. replace (S n - Nat.min n (length s)) with 1 by lia. reflexivity. }
  rewrite F. split; [destruct (firstn n s); discriminate|]. apply Forall_app. split; [exact W2|]. constructor; [exact Y|constructor].
Qed.
Lemma cond_same k k' : cond_eqb k k' = true -> k = k'.
Proof. destruct k, k'; (reflexivity || discriminate). Qed.

Definition token_word (t : token) : option str := match t with T_ID x | T_OTHER x => Some x | T_STRUCT | T_UNION | T_ENUM | T_TYPEDEF => Some (kw_text t) | _ => None end.

Lemma step_word st c s : let x := lex_step st (c :: s) in is_error (s_tok x) = false ->
  (l_cond (s_state x) = INITIAL -> ends_in_word (s_text x) && begins_in_word (s_rest x) = false) /\
  (forall t w, s_tok x = Some t -> token_word t = Some w -> ident_word w -> l_cond st = INITIAL /\ w = s_text x /\ begins_in_word (s_rest x) = false).
Proof.
  unfold lex_step. destruct (pick_spec (l_cond st) (l_bol st) c s) as (n & a & rs1 & r & rs2 & -> & _ & Ln & Er & Ea & Mr & Mx & _).
  cbn zeta. cbn [s_tok s_text s_rest s_state l_cond]. set (line := (_ + _)%N). clearbody line. set (t := firstn n (c :: s)) in *. intro Ne.
  assert (I : In r (filter (active (l_cond st) (l_bol st)) rules)) by (rewrite Er; apply in_or_app; right; now left).
  apply filter_In in I as (I & Ac). apply andb_prop in Ac as (Ac & _). apply cond_same in Ac.
  assert (Lw : l_cond st = INITIAL -> ident_word t -> begins_in_word (skipn n (c :: s)) = false).
  { intros C W. rewrite C in Er. apply (longest_word (l_bol st) n (c :: s) _ Er); [lia|exact W|exact Mx]. }
  clear Er Mx. clearbody t. unfold rules in I. cbn [In] in I.
  assert (Kw : forall y, ident_word y -> t = y -> l_cond st = INITIAL -> ends_in_word t && begins_in_word (skipn n (c :: s)) = false).
  { intros y Y -> C. rewrite (Lw C Y). apply andb_false_r. }
  assert (Lb : forall b, ends_in_word t = false -> ends_in_word t && b = false) by (intros b ->; reflexivity).
  repeat (destruct I as [<-|I]; [cbn [r_act r_cond r_re] in *; subst a; symmetry in Ac; cbn [act_token act_cond] in *; rewrite ?Ac in *; split;
    [intro C; try discriminate C|intros t0 w Et Ew W; try discriminate Et; try (injection Et as <-; discriminate Ew)]|]); [..|destruct I].
  all: try (destruct (line =? 1)%N; discriminate).
  all: try (apply Lb; first [apply (cat_last _ _ _ _ Mr)|apply (chr_last _ _ Mr)|apply word_spec in Mr; rewrite Mr; reflexivity]).
  all: try (apply word_spec in Mr; eapply Kw; [|exact Mr|reflexivity]; split; [discriminate|repeat constructor]).
  all: try (injection Et as <-; injection Ew as <-; split; [reflexivity|]; split; [now apply word_spec in Mr|apply Lw; [reflexivity|]; apply word_spec in Mr; rewrite Mr; exact W]).
  all: try (injection Et as <-; injection Ew as <-; split; [reflexivity|]; split; [reflexivity|apply Lw; [reflexivity|exact W]]).
  all: try (apply plus_cls in Mr; rewrite Lw; [apply andb_false_r|reflexivity|exact Mr]).
  all: try (apply inv_cls in Mr as (y & -> & Y); apply Lb; unfold ends_in_word; cbn [rev app]; first [now apply space_break|now apply other_break]).
  destruct (line =? 1)%N; injection Et as <-; discriminate Ew.
Qed.

#[local] Opaque rules lex_step.
Lemma ident_begins w : ident_word w -> begins_in_word w = true.
Proof. intros (N & W). destruct w; [now elim N|]. now inversion W. Qed.
Lemma run_words n : forall st pre s, length s <= n -> (l_cond st = INITIAL -> ends_in_word pre && begins_in_word s = false) ->
  forall t w, In t (tokens_of (lex_run st s)) -> token_word t = Some w -> ident_word w -> whole_word (pre ++ s) w.
Proof.
  induction n as [|n IH]; intros st pre s Hn Hb t w It Ew W; destruct s as [|c s]; try (cbn in Hn; lia); try (rewrite lex_run_nil in It; destruct It).
  rewrite lex_run_cons in It. cbn zeta in It. pose proof (step_word st c s) as Hg. cbn zeta in Hg.
  destruct (lex_step_progress st c s) as (Nt & Et & _ & Hl). set (x := lex_step st (c :: s)) in *. clearbody x.
  destruct (is_error (s_tok x)) eqn:Er.
  { cbn [tokens_of] in It. destruct (s_tok x) as [[]|]; try discriminate Er. destruct It as [<-|[]]. discriminate Ew. }
  destruct (Hg eq_refl) as (G1 & G2).
  assert (Hr : In t (tokens_of (lex_run (s_state x) (s_rest x))) -> whole_word (pre ++ c :: s) w).
  { intro I. rewrite <- Et, app_assoc. apply (IH (s_state x) (pre ++ s_text x) (s_rest x)) with (t := t); auto; [cbn [length] in *; lia|]. intro C. rewrite ends_app by exact Nt. now apply G1. }
  cbn [tokens_of] in It. destruct (s_tok x) as [t'|] eqn:Ex; [|now apply Hr]. destruct It as [<-|It]; [|now apply Hr].
  destruct (G2 t' w eq_refl Ew W) as (C & -> & B). split; [exact W|]. exists pre, (s_rest x). rewrite Et. split; [reflexivity|]. split; [|exact B].
  specialize (Hb C). rewrite <- Et in Hb. assert (Bw : begins_in_word (s_text x ++ s_rest x) = true) by (pose proof (ident_begins _ W) as Q; destruct (s_text x); [discriminate Q|exact Q]).
  rewrite Bw, andb_true_r in Hb. exact Hb.
Qed.
Lemma ts_words (P : str -> Prop) ro : forall ts s vec opts, (forall t w, In t ts -> token_word t = Some w -> P w) -> Forall (Forall P) (ts_vec s) -> Forall P (ts_tokens s) ->
  ts_loop ro s ts = TS_eof vec opts -> Forall (Forall P) vec.
Proof.
  assert (Hfin : forall s vec opts, Forall (Forall P) (ts_vec s) -> Forall P (ts_tokens s) ->
    ts_finish s = TS_eof vec opts -> Forall (Forall P) vec).
  { intros s vec opts H1 H2 E. unfold ts_finish in E. injection E as <- <-. apply Forall_app. split; [easy|].
    destruct (ts_tokens s); [constructor|]. constructor; [easy|constructor]. }
  induction ts as [|t ts IH]; intros s vec opts Ht H1 H2 E; cbn [ts_loop] in E; [eauto|].
  assert (Hg : forall w, token_word t = Some w -> P w) by (intros w; apply Ht; now left). assert (Ht' : forall t w, In t ts -> token_word t = Some w -> P w) by (intros t' w I; apply Ht; now right).
  destruct s as [v o tk b cu]. cbn [ts_vec ts_tokens] in *.
  destruct (ts_step ro (mkts v o tk b cu) t ts) as [s'|r] eqn:F.
  - apply (IH s' vec opts Ht'); [| |exact E]; cbn [ts_step] in F; destruct b, t; try discriminate F;
      try (destruct (cu <? 1)%Z); try (destruct tk); try discriminate F; injection F as <-; cbn [ts_vec ts_tokens kw_text token_word] in *; auto;
      try (apply Forall_app; split; [easy|]); try (constructor; [auto|constructor]);
      (rewrite app_comm_cons; apply Forall_app; split; [exact H2|]; constructor; [auto|constructor]).
  - cbn [ts_step] in F. destruct b, t; try discriminate F; try (destruct (cu <? 1)%Z); try (destruct tk); try discriminate F;
      injection F as <-; try discriminate E; eapply Hfin; try exact E; easy.
Qed.
Lemma name_written d : In (decl_name d) (written d).
Proof. destruct d; cbn [decl_name written]; rewrite ?in_app_iff; cbn [In]; tauto. Qed.
Lemma input_names s input text s' y vec opts : tokenize_stream (o_read_options s) (lex_all text) = TS_eof vec opts -> read_input s input text = Ok (s', y) ->
  Forall (fun p => whole_word text (p_symbol p)) (s_funcs y ++ s_objs y).
Proof.
  intros T R. unfold read_input in R. rewrite T in R. destruct (if o_read_options s then parse_options opts s else Ok s) as [s1| | |] eqn:O; try discriminate R. cbn [bind] in R.
  remember (map remove_superfluous_parentheses vec) as v. destruct (gdo_parse (o_param s1) (o_prefix_list s1) (o_symbol_list s1) (input_name input) v) as [t| | |] eqn:G; try discriminate R. cbn [bind] in R.
  pose proof (stream_lexemes _ _ _ _ T) as L0.
  assert (L : Forall (Forall lexeme) v) by (subst v; apply Forall_map; eapply Forall_impl; [|exact L0]; exact cleaned_lexemes).
  assert (Wv : Forall (Forall (fun w => ident_word w -> whole_word text w)) vec).
  { apply (ts_words _ (o_read_options s) (lex_all text) ts_init vec opts); [|constructor|constructor|exact T]. intros t0 w I E W. apply (run_words (length text) lex_init [] text (le_n _)) with (t := t0); auto. }
  assert (W' : Forall (Forall (fun w => ident_word w -> whole_word text w)) v).
  { subst v. apply Forall_map. rewrite Forall_forall in *. intros u I. eapply subseq_Forall; [|exact (Wv u I)]. apply unwraps_facts, remove_superfluous_unwraps. eapply Forall_impl; [|exact (L0 u I)]. apply lexeme_paren. }
  destruct (finish_tables (m_pfx_lower (o_pfxs s1)) t) as [y0| | |] eqn:F; try discriminate R. cbn [bind] in R. injection R as <- <-.
  pose proof (gdo_parse_spec (o_param s1) (o_prefix_list s1) (o_symbol_list s1) (input_name input) v L) as S. rewrite G in S. destruct S as (ds & ps & _ & Hok & Hw & _ & Hr & _ & _ & Et).
  assert (P : Forall (fun p => whole_word text (p_symbol p)) ps).
  { clear - Hok Hw Hr W'. subst v. rewrite Forall_map in W'. induction Hr as [|d p ds ps R Hr IH]; [constructor|]. inversion Hok as [|? ? K1 K2]; inversion W' as [|? ? K3 K4]; subst. constructor; [|auto].
    destruct R as (_ & -> & _). destruct K1 as (_ & N). rewrite Forall_forall in K3. apply K3; [apply name_written|exact N]. }
  assert (Pt : Forall (fun p => whole_word text (p_symbol p)) (t_funcs t ++ t_objs t)).
  { subst t. apply Forall_forall. intros p Hp. apply (proj1 (tables_In _ _)) in Hp. apply selected_in in Hp. rewrite Forall_forall in P. auto. }
  destruct (typedefs_of_input _ _ _ _ _ _ (m_pfx_lower (o_pfxs s1)) L G) as (ds1 & y1 & _ & _ & F' & F1 & F2 & _). rewrite F in F'. injection F' as <-.
  assert (Q : forall a b, Forall2 formatted_proto a b -> map p_symbol b = map p_symbol a).
  { clear. induction 1 as [|p q a b H H2 IH]; [reflexivity|]. cbn [map]. rewrite IH. destruct H as (_ & _ & _ & -> & _). reflexivity. }
  assert (M : map p_symbol (s_funcs y0 ++ s_objs y0) = map p_symbol (t_funcs t ++ t_objs t)).
  { rewrite !map_app, (Q _ _ F1), (Q _ _ F2), map_map. f_equal. apply map_ext. intros p. unfold with_typedef. now destruct (p_kind p). }
  rewrite <- (Forall_map p_symbol (whole_word text)) in Pt |- *. now rewrite M.
Qed.
Lemma names_identifiers s input text s' y vec opts : tokenize_stream (o_read_options s) (lex_all text) = TS_eof vec opts -> read_input s input text = Ok (s', y) ->
  (forall n, whole_word text n -> isdigit (str_front n) = false) -> Forall (fun p => c_identifier (p_symbol p)) (s_funcs y ++ s_objs y).
Proof. intros T R D. eapply Forall_impl; [|exact (input_names s input text s' y vec opts T R)]. intros p W. split; [exact (proj1 W)|now apply D]. Qed.
Lemma number_recorded : exists vec opts s' y p, let text := $"int 3(void);" in tokenize_stream (o_read_options defaults) (lex_all text) = TS_eof vec opts /\ read_input defaults $"a.h" text = Ok (s', y) /\
  In p (s_funcs y ++ s_objs y) /\ ~ c_identifier (p_symbol p).
Proof.
  cbv zeta. do 4 eexists. exists (mkproto KFunction $"int" $"3" $"void" [[$"void"]] []). split; [vm_compute; reflexivity|]. split; [vm_compute; reflexivity|]. split; [left; reflexivity|]. intros (_ & D). discriminate D.
Qed.

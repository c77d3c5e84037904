(** From the scanner's tokens to statements of lexemes; the facts behind C01-C06 and C49. *)
From Coq Require Import Ascii String List Bool Arith NArith ZArith Lia.
From Verif Require Import Str StrFacts Regex RegexFacts Lex LexFacts SpecLex LexComments LexWords LexJoin
  Tokenize SpecTokenize TokenizeFacts SpecParse Parse.
Import ListNotations.
#[local] Opaque rules.

(** text of ordinary tokens *)
Definition good_token (t : token) : Prop := match t with T_ID x | T_OTHER x => lexeme x | _ => True end.

Lemma tok_rules_check : forallb (fun r => match r_act r with TokId | TokOther => true | _ => false end) rules = false.
Proof. reflexivity. Qed.

Transparent rules.
Lemma id_rules : forall r, In r rules -> r_act r = TokId -> r_re r = identifier_re.
Proof. intros r H E. unfold rules in H. cbn [In] in H. repeat destruct H as [<-|H]; try discriminate E; try easy. Qed.
Lemma other_rules : forall r, In r rules -> r_act r = TokOther -> r_re r = other_re \/ r_re r = word $"...".
Proof. intros r H E. unfold rules in H. cbn [In] in H. repeat destruct H as [<-|H]; try discriminate E; auto; easy. Qed.
#[local] Opaque rules.

Lemma step_good st c s t : s_tok (lex_step st (c :: s)) = Some t -> good_token t.
Proof.
  unfold lex_step. destruct (pick (l_cond st) (l_bol st) (c :: s)) as [k a] eqn:Ek. cbn [s_tok].
  destruct (pick_spec (l_cond st) (l_bol st) c s) as (k' & a' & rs1 & r & rs2 & Hp & _ & _ & Hr & Ha & Hm & _).
  rewrite Ek in Hp. injection Hp as <- <-.
  assert (Hin : In r rules).
  { assert (X : In r (filter (active (l_cond st) (l_bol st)) rules)) by (rewrite Hr; apply in_app_iff; right; now left).
    now apply filter_In in X as [X _]. }
  intro E. destruct a; cbn [act_token] in E; try discriminate; try (injection E as <-; exact I).
  - destruct (_ =? 1)%N; injection E as <-; exact I.
  - injection E as <-. cbn [good_token]. rewrite (id_rules r Hin Ha) in Hm. apply plus_cls in Hm as [Hm1 Hm2].
    left. split; [easy|]. exact Hm2.
  - injection E as <-. cbn [good_token]. right. destruct (other_rules r Hin Ha) as [F|F]; rewrite F in Hm.
    + apply inv_cls in Hm as (d & -> & Hd). unfold is_other in Hd. rewrite !orb_true_iff, !Ascii.eqb_eq in Hd.
      unfold punct. cbn [In]. destruct Hd as [[[[[->| ->]| ->]| ->]| ->]| ->]; tauto.
    + apply word_spec in Hm as ->. unfold punct. cbn [In]. tauto.
Qed.

Lemma run_good n : forall st s, length s <= n -> Forall good_token (tokens_of (lex_run st s)).
Proof.
  induction n as [|n IH]; intros st s Hn; destruct s as [|c s]; try (cbn in Hn; lia); try (rewrite lex_run_nil; constructor).
  rewrite lex_run_cons. cbn zeta. pose proof (step_good st c s) as Hg.
  destruct (lex_step_progress st c s) as (_ & _ & _ & Hl). set (x := lex_step st (c :: s)) in *.
  assert (Hr : Forall good_token (tokens_of (lex_run (s_state x) (s_rest x)))) by (apply IH; cbn [length] in *; lia).
  destruct (is_error (s_tok x)); cbn [tokens_of]; destruct (s_tok x) as [t|]; auto.
Qed.

Lemma ts_lexemes ro : forall ts s vec opts, Forall good_token ts -> Forall (Forall lexeme) (ts_vec s) -> Forall lexeme (ts_tokens s) ->
  ts_loop ro s ts = TS_eof vec opts -> Forall (Forall lexeme) vec.
Proof.
  assert (Hfin : forall s vec opts, Forall (Forall lexeme) (ts_vec s) -> Forall lexeme (ts_tokens s) ->
    ts_finish s = TS_eof vec opts -> Forall (Forall lexeme) vec).
  { intros s vec opts H1 H2 E. unfold ts_finish in E. injection E as <- <-. apply Forall_app. split; [easy|].
    destruct (ts_tokens s); [constructor|]. constructor; [easy|constructor]. }
  assert (Hkw : lexeme $"struct" /\ lexeme $"union" /\ lexeme $"enum" /\ lexeme $"typedef").
  { repeat split; left; (split; [discriminate|repeat constructor]). }
  induction ts as [|t ts IH]; intros s vec opts Ht H1 H2 E; cbn [ts_loop] in E; [eauto|].
  inversion Ht as [|? ? Hg Ht']; subst. destruct s as [v o tk b cu]. cbn [ts_vec ts_tokens] in *.
  destruct (ts_step ro (mkts v o tk b cu) t ts) as [s'|r] eqn:F.
  - apply (IH s' vec opts Ht'); [| |exact E]; cbn [ts_step] in F; destruct b, t; try discriminate F;
      try (destruct (cu <? 1)%Z); try (destruct tk); try discriminate F; injection F as <-; cbn [ts_vec ts_tokens kw_text good_token] in *; auto;
      try (apply Forall_app; split; [easy|]); try (constructor; [tauto|constructor]);
      (rewrite app_comm_cons; apply Forall_app; split; [exact H2|]; constructor; [tauto|constructor]).
  - cbn [ts_step] in F. destruct b, t; try discriminate F; try (destruct (cu <? 1)%Z); try (destruct tk); try discriminate F;
      injection F as <-; try discriminate E; eapply Hfin; try exact E; easy.
Qed.

Lemma stream_lexemes ro s vec opts : tokenize_stream ro (lex_all s) = TS_eof vec opts -> Forall (Forall lexeme) vec.
Proof.
  apply ts_lexemes; [|constructor|constructor]. unfold lex_all. eapply run_good. reflexivity.
Qed.

Lemma lexeme_paren x : lexeme x -> paren_token x.
Proof.
  intros [[H1 H2]|H].
  - destruct x as [|c x]; [easy|]. inversion H2 as [|? ? Hc]; subst. unfold paren_token. cbn [str_front].
    split; intros ->; vm_compute in Hc; discriminate.
  - unfold punct in H. cbn [In] in H. unfold paren_token. repeat destruct H as [<-|H]; try easy; split; cbn; easy.
Qed.
Lemma subseq_Forall {A} (P : A -> Prop) l l' : subseq l l' -> Forall P l' -> Forall P l.
Proof. intro H. induction H; intro HF; auto; inversion HF; subst; auto. Qed.
Lemma cleaned_lexemes v : Forall lexeme v -> Forall lexeme (remove_superfluous_parentheses v).
Proof.
  intro H. eapply subseq_Forall; [|exact H]. apply unwraps_facts, remove_superfluous_unwraps.
  eapply Forall_impl; [|exact H]. apply lexeme_paren.
Qed.

(* ---------------------------------------------------------------- for the property file *)

Lemma scan_covers s : exists rest, s = concat (map s_text (lex_run lex_init s)) ++ rest /\
  (run_failed (lex_run lex_init s) = false -> rest = []) /\
  Forall (fun x => s_text x <> [] /\ s_act x <> Echo) (lex_run lex_init s).
Proof. destruct (lex_run_covers (length s) lex_init s (le_n _)) as ((rest & H1 & H2) & H3). eauto. Qed.

Lemma illegal_fails ro ps c s : Forall piece_ok ps -> well_placed true ps -> can_begin true c = false ->
  exists m, tokenize_stream ro (lex_all (text_of ps ++ c :: s)) = TS_error m.
Proof.
  intros H1 H2 H3. rewrite lex_pieces_illegal by auto. unfold tokenize_stream.
  apply error_fails with (m := illegal_char_msg c (1 + line_ends (text_of ps))); [|apply in_app_iff; right; now left].
  apply Forall_app. split; [|repeat constructor]. clear. generalize 1%N. induction ps as [|p ps IH]; intro n; cbn [pieces_tokens]; [constructor|].
  apply Forall_app. split; [|apply IH]. destruct p; cbn [piece_token]; repeat (destruct (str_eqb _ _)); repeat constructor.
  destruct (Ascii.eqb c "{"); [easy|]. now destruct (Ascii.eqb c "}").
Qed.
Lemma scan_error_fails ro s m : In (T_ERROR m) (lex_all s) -> ~ In T_AST_BEGIN (lex_all s) ->
  exists m', tokenize_stream ro (lex_all s) = TS_error m'.
Proof.
  intros H1 H2. apply error_fails with (m := m); [|exact H1].
  assert (H := ast_free (length s) lex_init s (le_n _) ltac:(discriminate) H2). fold (lex_all s) in H.
  apply Forall_forall. intros t Ht. rewrite forallb_forall in H. specialize (H t Ht). now destruct t.
Qed.

Lemma blank_continuation_swallows :
  lex_all ($"#define A \" ++ [nl; nl] ++ $"int f(void);" ++ [nl]) = [] /\
  lex_all ($"int f(void);" ++ [nl]) <> [].
Proof. split; vm_compute; [reflexivity|discriminate]. Qed.

(** [((a) b) ((c))] *)
Definition unbalancing : list str :=
  [$"("; $"("; $"a"; $")"; $"b"; $")"; $"("; $"("; $"c"; $")"; $")"].
Lemma unbalanced_by_cleanup : paren_balanced unbalancing = true /\ paren_balanced (remove_superfluous_parentheses unbalancing) = false.
Proof. split; vm_compute; reflexivity. Qed.

(** [void f(int ((a)[3]), int ((c)));] *)
Definition broken_by_cleanup : list str :=
  [$"void"; $"f"; $"("; $"int"; $"("; $"("; $"a"; $")"; $"["; $"3"; $"]"; $")"; $","; $"int"; $"("; $"("; $"c"; $")"; $")"; $")"].
Lemma cleanup_breaks : (exists p, check_prototype broken_by_cleanup = Ok (Some p) /\ length (p_args_vec p) = 2) /\
  (exists p, check_prototype (remove_superfluous_parentheses broken_by_cleanup) = Ok (Some p) /\ length (p_args_vec p) = 1).
Proof. split; (eexists; split; [vm_compute; reflexivity|reflexivity]). Qed.

Lemma lexemes_b v : forallb (fun t => forallb is_ident t && negb (str_eqb t []) ||
    existsb (str_eqb t) [$"*"; $","; $"("; $")"; $"["; $"]"; $"..."]) v = true -> Forall lexeme v.
Proof.
  intro H. apply Forall_forall. intros x Hx. rewrite forallb_forall in H. specialize (H x Hx).
  apply orb_true_iff in H as [H|H].
  - apply andb_true_iff in H as [H1 H2]. left. split; [now destruct x|]. apply Forall_forall. now apply forallb_forall.
  - right. apply existsb_exists in H as (y & Hy & E). apply str_eqb_eq in E. now subst.
Qed.
Lemma cleanup_facts v : Forall paren_token v ->
  let v' := remove_superfluous_parentheses v in
  unwraps v v' /\ subseq v' v /\
  filter (fun x => negb (is_paren x)) v' = filter (fun x => negb (is_paren x)) v /\
  count lparen v + count rparen v' = count lparen v' + count rparen v /\
  (In lparen v -> In lparen v') /\ (In rparen v -> In rparen v').
Proof. intros H v'. assert (U := remove_superfluous_unwraps v H). fold v' in U. split; [easy|]. now apply unwraps_facts. Qed.
Lemma cleanup_ends n v : length v <= n -> remove_matching n v = remove_matching (length v) v.
Proof. intro H. apply remove_matching_fuel; lia. Qed.
Lemma cleanup_unbalances : exists v, Forall lexeme v /\
  paren_balanced v = true /\ paren_balanced (remove_superfluous_parentheses v) = false.
Proof. exists unbalancing. split; [apply lexemes_b; reflexivity|apply unbalanced_by_cleanup]. Qed.
Lemma cleanup_loses_parameter : exists v p q, Forall lexeme v /\
  check_prototype v = Ok (Some p) /\ check_prototype (remove_superfluous_parentheses v) = Ok (Some q) /\
  length (p_args_vec p) = 2 /\ length (p_args_vec q) = 1.
Proof.
  destruct cleanup_breaks as ((p & H1 & H2) & (q & H3 & H4)). exists broken_by_cleanup, p, q.
  split; [apply lexemes_b; reflexivity|]. repeat split; assumption.
Qed.
Lemma options_collected ro ts : forallb (fun t => negb (ast_token t)) ts = true ->
  tokenize_stream ro ts =
  add_options (if ro then option_texts ts else []) (tokenize_stream ro (filter (fun t => negb (is_option t)) ts)).
Proof.
  intro H. rewrite forallb_forall in H. apply options_transparent.
  - apply Forall_forall. intros t Ht ->. now specialize (H _ Ht).
  - intros t Ht. specialize (H _ Ht). now destruct t.
Qed.
Lemma blank_swallows : exists body blank decl,
  one_line body /\ no_comment body /\ blank = [nl] /\
  lex_all ($"#" ++ body ++ [bslash; nl] ++ blank ++ decl) = [] /\ lex_all decl <> [].
Proof.
  exists $"define", [nl], ($"int f(void);" ++ [nl]). split; [|split; [|split; [easy|]]].
  - split.
    + cbn. intro H. repeat destruct H as [H|H]; easy.
    + intros a b E. exfalso. assert (X : In bslash $"define") by (rewrite E; apply in_app_iff; right; now left).
      cbn in X. repeat destruct X as [X|X]; easy.
  - intros a w b E. split; intros (x & _ & ->);
      (assert (X : In "/"%char $"define") by (rewrite E; apply in_app_iff; right; now left);
       cbn in X; repeat destruct X as [X|X]; easy).
  - split; vm_compute; [reflexivity|discriminate].
Qed.

Lemma words_example :
  let ps := [PWord $"extern"; PGap $" "; PWord $"int"; PComment $"/*" $" c " $"*/"; PWord $"f"; PPunct "("; PWord $"int"; PPunct ",";
             PDots; PPunct ")"; PSemi; PGap [nl]; PDirective $" " $"define X"; PWord $"struct"] in
  Forall piece_ok ps /\ well_placed true ps /\
  pieces_tokens 1 ps = [T_ID $"int"; T_ID $"f"; T_OTHER $"("; T_ID $"int"; T_OTHER $","; T_OTHER $"..."; T_OTHER $")"; T_SEMICOLON; T_STRUCT].
Proof.
  cbv zeta. split; [|split; [cbn; tauto|reflexivity]].
  assert (W : forall w, forallb is_ident w && negb (str_eqb w []) && negb (str_eqb w $"TranslationUnitDecl") = true -> piece_ok (PWord w)).
  { intros w H. rewrite !andb_true_iff, !negb_true_iff in H. destruct H as ((H1 & H2) & H3). apply str_eqb_neq in H2, H3.
    split; [easy|]. split; [|easy]. apply Forall_forall. now apply forallb_forall. }
  assert (G : forall w, forallb isspace w && negb (str_eqb w []) = true -> piece_ok (PGap w)).
  { intros w H. rewrite !andb_true_iff, !negb_true_iff in H. destruct H as (H1 & H2). apply str_eqb_neq in H2.
    split; [easy|]. apply Forall_forall. now apply forallb_forall. }
  repeat (apply Forall_cons; [first [apply W; reflexivity|apply G; reflexivity|idtac]|]); try apply Forall_nil; try exact I;
    try (cbn; tauto).
  - split; [exists []; split; [now left|easy]|]. split; [exists []; split; [now left|easy]|].
    intros a c b E (x & Hx & ->). destruct a as [|a0 [|a1 [|a2 a]]]; cbn in E; try discriminate; cbn; lia.
  - split; [repeat constructor|]. split.
    + split; [cbn; intro H; repeat destruct H as [H|H]; easy|].
      intros a b E. exfalso. assert (X : In bslash $"define X") by (rewrite E; apply in_app_iff; right; now left).
      cbn in X. repeat destruct X as [X|X]; easy.
    + intros a w b E. split; intros (x & _ & ->);
      (assert (X : In "/"%char $"define X") by (rewrite E; apply in_app_iff; right; now left);
       cbn in X; repeat destruct X as [X|X]; easy).
Qed.
Lemma block_example :
  let s := SBlock T_STRUCT [T_ID $"a"; T_CURLY_OPEN 1; T_ID $"int"; T_ID $"x"; T_SEMICOLON; T_STRUCT; T_CURLY_OPEN 1; T_ID $"y"; T_SEMICOLON;
    T_CURLY_CLOSE 1; T_SEMICOLON; T_CURLY_CLOSE 1] in
  stmt_ok s /\ tokenize_stream false (stmt_tokens s ++ [T_ID $"int"; T_STRUCT]) = TS_eof [[$"int"; $"struct"]] [].
Proof.
  cbv zeta. split; [|reflexivity]. split; [easy|]. split; [easy|]. split; [|cbn; lia].
  intros a b E. do 13 (destruct a as [|? a]; [cbn in E; try discriminate E; injection E; intros; subst; cbn; lia|]; cbn [app] in E;
    try discriminate E; injection E as <- E).
Qed.

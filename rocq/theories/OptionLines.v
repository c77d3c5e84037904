(** Option lines: proofs for C91. *)
From Coq Require Import Ascii String List Bool Arith NArith ZArith Lia.
From Verif Require Import Str StrFacts Regex RegexFacts Lex LexFacts SpecLex LexComments LexWords LexJoin SpecDirective DirectiveFacts.
From Verif Require Import Tokenize SpecTokenize TokenizeFacts Options Generate ClangAst Frontend SpecEndToEnd.
Import ListNotations.
#[local] Opaque rules.

Lemma run_tokens_tok st u s x t : u <> [] -> lex_step st (u ++ s) = x -> s_tok x = Some t -> is_error (Some t) = false ->
  tokens_of (lex_run st (u ++ s)) = t :: tokens_of (lex_run (s_state x) (s_rest x)).
Proof. intros Hu Hx Ht He. destruct u as [|c u]; [easy|]. cbn [app] in *. rewrite run_tokens_cons; rewrite Hx, Ht; [reflexivity|exact He]. Qed.

Definition op_rules : list rule :=
  [ mkrule OPTION false split_re Skip
  ; mkrule OPTION false optstr_re TokOption
  ; mkrule OPTION false (chr nl) (Begin INITIAL)
  ; mkrule OPTION false any Skip ].
Lemma op_active bol : filter (active OPTION bol) rules = op_rules.
Proof. destruct bol; reflexivity. Qed.

Lemma longest_optstr w s : w <> [] -> Forall (fun c => isspace c = false) w -> match s with c :: _ => isspace c = true | [] => True end ->
  longest optstr_re (w ++ s) = Some (length w).
Proof.
  intros Nw Fw Hs. apply longest_exact; [apply plus_cls; split; [exact Nw|eapply Forall_impl; [|exact Fw]; cbn; intros c ->; reflexivity]|].
  intros u x -> Hu Hm. apply plus_cls in Hm as [_ Hm]. apply Forall_app in Hm as [_ Hm]. destruct u as [|c u]; [easy|]. cbn in Hs. inversion Hm as [|? ? X]; subst. rewrite Hs in X. discriminate X.
Qed.
Lemma optstr_blank c s : isspace c = true -> longest optstr_re (c :: s) = None.
Proof.
  intros H. apply longest_none. intros u v E Hm. apply plus_cls in Hm as [Hn Hm]. destruct u as [|d u]; [easy|]. cbn in E. injection E as <- _. inversion Hm as [|? ? X]; subst. now rewrite H in X.
Qed.

Lemma op_word bol line w s : w <> [] -> w <> [bslash] -> Forall (fun c => isspace c = false /\ c <> nul) w -> match s with c :: _ => isspace c = true | [] => True end ->
  lex_step (mkl OPTION bol line) (w ++ s) = mkstep w TokOption (Some (T_OPTION w)) s (mkl OPTION false line).
Proof.
  intros Nw Nb Fw Hs. unfold lex_step, pick. cbn [l_cond l_bol l_line]. rewrite op_active.
  assert (F1 : Forall (fun c => isspace c = false) w) by (eapply Forall_impl; [|exact Fw]; cbn; intros c [X _]; exact X).
  assert (L : exists n, length w = S n) by (destruct w; [easy|eexists; reflexivity]). destruct L as (n & L).
  assert (Hb : best op_rules (w ++ s) = Some (S n, TokOption)).
  { apply (best_max (firstn 1 op_rules) (mkrule OPTION false optstr_re TokOption) (skipn 2 op_rules)).
    - cbn [r_re]. rewrite <- L. now apply longest_optstr.
    - cbn [firstn op_rules]. constructor; [|constructor]. cbn [r_re]. apply shorter_none. intros u v E Hm. destruct (split_starts u Hm) as (d & r & -> & D).
      destruct w as [|a w]; [easy|]. cbn in E. injection E as -> E. destruct w as [|b w]; [now elim Nb|]. cbn in E. injection E as -> _.
      inversion F1 as [|? ? _ F2]; subst. inversion F2; congruence.
    - cbn [skipn op_rules]. constructor; [|constructor; [|constructor]]; cbn [r_re].
      + apply not_longer_none. intros u v E Hm. apply chr_spec in Hm as ->. destruct w as [|a w]; [easy|]. cbn in E. injection E as -> _. inversion F1 as [|? ? X]; discriminate X.
      + apply longest_any_short. }
  rewrite Hb, <- L, firstn_app_exact, skipn_app_exact.
  assert (Cs : c_str w = w).
  { clear - Fw. induction Fw as [|c w (_ & H) _ IH]; [reflexivity|]. cbn [c_str]. destruct (Ascii.eqb_spec c nul); [congruence|]. now rewrite IH. }
  assert (Nn : ~ In nl w). { intros X. rewrite Forall_forall in F1. specialize (F1 _ X). discriminate F1. }
  unfold act_token, act_cond. rewrite Cs, (newlines_none w Nn), N.add_0_r. f_equal. f_equal.
  destruct (exists_last Nw) as (w' & e & ->). apply not_nl_end. intros ->. apply Nn. apply in_app_iff. right. now left.
Qed.
Lemma op_blank bol line c s : blank c -> lex_step (mkl OPTION bol line) (c :: s) = skip_one OPTION line c s.
Proof.
  intros [Hs Hn]. unfold lex_step, pick. cbn [l_cond l_bol l_line]. rewrite op_active.
  assert (Hb : best op_rules (c :: s) = Some (1, Skip)).
  { apply (best_max (firstn 3 op_rules) (mkrule OPTION false any Skip) []).
    - cbn [r_re]. now apply longest_any_hit.
    - cbn [firstn op_rules]. constructor; [|constructor; [|constructor; [|constructor]]]; cbn [r_re].
      + apply shorter_none. intros u v E Hm. destruct (split_starts u Hm) as (d & r & -> & D). cbn in E. injection E as -> _. discriminate Hs.
      + rewrite optstr_blank by exact Hs. exact I.
      + rewrite longest_chr_miss; [exact I|congruence].
    - constructor. }
  rewrite Hb. reflexivity.
Qed.
Lemma op_join bol line ws b c r : spaces ws -> Forall blank b -> isspace c = false ->
  lex_step (mkl OPTION bol line) (([bslash] ++ ws ++ [nl]) ++ b ++ c :: r) =
  mkstep ([bslash] ++ ws ++ [nl]) Skip None (b ++ c :: r) (mkl OPTION true (line + newlines ([bslash] ++ ws ++ [nl]))).
Proof.
  intros Hs Hbl Hc. unfold lex_step, pick. cbn [l_cond l_bol l_line]. rewrite op_active.
  assert (Hb : best op_rules (([bslash] ++ ws ++ [nl]) ++ b ++ c :: r) = Some (S (length (ws ++ [nl])), Skip)).
  { apply (best_max [] (mkrule OPTION false split_re Skip) (skipn 1 op_rules)).
    - cbn [r_re]. now apply longest_split_indented.
    - constructor.
    - cbn [skipn op_rules]. constructor; [|constructor; [|constructor; [|constructor]]]; cbn [r_re].
      + change (([bslash] ++ ws ++ [nl]) ++ b ++ c :: r) with ([bslash] ++ ((ws ++ [nl]) ++ b ++ c :: r)). rewrite longest_optstr; [cbn; lia|discriminate|repeat constructor|].
        destruct ws as [|d ws]; [reflexivity|]. cbn. now inversion Hs.
      + apply not_longer_none. intros u v E Hm. apply chr_spec in Hm as ->. discriminate.
      + apply longest_any_short. }
  rewrite Hb. change (S (length (ws ++ [nl]))) with (length ([bslash] ++ ws ++ [nl])). rewrite firstn_app_exact, skipn_app_exact.
  unfold act_token, act_cond. f_equal. f_equal. apply ends_with_spec. now exists ([bslash] ++ ws).
Qed.
Lemma op_end bol line s : lex_step (mkl OPTION bol line) (nl :: s) = mkstep [nl] (Begin INITIAL) None s (mkl INITIAL true (line + 1)).
Proof.
  unfold lex_step, pick. cbn [l_cond l_bol l_line]. rewrite op_active.
  assert (Hb : best op_rules (nl :: s) = Some (1, Begin INITIAL)).
  { apply (best_max (firstn 2 op_rules) (mkrule OPTION false (chr nl) (Begin INITIAL)) (skipn 3 op_rules)).
    - cbn [r_re]. apply longest_chr_hit.
    - cbn [firstn op_rules]. constructor; [|constructor; [|constructor]]; cbn [r_re].
      + apply shorter_none. intros u v E Hm. apply split_re_spec in Hm as (? & _ & ->). discriminate E.
      + rewrite optstr_blank by reflexivity. exact I.
    - cbn [skipn op_rules]. constructor; [|constructor]. cbn [r_re]. now rewrite longest_any_nl. }
  rewrite Hb. reflexivity.
Qed.
Lemma op_open line c s : isspace c = true -> lex_step (mkl INITIAL true line) ($"%option" ++ c :: s) =
  mkstep ($"%option" ++ [c]) (Begin OPTION) None s (mkl OPTION (ends_nl ($"%option" ++ [c])) (line + newlines [c])).
Proof.
  intros Hc. unfold lex_step, pick. cbn [l_cond l_bol l_line].
  assert (Hb : best (filter (active INITIAL true) rules) ($"%option" ++ c :: s) = Some (8, Begin OPTION)).
  { change ($"%option" ++ c :: s) with ("%"%char :: ($"option" ++ c :: s)). rewrite best_can_start.
    replace (filter (can_start "%") (filter (active INITIAL true) rules)) with [mkrule INITIAL true option_re (Begin OPTION); mkrule INITIAL false any TokIllegal] by reflexivity.
    apply (best_max [] (mkrule INITIAL true option_re (Begin OPTION)) [mkrule INITIAL false any TokIllegal]).
    - cbn [r_re]. change ("%"%char :: ($"option" ++ c :: s)) with (($"%option" ++ [c]) ++ s). change 8 with (length ($"%option" ++ [c])). apply longest_exact.
      + unfold option_re. apply inv_cat. exists [], ($"%option" ++ [c]). split; [reflexivity|]. split; [apply opt_spec; now right|]. apply inv_cat. exists $"%option", [c].
        split; [reflexivity|]. split; [now apply word_spec|]. apply inv_cls. eauto.
      + intros w x -> Hw Hm. unfold option_re in Hm. apply inv_cat in Hm as (a & b & E & Ha & Hbb). apply inv_cat in Hbb as (d & f & -> & Hd & Hf). apply word_spec in Hd as ->.
        apply inv_cls in Hf as (g & -> & _). apply opt_spec in Ha as [Ha| ->].
        * apply word_spec in Ha as ->. discriminate E.
        * cbn in E. injection E as _ ->. now apply Hw.
    - constructor.
    - constructor; [|constructor]. cbn [r_re]. apply longest_any_short. }
  rewrite Hb. change ($"%option" ++ c :: s) with (($"%option" ++ [c]) ++ s). change 8 with (length ($"%option" ++ [c])). rewrite firstn_app_exact, skipn_app_exact.
  unfold act_token, act_cond. f_equal.
Qed.

Lemma join_text ws : [bslash] ++ ws ++ [nl] <> [].
Proof. discriminate. Qed.
Lemma oparts_run rest : forall l, oparts_ok l [nl] -> forall bol line,
  tokens_of (lex_run (mkl OPTION bol line) (oparts_text l ++ nl :: rest)) =
  map T_OPTION (option_words l) ++ tokens_of (lex_run (mkl INITIAL true (line + newlines (oparts_text l) + 1)) rest).
Proof.
  induction l as [|x l IH]; intros Ok bol line.
  - cbn [oparts_text map concat option_words flat_map app]. rewrite (run_tokens_skip _ _ _ _ (op_end bol line rest) eq_refl). cbn [s_state s_rest]. change (newlines []) with 0%N. now rewrite N.add_0_r.
  - destruct Ok as [O1 O2]. change (oparts_text (x :: l)) with (opart_text x ++ oparts_text l). change (option_words (x :: l)) with (opart_words x ++ option_words l).
    assert (E : (opart_text x ++ oparts_text l) ++ nl :: rest = opart_text x ++ (oparts_text l ++ nl :: rest)) by now rewrite <- app_assoc. rewrite E.
    set (t := oparts_text l ++ nl :: rest) in *.
    assert (G : forall b l0, l0 = (line + newlines (opart_text x))%N -> tokens_of (lex_run (mkl OPTION b l0) t) =
      map T_OPTION (option_words l) ++ tokens_of (lex_run (mkl INITIAL true (line + newlines (opart_text x ++ oparts_text l) + 1)) rest)).
    { intros b l0 ->. rewrite (IH O2). do 4 f_equal. rewrite newlines_app. lia. }
    destruct x as [w|w|ws]; cbn [opart_text opart_words opart_ok] in *.
    + destruct O1 as (W1 & W2 & W3 & W4).
      assert (W5 : match t with c :: _ => isspace c = true | [] => True end) by (unfold t; destruct (oparts_text l); [reflexivity|exact W4]).
      rewrite (run_tokens_tok _ _ _ _ _ W1 (op_word bol line w t W1 W2 W3 W5) eq_refl eq_refl). cbn [s_state s_rest app map]. f_equal. apply G.
      rewrite newlines_none; [lia|]. intros X. rewrite Forall_forall in W3. destruct (W3 _ X) as [Y _]. discriminate Y.
    + cbn [app]. assert (K : forall w2 b l0, Forall blank w2 -> exists b', tokens_of (lex_run (mkl OPTION b l0) (w2 ++ t)) = tokens_of (lex_run (mkl OPTION b' l0) t)).
      { induction w2 as [|c w2 IHw]; intros b l0 Fw; [exists b; reflexivity|]. inversion Fw as [|? ? C Fw']; subst. cbn [app].
        rewrite (run_tokens_skip _ _ _ _ (op_blank b l0 c (w2 ++ t) C) eq_refl). unfold skip_one. cbn [s_state s_rest].
        replace (l0 + newlines [c])%N with l0; [auto|]. destruct C as [_ C]. rewrite newlines_none; [lia|]. intros [X|[]]; congruence. }
      destruct (K w bol line O1) as (b' & ->). apply G. rewrite newlines_none; [lia|]. intros X. rewrite Forall_forall in O1. now destruct (O1 _ X).
    + destruct O1 as (Sw & b & c & r & Er & Bb & Bc). assert (Et : t = b ++ c :: r ++ rest).
      { unfold t. change (nl :: rest) with ([nl] ++ rest). rewrite app_assoc, Er, <- app_assoc. reflexivity. }
      rewrite Et. rewrite (run_tokens_step _ ([bslash] ++ ws ++ [nl]) (b ++ c :: r ++ rest) _ (join_text ws) (op_join bol line ws b c (r ++ rest) Sw Bb Bc) eq_refl).
      cbn [s_state s_rest app]. rewrite <- Et. now apply G.
Qed.

(** the white space behind [%option] may be the end of the line: then the next line is taken *)
Lemma option_words_read line c l rest : isspace c = true -> oparts_ok l [nl] ->
  tokens_of (lex_run (mkl INITIAL true line) ($"%option" ++ [c] ++ oparts_text l ++ [nl] ++ rest)) =
  map T_OPTION (option_words l) ++ tokens_of (lex_run (mkl INITIAL true (line + newlines ([c] ++ oparts_text l ++ [nl]))) rest).
Proof.
  intros Hc Ok. cbn [app]. pose proof (op_open line c (oparts_text l ++ nl :: rest) Hc) as S1.
  assert (E : $"%option" ++ c :: oparts_text l ++ nl :: rest = ($"%option" ++ [c]) ++ oparts_text l ++ nl :: rest) by now rewrite <- app_assoc.
  rewrite E in S1 |- *. rewrite (run_tokens_step _ ($"%option" ++ [c]) _ _ ltac:(discriminate) S1 eq_refl). cbn [s_state s_rest]. rewrite (oparts_run rest l Ok). do 4 f_equal.
  change (c :: oparts_text l ++ [nl]) with ([c] ++ oparts_text l ++ [nl]). rewrite !newlines_app. change (newlines [nl]) with 1%N. lia.
Qed.

Lemma option_line_read line l rest : oparts_ok l [nl] ->
  tokens_of (lex_run (mkl INITIAL true line) (option_line l ++ rest)) =
  map T_OPTION (option_words l) ++ tokens_of (lex_run (mkl INITIAL true (line + newlines (option_line l))) rest).
Proof.
  intros Hok. unfold option_line.
  assert (E : ($"%option " ++ oparts_text l ++ [nl]) ++ rest = $"%option" ++ [" "%char] ++ oparts_text l ++ [nl] ++ rest) by (rewrite <- !app_assoc; reflexivity).
  rewrite E, (option_words_read line " " l rest eq_refl Hok). reflexivity.
Qed.

(* ---- the numbers of lines do not matter for accepted statements *)

Definition same_but_line (a b : token) : Prop :=
  match a, b with
  | T_CURLY_OPEN _, T_CURLY_OPEN _ | T_CURLY_CLOSE _, T_CURLY_CLOSE _ | T_EQUAL _, T_EQUAL _ => True
  | _, _ => a = b
  end.
Lemma loop_same ro : forall a b, Forall2 same_but_line a b -> forall s v o, ts_loop ro s a = TS_eof v o -> ts_loop ro s b = TS_eof v o.
Proof.
  intros a b F. induction F as [|x y a b H F IH]; intros s v o R; [exact R|]. cbn [ts_loop] in *. destruct s as [ve op tk bl cu].
  assert (N : ~ In T_AST_BEGIN [x] \/ x = T_AST_BEGIN) by (destruct x; try (left; intros [X|[]]; discriminate X); now right).
  destruct x, y; try (cbn [same_but_line] in H; discriminate H); try (injection H as H; subst); unfold ts_step in *; destruct bl; try discriminate R; try (apply IH; exact R); try exact R.
  all: try (destruct tk; try (destruct (cu <? 1)%Z); apply IH; exact R). all: try (destruct (cu <? 1)%Z; apply IH; exact R).
Qed.
Lemma pieces_same ps : forall l l', Forall2 same_but_line (pieces_tokens l ps) (pieces_tokens l' ps).
Proof.
  induction ps as [|p ps IH]; intros l l'; [constructor|]. cbn [pieces_tokens]. apply Forall2_app; [|apply IH].
  destruct p; cbn [piece_token]; repeat match goal with |- context [if ?b then _ else _] => destruct b end; repeat constructor.
Qed.

Lemma loop_opts ro p : forall ts v o t b c v' o', ts_loop ro (mkts v o t b c) ts = TS_eof v' o' -> ts_loop ro (mkts v (p ++ o) t b c) ts = TS_eof v' (p ++ o').
Proof.
  induction ts as [|x ts IH]; intros v o t b c v' o' R.
  - cbn [ts_loop] in *. unfold ts_finish in *. cbn [ts_vec ts_opts ts_tokens ts_block] in *. destruct t; destruct b; try discriminate R; now injection R as <- <-.
  - cbn [ts_loop] in *. unfold ts_step in *. destruct b, x; try discriminate R; try (apply IH; exact R).
    all: try (destruct ro; [rewrite <- app_assoc|]; apply IH; exact R).
    all: try (destruct t; apply IH; exact R). all: try (destruct (c <? 1)%Z; apply IH; exact R). all: unfold ts_finish in *; cbn [ts_vec ts_opts ts_tokens] in *; now injection R as <- <-.
Qed.

Lemma option_lines_read ls rest : Forall (fun l => oparts_ok l [nl]) ls -> forall line, exists line',
  tokens_of (lex_run (mkl INITIAL true line) (option_lines ls ++ rest)) =
  map T_OPTION (flat_map option_words ls) ++ tokens_of (lex_run (mkl INITIAL true line') rest).
Proof.
  intros F. induction F as [|l ls H F IH]; intros line; [exists line; reflexivity|].
  change (option_lines (l :: ls)) with (option_line l ++ option_lines ls). rewrite <- app_assoc, (option_line_read line l _ H).
  destruct (IH (line + newlines (option_line l))%N) as (l' & ->). exists l'. cbn [flat_map]. now rewrite map_app, <- app_assoc.
Qed.

(** the whole: options in front of a header act as if they had been set before it is read *)
Lemma options_in_front s input ls ds text : Forall (fun l => oparts_ok l [nl]) ls -> header_with ds text ->
  read_input s input (option_lines ls ++ text) =
  if o_read_options s then bind (parse_options (flat_map option_words ls) s) (fun s' => read_input s' input text) else read_input s input text.
Proof.
  intros Hok (ps & ss & P1 & P2 & -> & P3 & S1 & _).
  assert (T0 : forall ro, tokenize_stream ro (lex_all (text_of ps)) = TS_eof (flat_map stmt_protos ss) []).
  { intros ro. rewrite (lex_pieces ps P1 P2), P3. pose proof (statements_collected ro ss [] S1 (or_introl eq_refl)) as C. now rewrite !app_nil_r in C. }
  assert (T1 : forall ro, tokenize_stream ro (lex_all (option_lines ls ++ text_of ps)) = TS_eof (flat_map stmt_protos ss) (if ro then flat_map option_words ls else [])).
  { intros ro. unfold lex_all, lex_init.
    destruct (option_lines_read ls (text_of ps) Hok 1%N) as (l0 & ->).
    destruct (pieces_run ps [] P1 I true l0 P2) as (b & Q). rewrite app_nil_r in Q. rewrite Q, lex_run_nil, app_nil_r. clear Q.
    pose proof (statements_collected ro ss [] S1 (or_introl eq_refl)) as C. rewrite !app_nil_r, <- P3 in C. unfold tokenize_stream in *.
    apply (loop_same ro _ _ (pieces_same ps 1 l0)) in C.
    unfold ts_init in *.
    transitivity (ts_loop ro (mkts [] (if ro then flat_map option_words ls else []) [] false 0) (pieces_tokens l0 ps)).
    - assert (H : forall ws o, ts_loop ro (mkts [] o [] false 0) (map T_OPTION ws ++ pieces_tokens l0 ps) = ts_loop ro (mkts [] (o ++ (if ro then ws else [])) [] false 0) (pieces_tokens l0 ps)).
      { induction ws as [|w ws IH]; intros o; [destruct ro; now rewrite app_nil_r|]. cbn [map app ts_loop ts_step]. rewrite IH. destruct ro; [now rewrite <- app_assoc|reflexivity]. }
      apply (H (flat_map option_words ls) []).
    - apply (loop_opts ro (if ro then flat_map option_words ls else [])) in C. now rewrite !app_nil_r in C. }
  unfold read_input. rewrite !T1. destruct (o_read_options s) eqn:Ro.
  - destruct (parse_options (flat_map option_words ls) s) as [s'| | |]; cbn [bind]; try reflexivity. rewrite T0.
    replace (if o_read_options s' then parse_options [] s' else Ok s') with (Ok s') by (now destruct (o_read_options s')). reflexivity.
  - rewrite T0. reflexivity.
Qed.

(** a word that is followed by a backslash at the end of its line keeps the backslash, and the line is not continued *)
Lemma word_keeps_backslash line w rest : w <> [] -> Forall (fun c => isspace c = false /\ c <> nul) w ->
  tokens_of (lex_run (mkl INITIAL true line) ($"%option " ++ (w ++ [bslash]) ++ [nl] ++ rest)) =
  T_OPTION (w ++ [bslash]) :: tokens_of (lex_run (mkl INITIAL true (line + 1)) rest).
Proof.
  intros N F. pose proof (option_words_read line " " [OWord (w ++ [bslash])] rest eq_refl) as H. cbn [oparts_text map concat opart_text option_words flat_map opart_words app] in H. rewrite app_nil_r in H.
  change ($"%option " ++ (w ++ [bslash]) ++ [nl] ++ rest) with ($"%option" ++ " "%char :: (w ++ [bslash]) ++ nl :: rest). rewrite H.
  - do 3 f_equal. f_equal. change (" "%char :: (w ++ [bslash]) ++ [nl]) with ([" "%char] ++ (w ++ [bslash]) ++ [nl]). rewrite !newlines_app, (newlines_none w); [reflexivity|].
    intros X. rewrite Forall_forall in F. destruct (F _ X) as [Y _]. discriminate Y.
  - split; [|exact I]. cbn [opart_ok]. split; [now destruct w|]. split; [destruct w as [|c [|d w]]; [easy|discriminate|discriminate]|].
    split; [apply Forall_app; split; [exact F|repeat constructor; discriminate]|]. reflexivity.
Qed.

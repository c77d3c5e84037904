(** Plain declaration text is scanned into exactly its words; illegal bytes are reported. *)
From Coq Require Import Ascii String List Bool Arith NArith Lia.
From Verif Require Import Str StrFacts Regex RegexFacts Lex LexFacts SpecLex LexComments.
Import ListNotations.
#[local] Opaque rules.

Definition word_rules : list rule :=
  [ mkrule INITIAL true ast_begin_re AstBegin
  ; mkrule INITIAL false (word $"extern") Skip
  ; mkrule INITIAL false (word $"struct") TokStruct
  ; mkrule INITIAL false (word $"union") TokUnion
  ; mkrule INITIAL false (word $"enum") TokEnum
  ; mkrule INITIAL false (word $"typedef") TokTypedef
  ; mkrule INITIAL false identifier_re TokId
  ; mkrule INITIAL false any TokIllegal ].

(** dropping rules that cannot start with the next byte *)
Lemma best_filter f rs c s : forallb (fun r => f r || negb (can_start c r)) rs = true ->
  best rs (c :: s) = best (filter f rs) (c :: s).
Proof.
  intro H. rewrite best_can_start, (best_can_start (filter f rs)). f_equal.
  induction rs as [|r rs IH]; [easy|]. cbn [forallb] in H. apply andb_true_iff in H as [H1 H2]. cbn [filter].
  destruct (f r), (can_start c r) eqn:E; cbn [filter]; try rewrite E; rewrite ?IH; easy.
Qed.
Definition word_rule (r : rule) : bool :=
  match r_act r with
  | AstBegin | TokStruct | TokUnion | TokEnum | TokTypedef | TokId | TokIllegal => true
  | Skip => can_start "e" r
  | _ => false
  end.

Transparent rules.
Lemma word_rule_check c : implb (is_ident c) (forallb (fun bol =>
  forallb (fun r => word_rule r || negb (can_start c r)) (filter (active INITIAL bol) rules)) [true; false]) = true.
Proof. revert c. apply by_enum. vm_compute. reflexivity. Qed.
Lemma word_rule_filter bol : filter word_rule (filter (active INITIAL bol) rules) = filter (active INITIAL bol) word_rules.
Proof. destruct bol; reflexivity. Qed.
#[local] Opaque rules.

Lemma best_word_rules bol c s : is_ident c = true ->
  best (filter (active INITIAL bol) rules) (c :: s) = best (filter (active INITIAL bol) word_rules) (c :: s).
Proof.
  intro H. rewrite <- word_rule_filter. apply best_filter. pose proof (word_rule_check c) as K. rewrite H in K.
  cbn [implb forallb] in K. rewrite !andb_true_iff in K. destruct K as (K1 & K2 & _). now destruct bol.
Qed.

Definition no_ident_front (s : str) : Prop := match s with c :: _ => is_ident c = false | [] => True end.

Lemma ident_prefix (w s u v : str) : Forall (fun c => is_ident c = true) w -> Forall (fun c => is_ident c = true) u ->
  no_ident_front s -> w ++ s = u ++ v -> exists x, w = u ++ x.
Proof.
  revert u. induction w as [|c w IH]; intros [|d u] Hw Hu Hs E; cbn in E.
  - now exists [].
  - subst s. cbn in Hs. inversion Hu. congruence.
  - now exists (c :: w).
  - injection E as -> E. inversion Hw; inversion Hu; subst. destruct (IH u) as (x & ->); auto. now exists x.
Qed.

Lemma longest_ident w s : w <> [] -> Forall (fun c => is_ident c = true) w -> no_ident_front s ->
  longest identifier_re (w ++ s) = Some (length w).
Proof.
  intros Hn Hw Hs. apply longest_exact; [now apply plus_cls|]. intros u x -> Hu Hm. apply plus_cls in Hm as [_ Hm].
  apply Forall_app in Hm as [_ Hm]. destruct u as [|c u]; [easy|]. cbn in Hs. inversion Hm. congruence.
Qed.
Lemma shorter_kw kw w s : Forall (fun c => is_ident c = true) w -> no_ident_front s ->
  Forall (fun c => is_ident c = true) kw -> kw <> w ->
  shorter (longest (word kw) (w ++ s)) (length w) /\ not_longer (longest (word kw) (w ++ s)) (length w).
Proof.
  intros Hw Hs Hk Hn. destruct (longest (word kw) (w ++ s)) as [n|] eqn:E; [|easy].
  pose proof (longest_le _ _ _ E) as Hle. apply longest_matches in E. apply word_spec in E.
  destruct (ident_prefix w s kw (skipn n (w ++ s))) as (x & Hx); auto.
  { rewrite <- E. symmetry. apply firstn_skipn. }
  assert (Hl : length kw = n) by (rewrite <- E, firstn_length; lia).
  assert (x <> []) by (intros ->; rewrite app_nil_r in Hx; congruence).
  assert (0 < length x) by (destruct x; cbn; [easy|lia]).
  rewrite Hx. unfold shorter, not_longer. rewrite app_length. lia.
Qed.
Lemma longest_any_short s : forall n, not_longer (longest any s) (S n).
Proof.
  intro k. destruct (longest any s) as [n|] eqn:E; [|easy]. pose proof (longest_le _ _ _ E) as Hle.
  apply longest_matches in E. apply any_spec in E as (c & E & _). apply (f_equal (@length ascii)) in E.
  rewrite firstn_length in E. cbn in *. lia.
Qed.

Lemma starts_not (p : ascii -> bool) a w : matches a w -> (forall u, matches a u -> match u with c :: _ => p c = false | [] => False end) ->
  match w with c :: _ => p c = false | [] => False end.
Proof. intros H K. now apply K. Qed.

(** an AST header needs the word [TranslationUnitDecl] *)
Lemma ast_not_word w s : w <> [] -> Forall (fun c => is_ident c = true) w -> no_ident_front s -> w <> $"TranslationUnitDecl" ->
  forall u v, w ++ s = u ++ v -> ~ matches ast_begin_re u.
Proof.
  intros Hn Hw Hs Ht u v E Hm. unfold ast_begin_re in Hm.
  apply inv_cat in Hm as (b & r1 & -> & Hb & Hm).
  apply inv_cat in Hm as (k & r2 & -> & Hk & Hm).
  apply inv_cat in Hm as (t & r3 & -> & Htt & Hm). apply word_spec in Htt. subst t.
  apply inv_cat in Hm as (k1 & r4 & -> & Hk1 & Hm).
  apply inv_cat in Hm as (k2 & r5 & -> & Hk2 & Hm).
  apply inv_cat in Hm as (x & r6 & -> & Hx & Hm). apply word_spec in Hx. subst x.
  assert (Hcol : forall z, matches (opt col) z -> z = [] \/ exists z', z = esc :: z').
  { intros z Hz. apply opt_spec in Hz as [Hz| ->]; [right|now left]. unfold col in Hz.
    apply inv_cat in Hz as (p & q & -> & Hp & _). apply chr_spec in Hp as ->. now exists q. }
  assert (Hb' : b = [] \/ exists b', b = "239"%char :: b').
  { apply opt_spec in Hb as [Hb| ->]; [right|now left]. apply word_spec in Hb as ->. eexists. reflexivity. }
  destruct w as [|c w]; [easy|]. assert (Hc : is_ident c = true) by now inversion Hw.
  destruct Hb' as [->|(b' & ->)]; [|cbn in E; injection E as -> _; vm_compute in Hc; easy].
  destruct (Hcol _ Hk) as [->|(k' & ->)]; [|cbn [app] in E; injection E as -> _; vm_compute in Hc; easy].
  cbn [app] in E. rewrite <- !app_assoc in E. rewrite app_comm_cons in E.
  assert (K : exists r, (k1 ++ k2 ++ $" 0x" ++ r6) ++ v = r /\ no_ident_front r).
  { eexists; split; [reflexivity|]. destruct (Hcol _ Hk1) as [->|(? & ->)]; [|easy].
    destruct (Hcol _ Hk2) as [->|(? & ->)]; easy. }
  destruct K as (r & Er & Hr). rewrite <- !app_assoc in Er. rewrite Er in E.
  set (T := $"TranslationUnitDecl") in *.
  assert (HT : Forall (fun c => is_ident c = true) T) by (unfold T; repeat constructor).
  destruct (ident_prefix (c :: w) s T r) as (x & Hx); auto.
  destruct (ident_prefix T r (c :: w) s) as (y & Hy); auto.
  apply Ht. rewrite Hx in Hy at 1. rewrite <- app_assoc in Hy. rewrite <- (app_nil_r T) in Hy at 1.
  apply app_inv_head in Hy. symmetry in Hy. apply app_eq_nil in Hy as [-> _]. now rewrite app_nil_r in Hx.
Qed.

Definition word_act (w : str) : action :=
  if str_eqb w $"extern" then Skip else if str_eqb w $"struct" then TokStruct else if str_eqb w $"union" then TokUnion
  else if str_eqb w $"enum" then TokEnum else if str_eqb w $"typedef" then TokTypedef else TokId.

Definition plain_word (w : str) := w <> [] /\ Forall (fun c => is_ident c = true) w /\ w <> $"TranslationUnitDecl".

Lemma best_word bol w s : plain_word w -> no_ident_front s ->
  best (filter (active INITIAL bol) rules) (w ++ s) = Some (length w, word_act w).
Proof.
  intros (Hn & Hw & Ht) Hs.
  assert (Hc : exists c w', w = c :: w') by (destruct w; [easy|eauto]). destruct Hc as (c & w' & Ew).
  assert (E : best (filter (active INITIAL bol) rules) (w ++ s) = best (filter (active INITIAL bol) word_rules) (w ++ s)).
  { rewrite Ew. cbn [app]. apply best_word_rules. subst w. now inversion Hw. }
  rewrite E. clear E.
  assert (Hast : longest ast_begin_re (w ++ s) = None) by (apply longest_none; now apply ast_not_word).
  assert (E : best (filter (active INITIAL bol) word_rules) (w ++ s) = best (skipn 1 word_rules) (w ++ s)).
  { destruct bol; [|easy]. change (filter (active INITIAL true) word_rules) with word_rules. unfold word_rules.
    cbn [skipn best r_re]. now rewrite Hast. }
  rewrite E. clear E Hast.
  assert (Hlen : length w = S (length w')) by now rewrite Ew.
  assert (Hany : not_longer (longest any (w ++ s)) (length w)) by (rewrite Hlen; apply longest_any_short).
  assert (Hid : longest identifier_re (w ++ s) = Some (length w)) by now apply longest_ident.
  assert (Hid' : not_longer (longest identifier_re (w ++ s)) (length w)) by (rewrite Hid; cbn; lia).
  assert (Hkw : forall kw, Forall (fun c => is_ident c = true) kw -> kw <> w ->
    shorter (longest (word kw) (w ++ s)) (length w) /\ not_longer (longest (word kw) (w ++ s)) (length w)) by (intros; now apply shorter_kw).
  assert (Hidn : forall kw : str, forallb is_ident kw = true -> Forall (fun c => is_ident c = true) kw).
  { intros kw H. now apply forallb_forall in H || (apply Forall_forall; now apply forallb_forall). }
  unfold word_act.
  destruct (str_eqb w $"extern") eqn:E1; [apply str_eqb_eq in E1|apply str_eqb_neq in E1].
  { rewrite Hlen in *. apply (best_max [] (mkrule INITIAL false (word $"extern") Skip) (skipn 2 word_rules)).
    - cbn [r_re]. rewrite <- Hlen, E1. apply longest_word_hit.
    - constructor.
    - cbn [skipn word_rules]. repeat constructor; cbn [r_re]; auto; apply Hkw; try (apply Hidn; reflexivity); rewrite E1; discriminate. }
  destruct (str_eqb w $"struct") eqn:E2; [apply str_eqb_eq in E2|apply str_eqb_neq in E2].
  { rewrite Hlen in *. apply (best_max (firstn 1 (skipn 1 word_rules)) (mkrule INITIAL false (word $"struct") TokStruct) (skipn 3 word_rules)).
    - cbn [r_re]. rewrite <- Hlen, E2. apply longest_word_hit.
    - cbn [firstn skipn word_rules]. repeat constructor; cbn [r_re]; auto; apply Hkw; try (apply Hidn; reflexivity); auto.
    - cbn [skipn word_rules]. repeat constructor; cbn [r_re]; auto; apply Hkw; try (apply Hidn; reflexivity); rewrite E2; discriminate. }
  destruct (str_eqb w $"union") eqn:E3; [apply str_eqb_eq in E3|apply str_eqb_neq in E3].
  { rewrite Hlen in *. apply (best_max (firstn 2 (skipn 1 word_rules)) (mkrule INITIAL false (word $"union") TokUnion) (skipn 4 word_rules)).
    - cbn [r_re]. rewrite <- Hlen, E3. apply longest_word_hit.
    - cbn [firstn skipn word_rules]. repeat constructor; cbn [r_re]; auto; apply Hkw; try (apply Hidn; reflexivity); auto.
    - cbn [skipn word_rules]. repeat constructor; cbn [r_re]; auto; apply Hkw; try (apply Hidn; reflexivity); rewrite E3; discriminate. }
  destruct (str_eqb w $"enum") eqn:E4; [apply str_eqb_eq in E4|apply str_eqb_neq in E4].
  { rewrite Hlen in *. apply (best_max (firstn 3 (skipn 1 word_rules)) (mkrule INITIAL false (word $"enum") TokEnum) (skipn 5 word_rules)).
    - cbn [r_re]. rewrite <- Hlen, E4. apply longest_word_hit.
    - cbn [firstn skipn word_rules]. repeat constructor; cbn [r_re]; auto; apply Hkw; try (apply Hidn; reflexivity); auto.
    - cbn [skipn word_rules]. repeat constructor; cbn [r_re]; auto; apply Hkw; try (apply Hidn; reflexivity); rewrite E4; discriminate. }
  destruct (str_eqb w $"typedef") eqn:E5; [apply str_eqb_eq in E5|apply str_eqb_neq in E5].
  { rewrite Hlen in *. apply (best_max (firstn 4 (skipn 1 word_rules)) (mkrule INITIAL false (word $"typedef") TokTypedef) (skipn 6 word_rules)).
    - cbn [r_re]. rewrite <- Hlen, E5. apply longest_word_hit.
    - cbn [firstn skipn word_rules]. repeat constructor; cbn [r_re]; auto; apply Hkw; try (apply Hidn; reflexivity); auto.
    - cbn [skipn word_rules]. repeat constructor; cbn [r_re]; auto. }
  rewrite Hlen in *. apply (best_max (firstn 5 (skipn 1 word_rules)) (mkrule INITIAL false identifier_re TokId) (skipn 7 word_rules)).
  - exact Hid.
  - cbn [firstn skipn word_rules]. repeat constructor; cbn [r_re]; auto; apply Hkw; try (apply Hidn; reflexivity); auto.
  - cbn [skipn word_rules]. repeat constructor; cbn [r_re]; auto.
Qed.

(** single-byte pieces *)
Definition punct_rules : list rule :=
  [ mkrule INITIAL false other_re TokOther; mkrule INITIAL false any TokIllegal ].
Definition semi_rules : list rule := [ mkrule INITIAL false (word $";") TokSemicolon; mkrule INITIAL false any TokIllegal ].
Definition brace_act (c : ascii) : action := if Ascii.eqb c "{" then TokCurlyOpen else if Ascii.eqb c "}" then TokCurlyClose else TokEqual.
Definition brace_rules c : list rule := [ mkrule INITIAL false (word [c]) (brace_act c); mkrule INITIAL false any TokIllegal ].
Definition dot_rules : list rule := [ mkrule INITIAL false (word $"...") TokOther; mkrule INITIAL false any TokIllegal ].

Transparent rules.
Lemma punct_active bol c : In c ["*"; ","; "("; ")"; "["; "]"]%char ->
  filter (can_start c) (filter (active INITIAL bol) rules) = punct_rules.
Proof. cbn [In]. intro H. destruct bol; repeat destruct H as [<-|H]; try easy; reflexivity. Qed.
Lemma semi_active bol : filter (can_start ";") (filter (active INITIAL bol) rules) = semi_rules.
Proof. destruct bol; reflexivity. Qed.
Lemma brace_active bol c : In c ["{"; "}"; "="]%char -> filter (can_start c) (filter (active INITIAL bol) rules) = brace_rules c.
Proof. cbn [In]. intro H. destruct bol; repeat destruct H as [<-|H]; try easy; reflexivity. Qed.
Lemma dot_active bol : filter (can_start ".") (filter (active INITIAL bol) rules) = dot_rules.
Proof. destruct bol; reflexivity. Qed.
Lemma space_active bol c : isspace c = true -> filter (can_start c) (filter (active INITIAL bol) rules) =
  (if bol then [mkrule INITIAL true preproc_re (Begin PRE)] else []) ++ [mkrule INITIAL false (Cls isspace) Skip] ++
  (if Ascii.eqb c nl then [] else [mkrule INITIAL false any TokIllegal]).
Proof. intro H. apply space_chars in H. cbn [In] in H. destruct bol; repeat destruct H as [<-|H]; try easy; reflexivity. Qed.
#[local] Opaque rules.

Lemma longest_cls_hit f c s : f c = true -> longest (Cls f) (c :: s) = Some 1.
Proof.
  intro H. apply (longest_exact (Cls f) [c] s); [apply inv_cls; eauto|]. intros w x _ Hw Hm.
  apply inv_cls in Hm as (d & Hm & _). destruct w; [easy|discriminate].
Qed.

Lemma best_punct bol c s : In c ["*"; ","; "("; ")"; "["; "]"]%char ->
  best (filter (active INITIAL bol) rules) (c :: s) = Some (1, TokOther).
Proof.
  intro H. rewrite best_can_start, punct_active by auto.
  apply (best_max [] (mkrule INITIAL false other_re TokOther) [mkrule INITIAL false any TokIllegal]).
  - apply longest_cls_hit. cbn [In] in H. repeat destruct H as [<-|H]; easy.
  - constructor.
  - repeat constructor. apply longest_any_short.
Qed.
Lemma best_semi bol s : best (filter (active INITIAL bol) rules) (";"%char :: s) = Some (1, TokSemicolon).
Proof.
  rewrite best_can_start, semi_active.
  apply (best_max [] (mkrule INITIAL false (word $";") TokSemicolon) [mkrule INITIAL false any TokIllegal]).
  - apply (longest_word_hit $";").
  - constructor.
  - constructor; [|constructor]. apply longest_any_short.
Qed.
Lemma best_brace bol c s : In c ["{"; "}"; "="]%char -> best (filter (active INITIAL bol) rules) (c :: s) = Some (1, brace_act c).
Proof.
  intro H. rewrite best_can_start, brace_active by auto.
  apply (best_max [] (mkrule INITIAL false (word [c]) (brace_act c)) [mkrule INITIAL false any TokIllegal]).
  - apply (longest_word_hit [c]).
  - constructor.
  - constructor; [|constructor]. apply longest_any_short.
Qed.
Lemma best_dots bol s : best (filter (active INITIAL bol) rules) ($"..." ++ s) = Some (3, TokOther).
Proof.
  cbn [app lit list_ascii_of_string]. rewrite best_can_start, dot_active.
  apply (best_max [] (mkrule INITIAL false (word $"...") TokOther) [mkrule INITIAL false any TokIllegal]).
  - apply (longest_word_hit $"...").
  - constructor.
  - constructor; [|constructor]. apply longest_any_short.
Qed.
(** the first byte that is not white space is not a [#] *)
Definition no_hash_next (s : str) : Prop := forall ws t, s = ws ++ $"#" ++ t -> ~ spaces ws.
Lemma best_space bol c s : isspace c = true -> (bol = true -> no_hash_next s) ->
  best (filter (active INITIAL bol) rules) (c :: s) = Some (1, Skip).
Proof.
  intros H Hh. rewrite best_can_start, space_active by auto.
  apply (best_max (if bol then [mkrule INITIAL true preproc_re (Begin PRE)] else []) (mkrule INITIAL false (Cls isspace) Skip)
    (if Ascii.eqb c nl then [] else [mkrule INITIAL false any TokIllegal])).
  - now apply longest_cls_hit.
  - destruct bol; repeat constructor. cbn [r_re]. apply shorter_none. intros u v E Hm.
    apply preproc_spec in Hm as (b & ws & [->| ->] & Hs & ->); cbn [app] in E.
    + destruct ws as [|d ws]; cbn [app] in E.
      * cbn in E. injection E as -> _. vm_compute in H. easy.
      * injection E as -> E. rewrite <- app_assoc in E. apply (Hh eq_refl ws v E). now inversion Hs.
    + unfold bom_s in E. cbn [app] in E. injection E as -> _. vm_compute in H. easy.
  - destruct (Ascii.eqb c nl); repeat constructor. apply longest_any_short.
Qed.

Lemma step_of st c s n a : best (filter (active (l_cond st) (l_bol st)) rules) (c :: s) = Some (n, a) ->
  lex_step st (c :: s) = (let t := firstn n (c :: s) in let line := (l_line st + newlines t)%N in
    mkstep t a (act_token a t line) (skipn n (c :: s)) (mkl (act_cond a line (l_cond st)) (ends_nl t) line)).
Proof. intro H. unfold lex_step, pick. now rewrite H. Qed.

Definition opt_list {A} (o : option A) : list A := match o with Some x => [x] | None => [] end.
Lemma run_tokens_cons st c s : is_error (s_tok (lex_step st (c :: s))) = false ->
  tokens_of (lex_run st (c :: s)) =
  opt_list (s_tok (lex_step st (c :: s))) ++ tokens_of (lex_run (s_state (lex_step st (c :: s))) (s_rest (lex_step st (c :: s)))).
Proof.
  intro H. rewrite lex_run_cons. cbn zeta. rewrite H. cbn [tokens_of]. now destruct (s_tok (lex_step st (c :: s))).
Qed.

(** one piece that is a single match *)
Lemma run_piece bol line t s a : t <> [] ->
  best (filter (active INITIAL bol) rules) (t ++ s) = Some (length t, a) ->
  is_error (act_token a t (line + newlines t)) = false -> act_cond a (line + newlines t) INITIAL = INITIAL ->
  tokens_of (lex_run (mkl INITIAL bol line) (t ++ s)) =
    opt_list (act_token a t (line + newlines t)) ++ tokens_of (lex_run (mkl INITIAL (ends_line t) (line + newlines t)) s).
Proof.
  intros Ht Hb He Hc. destruct t as [|c t]; [easy|]. cbn [app] in *.
  assert (Hs := step_of (mkl INITIAL bol line) c (t ++ s) _ _ Hb). cbn zeta in Hs.
  change (c :: t ++ s) with ((c :: t) ++ s) in Hs. rewrite firstn_app_exact, skipn_app_exact in Hs. cbn [l_cond l_line app] in Hs.
  rewrite Hc in Hs. rewrite run_tokens_cons; rewrite Hs; cbn [s_tok s_state s_rest]; [|apply He]. reflexivity.
Qed.

Lemma act_of_word w l : is_error (act_token (word_act w) w l) = false /\ act_cond (word_act w) l INITIAL = INITIAL
  /\ opt_list (act_token (word_act w) w l) = piece_token l (PWord w).
Proof.
  unfold word_act, piece_token. repeat (destruct (str_eqb w _); [now split|]). now split.
Qed.

Lemma ends_line_cons c w : w <> [] -> ends_line (c :: w) = ends_line w.
Proof.
  intro Hw. unfold ends_line. destruct (ends_with [nl] w) eqn:E.
  - apply ends_with_spec in E as (r & ->). apply ends_with_spec. now exists (c :: r).
  - destruct (ends_with [nl] (c :: w)) eqn:F; [|easy]. apply ends_with_spec in F as (r & F).
    destruct r as [|d r]; cbn in F; injection F as -> F; [easy|].
    assert (X : ends_with [nl] w = true) by (apply ends_with_spec; exists r; easy). congruence.
Qed.

Lemma no_hash_space w s : spaces w -> no_hash_next s -> no_hash_next (w ++ s).
Proof.
  intros Hw Hs. induction Hw as [|c w Hc Hw IH]; [easy|]. intros ws t E Hws. destruct ws as [|d ws].
  - cbn in E. injection E as -> _. vm_compute in Hc. easy.
  - cbn [app] in E. injection E as -> E. apply (IH ws t E). now inversion Hws.
Qed.

Lemma gap_run w s : spaces w -> w <> [] -> no_hash_next s -> forall bol line,
  tokens_of (lex_run (mkl INITIAL bol line) (w ++ s)) = tokens_of (lex_run (mkl INITIAL (ends_line w) (line + newlines w)) s).
Proof.
  intros Hw Hn Hs. induction Hw as [|c w Hc Hw IH]; intros bol line; [easy|].
  change ((c :: w) ++ s) with ([c] ++ w ++ s).
  rewrite (run_piece bol line [c] (w ++ s) Skip); try easy.
  - cbn [act_token opt_list app]. destruct w as [|d w]; [easy|]. rewrite IH by easy. rewrite (ends_line_cons c) by easy.
    do 3 f_equal. change (c :: d :: w) with ([c] ++ d :: w). rewrite newlines_app. lia.
  - apply best_space; [easy|]. intros _. now apply no_hash_space.
Qed.

(** white space that ends a line, then a directive *)
Lemma gap_directive w ws body rest : spaces w -> spaces ws -> one_line body -> no_comment body ->
  forall bol line, bol || ends_line w = true ->
  tokens_of (lex_run (mkl INITIAL bol line) (w ++ ws ++ $"#" ++ body ++ nl :: rest)) =
  tokens_of (lex_run (mkl INITIAL true (line + newlines w)) (ws ++ $"#" ++ body ++ nl :: rest)).
Proof.
  intros Hw H1 H2 H3 bol line Hb. rewrite (directive_invisible (line + newlines w)) by easy.
  revert bol line Hb. induction Hw as [|c w Hc Hw IH]; intros bol line Hb.
  - destruct bol; [|discriminate]. cbn [app]. rewrite directive_invisible by easy. do 3 f_equal. change (newlines []) with 0%N. lia.
  - destruct bol.
    + rewrite app_assoc. rewrite directive_invisible; [do 3 f_equal; rewrite newlines_app; lia| |easy|easy].
      apply Forall_app; split; [now constructor|easy].
    + change ((c :: w) ++ ws ++ $"#" ++ body ++ nl :: rest) with ([c] ++ w ++ ws ++ $"#" ++ body ++ nl :: rest).
      rewrite (run_piece false line [c] _ Skip); try easy; [|now apply best_space].
      cbn [act_token opt_list app]. cbn [orb] in Hb.
      assert (Hb' : ends_line [c] || ends_line w = true).
      { destruct w as [|d w]; [now rewrite Hb|]. rewrite ends_line_cons in Hb by easy. rewrite Hb. apply orb_true_r. }
      rewrite (IH _ (line + newlines [c])%N Hb'). do 3 f_equal. change (c :: w) with ([c] ++ w). rewrite newlines_app. lia.
Qed.

(** what stops the text: the end of input or an illegal byte *)
Definition stopper (s : str) : Prop :=
  match s with [] => True | c :: _ => isspace c = false /\ is_ident c = false /\ c <> "#"%char end.

Lemma front_not_space_hash c s : isspace c = false -> c <> "#"%char -> no_hash_next (c :: s).
Proof.
  intros H1 H2 ws t E Hws. destruct ws as [|d ws]; cbn in E; injection E as -> _; [easy|]. inversion Hws. congruence.
Qed.

Lemma front_after_word bol w ps s : Forall piece_ok ps -> stopper s -> well_placed bol (PWord w :: ps) -> no_ident_front (text_of ps ++ s).
Proof.
  intros H Hst Hs. destruct ps as [|p ps].
  { unfold text_of. cbn [map concat app]. destruct s; [easy|]. apply Hst. }
  inversion H as [|? ? Hp _]; subst. unfold text_of. cbn [map concat].
  assert (Hsp : forall c x, isspace c = true -> no_ident_front (c :: x)).
  { intros c x Hc. apply space_chars in Hc. cbn [In] in Hc. cbn [no_ident_front]. repeat destruct Hc as [<-|Hc]; easy. }
  destruct p; cbn [piece_ok piece_text well_placed] in *; try easy.
  - cbn [app]. cbn [no_ident_front]. cbn [In] in Hp. repeat destruct Hp as [<-|Hp]; easy.
  - cbn [app]. cbn [no_ident_front]. cbn [In] in Hp. repeat destruct Hp as [<-|Hp]; easy.
  - destruct Hp as (Hne & Hw). destruct w0 as [|c w0]; [easy|]. cbn [app]. apply Hsp. now inversion Hw.
  - destruct Hp as ((x & _ & ->) & _). easy.
  - destruct Hp as ((x & _ & ->) & _). easy.
  - destruct Hp as (Hw & _). destruct ws as [|c ws]; [easy|]. cbn [app]. apply Hsp. now inversion Hw.
Qed.

Lemma no_hash_after_gap bol w ps s : Forall piece_ok ps -> stopper s -> well_placed bol (PGap w :: ps) ->
  match ps with PDirective _ _ :: _ => False | _ => True end -> no_hash_next (text_of ps ++ s).
Proof.
  intros H Hst Hs Hd. destruct ps as [|p ps].
  { unfold text_of. cbn [map concat app]. destruct s as [|c s].
    - intros ws t E. destruct ws; discriminate.
    - destruct Hst as (H1 & _ & H2). now apply front_not_space_hash. }
  inversion H as [|? ? Hp _]; subst. unfold text_of. cbn [map concat].
  destruct p; cbn [piece_ok piece_text well_placed] in *; try easy.
  - destruct Hp as (Hne & Hw & _). destruct w0 as [|c w0]; [easy|]. cbn [app]. inversion Hw as [|? ? Hc]; subst.
    apply front_not_space_hash.
    + destruct (isspace c) eqn:E; [|easy]. apply space_chars in E. cbn [In] in E. repeat destruct E as [<-|E]; easy.
    + intros ->. vm_compute in Hc. easy.
  - cbn [app In] in *. apply front_not_space_hash; repeat destruct Hp as [<-|Hp]; easy.
  - cbn [app lit list_ascii_of_string]. now apply front_not_space_hash.
  - cbn [app lit list_ascii_of_string]. now apply front_not_space_hash.
  - cbn [app In] in *. apply front_not_space_hash; repeat destruct Hp as [<-|Hp]; easy.
  - destruct Hp as ((x & _ & ->) & _). cbn [app lit list_ascii_of_string]. now apply front_not_space_hash.
  - destruct Hp as ((x & _ & ->) & _). cbn [app lit list_ascii_of_string]. now apply front_not_space_hash.
Qed.

Lemma pieces_run ps s : Forall piece_ok ps -> stopper s -> forall bol line, well_placed bol ps ->
  exists bol', tokens_of (lex_run (mkl INITIAL bol line) (text_of ps ++ s)) =
  pieces_tokens line ps ++ tokens_of (lex_run (mkl INITIAL bol' (line + newlines (text_of ps))) s).
Proof.
  intros H Hst. induction H as [|p ps Hp H' IH]; intros bol line Hs.
  { exists bol. unfold text_of. cbn [map concat pieces_tokens app]. do 3 f_equal. change (newlines []) with 0%N. lia. }
  pose proof Hs as [_ Hs']. specialize (IH _ (line + newlines (piece_text p))%N Hs'). destruct IH as (bol' & IH).
  exists bol'. change (text_of (p :: ps)) with (piece_text p ++ text_of ps). cbn [pieces_tokens]. rewrite <- !app_assoc.
  change (line_ends (piece_text p)) with (newlines (piece_text p)).
  rewrite newlines_app, N.add_assoc. rewrite <- IH.
  assert (Hone : forall w : str, ~ In nl w -> (line + newlines w)%N = line) by (intros; rewrite newlines_none; [lia|easy]).
  destruct p; cbn [piece_ok piece_text] in *.
  - pose proof (front_after_word bol w ps s H' Hst Hs) as Hf.
    assert (Hl : (line + newlines w)%N = line).
    { apply Hone. intro X. destruct Hp as (_ & Hp & _). rewrite Forall_forall in Hp. apply Hp in X. vm_compute in X. easy. }
    rewrite (run_piece bol line w _ (word_act w)).
    + f_equal. rewrite Hl. apply (act_of_word w line).
    + apply Hp.
    + now apply best_word.
    + apply (act_of_word w).
    + apply (act_of_word w).
  - rewrite (run_piece bol line [c] _ TokOther); try easy. now apply best_punct.
  - rewrite (run_piece bol line $"..." _ TokOther); try easy. apply best_dots.
  - rewrite (run_piece bol line $";" _ TokSemicolon); try easy. apply best_semi.
  - assert (Hl : (line + newlines [c])%N = line).
    { apply Hone. cbn [In] in *. intros [->|[]]. repeat destruct Hp as [Hp|Hp]; easy. }
    rewrite (run_piece bol line [c] _ (brace_act c)); try easy.
    + f_equal. rewrite Hl. cbn [In] in Hp. repeat destruct Hp as [<-|Hp]; easy.
    + now apply best_brace.
    + cbn [In] in Hp. repeat destruct Hp as [<-|Hp]; easy.
    + cbn [In] in Hp. repeat destruct Hp as [<-|Hp]; easy.
  - cbn [piece_token app]. destruct Hp as (Hne & Hw).
    assert (D : (exists ws body qs, ps = PDirective ws body :: qs) \/ match ps with PDirective _ _ :: _ => False | _ => True end).
    { destruct ps as [|[] ps]; eauto 6. }
    destruct D as [(ws & body & qs & ->)|D].
    + assert (Hd : piece_ok (PDirective ws body)) by now inversion H'. destruct Hd as (D1 & D2 & D3).
      unfold text_of. cbn [map concat piece_text]. rewrite <- !app_assoc. cbn [app].
      assert (He : ends_line w = true) by (destruct Hs as (_ & Hs & _); exact Hs). rewrite He.
      rewrite <- gap_directive with (bol := bol); try easy. rewrite He. apply orb_true_r.
    + apply gap_run; try easy. now apply (no_hash_after_gap bol w).
  - cbn [piece_token app]. destruct Hp as (H1 & H2). rewrite <- !app_assoc. rewrite c_comment_invisible by easy. do 3 f_equal.
    destruct H2 as ((x & _ & ->) & _). rewrite !app_assoc. symmetry. now apply not_nl_end.
  - cbn [piece_token app]. destruct Hp as (H1 & H2). rewrite <- !app_assoc. cbn [app]. rewrite line_comment_invisible by easy. do 3 f_equal.
    symmetry. apply ends_with_spec. exists (op ++ body). now rewrite <- app_assoc.
  - cbn [piece_token app]. destruct Hp as (H1 & H2 & H3). destruct Hs as (-> & _). rewrite <- !app_assoc. cbn [app].
    rewrite directive_invisible by easy. do 3 f_equal.
    + symmetry. apply ends_with_spec. exists (ws ++ $"#" ++ body). now rewrite <- !app_assoc.
    + rewrite newlines_app. change ("#"%char :: body ++ [nl]) with ($"#" ++ body ++ [nl]). rewrite !newlines_app.
      rewrite (newlines_none body) by apply H2. change (newlines $"#") with 0%N. change (newlines [nl]) with 1%N. lia.
Qed.

(* ---------------------------------------------------------------- illegal bytes *)

Definition illegal_rule (r : rule) : bool := match r_act r with TokIllegal => true | _ => false end.
Transparent rules.
Lemma illegal_check bol : forall c, implb (negb (can_begin bol c))
  (forallb (fun r => illegal_rule r || negb (can_start c r)) (filter (active INITIAL bol) rules)) = true.
Proof. destruct bol; apply by_enum; vm_compute; reflexivity. Qed.
Lemma illegal_filter bol : filter illegal_rule (filter (active INITIAL bol) rules) = [mkrule INITIAL false any TokIllegal].
Proof. destruct bol; reflexivity. Qed.
#[local] Opaque rules.
Lemma illegal_active bol c s : can_begin bol c = false ->
  best (filter (active INITIAL bol) rules) (c :: s) = best [mkrule INITIAL false any TokIllegal] (c :: s).
Proof.
  intro H. rewrite <- (illegal_filter bol). apply best_filter. pose proof (illegal_check bol c) as K. now rewrite H in K.
Qed.

Lemma illegal_reported bol line c s : can_begin bol c = false ->
  tokens_of (lex_run (mkl INITIAL bol line) (c :: s)) = [T_ERROR (illegal_char_msg c line)].
Proof.
  intro H. assert (Hc : c <> nl) by (intros ->; vm_compute in H; destruct bol; discriminate).
  assert (Hb : best (filter (active INITIAL bol) rules) (c :: s) = Some (1, TokIllegal)).
  { rewrite illegal_active by auto.
    apply (best_max [] (mkrule INITIAL false any TokIllegal) []); try constructor. now apply longest_any_hit. }
  rewrite lex_run_cons. cbn zeta.
  rewrite (step_of (mkl INITIAL bol line) c s _ _ Hb). cbn [firstn skipn l_line l_cond act_token act_cond s_tok is_error tokens_of].
  do 3 f_equal. rewrite newlines_none; [lia|]. intros [->|[]]. easy.
Qed.

Lemma lex_pieces ps : Forall piece_ok ps -> well_placed true ps -> lex_all (text_of ps) = pieces_tokens 1 ps.
Proof.
  intros H1 H2. unfold lex_all, lex_init. destruct (pieces_run ps [] H1 I true 1%N H2) as (b & E).
  rewrite app_nil_r in E. now rewrite E, lex_run_nil, app_nil_r.
Qed.
Lemma lex_pieces_illegal ps c s : Forall piece_ok ps -> well_placed true ps -> can_begin true c = false ->
  lex_all (text_of ps ++ c :: s) = pieces_tokens 1 ps ++ [T_ERROR (illegal_char_msg c (1 + line_ends (text_of ps)))].
Proof.
  intros H1 H2 Hc. unfold lex_all, lex_init.
  assert (Hst : stopper (c :: s)).
  { unfold can_begin in Hc. rewrite !orb_false_iff in Hc. destruct Hc as (((Hc1 & Hc2) & _) & Hc3). cbn. repeat split; auto.
    intros ->. vm_compute in Hc3. discriminate. }
  destruct (pieces_run ps (c :: s) H1 Hst true 1%N H2) as (b & E). rewrite E, illegal_reported; [easy|].
  destruct b; [easy|]. unfold can_begin in *. rewrite !orb_false_iff in *. cbn [andb]. tauto.
Qed.

(* ---------------------------------------------------------------- AST tokens only after an AST header *)

Lemma ast_free n : forall st s, length s <= n -> l_cond st <> AST -> ~ In T_AST_BEGIN (tokens_of (lex_run st s)) ->
  forallb (fun t => negb (ast_token t)) (tokens_of (lex_run st s)) = true.
Proof.
  induction n as [|n IH]; intros st s Hn Hst Hno; destruct s as [|c s]; try (cbn in Hn; lia); try (now rewrite lex_run_nil).
  rewrite lex_run_cons in *. cbn zeta in *. set (x := lex_step st (c :: s)) in *.
  destruct (lex_step_progress st c s) as (H1 & H2 & H3 & H4). fold x in H1, H2, H3, H4.
  assert (Hx : (forall t, s_tok x = Some t -> t <> T_AST_BEGIN -> ast_token t = false) /\
               (s_tok x <> Some T_AST_BEGIN -> l_cond (s_state x) <> AST)).
  { unfold x, lex_step. destruct (pick (l_cond st) (l_bol st) (c :: s)) as [k a] eqn:Ek. cbn [s_tok s_state l_cond].
    destruct (pick_spec (l_cond st) (l_bol st) c s) as (k' & a' & rs1 & r & rs2 & Hp & _ & _ & Hr & Ha & _).
    rewrite Ek in Hp. injection Hp as <- <-.
    assert (Hact : active (l_cond st) (l_bol st) r = true).
    { assert (X : In r (filter (active (l_cond st) (l_bol st)) rules)) by (rewrite Hr; apply in_app_iff; right; now left).
      now apply filter_In in X as [_ X]. }
    assert (Hin : In r rules).
    { assert (X : In r (filter (active (l_cond st) (l_bol st)) rules)) by (rewrite Hr; apply in_app_iff; right; now left).
      now apply filter_In in X as [X _]. }
    assert (Hchk : implb (match r_act r with TokFuncVar | TokParmVar | Begin AST => true | _ => false end) (cond_eqb (r_cond r) AST) = true).
    { revert r Hin Hr Ha Hact. clear. intros r Hin _ _ _. revert r Hin. apply forallb_forall. vm_compute. reflexivity. }
    assert (Hcond : cond_eqb (r_cond r) AST = false).
    { unfold active in Hact. apply andb_true_iff in Hact as [Hact _]. destruct (r_cond r), (l_cond st); try easy; congruence. }
    rewrite Hcond in Hchk. rewrite Ha in Hchk. clear - Hchk Hst. destruct a; cbn [implb] in Hchk; try discriminate;
      cbn [act_token act_cond]; try (split; [intros t E; injection E as <-; easy|easy]); try easy.
    - split; [easy|]. intros _. destruct c0; try easy.
    - destruct (N.eqb _ 1); split; try (intros t E; injection E as <-; easy); easy. }
  destruct Hx as [Hx1 Hx2].
  destruct (is_error (s_tok x)) eqn:E.
  - cbn [tokens_of] in *. destruct (s_tok x) as [t|]; [|easy]. cbn [forallb]. now destruct t.
  - cbn [tokens_of] in *. assert (Hb : s_tok x <> Some T_AST_BEGIN).
    { intro F. rewrite F in Hno. apply Hno. now left. }
    assert (Hrec : forallb (fun t => negb (ast_token t)) (tokens_of (lex_run (s_state x) (s_rest x))) = true).
    { apply IH; [cbn [length] in *; lia|now apply Hx2|]. intro X. apply Hno. destruct (s_tok x); [now right|easy]. }
    destruct (s_tok x) as [t|]; [|easy]. cbn [forallb]. rewrite Hrec, (Hx1 t eq_refl); [easy|]. congruence.
Qed.

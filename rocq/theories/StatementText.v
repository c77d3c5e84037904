(** No declaration of an accepted text is lost silently: proofs for C89. *)
From Coq Require Import Ascii String List Bool Arith NArith ZArith Lia.
From Verif Require Import Str Lex SpecLex LexFacts LexComments Tokenize SpecTokenize TokenizeFacts LexWords LexJoin LexProps CheckPattern Parse ParamNames SpecParse SpecTables ParseFacts ParseFacts2 ParamFacts ParamFacts2 SelectFacts ParseProps.
From Verif Require Import Format SpecFormat FormatFacts FormatProps Prefix SpecPrefix Options Generate.
From Verif Require Import SpecStatements StatementFacts ClangAst Frontend SpecEndToEnd EndToEnd StrFacts.
Import ListNotations.

Lemma nothing_lost s input text s' y : ~ In T_AST_BEGIN (lex_all text) -> read_input s input text = Ok (s', y) ->
  exists ss e ds, made_of (lex_all text) ss e /\ Forall2 unwraps (declarations ss e) (map written ds) /\
    Forall decl_ok ds /\ NoDup (map decl_name ds) /\ ds <> [] /\
    (forall n, In n (o_symbol_list s') -> In n (declared_names ds)) /\
    map p_symbol (s_funcs y) = asked_for (o_prefix_list s') (o_symbol_list s') (function_names ds) /\
    map p_symbol (s_objs y) = asked_for (o_prefix_list s') (o_symbol_list s') (object_names ds).
Proof.
  intros B R. unfold read_input in R.
  destruct (tokenize_stream (o_read_options s) (lex_all text)) as [vec opts|m|r] eqn:T; try discriminate R.
  2:{ exfalso. revert T. unfold tokenize_stream. generalize ts_init. revert B. clear. induction (lex_all text) as [|t l IH]; intros B s0 E; [discriminate E|].
      cbn [ts_loop] in E. assert (B' : ~ In T_AST_BEGIN l) by (intro; apply B; now right).
      destruct (ts_step (o_read_options s) s0 t l) as [s1|r'] eqn:Q; [now apply IH in E|]. subst r'.
      destruct s0 as [v o tk bl cu]. unfold ts_step in Q. destruct bl, t; try discriminate Q; try (destruct tk; discriminate Q); try (destruct (cu <? 1)%Z; discriminate Q).
      all: apply B; now left. }
  pose proof (ast_free (length text) lex_init text (le_n _)) as A. cbv zeta in A. specialize (A ltac:(discriminate) B). fold (lex_all text) in A.
  destruct (statements_of _ _ _ _ A B T) as (ss & e & Md & Ve & _).
  pose proof (stream_lexemes _ _ _ _ T) as L.
  destruct (if o_read_options s then parse_options opts s else Ok s) as [s1| | |]; try discriminate R. cbn [bind] in R.
  set (vc := map remove_superfluous_parentheses vec) in *.
  assert (Lc : Forall (Forall lexeme) vc). { unfold vc. apply Forall_map. eapply Forall_impl; [|exact L]. apply cleaned_lexemes. }
  pose proof (gdo_parse_spec (o_param s1) (o_prefix_list s1) (o_symbol_list s1) (input_name input) vc Lc) as G.
  destruct (gdo_parse (o_param s1) (o_prefix_list s1) (o_symbol_list s1) (input_name input) vc) as [t| | |] eqn:Gp; try discriminate R. cbn [bind] in R.
  destruct (typedefs_of_input _ _ _ _ _ _ (m_pfx_lower (o_pfxs s1)) Lc Gp) as (es & y' & _ & _ & F & F1 & F2 & _).
  rewrite F in R. cbn [bind] in R. injection R as <- <-.
  destruct G as (ds & ps & N & Dok & W & Nd & Rec & Mi & Sel & ->).
  destruct (recorded_tables _ _ _ Rec) as (N1 & N2).
  assert (Ne : Forall (fun p => p_symbol p <> []) ps).
  { clear - Rec Dok. induction Rec as [|d p ds ps (_ & Sy & _) _ IH]; [constructor|]. inversion Dok as [|? ? D1 D2]; subst. constructor; [|auto].
    rewrite Sy. destruct D1 as (_ & (X & _)). exact X. }
  assert (Sub : forall g : proto -> bool, Forall (fun p => p_symbol p <> []) (filter g ps)).
  { intros g. apply Forall_forall. intros p X. apply filter_In in X as [X _]. rewrite Forall_forall in Ne. auto. }
  exists ss, e, ds. split; [exact Md|]. split.
  { rewrite W. unfold vc. rewrite <- Ve. clear - L. induction L as [|v vec Lv _ IH]; [constructor|]. cbn [map]. constructor; [|exact IH].
    apply remove_superfluous_unwraps. eapply Forall_impl; [|exact Lv]. apply lexeme_paren. }
  split; [exact Dok|]. split; [exact Nd|]. split; [exact N|]. split.
  { intros n X. destruct (In_dec (list_eq_dec Ascii.ascii_dec) n (declared_names ds)) as [Y|Y]; [exact Y|]. exfalso.
    assert (Z : In n (missing (o_symbol_list s1) ps)). 2:{ rewrite Mi in Z. exact Z. }
    unfold missing. apply filter_In. split; [exact X|]. apply negb_true_iff. apply not_true_iff_false. intros Q. apply existsb_exists in Q as (q & Ip & Q).
    apply in_map_iff in Ip as (p & <- & Ip). apply str_eqb_eq in Q. apply Y. unfold declared_names. rewrite <- N1, <- N2. apply in_app_iff. rewrite !in_map_iff.
    destruct (isf p) eqn:If; [left|right]; exists p; (split; [congruence|apply filter_In; split; [exact Ip|]]); [exact If|]. unfold isn. unfold isf in If. now rewrite If. }
  rewrite (formatted_names _ _ F1), (formatted_names _ _ F2), map_map. rewrite tables_pick. cbn [t_funcs t_objs].
  split.
  - cbn [tables_of t_funcs]. rewrite (names_picked _ _ _ (Sub isf)), N1. reflexivity.
  - cbn [tables_of t_objs]. rewrite <- N2, <- (names_picked _ _ _ (Sub isn)). apply map_ext. intros p. unfold with_typedef. now destruct (p_kind p).
Qed.

(* ---- what is lost *)

(** what is read depends only on the tokens *)
Lemma same_stream s input t1 t2 : tokenize_stream (o_read_options s) (lex_all t1) = tokenize_stream (o_read_options s) (lex_all t2) ->
  read_input s input t1 = read_input s input t2.
Proof. intros E. unfold read_input. now rewrite E. Qed.

Lemma placed_app qs : forall ps bol, well_placed bol ps -> (forall b, well_placed b qs) -> match qs with PWord _ :: _ | PGap _ :: _ => False | _ => True end ->
  well_placed bol (ps ++ qs).
Proof.
  induction ps as [|p ps IH]; intros bol W Q H; [apply Q|]. cbn [app]. destruct ps as [|q ps].
  - cbn [app]. destruct W as [W _]. cbn [well_placed]. split; [|apply (Q _)]. destruct p; auto; destruct qs as [|[] ?]; auto.
  - change ((p :: (q :: ps) ++ qs)) with (p :: q :: (ps ++ qs)). destruct W as [W1 W2]. split; [exact W1|]. apply (IH _ W2 Q H).
Qed.
Lemma tokens_app qs : forall ps line, pieces_tokens line (ps ++ qs) = pieces_tokens line ps ++ pieces_tokens (line + line_ends (text_of ps)) qs.
Proof.
  induction ps as [|p ps IH]; intros line; cbn [app pieces_tokens].
  - change (line_ends (text_of [])) with 0%N. now rewrite N.add_0_r.
  - rewrite IH, <- app_assoc. do 3 f_equal. change (text_of (p :: ps)) with (piece_text p ++ text_of ps).
    change line_ends with newlines. rewrite newlines_app. lia.
Qed.

Lemma tagged_lost s input ds text kw tag name : header_with ds text -> In kw [$"struct"; $"union"; $"enum"] -> plain_name tag -> plain_name name ->
  read_input s input (text ++ tagged_prototype kw tag name) = read_input s input text.
Proof.
  intros (ps & ss & P1 & P2 & -> & P3 & S1 & _) K Tg Nm. apply same_stream.
  set (qs := [PLine $"//" []; PWord kw; PGap $" "; PWord tag; PGap $" "; PPunct "*"%char; PWord name; PPunct "("%char; PWord $"void"; PPunct ")"%char; PSemi]).
  assert (Q1 : Forall piece_ok qs).
  { unfold qs. assert (Kw : piece_ok (PWord kw)).
    { cbn [In] in K. destruct K as [<-|[<-|[<-|[]]]]; (split; [discriminate|]; split; [repeat constructor|discriminate]). }
    constructor; [|constructor; [exact Kw|]].
    { split; [exists []; split; [now left|reflexivity]|]. split; [intros []|]. intros a b E. destruct a; discriminate E. }
    repeat match goal with |- Forall _ (_ :: _) => constructor | |- Forall _ [] => constructor end; try exact I.
    all: try (split; [discriminate|repeat constructor]). all: try assumption. all: try (cbn; tauto).
    discriminate. }
  assert (E : text_of ps ++ tagged_prototype kw tag name = text_of (ps ++ qs)).
  { unfold text_of. rewrite map_app, concat_app. f_equal. }
  assert (W : well_placed true (ps ++ qs)).
  { apply placed_app; [exact P2| |exact I]. intros b. unfold qs. cbn [well_placed]. tauto. }
  rewrite E, !lex_pieces by (auto; apply Forall_app; auto). rewrite tokens_app, P3.
  set (l := (1 + line_ends (text_of ps))%N). clearbody l.
  assert (B : exists k inner, pieces_tokens l qs = stmt_tokens (SBlock k inner) /\ stmt_ok (SBlock k inner)).
  { assert (Tk : forall w l0, exists m, piece_token l0 (PWord w) = m /\ forallb block_token m = true /\ Forall (fun t => t <> T_SEMICOLON) m /\ depth m = 0%Z).
    { intros w l0. cbn [piece_token]. eexists. split; [reflexivity|]. repeat match goal with |- context [if ?b then _ else _] => destruct b end;
        (split; [reflexivity|]; split; [repeat constructor; discriminate|reflexivity]). }
    destruct (Tk tag 0%N) as (m1 & M1 & B1 & N1 & D1). destruct (Tk name 0%N) as (m2 & M2 & B2 & N2 & D2).
    assert (Kt : exists k, is_keyword k = true /\ forall l0, piece_token l0 (PWord kw) = [k]).
    { cbn [In] in K. destruct K as [<-|[<-|[<-|[]]]]; eexists; (split; [|intros; reflexivity]); reflexivity. }
    destruct Kt as (k & Kk & Kt). exists k, (m1 ++ [T_OTHER $"*"] ++ m2 ++ [T_OTHER $"("; T_ID $"void"; T_OTHER $")"]). split.
    - unfold qs. cbn [pieces_tokens]. rewrite Kt. change (piece_token ?x (PWord tag)) with (piece_token 0%N (PWord tag)). rewrite M1.
      cbn [stmt_tokens]. rewrite <- !app_assoc. cbn [app piece_token]. f_equal. f_equal. f_equal.
      transitivity (piece_token 0%N (PWord name) ++ [T_OTHER $"("; T_ID $"void"; T_OTHER $")"; T_SEMICOLON]); [reflexivity|]. rewrite M2. reflexivity.
    - set (inner := m1 ++ _). split; [exact Kk|]. split; [unfold inner; rewrite !forallb_app, B1, B2; reflexivity|].
      assert (Ns : Forall (fun t => t <> T_SEMICOLON) inner). { unfold inner. rewrite !Forall_app. repeat split; auto; repeat constructor; discriminate. }
      split.
      + intros a b X. exfalso. rewrite X in Ns. apply Forall_app in Ns as [_ Ns]. inversion Ns; congruence.
      + unfold inner. rewrite !depth_app, D1, D2. reflexivity. }
  destruct B as (k & inner & -> & Bk).
  pose proof (statements_collected (o_read_options s) (ss ++ [SBlock k inner]) []) as C1. pose proof (statements_collected (o_read_options s) ss []) as C2.
  rewrite !app_nil_r in C1, C2. rewrite !flat_map_app in C1. cbn [flat_map stmt_protos] in C1. rewrite !app_nil_r in C1. rewrite C1, C2; auto. apply Forall_app. auto.
Qed.

Lemma comment_to_end s : forall bol line, (forall a c b, s = a ++ c ++ b -> ~ closer c) -> tokens_of (lex_run (mkl C_COMMENT bol line) s) = [].
Proof.
  induction s as [|c s IH]; intros bol line H; [reflexivity|]. erewrite run_tokens_skip; [|apply cc_skip|reflexivity].
  - unfold skip_one. cbn [s_state s_rest]. apply IH. intros a w b ->. apply (H (c :: a) w b). reflexivity.
  - intros w b E. apply (H [] w b). exact E.
Qed.
Lemma open_comment_lost s input ds text rest : header_with ds text -> (forall a c b, rest = a ++ c ++ b -> ~ closer c) ->
  read_input s input (text ++ $"/*" ++ rest) = read_input s input text.
Proof.
  intros (ps & ss & P1 & P2 & -> & P3 & S1 & _) N. apply same_stream. rewrite (lex_pieces ps P1 P2). unfold lex_all, lex_init.
  assert (St : stopper ($"/*" ++ rest)) by (cbn; split; [reflexivity|]; split; [reflexivity|discriminate]).
  destruct (pieces_run ps ($"/*" ++ rest) P1 St true 1%N P2) as (b & ->).
  assert (Op : opener $"/*") by (exists []; split; [now left|reflexivity]).
  pose proof (open_c b (1 + newlines (text_of ps)) $"/*" rest Op) as E.
  change ($"/*" ++ rest) with ("/"%char :: "*"%char :: rest) in *. rewrite (run_tokens_skip _ _ _ _ E) by reflexivity. cbn [s_state s_rest].
  rewrite comment_to_end by exact N. now rewrite app_nil_r.
Qed.

Lemma open_block_lost s input ds text kw tag qs : header_with ds text -> In kw [$"struct"; $"union"; $"enum"] -> plain_name tag ->
  Forall piece_ok qs -> well_placed false qs -> ~ In (PBrace "}"%char) qs ->
  read_input s input (text ++ $"//" ++ [nl] ++ kw ++ $" " ++ tag ++ $"{" ++ text_of qs) = read_input s input text.
Proof.
  intros (ps & ss & P1 & P2 & -> & P3 & S1 & _) K Tg R1 R2 R3. apply same_stream.
  set (hd := [PLine $"//" []; PWord kw; PGap $" "; PWord tag; PBrace "{"%char]).
  assert (Q1 : Forall piece_ok (hd ++ qs)).
  { apply Forall_app. split; [|exact R1]. unfold hd. assert (Kw : piece_ok (PWord kw)).
    { cbn [In] in K. destruct K as [<-|[<-|[<-|[]]]]; (split; [discriminate|]; split; [repeat constructor|discriminate]). }
    constructor; [|constructor; [exact Kw|]].
    { split; [exists []; split; [now left|reflexivity]|]. split; [intros []|]. intros a b E. destruct a; discriminate E. }
    constructor; [split; [discriminate|repeat constructor]|]. constructor; [exact Tg|]. constructor; [now left|constructor]. }
  assert (E : text_of ps ++ $"//" ++ [nl] ++ kw ++ $" " ++ tag ++ $"{" ++ text_of qs = text_of (ps ++ hd ++ qs)).
  { unfold text_of. rewrite !map_app, !concat_app. f_equal. unfold hd. cbn [map concat piece_text app]. rewrite ?app_nil_r. cbn [app]. rewrite <- !app_assoc. reflexivity. }
  assert (W : well_placed true (ps ++ hd ++ qs)).
  { apply placed_app; [exact P2| |exact I]. intros b. unfold hd. cbn [well_placed app]. repeat (split; [exact I|]). exact R2. }
  rewrite E, !lex_pieces by (auto; apply Forall_app; auto). rewrite tokens_app, P3. unfold tokenize_stream, ts_init.
  destruct (stmts_run (o_read_options s) ss S1 [] [] 0%Z (pieces_tokens (1 + line_ends (text_of ps)) (hd ++ qs))) as (c1 & ->).
  destruct (stmts_run (o_read_options s) ss S1 [] [] 0%Z []) as (c2 & E2). rewrite app_nil_r in E2. rewrite E2. clear E2.
  set (l := (1 + line_ends (text_of ps))%N). clearbody l. rewrite tokens_app.
  assert (Kt : exists k, is_keyword k = true /\ forall l0, piece_token l0 (PWord kw) = [k]).
  { cbn [In] in K. destruct K as [<-|[<-|[<-|[]]]]; eexists; (split; [|intros; reflexivity]); reflexivity. }
  destruct Kt as (k & Kk & Kt). unfold hd at 1. cbn [pieces_tokens]. rewrite Kt.
  assert (Bl : forall ts v c, (1 <= c)%Z -> Forall (fun t => block_token t = true /\ match t with T_CURLY_CLOSE _ => False | _ => True end) ts ->
     ts_loop (o_read_options s) (mkts v [] [] true c) ts = ts_finish (mkts v [] [] true 0)).
  { induction ts as [|t ts IH]; intros v c Hc Hf; [reflexivity|]. inversion Hf as [|? ? [Ht1 Ht2] Hf']; subst. cbn [ts_loop].
    destruct t; try discriminate Ht1; try (now elim Ht2); cbn [ts_step]; try (apply IH; [lia|exact Hf']).
    assert (X : (c <? 1)%Z = false) by (apply Z.ltb_ge; lia). rewrite X. now apply IH. }
  assert (Wd : forall w l0, Forall (fun t => block_token t = true /\ brace t = 0%Z /\ t <> T_SEMICOLON) (piece_token l0 (PWord w))).
  { intros w l0. cbn [piece_token]. repeat match goal with |- context [if ?b then _ else _] => destruct b end;
      repeat constructor; discriminate. }
  assert (Qt : forall l0, Forall (fun t => block_token t = true /\ match t with T_CURLY_CLOSE _ => False | _ => True end) (pieces_tokens l0 qs)).
  { clear - R3 Wd R1. induction qs as [|q qs IH]; intros l0; [constructor|]. cbn [pieces_tokens]. apply Forall_app. split.
    - destruct q as [w|c| | |c|w|o b c|o b|w b]; try (cbn [piece_token]; repeat constructor; fail).
      + eapply Forall_impl; [|apply Wd]. intros t (X1 & X2 & _). split; [exact X1|]. destruct t; try exact I. discriminate X2.
      + cbn [piece_token]. destruct (Ascii.eqb c "{"); [repeat constructor|]. destruct (Ascii.eqb_spec c "}") as [->|_]; [|repeat constructor]. exfalso. apply R3. now left.
    - inversion R1; subst. apply IH; [assumption|]. intros X. apply R3. now right. }
  match goal with |- context [piece_token ?x (PWord tag)] => pose proof (Wd tag x) as Wt; set (tt := piece_token x (PWord tag)) in *; clearbody tt end.
  cbn [piece_token app ts_loop]. assert (Es : forall r, ts_step (o_read_options s) (mkts (flat_map stmt_protos ss) [] [] false c1) k r = inl (mkts (flat_map stmt_protos ss) [] [] true 0)) by (intros; destruct k; try discriminate Kk; reflexivity).
  change ([] ++ ?x) with x. rewrite Es.
  assert (Sk : forall ts v r c, Forall (fun t => block_token t = true /\ brace t = 0%Z /\ t <> T_SEMICOLON) ts ->
     ts_loop (o_read_options s) (mkts v [] [] true c) (ts ++ r) = ts_loop (o_read_options s) (mkts v [] [] true c) r).
  { induction ts as [|t ts IH]; intros v r c Hf; [reflexivity|]. inversion Hf as [|? ? (H1 & H2 & H3) Hf']; subst. cbn [app ts_loop].
    destruct t; try discriminate H1; try discriminate H2; try (now elim H3); cbn [ts_step]; now apply IH. }
  rewrite <- ?app_assoc. rewrite Sk by exact Wt. cbn [app ts_loop]. rewrite Ascii.eqb_refl. cbn [ts_step]. rewrite Bl; [reflexivity|lia|apply Qt].
Qed.

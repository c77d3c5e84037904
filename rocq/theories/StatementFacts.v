(** The statements of any accepted input: proofs for C89. *)
From Coq Require Import Ascii String List Bool Arith NArith ZArith Lia.
From Verif Require Import Str StrFacts Lex SpecLex Tokenize SpecTokenize TokenizeFacts SpecStatements.
Import ListNotations.

Definition state_at (vec : list (list str)) (e : ending) (s : ts_state) : Prop :=
  ts_vec s = vec /\ ts_opts s = [] /\
  match e with
  | EndNone => ts_tokens s = [] /\ ts_block s = false
  | EndProto t ts => ts_tokens s = texts (t :: ts) /\ ts_block s = false
  | EndBlock kw inner => ts_tokens s = [] /\ ts_block s = true /\ ts_curly s = depth inner
  end.

Lemma texts_app a b : texts (a ++ b) = texts a ++ texts b.
Proof. unfold texts. apply flat_map_app. Qed.

Lemma proto_texts t ts : plain_text t <> None -> exists x xs, texts (t :: ts) = x :: xs.
Proof. intros H. cbn [texts flat_map]. destruct (plain_text t) as [x|]; [|easy]. cbn [app]. eauto. Qed.

Lemma inner_snoc inner t : (forall a b, inner = a ++ T_SEMICOLON :: b -> (1 <= depth a)%Z) -> (t = T_SEMICOLON -> (1 <= depth inner)%Z) ->
  forall a b, inner ++ [t] = a ++ T_SEMICOLON :: b -> (1 <= depth a)%Z.
Proof.
  intros H Ht a b E. destruct b as [|x b' _] using rev_ind.
  - apply app_inj_tail in E as [-> E]. auto.
  - rewrite app_comm_cons, app_assoc in E. apply app_inj_tail in E as [-> _]. eapply H. reflexivity.
Qed.

Lemma collected_inv ro : forall ts s vec0 e vec opts, state_at vec0 e s -> ending_ok e ->
  forallb (fun t => negb (is_option t)) ts = true -> forallb (fun t => negb (ast_token t)) ts = true -> ~ In T_AST_BEGIN ts ->
  ts_loop ro s ts = TS_eof vec opts ->
  exists ss e', ending_tokens e ++ ts = flat_map stmt_tokens ss ++ ending_tokens e' /\ Forall stmt_ok ss /\ ending_ok e' /\
    vec = vec0 ++ declarations ss e'.
Proof.
  induction ts as [|t ts IH]; intros s vec0 e vec opts St Ok O A B R.
  - exists [], e. destruct s as [v o tk bl cu]. destruct St as (V & Op & St). cbn [ts_vec ts_opts ts_tokens ts_block ts_curly] in *. subst v o.
    split; [now rewrite app_nil_r|]. split; [constructor|]. split; [exact Ok|]. cbn [ts_loop] in R. unfold ts_finish in R.
    cbn [ts_vec ts_opts ts_tokens] in R. injection R as <- _. unfold declarations. cbn [flat_map app]. f_equal.
    destruct e as [|t ts|kw inner]; cbn [ending_protos ending_ok] in *.
    + destruct St as [-> _]. reflexivity.
    + destruct St as [-> _]. destruct Ok as [_ Ok]. inversion Ok as [|? ? Ht _]; subst. destruct (proto_texts t ts Ht) as (x & xs & ->). reflexivity.
    + destruct St as [-> _]. reflexivity.
  - cbn [forallb] in O, A. apply andb_true_iff in O as [O1 O2]. apply andb_true_iff in A as [A1 A2].
    assert (B' : ~ In T_AST_BEGIN ts) by (intro; apply B; now right).
    assert (B1 : t <> T_AST_BEGIN) by (intros ->; apply B; now left).
    destruct s as [v o tk bl cu]. destruct St as (V & Op & St). cbn [ts_vec ts_opts ts_tokens ts_block ts_curly] in *. subst v o.
    cbn [ts_loop] in R.
    (* the pending part grows by [t] *)
    assert (Grow : forall e2 s2, ts_loop ro s2 ts = TS_eof vec opts -> state_at vec0 e2 s2 -> ending_ok e2 -> ending_tokens e2 = ending_tokens e ++ [t] ->
      exists ss e', ending_tokens e ++ t :: ts = flat_map stmt_tokens ss ++ ending_tokens e' /\ Forall stmt_ok ss /\ ending_ok e' /\ vec = vec0 ++ declarations ss e').
    { intros e2 s2 R2 S2 K2 T2. destruct (IH s2 vec0 e2 vec opts S2 K2 O2 A2 B' R2) as (ss & e' & E1 & E2 & E3 & E4).
      exists ss, e'. split; [|auto]. rewrite <- E1, T2, <- app_assoc. reflexivity. }
    (* [t] ends the statement [x] *)
    assert (Close : forall x s2, ts_loop ro s2 ts = TS_eof vec opts -> state_at (vec0 ++ stmt_protos x) EndNone s2 -> stmt_ok x -> stmt_tokens x = ending_tokens e ++ [t] ->
      exists ss e', ending_tokens e ++ t :: ts = flat_map stmt_tokens ss ++ ending_tokens e' /\ Forall stmt_ok ss /\ ending_ok e' /\ vec = vec0 ++ declarations ss e').
    { intros x s2 R2 S2 K2 T2. destruct (IH s2 _ EndNone vec opts S2 I O2 A2 B' R2) as (ss & e' & E1 & E2 & E3 & E4).
      exists (x :: ss), e'. cbn [flat_map ending_tokens app] in *. split; [rewrite T2, <- !app_assoc, <- E1; reflexivity|]. split; [now constructor|]. split; [exact E3|].
      rewrite E4. unfold declarations. cbn [flat_map]. now rewrite <- !app_assoc. }
    destruct e as [|t0 ts0|kw inner]; cbn [ending_ok] in Ok.
    + destruct St as [-> ->].
      assert (Pl : forall x, plain_text t = Some x -> is_keyword t = false -> ts_step ro (mkts vec0 [] [] false cu) t ts = inl (mkts vec0 [] [x] false cu) ->
        exists ss e', ending_tokens EndNone ++ t :: ts = flat_map stmt_tokens ss ++ ending_tokens e' /\ Forall stmt_ok ss /\ ending_ok e' /\ vec = vec0 ++ declarations ss e').
      { intros x P K E. rewrite E in R. apply (Grow (EndProto t []) _ R); [| |reflexivity].
        - unfold state_at. cbn [ts_vec ts_opts ts_tokens ts_block texts flat_map]. rewrite P. auto.
        - split; [exact K|]. constructor; [rewrite P; discriminate|constructor]. }
      assert (Bl : is_keyword t = true -> ts_step ro (mkts vec0 [] [] false cu) t ts = inl (mkts vec0 [] [] true 0) ->
        exists ss e', ending_tokens EndNone ++ t :: ts = flat_map stmt_tokens ss ++ ending_tokens e' /\ Forall stmt_ok ss /\ ending_ok e' /\ vec = vec0 ++ declarations ss e').
      { intros K E. rewrite E in R. apply (Grow (EndBlock t []) _ R); [| |reflexivity].
        - unfold state_at. cbn. auto.
        - split; [exact K|]. split; [reflexivity|]. intros a b X. destruct a; discriminate X. }
      destruct t; try discriminate O1; try discriminate A1; try (now elim B1); try discriminate R.
      all: try (eapply Pl; reflexivity). all: try (apply Bl; reflexivity).
      apply (Close SEmpty _ R); [|exact I|reflexivity]. unfold state_at. cbn. rewrite app_nil_r. auto.
    + destruct St as [-> ->]. destruct Ok as [K P]. inversion P as [|? ? P0 P1]; subst. destruct (proto_texts t0 ts0 P0) as (y & ys & Et). rewrite Et in *.
      assert (Pl : forall x, plain_text t = Some x -> ts_step ro (mkts vec0 [] (y :: ys) false cu) t ts = inl (mkts vec0 [] ((y :: ys) ++ [x]) false cu) ->
        exists ss e', ending_tokens (EndProto t0 ts0) ++ t :: ts = flat_map stmt_tokens ss ++ ending_tokens e' /\ Forall stmt_ok ss /\ ending_ok e' /\ vec = vec0 ++ declarations ss e').
      { intros x Px E. rewrite E in R. apply (Grow (EndProto t0 (ts0 ++ [t])) _ R); [| |reflexivity].
        - unfold state_at. cbn [ts_vec ts_opts ts_tokens ts_block]. split; [reflexivity|]. split; [reflexivity|]. split; [|reflexivity].
          change (t0 :: ts0 ++ [t]) with ((t0 :: ts0) ++ [t]). rewrite texts_app, Et. cbn [texts flat_map]. now rewrite Px.
        - split; [exact K|]. change (t0 :: ts0 ++ [t]) with ((t0 :: ts0) ++ [t]). apply Forall_app. split; [exact P|]. constructor; [rewrite Px; discriminate|constructor]. }
      destruct t; try discriminate O1; try discriminate A1; try (now elim B1); try discriminate R.
      all: try (eapply Pl; reflexivity).
      apply (Close (SProto t0 ts0) _ R); [|split; assumption|reflexivity]. unfold state_at. cbn [ts_vec ts_opts ts_tokens ts_block stmt_protos]. rewrite Et. auto.
    + destruct St as (-> & -> & ->). destruct Ok as (K & Bt & In1).
      assert (Bl : forall c, block_token t = true -> c = depth (inner ++ [t]) -> (t = T_SEMICOLON -> (1 <= depth inner)%Z) ->
        ts_step ro (mkts vec0 [] [] true (depth inner)) t ts = inl (mkts vec0 [] [] true c) ->
        exists ss e', ending_tokens (EndBlock kw inner) ++ t :: ts = flat_map stmt_tokens ss ++ ending_tokens e' /\ Forall stmt_ok ss /\ ending_ok e' /\ vec = vec0 ++ declarations ss e').
      { intros c Tb Cd Sm E. rewrite E in R. apply (Grow (EndBlock kw (inner ++ [t])) _ R); [| |reflexivity].
        - unfold state_at. cbn [ts_vec ts_opts ts_tokens ts_block ts_curly]. auto.
        - split; [exact K|]. split; [rewrite forallb_app, Bt; cbn [forallb]; now rewrite Tb|]. now apply inner_snoc. }
      assert (D1 : depth (inner ++ [t]) = (depth inner + brace t)%Z).
      { rewrite depth_app. unfold depth at 2. cbn [fold_right]. lia. }
      destruct t; try discriminate O1; try discriminate A1; try (now elim B1); try discriminate R.
      all: try (eapply Bl; [reflexivity| |intros X; discriminate X|reflexivity]; rewrite D1; cbn [brace]; lia).
      destruct (Z.ltb_spec (depth inner) 1) as [L|L].
      * apply (Close (SBlock kw inner) (mkts vec0 [] [] false (depth inner))); [| | |reflexivity].
        -- cbn [ts_step] in R. apply Z.ltb_lt in L. rewrite L in R. exact R.
        -- unfold state_at. cbn. rewrite app_nil_r. auto.
        -- split; [exact K|]. split; [exact Bt|]. split; [exact In1|lia].
      * eapply (Bl (depth inner)); [reflexivity| | |].
        -- rewrite D1. cbn [brace]. lia.
        -- auto.
        -- cbn [ts_step]. assert (X : (depth inner <? 1)%Z = false) by (apply Z.ltb_ge; lia). now rewrite X.
Qed.

(** any accepted token stream is a list of statements, and the collected ones are its declarations *)
Lemma statements_of ro ts vec opts : forallb (fun t => negb (ast_token t)) ts = true -> ~ In T_AST_BEGIN ts -> tokenize_stream ro ts = TS_eof vec opts ->
  exists ss e, made_of ts ss e /\ vec = declarations ss e /\ opts = if ro then option_texts ts else [].
Proof.
  intros A B R. unfold tokenize_stream, ts_init in R.
  assert (B' : Forall (fun t => t <> T_AST_BEGIN) ts) by (apply Forall_forall; intros t X ->; auto).
  rewrite options_transparent in R; [|exact B'|].
  2:{ intros x X. rewrite forallb_forall in A. specialize (A x X). destruct x; try exact I; discriminate A. }
  set (fs := filter (fun t => negb (is_option t)) ts) in *.
  destruct (ts_loop ro (mkts [] [] [] false 0) fs) as [v o|m|r] eqn:E; try discriminate R. cbn [add_options] in R. injection R as <- <-.
  assert (N : forall l s o' v', forallb (fun t => negb (is_option t)) l = true -> ts_loop ro s l = TS_eof v' o' -> o' = ts_opts s).
  { clear. induction l as [|t l IH]; intros s o' v' F E; [cbn [ts_loop] in E; unfold ts_finish in E; now injection E|].
    cbn [forallb] in F. apply andb_true_iff in F as [F1 F2]. cbn [ts_loop] in E. destruct s as [v o tk bl cu]. unfold ts_step in E.
    destruct bl, t; try discriminate F1; try discriminate E; try (destruct tk); try (destruct (cu <? 1)%Z);
      try (apply IH in E; [exact E|exact F2]); unfold ts_finish in E; cbn [ts_opts] in *; now injection E. }
  assert (Fo : forallb (fun t => negb (is_option t)) fs = true).
  { apply forallb_forall. intros x X. now apply filter_In in X as [_ X]. }
  assert (Fa : forallb (fun t => negb (ast_token t)) fs = true).
  { apply forallb_forall. intros x X. apply filter_In in X as [X _]. rewrite forallb_forall in A. auto. }
  assert (Fb : ~ In T_AST_BEGIN fs). { intros X. apply filter_In in X as [X _]. auto. }
  destruct (collected_inv ro fs (mkts [] [] [] false 0) [] EndNone v o) as (ss & e & E1 & E2 & E3 & E4); auto.
  { unfold state_at. cbn. auto. } { exact I. }
  exists ss, e. split; [split; auto|]. split; [exact E4|]. rewrite (N _ _ _ _ Fo E). cbn [ts_opts]. now rewrite app_nil_r.
Qed.

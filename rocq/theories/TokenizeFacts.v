(** Facts about statement collection and parenthesis clean-up. *)
From Coq Require Import Ascii String List Bool Arith NArith ZArith Lia.
From Verif Require Import Str StrFacts Lex Tokenize SpecTokenize.
Import ListNotations.

(* ---------------------------------------------------------------- statements *)

Lemma plain_step ro vec opts toks curly t rest x : plain_text t = Some x -> (toks <> [] \/ is_keyword t = false) ->
  ts_step ro (mkts vec opts toks false curly) t rest = inl (mkts vec opts (toks ++ [x]) false curly).
Proof.
  intros Hx H. destruct t; cbn in Hx; try discriminate; injection Hx as <-; cbn [ts_step kw_text]; try easy;
    (destruct toks; [destruct H as [H|H]; [easy|discriminate]|reflexivity]).
Qed.
Lemma plain_run ro ts : forall vec opts toks curly rest, Forall (fun t => plain_text t <> None) ts -> toks <> [] ->
  ts_loop ro (mkts vec opts toks false curly) (ts ++ rest) = ts_loop ro (mkts vec opts (toks ++ texts ts) false curly) rest.
Proof.
  induction ts as [|t ts IH]; intros vec opts toks curly rest H Hn; cbn [app texts flat_map]; [now rewrite app_nil_r|].
  inversion H as [|? ? Ht H']; subst. destruct (plain_text t) as [x|] eqn:E; [|easy]. cbn [ts_loop].
  rewrite (plain_step ro vec opts toks curly t (ts ++ rest) x) by auto.
  rewrite IH; [|easy|now destruct toks]. fold (texts ts). now rewrite <- app_assoc.
Qed.
Lemma proto_run ro t ts vec opts curly rest : is_keyword t = false -> Forall (fun t => plain_text t <> None) (t :: ts) ->
  ts_loop ro (mkts vec opts [] false curly) (t :: ts ++ rest) = ts_loop ro (mkts vec opts (texts (t :: ts)) false curly) rest.
Proof.
  intros Hk H. inversion H as [|? ? Ht H']; subst. destruct (plain_text t) as [x|] eqn:E; [|easy]. cbn [ts_loop].
  rewrite (plain_step ro vec opts [] curly t (ts ++ rest) x) by auto. cbn [app].
  rewrite plain_run by easy. cbn [texts flat_map]. now rewrite E.
Qed.

Lemma depth_app a b : depth (a ++ b) = (depth a + depth b)%Z.
Proof. induction a as [|t a IH]; cbn [depth app fold_right] in *; [easy|]. fold (depth a) (depth (a ++ b)). rewrite IH. lia. Qed.

Lemma block_run ro inner : forall vec opts toks curly rest, forallb block_token inner = true ->
  (forall a b, inner = a ++ T_SEMICOLON :: b -> (1 <= curly + depth a)%Z) -> (curly + depth inner <= 0)%Z ->
  exists curly', ts_loop ro (mkts vec opts toks true curly) (inner ++ T_SEMICOLON :: rest) =
    ts_loop ro (mkts vec opts [] false curly') rest.
Proof.
  induction inner as [|t inner IH]; intros vec opts toks curly rest Hb Hs Hd.
  - cbn [app ts_loop ts_step]. cbn in Hd. rewrite Z.add_0_r in Hd. destruct (Z.ltb_spec curly 1); [|lia]. eauto.
  - cbn [forallb] in Hb. apply andb_true_iff in Hb as [Hb1 Hb2].
    assert (Hs' : forall a b, inner = a ++ T_SEMICOLON :: b -> (1 <= curly + brace t + depth a)%Z).
    { intros a b ->. specialize (Hs (t :: a) b eq_refl). cbn [depth fold_right] in Hs. fold (depth a) in Hs. lia. }
    assert (Hd' : (curly + brace t + depth inner <= 0)%Z) by (cbn [depth fold_right] in Hd; fold (depth inner) in Hd; lia).
    cbn [app ts_loop]. destruct t; try discriminate Hb1; cbn [ts_step brace] in *; rewrite ?Z.add_0_r in *; try (now apply IH).
    specialize (Hs [] inner eq_refl). cbn in Hs. destruct (Z.ltb_spec curly 1); [lia|]. now apply IH.
Qed.

Lemma stmts_run ro ss : Forall stmt_ok ss -> forall vec opts curly rest, exists curly',
  ts_loop ro (mkts vec opts [] false curly) (flat_map stmt_tokens ss ++ rest) =
  ts_loop ro (mkts (vec ++ flat_map stmt_protos ss) opts [] false curly') rest.
Proof.
  intro H. induction H as [|s ss Hs H IH]; intros vec opts curly rest; cbn [flat_map app].
  { exists curly. now rewrite app_nil_r. }
  destruct s as [t ts|kw inner|]; cbn [stmt_tokens stmt_protos stmt_ok app] in *.
  - destruct Hs as [Hk Hp]. rewrite <- !app_assoc. rewrite proto_run by auto. cbn [app ts_loop ts_step].
    assert (Hne : texts (t :: ts) <> []).
    { cbn [texts flat_map]. inversion Hp. destruct (plain_text t); easy. }
    destruct (texts (t :: ts)) as [|x xs] eqn:E; [easy|].
    destruct (IH (vec ++ [x :: xs]) opts curly rest) as (c' & ->). exists c'. now rewrite <- app_assoc.
  - destruct Hs as [Hk (Hb1 & Hb2 & Hb3)]. rewrite <- !app_assoc. cbn [app ts_loop].
    assert (E : ts_step ro (mkts vec opts [] false curly) kw (inner ++ T_SEMICOLON :: flat_map stmt_tokens ss ++ rest)
                = inl (mkts vec opts [] true 0)) by (destruct kw; try discriminate Hk; reflexivity).
    rewrite E. destruct (block_run ro inner vec opts [] 0 (flat_map stmt_tokens ss ++ rest)) as (c' & ->); auto.
  - cbn [ts_loop ts_step]. apply IH.
Qed.

Lemma statements_collected ro ss last : Forall stmt_ok ss ->
  (last = [] \/ exists t ts, last = t :: ts /\ is_keyword t = false /\ Forall (fun t => plain_text t <> None) last) ->
  tokenize_stream ro (flat_map stmt_tokens ss ++ last) =
  TS_eof (flat_map stmt_protos ss ++ match last with [] => [] | _ => [texts last] end) [].
Proof.
  intros H Hl. unfold tokenize_stream, ts_init. destruct (stmts_run ro ss H [] [] 0%Z last) as (c & ->). cbn [app].
  destruct Hl as [->|(t & ts & -> & Hk & Hp)].
  - cbn [ts_loop]. unfold ts_finish. cbn [ts_vec ts_tokens ts_opts]. reflexivity.
  - rewrite <- (app_nil_r (t :: ts)) at 1. cbn [app]. rewrite proto_run by auto. cbn [ts_loop]. unfold ts_finish.
    cbn [ts_vec ts_tokens ts_opts]. assert (Hne : texts (t :: ts) <> []).
    { cbn [texts flat_map]. inversion Hp. destruct (plain_text t); easy. }
    now destruct (texts (t :: ts)).
Qed.

(** options do not disturb statements *)
Definition add_options (o : list str) (r : ts_result) : ts_result :=
  match r with TS_eof v o' => TS_eof v (o ++ o') | _ => r end.

Lemma opts_irrelevant ro : forall ts vec opts toks block curly,
  Forall (fun t => t <> T_AST_BEGIN) ts ->
  ts_loop ro (mkts vec opts toks block curly) ts = add_options opts (ts_loop ro (mkts vec [] toks block curly) ts).
Proof.
  induction ts as [|t ts IH]; intros vec opts toks block curly H.
  - cbn [ts_loop ts_finish ts_opts ts_vec ts_tokens add_options]. unfold ts_finish. cbn [add_options ts_vec ts_tokens ts_opts].
    now rewrite app_nil_r.
  - inversion H as [|? ? Ht H']; subst. cbn [ts_loop ts_step].
    assert (K : forall o b, ts_loop ro (mkts vec (opts ++ o) toks b curly) ts =
                add_options opts (ts_loop ro (mkts vec o toks b curly) ts)).
    { intros o b. rewrite IH by easy. rewrite (IH _ o) by easy. destruct (ts_loop ro (mkts vec [] toks b curly) ts); cbn [add_options]; now rewrite <- ?app_assoc. }
    destruct block, t; try easy; cbn [app]; try (destruct (curly <? 1)%Z); try (destruct toks); try (now apply IH);
      try (destruct ro; [apply (K [_])|now apply IH]);
      try (unfold ts_finish; cbn [add_options ts_vec ts_tokens ts_opts]; now rewrite ?app_nil_r).
Qed.

Lemma options_transparent ro : forall ts vec toks block curly,
  Forall (fun t => t <> T_AST_BEGIN) ts ->
  (forall x, In x ts -> match x with T_AST_FUNCVAR _ | T_AST_PARMVAR _ => False | _ => True end) ->
  ts_loop ro (mkts vec [] toks block curly) ts =
  add_options (if ro then option_texts ts else [])
    (ts_loop ro (mkts vec [] toks block curly) (filter (fun t => negb (is_option t)) ts)).
Proof.
  induction ts as [|t ts IH]; intros vec toks block curly H Ha.
  - cbn [ts_loop filter option_texts flat_map]. unfold ts_finish. cbn [ts_vec ts_tokens ts_opts]. destruct ro; reflexivity.
  - inversion H as [|? ? Ht H']; subst.
    assert (Ha' : forall x, In x ts -> match x with T_AST_FUNCVAR _ | T_AST_PARMVAR _ => False | _ => True end)
      by (intros; apply Ha; now right).
    pose proof (Ha t (or_introl eq_refl)) as Hat.
    destruct t; try easy; cbn [filter is_option negb option_texts flat_map app]; fold (option_texts ts); cbn [ts_loop ts_step];
      try (destruct block; try (destruct (curly <? 1)%Z); try (destruct toks); now (apply IH || (destruct ro; reflexivity)));
      try (destruct block, ro; reflexivity).
    assert (E : forall b, ts_step ro (mkts vec [] toks b curly) (T_OPTION text) ts
                = inl (mkts vec (if ro then [text] else []) toks b curly)) by (intros []; destruct ro; reflexivity).
    assert (Q : ts_loop ro (mkts vec (if ro then [text] else []) toks block curly) ts =
      add_options (if ro then text :: option_texts ts else [])
        (ts_loop ro (mkts vec [] toks block curly) (filter (fun t => negb (is_option t)) ts))).
    { rewrite opts_irrelevant by easy. rewrite IH by easy. destruct ro; cbn [add_options];
      destruct (ts_loop _ (mkts vec [] toks block curly) _); reflexivity. }
    destruct block; exact Q.
Qed.

(** errors reach the result *)
Lemma error_fails ro m : forall ts s, Forall (fun t => match t with T_AST_BEGIN | T_AST_FUNCVAR _ | T_AST_PARMVAR _ => False | _ => True end) ts ->
  In (T_ERROR m) ts -> exists m', ts_loop ro s ts = TS_error m'.
Proof.
  induction ts as [|t ts IH]; intros s H Hin; [easy|]. inversion H as [|? ? Ht H']; subst. cbn [ts_loop].
  destruct s as [vec opts toks block curly].
  destruct Hin as [->|Hin].
  - exists m. destruct block; reflexivity.
  - destruct (ts_step ro (mkts vec opts toks block curly) t ts) as [s'|r] eqn:E; [now apply IH|].
    cbn [ts_step] in E. destruct block, t; cbn in *; try easy; try (destruct (curly <? 1)%Z); try (destruct toks); try discriminate;
      injection E as <-; eauto.
Qed.

(* ---------------------------------------------------------------- doubled parentheses *)

Definition ent_ok (e : entry) : Prop :=
  (e_ch e = POpen -> e_str e = lparen) /\ (e_ch e = PClose -> e_str e = rparen).

Lemma pch_eqb_eq a b : pch_eqb a b = true -> a = b.
Proof. now destruct a, b. Qed.

Lemma erase_rparen_spec i o : forall v r, erase_rparen i o v = Some r ->
  exists m c d post, v = m ++ c :: d :: post /\ r = m ++ d :: post /\ e_ch c = PClose /\ e_ch d = PClose
    /\ e_num c = i /\ e_num d = o.
Proof.
  induction v as [|a v IH]; intros r H; [discriminate|]. cbn [erase_rparen] in H. destruct v as [|b v]; [discriminate|].
  destruct (pch_eqb (e_ch a) PClose && pch_eqb (e_ch b) PClose && (i =? e_num a)%Z && (o =? e_num b)%Z) eqn:E.
  - injection H as <-. rewrite !andb_true_iff in E. destruct E as (((E1 & E2) & E3) & E4).
    apply pch_eqb_eq in E1, E2. apply Z.eqb_eq in E3, E4. exists [], a, b, v. now repeat split.
  - destruct (erase_rparen i o (b :: v)) as [r'|] eqn:F; [|discriminate]. injection H as <-.
    destruct (IH r' eq_refl) as (m & c & d & post & -> & -> & Hr). exists (a :: m), c, d, post. now repeat split.
Qed.

Lemma remove_matching_unwraps f : forall pre v, Forall ent_ok v ->
  unwraps (map e_str (pre ++ v)) (map e_str (pre ++ remove_matching f v)).
Proof.
  induction f as [|f IH]; intros pre v H; cbn [remove_matching]; [constructor|].
  destruct v as [|a v]; [constructor|]. inversion H as [|? ? Ha Hv]; subst.
  assert (Hskip : unwraps (map e_str (pre ++ a :: v)) (map e_str (pre ++ a :: remove_matching f v))).
  { specialize (IH (pre ++ [a]) v Hv). rewrite <- !app_assoc in IH. exact IH. }
  destruct v as [|b v]; [exact Hskip|].
  destruct (pch_eqb (e_ch a) POpen && pch_eqb (e_ch b) POpen) eqn:E; [|exact Hskip].
  destruct (erase_rparen (e_num b) (e_num a) v) as [r|] eqn:F; [|exact Hskip].
  apply andb_true_iff in E as [E1 E2]. apply pch_eqb_eq in E1, E2.
  apply erase_rparen_spec in F as (m & c & d & post & -> & -> & Hc & Hd & _).
  inversion Hv as [|? ? Hb Hv']; subst. apply Forall_app in Hv' as [Hm Hv']. inversion Hv' as [|? ? Hc' Hv'']; subst.
  inversion Hv'' as [|? ? Hd' Hpost]; subst.
  eapply UnwrapsStep; [|apply (IH pre (a :: m ++ d :: post))].
  - rewrite !map_app. cbn [map]. rewrite !map_app. cbn [map].
    rewrite (proj1 Ha E1), (proj1 Hb E2), (proj2 Hc' Hc), (proj2 Hd' Hd). constructor.
  - constructor; [easy|]. apply Forall_app. split; [easy|]. now constructor.
Qed.

Lemma number_ok v : Forall paren_token v -> forall n, Forall ent_ok (number n v) /\ map e_str (number n v) = v.
Proof.
  intro H. induction H as [|x v Hx H IH]; intro n; cbn [number]; [now split|]. destruct Hx as [H1 H2].
  destruct (Ascii.eqb_spec (str_front x) "(") as [E|E]; [|destruct (Ascii.eqb_spec (str_front x) ")") as [F|F]];
    cbn [map e_str]; (split; [constructor; [split; cbn; try easy; auto|apply IH]|f_equal; apply IH]).
Qed.

Lemma remove_superfluous_unwraps v : Forall paren_token v -> unwraps v (remove_superfluous_parentheses v).
Proof.
  intro H. unfold remove_superfluous_parentheses. destruct (Nat.ltb (length v) 4); [constructor|].
  destruct (negb (existsb (str_eqb $"(") v)); [constructor|].
  destruct (number_ok v H 0%Z) as [H1 H2]. pose proof (remove_matching_unwraps (length v) [] (number 0 v) H1) as K.
  cbn [app] in K. now rewrite H2 in K.
Qed.

(** the fuel is enough *)
Lemma remove_matching_fuel : forall n m v, length v <= n -> length v <= m -> remove_matching n v = remove_matching m v.
Proof.
  induction n as [|n IH]; intros m v H1 H2.
  - destruct v; [|cbn in H1; lia]. now destruct m.
  - destruct m as [|m]; [destruct v; [easy|cbn in H2; lia]|].
    destruct v as [|a v]; [easy|]. cbn [remove_matching]. cbn [length] in H1, H2. destruct v as [|b v].
    + f_equal. apply IH; cbn; lia.
    + destruct (pch_eqb (e_ch a) POpen && pch_eqb (e_ch b) POpen).
      * destruct (erase_rparen (e_num b) (e_num a) v) as [r|] eqn:F.
        -- apply erase_rparen_spec in F as (x & c & d & post & -> & -> & _). apply IH; cbn [length] in *; rewrite app_length in *; cbn [length] in *; lia.
        -- f_equal. apply IH; lia.
      * f_equal. apply IH; lia.
Qed.

(** consequences of [unwraps] *)
Lemma count_app x a b : count x (a ++ b) = count x a + count x b.
Proof. unfold count. now rewrite filter_app, app_length. Qed.
Lemma count_cons x y a : count x (y :: a) = (if str_eqb x y then 1 else 0) + count x a.
Proof. unfold count. cbn [filter]. now destruct (str_eqb x y). Qed.
Lemma subseq_refl {A} (l : list A) : subseq l l.
Proof. induction l; now constructor. Qed.
Lemma subseq_trans {A} (a b c : list A) : subseq a b -> subseq b c -> subseq a c.
Proof.
  intros H1 H2. revert a H1. induction H2 as [|x l l' H IH|x l l' H IH]; intros a H1; [easy| |constructor; auto].
  inversion H1; subst; constructor; auto.
Qed.
Lemma subseq_app {A} (a b c d : list A) : subseq a b -> subseq c d -> subseq (a ++ c) (b ++ d).
Proof. intros H1 H2. induction H1; cbn [app]; [easy| |]; now constructor. Qed.

Lemma unwrap_facts u v : unwrap u v ->
  subseq v u /\ filter (fun x => negb (is_paren x)) v = filter (fun x => negb (is_paren x)) u /\
  count lparen u = S (count lparen v) /\ count rparen u = S (count rparen v) /\ In lparen v /\ In rparen v.
Proof.
  intros [pre mid post]. split; [|split; [|split; [|split; [|split]]]].
  - apply subseq_app; [apply subseq_refl|]. apply SubKeep, SubDrop. apply subseq_app; [apply subseq_refl|].
    apply SubDrop, SubKeep, subseq_refl.
  - rewrite !filter_app. cbn [filter is_paren negb orb]. change (is_paren lparen) with true. cbn [negb].
    rewrite !filter_app. cbn [filter]. change (is_paren rparen) with true. reflexivity.
  - rewrite !count_app, !count_cons, !count_app, !count_cons. change (str_eqb lparen lparen) with true.
    change (str_eqb lparen rparen) with false. cbv iota. lia.
  - rewrite !count_app, !count_cons, !count_app, !count_cons. change (str_eqb rparen rparen) with true.
    change (str_eqb rparen lparen) with false. cbv iota. lia.
  - apply in_app_iff. right. now left.
  - apply in_app_iff. right. right. apply in_app_iff. right. now left.
Qed.
Lemma unwraps_facts u v : unwraps u v ->
  subseq v u /\ filter (fun x => negb (is_paren x)) v = filter (fun x => negb (is_paren x)) u /\
  count lparen u + count rparen v = count lparen v + count rparen u /\ (In lparen u -> In lparen v) /\ (In rparen u -> In rparen v).
Proof.
  intro H. induction H as [v|u v w H1 H2 IH].
  - repeat split; auto using subseq_refl.
  - apply unwrap_facts in H1 as (A1 & A2 & A3 & A4 & A5 & A6). destruct IH as (B1 & B2 & B3 & B4 & B5).
    repeat split; auto.
    + eapply subseq_trans; eauto.
    + congruence.
    + lia.
Qed.

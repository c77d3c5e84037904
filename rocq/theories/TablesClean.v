(** What is read from a text is made of the characters of declarations. *)
From Coq Require Import Ascii String List Bool Arith NArith ZArith Lia.
From Verif Require Import Str StrFacts NumFacts CheckPattern Parse ParamNames Format Prefix Lex Tokenize SpecParse SpecLex SpecTokenize SpecTables SpecFormat SpecPrefix SpecSubstitute
  ParseFacts ParseFacts2 ParamFacts ParamFacts2 ParseProps SelectFacts TypedefFacts FormatFacts FormatProps LexProps TokenizeFacts SpecTemplates Options Generate ClangAst Frontend.
Import ListNotations.

Notation dt := declaration_text.
Lemma dt_app a b : dt (a ++ b) <-> dt a /\ dt b.
Proof. apply Forall_app. Qed.
Lemma dt_dec s : forallb declaration_char s = true -> dt s.
Proof. intros H. apply Forall_forall. now apply forallb_forall. Qed.
Ltac dt_lit := apply dt_dec; reflexivity.
Lemma dt_ident s : ident_text s -> dt s.
Proof. apply Forall_impl. intros c C. unfold declaration_char. now rewrite C. Qed.
Lemma dt_lexeme t : lexeme t -> dt t.
Proof.
  intros [(_ & H)|H]; [now apply dt_ident|]. unfold punct in H. repeat (destruct H as [<-|H]; [dt_lit|]). destruct H.
Qed.
Lemma dt_join sep l : dt sep -> Forall dt l -> dt (join sep l).
Proof.
  intros S. induction l as [|x [|y l] IH]; intros H; [constructor|inversion H; assumption|]. inversion H; subst.
  change (join sep (x :: y :: l)) with (x ++ sep ++ join sep (y :: l)). apply dt_app. split; [assumption|]. apply dt_app. auto.
Qed.
Lemma dt_spaced l : Forall dt l -> dt (spaced l).
Proof. unfold spaced. induction 1; cbn [map concat]; [constructor|]. apply dt_app. split; [apply dt_app; split; [assumption|dt_lit]|assumption]. Qed.
Lemma dt_lexemes l : Forall lexeme l -> Forall dt l.
Proof. apply Forall_impl. exact dt_lexeme. Qed.
Lemma dt_name k : dt (gen_name k).
Proof.
  unfold gen_name, nat_to_string. apply dt_app. split; [dt_lit|]. destruct (to_string_value (N.of_nat k)) as (_ & _ & H).
  eapply Forall_impl; [|exact H]. intros c C. cbn beta in C. unfold declaration_char, is_ident. unfold isalnum. now rewrite C, ?orb_true_r.
Qed.
Lemma dt_type d : Forall lexeme (written d) -> dt (decl_type d).
Proof.
  intros H. destruct d; cbn [written decl_type] in *; rewrite ?Forall_app in H;
    try (apply dt_spaced, dt_lexemes; rewrite ?Forall_app; tauto).
  apply dt_app. split; [apply dt_spaced, dt_lexemes; tauto|]. apply dt_app. split; [dt_lit|]. apply dt_spaced, dt_lexemes.
  destruct H as (_ & H0 & H1 & H2). change ([$"("] ++ ps ++ [$")"]) with ([$"("] ++ (ps ++ [$")"])).
  apply Forall_app. split; [|apply Forall_app; tauto]. constructor; [|constructor]. right. cbn. tauto.
Qed.
Lemma comma_join_dt vs : Forall (Forall lexeme) vs -> Forall dt (comma_join vs).
Proof.
  induction vs as [|v [|w vs] IH]; intros H; [constructor|inversion H; now apply dt_lexemes|]. inversion H; subst.
  change (comma_join (v :: w :: vs)) with (v ++ [$","] ++ comma_join (w :: vs)). apply Forall_app. split; [now apply dt_lexemes|].
  apply Forall_app. split; [constructor; [dt_lit|constructor]|auto].
Qed.
Lemma insert_dt n v w : insert_name n v w -> dt n -> Forall dt v -> Forall dt w.
Proof.
  intros I N V. destruct I; rewrite ?Forall_app in *.
  - split; [exact V|]. constructor; [exact N|constructor].
  - destruct V as (V1 & V2 & V3). split; [exact V1|]. split; [|exact V3].
    inversion V2 as [|? ? A1 V4]; subst. inversion V4 as [|? ? A2 V5]; subst. inversion V5 as [|? ? A3 V6]; subst. constructor; [exact A1|]. constructor; [exact A2|]. constructor; [exact N|exact V6].
  - destruct V as (V1 & V2 & V3). split; [exact V1|]. split; [|exact V3].
    inversion V2 as [|? ? A1 V4]; subst. inversion V4 as [|? ? A2 V5]; subst. constructor; [exact A1|]. constructor; [exact A2|]. constructor; [exact N|exact V5].
  - split; [tauto|]. split; [constructor; [exact N|constructor]|tauto].
Qed.
Lemma created_dt k vs ts ns : created k vs ts ns -> Forall (Forall lexeme) vs -> Forall dt ts /\ Forall dt ns.
Proof.
  induction 1 as [k|k vs ts ns C IH|k v w t vs ts ns I T C IH]; intros H; [split; constructor| |]; inversion H as [|? ? H1 H2]; subst; destruct (IH H2) as (I1 & I2).
  - split; constructor; auto; dt_lit.
  - split; constructor; auto; [|apply dt_name]. pose proof (insert_dt _ _ _ I (dt_name k) (dt_lexemes _ H1)) as W.
    assert (U : dt (unwords w)) by (apply dt_join; [dt_lit|exact W]). destruct T as [->| ->]; [exact U|]. apply dt_app. split; [exact U|dt_lit].
Qed.
Lemma params_dt m vs args names : Forall (Forall lexeme) vs -> params_ok m vs args names -> dt args /\ dt names.
Proof.
  intros L [(-> & -> & ->)|[(t & -> & _ & -> & ->)|(_ & _ & H)]].
  - split; constructor.
  - inversion L as [|? ? L1 _]; subst. inversion L1; subst. split; [now apply dt_lexeme|constructor].
  - assert (U : dt (unwords (comma_join vs))) by (apply dt_join; [dt_lit|now apply comma_join_dt]).
    destruct m.
    + destruct H as (-> & ns & N & ->). split; [exact U|]. apply dt_join; [dt_lit|]. clear U. induction N as [|v o vs ns O N IH]; [constructor|].
      inversion L; subst. destruct o as [n|]; cbn [somes]; [|auto]. constructor; [|auto]. destruct O as (O & _). apply dt_lexeme. rewrite Forall_forall in *. auto.
    + destruct H as (ts & ns & C & -> & ->). destruct (created_dt _ _ _ _ C L) as (A & B). split; apply dt_join; auto; dt_lit.
    + destruct H as (-> & ->). split; [exact U|constructor].
Qed.
Lemma recorded_plain m d p : Forall lexeme (written d) -> decl_ok d -> recorded m d p -> plain_proto p.
Proof.
  intros L (_ & (N1 & N2)) (K & S & T & R).
  assert (A : dt (p_args p) /\ dt (p_param_names p)).
  { destruct (decl_kind d); [|destruct R as (-> & -> & _); split; constructor..].
    destruct R as (_ & R). eapply params_dt; [|exact R]. apply copy_parameters_lexemes.
    destruct d; cbn [written decl_params] in *; try constructor; rewrite !Forall_app in L; tauto. }
  unfold plain_proto. rewrite S, T. split; [now apply dt_type|]. split; [tauto|]. split; [tauto|]. split; [exact N2|exact N1].
Qed.
Lemma unblank_dt s t : unblank s t -> dt s -> dt t.
Proof.
  induction 1 as [|c s s' U IH|c s s' C U IH]; intros D; [constructor| |]; apply Forall_cons_iff in D as (D1 & D2).
  - apply Forall_cons; [exact D1|now apply IH].
  - now apply IH.
Qed.
Lemma formatted_dt s t : formatted s t -> dt s -> dt t.
Proof.
  intros F D. destruct (format_cosmetic s) as (t' & E & U & _). unfold formatted in F. rewrite F in E. injection E as <-. now apply (unblank_dt s).
Qed.
Lemma formatted_plain p q : formatted_proto p q -> plain_proto p -> plain_proto q.
Proof.
  intros (F1 & F2 & _ & S & _ & N) (P1 & P2 & P3 & P4 & P5). unfold plain_proto. rewrite S, N.
  split; [now apply (formatted_dt _ _ F1)|]. split; [now apply (formatted_dt _ _ F2)|]. auto.
Qed.
Lemma typedef_plain pl p : ident_text pl -> plain_proto p -> plain_proto (with_typedef pl p).
Proof.
  intros I P. unfold with_typedef. destruct (p_kind p); try exact P; destruct P as (P1 & P2 & P3 & P4 & P5); unfold plain_proto, retyped; cbn [p_type p_args p_param_names p_symbol];
    (split; [|tauto]); unfold td_name; repeat (apply dt_app; split); try (now apply dt_ident); dt_lit.
Qed.

Lemma tables_plain m pfx syms name vec t : Forall (Forall lexeme) vec -> gdo_parse m pfx syms name vec = Ok t ->
  Forall plain_proto (t_funcs t ++ t_objs t) /\ t_funcs t ++ t_objs t <> [] /\ NoDup (map p_symbol (t_funcs t ++ t_objs t)).
Proof.
  intros Hl E. split; [|split; [|exact (parse_names_distinct _ _ _ _ _ _ Hl E)]]; pose proof (gdo_parse_spec m pfx syms name vec Hl) as S; rewrite E in S;
  destruct S as (ds & ps & _ & Hok & Hw & _ & Hr & _ & Ne & ->).
  - assert (P : Forall plain_proto ps).
    { subst vec. rewrite Forall_map in Hl. clear -Hok Hl Hr. induction Hr; [constructor|]. inversion Hok; inversion Hl; subst. constructor; [|auto]. eapply recorded_plain; eassumption. }
    apply Forall_forall. intros p Hp. apply (proj1 (tables_In _ _)) in Hp. apply selected_in in Hp. rewrite Forall_forall in P. auto.
  - intros Z. destruct (selected pfx syms ps) as [|p l] eqn:Q; [now elim Ne|]. assert (I : In p (selected pfx syms ps)) by (rewrite Q; now left).
    rewrite <- Q in Z. apply (proj2 (tables_In _ _)) in I. rewrite Z in I. exact I.
Qed.

(** symbol tables read from the text of a header *)
Lemma input_plain s input text s' y vec opts : tokenize_stream (o_read_options s) (lex_all text) = TS_eof vec opts ->
  (forall p, In p [s; s'] -> ident_text (m_pfx_lower (o_pfxs p))) -> read_input s input text = Ok (s', y) ->
  Forall plain_proto (s_funcs y ++ s_objs y) /\ s_funcs y ++ s_objs y <> [] /\ NoDup (map p_symbol (s_funcs y ++ s_objs y)).
Proof.
  intros T I R. unfold read_input in R. rewrite T in R. destruct (if o_read_options s then parse_options opts s else Ok s) as [s1| | |] eqn:O; try discriminate R. cbn [bind] in R.
  remember (map remove_superfluous_parentheses vec) as v. destruct (gdo_parse (o_param s1) (o_prefix_list s1) (o_symbol_list s1) (input_name input) v) as [t| | |] eqn:G; try discriminate R. cbn [bind] in R.
  assert (L : Forall (Forall lexeme) v) by (subst v; apply Forall_map; eapply Forall_impl; [|exact (stream_lexemes _ _ _ _ T)]; exact cleaned_lexemes).
  destruct (finish_tables (m_pfx_lower (o_pfxs s1)) t) as [y0| | |] eqn:F; try discriminate R. cbn [bind] in R. injection R as <- <-.
  destruct (tables_plain _ _ _ _ _ _ L G) as (P1 & P2 & P3).
  destruct (typedefs_of_input _ _ _ _ _ _ (m_pfx_lower (o_pfxs s1)) L G) as (ds & y1 & _ & _ & F' & F1 & F2 & _). rewrite F in F'. injection F' as <-.
  assert (Q : forall a b, Forall2 formatted_proto a b -> Forall plain_proto a -> Forall plain_proto b /\ map p_symbol b = map p_symbol a).
  { clear. induction 1 as [|p q a b H H2 IH]; intros P; [split; constructor|]. inversion P; subst. destruct IH as (I1 & I2); [assumption|]. split; [constructor; [now apply (formatted_plain p)|assumption]|].
    cbn [map]. rewrite I2. destruct H as (_ & _ & _ & -> & _). reflexivity. }
  apply Forall_app in P1 as (Pf & Po). destruct (Q _ _ F1 Pf) as (A1 & A2).
  assert (Po' : Forall plain_proto (map (with_typedef (m_pfx_lower (o_pfxs s1))) (t_objs t))).
  { apply Forall_map. eapply Forall_impl; [|exact Po]. intros p. apply typedef_plain, I. right. now left. }
  destruct (Q _ _ F2 Po') as (B1 & B2).
  assert (M : map p_symbol (s_funcs y0 ++ s_objs y0) = map p_symbol (t_funcs t ++ t_objs t)).
  { rewrite !map_app, A2, B2, map_map. f_equal. apply map_ext. intros p. unfold with_typedef. now destruct (p_kind p). }
  split; [apply Forall_app; auto|]. split; [|now rewrite M]. intros Z. rewrite Z in M. symmetry in M. apply map_eq_nil in M. now apply P2.
Qed.

Lemma plain_clean e : plain_proto e -> clean_proto e /\ one_line_proto e.
Proof.
  intros (P1 & P2 & P3 & P4 & P5). apply dt_ident in P4.
  assert (N : forall c s, declaration_char c = false -> dt s -> ~ In c s).
  { intros c s C D H. unfold declaration_text in D. rewrite Forall_forall in D. specialize (D _ H). rewrite C in D. discriminate D. }
  unfold clean_proto, one_line_proto. repeat split; try exact P5; (apply N; [reflexivity|assumption]).
Qed.

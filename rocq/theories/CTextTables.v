(** Proofs for C85: the brackets of the recorded symbols are those of the declarations; whole runs. *)
From Coq Require Import Ascii String List Bool Arith NArith ZArith Lia.
From Verif Require Import Str StrFacts NumFacts CheckPattern Parse ParamNames Format Prefix Lex Tokenize SpecParse SpecLex SpecTokenize SpecTables SpecFormat SpecPrefix Substitute SpecSubstitute
  ParseFacts ParseFacts2 ParamFacts ParamFacts2 ParseProps SelectFacts TypedefFacts FormatFacts FormatProps LexProps TokenizeFacts SpecTemplates Options Generate SpecGenerate ClangAst Frontend
  TablesClean SpecEndToEnd EndToEnd SpecCText CTextProps CTextAbs CTextLines CTextFile.
Import ListNotations.

(** the brackets of a text *)
Definition is_bracket (c : ascii) : bool := opening c || match matching c with Some _ => true | None => false end.
Definition skeleton (t : str) : str := filter is_bracket t.
Lemma skeleton_app a b : skeleton (a ++ b) = skeleton a ++ skeleton b.
Proof. apply filter_app. Qed.
Lemma skeleton_brackets t o : brackets t o = brackets (skeleton t) o.
Proof.
  revert o. induction t as [|c t IH]; intros o; [reflexivity|]. unfold skeleton. cbn [brackets filter]. fold (skeleton t).
  destruct (is_bracket c) eqn:B; cbn [brackets]; [destruct (bracket c o); [apply IH|reflexivity]|].
  unfold is_bracket in B. unfold bracket. destruct (opening c); [discriminate|]. destruct (matching c); [discriminate|]. apply IH.
Qed.
Lemma same_matched a b : skeleton a = skeleton b -> matched a -> matched b.
Proof. intros E. unfold matched. now rewrite (skeleton_brackets a), (skeleton_brackets b), E. Qed.
Lemma bare_matched a : skeleton a = [] -> matched a.
Proof. intros E. apply (same_matched []); [now rewrite E|reflexivity]. Qed.
Lemma skeleton_ident t : ident_text t -> skeleton t = [].
Proof.
  induction 1 as [|c t C _ IH]; [reflexivity|]. unfold skeleton in *. cbn [filter]. rewrite IH.
  replace (is_bracket c) with false; [reflexivity|]. destruct c as [[] [] [] [] [] [] [] []]; try reflexivity; discriminate.
Qed.
Lemma skeleton_concat l : skeleton (concat l) = concat (map skeleton l).
Proof. induction l as [|x l IH]; [reflexivity|]. cbn [concat map]. now rewrite skeleton_app, IH. Qed.
Lemma skeleton_spaced l : skeleton (spaced l) = skeleton (concat l).
Proof.
  unfold spaced. rewrite !skeleton_concat. f_equal. rewrite map_map. apply map_ext. intros x. rewrite skeleton_app. apply app_nil_r.
Qed.
Lemma skeleton_join sep l : skeleton sep = [] -> skeleton (join sep l) = skeleton (concat l).
Proof.
  intros S. induction l as [|x [|y l] IH]; [reflexivity|cbn; now rewrite app_nil_r|]. change (join sep (x :: y :: l)) with (x ++ sep ++ join sep (y :: l)).
  change (concat (x :: y :: l)) with (x ++ concat (y :: l)). now rewrite !skeleton_app, S, IH.
Qed.
Lemma type_bare ty : type_tokens ty -> skeleton (concat ty) = [].
Proof.
  intros T. assert (forall x, type_tok x -> skeleton x = []) as B by (intros x [(_ & X)| ->]; [now apply skeleton_ident|reflexivity]).
  assert (F : Forall type_tok ty) by (destruct ty as [|t r]; [destruct T|]; destruct T; constructor; [now left|assumption]). clear T.
  rewrite skeleton_concat. induction F as [|x r X _ IH]; [reflexivity|]. cbn [map concat]. now rewrite (B x X), IH.
Qed.
Lemma unblank_skeleton s t : unblank s t -> skeleton t = skeleton s.
Proof.
  induction 1 as [|c s s' U IH|c s s' C U IH]; [reflexivity|unfold skeleton in *; cbn [filter]; now rewrite IH|].
  unfold skeleton in *. cbn [filter]. rewrite IH. replace (is_bracket c) with false; [reflexivity|]. destruct c as [[] [] [] [] [] [] [] []]; try reflexivity; discriminate.
Qed.
Lemma formatted_matched s t : formatted s t -> matched s -> matched t.
Proof.
  intros F. destruct (format_cosmetic s) as (t' & E & U & _). unfold formatted in F. rewrite F in E. injection E as <-. apply same_matched. symmetry. now apply unblank_skeleton.
Qed.

(* ------------------------------------------------------------ parameters *)

Lemma concat_comma gs : skeleton (concat (comma_join gs)) = concat (map (fun g => skeleton (concat g)) gs).
Proof.
  induction gs as [|g [|g1 gs] IH]; [reflexivity|cbn; now rewrite app_nil_r|]. rewrite comma_join_cons. rewrite !concat_app, !skeleton_app, IH. reflexivity.
Qed.
Lemma copied_skeleton l : Forall lexeme l -> skeleton (concat (comma_join (copy_parameters l))) = skeleton (concat l).
Proof.
  intros L. destruct (copy_parameters_spec_aux (length l) l (le_n _) L) as (gs & -> & _ & _ & [(-> & _)|(_ & _ & ->)]); [reflexivity|].
  rewrite concat_app, skeleton_app. symmetry. apply app_nil_r.
Qed.
Lemma insert_skeleton n v w : ident_text n -> insert_name n v w -> skeleton (concat w) = skeleton (concat v).
Proof.
  intros N I. destruct I as [v T|ty s ps T (_ & W)|ty ps T|ty i T].
  - rewrite concat_app, skeleton_app. cbn [concat]. rewrite app_nil_r, (skeleton_ident n N). apply app_nil_r.
  - rewrite !concat_app, !skeleton_app. do 2 f_equal. cbn [concat]. rewrite !skeleton_app, (skeleton_ident n N), (skeleton_ident s W). reflexivity.
  - rewrite !concat_app, !skeleton_app. f_equal. f_equal. cbn [concat]. rewrite !skeleton_app, (skeleton_ident n N). reflexivity.
  - rewrite !concat_app, !skeleton_app. f_equal. cbn [concat]. rewrite app_nil_r, (skeleton_ident n N). reflexivity.
Qed.
Lemma name_ident k : ident_text (gen_name k).
Proof.
  unfold gen_name, nat_to_string. apply Forall_app. split; [repeat constructor|]. destruct (to_string_value (N.of_nat k)) as (_ & _ & H).
  eapply Forall_impl; [|exact H]. intros c C. cbn beta in C. unfold is_ident, isalnum. now rewrite C, ?orb_true_r.
Qed.
Lemma created_skeleton k vs ts ns : created k vs ts ns ->
  skeleton (concat ts) = concat (map (fun g => skeleton (concat g)) vs) /\ skeleton (concat ns) = [].
Proof.
  induction 1 as [k|k vs ts ns C (I1 & I2)|k v w t vs ts ns I T C (I1 & I2)]; [split; reflexivity| |]; cbn [concat map]; rewrite !skeleton_app, I1, I2; [split; reflexivity|].
  rewrite (skeleton_ident _ (name_ident k)). split; [|reflexivity]. f_equal. rewrite <- (insert_skeleton _ _ _ (name_ident k) I).
  destruct T as [-> | ->]; rewrite ?skeleton_app; unfold unwords; rewrite skeleton_join by reflexivity; [reflexivity|apply app_nil_r].
Qed.
Lemma own_bare vs ns : Forall (Forall lexeme) vs -> Forall2 own_name vs ns -> skeleton (concat (somes ns)) = [].
Proof.
  intros L F. induction F as [|v o vs ns O F IH]; [reflexivity|]. inversion L as [|? ? L1 L2]; subst. destruct o as [n|]; cbn [somes]; [|now apply IH].
  cbn [concat]. rewrite skeleton_app, IH by exact L2. rewrite app_nil_r. destruct O as (I & H). rewrite Forall_forall in L1. destruct (L1 _ I) as [(_ & W)|P]; [now apply skeleton_ident|].
  unfold punct in P. repeat (destruct P as [<- |P]; [discriminate|]). destruct P.
Qed.
Lemma params_skeleton m vs args names : Forall (Forall lexeme) vs -> params_ok m vs args names ->
  skeleton args = skeleton (concat (comma_join vs)) /\ skeleton names = [].
Proof.
  intros L [(-> & -> & ->)|[(t & -> & _ & -> & ->)|(_ & _ & H)]]; [split; reflexivity|split; [cbn; now rewrite app_nil_r|reflexivity]|].
  destruct m.
  - destruct H as (-> & ns & F & ->). unfold unwords. rewrite !skeleton_join by reflexivity. split; [reflexivity|now apply (own_bare vs)].
  - destruct H as (ts & ns & C & -> & ->). destruct (created_skeleton _ _ _ _ C) as (A & B). rewrite !skeleton_join by reflexivity. rewrite A, concat_comma. split; [reflexivity|exact B].
  - destruct H as (-> & ->). unfold unwords. rewrite skeleton_join by reflexivity. split; reflexivity.
Qed.
Lemma type_skeleton d : decl_ok d -> skeleton (decl_type d) =
  match d with
  | DArray _ _ i => $"[" ++ skeleton (concat i) ++ $"]"
  | DFunctionPointer _ _ ps => $"()(" ++ skeleton (concat ps) ++ $")"
  | _ => []
  end.
Proof.
  intros (T & _). destruct d; cbn [decl_type decl_type_tokens] in *; rewrite ?skeleton_app, ?skeleton_spaced, ?concat_app, ?skeleton_app, ?(type_bare _ T); try reflexivity.
  now destruct two.
Qed.
Lemma around a b t : matching b = Some a -> opening a = true -> opening b = false -> matched t -> matched (a :: t ++ [b]).
Proof.
  intros M A B H. unfold matched in *. cbn [brackets]. unfold bracket at 1. rewrite A. rewrite brackets_app, <- (brackets_if_true t), (matched_any true t [a] H).
  cbn [brackets]. unfold bracket. rewrite B, M, Ascii.eqb_refl. reflexivity.
Qed.
Lemma type_matched d : decl_ok d -> matched_decl d -> matched (decl_type d).
Proof.
  intros D M. pose proof (type_skeleton d D) as S. destruct d; try (apply bare_matched; exact S); cbn [matched_decl] in M.
  - apply (same_matched ($"[" ++ concat inner ++ $"]")); [rewrite S, !skeleton_app; reflexivity|]. now apply (around "[" "]").
  - apply (same_matched ($"()" ++ ($"(" ++ concat ps ++ $")"))); [rewrite S, !skeleton_app; reflexivity|]. apply matched_app; [reflexivity|]. now apply (around "(" ")").
Qed.
Lemma recorded_matched m d p : Forall lexeme (written d) -> decl_ok d -> matched_decl d -> recorded m d p -> matched_proto p.
Proof.
  intros L D M (K & S & T & R). unfold matched_proto. rewrite T. split; [now apply type_matched|].
  destruct (decl_kind d) eqn:KD; [|destruct R as (-> & -> & _); split; reflexivity..]. destruct R as (_ & R).
  assert (Lp : Forall lexeme (decl_params d)) by (destruct d; cbn [written decl_params] in *; try constructor; rewrite !Forall_app in L; tauto).
  destruct (params_skeleton _ _ _ _ (copy_parameters_lexemes _ Lp) R) as (A & B). rewrite (copied_skeleton _ Lp) in A.
  split; [|now apply bare_matched]. apply (same_matched (concat (decl_params d))); [now symmetry|]. destruct d; cbn [decl_params matched_decl] in *; auto; reflexivity.
Qed.
Lemma formatted_proto_matched p q : formatted_proto p q -> matched_proto p -> matched_proto q.
Proof.
  intros (F1 & F2 & _ & _ & _ & N) (M1 & M2 & M3). unfold matched_proto. rewrite N. split; [now apply (formatted_matched _ _ F1)|]. split; [now apply (formatted_matched _ _ F2)|exact M3].
Qed.
Lemma typedef_matched pl p : ident_text pl -> ident_text (p_symbol p) -> matched_proto p -> matched_proto (with_typedef pl p).
Proof.
  intros I S (M1 & M2 & M3). assert (B : matched (td_name pl (p_symbol p))).
  { apply bare_matched, skeleton_ident. unfold td_name. apply Forall_app. split; [exact I|]. apply Forall_app. split; [repeat constructor|]. apply Forall_app. split; [exact S|repeat constructor]. }
  unfold with_typedef. destruct (p_kind p); split; auto.
Qed.
Lemma typedef_text_fine d n t : Forall lexeme (written d) -> ident_text n -> In t (typedef_text d n) -> declaration_text t /\ skeleton t = skeleton (decl_type d).
Proof.
  intros L N I. destruct d; cbn [typedef_text] in I; try contradiction; destruct I as [<- |[]]; cbn [written decl_type] in *; rewrite !Forall_app in L.
  - split.
    + apply dt_app. split; [apply dt_spaced, dt_lexemes; tauto|]. apply dt_app. split; [now apply dt_ident|]. apply dt_spaced, dt_lexemes. rewrite !Forall_app. tauto.
    + rewrite !skeleton_app, !skeleton_spaced, (skeleton_ident n N), !concat_app, !skeleton_app. reflexivity.
  - split.
    + apply dt_app. split; [apply dt_spaced, dt_lexemes; tauto|]. apply dt_app. split; [dt_lit|]. apply dt_app. split; [now apply dt_ident|]. apply dt_app. split; [dt_lit|].
      apply dt_spaced, dt_lexemes. rewrite !Forall_app. split; [repeat constructor; right; cbn; tauto|tauto].
    + rewrite !skeleton_app, !skeleton_spaced, (skeleton_ident n N). reflexivity.
Qed.

(* ------------------------------------------------------------ reading a header *)

Lemma read_matched s input text ds : header_with ds text -> NoDup (map decl_name ds) -> Forall (simple_decl (o_param s)) ds -> Forall matched_decl ds ->
  ident_text (m_pfx_lower (o_pfxs s)) -> (forall n, In n (o_symbol_list s) -> In n (declared_names ds)) -> asked_for (o_prefix_list s) (o_symbol_list s) (declared_names ds) <> [] ->
  exists y, read_input s input text = Ok (s, y) /\ Forall plain_proto (s_funcs y ++ s_objs y) /\ s_funcs y ++ s_objs y <> [] /\ Forall matched_proto (s_funcs y ++ s_objs y) /\
    Forall (fun t => declaration_text t /\ matched t) (s_typedefs y).
Proof.
  intros H U D M I Al So. destruct (read_simple s input text ds H U D Al So) as (y & vec & opts & T & R & _).
  assert (Hs : forall p, In p [s; s] -> ident_text (m_pfx_lower (o_pfxs p))) by (intros p [<- |[<- |[]]]; exact I).
  destruct (input_plain s input text s y vec opts T Hs R) as (P1 & P2 & _). exists y. split; [exact R|]. split; [exact P1|]. split; [exact P2|].
  assert (N : ds <> []). { intros ->. apply So. unfold declared_names. cbn. now destruct (o_prefix_list s), (o_symbol_list s). }
  destruct (read_all s input text ds H N U D) as (bs & T' & C & G & Nm & _ & _ & Rec). rewrite T in T'. injection T' as -> ->.
  pose proof (stream_lexemes _ _ _ _ T) as L. unfold read_input in R. rewrite T in R.
  replace (if o_read_options s then parse_options [] s else Ok s) with (Ok s) in R by (now destruct (o_read_options s)). cbn [bind] in R. rewrite C in R.
  destruct (gdo_parse (o_param s) (o_prefix_list s) (o_symbol_list s) (input_name input) (map written ds)) as [t| | |] eqn:E; try discriminate R. cbn [bind] in R.
  destruct (filtered_run _ _ _ _ _ _ L E) as (t0 & G0 & _ & _ & _ & Q1 & Q2). rewrite G in G0. injection G0 as <-.
  destruct (typedefs_of_input _ _ _ _ _ _ (m_pfx_lower (o_pfxs s)) L E) as (es & y' & Ds & Oks & F & F1 & F2 & F3). rewrite F in R. cbn [bind] in R. injection R as <-.
  assert (MB : Forall (fun p => matched_proto p /\ ident_text (p_symbol p)) bs).
  { rewrite Forall_map in L. clear - Rec D M L. induction Rec as [|d p ds bs R _ IH]; [constructor|]. inversion D as [|? ? (Ok & _) D2]; inversion M; inversion L; subst. constructor; [|auto].
    split; [eapply recorded_matched; eassumption|]. destruct R as (_ & -> & _). apply Ok. }
  assert (MT : forall p, In p (t_funcs t) \/ In p (t_objs t) -> matched_proto p /\ ident_text (p_symbol p)).
  { intros p Hp. rewrite Forall_forall in MB. apply MB. destruct Hp as [Hp|Hp]; [apply Q1 in Hp as (Hp & _)|apply Q2 in Hp as (Hp & _)]; apply tables_In, in_or_app; auto. }
  assert (FM : forall a b, Forall2 formatted_proto a b -> Forall matched_proto a -> Forall matched_proto b).
  { clear. induction 1 as [|p q a b H _ IH]; intros P; [constructor|]. inversion P; subst. constructor; [now apply (formatted_proto_matched p)|auto]. }
  split.
  - apply Forall_app. split; [apply (FM _ _ F1), Forall_forall; intros p Hp; apply MT; now left|]. apply (FM _ _ F2), Forall_map, Forall_forall. intros p Hp.
    destruct (MT p (or_intror Hp)). now apply typedef_matched.
  - assert (TD : Forall (fun x => declaration_text x /\ matched x) (flat_map (fun d => typedef_text d (td_name (m_pfx_lower (o_pfxs s)) (decl_name d))) es)).
    { apply Forall_forall. intros x X. apply in_flat_map in X as (d & Hd & X).
      rewrite Forall_forall in Oks. destruct (Oks d Hd) as (Ok & W). assert (LD : Forall lexeme (written d)) by (rewrite Forall_forall in L; now apply L).
      destruct (typedef_text_fine d (td_name (m_pfx_lower (o_pfxs s)) (decl_name d)) x LD) as (X1 & X2); [|exact X|].
      { unfold td_name. apply Forall_app. split; [exact I|]. apply Forall_app. split; [repeat constructor|]. apply Forall_app. split; [apply Ok|repeat constructor]. }
      split; [exact X1|].
      assert (exists p, In p (t_objs t) /\ describes d p) as (p & Hp & (_ & _ & Tp)).
      { clear - Ds Hd. induction Ds as [|d' p es ps Dd _ IH]; [destruct Hd|]. destruct Hd as [<- |Hd]; [exists p; split; [now left|exact Dd]|]. destruct (IH Hd) as (q & Hq & Dq). exists q. split; [now right|exact Dq]. }
      destruct (MT p (or_intror Hp)) as ((M1 & _) & _). rewrite Tp in M1. revert M1. apply same_matched. now symmetry. }
    clear - F3 TD. induction F3 as [|a b la lb Fab _ IH]; [constructor|]. inversion TD as [|? ? (A1 & A2) TD2]; subst. constructor; [|auto].
    split; [now apply (formatted_dt _ _ Fab)|now apply (formatted_matched _ _ Fab)].
Qed.

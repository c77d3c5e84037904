(** Clang AST: what is recorded for a declaration, and scanning a dump. *)
From Coq Require Import Ascii String List Bool Arith NArith Lia.
From Verif Require Import Str StrFacts FormatFacts Regex RegexFacts Lex SpecLex LexFacts LexWords Tokenize Parse Format ClangAst
  SpecParse SpecFormat SpecClangAst ClangAstFacts ClangAstFacts2.
Import ListNotations.

(* ------------------------------------------------------------ records *)

Lemma strip_trim s : trim_of s (strip_spaces s).
Proof.
  unfold strip_spaces. destruct (strip_back_spec s) as (ws & E & Hws & H).
  destruct (drop_while_spec isspace (strip_back s)) as (a & Ea & Ha & Hb).
  exists a, ws. split; [|split; [exact Ha|split; [exact Hws|]]].
  - rewrite app_assoc, <- Ea. exact E.
  - destruct (strip_trimmed s) as [T1 T2]. unfold strip_spaces in T1, T2.
    destruct (drop_while isspace (strip_back s)) as [|c r] eqn:D; [exact I|]. split; [exact Hb|].
    apply (T2 _ (removelast (c :: r))). apply app_removelast_last. discriminate.
Qed.

Lemma find_In c s : (exists k, find [c] s = Some k) <-> In c s.
Proof.
  split.
  - intros (k & H). pose proof (find_spec [c] s) as F. rewrite H in F. destruct F as [(a & b & -> & _) _].
    apply in_or_app. right. left. reflexivity.
  - intros H. destruct (find [c] s) as [k|] eqn:E; [eauto|]. exfalso.
    apply in_split in H. destruct H as (a & b & ->). apply (proj1 (find_None _ _) E a b). reflexivity.
Qed.

Lemma object_kind_spec t : object_kind t (if find $"(*)" t then KFunctionPointer else if find $"[" t then KObjectArray else KObject).
Proof.
  unfold object_kind. destruct (find $"(*)" t) as [k|] eqn:E.
  - left. split; [|reflexivity]. destruct (find_split _ _ _ E) as (a & b & H & _). exists a, b. exact H.
  - apply find_occurs in E. right. destruct (find $"[" t) as [k|] eqn:F.
    + left. split; [exact E|]. split; [|reflexivity]. apply find_In. eauto.
    + right. split; [exact E|]. split; [|reflexivity]. intros K. apply find_In in K. destruct K as (k & K).
      change ($"[") with ["["%char] in F. congruence.
Qed.

Lemma first_paren t k : find $"(" t = Some k -> exists rest, t = firstn k t ++ $"(" ++ rest /\ ~ In "("%char (firstn k t).
Proof.
  intros H. pose proof (find_spec $"(" t) as F. rewrite H in F. destruct F as [(a & b & E & L) M].
  assert (firstn k t = a) as -> by (rewrite E, <- L; apply firstn_app_exact).
  exists b. split; [exact E|]. intros K. apply in_split in K. destruct K as (x & y & ->).
  specialize (M x (y ++ $"(" ++ b)). rewrite E in M. rewrite <- !app_assoc in M. specialize (M eq_refl).
  rewrite app_length in L. cbn [length] in L. lia.
Qed.

(** each parameter's text ends in a comma and a blank while they are being collected *)
Definition par_text (name ty : str) : str :=
  match find $"(*)" ty with
  | Some pos => insert_at (pos + 2) name ty
  | None => (if ends_with $"*" ty then ty else ty ++ $" ") ++ name
  end.

Lemma ends_star a ty : (a = [] \/ exists b, a = b ++ $", ") -> ends_with $"*" (a ++ ty) = ends_with $"*" ty.
Proof.
  intros H. destruct ty as [|c ty].
  - rewrite app_nil_r. destruct H as [->|(b & ->)]; [reflexivity|].
    unfold ends_with. rewrite rev_app_distr. reflexivity.
  - unfold ends_with. rewrite rev_app_distr. cbn [rev app lit list_ascii_of_string].
    destruct (rev ty ++ [c]) as [|x y] eqn:E; [destruct (rev ty); discriminate|]. reflexivity.
Qed.

Lemma par_step_spec p ty : (pr_args p = [] \/ exists b, pr_args p = b ++ $", ") ->
  par_step p ty = mkpar (pr_args p ++ par_text (arg_name (pr_count p)) ty ++ $", ")
                        (pr_names p ++ arg_name (pr_count p) ++ $", ") (S (pr_count p)).
Proof.
  intros H. unfold par_step, par_text. change ("a"%char :: nat_to_string (pr_count p)) with (arg_name (pr_count p)).
  f_equal. destruct (find $"(*)" ty); [reflexivity|]. rewrite ends_star by exact H.
  destruct (ends_with $"*" ty); rewrite <- !app_assoc; reflexivity.
Qed.

Fixpoint par_texts (k : nat) (ps : list str) : list str :=
  match ps with [] => [] | t :: ps' => par_text (arg_name k) t :: par_texts (S k) ps' end.

Definition comma_all (l : list str) : str := concat (map (fun t => t ++ $", ") l).
Lemma par_steps ps : forall p, (pr_args p = [] \/ exists b, pr_args p = b ++ $", ") ->
  fold_left par_step ps p = mkpar (pr_args p ++ comma_all (par_texts (pr_count p) ps))
                                  (pr_names p ++ comma_all (arg_names (pr_count p) ps)) (pr_count p + length ps).
Proof.
  induction ps as [|t ps IH]; intros p H; cbn [fold_left].
  - unfold comma_all. cbn. rewrite !app_nil_r, Nat.add_0_r. destruct p; reflexivity.
  - rewrite IH.
    + rewrite par_step_spec by exact H. cbn [pr_args pr_names pr_count par_texts arg_names length]. unfold comma_all. cbn [map concat].
      rewrite <- !app_assoc. f_equal. lia.
    + right. rewrite par_step_spec by exact H. cbn [pr_args]. exists (pr_args p ++ par_text (arg_name (pr_count p)) t).
      rewrite <- app_assoc. reflexivity.
Qed.

Lemma delete_comma l : delete_suffix (comma_all l) $", " = join $", " l.
Proof.
  destruct l as [|x l]; [reflexivity|].
  assert (E : comma_all (x :: l) = join $", " (x :: l) ++ $", ").
  { revert x. induction l as [|y l IH]; intros x; unfold comma_all; cbn [map concat]; [rewrite app_nil_r; reflexivity|].
    fold (comma_all (y :: l)) in *. cbn [map concat] in IH. unfold comma_all in IH. cbn [map concat] in IH. rewrite IH.
    change (join $", " (x :: y :: l)) with (x ++ $", " ++ join $", " (y :: l)). rewrite <- !app_assoc. reflexivity. }
  rewrite E. unfold delete_suffix. rewrite ends_with_app. rewrite app_length.
  replace (length (join $", " (x :: l)) + length $", " - length $", ") with (length (join $", " (x :: l))) by lia.
  apply firstn_app_exact.
Qed.

Lemma par_text_spec n ty : put_name n ty (par_text n ty).
Proof.
  unfold par_text. destruct (find $"(*)" ty) as [pos|] eqn:E.
  - pose proof (find_spec $"(*)" ty) as F. rewrite E in F. destruct F as [(a & b & -> & L) M].
    replace (insert_at (pos + 2) n (a ++ $"(*)" ++ b)) with (a ++ $"(*" ++ n ++ $")" ++ b).
    + apply pn_fptr. intros (x & y & H). specialize (M x (y ++ $")" ++ b)).
      assert (H' : a ++ $"(*)" ++ b = x ++ $"(*)" ++ y ++ $")" ++ b).
      { change ($"(*)" ++ b) with ($"(*" ++ $")" ++ b). rewrite app_assoc, H, <- !app_assoc. reflexivity. }
      apply M in H'. apply (f_equal (@length _)) in H. rewrite !app_length in H. cbn [length lit list_ascii_of_string] in H. lia.
    + assert (K : insert_at (length (a ++ $"(*")) n ((a ++ $"(*") ++ $")" ++ b) = (a ++ $"(*") ++ n ++ $")" ++ b).
      { unfold insert_at, replace_at. rewrite Nat.add_0_r, firstn_app_exact, skipn_app_exact. reflexivity. }
      rewrite <- !app_assoc in K. rewrite app_length in K. rewrite <- L. symmetry. exact K.
  - apply find_occurs in E. destruct (ends_with $"*" ty) eqn:S.
    + apply ends_with_spec in S. destruct S as (r & ->). rewrite <- app_assoc. apply pn_pointer. exact E.
    + rewrite <- app_assoc. apply pn_plain; [exact E|]. intros L.
      assert (ends_with $"*" ty = true); [|congruence].
      destruct ty as [|c ty]; [discriminate|]. apply ends_with_spec. exists (removelast (c :: ty)).
      assert (R := app_removelast_last (l := c :: ty) sp ltac:(discriminate)). rewrite L in R. exact R.
Qed.

Lemma par_texts_zip ps : forall k, zip3 put_name (arg_names k ps) ps (par_texts k ps).
Proof. induction ps as [|t ps IH]; intros k; cbn [arg_names par_texts]; constructor; [apply par_text_spec|apply IH]. Qed.

Lemma item_recorded i : spelled_out i -> recorded i (item_proto i).
Proof.
  destruct i as [n t ps|n t]; cbn [spelled_out recorded item_proto p_symbol p_kind p_type p_args p_param_names]; intros H.
  - destruct (find_paren t H) as (k & Ek). rewrite Ek.
    rewrite par_steps by (left; reflexivity). cbn [pr_args pr_names pr_count app].
    repeat split.
    + destruct (first_paren t k Ek) as (rest & E & N). exists (firstn k t), rest. repeat split; [exact E|exact N|apply strip_trim].
    + apply delete_comma.
    + exists (par_texts 1 ps). split; [apply par_texts_zip|apply delete_comma].
  - repeat split; [apply strip_trim|apply object_kind_spec].
Qed.

(* ------------------------------------------------------------ scanning *)

Definition ast_st (bol : bool) (line : N) : lstate := mkl AST bol line.
Definition bol_rules : list rule :=
  [mkrule AST true funcvar_re TokFuncVar; mkrule AST true parmvar_re TokParmVar; mkrule AST false (chr nl) Skip; mkrule AST false any Skip].
Definition mid_rules : list rule := [mkrule AST false (chr nl) Skip; mkrule AST false any Skip].
Lemma ast_bol : filter (active AST true) rules = bol_rules.
Proof. reflexivity. Qed.
Lemma ast_mid : filter (active AST false) rules = mid_rules.
Proof. reflexivity. Qed.

Lemma longest_any1 c s : c <> nl -> longest any (c :: s) = Some 1.
Proof. intros H. apply (longest_cls_hit (fun c => negb (Ascii.eqb c nl))). apply Ascii.eqb_neq in H. rewrite H. reflexivity. Qed.
Lemma longest_nl1 s : longest (chr nl) (nl :: s) = Some 1.
Proof. apply (longest_cls_hit (Ascii.eqb nl)). reflexivity. Qed.
Lemma longest_any_nl s : longest any (nl :: s) = None.
Proof. destruct s; reflexivity. Qed.
Lemma longest_nl_other c s : c <> nl -> longest (chr nl) (c :: s) = None.
Proof. intros H. apply longest_none. intros u v E K. apply chr_spec in K. subst u. cbn [app] in E. congruence. Qed.

Lemma best_mid_char c s : c <> nl -> best mid_rules (c :: s) = Some (1, Skip).
Proof. intros H. unfold mid_rules, best. cbn [r_re r_act]. rewrite longest_nl_other, longest_any1 by exact H. reflexivity. Qed.
Lemma best_mid_nl s : best mid_rules (nl :: s) = Some (1, Skip).
Proof. unfold mid_rules, best. cbn [r_re r_act]. rewrite longest_nl1, longest_any_nl. reflexivity. Qed.


Lemma run_match k bol line t s a : t <> [] ->
  best (filter (active k bol) rules) (t ++ s) = Some (length t, a) ->
  is_error (act_token a t (line + newlines t)) = false ->
  tokens_of (lex_run (mkl k bol line) (t ++ s)) =
    opt_list (act_token a t (line + newlines t)) ++
    tokens_of (lex_run (mkl (act_cond a (line + newlines t) k) (ends_line t) (line + newlines t)) s).
Proof.
  intros Ht Hb He. destruct t as [|c t]; [easy|]. cbn [app] in *.
  assert (Hs := step_of (mkl k bol line) c (t ++ s) _ _ Hb). cbn zeta in Hs.
  change (c :: t ++ s) with ((c :: t) ++ s) in Hs. rewrite firstn_app_exact, skipn_app_exact in Hs. cbn [l_cond l_line app] in Hs.
  rewrite run_tokens_cons; rewrite Hs; cbn [s_tok s_state s_rest]; [|apply He]. reflexivity.
Qed.

Lemma no_nl_end u : ~ In nl u -> ends_line u = false.
Proof.
  intros H. unfold ends_line. destruct (ends_with [nl] u) eqn:E; [|reflexivity].
  apply ends_with_spec in E. destruct E as (r & ->). exfalso. apply H. apply in_or_app. right. left. reflexivity.
Qed.

Lemma mid_line u s : ~ In nl u -> forall line, exists line',
  tokens_of (lex_run (ast_st false line) (u ++ nl :: s)) = tokens_of (lex_run (ast_st true line') s).
Proof.
  induction u as [|c u IH]; intros H line.
  - exists (line + newlines [nl])%N. cbn [app]. change (nl :: s) with ([nl] ++ s). unfold ast_st.
    rewrite (run_match AST false line [nl] s Skip); [reflexivity|discriminate| |reflexivity].
    rewrite ast_mid. apply best_mid_nl.
  - assert (Hc : c <> nl) by (intros ->; apply H; left; reflexivity).
    destruct (IH (fun K => H (or_intror K)) (line + newlines [c])%N) as (line' & E). exists line'. rewrite <- E.
    change ((c :: u) ++ nl :: s) with ([c] ++ u ++ nl :: s). unfold ast_st.
    rewrite (run_match AST false line [c] (u ++ nl :: s) Skip); [|discriminate| |reflexivity].
    + cbn [act_token opt_list app act_cond]. rewrite no_nl_end; [reflexivity|]. intros [K|[]]; congruence.
    + rewrite ast_mid. apply best_mid_char, Hc.
Qed.

(** a line that a rule matches as a whole *)
Lemma bol_match l s a : l <> [] -> ~ In nl l -> best bol_rules (l ++ nl :: s) = Some (length l, a) ->
  forall line, (forall n, is_error (act_token a l n) = false) -> (forall n, act_cond a n AST = AST) -> exists line' n,
  tokens_of (lex_run (ast_st true line) (l ++ nl :: s)) = opt_list (act_token a l n) ++ tokens_of (lex_run (ast_st true line') s).
Proof.
  intros Hl Hn Hb line He Hc. destruct (mid_line [] s (fun K => K) (line + newlines l)%N) as (line' & E).
  exists line', (line + newlines l)%N. rewrite <- E. unfold ast_st at 1.
  rewrite (run_match AST true line l (nl :: s) a); [|exact Hl|rewrite ast_bol; exact Hb|apply He].
  rewrite Hc, (no_nl_end l Hn). reflexivity.
Qed.

(* ------------------------------------------------------------ the line rules *)

Lemma col_spec s : matches col s <-> sgr s.
Proof.
  unfold col, sgr. rewrite inv_cat. split.
  - intros (u & v & -> & H1 & H2). apply inv_cat in H2. destruct H2 as (x & y & -> & H2 & H3).
    apply inv_cat in H3. destruct H3 as (p & m & -> & H3 & H4).
    apply chr_spec in H1, H2, H4. subst. apply star_cls in H3. exists p. split; [reflexivity|].
    eapply Forall_impl; [|exact H3]. cbv beta. intros c K. apply orb_true_iff in K. destruct K as [K|K]; [left; exact K|].
    right. apply Ascii.eqb_eq in K. congruence.
  - intros (p & -> & H). exists [esc], ("["%char :: p ++ ["m"%char]). split; [reflexivity|]. split; [apply chr_spec; reflexivity|].
    apply inv_cat. exists ["["%char], (p ++ ["m"%char]). split; [reflexivity|]. split; [apply chr_spec; reflexivity|].
    apply inv_cat. exists p, ["m"%char]. split; [reflexivity|]. split; [|apply chr_spec; reflexivity].
    apply star_cls. eapply Forall_impl; [|exact H]. cbv beta. intros c [K|K]; apply orb_true_iff; [left; exact K|right].
    subst. reflexivity.
Qed.

Lemma one_col s : matches (opt col) s <-> sgrs 1 s.
Proof.
  rewrite opt_spec, col_spec. split.
  - intros [H| ->]; [|constructor]. rewrite <- (app_nil_r s). constructor; [exact H|constructor].
  - intros H. inversion H as [|n q r H1 H2]; subst; [right; reflexivity|]. inversion H2; subst. rewrite app_nil_r. left. exact H1.
Qed.
Lemma two_col s : (exists u v, s = u ++ v /\ matches (opt col) u /\ matches (opt col) v) <-> sgrs 2 s.
Proof.
  split.
  - intros (u & v & -> & H1 & H2). rewrite opt_spec, col_spec in H1, H2.
    destruct H1 as [H1| ->]; destruct H2 as [H2| ->]; cbn [app].
    + constructor; [exact H1|]. rewrite <- (app_nil_r v). constructor; [exact H2|constructor].
    + constructor; [exact H1|constructor].
    + rewrite <- (app_nil_r v). constructor; [exact H2|constructor].
    + constructor.
  - intros H. inversion H as [|n q r H1 H2]; subst.
    + exists [], []. rewrite opt_spec. tauto.
    + exists q, r. split; [reflexivity|]. split; [apply opt_spec; left; apply col_spec, H1|apply one_col, H2].
Qed.

(** what the two line rules match *)
Definition head_of (marks : str -> Prop) (kws : str -> Prop) (u : str) : Prop :=
  exists c1 m c2 kw c3 s, u = c1 ++ m ++ c2 ++ kw ++ c3 ++ $" 0x" ++ s /\ sgrs 1 c1 /\ marks m /\ sgrs 2 c2 /\ kws kw /\ sgrs 2 c3 /\ ~ In nl s.
Definition decl_kw (kw : str) : Prop := kw = $"FunctionDecl" \/ kw = $"VarDecl".
Definition parm_kw (kw : str) : Prop := kw = $"ParmVarDecl".

Lemma star_any s : matches (Star any) s <-> ~ In nl s.
Proof.
  unfold any. rewrite star_cls, Forall_forall. split.
  - intros H K. apply H in K. vm_compute in K. discriminate.
  - intros H c K. destruct (Ascii.eqb c nl) eqn:E; [|reflexivity]. apply Ascii.eqb_eq in E. subst. contradiction.
Qed.

Lemma funcvar_spec u : matches funcvar_re u <-> head_of top_marks decl_kw u.
Proof.
  unfold funcvar_re. split.
  - intros H. apply inv_cat in H. destruct H as (c1 & r1 & -> & H1 & H). apply inv_cat in H. destruct H as (b & r2 & -> & Hb & H).
    apply inv_cat in H. destruct H as (d & r3 & -> & Hd & H). apply inv_cat in H. destruct H as (x & r4 & -> & Hx & H).
    apply inv_cat in H. destruct H as (y & r5 & -> & Hy & H). apply inv_cat in H. destruct H as (k & r6 & -> & Hk & H).
    apply inv_cat in H. destruct H as (e & r7 & -> & He & H). apply inv_cat in H. destruct H as (z & r8 & -> & Hz & H).
    apply inv_cat in H. destruct H as (w & r9 & -> & Hw & H). apply inv_cat in H. destruct H as (o & t & -> & Ho & Ht).
    apply one_col in H1. apply inv_cls in Hb. destruct Hb as (c & -> & Hc). apply chr_spec in Hd. apply word_spec in He, Ho.
    apply star_any in Ht. apply inv_alt in Hk. rewrite !word_spec in Hk. subst d e o.
    exists c1, ([c] ++ ["-"%char]), (x ++ y), (k ++ $"Decl"), (z ++ w), t.
    split; [rewrite <- !app_assoc; reflexivity|]. split; [exact H1|]. split.
    { apply orb_true_iff in Hc. unfold top_marks. destruct Hc as [Hc|Hc]; apply Ascii.eqb_eq in Hc; subst c; [left|right; left]; reflexivity. }
    split; [apply two_col; eauto|]. split; [destruct Hk as [->| ->]; [left|right]; reflexivity|]. split; [apply two_col; eauto|exact Ht].
  - intros (c1 & m & c2 & kw & c3 & t & -> & H1 & Hm & H2 & Hk & H3 & Ht).
    apply two_col in H2, H3. destruct H2 as (x & y & -> & Hx & Hy). destruct H3 as (z & w & -> & Hz & Hw).
    assert (M : exists c, m = [c] ++ ["-"%char] /\ Ascii.eqb c "|" || Ascii.eqb c "`" = true)
      by (destruct Hm as [<-|[<-|[]]]; eexists; split; reflexivity).
    destruct M as (c & -> & Hc).
    assert (K : exists k, kw = k ++ $"Decl" /\ (k = $"Function" \/ k = $"Var"))
      by (destruct Hk as [->| ->]; [exists $"Function"|exists $"Var"]; split; try reflexivity; [left|right]; reflexivity).
    destruct K as (k & -> & Hk'). rewrite <- !app_assoc.
    apply MCat; [apply one_col, H1|]. apply MCat; [apply inv_cls; eauto|]. apply MCat; [apply chr_spec; reflexivity|].
    apply MCat; [exact Hx|]. apply MCat; [exact Hy|]. apply MCat; [apply inv_alt; rewrite !word_spec; exact Hk'|].
    apply MCat; [apply word_spec; reflexivity|]. apply MCat; [exact Hz|]. apply MCat; [exact Hw|].
    apply MCat; [apply word_spec; reflexivity|]. apply star_any, Ht.
Qed.

Lemma parmvar_spec u : matches parmvar_re u <-> head_of child_marks parm_kw u.
Proof.
  unfold parmvar_re. split.
  - intros H. apply inv_cat in H. destruct H as (c1 & r1 & -> & H1 & H). apply inv_cat in H. destruct H as (b & r2 & -> & Hb & H).
    apply inv_cat in H. destruct H as (f & r2' & -> & Hf & H). apply inv_cat in H. destruct H as (g & r2'' & -> & Hg & H).
    apply inv_cat in H. destruct H as (d & r3 & -> & Hd & H). apply inv_cat in H. destruct H as (x & r4 & -> & Hx & H).
    apply inv_cat in H. destruct H as (y & r5 & -> & Hy & H).
    apply inv_cat in H. destruct H as (e & r7 & -> & He & H). apply inv_cat in H. destruct H as (z & r8 & -> & Hz & H).
    apply inv_cat in H. destruct H as (w & r9 & -> & Hw & H). apply inv_cat in H. destruct H as (o & t & -> & Ho & Ht).
    apply one_col in H1. apply inv_cls in Hb. destruct Hb as (c & -> & Hc). apply inv_cls in Hg. destruct Hg as (c' & -> & Hc').
    apply chr_spec in Hd, Hf. apply word_spec in He, Ho. apply star_any in Ht. subst d e o f.
    exists c1, ([c] ++ [" "%char] ++ [c'] ++ ["-"%char]), (x ++ y), $"ParmVarDecl", (z ++ w), t.
    split; [rewrite <- !app_assoc; reflexivity|]. split; [exact H1|]. split.
    { apply orb_true_iff in Hc, Hc'. unfold child_marks.
      destruct Hc as [Hc|Hc]; destruct Hc' as [Hc'|Hc']; apply Ascii.eqb_eq in Hc, Hc'; subst c c'; cbn [In app]; tauto. }
    split; [apply two_col; eauto|]. split; [reflexivity|]. split; [apply two_col; eauto|exact Ht].
  - intros (c1 & m & c2 & kw & c3 & t & -> & H1 & Hm & H2 & Hk & H3 & Ht). red in Hk. subst kw.
    apply two_col in H2, H3. destruct H2 as (x & y & -> & Hx & Hy). destruct H3 as (z & w & -> & Hz & Hw).
    assert (M : exists c c', m = [c] ++ [" "%char] ++ [c'] ++ ["-"%char] /\ Ascii.eqb c "|" || Ascii.eqb c " " = true /\
      Ascii.eqb c' "|" || Ascii.eqb c' "`" = true)
      by (destruct Hm as [<-|[<-|[<-|[<-|[]]]]]; eexists; eexists; repeat split; reflexivity).
    destruct M as (c & c' & -> & Hc & Hc'). rewrite <- !app_assoc.
    apply MCat; [apply one_col, H1|]. apply MCat; [apply inv_cls; eauto|]. apply MCat; [apply chr_spec; reflexivity|].
    apply MCat; [apply inv_cls; eauto|]. apply MCat; [apply chr_spec; reflexivity|].
    apply MCat; [exact Hx|]. apply MCat; [exact Hy|]. apply MCat; [apply word_spec; reflexivity|].
    apply MCat; [exact Hz|]. apply MCat; [exact Hw|]. apply MCat; [apply word_spec; reflexivity|]. apply star_any, Ht.
Qed.

Lemma line_no_nl s : line_text s -> ~ In nl s.
Proof. intros H K. apply (proj1 (Forall_forall _ _) H) in K. tauto. Qed.

Lemma head_no_nl (marks kws : str -> Prop) u : (forall m, marks m -> ~ In nl m) -> (forall k, kws k -> ~ In nl k) -> head_of marks kws u -> ~ In nl u.
Proof.
  intros Hm Hk (c1 & m & c2 & kw & c3 & s & -> & H1 & H2 & H3 & H4 & H5 & H6).
  rewrite !in_app_iff. intros [K|[K|[K|[K|[K|[K|K]]]]]].
  - revert K. apply line_no_nl. eapply sgrs_line, H1. - eapply Hm; eassumption.
  - revert K. apply line_no_nl. eapply sgrs_line, H3. - eapply Hk; eassumption.
  - revert K. apply line_no_nl. eapply sgrs_line, H5. - repeat (destruct K as [K|K]; [discriminate|]); destruct K. - contradiction.
Qed.
Lemma top_nl m : top_marks m -> ~ In nl m.
Proof. intros H. apply line_no_nl, marks_line. left. exact H. Qed.
Lemma child_nl m : child_marks m -> ~ In nl m.
Proof. intros H. apply line_no_nl, marks_line. right. exact H. Qed.
Lemma decl_kw_nl k : decl_kw k -> ~ In nl k.
Proof. intros [->| ->]; apply line_no_nl, line_textb; reflexivity. Qed.
Lemma parm_kw_nl k : parm_kw k -> ~ In nl k.
Proof. intros ->; apply line_no_nl, line_textb; reflexivity. Qed.

(** a match inside a line with no line break is a match of the start of the line *)
Lemma prefix_of_line (l u v s : str) : ~ In nl u -> l ++ nl :: s = u ++ v -> exists w, l = u ++ w.
Proof.
  revert u. induction l as [|c l IH]; intros [|d u] H E; cbn [app] in E; try (eexists; reflexivity).
  - injection E as <- _. exfalso. apply H. left. reflexivity.
  - injection E as <- E. destruct (IH u (fun K => H (or_intror K)) E) as (w & ->). exists w. reflexivity.
Qed.
Lemma head_extend marks kws u w : ~ In nl w -> head_of marks kws u -> head_of marks kws (u ++ w).
Proof.
  intros Hw (c1 & m & c2 & kw & c3 & s & -> & H1 & H2 & H3 & H4 & H5 & H6).
  exists c1, m, c2, kw, c3, (s ++ w). rewrite <- !app_assoc. repeat split; try assumption.
  rewrite in_app_iff. tauto.
Qed.
Lemma in_app_no {A} (x : A) a b : ~ In x (a ++ b) -> ~ In x a /\ ~ In x b.
Proof. rewrite in_app_iff. tauto. Qed.

(** the longest match of a line rule: the whole line, or nothing *)
Lemma longest_line r (P : str -> Prop) l s : (forall u, matches r u <-> P u) -> (forall u, P u -> ~ In nl u) -> P l ->
  longest r (l ++ nl :: s) = Some (length l).
Proof.
  intros H N Hl. apply longest_exact; [apply H, Hl|]. intros w x E Hw M. apply H in M. apply N in M.
  destruct w as [|c w]; [congruence|]. cbn [app] in E. injection E as <- _. apply M, in_or_app. right. left. reflexivity.
Qed.
Lemma longest_no_line r (P : str -> Prop) l s : (forall u, matches r u <-> P u) -> (forall u, P u -> ~ In nl u) ->
  (forall u w, l = u ++ w -> ~ P u) -> longest r (l ++ nl :: s) = None.
Proof.
  intros H N Hl. apply longest_none. intros u v E M. apply H in M. destruct (prefix_of_line l u v s (N _ M) E) as (w & E').
  exact (Hl u w E' M).
Qed.

Definition is_decl (u : str) : Prop := head_of top_marks decl_kw u.
Definition is_parm (u : str) : Prop := head_of child_marks parm_kw u.
Lemma is_decl_nl u : is_decl u -> ~ In nl u.
Proof. apply head_no_nl; [exact top_nl|exact decl_kw_nl]. Qed.
Lemma is_parm_nl u : is_parm u -> ~ In nl u.
Proof. apply head_no_nl; [exact child_nl|exact parm_kw_nl]. Qed.

Lemma head_strip (marks kws : str -> Prop) u w : (forall m, marks m -> ~ In esc m) -> head_of marks kws u -> exists m r, marks m /\ strip_ansi 0 (u ++ w) = m ++ r.
Proof.
  intros Hm (c1 & m & c2 & kw & c3 & s & -> & H1 & H2 & _). exists m.
  eexists. split; [exact H2|]. rewrite <- app_assoc. rewrite (strip_sgrs 1) by exact H1. rewrite <- app_assoc.
  apply strip_plain, Hm, H2.
Qed.
Lemma decl_not_parm u w u' w' : is_decl u -> is_parm u' -> u ++ w <> u' ++ w'.
Proof.
  intros H H' E. destruct (head_strip _ _ u w (fun m K => marks_esc m (or_introl K)) H) as (m & r & Hm & S).
  destruct (head_strip _ _ u' w' (fun m K => marks_esc m (or_intror K)) H') as (m' & r' & Hm' & S').
  rewrite E, S' in S. destruct Hm as [<-|[<-|[]]]; destruct Hm' as [<-|[<-|[<-|[<-|[]]]]]; cbn in S; discriminate.
Qed.

Lemma head_front_nl (P : str -> Prop) s : (forall u, P u -> ~ In nl u) -> ~ P [] -> forall r, (forall u, matches r u <-> P u) -> longest r (nl :: s) = None.
Proof.
  intros N E r H. apply longest_none. intros u v Eq M. apply H in M. destruct u as [|c u]; [contradiction|].
  cbn [app] in Eq. injection Eq as <- _. apply (N _ M). left. reflexivity.
Qed.
Lemma head_nonempty marks kws : ~ head_of marks kws [].
Proof.
  intros (c1 & m & c2 & kw & c3 & s & E & _).
  apply (f_equal (@length _)) in E. rewrite !app_length in E. cbn [length lit list_ascii_of_string] in E. lia.
Qed.

Lemma first_char (l s : str) : l <> [] -> ~ In nl l -> exists c r, l ++ nl :: s = c :: r /\ c <> nl.
Proof. destruct l as [|c l]; [congruence|]. intros _ H. exists c, (l ++ nl :: s). split; [reflexivity|]. intros ->. apply H. left. reflexivity. Qed.

Lemma best_tail l s : l <> [] -> ~ In nl l -> best mid_rules (l ++ nl :: s) = Some (1, Skip).
Proof. intros H N. destruct (first_char l s H N) as (c & r & -> & Hc). apply best_mid_char, Hc. Qed.

Lemma lex_decl_line l s line : is_decl l -> c_str l = l -> exists line',
  tokens_of (lex_run (ast_st true line) (l ++ nl :: s)) = T_AST_FUNCVAR l :: tokens_of (lex_run (ast_st true line') s).
Proof.
  intros H C. assert (Hl : l <> []) by (intros ->; exact (head_nonempty _ _ H)). assert (Hn := is_decl_nl l H).
  assert (B : best bol_rules (l ++ nl :: s) = Some (length l, TokFuncVar)).
  { change bol_rules with (mkrule AST true funcvar_re TokFuncVar :: mkrule AST true parmvar_re TokParmVar :: mid_rules).
    cbn [best r_re r_act]. rewrite (best_tail l s Hl Hn).
    rewrite (longest_line funcvar_re is_decl l s funcvar_spec is_decl_nl H).
    rewrite (longest_no_line parmvar_re is_parm l s parmvar_spec is_parm_nl).
    - destruct l as [|c l]; [congruence|]. reflexivity.
    - intros u w E K. apply (decl_not_parm l [] u w H K). rewrite app_nil_r. exact E. }
  destruct (bol_match l s TokFuncVar Hl Hn B line (fun _ => eq_refl) (fun _ => eq_refl)) as (line' & n & ->).
  exists line'. cbn [act_token opt_list app]. rewrite C. reflexivity.
Qed.

Lemma lex_parm_line l s line : is_parm l -> c_str l = l -> exists line',
  tokens_of (lex_run (ast_st true line) (l ++ nl :: s)) = T_AST_PARMVAR l :: tokens_of (lex_run (ast_st true line') s).
Proof.
  intros H C. assert (Hl : l <> []) by (intros ->; exact (head_nonempty _ _ H)). assert (Hn := is_parm_nl l H).
  assert (B : best bol_rules (l ++ nl :: s) = Some (length l, TokParmVar)).
  { change bol_rules with (mkrule AST true funcvar_re TokFuncVar :: mkrule AST true parmvar_re TokParmVar :: mid_rules).
    cbn [best r_re r_act]. rewrite (best_tail l s Hl Hn).
    rewrite (longest_line parmvar_re is_parm l s parmvar_spec is_parm_nl H).
    rewrite (longest_no_line funcvar_re is_decl l s funcvar_spec is_decl_nl).
    - destruct l as [|c l]; [congruence|]. reflexivity.
    - intros u w E K. apply (decl_not_parm u w l [] K H). rewrite app_nil_r. congruence. }
  destruct (bol_match l s TokParmVar Hl Hn B line (fun _ => eq_refl) (fun _ => eq_refl)) as (line' & n & ->).
  exists line'. cbn [act_token opt_list app]. rewrite C. reflexivity.
Qed.

Lemma lex_other_line l s line : other_line l -> exists line',
  tokens_of (lex_run (ast_st true line) (l ++ nl :: s)) = tokens_of (lex_run (ast_st true line') s).
Proof.
  intros [Hn H].
  assert (F : longest funcvar_re (l ++ nl :: s) = None).
  { apply (longest_no_line _ is_decl); [exact funcvar_spec|exact is_decl_nl|].
    intros u w -> (c1 & m & c2 & kw & c3 & t & -> & H1 & Hm & H2 & Hk & H3 & _).
    assert (E : (c1 ++ m ++ c2 ++ kw ++ c3 ++ $" 0x" ++ t) ++ w = c1 ++ m ++ c2 ++ kw ++ c3 ++ $" 0x" ++ t ++ w)
      by (rewrite <- !app_assoc; reflexivity).
    destruct (H c1 m c2 kw c3 (t ++ w) E H1 H2 H3) as [A B]. apply A. split; assumption. }
  assert (P : longest parmvar_re (l ++ nl :: s) = None).
  { apply (longest_no_line _ is_parm); [exact parmvar_spec|exact is_parm_nl|].
    intros u w -> (c1 & m & c2 & kw & c3 & t & -> & H1 & Hm & H2 & Hk & H3 & _).
    assert (E : (c1 ++ m ++ c2 ++ kw ++ c3 ++ $" 0x" ++ t) ++ w = c1 ++ m ++ c2 ++ kw ++ c3 ++ $" 0x" ++ t ++ w)
      by (rewrite <- !app_assoc; reflexivity).
    destruct (H c1 m c2 kw c3 (t ++ w) E H1 H2 H3) as [A B]. apply B. split; assumption. }
  destruct l as [|c l].
  - exists (line + newlines [nl])%N. cbn [app] in *. change (nl :: s) with ([nl] ++ s). unfold ast_st.
    rewrite (run_match AST true line [nl] s Skip); [reflexivity|discriminate| |reflexivity].
    rewrite ast_bol. change bol_rules with (mkrule AST true funcvar_re TokFuncVar :: mkrule AST true parmvar_re TokParmVar :: mid_rules).
    cbn [best r_re r_act app]. rewrite F, P. apply best_mid_nl.
  - destruct (in_app_no nl [c] l Hn) as [Hc Hl]. assert (Hc' : c <> nl) by (intros ->; apply Hc; left; reflexivity).
    destruct (mid_line l s Hl (line + newlines [c])%N) as (line' & E). exists line'. rewrite <- E.
    change ((c :: l) ++ nl :: s) with ([c] ++ l ++ nl :: s). unfold ast_st.
    rewrite (run_match AST true line [c] (l ++ nl :: s) Skip); [|discriminate| |reflexivity].
    + cbn [act_token opt_list app act_cond]. rewrite no_nl_end; [reflexivity|exact Hc].
    + rewrite ast_bol. change bol_rules with (mkrule AST true funcvar_re TokFuncVar :: mkrule AST true parmvar_re TokParmVar :: mid_rules).
      cbn [best r_re r_act app]. cbn [app] in F, P. rewrite F, P. apply best_mid_char, Hc'.
Qed.

(* ------------------------------------------------------------ a whole dump *)

Lemma node_head (marks kws : str -> Prop) m kw s l0 l : marks m -> kws kw -> node m kw s l0 -> line_text l0 -> maybe_cr l0 l -> head_of marks kws l.
Proof.
  intros Hm Hk (c1 & c2 & c3 & s' & -> & H1 & H2 & H3 & H4) L C.
  assert (N : ~ In nl s') by (intros K; apply (line_no_nl _ L); rewrite !in_app_iff; tauto).
  destruct C as [->| ->].
  - exists c1, m, c2, kw, c3, s'. repeat split; assumption.
  - exists c1, m, c2, kw, c3, (s' ++ [cr]). rewrite <- !app_assoc. repeat split; try assumption.
    rewrite in_app_iff. intros [K|[K|[]]]; [contradiction|discriminate].
Qed.
Lemma decl_line_head kw n t l : decl_kw kw -> ident_word n -> decl_line kw n t l -> is_decl l.
Proof.
  intros Hk Hn (m & j & r & l0 & Hm & Hc & N & Lj & Qj & Lt & Qt & Lr).
  eapply node_head; [exact Hm|exact Hk|exact N| |exact Hc].
  eapply node_line; [apply marks_line; left; exact Hm| |exact (decl_rest_line j n t r Lj Hn Lt Lr)|exact N].
  destruct Hk as [->| ->]; apply line_textb; reflexivity.
Qed.
Lemma param_line_head t l : param_line t l -> is_parm l.
Proof.
  intros (m & j & r & l0 & Hm & Hc & N & Lj & Qj & Lt & Qt & Lr).
  eapply node_head; [exact Hm|reflexivity|exact N| |exact Hc].
  eapply node_line; [apply marks_line; right; exact Hm| |exact (param_rest_line j t r Lj Lt Lr)|exact N].
  apply line_textb; reflexivity.
Qed.

Definition lines (ls : list str) : str := concat (map (fun x => x ++ [nl]) ls).
Lemma lines_cons l ls : lines (l :: ls) = l ++ nl :: lines ls.
Proof. unfold lines. cbn [map concat]. rewrite <- app_assoc. reflexivity. Qed.
Lemma lines_app a b : lines (a ++ b) = lines a ++ lines b.
Proof. unfold lines. rewrite map_app, concat_app. reflexivity. Qed.

Lemma lex_params ps lps : shows_params ps lps -> forall s line, exists tps line', tparams ps tps /\
  tokens_of (lex_run (ast_st true line) (lines lps ++ s)) = tps ++ tokens_of (lex_run (ast_st true line') s).
Proof.
  induction 1 as [|ps l ls H _ IH|t ps l ls H _ IH]; intros s line.
  - exists [], line. split; [constructor|reflexivity].
  - rewrite lines_cons, <- app_assoc. cbn [app]. destruct (lex_other_line l (lines ls ++ s) line H) as (line1 & ->). apply IH.
  - rewrite lines_cons, <- app_assoc. cbn [app].
    destruct (lex_parm_line l (lines ls ++ s) line (param_line_head t l H) (proj2 (param_line_spec t l H))) as (line1 & ->).
    destruct (IH s line1) as (tps & line' & H1 & ->). exists (T_AST_PARMVAR l :: tps), line'. split; [constructor; assumption|reflexivity].
Qed.

Lemma lex_shows its ls : shows its ls -> forall line, tshow its (tokens_of (lex_run (ast_st true line) (lines ls))).
Proof.
  induction 1 as [|its l ls H _ IH|n t its l ls Hn H _ IH|n t ps its l lps ls Hn H Hp _ IH]; intros line.
  - constructor.
  - rewrite lines_cons. destruct (lex_other_line l (lines ls) line H) as (line1 & ->). apply IH.
  - rewrite lines_cons. destruct (decl_line_spec _ n t l (or_intror eq_refl) Hn H) as (_ & _ & C).
    destruct (lex_decl_line l (lines ls) line (decl_line_head _ n t l (or_intror eq_refl) Hn H) C) as (line1 & ->).
    constructor; auto.
  - rewrite lines_cons, lines_app. destruct (decl_line_spec _ n t l (or_introl eq_refl) Hn H) as (_ & _ & C).
    destruct (lex_decl_line l (lines lps ++ lines ls) line (decl_line_head _ n t l (or_introl eq_refl) Hn H) C) as (line1 & ->).
    destruct (lex_params ps lps Hp (lines ls) line1) as (tps & line2 & Ht & ->). constructor; auto.
Qed.

(* ------------------------------------------------------------ the first line *)

Lemma not_longer_line r l s : (forall u v, l ++ nl :: s = u ++ v -> matches r u -> ~ In nl u) -> not_longer (longest r (l ++ nl :: s)) (length l).
Proof.
  intros H. unfold not_longer. destruct (longest r (l ++ nl :: s)) as [n|] eqn:E; [|exact I].
  assert (L := longest_le _ _ _ E). apply longest_matches in E.
  assert (Lu : length (firstn n (l ++ nl :: s)) = n) by (rewrite firstn_length; lia).
  assert (D := eq_sym (firstn_skipn n (l ++ nl :: s))).
  remember (firstn n (l ++ nl :: s)) as u eqn:Eu. clear Eu.
  destruct (prefix_of_line l u _ s (H u _ D E) D) as (w & Ew). rewrite Ew, app_length. lia.
Qed.

Lemma ast_begin_match b c1 c2 t : (b = [] \/ b = bom_s) -> sgrs 1 c1 -> sgrs 2 c2 -> ~ In nl t ->
  matches ast_begin_re (b ++ c1 ++ $"TranslationUnitDecl" ++ c2 ++ $" 0x" ++ t).
Proof.
  intros Hb H1 H2 Ht. apply two_col in H2. destruct H2 as (x & y & -> & Hx & Hy). unfold ast_begin_re. rewrite <- !app_assoc.
  apply MCat; [apply opt_spec; destruct Hb as [->| ->]; [right; reflexivity|left; apply word_spec; reflexivity]|].
  apply MCat; [apply one_col, H1|]. apply MCat; [apply word_spec; reflexivity|]. apply MCat; [exact Hx|]. apply MCat; [exact Hy|].
  apply MCat; [apply word_spec; reflexivity|apply star_any, Ht].
Qed.
Lemma ast_begin_nl u : matches ast_begin_re u -> ~ In nl u.
Proof.
  intros H. unfold ast_begin_re in H. apply inv_cat in H. destruct H as (b & r1 & -> & Hb & H).
  apply inv_cat in H. destruct H as (c1 & r2 & -> & H1 & H). apply inv_cat in H. destruct H as (k & r3 & -> & Hk & H).
  apply inv_cat in H. destruct H as (x & r4 & -> & Hx & H). apply inv_cat in H. destruct H as (y & r5 & -> & Hy & H).
  apply inv_cat in H. destruct H as (o & t & -> & Ho & Ht).
  apply one_col in H1, Hx, Hy. apply word_spec in Hk, Ho. apply star_any in Ht. subst k o.
  assert (B : ~ In nl b).
  { apply opt_spec in Hb. destruct Hb as [Hb| ->]; [apply word_spec in Hb; subst b; apply line_no_nl, line_textb; reflexivity|intros []]. }
  rewrite !in_app_iff. intros [K|[K|[K|[K|[K|[K|K]]]]]]; try contradiction; revert K; apply line_no_nl.
  - eapply sgrs_line, H1. - apply line_textb; reflexivity. - eapply sgrs_line, Hx. - eapply sgrs_line, Hy. - apply line_textb; reflexivity.
Qed.

Definition T_rules : list rule := [mkrule INITIAL true ast_begin_re AstBegin; mkrule INITIAL false identifier_re TokId; mkrule INITIAL false any TokIllegal].
Definition esc_rules : list rule := [mkrule INITIAL true ast_begin_re AstBegin; mkrule INITIAL false any TokIllegal].
Definition bom_rules : list rule := [mkrule INITIAL true ast_begin_re AstBegin; mkrule INITIAL true option_re (Begin OPTION);
  mkrule INITIAL true preproc_re (Begin PRE); mkrule INITIAL false bom Skip; mkrule INITIAL false any TokIllegal].
Lemma T_active : filter (can_start "T") (filter (active INITIAL true) rules) = T_rules.
Proof. vm_compute. reflexivity. Qed.
Lemma esc_active : filter (can_start esc) (filter (active INITIAL true) rules) = esc_rules.
Proof. vm_compute. reflexivity. Qed.
Lemma bom_active : filter (can_start "239") (filter (active INITIAL true) rules) = bom_rules.
Proof. vm_compute. reflexivity. Qed.

Lemma any_nl u : matches any u -> ~ In nl u.
Proof. intros H. apply any_spec in H. destruct H as (c & -> & H). intros [K|[]]. congruence. Qed.

(** what follows the byte order mark *)
Definition after_bom (r : str) : Prop := exists c t, r = c :: t /\ (c = esc \/ c = "T"%char).
Lemma option_not u v r : after_bom r -> bom_s ++ r = u ++ v -> ~ matches option_re u.
Proof.
  intros (c & t & -> & Hc) E H. unfold option_re in H. apply inv_cat in H. destruct H as (b & r1 & -> & Hb & H).
  apply inv_cat in H. destruct H as (k & r2 & -> & Hk & _). apply word_spec in Hk. subst k.
  apply opt_spec in Hb. destruct Hb as [Hb| ->].
  - apply word_spec in Hb. subst b. rewrite <- !app_assoc in E. apply app_inv_head in E. cbn [app lit list_ascii_of_string] in E.
    injection E as E _. destruct Hc as [Hc|Hc]; subst c; discriminate.
  - cbn [app lit list_ascii_of_string] in E. discriminate.
Qed.
Lemma preproc_not u v r : after_bom r -> bom_s ++ r = u ++ v -> ~ matches preproc_re u.
Proof.
  intros (c & t & -> & Hc) E H. unfold preproc_re in H. apply inv_cat in H. destruct H as (b & r1 & -> & Hb & H).
  apply inv_cat in H. destruct H as (k & r2 & -> & Hk & H2). apply chr_spec in H2. subst r2.
  assert (K : k = [] \/ exists d k', k = d :: k' /\ isspace d = true).
  { apply opt_spec in Hk. destruct Hk as [Hk| ->]; [|left; reflexivity]. apply star_cls in Hk.
    destruct k as [|d k]; [left; reflexivity|]. right. exists d, k. split; [reflexivity|]. inversion Hk; assumption. }
  apply opt_spec in Hb. destruct Hb as [Hb| ->].
  - apply word_spec in Hb. subst b. rewrite <- !app_assoc in E. apply app_inv_head in E.
    destruct K as [->|(d & k' & -> & Hd)]; cbn [app] in E; injection E as E _.
    + destruct Hc as [Hc|Hc]; subst c; discriminate.
    + subst d. destruct Hc as [Hc|Hc]; subst c; discriminate.
  - destruct K as [->|(d & k' & -> & Hd)]; cbn [app] in E; unfold bom_s in E; cbn [app] in E; injection E as E _.
    + discriminate. + subst d. discriminate.
Qed.

Lemma best_first_line l s : first_line l -> best (filter (active INITIAL true) rules) (l ++ nl :: s) = Some (length l, AstBegin).
Proof.
  intros (Hn & b & c1 & c2 & t & -> & Hb & H1 & H2). fold bom_s in Hb.
  set (l := b ++ c1 ++ $"TranslationUnitDecl" ++ c2 ++ $" 0x" ++ t) in *.
  assert (Nt : ~ In nl t) by (intros K; apply Hn; unfold l; rewrite !in_app_iff; tauto).
  assert (M : matches ast_begin_re l) by (apply ast_begin_match; assumption).
  assert (L : longest ast_begin_re (l ++ nl :: s) = Some (length l)).
  { apply longest_exact; [exact M|]. intros w x E Hw K. apply ast_begin_nl in K.
    destruct w as [|c w]; [congruence|]. cbn [app] in E. injection E as <- _. apply K, in_or_app. right. left. reflexivity. }
  assert (A : not_longer (longest any (l ++ nl :: s)) (length l)) by (apply not_longer_line; intros u v _; apply any_nl).
  destruct (length l) as [|n] eqn:Ln.
  { unfold l in Ln. rewrite !app_length in Ln. cbn [length lit list_ascii_of_string] in Ln. lia. }
  assert (C1 : c1 = [] \/ exists q, c1 = esc :: q).
  { inversion H1 as [|k q r (p & -> & _) _]; subst; [left; reflexivity|right; eexists; reflexivity]. }
  assert (F : exists r, after_bom r /\ l ++ nl :: s = b ++ r).
  { unfold l. destruct C1 as [->|(q & ->)]; eexists; (split; [|rewrite <- app_assoc; reflexivity]); eexists; eexists; split; try reflexivity; auto. }
  destruct F as (r & (c & r' & Er & Hc) & El). destruct Hb as [->| ->].
  - cbn [app] in El. rewrite Er in El. rewrite El in *. rewrite best_can_start. destruct Hc as [->| ->].
    + rewrite esc_active. apply (best_max [] (mkrule INITIAL true ast_begin_re AstBegin) [mkrule INITIAL false any TokIllegal]); [exact L|constructor|].
      constructor; [exact A|constructor].
    + rewrite T_active. apply (best_max [] (mkrule INITIAL true ast_begin_re AstBegin) [mkrule INITIAL false identifier_re TokId; mkrule INITIAL false any TokIllegal]);
        [exact L|constructor|]. constructor; [|constructor; [exact A|constructor]]. cbn [r_re].
      rewrite <- El, <- Ln. apply not_longer_line. intros u v _ H. unfold identifier_re in H. apply plus_cls in H. destruct H as [_ H].
      intros K. apply (proj1 (Forall_forall _ _) H) in K. vm_compute in K. discriminate.
  - assert (El' : l ++ nl :: s = "239"%char :: "187"%char :: "191"%char :: r) by exact El.
    assert (O : longest option_re (l ++ nl :: s) = None).
    { apply longest_none. intros u v E. rewrite El in E. eapply option_not; [|exact E]. exists c, r'. split; assumption. }
    assert (P : longest preproc_re (l ++ nl :: s) = None).
    { apply longest_none. intros u v E. rewrite El in E. eapply preproc_not; [|exact E]. exists c, r'. split; assumption. }
    assert (B : not_longer (longest bom (l ++ nl :: s)) (S n)).
    { rewrite <- Ln. apply not_longer_line. intros u v _ H. apply word_spec in H. subst u. apply line_no_nl, line_textb. reflexivity. }
    rewrite El'. rewrite best_can_start, bom_active. rewrite <- El'.
    apply (best_max [] (mkrule INITIAL true ast_begin_re AstBegin) (tl bom_rules)); [exact L|constructor|].
    cbn [tl bom_rules]. constructor; [cbn [r_re]; rewrite O; exact I|]. constructor; [cbn [r_re]; rewrite P; exact I|].
    constructor; [exact B|]. constructor; [exact A|constructor].
Qed.

Lemma newlines_none u : ~ In nl u -> newlines u = 0%N.
Proof.
  intros H. unfold newlines, count_linefeed. induction u as [|c u IH]; [reflexivity|]. cbn [filter].
  destruct (Ascii.eqb nl c) eqn:E; [apply Ascii.eqb_eq in E; subst c; exfalso; apply H; left; reflexivity|].
  apply IH. intros K. apply H. right. exact K.
Qed.

(** the text of a dump, scanned and split *)
Lemma dump_stream ro its text : dump its text ->
  exists ts, tshow its ts /\ tokenize_stream ro (lex_all text) = TS_ast ts.
Proof.
  intros (l & ls & Hl & Hs & ->). cbn [map concat]. rewrite <- app_assoc. cbn [app]. fold (lines ls).
  assert (Hn := proj1 Hl). assert (B := best_first_line l (lines ls) Hl).
  assert (Ne : l <> []).
  { destruct Hl as (_ & b & c1 & c2 & t & -> & _). destruct b; [destruct c1|]; cbn; discriminate. }
  unfold lex_all, lex_init.
  assert (E : exists line, tokens_of (lex_run (mkl INITIAL true 1) (l ++ nl :: lines ls)) = T_AST_BEGIN :: tokens_of (lex_run (ast_st true line) (lines ls))).
  { rewrite (run_match INITIAL true 1 l (nl :: lines ls) AstBegin Ne B).
    - rewrite (newlines_none l Hn). change (1 + 0)%N with 1%N. cbn [act_token act_cond N.eqb Pos.eqb opt_list app].
      assert (En : ends_line l = false).
      { unfold ends_line. apply not_true_is_false. intros K. apply ends_with_spec in K. destruct K as (t & ->). apply Hn, in_or_app. right. left. reflexivity. }
      rewrite En. destruct (mid_line [] (lines ls) (fun K => K) 1) as (line' & E'). cbn [app] in E'. unfold ast_st in E' at 1.
      exists line'. f_equal. exact E'.
    - rewrite (newlines_none l Hn). reflexivity. }
  destruct E as (line & ->). eexists. split; [apply lex_shows, Hs|]. reflexivity.
Qed.

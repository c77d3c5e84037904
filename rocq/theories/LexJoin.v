(** A line continuation joins the next line to a directive or line comment, if that line is not blank. *)
From Coq Require Import Ascii String List Bool Arith NArith Lia.
From Verif Require Import Str StrFacts Regex RegexFacts Lex LexFacts SpecLex LexComments LexWords.
Import ListNotations.
#[local] Opaque rules.

Lemma bslash_not_space : isspace bslash = false.
Proof. reflexivity. Qed.

Lemma one_line_no_split' body t : one_line body -> body <> [] -> forall u v, body ++ t = u ++ v -> ~ matches split_re u.
Proof.
  intros [H1 H2] Hb u v E Hm. apply split_re_spec in Hm as (ws & Hs & ->).
  destruct body as [|c body]; [easy|]. cbn in E. injection E as -> E. rewrite <- app_assoc in E. cbn in E.
  destruct (H2 [] body eq_refl) as (d & Hd & Hsp). apply in_split in Hd as (p & q & ->).
  assert (Hnl : ~ In nl (p ++ d :: q)) by (intro X; apply H1; now right). clear H1 H2 Hb.
  revert ws Hs E. induction p as [|e p IH]; intros ws Hs E; destruct ws as [|f ws]; cbn in E; injection E as -> E.
  - apply Hnl. now left.
  - inversion Hs; subst. congruence.
  - apply Hnl. now left.
  - inversion Hs; subst. apply (IH (fun X => Hnl (or_intror X)) ws); auto.
Qed.

Lemma longest_split ws t : spaces ws -> (match t with c :: _ => isspace c = false | [] => True end) ->
  longest split_re (([bslash] ++ ws ++ [nl]) ++ t) = Some (length ([bslash] ++ ws ++ [nl])).
Proof.
  intros Hs Ht. apply longest_exact; [apply split_re_spec; now exists ws|]. intros w x -> Hw Hm.
  apply split_re_spec in Hm as (ws' & Hs' & E). rewrite <- !app_assoc in E. cbn in E. injection E as E.
  destruct w as [|c w]; [easy|]. cbn in Ht.
  assert (X : In c (ws' ++ [nl])) by (rewrite <- E; apply in_app_iff; right; right; now left).
  apply in_app_iff in X as [X|[<-|[]]]; [|discriminate Ht].
  unfold spaces in Hs'. rewrite Forall_forall in Hs'. apply Hs' in X. congruence.
Qed.

Lemma pre_split bol line ws t : spaces ws -> (match t with c :: _ => isspace c = false | [] => True end) ->
  lex_step (mkl PRE bol line) (([bslash] ++ ws ++ [nl]) ++ t) =
  mkstep ([bslash] ++ ws ++ [nl]) Skip None t (mkl PRE true (line + newlines ([bslash] ++ ws ++ [nl]))).
Proof.
  intros Hs Ht. unfold lex_step, pick. cbn [l_cond l_bol l_line]. rewrite pre_active.
  assert (Hb : best pre_rules (([bslash] ++ ws ++ [nl]) ++ t) = Some (S (length (ws ++ [nl])), Skip)).
  { apply (best_max (firstn 4 pre_rules) (mkrule PRE false split_re Skip) (skipn 5 pre_rules)).
    - cbn [r_re]. now apply longest_split.
    - cbn [firstn pre_rules]. repeat constructor; cbn [r_re]; apply shorter_none; intros u v E Hm.
      + apply word_spec in Hm as ->. discriminate.
      + apply chr_split_chr in Hm as (x & Hx & ->). discriminate.
      + apply word_spec in Hm as ->. discriminate.
      + apply chr_split_chr in Hm as (x & Hx & ->). discriminate.
    - cbn [skipn pre_rules]. constructor; [|constructor; [|constructor]]; cbn [r_re].
      + apply not_longer_none. intros u v E Hm. apply chr_spec in Hm as ->. discriminate.
      + apply longest_any_short. }
  rewrite Hb. change (S (length (ws ++ [nl]))) with (length ([bslash] ++ ws ++ [nl])). rewrite firstn_app_exact, skipn_app_exact.
  unfold act_token, act_cond. f_equal. f_equal. apply ends_with_spec. now exists ([bslash] ++ ws).
Qed.

Lemma pre_skip_gen bol line c s : c <> nl -> (forall u v, c :: s = u ++ v -> ~ matches split_re u) ->
  (forall w v, c :: s = w ++ v -> ~ (opener w \/ line_opener w)) ->
  lex_step (mkl PRE bol line) (c :: s) = skip_one PRE line c s.
Proof.
  intros Hc Hsp Hop. unfold lex_step, pick. cbn [l_cond l_bol l_line]. rewrite pre_active.
  assert (Hb : best pre_rules (c :: s) = Some (1, Skip)).
  { apply (best_max (firstn 6 pre_rules) (mkrule PRE false any Skip) []).
    - cbn [r_re]. now apply longest_any_hit.
    - cbn [firstn pre_rules]. repeat constructor; cbn [r_re]; try (apply shorter_none; intros u v E Hm).
      + apply word_spec in Hm as ->. apply (Hop _ _ E). left. exists []. split; [now left|easy].
      + apply chr_split_chr in Hm as (x & Hx & ->). apply (Hop _ _ E). left. exists x. split; [now right|easy].
      + apply word_spec in Hm as ->. apply (Hop _ _ E). right. exists []. split; [now left|easy].
      + apply chr_split_chr in Hm as (x & Hx & ->). apply (Hop _ _ E). right. exists x. split; [now right|easy].
      + now apply (Hsp u v).
      + apply chr_spec in Hm as ->. cbn in E. congruence.
    - constructor. }
  rewrite Hb. reflexivity.
Qed.

(** a comment opener that starts in [body ++ sp ++ next ++ nl :: t] with [body] not empty lies in [body ++ sp ++ next] *)
Lemma opener_joined body ws next t w v : one_line body -> spaces ws -> one_line next ->
  (match next with c :: _ => isspace c = false | [] => False end) -> body <> [] ->
  (opener w \/ line_opener w) -> body ++ ([bslash] ++ ws ++ [nl]) ++ next ++ nl :: t = w ++ v ->
  exists b, body ++ ([bslash] ++ ws ++ [nl]) ++ next = w ++ b.
Proof.
  intros Hb Hws Hn Hf Hne Hw E.
  assert (Hs : forall (e : ascii) x, opt_split x -> w = $"/" ++ x ++ [e] -> isspace e = false ->
    exists b, body ++ ([bslash] ++ ws ++ [nl]) ++ next = w ++ b).
  { intros e x Hx -> He. destruct body as [|c body]; [easy|]. destruct Hx as [->|Hx].
    - destruct body as [|d body]; cbn in E |- *.
      + injection E as -> <- E. eexists. reflexivity.
      + injection E as -> <- E. eexists. reflexivity.
    - cbn [app lit list_ascii_of_string] in E |- *. injection E as -> E.
      destruct body as [|d body].
      + cbn [app] in E |- *. destruct Hx as (ws' & Hs' & ->). rewrite <- !app_assoc in E. cbn [app] in E. injection E as E.
        destruct next as [|f next]; [easy|]. cbn [app] in E.
        assert (K : forall (p q : str) y z, spaces p -> spaces q -> p ++ f :: y = q ++ e :: z -> p = q /\ f = e).
        { intro p. induction p as [|g p IH]; intros [|h q] y z Hp Hq F; cbn in F; injection F as F1 F2.
          - easy.
          - subst. inversion Hq. congruence.
          - subst. inversion Hp. congruence.
          - inversion Hp; inversion Hq; subst. destruct (IH q y z) as [-> ->]; auto. }
        destruct (K (ws ++ [nl]) (ws' ++ [nl]) (next ++ nl :: t) v) as [E1 <-].
        * apply Forall_app; split; [easy|repeat constructor].
        * apply Forall_app; split; [easy|repeat constructor].
        * rewrite <- !app_assoc. exact E.
        * apply app_inj_tail in E1 as [-> _]. exists next. rewrite <- !app_assoc. reflexivity.
      + exfalso. apply (one_line_no_split' (d :: body) (([bslash] ++ ws ++ [nl]) ++ next ++ nl :: t)
          (one_line_tail _ _ Hb) ltac:(easy) x ([e] ++ v)).
        * rewrite <- !app_assoc in E |- *. exact E.
        * now apply split_re_spec. }
  destruct Hw as [(x & Hx & Ew)|(x & Hx & Ew)]; [apply (Hs "*"%char x Hx Ew)|apply (Hs "/"%char x Hx Ew)]; reflexivity.
Qed.

Lemma no_comment_app_r a b : no_comment (a ++ b) -> no_comment b.
Proof. intros H x w y ->. apply (H (a ++ x) w y). now rewrite <- !app_assoc. Qed.

Lemma pre_join body ws next t : one_line body -> spaces ws -> one_line next ->
  (match next with c :: _ => isspace c = false | [] => False end) ->
  no_comment (body ++ ([bslash] ++ ws ++ [nl]) ++ next) -> forall bol line, exists line',
  tokens_of (lex_run (mkl PRE bol line) (body ++ ([bslash] ++ ws ++ [nl]) ++ next ++ nl :: t)) =
  tokens_of (lex_run (mkl INITIAL true line') t).
Proof.
  intros Hb Hws Hn Hf. induction body as [|c body IH]; intros Hno bol line.
  - rewrite app_nil_l. rewrite (run_tokens_step (mkl PRE bol line) ([bslash] ++ ws ++ [nl]) (next ++ nl :: t) _ ltac:(easy)
      (pre_split bol line ws (next ++ nl :: t) Hws ltac:(destruct next; easy)) eq_refl). cbn [s_state s_rest].
    rewrite pre_body; [eauto|easy|]. now apply (no_comment_app_r ([bslash] ++ ws ++ [nl])).
  - assert (Hst : lex_step (mkl PRE bol line) (c :: body ++ ([bslash] ++ ws ++ [nl]) ++ next ++ nl :: t) =
      skip_one PRE line c (body ++ ([bslash] ++ ws ++ [nl]) ++ next ++ nl :: t)).
    { apply pre_skip_gen.
      - intros ->. apply (proj1 Hb). now left.
      - intros u v E. apply (one_line_no_split' (c :: body) (([bslash] ++ ws ++ [nl]) ++ next ++ nl :: t) Hb ltac:(easy) u v E).
      - intros w v E Hw. destruct (opener_joined (c :: body) ws next t w v Hb Hws Hn Hf ltac:(easy) Hw E) as (b & Eb).
        destruct (Hno [] w b Eb). tauto. }
    rewrite <- app_comm_cons. rewrite (run_tokens_skip _ _ _ _ Hst eq_refl). unfold skip_one. cbn [s_state s_rest].
    apply IH; [now apply one_line_tail in Hb|]. now apply (no_comment_app_r [c]).
Qed.

Lemma directive_join line ws0 body ws next t : spaces ws0 -> one_line body -> spaces ws -> one_line next ->
  (match next with c :: _ => isspace c = false | [] => False end) ->
  no_comment (body ++ ([bslash] ++ ws ++ [nl]) ++ next) -> exists line',
  tokens_of (lex_run (mkl INITIAL true line) (ws0 ++ $"#" ++ body ++ ([bslash] ++ ws ++ [nl]) ++ next ++ nl :: t)) =
  tokens_of (lex_run (mkl INITIAL true line') t).
Proof.
  intros H0 H1 H2 H3 H4 H5. rewrite app_assoc. erewrite run_tokens_step; [|now destruct ws0|now apply open_pre|easy].
  cbn [s_state s_rest]. now apply pre_join.
Qed.

(** ---- line comments *)
Lemma lc_split bol line ws t : spaces ws -> (match t with c :: _ => isspace c = false | [] => True end) ->
  lex_step (mkl COMMENT bol line) (([bslash] ++ ws ++ [nl]) ++ t) =
  mkstep ([bslash] ++ ws ++ [nl]) Skip None t (mkl COMMENT true (line + newlines ([bslash] ++ ws ++ [nl]))).
Proof.
  intros Hs Ht. unfold lex_step, pick. cbn [l_cond l_bol l_line]. rewrite lc_active.
  assert (Hb : best lc_rules (([bslash] ++ ws ++ [nl]) ++ t) = Some (S (length (ws ++ [nl])), Skip)).
  { apply (best_max [] (mkrule COMMENT false split_re Skip) (skipn 1 lc_rules)).
    - cbn [r_re]. now apply longest_split.
    - constructor.
    - cbn [skipn lc_rules]. constructor; [|constructor; [|constructor]]; cbn [r_re].
      + apply not_longer_none. intros u v E Hm. apply chr_spec in Hm as ->. discriminate.
      + apply longest_any_short. }
  rewrite Hb. change (S (length (ws ++ [nl]))) with (length ([bslash] ++ ws ++ [nl])). rewrite firstn_app_exact, skipn_app_exact.
  unfold act_token, act_cond. f_equal. f_equal. apply ends_with_spec. now exists ([bslash] ++ ws).
Qed.
Lemma lc_skip_gen bol line c s : c <> nl -> (forall u v, c :: s = u ++ v -> ~ matches split_re u) ->
  lex_step (mkl COMMENT bol line) (c :: s) = skip_one COMMENT line c s.
Proof.
  intros Hc Hsp. unfold lex_step, pick. cbn [l_cond l_bol l_line]. rewrite lc_active.
  assert (Hb : best lc_rules (c :: s) = Some (1, Skip)).
  { apply (best_max (firstn 2 lc_rules) (mkrule COMMENT false any Skip) []).
    - cbn [r_re]. now apply longest_any_hit.
    - cbn [firstn lc_rules]. repeat constructor; cbn [r_re]; try (apply shorter_none; intros u v E Hm).
      + now apply (Hsp u v).
      + apply chr_spec in Hm as ->. cbn in E. congruence.
    - constructor. }
  rewrite Hb. reflexivity.
Qed.
Lemma comment_join bol line op body ws next t : line_opener op -> one_line body -> spaces ws -> one_line next ->
  (match next with c :: _ => isspace c = false | [] => False end) -> exists line',
  tokens_of (lex_run (mkl INITIAL bol line) (op ++ body ++ ([bslash] ++ ws ++ [nl]) ++ next ++ nl :: t)) =
  tokens_of (lex_run (mkl INITIAL true line') t).
Proof.
  intros Hop Hb Hws Hn Hf. erewrite run_tokens_step; [|now destruct Hop as (x & _ & ->)|now apply open_line|easy].
  cbn [s_state s_rest]. generalize (line + newlines op)%N. generalize false. clear line Hop op bol.
  induction body as [|c body IH]; intros bol line.
  - rewrite app_nil_l. rewrite (run_tokens_step (mkl COMMENT bol line) ([bslash] ++ ws ++ [nl]) (next ++ nl :: t) _ ltac:(easy)
      (lc_split bol line ws (next ++ nl :: t) Hws ltac:(destruct next; easy)) eq_refl). cbn [s_state s_rest].
    rewrite lc_body; [eauto|easy].
  - assert (Hst : lex_step (mkl COMMENT bol line) (c :: body ++ ([bslash] ++ ws ++ [nl]) ++ next ++ nl :: t) =
      skip_one COMMENT line c (body ++ ([bslash] ++ ws ++ [nl]) ++ next ++ nl :: t)).
    { apply lc_skip_gen.
      - intros ->. apply (proj1 Hb). now left.
      - intros u v E. apply (one_line_no_split' (c :: body) (([bslash] ++ ws ++ [nl]) ++ next ++ nl :: t) Hb ltac:(easy) u v E). }
    rewrite <- app_comm_cons. rewrite (run_tokens_skip _ _ _ _ Hst eq_refl). unfold skip_one. cbn [s_state s_rest].
    apply IH. now apply one_line_tail in Hb.
Qed.

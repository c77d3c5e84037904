(** Comments and preprocessor lines. *)
From Coq Require Import Ascii String List Bool Arith NArith Lia.
From Verif Require Import Str StrFacts Regex RegexFacts Lex LexFacts SpecLex.
Import ListNotations.

(** rules active in a condition, computed *)
Definition active_rules (k : cond) (bol : bool) : list rule := filter (active k bol) rules.

Lemma split_re_spec w : matches split_re w <-> line_split w.
Proof.
  unfold split_re, line_split. rewrite inv_cat. split.
  - intros (u & v & -> & Hu & Hv). apply chr_spec in Hu as ->. apply inv_cat in Hv as (x & y & -> & Hx & Hy).
    apply chr_spec in Hy as ->. apply opt_spec in Hx as [Hx| ->].
    + apply star_cls in Hx. exists x. auto.
    + exists []. split; [constructor|easy].
  - intros (ws & Hs & ->). exists [bslash], (ws ++ [nl]). split; [easy|]. split; [now apply chr_spec|].
    apply inv_cat. exists ws, [nl]. split; [easy|]. split; [|now apply chr_spec]. apply opt_spec. left. now apply star_cls.
Qed.

Lemma chr_split_chr a b w : matches (Cat (chr a) (Cat split_re (chr b))) w <-> exists x, line_split x /\ w = [a] ++ x ++ [b].
Proof.
  rewrite inv_cat. split.
  - intros (u & v & -> & Hu & Hv). apply chr_spec in Hu as ->. apply inv_cat in Hv as (x & y & -> & Hx & Hy).
    apply chr_spec in Hy as ->. apply split_re_spec in Hx. eauto.
  - intros (x & Hx & ->). exists [a], (x ++ [b]). split; [easy|]. split; [now apply chr_spec|].
    apply inv_cat. exists x, [b]. rewrite split_re_spec, chr_spec. auto.
Qed.

(** a delimiter is determined by its first bytes: two delimiters starting the same text are equal *)
Lemma split_prefix x y (b : ascii) t t' : isspace b = false -> line_split x -> line_split y ->
  x ++ b :: t = y ++ b :: t' -> x = y.
Proof.
  intros Hb (ws & Hs & ->) (ws' & Hs' & ->) H. cbn in H. injection H as H. f_equal.
  assert (Hn : isspace nl = true) by reflexivity.
  assert (K : forall u v : str, spaces u -> spaces v -> u ++ b :: t = v ++ b :: t' -> u = v).
  { intro u. induction u as [|c u IH]; intros [|d v] Hu Hv E; cbn in E; [easy| | |].
    - injection E as <- _. inversion Hv. congruence.
    - injection E as -> _. inversion Hu. congruence.
    - injection E as -> E. inversion Hu; inversion Hv; subst. f_equal. apply IH; auto. }
  apply K; [apply Forall_app; split; auto|apply Forall_app; split; auto|exact H].
Qed.

Lemma closer_unique x y t t' : closer x -> closer y -> x ++ t = y ++ t' -> x = y.
Proof.
  intros (u & Hu & ->) (v & Hv & ->) H. cbn in H. injection H as H.
  rewrite <- !app_assoc in H. cbn in H.
  destruct Hu as [->|Hu], Hv as [->|Hv]; cbn in *; auto.
  - destruct Hv as (ws & _ & ->). cbn in H. discriminate.
  - destruct Hu as (ws & _ & ->). cbn in H. discriminate.
  - do 2 f_equal. eapply split_prefix; [|eauto|eauto|exact H]. reflexivity.
Qed.


(** ---- inside a C comment *)

Definition cc_rules : list rule :=
  [ mkrule C_COMMENT false (word $"*/") (Begin INITIAL)
  ; mkrule C_COMMENT false (Cat (chr "*") (Cat split_re (chr "/"))) (Begin INITIAL)
  ; mkrule C_COMMENT false (chr nl) Skip
  ; mkrule C_COMMENT false any Skip ].
Lemma cc_active bol : filter (active C_COMMENT bol) rules = cc_rules.
Proof. destruct bol; reflexivity. Qed.

Definition skip_one (k : cond) (line : N) (c : ascii) (t : str) : lstep :=
  let l := (line + newlines [c])%N in
  mkstep [c] Skip None t (mkl k (ends_nl [c]) l).

Lemma longest_chr_hit c s : longest (chr c) (c :: s) = Some 1.
Proof. apply (longest_exact (chr c) [c] s); [now apply chr_spec|]. intros w x -> Hw H. apply chr_spec in H. now destruct w. Qed.
Lemma longest_any_hit c s : c <> nl -> longest any (c :: s) = Some 1.
Proof.
  intro Hc. apply (longest_exact any [c] s); [apply any_spec; eauto|]. intros w x -> Hw H.
  apply any_spec in H as (d & H & _). now destruct w.
Qed.
Lemma longest_any_nl s : longest any (nl :: s) = None.
Proof.
  apply longest_none. intros u v H Hm. apply any_spec in Hm as (c & -> & Hc). cbn in H. congruence.
Qed.
Lemma longest_chr_miss c d s : c <> d -> longest (chr c) (d :: s) = None.
Proof.
  intro Hn. apply longest_none. intros u v H Hm. apply chr_spec in Hm as ->. cbn in H. congruence.
Qed.

Lemma shorter_none r s n : (forall u v, s = u ++ v -> ~ matches r u) -> shorter (longest r s) n.
Proof. intro H. now rewrite longest_none. Qed.
Lemma not_longer_none r s n : (forall u v, s = u ++ v -> ~ matches r u) -> not_longer (longest r s) n.
Proof. intro H. now rewrite longest_none. Qed.


Lemma cc_skip bol line c s : (forall w b, c :: s = w ++ b -> ~ closer w) ->
  lex_step (mkl C_COMMENT bol line) (c :: s) = skip_one C_COMMENT line c s.
Proof.
  intro H. unfold lex_step, pick. cbn [l_cond l_bol l_line]. rewrite cc_active.
  assert (Hb : best cc_rules (c :: s) = Some (1, Skip)).
  { assert (H1 : shorter (longest (word $"*/") (c :: s)) 1).
    { apply shorter_none. intros u v E Hm. apply word_spec in Hm as ->. apply (H _ _ E). exists []. split; [now left|easy]. }
    assert (H2 : shorter (longest (Cat (chr "*") (Cat split_re (chr "/"))) (c :: s)) 1).
    { apply shorter_none. intros u v E Hm. apply chr_split_chr in Hm as (x & Hx & ->). apply (H _ _ E). exists x. split; [now right|easy]. }
    destruct (ascii_dec c nl) as [->|Hc].
    - apply (best_max (firstn 2 cc_rules) (mkrule C_COMMENT false (chr nl) Skip) (skipn 3 cc_rules)).
      + cbn [r_re]. apply longest_chr_hit.
      + cbn [firstn cc_rules]. repeat constructor; assumption.
      + cbn [skipn cc_rules]. repeat constructor. cbn [r_re]. now rewrite longest_any_nl.
    - apply (best_max (firstn 3 cc_rules) (mkrule C_COMMENT false any Skip) []).
      + cbn [r_re]. now apply longest_any_hit.
      + cbn [firstn cc_rules]. repeat constructor; try assumption. cbn [r_re]. rewrite longest_chr_miss; [easy|congruence].
      + constructor. }
  rewrite Hb. reflexivity.
Qed.

Lemma cc_close bol line cl s : closer cl ->
  lex_step (mkl C_COMMENT bol line) (cl ++ s) =
  mkstep cl (Begin INITIAL) None s (mkl INITIAL false (line + newlines cl)).
Proof.
  intro Hcl. unfold lex_step, pick. cbn [l_cond l_bol l_line]. rewrite cc_active.
  assert (Hb : best cc_rules (cl ++ s) = Some (length cl, Begin INITIAL)).
  { pose proof Hcl as Hcl'. destruct Hcl as (x & Hx & ->).
    assert (Hlen : exists n, length ($"*" ++ x ++ $"/") = S (S n)) by (exists (length x); rewrite !app_length; cbn; lia).
    destruct Hlen as (n & Hlen).
    assert (Hnl : not_longer (longest (chr nl) (($"*" ++ x ++ $"/") ++ s)) (S (S n))) by (cbn [app lit list_ascii_of_string]; rewrite longest_chr_miss; easy).
    assert (Hany : not_longer (longest any (($"*" ++ x ++ $"/") ++ s)) (S (S n))) by (cbn [app lit list_ascii_of_string]; rewrite longest_any_hit; [cbn; lia|easy]).
    rewrite Hlen. destruct Hx as [->|Hx].
    - apply (best_max [] (mkrule C_COMMENT false (word $"*/") (Begin INITIAL)) (skipn 1 cc_rules)).
      + cbn [r_re]. rewrite <- Hlen. apply longest_exact; [now apply word_spec|]. intros w y -> Hw Hm. apply word_spec in Hm. now destruct w.
      + constructor.
      + cbn [skipn cc_rules]. repeat constructor; cbn [r_re]; auto. apply not_longer_none. intros u v E Hm.
        apply chr_split_chr in Hm as (y & (ws & _ & ->) & ->). cbn in E. discriminate.
    - apply (best_max (firstn 1 cc_rules) (mkrule C_COMMENT false (Cat (chr "*") (Cat split_re (chr "/"))) (Begin INITIAL)) (skipn 2 cc_rules)).
      + cbn [r_re]. rewrite <- Hlen. apply longest_exact; [apply chr_split_chr; eauto|]. intros w y -> Hw Hm.
        apply chr_split_chr in Hm as (z & Hz & E). assert (Hz' : closer ($"*" ++ z ++ $"/")) by (exists z; split; [now right|easy]).
        assert (E2 : ($"*" ++ x ++ $"/") ++ w = ($"*" ++ z ++ $"/") ++ []) by (rewrite app_nil_r; exact E).
        pose proof (closer_unique _ _ _ _ Hcl' Hz' E2) as E3. rewrite <- E3 in E2. apply app_inv_head in E2. easy.
      + cbn [firstn cc_rules]. repeat constructor. cbn [r_re]. apply shorter_none. intros u v E Hm. apply word_spec in Hm as ->.
        destruct Hx as (ws & _ & ->). cbn in E. discriminate.
      + cbn [skipn cc_rules]. repeat constructor; cbn [r_re]; auto. }
  rewrite Hb. rewrite firstn_app_exact, skipn_app_exact. unfold act_token, act_cond. f_equal. f_equal.
  destruct Hcl as (x & _ & ->). unfold ends_nl.
  destruct (ends_with [nl] ($"*" ++ x ++ $"/")) eqn:E; [|easy]. apply ends_with_spec in E as (r & E).
  rewrite app_assoc in E. apply app_inj_tail in E as [_ E]. discriminate.
Qed.

(** tokens of a run *)
Lemma run_tokens_skip st c s x : lex_step st (c :: s) = x -> s_tok x = None ->
  tokens_of (lex_run st (c :: s)) = tokens_of (lex_run (s_state x) (s_rest x)).
Proof. intros Hx Ht. rewrite lex_run_cons. cbn zeta. rewrite Hx, Ht. cbn [is_error tokens_of]. now rewrite Ht. Qed.

Lemma newlines_app a b : newlines (a ++ b) = (newlines a + newlines b)%N.
Proof.
  unfold newlines, count_linefeed. rewrite filter_app, app_length. lia.
Qed.

Lemma cc_body body cl rest : first_closer body cl -> forall bol line,
  tokens_of (lex_run (mkl C_COMMENT bol line) (body ++ cl ++ rest)) =
  tokens_of (lex_run (mkl INITIAL false (line + newlines body + newlines cl)) rest).
Proof.
  intros [Hcl Hfirst]. induction body as [|c body IH]; intros bol line.
  - cbn [app]. destruct (cl ++ rest) as [|d t] eqn:E.
    + destruct Hcl as (x & _ & ->). now destruct x.
    + rewrite (run_tokens_skip _ d t _ eq_refl); rewrite <- E, cc_close by auto; [|easy]. cbn [s_state s_rest].
      change (newlines []) with 0%N. now rewrite N.add_0_r.
  - cbn [app]. erewrite run_tokens_skip; [|apply cc_skip|easy].
    + unfold skip_one. cbn [s_state s_rest]. rewrite IH.
      * do 3 f_equal. change (c :: body) with ([c] ++ body). rewrite newlines_app. lia.
      * intros a w b E Hw. assert (length (c :: body) <= length (c :: a)); [|cbn in *; lia].
        apply (Hfirst (c :: a) w b); auto. cbn. now rewrite E.
    + intros w b E Hw.
      (* a closer at the start of [c :: body ++ cl ++ rest] *)
      destruct (le_lt_dec (length w) (length (c :: body ++ cl))) as [Hle|Hgt].
      * assert (Hpre : exists b', c :: body ++ cl = [] ++ w ++ b').
        { change (c :: body ++ cl ++ rest) with ((c :: body) ++ cl ++ rest) in E. rewrite app_assoc in E.
          exists (skipn (length w) ((c :: body) ++ cl)). cbn [app]. change (c :: body ++ cl) with ((c :: body) ++ cl) in *.
          assert (F : w = firstn (length w) ((c :: body) ++ cl)).
          { apply (f_equal (firstn (length w))) in E. rewrite firstn_app_exact in E.
            rewrite firstn_app in E. replace (length w - length ((c :: body) ++ cl)) with 0 in E by lia.
            rewrite firstn_O, app_nil_r in E. now symmetry. }
          rewrite F at 1. now rewrite firstn_skipn. }
        destruct Hpre as (b' & Hpre). specialize (Hfirst [] w b' Hpre Hw). cbn in Hfirst. lia.
      * (* then [cl], a closer inside [w] strictly after its start, ends before [w] does *)
        exfalso. destruct Hw as (x & Hx & ->).
        change (c :: body ++ cl ++ rest) with ((c :: body) ++ cl ++ rest) in E. rewrite app_assoc in E.
        assert (F : exists z, $"*" ++ x ++ $"/" = ((c :: body) ++ cl) ++ z /\ z <> []).
        { apply (f_equal (firstn (length ($"*" ++ x ++ $"/")))) in E. rewrite (firstn_app_exact ($"*" ++ x ++ $"/")) in E.
          rewrite firstn_app, firstn_all2 in E by (change (c :: body ++ cl) with ((c :: body) ++ cl) in Hgt; lia).
          eexists. split; [symmetry; exact E|]. intro Z. rewrite Z, app_nil_r in E. rewrite <- E in Hgt.
          change (c :: body ++ cl) with ((c :: body) ++ cl) in Hgt. lia. }
        destruct F as (z & F & Hz). destruct Hcl as (y & Hy & ->).
        destruct (exists_last Hz) as (z' & e & ->).
        rewrite <- !app_assoc in F. rewrite !app_assoc in F. apply app_inj_tail in F as [F _]. rewrite <- !app_assoc in F.
        cbn [app] in F. injection F as -> F.
        assert (In "/"%char x).
        { rewrite F. rewrite !in_app_iff. right. cbn. right. rewrite in_app_iff. right. cbn. now left. }
        destruct Hx as [->|(ws & Hs & ->)]; [easy|]. rewrite !in_app_iff in H. unfold spaces in Hs. rewrite Forall_forall in Hs.
        destruct H as [[H|[]]|[H|[H|[]]]]; try discriminate. specialize (Hs _ H). vm_compute in Hs. easy.
Qed.

(** ---- opening a comment in normal mode *)

Definition slash_rules : list rule :=
  [ mkrule INITIAL false (word $"//") (Begin COMMENT)
  ; mkrule INITIAL false (Cat (chr "/") (Cat split_re (chr "/"))) (Begin COMMENT)
  ; mkrule INITIAL false (word $"/*") (Begin C_COMMENT)
  ; mkrule INITIAL false (Cat (chr "/") (Cat split_re (chr "*"))) (Begin C_COMMENT)
  ; mkrule INITIAL false any TokIllegal ].
Lemma slash_active bol : filter (can_start "/") (filter (active INITIAL bol) rules) = slash_rules.
Proof. destruct bol; reflexivity. Qed.

Lemma two_word_neq a b x s : (a :: b :: x : str) <> [] -> forall c d, (c =? b)%char = false \/ (d =? a)%char = false ->
  forall u v, a :: b :: x ++ s = u ++ v -> ~ matches (word [d; c]) u.
Proof.
  intros _ c d Hor u v E Hm. apply word_spec in Hm as ->. cbn in E. injection E as -> -> _.
  rewrite !Ascii.eqb_refl in Hor. destruct Hor; discriminate.
Qed.
Lemma two_split_neq (a b : ascii) (e : ascii) s : b <> bslash ->
  forall u v, a :: b :: s = u ++ v -> ~ matches (Cat (chr a) (Cat split_re (chr e))) u.
Proof. intros Hb u v E Hm. apply chr_split_chr in Hm as (y & (ws & _ & ->) & ->). cbn in E. congruence. Qed.

Lemma split_end_neq (a e e' : ascii) x s : line_split x -> isspace e = false -> isspace e' = false -> e <> e' ->
  forall u v, ([a] ++ x ++ [e]) ++ s = u ++ v -> ~ matches (Cat (chr a) (Cat split_re (chr e'))) u.
Proof.
  intros Hx H1 H2 Hn u v E Hm. apply chr_split_chr in Hm as (y & Hy & ->).
  rewrite <- !app_assoc in E. cbn in E. injection E as E.
  destruct Hx as (ws & Hs & ->), Hy as (ws' & Hs' & ->). rewrite <- !app_assoc in E. cbn in E. injection E as E.
  assert (K : forall p q : str, spaces p -> spaces q -> p ++ e :: s <> q ++ e' :: v).
  { intro p. induction p as [|c p IH]; intros [|d q] Hp Hq F; cbn in F.
    - injection F as -> _. easy.
    - injection F as <- _. inversion Hq. congruence.
    - injection F as -> _. inversion Hp. congruence.
    - injection F as -> F. inversion Hp; inversion Hq; subst. eapply IH; eauto. }
  assert (Hn1 : spaces (ws ++ [nl])) by (apply Forall_app; split; [easy|repeat constructor]).
  assert (Hn2 : spaces (ws' ++ [nl])) by (apply Forall_app; split; [easy|repeat constructor]).
  apply (K _ _ Hn1 Hn2). now rewrite <- !app_assoc.
Qed.

Lemma longest_word_hit w s : longest (word w) (w ++ s) = Some (length w).
Proof.
  apply longest_exact; [now apply word_spec|]. intros v x -> Hv Hm. apply word_spec in Hm.
  rewrite <- (app_nil_r w) in Hm at 2. apply app_inv_head in Hm. easy.
Qed.
Lemma longest_split_hit a e x s : isspace e = false -> line_split x ->
  longest (Cat (chr a) (Cat split_re (chr e))) (([a] ++ x ++ [e]) ++ s) = Some (length ([a] ++ x ++ [e])).
Proof.
  intros He Hx. apply longest_exact; [apply chr_split_chr; eauto|]. intros w y -> Hw Hm.
  apply chr_split_chr in Hm as (z & Hz & E). rewrite <- !app_assoc in E. cbn in E. injection E as E.
  assert (x = z) by (apply (split_prefix x z e w []); auto). subst z. apply app_inv_head in E. injection E as E. easy.
Qed.

Lemma not_nl_end t (e : ascii) : e <> nl -> ends_nl (t ++ [e]) = false.
Proof.
  intro He. unfold ends_nl. destruct (ends_with [nl] (t ++ [e])) eqn:E; [|easy].
  apply ends_with_spec in E as (r & E). apply app_inj_tail in E as [_ E]. congruence.
Qed.

Lemma open_c bol line op s : opener op ->
  lex_step (mkl INITIAL bol line) (op ++ s) = mkstep op (Begin C_COMMENT) None s (mkl C_COMMENT false (line + newlines op)).
Proof.
  intro Hop. unfold lex_step, pick. cbn [l_cond l_bol l_line].
  assert (Hb : best (filter (active INITIAL bol) rules) (op ++ s) = Some (length op, Begin C_COMMENT)).
  { destruct Hop as (x & Hx & ->). change (($"/" ++ x ++ $"*") ++ s) with ("/"%char :: ((x ++ $"*") ++ s)).
    rewrite best_can_start, slash_active. change ("/"%char :: ((x ++ $"*") ++ s)) with (($"/" ++ x ++ $"*") ++ s).
    assert (Hany : not_longer (longest any (($"/" ++ x ++ $"*") ++ s)) (length ($"/" ++ x ++ $"*"))).
    { change (($"/" ++ x ++ $"*") ++ s) with ("/"%char :: ((x ++ $"*") ++ s)). rewrite longest_any_hit; [cbn; lia|easy]. }
    destruct Hx as [->|Hx].
    - apply (best_max (firstn 2 slash_rules) (mkrule INITIAL false (word $"/*") (Begin C_COMMENT)) (skipn 3 slash_rules)).
      + cbn [r_re]. apply (longest_word_hit $"/*").
      + cbn [firstn slash_rules]. repeat constructor; cbn [r_re]; apply shorter_none.
        * intros u v E Hm. apply word_spec in Hm as ->. cbn in E. discriminate.
        * now apply two_split_neq.
      + cbn [skipn slash_rules]. repeat constructor; cbn [r_re]; [apply not_longer_none; now apply two_split_neq|exact Hany].
    - assert (Hlen : exists n, length ($"/" ++ x ++ $"*") = S n) by (eexists; reflexivity). destruct Hlen as (n & Hlen).
      rewrite Hlen in *.
      apply (best_max (firstn 3 slash_rules) (mkrule INITIAL false (Cat (chr "/") (Cat split_re (chr "*"))) (Begin C_COMMENT)) (skipn 4 slash_rules)).
      + cbn [r_re]. rewrite <- Hlen. now apply longest_split_hit.
      + pose proof Hx as (ws & _ & Ews).
        cbn [firstn slash_rules]. repeat constructor; cbn [r_re]; apply shorter_none.
        * intros u v E Hm. apply word_spec in Hm as ->. rewrite Ews in E. cbn in E. discriminate.
        * now apply split_end_neq.
        * intros u v E Hm. apply word_spec in Hm as ->. rewrite Ews in E. cbn in E. discriminate.
      + cbn [skipn slash_rules]. repeat constructor; cbn [r_re]. exact Hany. }
  rewrite Hb. rewrite firstn_app_exact, skipn_app_exact. unfold act_token, act_cond. f_equal. f_equal.
  destruct Hop as (x & _ & ->). rewrite app_assoc. now apply not_nl_end.
Qed.

Lemma open_line bol line op s : line_opener op ->
  lex_step (mkl INITIAL bol line) (op ++ s) = mkstep op (Begin COMMENT) None s (mkl COMMENT false (line + newlines op)).
Proof.
  intro Hop. unfold lex_step, pick. cbn [l_cond l_bol l_line].
  assert (Hb : best (filter (active INITIAL bol) rules) (op ++ s) = Some (length op, Begin COMMENT)).
  { destruct Hop as (x & Hx & ->). change (($"/" ++ x ++ $"/") ++ s) with ("/"%char :: ((x ++ $"/") ++ s)).
    rewrite best_can_start, slash_active. change ("/"%char :: ((x ++ $"/") ++ s)) with (($"/" ++ x ++ $"/") ++ s).
    assert (Hany : not_longer (longest any (($"/" ++ x ++ $"/") ++ s)) (length ($"/" ++ x ++ $"/"))).
    { change (($"/" ++ x ++ $"/") ++ s) with ("/"%char :: ((x ++ $"/") ++ s)). rewrite longest_any_hit; [cbn; lia|easy]. }
    destruct Hx as [->|Hx].
    - apply (best_max [] (mkrule INITIAL false (word $"//") (Begin COMMENT)) (skipn 1 slash_rules)).
      + cbn [r_re]. apply (longest_word_hit $"//").
      + constructor.
      + cbn [skipn slash_rules]. repeat constructor; cbn [r_re]; try exact Hany; apply not_longer_none; try now apply two_split_neq.
        intros u v E Hm. apply word_spec in Hm as ->. cbn in E. discriminate.
    - assert (Hlen : exists n, length ($"/" ++ x ++ $"/") = S n) by (eexists; reflexivity). destruct Hlen as (n & Hlen).
      rewrite Hlen in *.
      apply (best_max (firstn 1 slash_rules) (mkrule INITIAL false (Cat (chr "/") (Cat split_re (chr "/"))) (Begin COMMENT)) (skipn 2 slash_rules)).
      + cbn [r_re]. rewrite <- Hlen. now apply longest_split_hit.
      + pose proof Hx as (ws & _ & Ews).
        cbn [firstn slash_rules]. repeat constructor; cbn [r_re]; apply shorter_none.
        intros u v E Hm. apply word_spec in Hm as ->. rewrite Ews in E. cbn in E. discriminate.
      + pose proof Hx as (ws & _ & Ews).
        cbn [skipn slash_rules]. repeat constructor; cbn [r_re]; try exact Hany; apply not_longer_none.
        * intros u v E Hm. apply word_spec in Hm as ->. rewrite Ews in E. cbn in E. discriminate.
        * now apply split_end_neq. }
  rewrite Hb. rewrite firstn_app_exact, skipn_app_exact. unfold act_token, act_cond. f_equal. f_equal.
  destruct Hop as (x & _ & ->). rewrite app_assoc. now apply not_nl_end.
Qed.

Lemma run_tokens_step st u s x : u <> [] -> lex_step st (u ++ s) = x -> s_tok x = None ->
  tokens_of (lex_run st (u ++ s)) = tokens_of (lex_run (s_state x) (s_rest x)).
Proof. intros Hu Hx Ht. destruct u as [|c u]; [easy|]. cbn [app] in *. now apply run_tokens_skip. Qed.

Lemma c_comment_invisible bol line op body cl rest : opener op -> first_closer body cl ->
  tokens_of (lex_run (mkl INITIAL bol line) (op ++ body ++ cl ++ rest)) =
  tokens_of (lex_run (mkl INITIAL false (line + newlines (op ++ body ++ cl))) rest).
Proof.
  intros Hop Hcl. erewrite run_tokens_step; [|now destruct Hop as (x & _ & ->)|now apply open_c|easy].
  cbn [s_state s_rest]. rewrite cc_body by auto. do 3 f_equal. rewrite !newlines_app. lia.
Qed.

(** ---- inside a line comment *)

Definition lc_rules : list rule :=
  [ mkrule COMMENT false split_re Skip
  ; mkrule COMMENT false (chr nl) (Begin INITIAL)
  ; mkrule COMMENT false any Skip ].
Lemma lc_active bol : filter (active COMMENT bol) rules = lc_rules.
Proof. destruct bol; reflexivity. Qed.

Lemma one_line_tail c body : one_line (c :: body) -> one_line body.
Proof.
  intros [H1 H2]. split; [intro X; apply H1; now right|]. intros a b ->. apply (H2 (c :: a) b). easy.
Qed.
Lemma one_line_no_split body t : one_line body -> forall u v, body ++ nl :: t = u ++ v -> body <> [] -> ~ matches split_re u.
Proof.
  intros [H1 H2] u v E Hb Hm. apply split_re_spec in Hm as (ws & Hs & ->).
  destruct body as [|c body]; [easy|]. cbn in E. injection E as -> E. rewrite <- app_assoc in E. cbn in E.
  destruct (H2 [] body eq_refl) as (d & Hd & Hsp). apply in_split in Hd as (p & q & ->).
  assert (Hnl : ~ In nl (p ++ d :: q)) by (intro X; apply H1; now right). clear H1 H2 Hb.
  revert ws Hs E. induction p as [|e p IH]; intros ws Hs E; destruct ws as [|f ws]; cbn in E; injection E as -> E.
  - apply Hnl. now left.
  - inversion Hs; subst. congruence.
  - apply Hnl. now left.
  - inversion Hs; subst. apply (IH (fun X => Hnl (or_intror X)) ws); auto.
Qed.

Lemma lc_skip bol line c body t : one_line (c :: body) ->
  lex_step (mkl COMMENT bol line) (c :: body ++ nl :: t) = skip_one COMMENT line c (body ++ nl :: t).
Proof.
  intro H. unfold lex_step, pick. cbn [l_cond l_bol l_line]. rewrite lc_active.
  assert (Hc : c <> nl) by (intros ->; apply (proj1 H); now left).
  assert (Hb : best lc_rules (c :: body ++ nl :: t) = Some (1, Skip)).
  { apply (best_max (firstn 2 lc_rules) (mkrule COMMENT false any Skip) []).
    - cbn [r_re]. now apply longest_any_hit.
    - cbn [firstn lc_rules]. repeat constructor; cbn [r_re].
      + apply shorter_none. intros u v E. now apply (one_line_no_split (c :: body) t H u v).
      + rewrite longest_chr_miss; [easy|congruence].
    - constructor. }
  rewrite Hb. reflexivity.
Qed.
Lemma lc_end bol line t :
  lex_step (mkl COMMENT bol line) (nl :: t) = mkstep [nl] (Begin INITIAL) None t (mkl INITIAL true (line + 1)).
Proof.
  unfold lex_step, pick. cbn [l_cond l_bol l_line]. rewrite lc_active.
  assert (Hb : best lc_rules (nl :: t) = Some (1, Begin INITIAL)).
  { apply (best_max (firstn 1 lc_rules) (mkrule COMMENT false (chr nl) (Begin INITIAL)) (skipn 2 lc_rules)).
    - cbn [r_re]. apply longest_chr_hit.
    - cbn [firstn lc_rules]. repeat constructor; cbn [r_re]. apply shorter_none. intros u v E Hm.
      apply split_re_spec in Hm as (ws & _ & ->). cbn in E. discriminate.
    - cbn [skipn lc_rules]. repeat constructor; cbn [r_re]. now rewrite longest_any_nl. }
  rewrite Hb. reflexivity.
Qed.
Lemma newlines_none w : ~ In nl w -> newlines w = 0%N.
Proof.
  unfold newlines, count_linefeed. induction w as [|c w IH]; intro H; [easy|]. cbn [filter].
  destruct (Ascii.eqb_spec nl c) as [E|_]; [exfalso; apply H; left; congruence|]. apply IH. intro X. apply H. now right.
Qed.

Lemma lc_body body t : one_line body -> forall bol line,
  tokens_of (lex_run (mkl COMMENT bol line) (body ++ nl :: t)) = tokens_of (lex_run (mkl INITIAL true (line + 1)) t).
Proof.
  induction body as [|c body IH]; intros H bol line; cbn [app].
  - now rewrite (run_tokens_skip _ _ _ _ (lc_end bol line t)).
  - rewrite (run_tokens_skip _ _ _ _ (lc_skip bol line c body t H)) by easy. unfold skip_one. cbn [s_state s_rest].
    rewrite IH by now apply one_line_tail in H. do 3 f_equal. rewrite newlines_none; [lia|].
    intros [->|[]]. apply (proj1 H). now left.
Qed.

Lemma line_comment_invisible bol line op body rest : line_opener op -> one_line body ->
  tokens_of (lex_run (mkl INITIAL bol line) (op ++ body ++ nl :: rest)) =
  tokens_of (lex_run (mkl INITIAL true (line + newlines (op ++ body ++ [nl]))) rest).
Proof.
  intros Hop Hb. erewrite run_tokens_step; [|now destruct Hop as (x & _ & ->)|now apply open_line|easy].
  cbn [s_state s_rest]. rewrite lc_body by auto. do 3 f_equal. rewrite !newlines_app.
  rewrite (newlines_none body) by apply Hb. change (newlines [nl]) with 1%N. lia.
Qed.

(** ---- preprocessor lines *)

Definition pre_rules : list rule :=
  [ mkrule PRE false (word $"/*") (Begin PRE_COMMENT)
  ; mkrule PRE false (Cat (chr "/") (Cat split_re (chr "*"))) (Begin C_COMMENT)
  ; mkrule PRE false (word $"//") (Begin COMMENT)
  ; mkrule PRE false (Cat (chr "/") (Cat split_re (chr "/"))) (Begin COMMENT)
  ; mkrule PRE false split_re Skip
  ; mkrule PRE false (chr nl) (Begin INITIAL)
  ; mkrule PRE false any Skip ].
Lemma pre_active bol : filter (active PRE bol) rules = pre_rules.
Proof. destruct bol; reflexivity. Qed.

Lemma no_comment_tail c body : no_comment (c :: body) -> no_comment body.
Proof. intros H a w b ->. apply (H (c :: a) w b). easy. Qed.

(** a comment opener at the start of [body ++ nl :: t] would be inside body *)
Lemma opener_inside body t w v : one_line body -> body <> [] -> (opener w \/ line_opener w) -> body ++ nl :: t = w ++ v ->
  exists b, body = w ++ b.
Proof.
  intros Hone Hb Hw E.
  assert (Hs : forall (e : ascii) x, opt_split x -> w = $"/" ++ x ++ [e] -> e <> nl -> exists b, body = w ++ b).
  { intros e x [->|Hx] -> He.
    - destruct body as [|c [|d body]]; [easy| |]; cbn in E.
      + congruence.
      + exists body. cbn. congruence.
    - exfalso. destruct body as [|c body]; [easy|]. cbn in E. injection E as -> E.
      destruct body as [|d body].
      + cbn in E. destruct Hx as (ws & _ & ->). cbn in E. discriminate.
      + apply (one_line_no_split (d :: body) t (one_line_tail _ _ Hone) x ([e] ++ v)); [|easy|].
        * rewrite <- app_assoc in E. exact E.
        * now apply split_re_spec. }
  destruct Hw as [(x & Hx & Ew)|(x & Hx & Ew)]; [apply (Hs "*"%char x Hx Ew)|apply (Hs "/"%char x Hx Ew)]; discriminate.
Qed.

Lemma pre_skip bol line c body t : one_line (c :: body) -> no_comment (c :: body) ->
  lex_step (mkl PRE bol line) (c :: body ++ nl :: t) = skip_one PRE line c (body ++ nl :: t).
Proof.
  intros H Hno. unfold lex_step, pick. cbn [l_cond l_bol l_line]. rewrite pre_active.
  assert (Hc : c <> nl) by (intros ->; apply (proj1 H); now left).
  assert (Hop : forall w v, c :: body ++ nl :: t = w ++ v -> ~ (opener w \/ line_opener w)).
  { intros w v E Hw. destruct (opener_inside (c :: body) t w v H) as (b & Eb); auto; [easy|].
    destruct (Hno [] w b Eb). tauto. }
  assert (Hb : best pre_rules (c :: body ++ nl :: t) = Some (1, Skip)).
  { apply (best_max (firstn 6 pre_rules) (mkrule PRE false any Skip) []).
    - cbn [r_re]. now apply longest_any_hit.
    - cbn [firstn pre_rules]. repeat constructor; cbn [r_re]; try (apply shorter_none; intros u v E Hm).
      + apply word_spec in Hm as ->. apply (Hop _ _ E). left. exists []. split; [now left|easy].
      + apply chr_split_chr in Hm as (x & Hx & ->). apply (Hop _ _ E). left. exists x. split; [now right|easy].
      + apply word_spec in Hm as ->. apply (Hop _ _ E). right. exists []. split; [now left|easy].
      + apply chr_split_chr in Hm as (x & Hx & ->). apply (Hop _ _ E). right. exists x. split; [now right|easy].
      + now apply (one_line_no_split (c :: body) t H u v).
      + apply chr_spec in Hm as ->. cbn in E. congruence.
    - constructor. }
  rewrite Hb. reflexivity.
Qed.
Lemma pre_end bol line t :
  lex_step (mkl PRE bol line) (nl :: t) = mkstep [nl] (Begin INITIAL) None t (mkl INITIAL true (line + 1)).
Proof.
  unfold lex_step, pick. cbn [l_cond l_bol l_line]. rewrite pre_active.
  assert (Hb : best pre_rules (nl :: t) = Some (1, Begin INITIAL)).
  { apply (best_max (firstn 5 pre_rules) (mkrule PRE false (chr nl) (Begin INITIAL)) (skipn 6 pre_rules)).
    - cbn [r_re]. apply longest_chr_hit.
    - cbn [firstn pre_rules]. repeat constructor; cbn [r_re]; apply shorter_none; intros u v E Hm.
      + apply word_spec in Hm as ->. discriminate.
      + apply chr_split_chr in Hm as (x & Hx & ->). discriminate.
      + apply word_spec in Hm as ->. discriminate.
      + apply chr_split_chr in Hm as (x & Hx & ->). discriminate.
      + apply split_re_spec in Hm as (ws & _ & ->). discriminate.
    - cbn [skipn pre_rules]. repeat constructor; cbn [r_re]. now rewrite longest_any_nl. }
  rewrite Hb. reflexivity.
Qed.
Lemma pre_body body t : one_line body -> no_comment body -> forall bol line,
  tokens_of (lex_run (mkl PRE bol line) (body ++ nl :: t)) = tokens_of (lex_run (mkl INITIAL true (line + 1)) t).
Proof.
  induction body as [|c body IH]; intros H Hno bol line; cbn [app].
  - now rewrite (run_tokens_skip _ _ _ _ (pre_end bol line t)).
  - rewrite (run_tokens_skip _ _ _ _ (pre_skip bol line c body t H Hno)) by easy. unfold skip_one. cbn [s_state s_rest].
    rewrite IH by (eauto using one_line_tail, no_comment_tail). do 3 f_equal. rewrite newlines_none; [lia|].
    intros [->|[]]. apply (proj1 H). now left.
Qed.

Lemma preproc_spec w : matches preproc_re w <-> exists b ws, (b = [] \/ b = bom_s) /\ spaces ws /\ w = b ++ ws ++ $"#".
Proof.
  unfold preproc_re. rewrite inv_cat. split.
  - intros (u & v & -> & Hu & Hv). apply inv_cat in Hv as (x & y & -> & Hx & Hy). apply chr_spec in Hy as ->.
    exists u, x. split; [apply opt_spec in Hu as [Hu|Hu]; [right; now apply word_spec|now left]|]. split; [|easy].
    apply opt_spec in Hx as [Hx| ->]; [now apply star_cls|constructor].
  - intros (b & ws & Hb & Hs & ->). exists b, (ws ++ $"#"). split; [easy|]. split.
    + apply opt_spec. destruct Hb as [->| ->]; [now right|left; now apply word_spec].
    + apply inv_cat. exists ws, $"#". split; [easy|]. split; [|now apply chr_spec]. apply opt_spec. left. now apply star_cls.
Qed.

(** rules that may start like white space or [#] *)
Definition pre_start_rules : list rule :=
  [ mkrule INITIAL true preproc_re (Begin PRE); mkrule INITIAL false (Cls isspace) Skip; mkrule INITIAL false any TokIllegal ].
Definition pre_start_rules2 : list rule :=
  [ mkrule INITIAL true preproc_re (Begin PRE); mkrule INITIAL false any TokIllegal ].
Definition pre_start_rules3 : list rule :=
  [ mkrule INITIAL true preproc_re (Begin PRE); mkrule INITIAL false (Cls isspace) Skip ].

Lemma space_chars c : isspace c = true -> In c [nl; " "; "009"; "011"; "012"; "013"]%char.
Proof.
  intro H. assert (X : implb (isspace c) (existsb (Ascii.eqb c) [nl; " "; "009"; "011"; "012"; "013"]%char) = true).
  { revert c H. refine (fun c _ => by_enum (fun c => implb (isspace c) (existsb (Ascii.eqb c) [nl; " "; "009"; "011"; "012"; "013"]%char)) _ c).
    vm_compute. reflexivity. }
  rewrite H in X. cbn [implb] in X. apply existsb_exists in X as (d & Hd & E). apply Ascii.eqb_eq in E. now subst.
Qed.

Lemma open_pre line ws s : spaces ws ->
  lex_step (mkl INITIAL true line) ((ws ++ $"#") ++ s) =
  mkstep (ws ++ $"#") (Begin PRE) None s (mkl PRE false (line + newlines ws)).
Proof.
  intro Hws. unfold lex_step, pick. cbn [l_cond l_bol l_line].
  assert (Hl : longest preproc_re ((ws ++ $"#") ++ s) = Some (length (ws ++ $"#"))).
  { apply longest_exact; [apply preproc_spec; exists [], ws; auto|]. intros w x -> Hw Hm.
    apply preproc_spec in Hm as (b & ws' & Hb & Hs & E).
    destruct Hb as [->| ->].
    - cbn [app] in E. rewrite <- app_assoc in E. revert ws' Hs E. clear - Hws Hw.
      induction Hws as [|c ws Hc Hws IH]; intros [|d ws'] Hs E; cbn in E.
      + congruence.
      + inversion Hs as [|? ? Hd]; subst. assert (Ed : d = "#"%char) by congruence. subst. vm_compute in Hd. easy.
      + assert (Ed : c = "#"%char) by congruence. subst. vm_compute in Hc. easy.
      + inversion Hs; subst. apply (IH ws'); [easy|]. now injection E.
    - rewrite <- app_assoc in E. destruct ws as [|c ws]; cbn in E; [discriminate|].
      inversion Hws as [|? ? Hd]; subst. assert (Ed : c = "239"%char) by congruence. subst. vm_compute in Hd. easy. }
  assert (Hb : best (filter (active INITIAL true) rules) ((ws ++ $"#") ++ s) = Some (length (ws ++ $"#"), Begin PRE)).
  { assert (Hsp : forall t, not_longer (longest (Cls isspace) t) 1).
    { intro t. destruct (longest (Cls isspace) t) as [n|] eqn:E; [|easy]. pose proof (longest_le _ _ _ E) as Hle.
      apply longest_matches in E.
      apply inv_cls in E as (c & E & _). apply (f_equal (@length ascii)) in E. rewrite firstn_length in E. cbn in *. lia. }
    assert (Han : forall t, not_longer (longest any t) 1).
    { intro t. destruct (longest any t) as [n|] eqn:E; [|easy]. pose proof (longest_le _ _ _ E) as Hle. apply longest_matches in E.
      apply any_spec in E as (c & E & _). apply (f_equal (@length ascii)) in E. rewrite firstn_length in E. cbn in *. lia. }
    assert (Hge : forall o n, not_longer o 1 -> not_longer o (S n)) by (intros [m|] n; cbn; intros; lia).
    destruct ws as [|c ws].
    - cbn [app lit list_ascii_of_string] in *. rewrite best_can_start.
      replace (filter (can_start "#") (filter (active INITIAL true) rules)) with pre_start_rules2 by reflexivity.
      apply (best_max [] (mkrule INITIAL true preproc_re (Begin PRE)) (skipn 1 pre_start_rules2)); [exact Hl|constructor|].
      cbn [skipn pre_start_rules2]. repeat constructor; cbn [r_re]; auto.
    - assert (Hc : isspace c = true) by now inversion Hws.
      change (((c :: ws) ++ $"#") ++ s) with (c :: ((ws ++ $"#") ++ s)) in *. rewrite best_can_start.
      change (length ((c :: ws) ++ $"#")) with (S (length (ws ++ $"#"))) in *.
      apply space_chars in Hc. cbn [In] in Hc.
      destruct Hc as [<-|Hc].
      + replace (filter (can_start nl) (filter (active INITIAL true) rules)) with pre_start_rules3 by reflexivity.
        apply (best_max [] (mkrule INITIAL true preproc_re (Begin PRE)) (skipn 1 pre_start_rules3)); [exact Hl|constructor|].
        cbn [skipn pre_start_rules3]. repeat constructor; cbn [r_re]; auto.
      + replace (filter (can_start c) (filter (active INITIAL true) rules)) with pre_start_rules
          by (repeat destruct Hc as [<-|Hc]; try easy; reflexivity).
        apply (best_max [] (mkrule INITIAL true preproc_re (Begin PRE)) (skipn 1 pre_start_rules)); [exact Hl|constructor|].
        cbn [skipn pre_start_rules]. repeat constructor; cbn [r_re]; auto. }
  rewrite Hb. rewrite firstn_app_exact, skipn_app_exact. unfold act_token, act_cond. f_equal. f_equal.
  - apply (not_nl_end ws "#"%char). discriminate.
  - rewrite newlines_app. change (newlines $"#") with 0%N. lia.
Qed.

Lemma directive_invisible line ws body rest : spaces ws -> one_line body -> no_comment body ->
  tokens_of (lex_run (mkl INITIAL true line) (ws ++ $"#" ++ body ++ nl :: rest)) =
  tokens_of (lex_run (mkl INITIAL true (line + newlines ws + 1)) rest).
Proof.
  intros H1 H2 H3. rewrite app_assoc. erewrite run_tokens_step; [|now destruct ws|now apply open_pre|easy].
  cbn [s_state s_rest]. now apply pre_body.
Qed.

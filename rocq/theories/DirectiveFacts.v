(** Directives with comments and continued lines: proofs for C90. *)
From Coq Require Import Ascii String List Bool Arith NArith Lia.
From Verif Require Import Str StrFacts Regex RegexFacts Lex LexFacts SpecLex LexComments LexWords LexJoin SpecDirective.
Import ListNotations.
#[local] Opaque rules.

Lemma split_starts u : matches split_re u -> exists c r, u = bslash :: c :: r /\ isspace c = true.
Proof.
  intros H. apply split_re_spec in H as (ws & Hs & ->). destruct ws as [|c ws]; cbn [app]; [exists nl, []; auto|].
  inversion Hs; subst. exists c, (ws ++ [nl]). auto.
Qed.
Lemma opener_starts w : opener w \/ line_opener w -> exists c r, w = "/"%char :: c :: r /\ (c = "/"%char \/ c = "*"%char \/ c = bslash).
Proof.
  intros [(x & Hx & ->)|(x & Hx & ->)]; (destruct Hx as [->|(ws & _ & ->)]; [eexists; exists []; split; [reflexivity|tauto]|]);
    cbn [app lit list_ascii_of_string]; eexists; eexists; (split; [reflexivity|tauto]).
Qed.

Lemma pre_char bol line c s : c <> nl -> (c = "/"%char -> match s with d :: _ => d <> "/"%char /\ d <> "*"%char /\ d <> bslash | [] => True end) ->
  (c = bslash -> match s with d :: _ => isspace d = false | [] => True end) ->
  lex_step (mkl PRE bol line) (c :: s) = skip_one PRE line c s.
Proof.
  intros N S B. apply pre_skip_gen; [exact N| |].
  - intros u v E M. destruct (split_starts u M) as (d & r & -> & D). cbn in E. injection E as -> ->. specialize (B eq_refl). cbn in B. congruence.
  - intros w v E O. destruct (opener_starts w O) as (d & r & -> & D). cbn in E. injection E as -> ->. specialize (S eq_refl). cbn in S. tauto.
Qed.

Lemma longest_split_indented ws b c r : spaces ws -> Forall blank b -> isspace c = false ->
  longest split_re (([bslash] ++ ws ++ [nl]) ++ b ++ c :: r) = Some (length ([bslash] ++ ws ++ [nl])).
Proof.
  intros Hs Hb Hc. apply longest_exact; [apply split_re_spec; now exists ws|]. intros w x E Hw Hm.
  apply split_re_spec in Hm as (ws' & Hs' & E'). rewrite <- !app_assoc in E'. cbn in E'. injection E' as E'.
  destruct (exists_last Hw) as (w' & e & ->). rewrite app_comm_cons, app_assoc in E'. apply app_inj_tail in E' as [E' ->].
  (* w' ++ [nl] begins b ++ c :: r, and all of it is white space *)
  assert (Sp : spaces (w' ++ [nl])).
  { apply Forall_app. split; [|repeat constructor]. rewrite <- E' in Hs'. apply Forall_app in Hs' as [_ Hs']. now inversion Hs'. }
  clear - Sp E Hb Hc. revert w' Sp E. induction Hb as [|d b (D1 & D2) Hb IH]; intros w' Sp E.
  - destruct w' as [|f w']; cbn in E; injection E as Ec _; subst c; [discriminate Hc|]. inversion Sp; congruence.
  - destruct w' as [|f w']; cbn in E; injection E as Ec E; [congruence|]. inversion Sp; subst. now apply (IH w').
Qed.
Lemma pre_split_indented bol line ws b c r : spaces ws -> Forall blank b -> isspace c = false ->
  lex_step (mkl PRE bol line) (([bslash] ++ ws ++ [nl]) ++ b ++ c :: r) =
  mkstep ([bslash] ++ ws ++ [nl]) Skip None (b ++ c :: r) (mkl PRE true (line + newlines ([bslash] ++ ws ++ [nl]))).
Proof.
  intros Hs Hbl Hc. unfold lex_step, pick. cbn [l_cond l_bol l_line]. rewrite pre_active.
  assert (Hb : best pre_rules (([bslash] ++ ws ++ [nl]) ++ b ++ c :: r) = Some (S (length (ws ++ [nl])), Skip)).
  { apply (best_max (firstn 4 pre_rules) (mkrule PRE false split_re Skip) (skipn 5 pre_rules)).
    - cbn [r_re]. now apply longest_split_indented.
    - cbn [firstn pre_rules]. repeat constructor; cbn [r_re]; apply shorter_none; intros u v E Hm.
      + apply word_spec in Hm as ->. discriminate.
      + apply chr_split_chr in Hm as (x & Hx & ->). discriminate.
      + apply word_spec in Hm as ->. discriminate.
      + apply chr_split_chr in Hm as (x & Hx & ->). discriminate.
    - cbn [skipn pre_rules]. constructor; [|constructor; [|constructor]]; cbn [r_re].
      + apply not_longer_none. intros u v E Hm. apply chr_spec in Hm as ->. discriminate.
      + apply longest_any_short. }
  rewrite Hb. change (S (length (ws ++ [nl]))) with (length ([bslash] ++ ws ++ [nl])). rewrite firstn_app_exact, skipn_app_exact.
  unfold act_token, act_cond. f_equal. f_equal. apply ends_with_spec. now exists ([bslash] ++ ws).
Qed.

(* ---- comments in a directive *)

Ltac miss := (apply not_longer_none || apply shorter_none); let u := fresh in let v := fresh in let E := fresh in let H := fresh in intros u v E H;
  first [ apply word_spec in H; subst u; discriminate E
        | apply chr_split_chr in H as (? & (? & _ & ->) & ->); discriminate E
        | apply split_re_spec in H as (? & _ & ->); discriminate E
        | apply chr_spec in H; subst u; discriminate E ].

Lemma pre_open_c bol line s : lex_step (mkl PRE bol line) ($"/*" ++ s) = mkstep $"/*" (Begin PRE_COMMENT) None s (mkl PRE_COMMENT false line).
Proof.
  unfold lex_step, pick. cbn [l_cond l_bol l_line]. rewrite pre_active.
  assert (Hb : best pre_rules ($"/*" ++ s) = Some (2, Begin PRE_COMMENT)).
  { apply (best_max [] (mkrule PRE false (word $"/*") (Begin PRE_COMMENT)) (skipn 1 pre_rules)).
    - cbn [r_re]. apply (longest_word_hit $"/*").
    - constructor.
    - cbn [skipn pre_rules]. repeat constructor; cbn [r_re]; try miss.
      + change ($"/*" ++ s) with ("/"%char :: "*"%char :: s). rewrite longest_any_hit; [cbn; lia|discriminate]. }
  rewrite Hb. change 2 with (length $"/*"). rewrite firstn_app_exact, skipn_app_exact. unfold act_token, act_cond. f_equal. f_equal. change (newlines $"/*") with 0%N. lia.
Qed.
Lemma pre_open_line bol line s : lex_step (mkl PRE bol line) ($"//" ++ s) = mkstep $"//" (Begin COMMENT) None s (mkl COMMENT false line).
Proof.
  unfold lex_step, pick. cbn [l_cond l_bol l_line]. rewrite pre_active.
  assert (Hb : best pre_rules ($"//" ++ s) = Some (2, Begin COMMENT)).
  { apply (best_max (firstn 2 pre_rules) (mkrule PRE false (word $"//") (Begin COMMENT)) (skipn 3 pre_rules)).
    - cbn [r_re]. apply (longest_word_hit $"//").
    - cbn [firstn pre_rules]. repeat constructor; cbn [r_re]; miss.
    - cbn [skipn pre_rules]. repeat constructor; cbn [r_re]; try miss.
      + change ($"//" ++ s) with ("/"%char :: "/"%char :: s). rewrite longest_any_hit; [cbn; lia|discriminate]. }
  rewrite Hb. change 2 with (length $"//"). rewrite firstn_app_exact, skipn_app_exact. unfold act_token, act_cond. f_equal. f_equal. change (newlines $"//") with 0%N. lia.
Qed.

Definition pc_rules : list rule :=
  [ mkrule PRE_COMMENT false (word $"*/") (Begin PRE)
  ; mkrule PRE_COMMENT false (Cat (chr "*") (Cat split_re (chr "/"))) (Begin INITIAL)
  ; mkrule PRE_COMMENT false (chr nl) (Begin C_COMMENT)
  ; mkrule PRE_COMMENT false any Skip ].
Lemma pc_active bol : filter (active PRE_COMMENT bol) rules = pc_rules.
Proof. destruct bol; reflexivity. Qed.

Lemma pc_skip bol line c s : c <> nl -> (forall w b, c :: s = w ++ b -> ~ closer w) ->
  lex_step (mkl PRE_COMMENT bol line) (c :: s) = skip_one PRE_COMMENT line c s.
Proof.
  intros Hc H. unfold lex_step, pick. cbn [l_cond l_bol l_line]. rewrite pc_active.
  assert (Hb : best pc_rules (c :: s) = Some (1, Skip)).
  { apply (best_max (firstn 3 pc_rules) (mkrule PRE_COMMENT false any Skip) []).
    - cbn [r_re]. now apply longest_any_hit.
    - cbn [firstn pc_rules]. repeat constructor; cbn [r_re].
      + apply shorter_none. intros u v E Hm. apply word_spec in Hm as ->. apply (H _ _ E). exists []. split; [now left|easy].
      + apply shorter_none. intros u v E Hm. apply chr_split_chr in Hm as (x & Hx & ->). apply (H _ _ E). exists x. split; [now right|easy].
      + rewrite longest_chr_miss; [easy|congruence].
    - constructor. }
  rewrite Hb. reflexivity.
Qed.
Lemma pc_close bol line s : lex_step (mkl PRE_COMMENT bol line) ($"*/" ++ s) = mkstep $"*/" (Begin PRE) None s (mkl PRE false line).
Proof.
  unfold lex_step, pick. cbn [l_cond l_bol l_line]. rewrite pc_active.
  assert (Hb : best pc_rules ($"*/" ++ s) = Some (2, Begin PRE)).
  { apply (best_max [] (mkrule PRE_COMMENT false (word $"*/") (Begin PRE)) (skipn 1 pc_rules)).
    - cbn [r_re]. apply (longest_word_hit $"*/").
    - constructor.
    - cbn [skipn pc_rules]. repeat constructor; cbn [r_re]; try miss.
      + change ($"*/" ++ s) with ("*"%char :: "/"%char :: s). rewrite longest_any_hit; [cbn; lia|discriminate]. }
  rewrite Hb. change 2 with (length $"*/"). rewrite firstn_app_exact, skipn_app_exact. unfold act_token, act_cond. f_equal. f_equal. change (newlines $"*/") with 0%N. lia.
Qed.
Lemma pc_nl bol line s : lex_step (mkl PRE_COMMENT bol line) (nl :: s) = mkstep [nl] (Begin C_COMMENT) None s (mkl C_COMMENT true (line + 1)).
Proof.
  unfold lex_step, pick. cbn [l_cond l_bol l_line]. rewrite pc_active.
  assert (Hb : best pc_rules (nl :: s) = Some (1, Begin C_COMMENT)).
  { apply (best_max (firstn 2 pc_rules) (mkrule PRE_COMMENT false (chr nl) (Begin C_COMMENT)) (skipn 3 pc_rules)).
    - cbn [r_re]. apply longest_chr_hit.
    - cbn [firstn pc_rules]. repeat constructor; cbn [r_re]; miss.
    - cbn [skipn pc_rules]. repeat constructor; cbn [r_re]. now rewrite longest_any_nl. }
  rewrite Hb. reflexivity.
Qed.

(** no closer begins in [body] when [body ++ cl] has its first closer at the end, whatever follows *)
Lemma no_closer_before body cl rest : first_closer body cl -> forall a c s w b, body ++ cl ++ rest = a ++ c :: s -> length a < length body ->
  c :: s = w ++ b -> ~ closer w.
Proof.
  intros [Hcl Hf] a c s w b E La Ew Hw. rewrite Ew in E.
  (* where does [w] end? *)
  destruct (le_lt_dec (length (a ++ w)) (length (body ++ cl))) as [Le|Gt].
  - assert (X : exists z, body ++ cl = a ++ w ++ z).
    { exists (skipn (length (a ++ w)) (body ++ cl)). rewrite (app_assoc a w). rewrite !app_assoc in E. rewrite <- (app_assoc (a ++ w)) in E || idtac.
      assert (F : firstn (length (a ++ w)) ((body ++ cl) ++ rest) = a ++ w) by (rewrite E, <- ?app_assoc, (app_assoc a w); apply firstn_app_exact).
      rewrite firstn_app in F. replace (length (a ++ w) - length (body ++ cl)) with 0 in F by lia. rewrite firstn_O, app_nil_r in F.
      rewrite <- F at 1. now rewrite firstn_skipn. }
    destruct X as (z & X). specialize (Hf a w z X Hw). lia.
  - (* then [cl] lies inside [w], behind its first byte: the slash of [cl] would be in the white space of [w] *)
    assert (X : exists z, a ++ w = (body ++ cl) ++ z /\ z <> []).
    { assert (F : firstn (length (a ++ w)) ((body ++ cl) ++ rest) = a ++ w) by (rewrite <- app_assoc, E, (app_assoc a w); apply firstn_app_exact).
      rewrite firstn_app, firstn_all2 in F by lia. eexists. split; [symmetry; exact F|]. intros Z. rewrite Z, app_nil_r in F. rewrite F in Gt. lia. }
    destruct X as (z & X & Nz). destruct (exists_last Nz) as (z' & e & ->).
    destruct Hw as (x & Hx & ->). destruct Hcl as (y & Hy & ->).
    assert (Y : exists u, body = a ++ "*"%char :: u /\ x = u ++ ($"*" ++ y ++ $"/") ++ z').
    { rewrite !app_assoc in X. apply app_inj_tail in X as [X _]. rewrite <- !app_assoc in X.
      assert (L : a = firstn (length a) body).
      { apply (f_equal (firstn (length a))) in X. rewrite firstn_app_exact in X. rewrite firstn_app in X. replace (length a - length body) with 0 in X by lia. now rewrite firstn_O, app_nil_r in X. }
      rewrite <- (firstn_skipn (length a) body) in X. rewrite <- L, <- app_assoc in X. apply app_inv_head in X.
      destruct (skipn (length a) body) as [|f u] eqn:Sk.
      - exfalso. apply (f_equal (@length ascii)) in Sk. rewrite skipn_length in Sk. cbn in Sk. lia.
      - cbn [app lit list_ascii_of_string] in X. injection X as <- X. exists u. split; [rewrite <- (firstn_skipn (length a) body), <- L, Sk; reflexivity|].
        rewrite X. cbn [app lit list_ascii_of_string]. rewrite <- ?app_assoc. reflexivity. }
    destruct Y as (u & _ & Y). assert (In "/"%char x).
    { rewrite Y, !in_app_iff. right. left. right. right. now left. }
    destruct Hx as [->|(ws & Hs & ->)]; [easy|]. rewrite !in_app_iff in H. unfold spaces in Hs. rewrite Forall_forall in Hs.
    destruct H as [[H|[]]|[H|[H|[]]]]; try discriminate. specialize (Hs _ H). vm_compute in Hs. easy.
Qed.

Lemma pc_body cl body rest : first_closer body cl -> forall b a, body = b ++ a -> ~ In nl a -> forall bol line, exists bol',
  tokens_of (lex_run (mkl PRE_COMMENT bol line) (a ++ cl ++ rest)) = tokens_of (lex_run (mkl PRE_COMMENT bol' line) (cl ++ rest)).
Proof.
  intros F b a. revert b. induction a as [|c a IH]; intros b E N bol line; [exists bol; reflexivity|].
  cbn [app]. rewrite (run_tokens_skip _ _ _ (skip_one PRE_COMMENT line c (a ++ cl ++ rest))); [| |reflexivity].
  - unfold skip_one. cbn [s_state s_rest]. replace (line + newlines [c])%N with line; [|rewrite newlines_none; [lia|intros [->|[]]; apply N; now left]].
    apply (IH (b ++ [c])); [now rewrite <- app_assoc|]. intros X. apply N. now right.
  - apply pc_skip; [intros ->; apply N; now left|]. intros w z. apply (no_closer_before body cl rest F b c (a ++ cl ++ rest) w z).
    + rewrite E, <- app_assoc. reflexivity.
    + rewrite E, app_length. cbn [length]. lia.
Qed.

Lemma segments_run t : forall l, segments_ok l t -> forall bol line, exists bol',
  tokens_of (lex_run (mkl PRE bol line) (segments_text l ++ t)) = tokens_of (lex_run (mkl PRE bol' (line + newlines (segments_text l))) t).
Proof.
  induction l as [|x l IH]; intros Ok bol line.
  - exists bol. cbn [segments_text map concat app]. change (newlines []) with 0%N. now rewrite N.add_0_r.
  - destruct Ok as [O1 O2]. change (segments_text (x :: l)) with (segment_text x ++ segments_text l). rewrite <- app_assoc.
    set (u := segments_text l ++ t) in *.
    assert (G : forall b l0, l0 = (line + newlines (segment_text x))%N -> exists bol',
      tokens_of (lex_run (mkl PRE b l0) u) = tokens_of (lex_run (mkl PRE bol' (line + newlines (segment_text x ++ segments_text l))) t)).
    { intros b l0 ->. destruct (IH O2 b (line + newlines (segment_text x))%N) as (b' & E). exists b'. rewrite E. do 3 f_equal. rewrite newlines_app. lia. }
    destruct x as [w| | |ws|body]; cbn [segment_text segment_ok] in *.
    + assert (K : forall w2 b l0, Forall (fun c => c <> "/"%char /\ c <> bslash /\ c <> nl) w2 -> exists b', tokens_of (lex_run (mkl PRE b l0) (w2 ++ u)) = tokens_of (lex_run (mkl PRE b' l0) u)).
      { induction w2 as [|c w2 IHw]; intros b l0 Fw; [exists b; reflexivity|]. inversion Fw as [|? ? (C1 & C2 & C3) Fw']; subst. cbn [app].
        rewrite (run_tokens_skip _ _ _ (skip_one PRE l0 c (w2 ++ u))); [|apply pre_char; [exact C3|congruence|congruence]|reflexivity].
        unfold skip_one. cbn [s_state s_rest]. replace (l0 + newlines [c])%N with l0; [auto|]. rewrite newlines_none; [lia|]. intros [X|[]]; congruence. }
      destruct (K w bol line O1) as (b' & ->). apply G. rewrite newlines_none; [lia|]. intros X. rewrite Forall_forall in O1. now destruct (O1 _ X) as (_ & _ & Q).
    + cbn [app lit list_ascii_of_string]. rewrite (run_tokens_skip _ _ _ (skip_one PRE line "/" u)); [|apply pre_char; [discriminate| |discriminate]|reflexivity].
      * unfold skip_one. cbn [s_state s_rest]. now apply G.
      * intros _. exact O1.
    + cbn [app]. rewrite (run_tokens_skip _ _ _ (skip_one PRE line bslash u)); [|apply pre_char; [discriminate|discriminate|]|reflexivity].
      * unfold skip_one. cbn [s_state s_rest]. now apply G.
      * intros _. exact O1.
    + destruct O1 as (Sw & b & c & r & Er & Bb & Bc).
      rewrite (run_tokens_step _ ([bslash] ++ ws ++ [nl]) u (mkstep ([bslash] ++ ws ++ [nl]) Skip None u (mkl PRE true (line + newlines ([bslash] ++ ws ++ [nl]))))); [| discriminate| |reflexivity].
      * cbn [s_state s_rest]. now apply G.
      * rewrite Er. now apply pre_split_indented.
    + destruct O1 as (Nn & F). assert (Es : ($"/*" ++ body ++ $"*/") ++ u = $"/*" ++ body ++ $"*/" ++ u) by (now rewrite <- !app_assoc). rewrite Es.
      pose proof (run_tokens_step _ $"/*" _ _ ltac:(discriminate) (pre_open_c bol line (body ++ $"*/" ++ u)) eq_refl) as S1. cbn [s_state s_rest] in S1. rewrite S1.
      destruct (pc_body $"*/" body u F [] body eq_refl Nn false line) as (b' & E). rewrite E.
      pose proof (run_tokens_step _ $"*/" _ _ ltac:(discriminate) (pc_close b' line u) eq_refl) as S2. cbn [s_state s_rest] in S2. rewrite S2. apply G.
      rewrite !newlines_app, (newlines_none body Nn). change (newlines $"/*") with 0%N. change (newlines $"*/") with 0%N. lia.
Qed.

(** what follows the directive does not matter *)
Lemma segments_ok_more rest t : t <> [] -> forall l, segments_ok l t -> segments_ok l (t ++ rest).
Proof.
  intros Nt. assert (M : forall x u, u <> [] -> segment_ok x u -> segment_ok x (u ++ rest)).
  { intros x u Nu H. destruct u as [|c t']; [easy|]. destruct x; cbn [segment_ok app] in *; auto. destruct H as (H0 & b & d & r & E & H1 & H2). split; [exact H0|].
    exists b, d, (r ++ rest). split; [|auto]. change (c :: t' ++ rest) with ((c :: t') ++ rest). rewrite E, <- app_assoc. reflexivity. }
  induction l as [|x l IH]; intros Ok; [exact I|]. destruct Ok as [O1 O2]. split; [|auto]. rewrite app_assoc. apply M; [|exact O1].
  intros E. apply app_eq_nil in E as [_ E]. easy.
Qed.

Lemma directive_skipped line ws l last rest : spaces ws -> segments_ok l last -> directive_end last ->
  tokens_of (lex_run (mkl INITIAL true line) (ws ++ $"#" ++ segments_text l ++ last ++ rest)) =
  tokens_of (lex_run (mkl INITIAL true (line + newlines (ws ++ $"#" ++ segments_text l ++ last))) rest).
Proof.
  intros Sw Ok De. rewrite app_assoc. erewrite run_tokens_step; [|now destruct ws|now apply open_pre|easy].
  cbn [s_state s_rest].
  assert (Nl : last <> []) by (destruct De as [->|(? & _ & ->)]; discriminate).
  destruct (segments_run (last ++ rest) l (segments_ok_more rest last Nl l Ok) false (line + newlines ws)) as (b & ->).
  destruct De as [->|(body & B & ->)].
  - cbn [app]. rewrite (run_tokens_skip _ _ _ _ (pre_end b _ rest) eq_refl). cbn [s_state s_rest]. do 3 f_equal. rewrite !newlines_app. change (newlines $"#") with 0%N. change (newlines [nl]) with 1%N. lia.
  - rewrite <- !app_assoc. pose proof (run_tokens_step _ $"//" _ _ ltac:(discriminate) (pre_open_line b (line + newlines ws + newlines (segments_text l)) (body ++ [nl] ++ rest)) eq_refl) as S1. cbn [s_state s_rest] in S1. rewrite S1.
    cbn [app]. rewrite lc_body by exact B. do 3 f_equal. rewrite !newlines_app, (newlines_none body) by apply B. change (newlines $"#") with 0%N. change (newlines [nl]) with 1%N. change (newlines $"//") with 0%N. lia.
Qed.

(** a comment that goes on on the next line ends the directive: what follows it is not skipped *)
Lemma directive_cut line ws l b1 b2 cl rest : spaces ws -> segments_ok l ($"/*" ++ b1 ++ [nl] ++ b2 ++ cl) -> ~ In nl b1 -> first_closer (b1 ++ [nl] ++ b2) cl ->
  tokens_of (lex_run (mkl INITIAL true line) (ws ++ $"#" ++ segments_text l ++ $"/*" ++ b1 ++ [nl] ++ b2 ++ cl ++ rest)) =
  tokens_of (lex_run (mkl INITIAL false (line + newlines (ws ++ $"#" ++ segments_text l ++ $"/*" ++ b1 ++ [nl] ++ b2 ++ cl))) rest).
Proof.
  intros Sw Ok N F. rewrite app_assoc. erewrite run_tokens_step; [|now destruct ws|now apply open_pre|easy]. cbn [s_state s_rest].
  apply (segments_ok_more rest) in Ok; [|discriminate]. rewrite <- !app_assoc in Ok.
  destruct (segments_run ($"/*" ++ b1 ++ [nl] ++ b2 ++ cl ++ rest) l Ok false (line + newlines ws)) as (b & ->).
  set (l0 := (line + newlines ws + newlines (segments_text l))%N).
  pose proof (run_tokens_step _ $"/*" _ _ ltac:(discriminate) (pre_open_c b l0 (b1 ++ [nl] ++ b2 ++ cl ++ rest)) eq_refl) as S1. cbn [s_state s_rest] in S1. rewrite S1.
  assert (P : forall a1 a2 bol, b1 = a1 ++ a2 -> exists bol', tokens_of (lex_run (mkl PRE_COMMENT bol l0) (a2 ++ [nl] ++ b2 ++ cl ++ rest)) = tokens_of (lex_run (mkl PRE_COMMENT bol' l0) ([nl] ++ b2 ++ cl ++ rest))).
  { intros a1 a2. revert a1. induction a2 as [|c a2 IH]; intros a1 bol E; [exists bol; reflexivity|]. cbn [app].
    assert (Nc : c <> nl) by (intros ->; apply N; rewrite E; apply in_app_iff; right; now left).
    rewrite (run_tokens_skip _ _ _ (skip_one PRE_COMMENT l0 c (a2 ++ [nl] ++ b2 ++ cl ++ rest))); [| |reflexivity].
    - unfold skip_one. cbn [s_state s_rest]. replace (l0 + newlines [c])%N with l0; [|rewrite newlines_none; [lia|intros [X|[]]; congruence]].
      apply (IH (a1 ++ [c])). now rewrite <- app_assoc.
    - apply pc_skip; [exact Nc|]. intros w z. apply (no_closer_before _ cl rest F a1 c (a2 ++ [nl] ++ b2 ++ cl ++ rest) w z).
      + rewrite E, <- !app_assoc. reflexivity.
      + rewrite E, !app_length. cbn [length]. lia. }
  destruct (P [] b1 false eq_refl) as (b' & ->). cbn [app]. rewrite (run_tokens_skip _ _ _ _ (pc_nl b' l0 (b2 ++ cl ++ rest)) eq_refl). cbn [s_state s_rest].
  assert (F2 : first_closer b2 cl).
  { destruct F as [F0 F1]. split; [exact F0|]. intros a c z E H. specialize (F1 (b1 ++ [nl] ++ a) c z). rewrite !app_length in F1. cbn [length] in F1.
    assert (X : length b1 + S (length b2) <= length b1 + S (length a)); [|lia]. apply F1; [|exact H]. rewrite <- !app_assoc. f_equal. cbn [app]. now rewrite E. }
  rewrite cc_body by exact F2. do 3 f_equal. unfold l0. rewrite !newlines_app. rewrite (newlines_none b1 N). change (nl :: b2 ++ cl) with ([nl] ++ b2 ++ cl). rewrite !newlines_app.
  change (newlines $"#") with 0%N. change (newlines [nl]) with 1%N. change (newlines $"/*") with 0%N. lia.
Qed.

(** texts that are surely in order *)
Lemma plain_comment body : ~ In "*"%char body -> first_closer body $"*/".
Proof.
  intros H. split; [exists []; split; [now left|reflexivity]|]. intros a c b E (x & _ & ->).
  revert body E H. induction a as [|d a IH]; intros body E H; destruct body as [|e body]; cbn [length]; try lia.
  - cbn in E. injection E as -> _. elim H. now left.
  - cbn in E. injection E as -> E. apply IH in E; [lia|]. intros X. apply H. now right.
Qed.
Lemma plain_line body : ~ In nl body -> ~ In bslash body -> one_line body.
Proof. intros H1 H2. split; [exact H1|]. intros a b ->. elim H2. apply in_app_iff. right. now left. Qed.
Definition is_in (c : ascii) (s : str) : bool := existsb (Ascii.eqb c) s.
Lemma is_in_false c s : is_in c s = false -> ~ In c s.
Proof. intros H X. enough (is_in c s = true) by congruence. apply existsb_exists. exists c. split; [exact X|apply Ascii.eqb_refl]. Qed.

(** Proofs for C93 to C96: what a compiler reads from the filled header, and from what follows it. *)
From Coq Require Import Ascii String List Bool Arith Lia.
From Verif Require Import Str StrFacts Parse ParamNames Prefix Substitute SpecPrefix SpecSubstitute SpecTemplates ShippedFacts SpecCLang SpecCProg SpecCMacro SpecBody SpecHeader
  CTemplate CTemplateText CTemplatePP CBodyText HTemplate HTemplatePP.
Import ListNotations.

(* ---------------------------------------------------------------- one text behind another *)

Lemma defined_after_app cfg a b : defined_after cfg (a ++ b) = defined_after (defined_after cfg a) b.
Proof. apply fold_left_app. Qed.
Lemma defined_after_ext out : forall d d', (forall x, d x = d' x) -> forall x, defined_after d out x = defined_after d' out x.
Proof.
  induction out as [|o out IH]; intros d d' H x; [apply H|]. unfold defined_after; cbn [fold_left]. apply IH. intro y. destruct o; [apply H|..]; destruct (str_eqb y _); auto.
Qed.
Lemma toks_after d l : defined_after d (map PTok l) = d.
Proof. induction l as [|t l IH]; [reflexivity|exact IH]. Qed.

Lemma line_defs cfg s l s' out : pp_line cfg s l = Some (s', out) -> forall x, defined_in cfg s' x = defined_after (defined_in cfg s) out x.
Proof.
  destruct s as [gs ms]. intros E x. destruct l; cbn [pp_line] in E; cbn [p_groups p_macros] in E.
  - injection E as <- <-. destruct (all_used gs); [now rewrite toks_after|reflexivity].
  - injection E as <- <-. reflexivity.
  - destruct gs; [discriminate|]. injection E as <- <-. reflexivity.
  - destruct gs; [discriminate|]. injection E as <- <-. reflexivity.
  - destruct gs; [discriminate|]. injection E as <- <-. reflexivity.
  - destruct (all_used gs); injection E as <- <-; [|reflexivity]. unfold defined_in; cbn [p_macros lookup defined_after fold_left]. now destruct (str_eqb x x0).
  - destruct (all_used gs); injection E as <- <-; [|reflexivity]. unfold defined_in; cbn [p_macros lookup defined_after fold_left]. now destruct (str_eqb x x0).
  - injection E as <- <-. reflexivity.
Qed.
Lemma lines_defs cfg ls : forall s s' out, pp_lines cfg s ls = Some (s', out) -> forall x, defined_in cfg s' x = defined_after (defined_in cfg s) out x.
Proof.
  induction ls as [|l ls IH]; intros s s' out E x; cbn [pp_lines] in E; [now injection E as <- <-|].
  destruct (classify l) as [k|]; [|discriminate]. destruct (pp_line cfg s k) as [[s1 t1]|] eqn:E1; [|discriminate].
  destruct (pp_lines cfg s1 ls) as [[s2 t2]|] eqn:E2; [|discriminate]. injection E as <- <-.
  rewrite (IH _ _ _ E2), defined_after_app. apply defined_after_ext. exact (line_defs _ _ _ _ _ E1).
Qed.

(** reading goes on with the macros that there are *)
Definition under (ms : list (str * bool)) (s : pstate) : pstate := mkp (p_groups s) (p_macros s ++ ms).
Lemma lookup_app {A} x (a b : list (str * A)) : lookup x (a ++ b) = match lookup x a with Some v => Some v | None => lookup x b end.
Proof. induction a as [|[y v] a IH]; [reflexivity|]. cbn [app lookup]. now destruct (str_eqb x y). Qed.
Lemma holds_ext d d' a : (forall x, d x = d' x) -> holds d a = holds d' a.
Proof. intro H. induction a as [x|a IH|a IHa b IHb|a IHa b IHb]; cbn [holds]; [apply H|now rewrite IH|now rewrite IHa, IHb|now rewrite IHa, IHb]. Qed.
Section Under.
Variables (cfg cfg' : str -> bool) (ms : list (str * bool)).
Hypothesis same : forall x, cfg' x = defined_in cfg (mkp [] ms) x.
Lemma under_defined s x : defined_in cfg (under ms s) x = defined_in cfg' s x.
Proof. unfold defined_in, under; cbn [p_macros]. rewrite lookup_app, same. now destruct (lookup x (p_macros s)). Qed.
Lemma under_line s l : pp_line cfg (under ms s) l = match pp_line cfg' s l with Some (s', o) => Some (under ms s', o) | None => None end.
Proof.
  destruct s as [gs m]. destruct l; cbn [pp_line]; change (p_groups (under ms (mkp gs m))) with gs; cbn [p_groups p_macros]; try (destruct gs; reflexivity).
  - now rewrite (holds_ext _ _ _ (under_defined (mkp gs m))).
  - destruct gs; [reflexivity|]. now rewrite (holds_ext _ _ _ (under_defined (mkp (g :: gs) m))).
  - now destruct (all_used gs).
  - now destruct (all_used gs).
Qed.
Lemma under_lines ls : forall s, pp_lines cfg (under ms s) ls = match pp_lines cfg' s ls with Some (s', o) => Some (under ms s', o) | None => None end.
Proof.
  induction ls as [|l ls IH]; intro s; cbn [pp_lines]; [reflexivity|]. destruct (classify l) as [k|]; [|reflexivity]. rewrite under_line.
  destruct (pp_line cfg' s k) as [[s1 t1]|]; [|reflexivity]. rewrite IH. now destruct (pp_lines cfg' s1 ls) as [[s2 t2]|].
Qed.
End Under.

Lemma ssplit_more c l b : forall acc ls, ssplit acc l = Some ls -> split_lines (itoks no_value acc) (isels c l ++ b) = flat_map (iline c) ls ++ split_lines [] b.
Proof.
  induction l as [|x l IH]; intros acc ls E; cbn [ssplit] in E.
  - destruct acc; [|discriminate]. now injection E as <-.
  - destruct x as [t|k t].
    + assert (P : forall t', itok no_value t = [t'] -> t' <> TEnd -> ssplit (acc ++ [t]) l = Some ls ->
                  split_lines (itoks no_value acc) (isels c (XTok t :: l) ++ b) = flat_map (iline c) ls ++ split_lines [] b).
      { intros t' E1 N E2. rewrite <- (IH _ _ E2), itoks_app. change (itoks no_value [t]) with (itok no_value t ++ []).
        change (isels c (XTok t :: l)) with (itok no_value t ++ isels c l). rewrite E1. cbn [app split_lines]. now destruct t'. }
      destruct t; try (eapply P; [reflexivity|discriminate|exact E]); [|discriminate].
      destruct (ssplit [] l) as [ls1|] eqn:E1; [|discriminate]. injection E as <-. cbn [flat_map iline app].
      rewrite <- (IH _ _ E1). reflexivity.
    + destruct acc; [|discriminate]. destruct (rev t) as [|[] r] eqn:R; try discriminate.
      destruct (ssplit [] l) as [ls1|] eqn:E1; [|discriminate]. injection E as <-. cbn [flat_map iline]. rewrite <- app_assoc.
      rewrite <- (IH _ _ E1). change (isels c (XEach k t :: l)) with (flat_map (fun v => itoks v t) (envs c k) ++ isels c l). rewrite <- app_assoc.
      rewrite <- split_envs; [reflexivity|]. intros v _. exists (itoks v (rev r)).
      assert (T : t = rev r ++ [KEnd]) by (rewrite <- (rev_involutive t), R; reflexivity). rewrite T, itoks_app. reflexivity.
Qed.

(* ---------------------------------------------------------------- the header *)

Definition texts_fine (l : list str) : bool := forallb (fun s => str_eqb (line_text (parts 0 s)) s) l.
Definition expanded (c : config) (lines : list str) : str := concat (map (fun t => t ++ [nl]) (flat_map (expansion c) lines)).
Lemma lines_fit c lines : plain_config c -> Forall (line_fits c) (map sline lines).
Proof.
  intro P. apply Forall_forall. intros l I. apply in_map_iff in I as (s & <- & I). unfold line_fits, sline; cbn [fst snd]. destruct (holes (parts 0 s)) as [|h r] eqn:Hs.
  - apply Forall_app; split; [now apply no_holes_text|]. constructor; [exact Logic.I|constructor].
  - apply Forall_forall. intros v V. unfold fits. apply Forall_forall. intros x _. destruct x; [exact Logic.I|]. exact (env_holes c _ v h0 P V).
Qed.
Lemma all_fit c ls : plain_config c -> Forall (sl_fits c) ls.
Proof.
  intro P. apply Forall_forall. intros l _. destruct l as [|k l]; [exact Logic.I|]. unfold sl_fits, env_fits. apply Forall_forall. intros v V. split; apply Forall_forall; intros x _; destruct x; try exact Logic.I.
  - pose proof (env_holes c k v h P V) as X. unfold hole_fits in X. destruct (word_hole h) eqn:W; [|now apply X]. destruct X as [X1 X2]. unfold own_tokens. rewrite (word_start _ X1 X2). cbn. intuition discriminate.
  - exact (env_holes c k v h P V).
Qed.
Lemma hread_text c cfg free lines o : default_prefix c -> plain_config c -> texts_fine lines = true ->
  (forall p v, In p free -> In v (envs c CFunction) -> cfg (p ++ v HFunc) = false) -> NoDup (map (fun v => v HFunc) (envs c CFunction)) ->
  (forall k v h, In v (envs c k) -> ~ In (TOp $"#") (own_tokens (v h))) ->
  hread free lines = Some o ->
  forall rest, preprocess cfg (expanded c lines ++ rest) =
    match preprocess (defined_after cfg (outs cfg c o)) rest with Some out => Some (outs cfg c o ++ out) | None => None end.
Proof.
  intros D P H HF HN HH E rest. unfold hread in E. destruct (slex_lines SCode (map sline lines)) as [[m t]|] eqn:E1; [|discriminate]. destruct m; try discriminate.
  destruct (ssplit [] t) as [ls|] eqn:E2; [|discriminate]. destruct (hpp free (mksp [] [] []) ls) as [[[[|] d fr] o']|] eqn:E3; try discriminate. injection E as ->.
  assert (T : map (fun t => t ++ [nl]) (flat_map (expansion c) lines) = flat_map (htexts c) (map sline lines)).
  { clear E1 E2 E3. induction lines as [|s lines IH]; [reflexivity|]. cbn [texts_fine forallb] in H. apply andb_true_iff in H as [H1 H2].
    apply str_eqb_eq in H1. cbn [flat_map map]. etransitivity; [apply map_app|]. f_equal; [now apply htexts_ok|exact (IH H2)]. }
  unfold expanded. rewrite T.
  assert (NH : not_hole SCode) by exact Logic.I.
  destruct (hlex_lines_ok c _ (eaten_ok c P) _ _ _ (lines_fit c lines P) NH E1) as [L _]. cbn [imode] in L.
  unfold preprocess, c_tokens. rewrite lex_app, L. cbn [fst snd].
  pose proof (all_fit c ls P) as SF.
  assert (S0 : state_fits cfg (mksp [] [] []) (mkp [] [])) by (split; [constructor|]; now intros).
  destruct (hlines_ok cfg c free HF HN HH ls _ _ _ _ S0 SF E3) as (ps & Q & [G _]).
  unfold groups_fit in G. cbn [sp_groups] in G. destruct ps as [pg pm]. cbn [p_groups] in G. inversion G; subst.
  destruct (lex_from MCode rest) as [m r] eqn:R. destruct m; try reflexivity.
  cbn [fst snd]. pose proof (ssplit_more c t r [] ls E2) as S. cbn [itoks flat_map] in S. rewrite S, pp_app, Q.
  pose proof (lines_defs _ _ _ _ _ Q) as DF.
  rewrite (under_lines cfg (defined_after cfg (outs cfg c o)) pm (fun x => eq_sym (DF x)) (split_lines [] r) (mkp [] []) : pp_lines cfg (mkp [] pm) _ = _).
  destruct (pp_lines (defined_after cfg (outs cfg c o)) (mkp [] []) (split_lines [] r)) as [[[g2 m2] o2]|]; [|reflexivity].
  cbn [under p_groups p_macros]. now destruct g2.
Qed.

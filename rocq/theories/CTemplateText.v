(** Proofs for C92: what is read from a template with placeholders is what is read from the filled template. *)
From Coq Require Import Ascii String List Bool Arith Lia.
From Verif Require Import Str StrFacts Parse ParamNames Prefix Substitute SpecPrefix SpecSubstitute SpecTemplates ShippedFacts SpecCLang SpecCProg CTemplate.
Import ListNotations.

(* ---------------------------------------------------------------- reading characters *)

Lemma lex_app m a b : lex_from m (a ++ b) = (fst (lex_from (fst (lex_from m a)) b), snd (lex_from m a) ++ snd (lex_from (fst (lex_from m a)) b)).
Proof.
  revert m; induction a as [|c a IH]; intro m; cbn [app lex_from]; [cbn [fst snd app]; destruct (lex_from m b); reflexivity|].
  destruct (lex_char m c) as [m1 t1]. rewrite IH. destruct (lex_from m1 a) as [m2 t2]. cbn [fst snd].
  now rewrite app_assoc.
Qed.
Lemma lex_one m c : lex_from m [c] = lex_char m c.
Proof. cbn [lex_from]. destruct (lex_char m c) as [m1 t1]. now rewrite app_nil_r. Qed.

Definition hole_fits (v : hole -> str) (h : hole) : Prop :=
  if word_hole h then v h <> [] /\ ident_text (v h)
  else match fst (lex_from MCode (v h)) with MCode | MWord _ => True | _ => False end /\ ~ In TEnd (own_tokens (v h)) /\
       match h with HFuncPad | HObjPad => (exists n, own_tokens (v h) = [TWord n]) /\ ident_text (v (unpad h)) /\ exists k, v h = v (unpad h) ++ blanks k | _ => True end.

Lemma iname_app v a b : iname v (a ++ b) = iname v a ++ iname v b.
Proof. apply flat_map_app. Qed.
Lemma itoks_app v a b : itoks v (a ++ b) = itoks v a ++ itoks v b.
Proof. apply flat_map_app. Qed.
Lemma iname_lit v s : iname v (map SC s) = s.
Proof. induction s as [|c s IH]; [reflexivity|]. cbn [map]. change (iname v (SC c :: map SC s)) with ([c] ++ iname v (map SC s)). now rewrite IH. Qed.

Definition reads (v : hole -> str) (sm : smode) (m : cmode) (x : list tok) : Prop :=
  match sm with SHole h => lex_from MCode (v h) = (m, x) | SPad n h => lex_from (MWord (iname v n)) (v h) = (m, x) | _ => m = imode v sm /\ x = [] end.

Definition not_hole (m : smode) : Prop := match m with SHole _ | SPad _ _ => False | _ => True end.
Definition good (v : hole -> str) (m : smode) : Prop :=
  match m with SHole h => hole_fits v h /\ word_hole h = false | SPad _ h => hole_fits v h /\ pad_hole h = true | _ => True end.
Lemma fresh_reads v c : let '(sm, t) := sfresh c in fresh_char c = (imode v sm, itoks v t) /\ not_hole sm.
Proof.
  unfold sfresh, fresh_char.
  destruct (is_ident c); [now split|].
  destruct (blank_char c); [now split|].
  destruct (Ascii.eqb c nl); [now split|].
  destruct (Ascii.eqb c "/"); [now split|].
  destruct (Ascii.eqb c dquote || Ascii.eqb c "'"); [now split|].
  destruct (Ascii.eqb c bslash); [now split|].
  destruct (can_pair c); now split.
Qed.
Lemma reads_intro v sm : not_hole sm -> reads v sm (imode v sm) [].
Proof. intro N. destruct sm; try (now split); destruct N. Qed.

Lemma blanks_lex n : lex_from MCode (blanks n) = (MCode, []).
Proof. induction n as [|n IH]; [reflexivity|]. change (blanks (S n)) with (sp :: blanks n). cbn [lex_from]. change (lex_char MCode sp) with (MCode, @nil tok). cbv beta iota. now rewrite IH. Qed.
(** a run of word characters *)
Lemma word_run w s : ident_text s -> lex_from (MWord w) s = (MWord (w ++ s), []).
Proof.
  revert w; induction s as [|c s IH]; intros w H; cbn [lex_from]; [now rewrite app_nil_r|].
  inversion H as [|? ? Hc Hs]; subst. cbn [lex_char]. rewrite Hc, (IH _ Hs), <- app_assoc. reflexivity.
Qed.
Lemma word_start s : s <> [] -> ident_text s -> lex_from MCode s = (MWord s, []).
Proof.
  destruct s as [|c s]; [now intros []|]. intros _ H. inversion H as [|? ? Hc Hs]; subst.
  cbn [lex_from lex_char fresh_char]. unfold fresh_char. rewrite Hc, (word_run _ _ Hs). reflexivity.
Qed.
Lemma ident_not c d : is_ident c = true -> is_ident d = false -> Ascii.eqb c d = false.
Proof. intros H H'. destruct (Ascii.eqb_spec c d); [subst; congruence|reflexivity]. Qed.
Lemma text_run q w s : is_ident q = false -> ident_text s -> lex_from (MText q w) s = (MText q (w ++ s), []).
Proof.
  intro Q. revert w; induction s as [|c s IH]; intros w H; cbn [lex_from]; [now rewrite app_nil_r|].
  inversion H as [|? ? Hc Hs]; subst. cbn [lex_char].
  rewrite (ident_not c q Hc Q), (ident_not c nl Hc eq_refl), (ident_not c bslash Hc eq_refl), (IH _ Hs), <- app_assoc. reflexivity.
Qed.
Lemma line_run s : ident_text s -> lex_from MLine s = (MLine, []).
Proof.
  induction s as [|c s IH]; intro H; [reflexivity|]. inversion H as [|? ? Hc Hs]; subst. cbn [lex_from lex_char].
  rewrite (ident_not c nl Hc eq_refl), (ident_not c bslash Hc eq_refl), (IH Hs). reflexivity.
Qed.
Lemma block_run m s : m = MBlock \/ m = MStar -> s <> [] -> ident_text s -> lex_from m s = (MBlock, []).
Proof.
  revert m; induction s as [|c s IH]; intros m Hm N H; [now destruct N|]. inversion H as [|? ? Hc Hs]; subst. cbn [lex_from].
  assert (E : lex_char m c = (MBlock, [])).
  { destruct Hm; subst; cbn [lex_char]; rewrite ?(ident_not c "/" Hc eq_refl), (ident_not c "*" Hc eq_refl); reflexivity. }
  rewrite E. destruct s as [|d s]; [reflexivity|]. rewrite (IH MBlock); [reflexivity|now left|discriminate|assumption].
Qed.

Lemma after_reads v l c : let '(sm, t) := safter l (sfresh c) in
  (imode v sm, itoks v t) = (fst (fresh_char c), itoks v l ++ snd (fresh_char c)) /\ not_hole sm.
Proof.
  pose proof (fresh_reads v c) as H. unfold safter. destruct (sfresh c) as [sm t]. destruct H as [E N]. rewrite E. cbn [fst snd].
  split; [now rewrite itoks_app|assumption].
Qed.

Lemma slex_char_ok v c sm m x sm' t :
  match c with SH h => hole_fits v h | SC _ => True end ->
  good v sm -> reads v sm m x -> slex_char sm c = Some (sm', t) ->
  exists x', reads v sm' (fst (lex_from m (ichar v c))) x' /\ x ++ snd (lex_from m (ichar v c)) = itoks v t ++ x' /\
             good v sm'.
Proof.
  intros G Gm R E.
  assert (plain : forall m1 t1, not_hole sm' -> lex_from m (ichar v c) = (m1, t1) -> m1 = imode v sm' -> x ++ t1 = itoks v t ->
            exists x', reads v sm' (fst (lex_from m (ichar v c))) x' /\ x ++ snd (lex_from m (ichar v c)) = itoks v t ++ x' /\
             good v sm').
  { intros m1 t1 N E1 E2 E3. exists []. rewrite E1; cbn [fst snd]. rewrite E2, app_nil_r. split; [now apply reads_intro|]. split; [assumption|].
    destruct sm'; try exact I; destruct N. }
  destruct c as [c|h]; cbn [slex_char] in E.
  - cbn [ichar] in *. rewrite lex_one in *.
    destruct sm as [|n|d| | | | |q n|q n|l|h|n h]; cbn [slex_lit] in E; cbn [reads] in R.
    + destruct R as [-> ->]. injection E as E. pose proof (fresh_reads v c) as H. rewrite E in H. destruct H as [H N].
      eapply plain; [exact N|exact H|reflexivity|reflexivity].
    + destruct R as [-> ->]. injection E as E. cbn [imode lex_char] in *. destruct (is_ident c) eqn:I.
      * injection E as <- <-. eapply plain; [exact Logic.I|reflexivity| |reflexivity]. cbn [imode]. now rewrite iname_app.
      * pose proof (after_reads v (if Ascii.eqb c "(" then [KWord n; KGlue] else [KWord n]) c) as H. rewrite E in H. destruct H as [H N].
        injection H as H1 H2. eapply plain; [exact N|reflexivity|now symmetry|]. cbn [app]. rewrite H2. now destruct (Ascii.eqb c "(").
    + destruct R as [-> ->]. injection E as E. cbn [imode lex_char] in *. destruct (is_pair d c) eqn:I.
      * injection E as <- <-. eapply plain; [exact Logic.I|reflexivity|reflexivity|reflexivity].
      * pose proof (after_reads v [KOp [d]] c) as H. rewrite E in H. destruct H as [H N].
        injection H as H1 H2. eapply plain; [exact N|reflexivity|now symmetry|]. cbn [app]. now rewrite H2.
    + destruct R as [-> ->]. injection E as E. cbn [imode lex_char] in *.
      destruct (Ascii.eqb c "*"); [injection E as <- <-; eapply plain; [exact Logic.I|reflexivity|reflexivity|reflexivity]|].
      destruct (Ascii.eqb c "/"); [injection E as <- <-; eapply plain; [exact Logic.I|reflexivity|reflexivity|reflexivity]|].
      pose proof (after_reads v [KOp ["/"%char]] c) as H. rewrite E in H. destruct H as [H N].
      injection H as H1 H2. eapply plain; [exact N|reflexivity|now symmetry|]. cbn [app]. now rewrite H2.
    + destruct R as [-> ->]. injection E as E. cbn [imode lex_char] in *.
      destruct (Ascii.eqb c nl); [injection E as <- <-; eapply plain; [exact Logic.I|reflexivity|reflexivity|reflexivity]|].
      destruct (Ascii.eqb c bslash); injection E as <- <-; (eapply plain; [exact Logic.I|reflexivity|reflexivity|reflexivity]).
    + destruct R as [-> ->]. injection E as E1 E2. subst. cbn [imode lex_char] in *. destruct (Ascii.eqb c "*"); (eapply plain; [exact Logic.I|reflexivity|reflexivity|reflexivity]).
    + destruct R as [-> ->]. injection E as E1 E2. subst. cbn [imode lex_char] in *. destruct (Ascii.eqb c "/"); [|destruct (Ascii.eqb c "*")]; (eapply plain; [exact Logic.I|reflexivity|reflexivity|reflexivity]).
    + destruct R as [-> ->]. injection E as E. cbn [imode lex_char] in *.
      destruct (Ascii.eqb c q); [injection E as <- <-; eapply plain; [exact Logic.I|reflexivity|reflexivity|]; unfold squote, quote_tok; now destruct (Ascii.eqb q dquote)|].
      destruct (Ascii.eqb c nl); [injection E as <- <-; eapply plain; [exact Logic.I|reflexivity|reflexivity|reflexivity]|].
      destruct (Ascii.eqb c bslash); injection E as <- <-; (eapply plain; [exact Logic.I|reflexivity| |reflexivity]); cbn [imode]; [reflexivity|now rewrite iname_app].
    + destruct R as [-> ->]. injection E as E. cbn [imode lex_char] in *.
      destruct (Ascii.eqb c nl); injection E as <- <-; (eapply plain; [exact Logic.I|reflexivity| |reflexivity]); cbn [imode]; [reflexivity|now rewrite iname_app].
    + destruct R as [-> ->]. injection E as E. cbn [imode lex_char] in *.
      destruct (Ascii.eqb c nl); [injection E as <- <-; destruct l; (eapply plain; [exact Logic.I|reflexivity|reflexivity|reflexivity])|].
      destruct l; [injection E as <- <-; destruct (Ascii.eqb c bslash); (eapply plain; [exact Logic.I|reflexivity|reflexivity|reflexivity])|].
      pose proof (after_reads v [KBad] c) as H. rewrite E in H. destruct H as [H N].
      injection H as H1 H2. eapply plain; [exact N|reflexivity|now symmetry|]. cbn [app]. now rewrite H2.
    + destruct (blank_char c || Ascii.eqb c ")" || Ascii.eqb c ",") eqn:B; [|discriminate]. assert (E0 : safter [KHole h] (sfresh c) = (sm', t)) by congruence. clear E. rename E0 into E.
      pose proof (after_reads v [KHole h] c) as HH. rewrite E in HH. destruct HH as [HH N]. injection HH as H1 H2.
      destruct Gm as [Gm W]. unfold hole_fits in Gm. rewrite W in Gm. destruct Gm as [Gm _]. rewrite R in Gm; cbn [fst] in Gm.
      assert (NI : is_ident c = false /\ Ascii.eqb c "(" = false).
      { unfold blank_char in B. apply orb_true_iff in B; destruct B as [B|B]; [apply orb_true_iff in B; destruct B as [B|B]; [apply orb_true_iff in B; destruct B as [B|B]|]|]; apply Ascii.eqb_eq in B; subst; now split. }
      destruct m as [|w| | | | | | | |]; try contradiction.
      * eapply plain; [exact N|apply surjective_pairing|now symmetry|]. rewrite H2. cbn [itoks flat_map itok]. unfold own_tokens. rewrite R; cbn [fst snd pending].
        now rewrite !app_nil_r.
      * cbn [lex_char] in *. rewrite (proj1 NI), (proj2 NI) in *.
        eapply plain; [exact N|reflexivity|now symmetry|]. rewrite H2. cbn [itoks flat_map itok]. unfold own_tokens. rewrite R; cbn [fst snd pending].
        now rewrite app_nil_r, <- app_assoc.
    + destruct (blank_char c) eqn:B; [|discriminate]. assert (E0 : safter [KWord (n ++ [SH (unpad h)])] (sfresh c) = (sm', t)) by congruence. clear E. rename E0 into E.
      pose proof (after_reads v [KWord (n ++ [SH (unpad h)])] c) as HH. rewrite E in HH. destruct HH as [HH N]. injection HH as H1 H2.
      destruct Gm as [Gm W]. assert (P : ident_text (v (unpad h)) /\ exists k, v h = v (unpad h) ++ blanks k) by (destruct h; try discriminate W; now destruct Gm as (_ & _ & _ & Gm)).
      destruct P as [P1 [k P2]]. rewrite P2, lex_app, (word_run _ _ P1) in R. cbn [fst snd app] in R.
      assert (NI : is_ident c = false /\ Ascii.eqb c "(" = false) by (unfold blank_char in B; apply orb_true_iff in B; destruct B as [B|B]; apply Ascii.eqb_eq in B; subst; now split).
      assert (V : iname v (n ++ [SH (unpad h)]) = iname v n ++ v (unpad h)) by (rewrite iname_app; cbn [iname flat_map ichar]; now rewrite app_nil_r).
      destruct k as [|k].
      * cbn [blanks repeat lex_from] in R. injection R as <- <-. cbn [lex_char] in *. rewrite (proj1 NI), (proj2 NI) in *.
        eapply plain; [exact N|reflexivity|now symmetry|]. rewrite H2. cbn [itoks flat_map itok app]. now rewrite V.
      * change (blanks (S k)) with (sp :: blanks k) in R. cbn [lex_from] in R. change (lex_char (MWord (iname v n ++ v (unpad h))) sp) with (MCode, [TWord (iname v n ++ v (unpad h))]) in R.
        cbv beta iota in R. rewrite blanks_lex in R. injection R as <- <-. cbn [lex_char] in *.
        eapply plain; [exact N|apply surjective_pairing|now symmetry|]. rewrite H2. cbn [itoks flat_map itok app]. now rewrite V.
  - cbn [ichar] in *. destruct (word_hole h) eqn:W.
    + assert (G' := G). unfold hole_fits in G'. rewrite W in G'. destruct G' as [G1 G2].
      destruct sm as [|n|d| | | | |q n|q n|l|h'|n h']; cbn [slex_hole] in E; rewrite ?W in E; cbn [reads] in R; try discriminate E.
      * destruct R as [-> ->]. injection E as <- <-. eapply plain; [exact Logic.I|apply (word_start _ G1 G2)| |reflexivity]. cbn [imode iname flat_map ichar]. now rewrite app_nil_r.
      * destruct R as [-> ->]. injection E as <- <-. eapply plain; [exact Logic.I|apply (word_run _ _ G2)| |reflexivity]. cbn [imode]. rewrite iname_app. cbn [iname flat_map ichar]. now rewrite app_nil_r.
      * destruct R as [-> ->]. injection E as <- <-. eapply plain; [exact Logic.I|apply (line_run _ G2)|reflexivity|reflexivity].
      * destruct R as [-> ->]. injection E as <- <-. eapply plain; [exact Logic.I|apply (block_run _ _ (or_introl eq_refl) G1 G2)|reflexivity|reflexivity].
      * destruct R as [-> ->]. injection E as <- <-. eapply plain; [exact Logic.I|apply (block_run _ _ (or_intror eq_refl) G1 G2)|reflexivity|reflexivity].
      * destruct R as [-> ->]. destruct (is_ident q) eqn:Q; cbn [andb negb] in E; [discriminate|]. injection E as <- <-.
        eapply plain; [exact Logic.I|apply (text_run _ _ _ Q G2)| |reflexivity]. cbn [imode]. rewrite iname_app. cbn [iname flat_map ichar]. now rewrite app_nil_r.
    + destruct sm as [|n|d| | | | |q n|q n|l|h'|n h']; cbn [slex_hole] in E; rewrite ?W in E; cbn [andb] in E; try discriminate E.
      all: cbn [reads] in R; destruct R as [-> ->]. 2: { destruct (pad_hole h) eqn:P; [|discriminate]. injection E as <- <-. cbn [imode].
        exists (snd (lex_from (MWord (iname v n)) (v h))). cbn [reads]. split; [now destruct (lex_from (MWord (iname v n)) (v h))|]. split; [reflexivity|]. now split. }
      injection E as <- <-. cbn [imode].
      exists (snd (lex_from MCode (v h))). cbn [reads]. split; [now destruct (lex_from MCode (v h))|]. split; [reflexivity|]. now split.
Qed.

Definition fits (v : hole -> str) (l : list schar) : Prop := Forall (fun c => match c with SH h => hole_fits v h | SC _ => True end) l.
Lemma slex_ok v l : forall sm m x sm' t,
  fits v l -> good v sm -> reads v sm m x -> slex sm l = Some (sm', t) ->
  exists x', reads v sm' (fst (lex_from m (iname v l))) x' /\ x ++ snd (lex_from m (iname v l)) = itoks v t ++ x' /\
             good v sm'.
Proof.
  induction l as [|c l IH]; intros sm m x sm' t F Gm R E; cbn [slex] in E.
  - injection E as <- <-. exists x. cbn [iname flat_map lex_from fst snd itoks]. now rewrite app_nil_r.
  - destruct (slex_char sm c) as [[sm1 t1]|] eqn:E1; [|discriminate]. destruct (slex sm1 l) as [[sm2 t2]|] eqn:E2; [|discriminate]. injection E as <- <-.
    inversion F as [|? ? F1 F2]; subst.
    destruct (slex_char_ok _ _ _ _ _ _ _ F1 Gm R E1) as (x1 & R1 & X1 & G1).
    destruct (IH _ _ _ _ _ F2 G1 R1 E2) as (x2 & R2 & X2 & G2).
    change (iname v (c :: l)) with (ichar v c ++ iname v l). rewrite lex_app; cbn [fst snd].
    exists x2. split; [exact R2|]. split; [|exact G2].
    rewrite app_assoc, X1, <- app_assoc, X2, itoks_app, app_assoc. reflexivity.
Qed.

(* ---------------------------------------------------------------- lines *)

Definition isel (c : config) (x : sel) : list tok :=
  match x with XTok t => itok no_value t | XEach k l => flat_map (fun v => itoks v l) (envs c k) end.
Definition isels (c : config) (l : list sel) : list tok := flat_map (isel c) l.
Lemma isels_plain c t : itoks no_value t = isels c (map XTok t).
Proof. induction t as [|a t IH]; [reflexivity|]. change (itoks no_value (a :: t)) with (itok no_value a ++ itoks no_value t). now rewrite IH. Qed.
(** the texts of a line *)
Definition line_texts (c : config) (l : option class * list schar) : list str :=
  match fst l with None => [iname no_value (snd l)] | Some k => map (fun v => iname v (snd l)) (envs c k) end.
Definition line_fits (c : config) (l : option class * list schar) : Prop :=
  match fst l with None => Forall (fun x => match x with SC _ => True | SH _ => False end) (snd l) | Some k => Forall (fun v => fits v (snd l)) (envs c k) end.

Lemma literal_fits v l : Forall (fun x => match x with SC _ => True | SH _ => False end) l -> fits v l.
Proof. intro H. eapply Forall_impl; [|exact H]. now intros []. Qed.

Lemma slex_literal l : forall m m' t, Forall (fun x => match x with SC _ => True | SH _ => False end) l -> not_hole m -> slex m l = Some (m', t) -> not_hole m'.
Proof.
  induction l as [|c l IH]; intros m m' t F N E; cbn [slex] in E; [now injection E as <- _|].
  destruct (slex_char m c) as [[m1 t1]|] eqn:E1; [|discriminate]. destruct (slex m1 l) as [[m2 t2]|] eqn:E2; [|discriminate]. injection E as <- _.
  inversion F as [|? ? F1 F2]; subst. apply (IH _ _ _ F2) in E2; [assumption|]. destruct c as [c|]; [|contradiction].
  cbn [slex_char] in E1.
  assert (A : forall q, safter q (sfresh c) = (m1, t1) -> not_hole m1).
  { intros q Q. pose proof (after_reads no_value q c) as H. rewrite Q in H. now apply H. }
  assert (B : sfresh c = (m1, t1) -> not_hole m1).
  { intro Q. pose proof (fresh_reads no_value c) as H. rewrite Q in H. now apply H. }
  destruct m as [|n|d| | | | |q n|q n|l0|h|n h]; cbn [slex_lit] in E1;
    repeat match type of E1 with
           | Some (if ?b then _ else _) = _ => destruct b
           | (if ?b then _ else _) = _ => destruct b
           end; try discriminate E1;
    try (match type of E1 with Some ?p = Some _ => assert (E3 : p = (m1, t1)) by congruence; first [exact (A _ E3)|exact (B E3)] end);
    try (injection E1 as <- <-; repeat match goal with |- not_hole (if ?b then _ else _) => destruct b end; exact I).
Qed.

Lemma lex_concat m l : (forall s, In s l -> fst (lex_from m s) = m) -> lex_from m (concat l) = (m, flat_map (fun s => snd (lex_from m s)) l).
Proof.
  induction l as [|s l IH]; intro H; [reflexivity|]. cbn [concat flat_map]. rewrite lex_app, (H s (or_introl eq_refl)), IH by (intros; apply H; now right).
  reflexivity.
Qed.

Lemma slex_line_ok c l m m' t : line_fits c l -> not_hole m -> slex_line m l = Some (m', t) ->
  lex_from (imode no_value m) (concat (line_texts c l)) = (imode no_value m', isels c t) /\ not_hole m'.
Proof.
  destruct l as [k l]. unfold line_fits, slex_line, line_texts; cbn [fst snd]. destruct k as [k|]; intros F N E.
  - destruct m; try discriminate. destruct (slex SCode l) as [[[] t1]|] eqn:E1; try discriminate. injection E as <- <-.
    split; [|exact Logic.I]. cbn [imode].
    assert (A : forall v, In v (envs c k) -> lex_from MCode (iname v l) = (MCode, itoks v t1)).
    { intros v I. rewrite Forall_forall in F. destruct (slex_ok v l SCode MCode [] SCode t1 (F _ I) Logic.I (conj eq_refl eq_refl) E1) as (x' & [R X] & Q & _).
      rewrite X, app_nil_r in Q. cbn [app] in Q. destruct (lex_from MCode (iname v l)) as [m1 t2]. cbn [fst snd] in *. cbn [imode] in R. now subst. }
    rewrite lex_concat.
    + f_equal. unfold isels; cbn [flat_map isel]. rewrite app_nil_r. clear E1 F.
      induction (envs c k) as [|v vs IH]; [reflexivity|]. cbn [map flat_map]. rewrite (A v (or_introl eq_refl)), IH by (intros; apply A; now right). reflexivity.
    + intros s I. apply in_map_iff in I as (v & <- & I). now rewrite (A v I).
  - destruct (slex m l) as [[m1 t1]|] eqn:E1; [|discriminate]. injection E as <- <-.
    pose proof (slex_literal _ _ _ _ F N E1) as N1. split; [|exact N1].
    destruct (slex_ok no_value l m (imode no_value m) [] m1 t1 (literal_fits _ _ F)) as (x' & R & Q & _).
    + destruct m; try exact I; destruct N.
    + now apply reads_intro.
    + exact E1.
    + cbn [concat]. rewrite app_nil_r. destruct (lex_from (imode no_value m) (iname no_value l)) as [m2 t2]. cbn [fst snd app] in *.
      assert (R' : m2 = imode no_value m1 /\ x' = []) by (destruct m1; try exact R; destruct N1). destruct R' as [-> ->].
      rewrite app_nil_r in Q. subst. f_equal. apply isels_plain.
Qed.
Lemma slex_lines_ok c ls : forall m m' t, Forall (line_fits c) ls -> not_hole m -> slex_lines m ls = Some (m', t) ->
  lex_from (imode no_value m) (concat (flat_map (line_texts c) ls)) = (imode no_value m', isels c t) /\ not_hole m'.
Proof.
  induction ls as [|l ls IH]; intros m m' t F N E; cbn [slex_lines] in E; [injection E as <- <-; now split|].
  destruct (slex_line m l) as [[m1 t1]|] eqn:E1; [|discriminate]. destruct (slex_lines m1 ls) as [[m2 t2]|] eqn:E2; [|discriminate]. injection E as <- <-.
  inversion F as [|? ? F1 F2]; subst. destruct (slex_line_ok _ _ _ _ _ F1 N E1) as [L1 N1]. destruct (IH _ _ _ F2 N1 E2) as [L2 N2].
  split; [|exact N2]. cbn [flat_map]. rewrite concat_app, lex_app, L1; cbn [fst snd]. rewrite L2; cbn [fst snd].
  unfold isels. now rewrite flat_map_app.
Qed.

(** lines of tokens *)
Definition iline (c : config) (l : sl) : list (list tok) :=
  match l with SPlain t => [itoks no_value t] | SEach k t => flat_map (fun v => split_lines [] (itoks v t)) (envs c k) end.
Lemma split_end acc a b : split_lines acc (a ++ TEnd :: b) = split_lines acc (a ++ [TEnd]) ++ split_lines [] b.
Proof.
  revert acc; induction a as [|t a IH]; intro acc; [reflexivity|]. cbn [app split_lines].
  destruct t; rewrite IH; reflexivity.
Qed.
Lemma split_envs (f : (hole -> str) -> list tok) vs r :
  (forall v, In v vs -> exists a, f v = a ++ [TEnd]) -> split_lines [] (flat_map f vs ++ r) = flat_map (fun v => split_lines [] (f v)) vs ++ split_lines [] r.
Proof.
  induction vs as [|v vs IH]; intro H; [reflexivity|]. cbn [flat_map]. destruct (H v (or_introl eq_refl)) as [a E].
  rewrite E, <- !app_assoc. cbn [app]. rewrite split_end, IH by (intros; apply H; now right). now rewrite app_assoc.
Qed.
Lemma ssplit_ok c l : forall acc ls, ssplit acc l = Some ls -> split_lines (itoks no_value acc) (isels c l) = flat_map (iline c) ls.
Proof.
  induction l as [|x l IH]; intros acc ls E; cbn [ssplit] in E.
  - destruct acc; [|discriminate]. now injection E as <-.
  - destruct x as [t|k t].
    + assert (P : forall t', itok no_value t = [t'] -> t' <> TEnd -> ssplit (acc ++ [t]) l = Some ls ->
                  split_lines (itoks no_value acc) (isels c (XTok t :: l)) = flat_map (iline c) ls).
      { intros t' E1 N E2. rewrite <- (IH _ _ E2), itoks_app. change (itoks no_value [t]) with (itok no_value t ++ []).
        change (isels c (XTok t :: l)) with (itok no_value t ++ isels c l). rewrite E1. cbn [app split_lines]. now destruct t'. }
      destruct t; try (eapply P; [reflexivity|discriminate|exact E]); [|discriminate].
      destruct (ssplit [] l) as [ls1|] eqn:E1; [|discriminate]. injection E as <-. cbn [flat_map iline app].
      rewrite <- (IH _ _ E1). reflexivity.
    + destruct acc; [|discriminate]. destruct (rev t) as [|[] r] eqn:R; try discriminate.
      destruct (ssplit [] l) as [ls1|] eqn:E1; [|discriminate]. injection E as <-. cbn [flat_map iline].
      rewrite <- (IH _ _ E1). change (isels c (XEach k t :: l)) with (flat_map (fun v => itoks v t) (envs c k) ++ isels c l).
      rewrite <- split_envs; [reflexivity|]. intros v _. exists (itoks v (rev r)).
      assert (T : t = rev r ++ [KEnd]) by (rewrite <- (rev_involutive t), R; reflexivity). rewrite T, itoks_app. reflexivity.
Qed.

(** Facts about literal replacement and formatting. *)
From Coq Require Import Ascii String List Bool Arith Lia.
From Verif Require Import Str StrFacts Format SpecFormat.
Import ListNotations.

(* ---------------------------------------------------------------- replace *)

Lemma find_split from s pos : find from s = Some pos -> exists a b, s = a ++ from ++ b /\ length a = pos.
Proof.
  intro H. pose proof (find_spec from s) as K. rewrite H in K. destruct K as [(a & b & -> & Ha) _]. eauto.
Qed.
Lemma replace_at_split (a b from to : str) : replace_at (length a) (length from) to (a ++ from ++ b) = a ++ to ++ b.
Proof.
  unfold replace_at. rewrite firstn_app_exact. f_equal. f_equal. rewrite app_assoc, <- app_length. apply skipn_app_exact.
Qed.
Lemma find_occurs from s : find from s = None <-> ~ occurs from s.
Proof.
  rewrite find_None. split; [intros H (a & b & E); now apply (H a b)|]. intros H a b E. apply H. now exists a, b.
Qed.

Lemma replace_fuel_sound from to : forall f s r, replace_fuel f from to s = Some r -> rewrites from to s r /\ ~ occurs from r.
Proof.
  induction f as [|f IH]; intros s r H; cbn [replace_fuel] in H; destruct (find from s) as [pos|] eqn:E; try discriminate.
  - injection H as <-. split; [constructor|now apply find_occurs].
  - apply find_split in E as (a & b & -> & <-). rewrite replace_at_split in H. apply IH in H as [H1 H2]. split; [|easy].
    econstructor; [constructor|exact H1].
  - injection H as <-. split; [constructor|now apply find_occurs].
Qed.
Lemma replace_sound from to s r : replace from to s = Ok r -> rewrites from to s r /\ ~ occurs from r.
Proof.
  unfold replace. destruct (replace_fuel (S (length s)) from to s) as [r'|] eqn:E; [|discriminate]. intro H. injection H as <-.
  now apply replace_fuel_sound in E.
Qed.

(** a measure that every round decreases *)
Lemma replace_fuel_total (m : str -> nat) from to : (forall a b, m (a ++ to ++ b) < m (a ++ from ++ b)) ->
  forall f s, m s <= f -> exists r, replace_fuel f from to s = Some r.
Proof.
  intro Hm. induction f as [|f IH]; intros s Hs; cbn [replace_fuel]; destruct (find from s) as [pos|] eqn:E; eauto.
  - apply find_split in E as (a & b & -> & _). specialize (Hm a b). lia.
  - apply find_split in E as (a & b & -> & <-). rewrite replace_at_split. apply IH. specialize (Hm a b). lia.
Qed.
Lemma replace_total_shorter from to s : length to < length from -> exists r, replace from to s = Ok r.
Proof.
  intro H. unfold replace. destruct (replace_fuel_total (@length ascii) from to) with (f := S (length s)) (s := s) as (r & ->); eauto.
  intros a b. rewrite !app_length. lia.
Qed.
Definition occ (c : ascii) (s : str) : nat := length (filter (Ascii.eqb c) s).
Lemma occ_app c a b : occ c (a ++ b) = occ c a + occ c b.
Proof. unfold occ. now rewrite filter_app, app_length. Qed.
Lemma occ_none c s : ~ In c s -> occ c s = 0.
Proof.
  intro H. unfold occ. induction s as [|d s IH]; [easy|]. cbn [filter]. destruct (Ascii.eqb_spec c d) as [E|E].
  - exfalso. apply H. left. congruence.
  - apply IH. intro X. apply H. now right.
Qed.
Lemma occ_le c s : occ c s <= length s.
Proof. unfold occ. induction s as [|d s IH]; [easy|]. cbn [filter]. destruct (Ascii.eqb c d); cbn [length]; lia. Qed.
Lemma replace_total_fresh c from to s : ~ In c to -> exists r, replace (c :: from) to s = Ok r.
Proof.
  intro H. unfold replace. destruct (replace_fuel_total (occ c) (c :: from) to) with (f := S (length s)) (s := s) as (r & ->); eauto.
  - intros a b. rewrite !occ_app, (occ_none c to H). change (c :: from) with ([c] ++ from). rewrite occ_app.
    assert (E : occ c [c] = 1) by (unfold occ; cbn [filter]; now rewrite Ascii.eqb_refl). lia.
  - pose proof (occ_le c s). lia.
Qed.
(** if the new text contains the old one, no number of rounds is enough *)
Lemma replace_diverges from to s : occurs from to -> occurs from s -> forall f, replace_fuel f from to s = None.
Proof.
  intros (x & y & ->) Hs f. revert s Hs. induction f as [|f IH]; intros s Hs; cbn [replace_fuel];
    (destruct (find from s) as [pos|] eqn:E; [|now apply find_occurs in E]); [easy|].
  apply find_split in E as (a & b & -> & <-). rewrite replace_at_split. apply IH. exists (a ++ x), (y ++ b).
  now rewrite <- !app_assoc.
Qed.
Lemma replace_diverges' from to s : occurs from to -> occurs from s -> replace from to s = Fuel.
Proof. intros H1 H2. unfold replace. now rewrite replace_diverges. Qed.

(* ---------------------------------------------------------------- format_prototype *)

(** a rule that deletes one blank next to a mark *)
Inductive blank_rule : str * str -> Prop :=
| BlankAfter c : is_ident c = false -> isspace c = false -> blank_rule ([c; sp], [c])
| BlankBefore c : is_ident c = false -> isspace c = false -> blank_rule ([sp; c], [c]).
Lemma format_rules_blank : Forall blank_rule format_rules.
Proof. unfold format_rules. repeat constructor. Qed.

Lemma unblank_refl s : unblank s s.
Proof. induction s; now constructor. Qed.
Lemma unblank_trans a b c : unblank a b -> unblank b c -> unblank a c.
Proof.
  intro H. revert c. induction H as [|x s s' H IH|x s s' Hx H IH]; intros c Hc; [easy| |constructor; auto].
  inversion Hc; subst; constructor; auto.
Qed.
Lemma unblank_app a a' b b' : unblank a a' -> unblank b b' -> unblank (a ++ b) (a' ++ b').
Proof. intros H1 H2. induction H1; cbn [app]; [easy| |]; now constructor. Qed.

Lemma flush_app cur a b : flush cur (a ++ b) = flush cur a ++ b.
Proof. now destruct cur. Qed.
Lemma tokens_from_app d b : is_ident d = false -> forall a cur,
  tokens_from cur (a ++ d :: b) = tokens_from cur (a ++ [d]) ++ tokens_from [] b.
Proof.
  intros Hd. induction a as [|c a IH]; intro cur; cbn [app tokens_from].
  - rewrite Hd. destruct (isspace d); now rewrite <- flush_app.
  - destruct (is_ident c); [apply IH|]. rewrite IH. destruct (isspace c); now rewrite <- flush_app.
Qed.
Lemma tokens_space s d : isspace d = true -> is_ident d = false -> tokens_from [] (d :: s) = tokens_from [] s.
Proof. intros H1 H2. cbn [tokens_from]. now rewrite H2, H1. Qed.
Lemma tokens_snoc d : isspace d = true -> is_ident d = false -> forall s cur, tokens_from cur (s ++ [d]) = tokens_from cur s.
Proof.
  intros H1 H2. induction s as [|c s IH]; intro cur; cbn [app tokens_from].
  - now rewrite H2, H1.
  - destruct (is_ident c); [apply IH|]. now rewrite IH.
Qed.
Lemma tokens_snoc_mark d : isspace d = false -> is_ident d = false -> forall s cur, tokens_from cur (s ++ [d]) = tokens_from cur s ++ [[d]].
Proof.
  intros H1 H2. induction s as [|c s IH]; intro cur; cbn [app tokens_from].
  - rewrite H2, H1. now rewrite <- flush_app.
  - destruct (is_ident c); [apply IH|]. rewrite IH. destruct (isspace c); now rewrite <- flush_app.
Qed.

Lemma tokens_drop_next a b c : is_ident c = false -> tokens (a ++ c :: sp :: b) = tokens (a ++ c :: b).
Proof.
  intros Hc. unfold tokens. rewrite (tokens_from_app c (sp :: b) Hc), (tokens_from_app c b Hc). reflexivity.
Qed.
Lemma tokens_drop_prev a b c : is_ident c = false -> isspace c = false -> tokens (a ++ sp :: c :: b) = tokens (a ++ c :: b).
Proof.
  intros Hc Hs. unfold tokens. rewrite (tokens_from_app sp (c :: b) eq_refl), (tokens_from_app c b Hc).
  rewrite (tokens_snoc sp eq_refl eq_refl), (tokens_snoc_mark c Hs Hc), <- app_assoc. f_equal.
  cbn [tokens_from app]. now rewrite Hc, Hs.
Qed.

Lemma blank_rule_step r s t : blank_rule r -> rewrite1 (fst r) (snd r) s t ->
  unblank s t /\ tokens t = tokens s /\
  (forall x, occurs [x; sp] t -> occurs [x; sp] s) /\ (forall x, occurs [sp; x] t -> occurs [sp; x] s).
Proof.
  intros [c Hc Hb|c Hc Hb] [a b]; cbn [fst snd].
  - split; [|split; [|split]].
    + apply unblank_app; [apply unblank_refl|]. cbn [app]. apply UnblankKeep, UnblankDrop; [easy|apply unblank_refl].
    + cbn [app]. symmetry. now apply tokens_drop_next.
    + intros x (u & v & E). cbn [app] in *.
      (* the pair (x, blank) in t *)
      assert (K : forall a, a ++ c :: b = u ++ x :: sp :: v -> occurs [x; sp] (a ++ c :: sp :: b)).
      { clear. intro a. revert u. induction a as [|y a IH]; intros u E.
        - destruct u as [|w u]; cbn [app] in E.
          + injection E as -> ->. exists [], (sp :: v). reflexivity.
          + injection E as -> ->. exists (w :: sp :: u), v. reflexivity.
        - destruct u as [|w u]; cbn [app] in E.
          + injection E as -> E. destruct a as [|z a]; cbn [app] in E; injection E as -> _.
            * exists [], (sp :: b). reflexivity.
            * exists [], (a ++ c :: sp :: b). reflexivity.
          + injection E as -> E. destruct (IH u E) as (p & q & F). exists (w :: p), q. cbn [app]. now rewrite F. }
      now apply K.
    + intros x (u & v & E). cbn [app] in *.
      assert (K : forall a, a ++ c :: b = u ++ sp :: x :: v -> occurs [sp; x] (a ++ c :: sp :: b)).
      { clear. intro a. revert u. induction a as [|y a IH]; intros u E.
        - destruct u as [|w u]; cbn [app] in E.
          + injection E as -> ->. exists [sp], v. reflexivity.
          + injection E as -> ->. exists (w :: sp :: u), v. reflexivity.
        - destruct u as [|w u]; cbn [app] in E.
          + injection E as -> E. destruct a as [|z a]; cbn [app] in E; injection E as -> _.
            * exists [], (sp :: b). reflexivity.
            * exists [], (a ++ c :: sp :: b). reflexivity.
          + injection E as -> E. destruct (IH u E) as (p & q & F). exists (w :: p), q. cbn [app]. now rewrite F. }
      now apply K.
  - split; [|split; [|split]].
    + apply unblank_app; [apply unblank_refl|]. cbn [app]. apply UnblankDrop; [easy|apply unblank_refl].
    + cbn [app]. symmetry. now apply tokens_drop_prev.
    + intros x (u & v & E). cbn [app] in *.
      assert (K : forall a, a ++ c :: b = u ++ x :: sp :: v -> occurs [x; sp] (a ++ sp :: c :: b)).
      { clear. intro a. revert u. induction a as [|y a IH]; intros u E.
        - destruct u as [|w u]; cbn [app] in E.
          + injection E as -> ->. exists [sp], v. reflexivity.
          + injection E as -> ->. exists (sp :: w :: u), v. reflexivity.
        - destruct u as [|w u]; cbn [app] in E.
          + injection E as -> E. destruct a as [|z a]; cbn [app] in E; injection E as -> _.
            * exists [], (sp :: b). reflexivity.
            * exists [], (a ++ sp :: c :: b). reflexivity.
          + injection E as -> E. destruct (IH u E) as (p & q & F). exists (w :: p), q. cbn [app]. now rewrite F. }
      now apply K.
    + intros x (u & v & E). cbn [app] in *.
      assert (K : forall a, a ++ c :: b = u ++ sp :: x :: v -> occurs [sp; x] (a ++ sp :: c :: b)).
      { clear. intro a. revert u. induction a as [|y a IH]; intros u E.
        - destruct u as [|w u]; cbn [app] in E.
          + injection E as -> ->. exists [sp], v. reflexivity.
          + injection E as -> ->. exists (sp :: w :: u), v. reflexivity.
        - destruct u as [|w u]; cbn [app] in E.
          + injection E as -> E. destruct a as [|z a]; cbn [app] in E; injection E as -> _.
            * exists [sp], b. reflexivity.
            * exists [], (a ++ sp :: c :: b). reflexivity.
          + injection E as -> E. destruct (IH u E) as (p & q & F). exists (w :: p), q. cbn [app]. now rewrite F. }
      now apply K.
Qed.

(** what a sequence of such rules keeps *)
Record kept (s t : str) : Prop := {
  kept_unblank : unblank s t;
  kept_tokens : tokens t = tokens s;
  kept_after : forall x, occurs [x; sp] t -> occurs [x; sp] s;
  kept_before : forall x, occurs [sp; x] t -> occurs [sp; x] s
}.
Lemma kept_refl s : kept s s.
Proof. split; auto using unblank_refl. Qed.
Lemma kept_trans a b c : kept a b -> kept b c -> kept a c.
Proof. intros [H1 H2 H3 H4] [K1 K2 K3 K4]. split; auto; [eapply unblank_trans; eauto|congruence]. Qed.
Lemma kept_rewrites r s t : blank_rule r -> rewrites (fst r) (snd r) s t -> kept s t.
Proof.
  intros Hr H. induction H as [s|s t u H1 H2 IH]; [apply kept_refl|]. eapply kept_trans; [|exact IH].
  apply blank_rule_step in H1 as (A & B & C & D); [|easy]. now split.
Qed.

Lemma replace_all_spec rules : Forall blank_rule rules -> forall s, exists t, replace_all rules s = Ok t /\ kept s t /\
  Forall (fun r => ~ occurs (fst r) t) rules.
Proof.
  intro H. induction H as [|[from to] rules Hr H IH]; intro s; cbn [replace_all].
  - exists s. split; [easy|]. split; [apply kept_refl|constructor].
  - destruct (replace_total_shorter from to s) as (s' & Es); [inversion Hr; subst; cbn; lia|].
    rewrite Es. cbn [bind]. destruct (IH s') as (t & Et & Kt & Ft). exists t. split; [easy|].
    apply replace_sound in Es as [R1 R2]. apply (kept_rewrites (from, to)) in R1; [|easy].
    split; [eapply kept_trans; eauto|]. constructor; [|easy]. cbn [fst] in *. intro X. apply R2.
    inversion Hr; subst; apply Kt in X; exact X.
Qed.

(** stripping *)
Lemma drop_while_unblank s : unblank s (drop_while isspace s).
Proof.
  induction s as [|c s IH]; cbn [drop_while]; [constructor|]. destruct (isspace c) eqn:E; [now constructor|apply unblank_refl].
Qed.
Lemma space_not_ident c : isspace c = true -> is_ident c = false.
Proof.
  unfold isspace, is_ident, isalnum, isalpha, isupper, islower, isdigit, between. intro H.
  destruct c as [[] [] [] [] [] [] [] []]; vm_compute in H |- *; congruence.
Qed.
Lemma drop_while_tokens s : tokens (drop_while isspace s) = tokens s.
Proof.
  unfold tokens. induction s as [|c s IH]; cbn [drop_while]; [easy|]. destruct (isspace c) eqn:E; [|easy].
  rewrite IH. symmetry. apply tokens_space; [easy|]. now apply space_not_ident.
Qed.
Lemma strip_back_spec s : exists ws, s = strip_back s ++ ws /\ Forall (fun c => isspace c = true) ws /\
  (forall c r, strip_back s = r ++ [c] -> isspace c = false).
Proof.
  unfold strip_back. pose proof (drop_while_spec isspace (rev s)) as H. 
  destruct H as (p & E & Hp & Hh). exists (rev p). split; [|split].
  - rewrite <- rev_app_distr, <- E. now rewrite rev_involutive.
  - now apply Forall_rev.
  - intros c r F. apply (f_equal (@rev ascii)) in F. rewrite rev_involutive, rev_app_distr in F. cbn in F. rewrite F in Hh. exact Hh.
Qed.
Lemma unblank_spaces a ws : Forall (fun c => isspace c = true) ws -> unblank (a ++ ws) a.
Proof.
  intro H. rewrite <- (app_nil_r a) at 2. apply unblank_app; [apply unblank_refl|]. induction H; now constructor.
Qed.
Lemma tokens_spaces a ws : Forall (fun c => isspace c = true) ws -> tokens (a ++ ws) = tokens a.
Proof.
  intro H. revert a. induction H as [|c ws Hc H IH]; intro a; [now rewrite app_nil_r|].
  replace (a ++ c :: ws) with ((a ++ [c]) ++ ws) by now rewrite <- app_assoc. rewrite IH.
  unfold tokens. apply tokens_snoc; [easy|]. now apply space_not_ident.
Qed.
Lemma strip_tokens s : tokens (strip_spaces s) = tokens s.
Proof.
  unfold strip_spaces. rewrite drop_while_tokens. destruct (strip_back_spec s) as (ws & E & Hws & _). rewrite E at 2.
  symmetry. now apply tokens_spaces.
Qed.
Lemma strip_unblank s : unblank s (strip_spaces s).
Proof.
  unfold strip_spaces. eapply unblank_trans; [|apply drop_while_unblank]. destruct (strip_back_spec s) as (ws & E & Hws & _).
  rewrite E at 1. now apply unblank_spaces.
Qed.
Definition trimmed (s : str) : Prop := (forall c r, s = c :: r -> isspace c = false) /\ (forall c r, s = r ++ [c] -> isspace c = false).
Lemma strip_trimmed s : trimmed (strip_spaces s).
Proof.
  unfold strip_spaces. destruct (strip_back_spec s) as (ws & _ & _ & H). pose proof (drop_while_spec isspace (strip_back s)) as K.
  destruct K as (a & E & Ha & K). split.
  - intros c r F. rewrite F in K. exact K.
  - intros c r F. rewrite F in E. rewrite app_assoc in E. now apply H in E.
Qed.

(** deleting a blank next to a mark that is not a blank keeps a text trimmed *)
Lemma rewrite1_trimmed r s t : blank_rule r -> rewrite1 (fst r) (snd r) s t -> trimmed s -> trimmed t.
Proof.
  intros Hr H [H1 H2]. destruct Hr as [c Hi Hs|c Hi Hs]; cbn [fst snd] in *; inversion H as [a b E1 E2]; subst s t.
  - split.
    + intros d r E. destruct a as [|x a]; cbn [app] in E; injection E as <- E; [easy|]. now apply (H1 x (a ++ [c; sp] ++ b)).
    + intros d r E. destruct b as [|x b] using rev_ind.
      * cbn [app] in E. apply app_inj_tail in E as [_ <-]. easy.
      * rewrite !app_assoc in E. apply app_inj_tail in E as [_ <-]. apply (H2 x (a ++ [c; sp] ++ b)). now rewrite !app_assoc.
  - split.
    + intros d r E. destruct a as [|x a]; cbn [app] in E; injection E as <- E; [easy|]. now apply (H1 x (a ++ [sp; c] ++ b)).
    + intros d r E. destruct b as [|x b] using rev_ind.
      * cbn [app] in E. apply app_inj_tail in E as [_ <-]. easy.
      * rewrite !app_assoc in E. apply app_inj_tail in E as [_ <-]. apply (H2 x (a ++ [sp; c] ++ b)). now rewrite !app_assoc.
Qed.
Lemma rewrites_trimmed r s t : blank_rule r -> rewrites (fst r) (snd r) s t -> trimmed s -> trimmed t.
Proof. intros Hr H. induction H as [s|s t u H1 H2 IH]; [easy|]. intro T. apply IH. revert T. now apply (rewrite1_trimmed r). Qed.
Lemma replace_all_trimmed rules : Forall blank_rule rules -> forall s t, trimmed s -> replace_all rules s = Ok t -> trimmed t.
Proof.
  intro H. induction H as [|[from to] rules Hr H IH]; intros s t Hs E; cbn [replace_all] in E; [now injection E as <-|].
  destruct (replace from to s) as [s'| | |] eqn:F; try discriminate. cbn [bind] in E. apply (IH s'); [|easy].
  apply replace_sound in F as [F _]. now apply (rewrites_trimmed (from, to) s s').
Qed.

Lemma format_spec s : exists t, format_prototype s = Ok t /\ unblank s t /\ tokens t = tokens s /\ tidy t.
Proof.
  unfold format_prototype. destruct (replace_all_spec format_rules format_rules_blank (strip_spaces s)) as (t & E & K & F).
  exists t. split; [easy|]. split; [eapply unblank_trans; [apply strip_unblank|apply K]|]. split; [rewrite (kept_tokens _ _ K); apply strip_tokens|].
  pose proof (replace_all_trimmed _ format_rules_blank _ _ (strip_trimmed s) E) as [T1 T2].
  rewrite Forall_forall in F.
  split; [|split; [|now split]].
  - intros c Hc. assert (X : In ([c; sp], [c]) format_rules).
    { revert Hc. cbn [after_marks In]. intros [<-|[<-|[<-|[<-|[<-|[]]]]]]; cbn; tauto. }
    exact (F _ X).
  - intros c Hc. assert (X : In ([sp; c], [c]) format_rules).
    { revert Hc. cbn [before_marks In]. intros [<-|[<-|[<-|[<-|[]]]]]; cbn; tauto. }
    exact (F _ X).
Qed.

(** a text that is already tidy is left alone *)
Lemma replace_none from to s : ~ occurs from s -> replace from to s = Ok s.
Proof. intro H. apply find_occurs in H. unfold replace. cbn [replace_fuel]. now rewrite H. Qed.
Lemma trimmed_strip s : trimmed s -> strip_spaces s = s.
Proof.
  intros [H1 H2]. unfold strip_spaces, strip_back.
  assert (E : drop_while isspace (rev s) = rev s).
  { destruct (rev s) as [|c r] eqn:R; [easy|]. cbn [drop_while].
    apply (f_equal (@rev ascii)) in R. rewrite rev_involutive in R. cbn [rev] in R. now rewrite (H2 c (rev r) R). }
  rewrite E, rev_involutive. destruct s as [|c s]; [easy|]. cbn [drop_while]. now rewrite (H1 c s eq_refl).
Qed.
Lemma format_idem s : tidy s -> format_prototype s = Ok s.
Proof.
  intros (H1 & H2 & H3 & H4). unfold format_prototype. rewrite trimmed_strip by now split.
  assert (K : Forall (fun r => ~ occurs (fst r) s) format_rules).
  { unfold format_rules. cbn [after_marks before_marks In] in H1, H2.
    repeat (constructor; [first [apply H1; cbn; tauto | apply H2; cbn; tauto]|]). constructor. }
  clear - K. induction K as [|[from to] rules H K IH]; cbn [replace_all]; [easy|]. cbn [fst] in H. now rewrite replace_none.
Qed.

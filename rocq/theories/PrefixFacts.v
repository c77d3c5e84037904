(** Facts about prefix renaming. *)
From Coq Require Import Ascii String List Bool Arith Lia.
From Verif Require Import Str StrFacts Prefix SpecPrefix.
Import ListNotations.

Lemma regex_skip try fmt a b : regex_replace try fmt false (length a) (a ++ b) = regex_replace try fmt false 0 b.
Proof. induction a as [|c a IH]; [easy|]. cbn [length app regex_replace]. exact IH. Qed.

(** the rest of a text after a word: nothing, or a separator first *)
Definition sepfirst (r : str) : Prop := match r with [] => True | c :: _ => is_ident c = false end.

Lemma starts_with_word kw w r : ident_text kw -> sepfirst r -> starts_with kw (w ++ r) = starts_with kw w.
Proof.
  intros H Hr. revert w. induction H as [|c kw Hc H IH]; intro w; [easy|]. destruct w as [|d w]; cbn [app starts_with].
  - destruct r as [|e r]; [easy|]. cbn in Hr. destruct (Ascii.eqb_spec c e) as [->|]; [congruence|easy].
  - destruct (Ascii.eqb c d); [apply IH|easy].
Qed.

(** one [gdo_]-like pass on a word *)
Definition pre_word (kw new w : str) : str :=
  match after kw w, after ("_"%char :: kw) w with
  | Some r, _ => new ++ r
  | _, Some r => $"_" ++ new ++ r
  | _, _ => w
  end.

Definition good_kw (kw : str) : Prop := ident_text kw /\ match kw with c :: _ => c <> "_"%char | [] => False end.
(** a format string that gives the first group and then [new] *)
Definition good_fmt (fmt new : str) : Prop := forall m, expand fmt m = m_g1 m ++ new.

Lemma opt_underscore_word kw pre w r : good_kw kw -> ident_text w -> sepfirst r ->
  opt_underscore kw pre (w ++ r) =
  match after kw w, after ("_"%char :: kw) w with
  | Some _, _ => Some (mkm (length pre + length kw) pre kw)
  | _, Some _ => Some (mkm (length pre + 1 + length kw) (pre ++ $"_") kw)
  | _, _ => None
  end.
Proof.
  intros [Hk Hu] Hw Hr. unfold opt_underscore, after.
  assert (X : forall s, s = w ++ r -> starts_with kw s = starts_with kw w) by (intros s ->; now apply starts_with_word).
  destruct (w ++ r) as [|c s] eqn:E.
  - rewrite (X [] eq_refl). apply app_eq_nil in E as [-> _]. destruct kw; easy.
  - rewrite (X (c :: s) eq_refl).
    assert (Y : starts_with ("_"%char :: kw) w = match c with "_"%char => starts_with kw s | _ => false end).
    { assert (Hk' : ident_text ("_"%char :: kw)) by (constructor; easy).
      rewrite <- (starts_with_word _ w r Hk' Hr), E. cbn [starts_with]. destruct (Ascii.eqb_spec "_" c) as [<-|N]; [easy|].
      destruct c as [[] [] [] [] [] [] [] []]; try reflexivity. congruence. }
    rewrite Y.
    destruct (Ascii.eqb_spec "_" c) as [<-|N].
    + assert (Z : starts_with kw w = false).
      { rewrite <- (X _ eq_refl). destruct kw as [|k kw]; [easy|]. cbn [starts_with]. destruct (Ascii.eqb_spec k "_"); [congruence|easy]. }
      rewrite Z. destruct (starts_with kw s); reflexivity.
    + clear Y X E. destruct (starts_with kw w); destruct c as [[] [] [] [] [] [] [] []]; try reflexivity; congruence.
Qed.

Lemma pass_tail kw fmt w r : ident_text w ->
  regex_replace (match_prefix kw) fmt false 0 (w ++ r) = w ++ regex_replace (match_prefix kw) fmt false 0 r.
Proof.
  intro H. induction H as [|c w Hc H IH]; [easy|]. cbn [app regex_replace]. unfold match_prefix at 1. rewrite Hc. now rewrite IH.
Qed.

Lemma after_Some p w r : after p w = Some r -> w = p ++ r.
Proof.
  unfold after. destruct (starts_with p w) eqn:E; [|discriminate]. intro H. injection H as <-.
  apply starts_with_spec in E as [q ->]. now rewrite skipn_app_exact.
Qed.
Lemma after_app p r : after p (p ++ r) = Some r.
Proof. unfold after. now rewrite starts_with_app, skipn_app_exact. Qed.

Lemma rr_Some try fmt bol c s m : try bol (c :: s) = Some m ->
  regex_replace try fmt bol 0 (c :: s) = expand fmt m ++ regex_replace try fmt false (m_len m - 1) s.
Proof. intro H. cbn [regex_replace]. now rewrite H. Qed.
Lemma rr_None try fmt bol c s : try bol (c :: s) = None ->
  regex_replace try fmt bol 0 (c :: s) = c :: regex_replace try fmt false 0 s.
Proof. intro H. cbn [regex_replace]. now rewrite H. Qed.

Lemma rr_bol try fmt s : try true s = try false s -> regex_replace try fmt true 0 s = regex_replace try fmt false 0 s.
Proof. destruct s as [|c s]; [easy|]. intro H. cbn [regex_replace]. now rewrite H. Qed.
Lemma skip_exact try fmt (a b : str) n : n = length a -> regex_replace try fmt false n (a ++ b) = regex_replace try fmt false 0 b.
Proof. intros ->. apply regex_skip. Qed.

Lemma ident_text_app a b : ident_text (a ++ b) <-> ident_text a /\ ident_text b.
Proof. apply Forall_app. Qed.

(** a separator and its word *)
Lemma pass_sep kw fmt new c w r : good_kw kw -> good_fmt fmt new -> is_ident c = false -> ident_text w -> sepfirst r ->
  regex_replace (match_prefix kw) fmt false 0 (c :: w ++ r) = c :: pre_word kw new w ++ regex_replace (match_prefix kw) fmt false 0 r.
Proof.
  intros Hk Hf Hc Hw Hr. unfold pre_word.
  assert (M : match_prefix kw false (c :: w ++ r) = opt_underscore kw [c] (w ++ r)).
  { unfold match_prefix. rewrite Hc. now destruct (opt_underscore kw [c] (w ++ r)). }
  rewrite (opt_underscore_word kw [c] w r Hk Hw Hr) in M.
  destruct (after kw w) as [q|] eqn:A.
  - rewrite (rr_Some _ _ _ _ _ _ M), Hf. cbn [m_g1 m_len length]. apply after_Some in A. subst w. rewrite <- !app_assoc.
    apply ident_text_app in Hw as [_ Hw]. rewrite skip_exact by lia. rewrite (pass_tail kw fmt q r Hw). cbn [app]. rewrite <- ?app_assoc; reflexivity.
  - destruct (after ("_"%char :: kw) w) as [q|] eqn:B.
    + rewrite (rr_Some _ _ _ _ _ _ M), Hf. cbn [m_g1 m_len length]. apply after_Some in B. subst w. rewrite <- !app_assoc.
      apply ident_text_app in Hw as [_ Hw]. rewrite skip_exact by (cbn [length]; lia). rewrite (pass_tail kw fmt q r Hw). cbn [app lit list_ascii_of_string].
      rewrite <- ?app_assoc; reflexivity.
    + rewrite (rr_None _ _ _ _ _ M). now rewrite (pass_tail kw fmt w r Hw).
Qed.

Lemma concat_sepfirst l : Forall (fun p : ascii * str => is_ident (fst p) = false /\ ident_text (snd p)) l ->
  sepfirst (concat (map (fun p => fst p :: snd p) l)).
Proof. intros [|[c w] l' [H _] _]; cbn; easy. Qed.

Lemma pass_seps kw fmt new l : good_kw kw -> good_fmt fmt new ->
  Forall (fun p => is_ident (fst p) = false /\ ident_text (snd p)) l ->
  regex_replace (match_prefix kw) fmt false 0 (concat (map (fun p => fst p :: snd p) l)) =
  concat (map (fun p => fst p :: snd p) (map (fun p => (fst p, pre_word kw new (snd p))) l)).
Proof.
  intros Hk Hf H. induction H as [|[c w] l [Hc Hw] H IH]; [easy|]. cbn [map concat fst snd app] in *.
  rewrite (pass_sep kw fmt new c w _ Hk Hf Hc Hw (concat_sepfirst l H)). now rewrite IH.
Qed.

(** a whole pass *)
Lemma pass_spec kw fmt new t : good_kw kw -> good_fmt fmt new -> cut_ok t ->
  regex_replace (match_prefix kw) fmt true 0 (cut_text t) = cut_text (map_words (pre_word kw new) t).
Proof.
  intros Hk Hf [Hw Hl]. destruct t as [w l]. unfold cut_text, map_words. cbn [fst snd] in *.
  pose proof (concat_sepfirst l Hl) as Hr. pose proof (pass_seps kw fmt new l Hk Hf Hl) as Hp.
  set (r := concat (map (fun p => fst p :: snd p) l)) in *. rewrite <- Hp. clear Hp.
  pose proof (opt_underscore_word kw [] w r Hk Hw Hr) as O.
  assert (M : w <> [] -> match_prefix kw true (w ++ r) = opt_underscore kw [] (w ++ r)).
  { intro N. unfold match_prefix. destruct w as [|c w]; [easy|]. cbn [app]. inversion Hw as [|? ? Hc _]; subst. now rewrite Hc. }
  unfold pre_word. destruct w as [|c w].
  - assert (A1 : after kw [] = None) by (destruct kw; [now destruct Hk|easy]). assert (A2 : after ("_"%char :: kw) [] = None) by easy.
    rewrite A1, A2 in *. cbn [app] in *. destruct r as [|d r']; [easy|].
    apply rr_bol. unfold match_prefix. cbn in Hr. rewrite Hr, O. now destruct (opt_underscore kw [d] r').
  - rewrite O in M. specialize (M ltac:(discriminate)). clear O. cbn [app] in M |- *.
    destruct (after kw (c :: w)) as [q|] eqn:A.
    + rewrite (rr_Some _ _ _ _ _ _ M), Hf. cbn [m_g1 m_len length app]. apply after_Some in A. destruct Hk as [Hk Hu].
      destruct kw as [|k kw]; [easy|]. cbn [app] in A. injection A as -> ->. rewrite <- !app_assoc.
      inversion Hw as [|? ? _ Hw']; subst. apply ident_text_app in Hw' as [_ Hq].
      rewrite skip_exact by (cbn [length]; lia). rewrite pass_tail by easy. rewrite <- ?app_assoc; reflexivity.
    + destruct (after ("_"%char :: kw) (c :: w)) as [q|] eqn:B.
      * rewrite (rr_Some _ _ _ _ _ _ M), Hf. cbn [m_g1 m_len length app]. apply after_Some in B.
        cbn [app] in B. injection B as -> ->. rewrite <- !app_assoc.
        inversion Hw as [|? ? _ Hw']; subst. apply ident_text_app in Hw' as [_ Hq].
        rewrite skip_exact by lia. rewrite pass_tail by easy. cbn [lit list_ascii_of_string app]. rewrite <- ?app_assoc; reflexivity.
      * rewrite (rr_None _ _ _ _ _ M). inversion Hw as [|? ? _ Hw']; subst. now rewrite pass_tail.
Qed.

(* ---------------------------------------------------------------- standalone words *)

Definition alone_word (new w : str) : str := if str_eqb w $"gdo" then new else w.
Definition good_fmt3 (fmt new : str) : Prop := forall m, expand fmt m = m_g1 m ++ new ++ m_g3 m.

Lemma word_end_word pre w r : ident_text w -> sepfirst r ->
  word_end pre (w ++ r) = if str_eqb w $"gdo" then
    match r with [] => Some (mkm (length pre + 3) pre []) | c :: _ => Some (mkm (length pre + 4) pre [c]) end else None.
Proof.
  intros Hw Hr. unfold word_end. rewrite starts_with_word; [|repeat constructor|easy].
  destruct (str_eqb w $"gdo") eqn:E.
  - apply str_eqb_eq in E. subst w. cbn [lit list_ascii_of_string starts_with Ascii.eqb Bool.eqb skipn app].
    destruct r as [|c r]; [reflexivity|]. cbn in Hr. rewrite Hr. reflexivity.
  - destruct (starts_with $"gdo" w) eqn:S; [|easy]. apply starts_with_spec in S as [q ->].
    cbn [lit list_ascii_of_string app skipn]. destruct q as [|d q]; [vm_compute in E; discriminate|].
    inversion Hw as [|? ? _ H1]; subst. inversion H1 as [|? ? _ H2]; subst. inversion H2 as [|? ? _ H3]; subst. inversion H3 as [|? ? H4 _]; subst.
    cbn [app]. now rewrite H4.
Qed.

Lemma alone_tail fmt w r : ident_text w ->
  regex_replace match_standalone fmt false 0 (w ++ r) = w ++ regex_replace match_standalone fmt false 0 r.
Proof.
  intro H. induction H as [|c w Hc H IH]; [easy|]. cbn [app regex_replace]. unfold match_standalone at 1. rewrite Hc. now rewrite IH.
Qed.

(** what happens after a matched word: the next separator is used up, so the word after it is passed over *)
Lemma alone_seps fmt new l : good_fmt3 fmt new ->
  Forall (fun p => is_ident (fst p) = false /\ ident_text (snd p)) l -> ~ adjacent_gdo (map snd l) ->
  regex_replace match_standalone fmt false 0 (concat (map (fun p => fst p :: snd p) l)) =
  concat (map (fun p => fst p :: snd p) (map (fun p => (fst p, alone_word new (snd p))) l)).
Proof.
  intros Hf. remember (length l) as n eqn:Hn. revert l Hn. induction n as [n IH] using (well_founded_induction Wf_nat.lt_wf).
  intros l Hn H Ha. destruct H as [|[c w] l [Hc Hw] H]; [easy|]. cbn [map concat fst snd app length] in *.
  assert (Ha' : ~ adjacent_gdo (map snd l)). { intros (a & b & E). apply Ha. exists (w :: a), b. now rewrite E. }
  pose proof (concat_sepfirst l H) as Hr.
  assert (M : match_standalone false (c :: w ++ concat (map (fun p => fst p :: snd p) l)) = word_end [c] (w ++ concat (map (fun p => fst p :: snd p) l))).
  { unfold match_standalone. rewrite Hc. now destruct (word_end _ _). }
  rewrite (word_end_word [c] w _ Hw Hr) in M. unfold alone_word at 1.
  destruct (str_eqb w $"gdo") eqn:E.
  - apply str_eqb_eq in E. subst w. destruct H as [|[d v] l [Hd Hv] H]; cbn [map concat fst snd app] in *.
    + rewrite (rr_Some _ _ _ _ _ _ M), Hf. cbn [m_g1 m_g3 m_len length app]. rewrite !app_nil_r. reflexivity.
    + rewrite (rr_Some _ _ _ _ _ _ M), Hf. cbn [m_g1 m_g3 m_len length app].
      change ($"gdo" ++ d :: v ++ concat (map (fun p => fst p :: snd p) l)) with ($"gdo" ++ [d] ++ v ++ concat (map (fun p => fst p :: snd p) l)).
      rewrite app_assoc. rewrite skip_exact by reflexivity. rewrite alone_tail by easy.
      assert (Hv' : str_eqb v $"gdo" = false).
      { apply str_eqb_neq. intros ->. apply Ha. now exists [], (map snd l). }
      unfold alone_word at 1. rewrite Hv'. rewrite (IH (length l)); [|subst n; cbn [length]; lia|easy|easy|].
      * rewrite <- ?app_assoc; reflexivity.
      * intros (a & b & F). apply Ha'. exists (v :: a), b. now rewrite F.
  - rewrite (rr_None _ _ _ _ _ M). rewrite alone_tail by easy. rewrite (IH (length l)); [easy|subst n; lia|easy|easy|easy].
Qed.

Lemma alone_spec fmt new t : good_fmt3 fmt new -> cut_ok t -> ~ adjacent_gdo (cut_words t) ->
  regex_replace match_standalone fmt true 0 (cut_text t) = cut_text (map_words (alone_word new) t).
Proof.
  intros Hf [Hw Hl] Ha. destruct t as [w l]. unfold cut_text, map_words, cut_words in *. cbn [fst snd] in *.
  assert (Ha' : ~ adjacent_gdo (map snd l)). { intros (a & b & E). apply Ha. exists (w :: a), b. now rewrite E. }
  pose proof (concat_sepfirst l Hl) as Hr. pose proof (alone_seps fmt new l Hf Hl Ha') as Hp.
  pose proof (word_end_word [] w _ Hw Hr) as O. unfold alone_word at 1.
  destruct w as [|c w].
  - replace (str_eqb [] $"gdo") with false in * by reflexivity. cbn [app] in *. rewrite <- Hp.
    set (r := concat (map (fun p => fst p :: snd p) l)) in *. destruct r as [|d r']; [easy|].
    apply rr_bol. unfold match_standalone. cbn in Hr. rewrite Hr, O. now destruct (word_end [d] r').
  - set (r := concat (map (fun p => fst p :: snd p) l)) in *.
    assert (M : match_standalone true (c :: w ++ r) = word_end [] ((c :: w) ++ r)).
    { unfold match_standalone. inversion Hw as [|? ? Hc _]; subst. now rewrite Hc. }
    rewrite O in M. cbn [app].
    destruct (str_eqb (c :: w) $"gdo") eqn:E.
    + apply str_eqb_eq in E. injection E as -> ->. subst r. destruct Hl as [|[d v] l [Hd Hv] Hl]; cbn [map concat fst snd app] in *.
      * rewrite (rr_Some _ _ _ _ _ _ M), Hf. cbn [m_g1 m_g3 m_len length app]. now rewrite !app_nil_r.
      * rewrite (rr_Some _ _ _ _ _ _ M), Hf. cbn [m_g1 m_g3 m_len length app].
        change ("d"%char :: "o"%char :: d :: v ++ ?x) with ((["d"; "o"]%char ++ [d]) ++ v ++ x).
        rewrite skip_exact by reflexivity. rewrite alone_tail by easy.
        assert (Hv' : str_eqb v $"gdo" = false).
        { apply str_eqb_neq. intros ->. apply Ha. now exists [], (map snd l). }
        unfold alone_word at 1. rewrite Hv'. rewrite (alone_seps fmt new l Hf Hl).
        -- rewrite <- ?app_assoc; reflexivity.
        -- intros (a & b & F). apply Ha'. exists (v :: a), b. now rewrite F.
    + rewrite (rr_None _ _ _ _ _ M). inversion Hw as [|? ? _ Hw']; subst. rewrite alone_tail by easy. subst r. now rewrite Hp.
Qed.

(* ---------------------------------------------------------------- format strings *)

Lemma expand_plain s m : ~ In "$"%char s -> expand s m = s.
Proof.
  induction s as [|c s IH]; intro H; [easy|]. cbn [expand].
  assert (N : c <> "$"%char) by (intros ->; apply H; now left). assert (H' : ~ In "$"%char s) by (intro X; apply H; now right).
  destruct c as [[] [] [] [] [] [] [] []]; now rewrite IH.
Qed.
Lemma expand_plain_app s t m : ~ In "$"%char s -> expand (s ++ t) m = s ++ expand t m.
Proof.
  induction s as [|c s IH]; intro H; [easy|]. cbn [expand app].
  assert (N : c <> "$"%char) by (intros ->; apply H; now left). assert (H' : ~ In "$"%char s) by (intro X; apply H; now right).
  destruct c as [[] [] [] [] [] [] [] []]; now rewrite IH.
Qed.
Lemma expand_first d s m : isdigit d = false -> expand ($"$1" ++ d :: s) m = m_g1 m ++ expand (d :: s) m.
Proof. intro H. cbn [lit list_ascii_of_string app]. change (expand ("$"%char :: "1"%char :: d :: s) m) with (if isdigit d then group m (10 * digit "1" + digit d) ++ expand s m else group m (digit "1") ++ expand (d :: s) m). now rewrite H. Qed.
Lemma ident_no_dollar s : ident_text s -> ~ In "$"%char s.
Proof. intros H I. unfold ident_text in H. rewrite Forall_forall in H. apply H in I. discriminate. Qed.
Definition not_digit_first (s : str) : Prop := match s with c :: _ => isdigit c = false | [] => True end.
Lemma good_fmt_spec new : ident_text new -> new <> [] -> not_digit_first new -> good_fmt ($"$1" ++ new) new.
Proof.
  intros Hi Hn Hd m. destruct new as [|d new]; [easy|]. rewrite expand_first by easy. f_equal. apply expand_plain. now apply ident_no_dollar.
Qed.
Lemma good_fmt3_spec new : ident_text new -> not_digit_first new -> good_fmt3 ($"$1" ++ new ++ $"$3") new.
Proof.
  intros Hi Hd m. destruct new as [|d new].
  - reflexivity.
  - cbn [app]. rewrite expand_first by easy. f_equal. change (d :: new ++ $"$3") with ((d :: new) ++ $"$3").
    rewrite expand_plain_app by now apply ident_no_dollar. reflexivity.
Qed.

(* ---------------------------------------------------------------- the characters of the two prefixes *)

Lemma upper_char c : let d := (if isalnum c then toupper c else "_"%char) in
  is_ident d = true /\ islower d = false /\ isdigit d = isdigit c.
Proof. destruct c as [[] [] [] [] [] [] [] []]; vm_compute; repeat split. Qed.
Lemma lower_char c : let d := (if isalnum c then tolower c else "_"%char) in
  is_ident d = true /\ isupper d = false /\ isdigit d = isdigit c.
Proof. destruct c as [[] [] [] [] [] [] [] []]; vm_compute; repeat split. Qed.
Lemma to_upper_ident s : ident_text (to_upper true s).
Proof. unfold to_upper. apply Forall_map. apply Forall_forall. intros c _. apply (upper_char c). Qed.
Lemma to_lower_ident s : ident_text (to_lower true s).
Proof. unfold to_lower. apply Forall_map. apply Forall_forall. intros c _. apply (lower_char c). Qed.
Lemma to_upper_no_lower s : Forall (fun c => islower c = false) (to_upper true s).
Proof. unfold to_upper. apply Forall_map. apply Forall_forall. intros c _. apply (upper_char c). Qed.
Lemma to_lower_no_upper s : Forall (fun c => isupper c = false) (to_lower true s).
Proof. unfold to_lower. apply Forall_map. apply Forall_forall. intros c _. apply (lower_char c). Qed.
Lemma to_upper_digit s : not_digit_first s -> not_digit_first (to_upper true s).
Proof. destruct s as [|c s]; [easy|]. cbn [not_digit_first to_upper map]. intro H. rewrite (proj2 (proj2 (upper_char c))). exact H. Qed.
Lemma to_lower_digit s : not_digit_first s -> not_digit_first (to_lower true s).
Proof. destruct s as [|c s]; [easy|]. cbn [not_digit_first to_lower map]. intro H. rewrite (proj2 (proj2 (lower_char c))). exact H. Qed.

(* ---------------------------------------------------------------- words through the three passes *)

Lemma after_None_cons p q w : after (p :: q) w = None <-> (forall r, w <> p :: q ++ r).
Proof.
  split.
  - intros H r ->. pose proof (after_app (p :: q) r) as A. cbn [app] in A. congruence.
  - intro H. destruct (after (p :: q) w) as [r|] eqn:A; [|easy]. apply after_Some in A. now apply H in A.
Qed.

(** not touched by the [gdo_] pass or the standalone pass *)
Lemma upper_untouched u r : u <> [] -> Forall (fun c => islower c = false) u ->
  after $"gdo_" (u ++ $"_" ++ r) = None /\ after $"_gdo_" (u ++ $"_" ++ r) = None /\ str_eqb (u ++ $"_" ++ r) $"gdo" = false /\
  after $"gdo_" ($"_" ++ u ++ $"_" ++ r) = None /\ after $"_gdo_" ($"_" ++ u ++ $"_" ++ r) = None /\ str_eqb ($"_" ++ u ++ $"_" ++ r) $"gdo" = false.
Proof.
  intros Hn Hu. destruct u as [|c u]; [easy|]. inversion Hu as [|? ? Hc Hu']; subst.
  assert (N : c <> "g"%char) by (intros ->; discriminate).
  repeat split; try (apply after_None_cons; intros x E; cbn [app lit list_ascii_of_string] in E).
  - injection E as E _. congruence.
  - destruct u as [|d u]; cbn [app] in E; [injection E as _ E; discriminate|]. injection E as _ E _.
    inversion Hu' as [|? ? Hd _]; subst. discriminate.
  - apply str_eqb_neq. cbn [app lit list_ascii_of_string]. intro E. injection E as E _. congruence.
  - injection E as E _. congruence.
Qed.
Lemma lower_not_gdo l r : str_eqb (l ++ $"_" ++ r) $"gdo" = false /\ str_eqb ($"_" ++ l ++ $"_" ++ r) $"gdo" = false.
Proof.
  split; apply str_eqb_neq; cbn [app lit list_ascii_of_string]; [|discriminate]. intro E.
  assert (I : In "_"%char ["g"; "d"; "o"]%char) by (rewrite <- E; apply in_or_app; right; now left).
  cbn in I. intuition discriminate.
Qed.

Lemma words_compose u l w : u <> [] -> Forall (fun c => islower c = false) u ->
  alone_word l (pre_word $"gdo_" (l ++ $"_") (pre_word $"GDO_" (u ++ $"_") w)) = renamed_word u l w.
Proof.
  intros Hn Hu. unfold renamed_word, pre_word at 2. change ("_"%char :: $"GDO_") with $"_GDO_".
  destruct (after $"GDO_" w) as [r|] eqn:A1.
  { rewrite <- app_assoc. destruct (upper_untouched u r Hn Hu) as (B1 & B2 & B3 & _). unfold pre_word.
    change ("_"%char :: $"gdo_") with $"_gdo_". rewrite B1, B2. unfold alone_word. now rewrite B3. }
  destruct (after $"_GDO_" w) as [r|] eqn:A2.
  { rewrite <- app_assoc. destruct (upper_untouched u r Hn Hu) as (_ & _ & _ & B1 & B2 & B3). unfold pre_word.
    change ("_"%char :: $"gdo_") with $"_gdo_". rewrite B1, B2. unfold alone_word. now rewrite B3. }
  unfold pre_word. change ("_"%char :: $"gdo_") with $"_gdo_". destruct (after $"gdo_" w) as [r|] eqn:A3.
  { rewrite <- app_assoc. unfold alone_word. now rewrite (proj1 (lower_not_gdo l r)). }
  destruct (after $"_gdo_" w) as [r|] eqn:A4.
  { rewrite <- app_assoc. unfold alone_word. now rewrite (proj2 (lower_not_gdo l r)). }
  reflexivity.
Qed.

Lemma pre_word_gdo kw new w : kw = $"GDO_" \/ kw = $"gdo_" -> pre_word kw (new ++ $"_") w = $"gdo" -> w = $"gdo".
Proof.
  intros _ E. unfold pre_word in E. destruct (after kw w) as [r|].
  - exfalso. rewrite <- app_assoc in E. pose proof (proj1 (lower_not_gdo new r)) as N. rewrite E in N. discriminate.
  - destruct (after ("_"%char :: kw) w) as [r|]; [|easy]. rewrite <- app_assoc in E. discriminate.
Qed.
Lemma pre_word_ident kw new w : ident_text kw -> ident_text new -> ident_text w -> ident_text (pre_word kw new w).
Proof.
  intros Hk Hn Hw. unfold pre_word. destruct (after kw w) as [r|] eqn:A.
  - apply after_Some in A. subst w. apply ident_text_app in Hw as [_ Hw]. now apply ident_text_app.
  - destruct (after ("_"%char :: kw) w) as [r|] eqn:B; [|easy]. apply after_Some in B. subst w. apply ident_text_app in Hw as [_ Hw].
    apply ident_text_app. split; [repeat constructor|]. now apply ident_text_app.
Qed.
Lemma map_words_ok f t : (forall w, ident_text w -> ident_text (f w)) -> cut_ok t -> cut_ok (map_words f t).
Proof.
  intros Hf [H1 H2]. split; cbn [map_words fst snd]; [now apply Hf|]. apply Forall_map. eapply Forall_impl; [|exact H2].
  intros [c w] [Hc Hw]. split; [easy|]. cbn [snd]. now apply Hf.
Qed.
Lemma map_words_words f t : cut_words (map_words f t) = map f (cut_words t).
Proof. unfold cut_words, map_words. cbn [fst snd map]. f_equal. now rewrite !map_map. Qed.
Lemma map_words_map f g t : map_words f (map_words g t) = map_words (fun w => f (g w)) t.
Proof. unfold map_words. cbn [fst snd]. f_equal. now rewrite map_map. Qed.
Lemma map_words_ext f g t : (forall w, f w = g w) -> map_words f t = map_words g t.
Proof. intro H. unfold map_words. f_equal; [apply H|]. apply map_ext. intros [c w]. cbn. now rewrite H. Qed.
Lemma adjacent_map f l : (forall w, f w = $"gdo" -> w = $"gdo") -> adjacent_gdo (map f l) -> adjacent_gdo l.
Proof.
  intros H (a & b & E). apply map_eq_app in E as (x & y & -> & <- & E). destruct y as [|p y]; [easy|]. destruct y as [|q y]; [easy|].
  cbn [map app] in E. injection E as E1 E2 <-. exists x, y. now rewrite (H p E1), (H q E2).
Qed.

Lemma good_upper_kw : good_kw $"GDO_".
Proof. split; [repeat constructor|discriminate]. Qed.
Lemma good_lower_kw : good_kw $"gdo_".
Proof. split; [repeat constructor|discriminate]. Qed.

Lemma rename_spec s t : s <> [] -> not_digit_first s -> cut_ok t -> ~ adjacent_gdo (cut_words t) ->
  replace_prefixes (set_prefix s) (cut_text t) = cut_text (map_words (renamed_word (to_upper true s) (to_lower true s)) t).
Proof.
  intros Hs Hd Ht Ha. unfold replace_prefixes, set_prefix. cbn [m_fmt_upper m_fmt_lower m_fmt_standalone].
  set (u := to_upper true s). set (l := to_lower true s).
  assert (Hu : u <> []) by (destruct s; easy). assert (Hl : l <> []) by (destruct s; easy).
  assert (Iu : ident_text (u ++ $"_")) by (apply ident_text_app; split; [apply to_upper_ident|repeat constructor]).
  assert (Il : ident_text (l ++ $"_")) by (apply ident_text_app; split; [apply to_lower_ident|repeat constructor]).
  assert (Du : not_digit_first (u ++ $"_")) by (subst u; pose proof (to_upper_digit s Hd); now destruct (to_upper true s)).
  assert (Dl : not_digit_first (l ++ $"_")) by (subst l; pose proof (to_lower_digit s Hd); now destruct (to_lower true s)).
  assert (F1 : good_fmt ($"$1" ++ u ++ $"_") (u ++ $"_")) by (apply good_fmt_spec; auto; now destruct u).
  assert (F2 : good_fmt ($"$1" ++ l ++ $"_") (l ++ $"_")) by (apply good_fmt_spec; auto; now destruct l).
  assert (F3 : good_fmt3 ($"$1" ++ l ++ $"$3") l) by (apply good_fmt3_spec; [apply to_lower_ident|now apply to_lower_digit]).
  rewrite (pass_spec _ _ _ t good_upper_kw F1 Ht).
  assert (O1 : cut_ok (map_words (pre_word $"GDO_" (u ++ $"_")) t)).
  { apply map_words_ok; [|easy]. intros w Hw. apply pre_word_ident; auto. repeat constructor. }
  rewrite (pass_spec _ _ _ _ good_lower_kw F2 O1).
  assert (O2 : cut_ok (map_words (pre_word $"gdo_" (l ++ $"_")) (map_words (pre_word $"GDO_" (u ++ $"_")) t))).
  { apply map_words_ok; [|easy]. intros w Hw. apply pre_word_ident; auto. repeat constructor. }
  rewrite (alone_spec _ l _ F3 O2).
  - f_equal. rewrite !map_words_map. apply map_words_ext. intro w. apply words_compose; [easy|apply to_upper_no_lower].
  - rewrite !map_words_words. intro X. apply adjacent_map in X; [|intros w E; apply pre_word_gdo in E; auto].
    apply adjacent_map in X; [easy|]. intros w E. apply pre_word_gdo in E; auto.
Qed.

Lemma cut_exists s : exists t, cut_ok t /\ cut_text t = s.
Proof.
  induction s as [|c s ([w l] & [H1 H2] & E)].
  - exists ([], []). repeat split; constructor.
  - cbn [fst snd] in *. destruct (is_ident c) eqn:Hc.
    + exists (c :: w, l). split; [split; [constructor|]; easy|]. rewrite <- E. reflexivity.
    + exists ([], (c, w) :: l). split; [split; [constructor|constructor; [split|]; easy]|]. rewrite <- E. reflexivity.
Qed.
Lemma cut_unique t t' : cut_ok t -> cut_ok t' -> cut_text t = cut_text t' -> t = t'.
Proof.
  destruct t as [w l], t' as [w' l']. unfold cut_ok, cut_text. cbn [fst snd]. intros [H1 H2] [H1' H2'].
  revert w w' l' H1 H1' H2'. induction H2 as [|[c v] l [Hc Hv] H2 IH]; intros w w' l' H1 H1' H2' E.
  - destruct H2' as [|[d v'] l' [Hd Hv'] H2']; cbn [map concat] in E; [now rewrite !app_nil_r in E; subst|].
    exfalso. rewrite app_nil_r in E. subst w. apply Forall_app in H1 as [_ H1]. inversion H1; subst. cbn in *. congruence.
  - destruct H2' as [|[d v'] l' [Hd Hv'] H2']; cbn [map concat fst snd] in *.
    + exfalso. rewrite app_nil_r in E. subst w'. apply Forall_app in H1' as [_ H1']. inversion H1'; subst. cbn in *. congruence.
    + assert (W : w = w').
      { revert w' H1' E. induction H1 as [|x w Hx H1 IHw]; intros w' H1' E; destruct H1' as [|y w' Hy H1']; cbn [app] in E; auto.
        - injection E as -> _. congruence.
        - injection E as <- _. congruence.
        - injection E as -> E. f_equal. now apply IHw. }
      subst w'. apply app_inv_head in E. cbn [app] in E. injection E as -> E.
      specialize (IH v v' l' Hv Hv' H2' E). injection IH as -> ->. easy.
Qed.

Lemma rename_unchanged s t : s <> [] -> not_digit_first s -> cut_ok t ->
  Forall (fun w => w <> $"gdo" /\ forall k, In k [$"GDO_"; $"_GDO_"; $"gdo_"; $"_gdo_"] -> starts_with k w = false) (cut_words t) ->
  replace_prefixes (set_prefix s) (cut_text t) = cut_text t.
Proof.
  intros Hs Hd Ht H. rewrite rename_spec; auto.
  - f_equal. destruct t as [w l]. unfold cut_words, map_words in *. cbn [fst snd] in *.
    assert (K : forall w, w <> $"gdo" /\ (forall k, In k [$"GDO_"; $"_GDO_"; $"gdo_"; $"_gdo_"] -> starts_with k w = false) -> renamed_word (to_upper true s) (to_lower true s) w = w).
    { clear. intros w [H1 H2]. unfold renamed_word, after. rewrite !H2 by (cbn; tauto). apply str_eqb_neq in H1. now rewrite H1. }
    apply Forall_cons_iff in H as [H1 H2]. f_equal; [now apply K|]. rewrite Forall_map in H2.
    clear -H2 K. induction H2 as [|[c v] l H H2 IH]; [easy|]. cbn [map fst snd] in *. rewrite IH. now rewrite K.
  - intros (a & b & E). rewrite E in H. rewrite !Forall_app in H. destruct H as (_ & H & _). apply Forall_cons_iff in H as [[H _] _]. now apply H.
Qed.

(* ---------------------------------------------------------------- names *)

Lemma prefix_names s : ident_text (m_pfx_upper (set_prefix s)) /\ ident_text (m_pfx_lower (set_prefix s)) /\
  length (m_pfx_upper (set_prefix s)) = length s /\ length (m_pfx_lower (set_prefix s)) = length s /\
  Forall (fun c => islower c = false) (m_pfx_upper (set_prefix s)) /\ Forall (fun c => isupper c = false) (m_pfx_lower (set_prefix s)) /\
  map toupper (m_pfx_lower (set_prefix s)) = m_pfx_upper (set_prefix s).
Proof.
  cbn [set_prefix m_pfx_upper m_pfx_lower]. split; [apply to_upper_ident|]. split; [apply to_lower_ident|].
  split; [apply map_length|]. split; [apply map_length|]. split; [apply to_upper_no_lower|]. split; [apply to_lower_no_upper|].
  unfold to_lower, to_upper. rewrite map_map. apply map_ext. intro c. destruct c as [[] [] [] [] [] [] [] []]; vm_compute; reflexivity.
Qed.
Lemma guard_ident h s : ident_text (guard_name h (m_pfx_upper (set_prefix s))) /\
  length (guard_name h (m_pfx_upper (set_prefix s))) = length h + length s + 3 /\
  not_digit_first (guard_name h (m_pfx_upper (set_prefix s))).
Proof.
  unfold guard_name. cbn [set_prefix m_pfx_upper]. split; [|split].
  - repeat (apply ident_text_app; split); try apply to_upper_ident; repeat constructor.
  - rewrite !app_length. unfold to_upper. rewrite !map_length. cbn [length lit list_ascii_of_string]. lia.
  - reflexivity.
Qed.
Lemma plain_name_kept s : Forall (fun c => isalnum c = true \/ c = "_"%char) s ->
  m_pfx_upper (set_prefix s) = map toupper s /\ m_pfx_lower (set_prefix s) = map tolower s.
Proof.
  intro H. cbn [set_prefix m_pfx_upper m_pfx_lower]. unfold to_upper, to_lower.
  split; apply map_ext_in; intros c Hc; rewrite Forall_forall in H; destruct (H c Hc) as [E| ->]; try rewrite E; reflexivity.
Qed.

Lemma rename_overlap : exists s t, s <> [] /\ not_digit_first s /\ cut_ok t /\
  replace_prefixes (set_prefix s) (cut_text t) <> cut_text (map_words (renamed_word (to_upper true s) (to_lower true s)) t).
Proof.
  exists $"my", ($"gdo", [("+"%char, $"gdo")]). split; [easy|]. split; [easy|].
  split; [split; repeat constructor|]. intro E. vm_compute in E. discriminate.
Qed.
Lemma rename_digit : exists s t, s <> [] /\ cut_ok t /\ ~ adjacent_gdo (cut_words t) /\
  length (replace_prefixes (set_prefix s) (cut_text t)) < length (cut_text (map_words (renamed_word (to_upper true s) (to_lower true s)) t)).
Proof.
  exists $"7z", ([], [("("%char, $"gdo_load"); (")"%char, [])]). split; [easy|].
  split; [split; repeat constructor|]. split; [|vm_compute; lia].
  intros ([|x [|y [|z [|q a]]]] & b & E); cbn in E; discriminate.
Qed.

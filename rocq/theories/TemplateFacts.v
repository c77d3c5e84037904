(** Renaming and placeholders do not get into each other's way. *)
From Coq Require Import Ascii String List Bool Arith Lia.
From Verif Require Import Str Parse ParamNames Prefix Substitute SpecFormat SpecPrefix SpecSubstitute Options PrefixFacts SpecTemplates.
Import ListNotations.

(* ------------------------------------------------------------ words *)

Lemma words_ok s : cut_ok (words s).
Proof.
  induction s as [|c s IH]; [split; constructor|]. cbn [words]. destruct (words s) as (w, r). destruct IH as (I1 & I2). cbn [fst snd] in *.
  destruct (is_ident c) eqn:E; split; cbn [fst snd]; auto.
Qed.
Lemma words_text s : cut_text (words s) = s.
Proof.
  induction s as [|c s IH]; [reflexivity|]. cbn [words]. destruct (words s) as (w, r). unfold cut_text in *. cbn [fst snd] in *.
  destruct (is_ident c) eqn:E; cbn [fst snd map concat app]; now rewrite <- IH.
Qed.
Lemma words_sep a c b : is_ident c = false ->
  words (a ++ c :: b) = (fst (words a), snd (words a) ++ (c, fst (words b)) :: snd (words b)).
Proof.
  intros E. induction a as [|x a IH]; cbn [app words].
  - rewrite E. now destruct (words b).
  - rewrite IH. destruct (words a) as (w, r). cbn [fst snd]. now destruct (is_ident x).
Qed.

Section Rename.
Variables u l : str.
Hypothesis U : ident_text u. Hypothesis L : ident_text l. Hypothesis U1 : u <> []. Hypothesis L1 : l <> [].
Notation f := (renamed_word u l).

Lemma f_ident w : ident_text w -> ident_text (f w).
Proof.
  intros W. unfold renamed_word.
  assert (S1 : forall p r, after p w = Some r -> ident_text r).
  { intros p r E. apply after_Some in E. rewrite E in W. now apply ident_text_app in W. }
  destruct (after $"GDO_" w) as [r|] eqn:E1; [apply ident_text_app; split; [exact U|apply ident_text_app; split; [repeat constructor|exact (S1 _ _ E1)]]|].
  destruct (after $"_GDO_" w) as [r|] eqn:E2; [constructor; [reflexivity|]; apply ident_text_app; split; [exact U|apply ident_text_app; split; [repeat constructor|exact (S1 _ _ E2)]]|].
  destruct (after $"gdo_" w) as [r|] eqn:E3; [apply ident_text_app; split; [exact L|apply ident_text_app; split; [repeat constructor|exact (S1 _ _ E3)]]|].
  destruct (after $"_gdo_" w) as [r|] eqn:E4; [constructor; [reflexivity|]; apply ident_text_app; split; [exact L|apply ident_text_app; split; [repeat constructor|exact (S1 _ _ E4)]]|].
  now destruct (str_eqb w $"gdo").
Qed.
Lemma f_empty w : f w = [] <-> w = [].
Proof.
  split; [|now intros ->].
  unfold renamed_word. intros E.
  destruct (after $"GDO_" w) as [r|]; [destruct u; [now elim U1|discriminate E]|].
  destruct (after $"_GDO_" w) as [r|]; [discriminate E|].
  destruct (after $"gdo_" w) as [r|]; [destruct l; [now elim L1|discriminate E]|].
  destruct (after $"_gdo_" w) as [r|]; [discriminate E|].
  destruct (str_eqb w $"gdo"); [now elim L1|exact E].
Qed.
Lemma rename_sep a c b : is_ident c = false -> rename u l (a ++ c :: b) = rename u l a ++ c :: rename u l b.
Proof.
  intros E. unfold rename. rewrite (words_sep a c b E). unfold cut_text, map_words. cbn [fst snd].
  rewrite !map_app, concat_app. cbn [map concat fst snd]. rewrite <- !app_assoc. cbn [app]. now rewrite <- ?app_assoc.
Qed.
Lemma rename_nil : rename u l [] = [].
Proof. reflexivity. Qed.
Lemma rename_hole_name h : rename u l (hole_name h) = hole_name h.
Proof. destruct h; reflexivity. Qed.
Lemma rename_hole a h b : rename u l (a ++ hole_text h ++ b) = rename u l a ++ hole_text h ++ rename u l b.
Proof.
  unfold hole_text. rewrite <- !app_assoc.
  change ($"%%" ++ hole_name h ++ $"%%" ++ b) with ("%"%char :: [] ++ "%"%char :: hole_name h ++ "%"%char :: [] ++ "%"%char :: b).
  rewrite (rename_sep a) by reflexivity. rewrite (rename_sep []) by reflexivity. rewrite (rename_sep (hole_name h)) by reflexivity.
  rewrite (rename_sep [] "%"%char b) by reflexivity. rewrite rename_nil, rename_hole_name. reflexivity.
Qed.
Lemma rename_ident_text s : cut_ok (map_words f (words s)).
Proof. apply map_words_ok; [exact f_ident|apply words_ok]. Qed.

Lemma cut_in t c : cut_ok t -> In c (cut_text t) -> is_ident c = true \/ In c (map fst (snd t)).
Proof.
  intros (O1 & O2) I. unfold cut_text in I. apply in_app_or in I as [I|I].
  - left. rewrite Forall_forall in O1. now apply O1.
  - apply in_concat in I as (x & X & I). apply in_map_iff in X as (p & <- & P). rewrite Forall_forall in O2. destruct (O2 p P) as (Q1 & Q2).
    destruct I as [<-|I]; [right; now apply in_map|]. left. rewrite Forall_forall in Q2. now apply Q2.
Qed.
Lemma rename_no_percent s : ~ In "%"%char s -> ~ In "%"%char (rename u l s).
Proof.
  intros N I. apply cut_in in I; [|apply rename_ident_text]. destruct I as [I|I]; [discriminate I|].
  cbn [map_words snd] in I. rewrite map_map in I. cbn [fst] in I. apply N. rewrite <- (words_text s).
  apply in_map_iff in I as (p & E & P). unfold cut_text. apply in_or_app. right. apply in_concat. exists (fst p :: snd p).
  split; [apply in_map_iff; now exists p|]. left. exact E.
Qed.
Lemma ident_rename s : forallb is_ident (rename u l s) = forallb is_ident s.
Proof.
  destruct (forallb is_ident s) eqn:E.
  - assert (X : words s = (s, [])).
    { clear -E. induction s as [|c s IH]; [reflexivity|]. cbn [forallb] in E. apply andb_true_iff in E as (E1 & E2). cbn [words]. rewrite (IH E2), E1. reflexivity. }
    unfold rename. rewrite X. unfold cut_text, map_words. cbn [fst snd map concat]. rewrite app_nil_r.
    apply forallb_forall. intros c C. assert (W : ident_text s) by (apply Forall_forall; intros d D; now apply (proj1 (forallb_forall _ _) E)).
    pose proof (f_ident s W) as F. unfold ident_text in F. rewrite Forall_forall in F. now apply F.
  - assert (X : exists a c b, is_ident c = false /\ s = a ++ c :: b).
    { clear -E. induction s as [|c s IH]; [discriminate E|]. cbn [forallb] in E. destruct (is_ident c) eqn:C.
      - destruct (IH E) as (a & d & b & D & ->). now exists (c :: a), d, b.
      - now exists [], c, s. }
    destruct X as (a & c & b & C & ->). rewrite (rename_sep a c b C). rewrite forallb_app. cbn [forallb]. rewrite C. now rewrite andb_false_r.
Qed.

(* ------------------------------------------------------------ lines *)

(** texts and placeholders take turns *)
Fixpoint spaced (p : list part) : bool :=
  match p with
  | Lit _ :: ((Lit _ :: _)) => false
  | _ :: r => spaced r
  | [] => true
  end.
Lemma rename_line p : spaced p = true -> rename u l (line_text p) = line_text (map (rename_part u l) p).
Proof.
  unfold line_text. assert (G : forall n p, length p <= n -> spaced p = true -> rename u l (concat (map part_text p)) = concat (map part_text (map (rename_part u l) p))).
  { induction n as [|n IH]; intros q N S; [destruct q; [reflexivity|cbn in N; lia]|].
    destruct q as [|[s|h] q]; [reflexivity| |].
    - destruct q as [|[s'|h] q]; [cbn; now rewrite !app_nil_r|discriminate S|]. cbn [map concat part_text rename_part].
      rewrite rename_hole. rewrite (IH q); [reflexivity|cbn in N; lia|exact S].
    - cbn [map concat part_text rename_part]. change (hole_text h ++ concat (map part_text q)) with ([] ++ hole_text h ++ concat (map part_text q)).
      rewrite rename_hole. rewrite (IH q); [reflexivity|cbn in N; lia|destruct q; exact S]. }
  intros S. exact (G _ p (le_n _) S).
Qed.
Lemma rename_line_ok t p : line_ok t p -> line_ok t (map (rename_part u l) p).
Proof.
  revert t. induction p as [|[s|h] p IH]; intros t; cbn [map rename_part line_ok]; [auto| |].
  - intros (A & B). split; [now apply rename_no_percent|]. rewrite ident_rename. now apply IH.
  - intros (A & B). split; [exact A|]. now apply IH.
Qed.
Lemma rename_holes p : holes (map (rename_part u l) p) = holes p.
Proof. induction p as [|[s|h] p IH]; cbn; [reflexivity| |]; unfold holes in *; rewrite IH; reflexivity. Qed.

(* ------------------------------------------------------------ two percent signs *)

Fixpoint twice (s : str) : bool :=
  match s with
  | c :: ((d :: _) as r) => (Ascii.eqb c "%" && Ascii.eqb d "%") || twice r
  | _ => false
  end.
Lemma twice_occurs s : occurs $"%%" s -> twice s = true.
Proof.
  intros (a & b & ->). induction a as [|c a IH]; [reflexivity|]. change ((c :: a) ++ $"%%" ++ b) with (c :: (a ++ $"%%" ++ b)).
  remember (a ++ $"%%" ++ b) as x. destruct x; [destruct a; discriminate|]. cbn [twice] in *. now rewrite IH, orb_true_r.
Qed.
Fixpoint twice_cut (q : list (ascii * str)) : bool :=
  match q with
  | (c, w) :: (((d, _) :: _) as r) => (Ascii.eqb c "%" && match w with [] => true | _ => false end && Ascii.eqb d "%") || twice_cut r
  | _ => false
  end.
Lemma ident_percent c : is_ident c = true -> Ascii.eqb c "%" = false.
Proof. intros I. destruct (Ascii.eqb_spec c "%"); [subst; discriminate I|reflexivity]. Qed.
Lemma twice_word w r : ident_text w -> twice (w ++ r) = twice r.
Proof.
  induction w as [|c w IH]; intros I; [reflexivity|]. inversion I as [|? ? I1 I2]; subst. cbn [app]. rewrite <- (IH I2).
  cbn [twice]. destruct (w ++ r); [reflexivity|]. rewrite (ident_percent c I1). reflexivity.
Qed.
Lemma twice_text t : cut_ok t -> twice (cut_text t) = twice_cut (snd t).
Proof.
  destruct t as (w, q). intros (O1 & O2). unfold cut_text. cbn [fst snd] in *. rewrite twice_word by exact O1. clear O1 w.
  induction q as [|(c, w) q IH]; [reflexivity|]. inversion O2 as [|? ? (H1 & H2) H3]; subst. cbn [fst snd] in *. specialize (IH H3).
  cbn [map concat fst snd app]. destruct w as [|d w].
  - destruct q as [|(d, v) q]; [reflexivity|]. cbn [map concat fst snd app] in *. cbn [twice twice_cut]. rewrite andb_true_r. f_equal. exact IH.
  - inversion H2 as [|? ? D1 D2]; subst.
    assert (X : forall r, twice (c :: d :: r) = twice (d :: r)) by (intros r; cbn [twice]; now rewrite (ident_percent d D1), andb_false_r).
    cbn [app]. rewrite X. etransitivity; [exact (twice_word (d :: w) _ H2)|].
    rewrite IH. destruct q as [|(e, v) q]; [reflexivity|]. cbn [twice_cut]. now rewrite andb_false_r.
Qed.
Lemma rename_twice s : twice (rename u l s) = twice s.
Proof.
  unfold rename. rewrite twice_text by apply rename_ident_text. rewrite <- (words_text s) at 2. rewrite twice_text by apply words_ok.
  cbn [map_words snd]. induction (snd (words s)) as [|(c, w) q IH]; [reflexivity|]. cbn [map fst snd]. destruct q as [|(d, v) q]; [reflexivity|].
  cbn [map fst snd twice_cut] in *. rewrite IH. f_equal. f_equal. f_equal. destruct w as [|x w]; [reflexivity|].
  destruct (f (x :: w)) eqn:E; [apply (proj1 (f_empty _)) in E; discriminate E|reflexivity].
Qed.
Lemma hole_occurs_twice h s : occurs (hole_text h) s -> twice s = true.
Proof.
  intros (a & b & ->). apply twice_occurs. exists a, (hole_name h ++ $"%%" ++ b). unfold hole_text. now rewrite <- !app_assoc.
Qed.
End Rename.

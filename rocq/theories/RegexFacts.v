(** Correctness of the derivative matcher: [longest] finds the longest matching prefix. *)
From Coq Require Import Ascii String List Bool Arith Lia.
From Verif Require Import Str Regex.
Import ListNotations.

Lemma inv_emp s : ~ matches Emp s.
Proof. inversion 1. Qed.
Lemma inv_eps s : matches Eps s <-> s = [].
Proof. split; [now inversion 1|intros ->; constructor]. Qed.
Lemma inv_cls f s : matches (Cls f) s <-> exists c, s = [c] /\ f c = true.
Proof. split; [inversion 1; subst; eauto|intros (c & -> & H); now constructor]. Qed.
Lemma inv_cat a b s : matches (Cat a b) s <-> exists u v, s = u ++ v /\ matches a u /\ matches b v.
Proof. split; [inversion 1; subst; eauto|intros (u & v & -> & H1 & H2); now constructor]. Qed.
Lemma inv_alt a b s : matches (Alt a b) s <-> matches a s \/ matches b s.
Proof. split; [inversion 1; subst; auto|intros [H|H]; [now apply MAltL|now apply MAltR]]. Qed.

Lemma nullable_spec r : nullable r = true <-> matches r [].
Proof.
  induction r as [| |f|a IHa b IHb|a IHa b IHb|a IHa]; cbn [nullable].
  - split; [easy|]. intro H. now apply inv_emp in H.
  - split; [constructor|easy].
  - split; [easy|]. rewrite inv_cls. now intros (c & H & _).
  - rewrite andb_true_iff, inv_cat, IHa, IHb. split.
    + intros [H1 H2]. exists [], []. auto.
    + intros (u & v & H & H1 & H2). symmetry in H. apply app_eq_nil in H as [-> ->]. auto.
  - rewrite orb_true_iff, inv_alt, IHa, IHb. easy.
  - split; [constructor|easy].
Qed.

Lemma cat_spec a b s : matches (cat a b) s <-> matches (Cat a b) s.
Proof.
  destruct a, b; cbn [cat]; try easy; split; intro H; try (now apply inv_emp in H);
  try (apply inv_cat in H as (u & v & -> & H1 & H2); solve [now apply inv_emp in H1 | now apply inv_emp in H2
         | apply inv_eps in H1; subst; exact H2]);
  rewrite inv_cat; exists [], s; repeat split; auto; constructor.
Qed.
Lemma alt_spec a b s : matches (alt a b) s <-> matches (Alt a b) s.
Proof.
  rewrite inv_alt. destruct a, b; cbn [alt]; rewrite ?inv_alt; split; intro H; auto;
  try (destruct H as [H|H]; auto; now apply inv_emp in H).
Qed.

Lemma star_cons a c s : matches (Star a) (c :: s) <-> exists u v, s = u ++ v /\ matches a (c :: u) /\ matches (Star a) v.
Proof.
  split.
  - intro H. remember (Star a) as r eqn:Er. remember (c :: s) as w eqn:Ew. revert a s Er Ew.
    induction H as [| | | | | |a0 u v H1 IH1 H2 IH2]; intros a' s' Er Ew; try discriminate. injection Er as ->.
    destruct u as [|d u].
    + cbn in Ew. subst v. apply IH2; auto.
    + cbn in Ew. injection Ew as -> <-. exists u, v. auto.
  - intros (u & v & -> & H1 & H2). change (c :: u ++ v) with ((c :: u) ++ v). now constructor.
Qed.

Lemma deriv_spec c r : forall s, matches (deriv c r) s <-> matches r (c :: s).
Proof.
  induction r as [| |f|a IHa b IHb|a IHa b IHb|a IHa]; intro s; cbn [deriv].
  - split; intro H; now apply inv_emp in H.
  - split; intro H; [now apply inv_emp in H|]. now apply inv_eps in H.
  - rewrite inv_cls. destruct (f c) eqn:E.
    + rewrite inv_eps. split; [intros ->; eauto|]. intros (d & H & _). now injection H as <- ->.
    + split; intro H; [now apply inv_emp in H|]. destruct H as (d & H & Hf). injection H as <- ->. congruence.
  - assert (H1 : matches (cat (deriv c a) b) s <-> exists u v, c :: s = (c :: u) ++ v /\ matches a (c :: u) /\ matches b v).
    { rewrite cat_spec, inv_cat. split; intros (u & v & H & Hu & Hv); exists u, v.
      - subst s. rewrite <- IHa. auto.
      - cbn in H. injection H as ->. rewrite IHa. auto. }
    assert (H2 : matches (Cat a b) (c :: s) <-> matches (cat (deriv c a) b) s \/ (nullable a = true /\ matches b (c :: s))).
    { rewrite H1, inv_cat, nullable_spec. split.
      - intros (u & v & H & Hu & Hv). destruct u as [|d u].
        + cbn in H. subst v. auto.
        + cbn in H. injection H as <- ->. left. exists u, v. auto.
      - intros [(u & v & H & Hu & Hv)|[Ha Hb]].
        + exists (c :: u), v. auto.
        + exists [], (c :: s). auto. }
    rewrite H2. destruct (nullable a).
    + rewrite alt_spec, inv_alt, IHb. intuition.
    + intuition easy.
  - rewrite alt_spec, !inv_alt, IHa, IHb. easy.
  - rewrite cat_spec, inv_cat, star_cons. split; intros (u & v & -> & H1 & H2); exists u, v; rewrite ?IHa in *; auto.
Qed.

(** [longest r s = Some n]: the prefix of length [n] matches and no longer prefix does;
    [None]: no prefix matches *)
Lemma longest_spec s : forall r,
  match longest r s with
  | Some n => n <= length s /\ matches r (firstn n s) /\ forall m, n < m <= length s -> ~ matches r (firstn m s)
  | None => forall m, m <= length s -> ~ matches r (firstn m s)
  end.
Proof.
  assert (Hemp : forall (s : str) m, ~ matches Emp (firstn m s)) by (intros; apply inv_emp).
  induction s as [|c s IH]; intro r.
  - assert (E : longest r [] = if nullable r then Some 0 else None) by (destruct r; reflexivity).
    rewrite E. destruct (nullable r) eqn:En.
    + repeat split; [easy|now apply nullable_spec|]. cbn. intros; lia.
    + intros m Hm. cbn in Hm. replace m with 0 by lia. cbn. intro H. apply nullable_spec in H. congruence.
  - assert (E : longest r (c :: s) =
        match longest (deriv c r) s with Some n => Some (S n) | None => if nullable r then Some 0 else None end).
    { destruct r; try reflexivity. cbn. destruct s; reflexivity. }
    rewrite E. specialize (IH (deriv c r)). destruct (longest (deriv c r) s) as [n|].
    + destruct IH as (H1 & H2 & H3). cbn [length firstn]. split; [lia|]. split; [now apply deriv_spec|].
      intros m Hm. destruct m as [|m]; [lia|]. cbn [firstn]. rewrite <- deriv_spec. apply H3. lia.
    + destruct (nullable r) eqn:En.
      * split; [lia|]. split; [now apply nullable_spec|]. intros m Hm. destruct m as [|m]; [lia|]. cbn [firstn length] in *.
        rewrite <- deriv_spec. apply IH. lia.
      * intros m Hm. destruct m as [|m]; cbn [firstn length] in *.
        -- intro H. apply nullable_spec in H. congruence.
        -- rewrite <- deriv_spec. apply IH. lia.
Qed.

Lemma longest_le r s n : longest r s = Some n -> n <= length s.
Proof. intro H. pose proof (longest_spec s r) as X. rewrite H in X. tauto. Qed.
Lemma longest_matches r s n : longest r s = Some n -> matches r (firstn n s).
Proof. intro H. pose proof (longest_spec s r) as X. rewrite H in X. tauto. Qed.
Lemma longest_ge r s m : m <= length s -> matches r (firstn m s) -> exists n, longest r s = Some n /\ m <= n.
Proof.
  intros Hm H. pose proof (longest_spec s r) as X. destruct (longest r s) as [n|].
  - exists n. split; [easy|]. destruct (le_lt_dec m n); [easy|]. exfalso. apply (proj2 (proj2 X) m); auto.
  - exfalso. now apply (X m).
Qed.
(** a matching prefix that no longer prefix beats *)
Lemma longest_exact r u v : matches r u -> (forall w x, v = w ++ x -> w <> [] -> ~ matches r (u ++ w)) ->
  longest r (u ++ v) = Some (length u).
Proof.
  intros H1 H2.
  destruct (longest_ge r (u ++ v) (length u)) as (n & Hn & Hle).
  - rewrite app_length. lia.
  - rewrite firstn_app, Nat.sub_diag, firstn_all, firstn_O, app_nil_r. exact H1.
  - rewrite Hn. f_equal. destruct (le_lt_dec n (length u)); [lia|]. exfalso.
    pose proof (longest_le _ _ _ Hn) as Hl. pose proof (longest_matches _ _ _ Hn) as Hm.
    rewrite app_length in Hl. rewrite firstn_app, firstn_all2 in Hm by lia.
    apply (H2 (firstn (n - length u) v) (skipn (n - length u) v)); auto.
    + now rewrite firstn_skipn.
    + intro E. apply (f_equal (@length ascii)) in E. rewrite firstn_length in E. cbn in E. lia.
Qed.
Lemma longest_none r s : (forall u v, s = u ++ v -> ~ matches r u) -> longest r s = None.
Proof.
  intro H. pose proof (longest_spec s r) as X. destruct (longest r s) as [n|]; [|easy].
  exfalso. destruct X as (X1 & X2 & _). apply (H (firstn n s) (skipn n s)); [now rewrite firstn_skipn|easy].
Qed.

(* ---------------------------------------------------------------- the abbreviations *)

Lemma chr_spec c s : matches (chr c) s <-> s = [c].
Proof.
  unfold chr. rewrite inv_cls. split.
  - intros (d & -> & H). apply Ascii.eqb_eq in H. now subst.
  - intros ->. exists c. split; [easy|]. apply Ascii.eqb_refl.
Qed.
Lemma word_spec w : forall s, matches (word w) s <-> s = w.
Proof.
  induction w as [|c w IH]; intro s; cbn [word].
  - apply inv_eps.
  - rewrite inv_cat. split.
    + intros (u & v & -> & Hu & Hv). apply chr_spec in Hu. apply IH in Hv. now subst.
    + intros ->. exists [c], w. rewrite chr_spec, IH. auto.
Qed.
Lemma opt_spec a s : matches (opt a) s <-> matches a s \/ s = [].
Proof. unfold opt. rewrite inv_alt, inv_eps. easy. Qed.
Lemma any_spec s : matches any s <-> exists c, s = [c] /\ c <> nl.
Proof.
  unfold any. rewrite inv_cls. split; intros (c & -> & H); exists c; (split; [easy|]).
  - intros ->. rewrite Ascii.eqb_refl in H. easy.
  - destruct (Ascii.eqb_spec c nl); easy.
Qed.
Lemma star_cls f s : matches (Star (Cls f)) s <-> Forall (fun c => f c = true) s.
Proof.
  induction s as [|c s IH].
  - split; constructor.
  - rewrite star_cons. split.
    + intros (u & v & -> & H1 & H2). apply inv_cls in H1 as (d & H & Hd). injection H as <- ->.
      constructor; [easy|]. now apply IH.
    + intro H. inversion H; subst. exists [], s. split; [easy|]. split; [now constructor|]. now apply IH.
Qed.
Lemma plus_cls f s : matches (plus (Cls f)) s <-> s <> [] /\ Forall (fun c => f c = true) s.
Proof.
  unfold plus. rewrite inv_cat. split.
  - intros (u & v & -> & H1 & H2). apply inv_cls in H1 as (d & -> & Hd). apply star_cls in H2. cbn. split; [easy|].
    now constructor.
  - intros [Hn H]. destruct s as [|c s]; [easy|]. inversion H; subst. exists [c], s. rewrite star_cls.
    repeat split; auto. now constructor.
Qed.

(** first byte *)
Lemma longest_cons_emp r c s : deriv c r = Emp -> longest r (c :: s) = if nullable r then Some 0 else None.
Proof.
  intro H. assert (E : longest r (c :: s) =
        match longest (deriv c r) s with Some n => Some (S n) | None => if nullable r then Some 0 else None end).
  { destruct r; try reflexivity. cbn. destruct s; reflexivity. }
  rewrite E, H. destruct s; reflexivity.
Qed.

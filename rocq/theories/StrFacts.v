(** Facts about the string layer (Str.v). *)
From Coq Require Import Ascii String List Bool Arith NArith ZArith Lia Sorting.Permutation.
From Coq Require Import ZifyBool ZifyNat ZifyN.
From Verif Require Import Str.
Import ListNotations.

Lemma str_eqb_eq a b : str_eqb a b = true <-> a = b.
Proof.
  revert b; induction a as [|x a IH]; intros [|y b]; cbn; split; intro H; try easy.
  - apply andb_prop in H as [H1 H2]. apply Ascii.eqb_eq in H1. apply IH in H2. congruence.
  - inversion H; subst. rewrite Ascii.eqb_refl. now apply IH.
Qed.
Lemma str_eqb_refl a : str_eqb a a = true.
Proof. now apply str_eqb_eq. Qed.
Lemma str_eqb_neq a b : str_eqb a b = false <-> a <> b.
Proof.
  split; intro H.
  - intro E. apply str_eqb_eq in E. congruence.
  - destruct (str_eqb a b) eqn:E; [|easy]. apply str_eqb_eq in E. easy.
Qed.
Lemma str_eqb_sym a b : str_eqb a b = str_eqb b a.
Proof.
  destruct (str_eqb a b) eqn:E, (str_eqb b a) eqn:F; try easy.
  - apply str_eqb_eq in E. subst. now rewrite str_eqb_refl in F.
  - apply str_eqb_eq in F. subst. now rewrite str_eqb_refl in E.
Qed.
Lemma str_eq_dec (a b : str) : {a = b} + {a <> b}.
Proof. apply list_eq_dec. apply ascii_dec. Qed.

Lemma existsb_str_In x l : existsb (str_eqb x) l = true <-> In x l.
Proof.
  rewrite existsb_exists. split.
  - intros (y & H & E). apply str_eqb_eq in E. now subst.
  - intro H. exists x. split; [easy|]. apply str_eqb_refl.
Qed.
Lemma existsb_str_notIn x l : existsb (str_eqb x) l = false <-> ~ In x l.
Proof. rewrite <- existsb_str_In. destruct (existsb (str_eqb x) l); split; congruence. Qed.

Lemma starts_with_spec p s : starts_with p s = true <-> exists r, s = p ++ r.
Proof.
  revert s; induction p as [|x p IH]; intros s; cbn.
  - split; [eauto|easy].
  - destruct s as [|y s]; [split; [easy|intros [r H]; easy]|].
    rewrite andb_true_iff, Ascii.eqb_eq, IH. split.
    + intros [E [r R]]. exists r. subst. easy.
    + intros [r R]. inversion R; subst. split; [easy|eauto].
Qed.
Lemma starts_with_app p s : starts_with p (p ++ s) = true.
Proof. apply starts_with_spec. eauto. Qed.
Lemma starts_with_length p s : starts_with p s = true -> length p <= length s.
Proof. rewrite starts_with_spec. intros [r ->]. rewrite app_length. lia. Qed.

Lemma ends_with_spec p s : ends_with p s = true <-> exists r, s = r ++ p.
Proof.
  unfold ends_with. rewrite starts_with_spec. split; intros [r H].
  - exists (rev r). rewrite <- (rev_involutive s), H, rev_app_distr, rev_involutive. easy.
  - exists (rev r). subst. now rewrite rev_app_distr.
Qed.
Lemma ends_with_app p s : ends_with p (s ++ p) = true.
Proof. apply ends_with_spec. eauto. Qed.

Lemma delete_suffix_app s suf : delete_suffix (s ++ suf) suf = s.
Proof.
  unfold delete_suffix. rewrite ends_with_app, app_length.
  replace (length s + length suf - length suf) with (length s) by lia.
  rewrite firstn_app, Nat.sub_diag, firstn_all. apply app_nil_r.
Qed.

(* ---------------------------------------------------------------- find *)

Lemma find_nil_l s : find [] s = Some 0.
Proof. now destruct s. Qed.
Lemma find_spec n s :
  match find n s with
  | Some k => (exists a b, s = a ++ n ++ b /\ length a = k) /\
              (forall a b, s = a ++ n ++ b -> k <= length a)
  | None => forall a b, s <> a ++ n ++ b
  end.
Proof.
  induction s as [|c s IH]; cbn [find].
  - destruct (starts_with n []) eqn:E.
    + apply starts_with_spec in E as [r R]. split.
      * exists [], r. easy.
      * intros. lia.
    + intros a b H. destruct a; cbn in H; [|easy].
      assert (starts_with n [] = true) by (apply starts_with_spec; eauto). congruence.
  - destruct (starts_with n (c :: s)) eqn:E.
    + apply starts_with_spec in E as [r R]. split; [exists [], r; easy|lia].
    + destruct (find n s) as [k|] eqn:F.
      * destruct IH as [(a & b & Ha & Hl) Hmin]. split.
        -- exists (c :: a), b. cbn. subst. now split.
        -- intros a' b' H. destruct a' as [|x a']; cbn in H.
           ++ assert (starts_with n (c :: s) = true) by (apply starts_with_spec; eauto). congruence.
           ++ injection H as Hx Hs. apply Hmin in Hs. cbn. lia.
      * intros a b H. destruct a as [|x a]; cbn in H.
        -- assert (starts_with n (c :: s) = true) by (apply starts_with_spec; eauto). congruence.
        -- inversion H. eapply IH; eauto.
Qed.
Lemma find_None n s : find n s = None <-> forall a b, s <> a ++ n ++ b.
Proof.
  pose proof (find_spec n s) as H. split; intro E.
  - rewrite E in H. exact H.
  - destruct (find n s); [|easy]. destruct H as [(a & b & H & _) _]. now apply E in H.
Qed.
Lemma find_Some_lt n s k : find n s = Some k -> k + length n <= length s.
Proof.
  intro H. pose proof (find_spec n s) as S. rewrite H in S.
  destruct S as [(a & b & -> & <-) _]. rewrite !app_length. lia.
Qed.

(* ---------------------------------------------------------------- list helpers *)

Lemma firstn_app_exact {A} (a b : list A) : firstn (length a) (a ++ b) = a.
Proof. rewrite firstn_app, Nat.sub_diag, firstn_all. apply app_nil_r. Qed.
Lemma skipn_app_exact {A} (a b : list A) : skipn (length a) (a ++ b) = b.
Proof. rewrite skipn_app, Nat.sub_diag, skipn_all. easy. Qed.

Lemma drop_while_spec {A} f (l : list A) :
  exists a, l = a ++ drop_while f l /\ Forall (fun x => f x = true) a /\
            match drop_while f l with [] => True | x :: _ => f x = false end.
Proof.
  induction l as [|x l IH]; cbn.
  - exists []. easy.
  - destruct (f x) eqn:E.
    + destruct IH as (a & H1 & H2 & H3). exists (x :: a). cbn. rewrite <- H1. auto.
    + exists []. cbn. auto.
Qed.
Lemma drop_while_all {A} f (l : list A) : Forall (fun x => f x = true) l -> drop_while f l = [].
Proof. induction 1; cbn; [easy|]. now rewrite H. Qed.
Lemma drop_while_app {A} f (a b : list A) :
  Forall (fun x => f x = true) a -> drop_while f (a ++ b) = drop_while f b.
Proof. induction 1; cbn; [easy|]. now rewrite H. Qed.
Lemma drop_while_head {A} f (x : A) l : f x = false -> drop_while f (x :: l) = x :: l.
Proof. cbn. now intros ->. Qed.

Lemma bind_Ok {A B} (r : res A) (f : A -> res B) b : bind r f = Ok b -> exists a, r = Ok a /\ f a = Ok b.
Proof. destruct r; cbn; try easy. eauto. Qed.

Lemma mapR_Ok {A B} (f : A -> res B) l l' :
  mapR f l = Ok l' -> Forall2 (fun a b => f a = Ok b) l l'.
Proof.
  revert l'; induction l as [|a l IH]; cbn; intros l' H.
  - inversion H. constructor.
  - apply bind_Ok in H as (b & Hb & H). apply bind_Ok in H as (bs & Hbs & H). inversion H; subst.
    constructor; auto.
Qed.
Lemma mapR_Ok_intro {A B} (f : A -> res B) l l' :
  Forall2 (fun a b => f a = Ok b) l l' -> mapR f l = Ok l'.
Proof. induction 1; cbn; [easy|]. rewrite H. cbn. rewrite IHForall2. easy. Qed.
Lemma Forall2_length {A B} (R : A -> B -> Prop) l l' : Forall2 R l l' -> length l = length l'.
Proof. induction 1; cbn; congruence. Qed.

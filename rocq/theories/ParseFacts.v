(** Facts about pattern matching and prototype parsing (CheckPattern.v, Parse.v). *)
From Coq Require Import Ascii String List Bool Arith NArith ZArith Lia.
From Coq Require Import ZifyBool ZifyNat ZifyN.
From Verif Require Import Str StrFacts CheckPattern Parse SpecParse.
Import ListNotations.
Local Open Scope Z_scope.

(* ---------------------------------------------------------------- deref / slice *)

Lemma deref_in v i : 0 <= i < vsize v -> deref v i = Ok (nth (Z.to_nat i) v []).
Proof. intro H. unfold deref. replace ((0 <=? i) && (i <? vsize v)) with true by lia. easy. Qed.

Lemma vsize_app a b : vsize (a ++ b) = vsize a + vsize b.
Proof. unfold vsize. rewrite app_length. lia. Qed.
Lemma vsize_cons x b : vsize (x :: b) = 1 + vsize b.
Proof. unfold vsize. cbn [length]. lia. Qed.
Lemma vsize_nil : vsize [] = 0.
Proof. easy. Qed.
Lemma vsize_nonneg a : 0 <= vsize a.
Proof. unfold vsize. lia. Qed.

Lemma deref_mid a x b i : i = vsize a -> deref (a ++ x :: b) i = Ok x.
Proof.
  intros ->. rewrite deref_in.
  - unfold vsize. rewrite Nat2Z.id, app_nth2, Nat.sub_diag by lia. easy.
  - rewrite vsize_app, vsize_cons. pose proof (vsize_nonneg a). pose proof (vsize_nonneg b). lia.
Qed.

Lemma slice_mid a m b i j : i = vsize a -> j = vsize a + vsize m -> slice (a ++ m ++ b) i j = Ok m.
Proof.
  intros -> ->. unfold slice. rewrite !vsize_app.
  pose proof (vsize_nonneg a). pose proof (vsize_nonneg b). pose proof (vsize_nonneg m).
  replace ((0 <=? vsize a) && (vsize a <=? vsize a + vsize m) &&
           (vsize a + vsize m <=? vsize a + (vsize m + vsize b))) with true by lia.
  f_equal. replace (vsize a + vsize m - vsize a) with (vsize m) by lia.
  unfold vsize. rewrite !Nat2Z.id, skipn_app_exact. apply firstn_app_exact.
Qed.
Lemma slice_front m b j : j = vsize m -> slice (m ++ b) 0 j = Ok m.
Proof. intros ->. apply (slice_mid [] m b); easy. Qed.
Lemma slice_back a m i j : i = vsize a -> j = vsize a + vsize m -> slice (a ++ m) i j = Ok m.
Proof. intros Hi Hj. rewrite <- (app_nil_r m) at 1. apply slice_mid; easy. Qed.

(* ---------------------------------------------------------------- the iterator *)

Definition tyish (s : str) : bool := Ascii.eqb (str_front s) "*" || is_ident (str_front s).

Lemma first_not_split v :
  exists a b, v = a ++ b /\ find_first_not_pointer_or_ident v = vsize a /\
    Forall (fun s => tyish s = true) a /\
    match b with [] => True | x :: _ => tyish x = false end.
Proof.
  unfold find_first_not_pointer_or_ident.
  induction v as [|s v IH]; cbn.
  - exists [], []. easy.
  - destruct (negb (Ascii.eqb (str_front s) "*") && negb (is_ident (str_front s))) eqn:E.
    + exists [], (s :: v). repeat split; [constructor|]. unfold tyish.
      rewrite <- negb_orb in E. now apply negb_true_iff in E.
    + destruct IH as (a & b & H1 & H2 & H3 & H4). exists (s :: a), b. rewrite H1. repeat split; auto.
      * rewrite vsize_cons. subst. lia.
      * constructor; auto. unfold tyish. rewrite <- negb_orb in E. now apply negb_false_iff in E.
Qed.

Lemma find_first_app a b :
  Forall (fun s => tyish s = true) a ->
  match b with [] => True | x :: _ => tyish x = false end ->
  find_first_not_pointer_or_ident (a ++ b) = vsize a.
Proof.
  intros Ha Hb. unfold find_first_not_pointer_or_ident, vsize. f_equal.
  induction Ha as [|s a Hs Ha IH]; cbn.
  - destruct b as [|x b]; [easy|]. cbn. unfold tyish in Hb. apply orb_false_iff in Hb as [-> ->]. easy.
  - unfold tyish in Hs. rewrite <- negb_orb, Hs. cbn. now rewrite IH.
Qed.

(* ---------------------------------------------------------------- patterns *)

Definition fits (p : pat) (s : str) : Prop := matching (str_front s) p = true.

Lemma match_middle_spec M : forall a b, (length M <= length b)%nat ->
  exists r, match_middle (a ++ b) (vsize a) M = Ok r /\
    (r = true <-> exists m b', b = m ++ b' /\ Forall2 fits M m).
Proof.
  induction M as [|p M IH]; intros a b Hl.
  - exists true. split; [easy|]. split; [|easy]. intros _. exists [], b. split; [easy|constructor].
  - destruct b as [|x b]; [cbn in Hl; lia|].
    cbn [match_middle]. rewrite deref_mid by easy. cbn [bind].
    destruct (matching (str_front x) p) eqn:E.
    + specialize (IH (a ++ [x]) b). rewrite <- app_assoc in IH. cbn [app] in IH.
      rewrite vsize_app, vsize_cons, vsize_nil, Z.add_0_r in IH.
      destruct IH as (r & Hr & Hiff); [cbn in Hl; lia|].
      exists r. split; [exact Hr|]. rewrite Hiff. split.
      * intros (m & b' & -> & HF). exists (x :: m), b'. split; [easy|]. constructor; auto.
      * intros (m & b' & Hm & HF). destruct m as [|y m]; inversion HF; subst.
        injection Hm as -> ->. eauto.
    + exists false. split; [easy|]. split; [easy|]. intros (m & b' & Hm & HF).
      destruct m as [|y m]; inversion HF; subst. injection Hm as -> ->.
      match goal with H : fits _ _ |- _ => unfold fits in H end. congruence.
Qed.

Lemma last_split {A} (l : list A) : l <> [] -> exists l' x, l = l' ++ [x].
Proof. intro H. destruct (exists_last H) as (l' & x & ->). eauto. Qed.

Definition good_end (q : seq) : Prop :=
  (exists e, sq_end q = [e]) \/ (exists e0 e1, sq_end q = [e0; e1]).
Definition good_front (q : seq) : Prop := sq_front q = [PType] \/ sq_front q = [PType; PSymbol].

(** what precedes the iterator *)
Definition front_fits (q : seq) (a : list str) : Prop :=
  if front_has_symbol q then exists a' s, a = a' ++ [s] /\ a' <> [] /\ is_ident (str_front s) = true
  else a <> [].

Lemma front_len q a : good_front q -> front_fits q a -> dist_front q <= vsize a.
Proof.
  intros [H|H]; unfold front_fits, front_has_symbol, dist_front, vsize; rewrite H; cbn.
  - intro Ha. destruct a; [easy|cbn; lia].
  - intros (a' & s & -> & Ha & _). destruct a'; [easy|]. rewrite app_length. cbn [length]. lia.
Qed.

Lemma snoc_inv {A} (a b : list A) x y : a ++ [x] = b ++ [y] -> a = b /\ x = y.
Proof. apply app_inj_tail. Qed.

(** Matching when the iterator is not at the end: always defined, and true exactly for the shape. *)
Lemma check_pattern_spec q a b :
  good_front q -> good_end q -> b <> [] ->
  exists r, check_pattern (a ++ b) (vsize a) q = Ok r /\
    (r = true <-> front_fits q a /\
       exists m c e, b = m ++ c ++ e /\ Forall2 fits (sq_middle q) m /\ Forall2 fits (sq_end q) e).
Proof.
  intros GF GE Hb. unfold check_pattern.
  assert (Hbl : 0 < vsize b) by (destruct b; [easy|rewrite vsize_cons; pose proof (vsize_nonneg b); lia]).
  pose proof (vsize_nonneg a) as Hal.
  assert (Hlen : forall m c e, b = m ++ c ++ e -> Forall2 fits (sq_middle q) m -> Forall2 fits (sq_end q) e ->
                 dist_end q <= vsize b).
  { intros m c e -> H1 H2. apply Forall2_length in H1, H2. rewrite !vsize_app. unfold dist_end.
    pose proof (vsize_nonneg c). unfold vsize. lia. }
  rewrite vsize_app.
  destruct (vsize a + vsize b <? min_size q) eqn:E1.
  { exists false. split; [easy|]. split; [easy|]. intros (HF & m & c & e & H1 & H2 & H3).
    specialize (Hlen _ _ _ H1 H2 H3). apply (front_len q a GF) in HF.
    unfold min_size in E1. unfold dist_front in HF. unfold dist_end in Hlen. lia. }
  replace (negb (vsize a =? vsize a + vsize b)) with true by lia. cbn [andb].
  replace (vsize a + vsize b - vsize a) with (vsize b) by lia.
  destruct ((vsize a <? dist_front q) || (vsize b <? dist_end q)) eqn:E2.
  { exists false. split; [easy|]. split; [easy|]. intros (HF & m & c & e & H1 & H2 & H3).
    specialize (Hlen _ _ _ H1 H2 H3). apply (front_len q a GF) in HF. lia. }
  apply orb_false_iff in E2 as [E2 E3].
  assert (HFd : exists r, (if front_has_symbol q then s <- deref (a ++ b) (vsize a - 1) ;; Ok (is_ident (str_front s))
                           else Ok true) = Ok r /\ (r = true <-> front_fits q a)).
  { unfold front_fits. destruct (front_has_symbol q) eqn:ES.
    - assert (2 <= vsize a).
      { destruct GF as [G|G]; unfold front_has_symbol in ES; rewrite G in ES; cbn in ES; [easy|].
        unfold dist_front in E2. rewrite G in E2. cbn in E2. lia. }
      destruct (last_split a) as (a' & s & ->); [intro Z0; subst; cbn in *; lia|].
      rewrite <- app_assoc. cbn [app].
      rewrite deref_mid by (rewrite vsize_app, vsize_cons, vsize_nil; lia). cbn [bind].
      exists (is_ident (str_front s)). split; [easy|]. split.
      + intro Hi. exists a', s. repeat split; auto. intro Z0; subst. cbn in *. lia.
      + intros (a2 & s2 & Heq & _ & Hi). apply snoc_inv in Heq as [-> ->]. easy.
    - exists true. split; [easy|]. split; [|easy]. intros _ Z0. subst.
      destruct GF as [G|G]; unfold dist_front in E2; rewrite G in E2; cbn in E2; lia. }
  destruct HFd as (rf & -> & Hrf). cbn [bind].
  destruct rf; cbn [negb].
  2:{ exists false. split; [easy|]. split; [easy|]. intros (HF & _). apply Hrf in HF. easy. }
  destruct Hrf as [Hrf _]. specialize (Hrf eq_refl).
  (* end *)
  assert (HEd : exists r,
     match sq_end q with
     | [e] => s <- deref (a ++ b) (vsize a + vsize b - 1) ;; Ok (matching (str_front s) e)
     | [e0; e1] => s1 <- deref (a ++ b) (vsize a + vsize b - 1) ;;
         (if matching (str_front s1) e1
          then s0 <- deref (a ++ b) (vsize a + vsize b - 2) ;; Ok (matching (str_front s0) e0) else Ok false)
     | _ => Ok false end = Ok r /\
     (r = true <-> exists b' e, b = b' ++ e /\ Forall2 fits (sq_end q) e)).
  { destruct GE as [(e & G)|(e0 & e1 & G)]; rewrite G.
    - destruct (last_split b Hb) as (b' & s & ->). rewrite app_assoc, deref_mid.
      2:{ rewrite !vsize_app, vsize_cons, vsize_nil. lia. }
      cbn [bind]. eexists. split; [reflexivity|]. split.
      + intro Hm. exists b', [s]. split; [easy|]. repeat constructor. exact Hm.
      + intros (b2 & e2 & Heq & HF). inversion HF as [|? y ? ? Hy HF']; subst. inversion HF'; subst.
        apply snoc_inv in Heq as [-> ->]. exact Hy.
    - assert (2 <= vsize b) by (unfold dist_end in E3; rewrite G in E3; cbn [length] in E3; lia).
      destruct (last_split b Hb) as (b1 & s1 & ->).
      destruct (last_split b1) as (b0 & s0 & ->); [intro Z0; subst; cbn in *; lia|].
      rewrite app_assoc, deref_mid.
      2:{ rewrite !vsize_app, !vsize_cons, vsize_nil. lia. }
      cbn [bind]. destruct (matching (str_front s1) e1) eqn:M1.
      + rewrite app_assoc, <- app_assoc. cbn [app]. rewrite deref_mid.
        2:{ rewrite !vsize_app, !vsize_cons, vsize_nil. lia. }
        cbn [bind]. eexists. split; [reflexivity|]. split.
        * intro Hm. exists b0, [s0; s1]. rewrite <- app_assoc. split; [easy|]. repeat constructor; auto.
        * intros (b2 & e2 & Heq & HF). inversion HF as [|? y ? ? Hy HF']; subst.
          inversion HF' as [|? z ? ? Hz HF'']; subst. inversion HF''; subst.
          change [y; z] with ([y] ++ [z]) in Heq. rewrite app_assoc in Heq.
          apply snoc_inv in Heq as [Heq ->]. apply snoc_inv in Heq as [_ ->]. exact Hy.
      + exists false. split; [easy|]. split; [easy|].
        intros (b2 & e2 & Heq & HF). inversion HF as [|? y ? ? Hy HF']; subst.
        inversion HF' as [|? z ? ? Hz HF'']; subst. inversion HF''; subst.
        change [y; z] with ([y] ++ [z]) in Heq. rewrite app_assoc in Heq.
        apply snoc_inv in Heq as [_ ->]. unfold fits in Hz. congruence. }
  destruct HEd as (re & -> & Hre). cbn [bind].
  destruct re; cbn [negb].
  2:{ exists false. split; [easy|]. split; [easy|]. intros (_ & m & c & e & H1 & H2 & H3).
      apply Hre. exists (m ++ c), e. rewrite <- app_assoc. easy. }
  destruct Hre as [Hre _]. specialize (Hre eq_refl). destruct Hre as (b' & e & Hbe & HFe).
  assert (HM : (length (sq_middle q) <= length b)%nat) by (unfold dist_end, vsize in *; lia).
  destruct (match_middle_spec (sq_middle q) a b HM) as (r & Hr & Hiff).
  exists r. split; [exact Hr|]. rewrite Hiff. split.
  - intros (m & b2 & Hb2 & HFm). split; [exact Hrf|].
    assert (Hle : (length m <= length b')%nat).
    { apply Forall2_length in HFm, HFe. assert (length b = length (b' ++ e)) by congruence.
      rewrite app_length in H. unfold dist_end, vsize in E3. lia. }
    assert (Hb' : b' = m ++ skipn (length m) b').
    { rewrite <- (firstn_skipn (length m) b') at 1. f_equal.
      rewrite Hb2 in Hbe.
      assert (firstn (length m) (m ++ b2) = firstn (length m) (b' ++ e)) by congruence.
      rewrite firstn_app_exact, firstn_app in H.
      replace (length m - length b')%nat with 0%nat in H by lia. cbn in H. now rewrite app_nil_r in H. }
    exists m, (skipn (length m) b'), e. rewrite app_assoc, <- Hb'. easy.
  - intros (_ & m & c & e' & -> & HFm & _). exists m, (c ++ e'). easy.
Qed.

(** Matching when the iterator is at the end. *)
Lemma check_pattern_end_false q a :
  good_front q -> good_end q -> (exists c, last (sq_end q) PType = PChar c /\ c <> "*"%char /\ is_ident c = false) ->
  Forall (fun s => tyish s = true) a ->
  check_pattern a (vsize a) q = Ok false.
Proof.
  intros GF GE (c & Hc & Hstar & Hid) Ha. unfold check_pattern.
  destruct (vsize a <? min_size q) eqn:E1; [easy|].
  rewrite Z.eqb_refl. cbn [negb andb].
  assert (Hpos : 2 <= vsize a).
  { unfold min_size in E1. destruct GF as [G|G]; rewrite G in E1; destruct GE as [(e & G2)|(e0 & e1 & G2)];
      rewrite G2 in E1; cbn [length] in E1; lia. }
  destruct (last_split a) as (a' & s & ->); [intro Z0; subst; cbn in *; lia|].
  assert (Hs : matching (str_front s) (PChar c) = false).
  { apply Forall_app in Ha as [_ Ha]. inversion Ha as [|? ? Hs _]; subst. cbn.
    destruct (Ascii.eqb (str_front s) c) eqn:E; [|easy]. apply Ascii.eqb_eq in E. unfold tyish in Hs. rewrite E in Hs.
    apply orb_true_iff in Hs as [Hs|Hs]; [apply Ascii.eqb_eq in Hs; easy|congruence]. }
  assert (HFd : exists r, (if front_has_symbol q then x <- deref (a' ++ [s]) (vsize (a' ++ [s]) - 1) ;; Ok (is_ident (str_front x))
                           else Ok true) = Ok r).
  { destruct (front_has_symbol q); [|eauto]. rewrite deref_mid; [cbn; eauto|].
    rewrite vsize_app, vsize_cons, vsize_nil. lia. }
  destruct HFd as (r & ->). cbn [bind]. destruct r; cbn [negb]; [|easy].
  destruct GE as [(e & G)|(e0 & e1 & G)]; rewrite G in Hc |- *; cbn in Hc; subst.
  - rewrite deref_mid by (rewrite vsize_app, vsize_cons, vsize_nil; lia). cbn [bind]. rewrite Hs. easy.
  - rewrite deref_mid by (rewrite vsize_app, vsize_cons, vsize_nil; lia). cbn [bind]. rewrite Hs. easy.
Qed.

Lemma is_object_end a :
  exists r, is_object a (vsize a) = Ok r /\
    (r = true <-> exists a' s, a = a' ++ [s] /\ a' <> [] /\ is_ident (str_front s) = true).
Proof.
  unfold is_object, check_pattern. cbn [q_object sq_front sq_middle sq_end front_has_symbol nth_error].
  change (min_size q_object) with 2.
  destruct (vsize a <? 2) eqn:E1.
  { exists false. split; [easy|]. split; [easy|]. intros (a' & s & -> & Hn & _).
    rewrite vsize_app, vsize_cons, vsize_nil in E1. destruct a'; [easy|]. rewrite vsize_cons in E1.
    pose proof (vsize_nonneg a'). lia. }
  rewrite Z.eqb_refl. cbn [negb andb]. change (front_has_symbol q_object) with false.
  cbn [bind negb].
  destruct (last_split a) as (a' & s & ->); [intro Z0; subst; cbn in *; lia|].
  rewrite deref_mid by (rewrite vsize_app, vsize_cons, vsize_nil; lia). cbn [bind matching].
  exists (is_ident (str_front s)). split.
  - destruct (is_ident (str_front s)); easy.
  - split.
    + intro H. exists a', s. repeat split; auto. intro Z0; subst. cbn in *. lia.
    + intros (a2 & s2 & Heq & _ & H). apply snoc_inv in Heq as [-> ->]. easy.
Qed.

(* ---------------------------------------------------------------- the check_* functions *)

Ltac inv_fits :=
  repeat match goal with
  | H : Forall2 fits (_ :: _) _ |- _ => inversion H; clear H; subst
  | H : Forall2 fits [] _ |- _ => inversion H; clear H; subst
  end.
Ltac szs := repeat first [rewrite vsize_app | rewrite vsize_cons | rewrite vsize_nil]; try lia.
Ltac fin := repeat split; auto; repeat (apply Forall2_cons || apply Forall2_nil); auto.
Ltac gf := first [left; reflexivity | right; reflexivity].
Ltac ge := first [left; eexists; reflexivity | right; do 2 eexists; reflexivity].

Lemma check_function_spec a b : b <> [] ->
  exists r, check_function (a ++ b) (vsize a) = Ok r /\
    forall p, r = Some p <->
      exists a' s l c e, a = a' ++ [s] /\ a' <> [] /\ is_ident (str_front s) = true /\
        b = [l] ++ c ++ [e] /\ fits lp l /\ fits rp e /\
        p = mk_fn (append_strings [] a') s (copy_parameters c).
Proof.
  intro Hb. unfold check_function, is_function.
  destruct (check_pattern_spec q_function a b) as (r & -> & Hiff); [gf|ge|easy|]. cbn [bind].
  unfold front_fits in Hiff. change (front_has_symbol q_function) with true in Hiff.
  cbn [q_function sq_middle sq_end] in Hiff. destruct r; cbn [negb].
  - destruct Hiff as [Hiff _]. specialize (Hiff eq_refl).
    destruct Hiff as ((a' & s & -> & Ha & Hs) & m & c & e & -> & Hm & He). revert He; inv_fits; intro He; inv_fits.
    rename y into l, y0 into r0.
    replace ((a' ++ [s]) ++ [l] ++ c ++ [r0]) with (a' ++ s :: l :: c ++ [r0]) by (now rewrite <- app_assoc).
    rewrite slice_front by szs. cbn [bind].
    rewrite deref_mid by szs. cbn [bind].
    replace (a' ++ s :: l :: c ++ [r0]) with ((a' ++ [s; l]) ++ c ++ [r0]) by (rewrite <- app_assoc; easy).
    rewrite slice_mid by szs. cbn [bind].
    eexists. split; [reflexivity|]. intro p. split.
    + intro H; inversion H; subst. exists a', s, l, c, r0. auto 10.
    + intros (a2 & s2 & l2 & c2 & e2 & Q1 & _ & _ & Q2 & _ & _ & ->).
      apply snoc_inv in Q1 as [-> ->]. injection Q2 as -> Q2. apply snoc_inv in Q2 as [-> ->]. easy.
  - exists None. split; [easy|]. intro p. split; [easy|].
    intros (a2 & s2 & l2 & c2 & e2 & Q1 & Q2 & Q3 & Q4 & Q5 & Q6 & _).
    destruct Hiff as [_ Hiff]. assert (X : false = true); [apply Hiff|discriminate X]. split; [eauto|].
    exists [l2], c2, [e2]. fin.
Qed.

Lemma check_function_pointer_spec a b : b <> [] ->
  exists r, check_function_pointer (a ++ b) (vsize a) = Ok r /\
    forall p, r = Some p <->
      exists l t s m1 m2 c e, a <> [] /\ b = [l; t; s; m1; m2] ++ c ++ [e] /\
        fits lp l /\ fits st t /\ is_ident (str_front s) = true /\ fits rp m1 /\ fits lp m2 /\ fits rp e /\
        p = mkproto KFunctionPointer (append_strings (append_strings [] a ++ $"(*)") ([m2] ++ c ++ [e])) s [] [] [].
Proof.
  intro Hb. unfold check_function_pointer, is_function_pointer.
  destruct (check_pattern_spec q_function_pointer a b) as (r & -> & Hiff); [gf|ge|easy|]. cbn [bind].
  unfold front_fits in Hiff. change (front_has_symbol q_function_pointer) with false in Hiff.
  cbn [q_function_pointer sq_middle sq_end] in Hiff. destruct r; cbn [negb].
  - destruct Hiff as [Hiff _]. specialize (Hiff eq_refl).
    destruct Hiff as (Ha & m & c & e & -> & Hm & He). revert He; inv_fits; intro He; inv_fits.
    rename y into l, y0 into t, y1 into s, y2 into m1, y3 into m2, y4 into r0.
    rewrite slice_front by szs. cbn [bind].
    replace (a ++ [l; t; s; m1; m2] ++ c ++ [r0]) with ((a ++ [l; t; s; m1]) ++ (m2 :: c ++ [r0]))
      by (rewrite <- app_assoc; easy).
    rewrite slice_back by szs. cbn [bind].
    replace ((a ++ [l; t; s; m1]) ++ (m2 :: c ++ [r0])) with ((a ++ [l; t]) ++ s :: (m1 :: m2 :: c ++ [r0]))
      by (rewrite <- !app_assoc; easy).
    rewrite deref_mid by szs. cbn [bind].
    eexists. split; [reflexivity|]. intro p. split.
    + intro H; inversion H; subst. exists l, t, s, m1, m2, c, r0. repeat split; auto.
    + intros (l2 & t2 & s2 & m12 & m22 & c2 & e2 & _ & Q2 & _ & _ & _ & _ & _ & _ & ->).
      injection Q2 as -> -> -> -> -> Q2. apply snoc_inv in Q2 as [-> ->]. easy.
  - exists None. split; [easy|]. intro p. split; [easy|].
    intros (l2 & t2 & s2 & m12 & m22 & c2 & e2 & Q1 & Q2 & F1 & F2 & F3 & F4 & F5 & F6 & _).
    destruct Hiff as [_ Hiff]. assert (X : false = true); [apply Hiff|discriminate X]. split; [eauto|].
    exists [l2; t2; s2; m12; m22], c2, [e2]. fin.
Qed.

Lemma check_function_paren_spec a b : b <> [] ->
  exists r, check_function_paren (a ++ b) (vsize a) = Ok r /\
    forall p, r = Some p <->
      exists l s m1 m2 c e, a <> [] /\ b = [l; s; m1; m2] ++ c ++ [e] /\
        fits lp l /\ is_ident (str_front s) = true /\ fits rp m1 /\ fits lp m2 /\ fits rp e /\
        p = mk_fn (append_strings [] a) s (copy_parameters c).
Proof.
  intro Hb. unfold check_function_paren, is_function_parentheses.
  destruct (check_pattern_spec q_function_parentheses a b) as (r & -> & Hiff); [gf|ge|easy|]. cbn [bind].
  unfold front_fits in Hiff. change (front_has_symbol q_function_parentheses) with false in Hiff.
  cbn [q_function_parentheses sq_middle sq_end] in Hiff. destruct r; cbn [negb].
  - destruct Hiff as [Hiff _]. specialize (Hiff eq_refl).
    destruct Hiff as (Ha & m & c & e & -> & Hm & He). revert He; inv_fits; intro He; inv_fits.
    rename y into l, y0 into s, y1 into m1, y2 into m2, y3 into r0.
    rewrite slice_front by szs. cbn [bind].
    replace (a ++ [l; s; m1; m2] ++ c ++ [r0]) with ((a ++ [l]) ++ s :: (m1 :: m2 :: c ++ [r0]))
      by (rewrite <- app_assoc; easy).
    rewrite deref_mid by szs. cbn [bind].
    replace ((a ++ [l]) ++ s :: (m1 :: m2 :: c ++ [r0])) with ((a ++ [l; s; m1; m2]) ++ c ++ [r0])
      by (rewrite <- !app_assoc; easy).
    rewrite slice_mid by szs. cbn [bind].
    eexists. split; [reflexivity|]. intro p. split.
    + intro H; inversion H; subst. exists l, s, m1, m2, c, r0. repeat split; auto.
    + intros (l2 & s2 & m12 & m22 & c2 & e2 & _ & Q2 & _ & _ & _ & _ & _ & ->).
      injection Q2 as -> -> -> -> Q2. apply snoc_inv in Q2 as [-> ->]. easy.
  - exists None. split; [easy|]. intro p. split; [easy|].
    intros (l2 & s2 & m12 & m22 & c2 & e2 & Q1 & Q2 & F1 & F2 & F3 & F4 & F5 & _).
    destruct Hiff as [_ Hiff]. assert (X : false = true); [apply Hiff|discriminate X]. split; [eauto|].
    exists [l2; s2; m12; m22], c2, [e2]. fin.
Qed.

Lemma check_function_paren_pointer_spec a b : b <> [] ->
  exists r, check_function_paren_pointer (a ++ b) (vsize a) = Ok r /\
    forall p, r = Some p <->
      exists l ts s m c e1 e2, a <> [] /\ b = [l] ++ ts ++ [s; m] ++ c ++ [e1; e2] /\
        (length ts = 1 \/ length ts = 2)%nat /\ Forall (fits st) ts /\
        fits lp l /\ is_ident (str_front s) = true /\ fits lp m /\ fits rp e1 /\ fits rp e2 /\
        p = mk_fn (append_strings (append_strings [] a) ts) s (copy_parameters c).
Proof.
  intro Hb. unfold check_function_paren_pointer, is_function_paren_pointer1, is_function_paren_pointer2.
  destruct (check_pattern_spec q_function_paren_pointer1 a b) as (r1 & -> & Hiff1); [gf|ge|easy|]. cbn [bind].
  destruct (check_pattern_spec q_function_paren_pointer2 a b) as (r2 & E2 & Hiff2); [gf|ge|easy|].
  unfold front_fits in Hiff1, Hiff2. change (front_has_symbol q_function_paren_pointer1) with false in Hiff1.
  change (front_has_symbol q_function_paren_pointer2) with false in Hiff2.
  cbn [q_function_paren_pointer1 q_function_paren_pointer2 sq_middle sq_end] in Hiff1, Hiff2.
  assert (Hid : forall x y, fits st x -> is_ident (str_front y) = true -> x <> y).
  { intros x y F I ->. unfold fits in F. cbn in F. apply Ascii.eqb_eq in F. rewrite F in I. easy. }
  destruct r1.
  - cbn [negb andb bind]. destruct Hiff1 as [Hiff1 _]. specialize (Hiff1 eq_refl).
    destruct Hiff1 as (Ha & m & c & e & -> & Hm & He). revert He; inv_fits; intro He; inv_fits.
    rename y into l, y0 into t, y1 into s, y2 into m1, y3 into e1, y4 into e2.
    rewrite slice_front by szs. cbn [bind].
    replace (a ++ [l; t; s; m1] ++ c ++ [e1; e2]) with ((a ++ [l]) ++ [t] ++ (s :: m1 :: c ++ [e1; e2]))
      by (rewrite <- app_assoc; easy).
    rewrite slice_mid by szs. cbn [bind].
    rewrite app_assoc, deref_mid by szs. cbn [bind].
    replace (((a ++ [l]) ++ [t]) ++ s :: m1 :: c ++ [e1; e2]) with ((a ++ [l; t; s; m1]) ++ c ++ [e1; e2])
      by (rewrite <- !app_assoc; easy).
    rewrite slice_mid by szs. cbn [bind].
    eexists. split; [reflexivity|]. intro p. split.
    + intro H; inversion H; subst. exists l, [t], s, m1, c, e1, e2. repeat split; auto.
    + intros (l2 & ts2 & s2 & m2 & c2 & e12 & e22 & _ & Q2 & [L|L] & F0 & F1 & F2 & F3 & F4 & F5 & ->).
      * destruct ts2 as [|t2 [|]]; try easy. injection Q2 as -> -> -> -> Q2.
        change [e1; e2] with ([e1] ++ [e2]) in Q2. change [e12; e22] with ([e12] ++ [e22]) in Q2.
        rewrite !app_assoc in Q2. apply snoc_inv in Q2 as [Q2 ->]. apply snoc_inv in Q2 as [-> ->]. easy.
      * destruct ts2 as [|t2 [|u2 [|]]]; try easy. injection Q2 as -> -> -> -> Q2.
        inversion F0 as [|? ? _ F0']; subst. inversion F0' as [|? ? Fu _]; subst.
        exfalso. apply (Hid u2 u2); auto.
  - rewrite E2. cbn [negb andb bind]. destruct r2; cbn [negb].
    + destruct Hiff2 as [Hiff2 _]. specialize (Hiff2 eq_refl).
      destruct Hiff2 as (Ha & m & c & e & -> & Hm & He). revert He; inv_fits; intro He; inv_fits.
      rename y into l, y0 into t, y1 into u, y2 into s, y3 into m1, y4 into e1, y5 into e2.
      rewrite slice_front by szs. cbn [bind].
      replace (a ++ [l; t; u; s; m1] ++ c ++ [e1; e2]) with ((a ++ [l]) ++ [t; u] ++ (s :: m1 :: c ++ [e1; e2]))
        by (rewrite <- app_assoc; easy).
      rewrite slice_mid by szs. cbn [bind].
      rewrite app_assoc, deref_mid by szs. cbn [bind].
      replace (((a ++ [l]) ++ [t; u]) ++ s :: m1 :: c ++ [e1; e2]) with ((a ++ [l; t; u; s; m1]) ++ c ++ [e1; e2])
        by (rewrite <- !app_assoc; easy).
      rewrite slice_mid by szs. cbn [bind].
      eexists. split; [reflexivity|]. intro p. split.
      * intro H; inversion H; subst. exists l, [t; u], s, m1, c, e1, e2. repeat split; auto.
      * intros (l2 & ts2 & s2 & m2 & c2 & e12 & e22 & _ & Q2 & [L|L] & F0 & F1 & F2 & F3 & F4 & F5 & ->).
        -- destruct ts2 as [|t2 [|]]; try easy. injection Q2 as -> -> -> -> Q2. exfalso. apply (Hid s2 s2); auto.
        -- destruct ts2 as [|t2 [|u2 [|]]]; try easy. injection Q2 as -> -> -> -> -> Q2.
           change [e1; e2] with ([e1] ++ [e2]) in Q2. change [e12; e22] with ([e12] ++ [e22]) in Q2.
           rewrite !app_assoc in Q2. apply snoc_inv in Q2 as [Q2 ->]. apply snoc_inv in Q2 as [-> ->]. easy.
    + exists None. split; [easy|]. intro p. split; [easy|].
      intros (l2 & ts2 & s2 & m2 & c2 & e12 & e22 & Ha & Q2 & [L|L] & F0 & F1 & F2 & F3 & F4 & F5 & ->).
      * destruct ts2 as [|t2 [|]]; try easy. inversion F0; subst. destruct Hiff1 as [_ Hiff1].
        assert (X : false = true); [apply Hiff1|discriminate X]. split; [easy|]. exists [l2; t2; s2; m2], c2, [e12; e22]. fin.
      * destruct ts2 as [|t2 [|u2 [|]]]; try easy. inversion F0 as [|? ? F01 F02]; subst. inversion F02; subst.
        destruct Hiff2 as [_ Hiff2].
        assert (X : false = true); [apply Hiff2|discriminate X]. split; [easy|]. exists [l2; t2; u2; s2; m2], c2, [e12; e22]. fin.
Qed.

Lemma check_array_spec a b : b <> [] ->
  exists r, check_array (a ++ b) (vsize a) = Ok r /\
    forall p, r = Some p <->
      exists a' s l c e, a = a' ++ [s] /\ a' <> [] /\ is_ident (str_front s) = true /\
        b = [l] ++ c ++ [e] /\ fits lb l /\ fits rb e /\
        p = mkproto KObjectArray (append_strings (append_strings [] a') ([l] ++ c ++ [e])) s [] [] [].
Proof.
  intro Hb. unfold check_array, is_array.
  destruct (check_pattern_spec q_array a b) as (r & -> & Hiff); [gf|ge|easy|]. cbn [bind].
  unfold front_fits in Hiff. change (front_has_symbol q_array) with true in Hiff.
  cbn [q_array sq_middle sq_end] in Hiff. destruct r; cbn [negb].
  - destruct Hiff as [Hiff _]. specialize (Hiff eq_refl).
    destruct Hiff as ((a' & s & -> & Ha & Hs) & m & c & e & -> & Hm & He). revert He; inv_fits; intro He; inv_fits.
    rename y into l, y0 into r0.
    replace ((a' ++ [s]) ++ [l] ++ c ++ [r0]) with (a' ++ s :: l :: c ++ [r0]) by (now rewrite <- app_assoc).
    rewrite slice_front by szs. cbn [bind].
    replace (a' ++ s :: l :: c ++ [r0]) with ((a' ++ [s]) ++ l :: c ++ [r0]) by (now rewrite <- app_assoc).
    rewrite slice_back by szs. cbn [bind].
    replace ((a' ++ [s]) ++ l :: c ++ [r0]) with (a' ++ s :: l :: c ++ [r0]) by (now rewrite <- app_assoc).
    rewrite deref_mid by szs. cbn [bind].
    eexists. split; [reflexivity|]. intro p. split.
    + intro H; inversion H; subst. exists a', s, l, c, r0. auto 10.
    + intros (a2 & s2 & l2 & c2 & e2 & Q1 & _ & _ & Q2 & _ & _ & ->).
      apply snoc_inv in Q1 as [-> ->]. injection Q2 as -> Q2. apply snoc_inv in Q2 as [-> ->]. easy.
  - exists None. split; [easy|]. intro p. split; [easy|].
    intros (a2 & s2 & l2 & c2 & e2 & Q1 & Q2 & Q3 & Q4 & Q5 & Q6 & _).
    destruct Hiff as [_ Hiff]. assert (X : false = true); [apply Hiff|discriminate X]. split; [eauto|].
    exists [l2], c2, [e2]. fin.
Qed.

Lemma check_object_spec a :
  exists r, check_object a = Ok r /\
    forall p, r = Some p <->
      exists a' s, a = a' ++ [s] /\ a' <> [] /\ is_ident (str_front s) = true /\
        p = mkproto KObject (append_strings [] a') s [] [] [].
Proof.
  unfold check_object. destruct (is_object_end a) as (r & -> & Hiff). cbn [bind].
  destruct r; cbn [negb].
  - destruct Hiff as [Hiff _]. destruct (Hiff eq_refl) as (a' & s & -> & Ha & Hs).
    rewrite slice_front by szs. cbn [bind]. rewrite deref_mid by szs. cbn [bind].
    eexists. split; [reflexivity|]. intro p. split.
    + intro H; inversion H; subst. eauto 10.
    + intros (a2 & s2 & Q1 & _ & _ & ->). apply snoc_inv in Q1 as [-> ->]. easy.
  - exists None. split; [easy|]. intro p. split; [easy|].
    intros (a2 & s2 & Q1 & Q2 & Q3 & _). destruct Hiff as [_ Hiff]. assert (X : false = true); [apply Hiff|discriminate X]. eauto.
Qed.

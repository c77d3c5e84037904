(** Decimal printing is injective: the printed digits read back as the number. *)
From Coq Require Import Ascii String List Bool Arith NArith ZArith Lia.
From Coq Require Import ZifyBool ZifyNat ZifyN.
From Verif Require Import Str.
Import ListNotations.
Local Open Scope N_scope.

(** independent reading of decimal digits *)
Definition digit_value (c : ascii) : N := N_of_ascii c - 48.
Definition dec_value (s : str) : N := fold_left (fun a c => 10 * a + digit_value c) s 0.

Lemma digit_value_of d : d < 10 -> digit_value (ascii_of_N (48 + d)) = d.
Proof. intro H. unfold digit_value. rewrite N_ascii_embedding by lia. lia. Qed.

Lemma dec_digits_value f : forall n acc, n < 2 ^ N.of_nat f ->
  exists d, dec_digits f n acc = d ++ acc /\ dec_value d = n /\ (f <> O -> d <> []) /\
    Forall (fun c => isdigit c = true) d.
Proof.
  induction f as [|f IH]; intros n acc H; cbn [dec_digits].
  - change (2 ^ N.of_nat 0) with 1 in H. exists []. split; [easy|]. split; [unfold dec_value; cbn; lia|]. split; [easy|constructor].
  - assert (Hm : n mod 10 < 10) by (apply N.mod_lt; lia).
    assert (Hc : isdigit (ascii_of_N (48 + n mod 10)) = true).
    { generalize dependent (n mod 10). intros m Hm. unfold isdigit, between.
      assert (E : nat_of_ascii (ascii_of_N (48 + m)) = N.to_nat (48 + m)).
      { unfold nat_of_ascii. now rewrite N_ascii_embedding by lia. }
      rewrite ?E. cbn [nat_of_ascii]. rewrite ?N_ascii_embedding by lia. lia. }
    destruct (n / 10 =? 0) eqn:E.
    + exists [ascii_of_N (48 + n mod 10)]. split; [easy|]. split; [|split; [easy|repeat constructor; auto]].
      unfold dec_value. cbn [fold_left]. rewrite digit_value_of by lia.
      pose proof (N.div_mod' n 10). lia.
    + assert (Hd : n / 10 < 2 ^ N.of_nat f).
      { apply N.div_lt_upper_bound; [lia|]. rewrite Nat2N.inj_succ, N.pow_succ_r' in H. lia. }
      destruct (IH (n / 10) (ascii_of_N (48 + n mod 10) :: acc) Hd) as (d & -> & Hv & _ & Hf).
      exists (d ++ [ascii_of_N (48 + n mod 10)]). split; [now rewrite <- app_assoc|]. split.
      * unfold dec_value in *. rewrite fold_left_app. cbn [fold_left]. rewrite Hv, digit_value_of by lia.
        pose proof (N.div_mod' n 10). lia.
      * split; [now destruct d|]. apply Forall_app. split; auto.
Qed.

Lemma to_string_value n : dec_value (to_string n) = n /\ to_string n <> [] /\ Forall (fun c => isdigit c = true) (to_string n).
Proof.
  unfold to_string. destruct (dec_digits_value (S (N.to_nat (N.size n))) n []) as (d & -> & Hv & Hn & Hf).
  - rewrite Nat2N.inj_succ, N2Nat.id, N.pow_succ_r'. pose proof (N.size_gt n). lia.
  - rewrite app_nil_r. split; [easy|]. split; [now apply Hn|easy].
Qed.
Lemma to_string_inj a b : to_string a = to_string b -> a = b.
Proof. intro H. destruct (to_string_value a) as [<- _], (to_string_value b) as [<- _]. now rewrite H. Qed.
Lemma nat_to_string_inj a b : nat_to_string a = nat_to_string b -> a = b.
Proof. intro H. apply to_string_inj in H. lia. Qed.

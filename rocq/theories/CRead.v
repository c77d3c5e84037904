(** Proofs for C97 and C98: expressions that are written down as C's grammar wants them are read back as they are. *)
From Coq Require Import Ascii String List Bool Arith Lia.
From Verif Require Import Str StrFacts SpecCLang SpecCProg SpecCRead.
Import ListNotations.

(** for all numbers that are large enough *)
Definition ev (P : nat -> Prop) : Prop := exists n, forall m, n <= m -> P m.
Lemma ev_all (P : nat -> Prop) : (forall n, P n) -> ev P.
Proof. intro H. exists 0. intros m _. apply H. Qed.
Lemma ev_and (P Q : nat -> Prop) : ev P -> ev Q -> ev (fun n => P n /\ Q n).
Proof. intros [n H] [m K]. exists (n + m). intros x X. split; [apply H|apply K]; lia. Qed.
Lemma ev_imp (P Q : nat -> Prop) : (forall n, P n -> Q n) -> ev P -> ev Q.
Proof. intros H [n K]. exists n. auto. Qed.
Lemma ev_S (P : nat -> Prop) : ev (fun n => P (S n)) -> ev P.
Proof. intros [n H]. exists (S n). intros [|m] M; [lia|]. apply H. lia. Qed.
Lemma ev_use P (Q : Prop) : ev P -> (forall n, P n -> Q) -> Q.
Proof. intros [n H] K. exact (K n (H n (le_n n))). Qed.

Lemma bin_levels o : 3 <= bin_level o <= 8.
Proof. unfold bin_level. repeat (match goal with |- context [if ?b then _ else _] => destruct b end; [lia|]). lia. Qed.
Lemma levels e : fine_e e = true -> 1 <= level e <= 9.
Proof. destruct e; cbn [level fine_e]; intro; try discriminate; try lia. pose proof (bin_levels op). lia. Qed.

Section Read.
Variable tw : str -> bool.
Notation read_at := (read_at tw). Notation read_more := (read_more tw). Notation read_first := (read_first tw).
Notation read_tail := (read_tail tw). Notation read_args := (read_args tw).

(** one step *)
Lemma read_at_S n k l : read_at (S n) k l =
      match k with
      | 0 | 1 => match read_first n l with Some (a, r) => read_tail n a r | None => None end
      | 2 =>
          let under f r := match read_at n 2 r with Some (a, r') => Some (f a, r') | None => None end in
          match l with
          | TOp o :: r =>
              if str_eqb o $"!" then under ENot r
              else if str_eqb o $"-" then under ENeg r
              else if str_eqb o $"*" then under EDeref r
              else if str_eqb o $"&" then under EAddr r
              else if str_eqb o $"(" && starts_type tw r then
                match closing 0 r with Some (ty, r') => under (ECast ty) r' | None => None end
              else read_at n 1 l
          | _ => read_at n 1 l
          end
      | 9 =>
          match read_at n 8 l with
          | Some (a, t :: r) =>
              if is_op $"=" t && (level a <=? 2) then match read_at n 9 r with Some (b, r') => Some (ESet a b, r') | None => None end
              else Some (a, t :: r)
          | x => x
          end
      | S k' => match read_at n k' l with Some (a, r) => read_more n k a r | None => None end
      end.
Proof. reflexivity. Qed.
Lemma read_more_S n k a l : read_more (S n) k a l =
      match l with
      | TOp o :: r =>
          if known_op o && (bin_level o =? k) then
            match read_at n (pred k) r with Some (b, r') => read_more n k (EBin o a b) r' | None => None end
          else Some (a, l)
      | _ => Some (a, l)
      end.
Proof. reflexivity. Qed.
Lemma read_first_S n l : read_first (S n) l =
      match l with
      | TText s :: r => Some (read_pieces (EStr s) r)
      | TChar s :: r => Some (EChr s, r)
      | TOp o :: r =>
          if str_eqb o $"(" then
            match read_at n 9 r with Some (a, t :: r') => if is_op $")" t then Some (EParen a, r') else None | _ => None end
          else None
      | TWord w :: r =>
          if tw w then None
          else
            match r with
            | TOp o :: r' =>
                if str_eqb o $"(" then
                  if str_eqb w $"sizeof" then
                    match read_at n 9 r' with Some (a, t :: r'') => if is_op $")" t then Some (ESizeof a, r'') else None | _ => None end
                  else if is_keyword w then None
                  else match r' with
                       | t :: r'' => if is_op $")" t then Some (ECall w [], r'')
                                     else match read_args n r' with Some (l, r'') => Some (ECall w l, r'') | None => None end
                       | [] => None
                       end
                else if is_keyword w then None else Some (EId w, r)
            | _ => if is_keyword w then None
                   else if str_eqb w $"GDO_DEFAULT_LIB" then Some (read_pieces (EId w) r) else Some (EId w, r)
            end
      | _ => None
      end.
Proof. reflexivity. Qed.
Lemma read_tail_S n a l : read_tail (S n) a l =
      match l with
      | TOp o :: r =>
          if str_eqb o $"." then match r with TWord x :: r' => read_tail n (EField a x) r' | _ => None end
          else if str_eqb o $"->" then match r with TWord x :: r' => read_tail n (EArrow a x) r' | _ => None end
          else if str_eqb o $"[" then
            match read_at n 9 r with Some (i, t :: r') => if is_op $"]" t then read_tail n (EIndex a i) r' else None | _ => None end
          else Some (a, l)
      | _ => Some (a, l)
      end.
Proof. reflexivity. Qed.
Lemma read_args_S n l : read_args (S n) l =
      match read_at n 9 l with
      | Some (a, t :: r) =>
          if is_op $")" t then Some ([a], r)
          else if is_op $"," t then match read_args n r with Some (l, r') => Some (a :: l, r') | None => None end
          else None
      | _ => None
      end.
Proof. reflexivity. Qed.

(* ---------------------------------------------------------------- names and types *)

Notation type_ok := (type_ok tw). Notation name_ok := (name_ok tw). Notation named := (named tw).
Lemma closing_ok l : forall d d' r, level_at d l = Some d' -> closing d (l ++ r) = match closing d' r with Some (a, b) => Some (l ++ a, b) | None => None end.
Proof.
  induction l as [|t l IH]; intros d d' r H; cbn [level_at app] in *.
  - injection H as ->. now destruct (closing d' r) as [[? ?]|].
  - cbn [closing]. destruct (is_op _ t). { destruct d; [discriminate|]. rewrite (IH _ _ _ H). now destruct (closing d' r) as [[? ?]|]. }
    destruct (is_op _ t); rewrite (IH _ _ _ H); now destruct (closing d' r) as [[? ?]|].
Qed.
Lemma closing_type ty r : level_at 0 ty = Some 0 -> closing 0 (ty ++ pn ")" :: r) = Some (ty, r).
Proof. intro H. rewrite (closing_ok _ _ _ _ H). cbn [closing is_op pn]. change (str_eqb $")" $")") with true. cbn. now rewrite app_nil_r. Qed.

(* ---------------------------------------------------------------- what may follow *)

(** [r] does not go on with an expression of level [k] *)
Definition tail_op (o : str) : bool := existsb (str_eqb o) [$"."; $"->"; $"["].
Definition stop (k : nat) (o : str) : bool :=
  negb (str_eqb o $"(") && ((k <? 1) || negb (tail_op o)) && negb (known_op o && (bin_level o <=? k)) && ((k <? 9) || negb (str_eqb o $"=")).
Definition after (k : nat) (r : list tok) : Prop := match r with [] => True | TOp o :: _ => stop k o = true | _ => False end.
Lemma after_less k j r : j <= k -> after k r -> after j r.
Proof.
  intros L. destruct r as [|[]]; cbn [after]; auto. unfold stop. intro H. rewrite !andb_true_iff in *. destruct H as [[[H1 H2] H3] H4]. repeat split; auto.
  - rewrite orb_true_iff in *. destruct H2 as [H2|H2]; [left|now right]. apply Nat.ltb_lt in H2. apply Nat.ltb_lt. lia.
  - destruct (known_op _); [|reflexivity]. cbn [andb] in *. rewrite negb_true_iff in *. apply Nat.leb_gt in H3. apply Nat.leb_gt. lia.
  - rewrite orb_true_iff in *. destruct H4 as [H4|H4]; [left|now right]. apply Nat.ltb_lt in H4. apply Nat.ltb_lt. lia.
Qed.
Lemma tail_stop n a r : after 1 r -> read_tail (S n) a r = Some (a, r).
Proof.
  destruct r as [|[]]; cbn [after]; try reflexivity; try contradiction. unfold stop, tail_op. cbn [existsb Nat.ltb Nat.leb orb]. rewrite orb_false_r.
  intro H. rewrite !andb_true_iff, !negb_true_iff, !orb_false_iff in H. destruct H as [[[_ (A & B & C)] _] _]. rewrite read_tail_S. cbv beta iota zeta. now rewrite A, B, C.
Qed.
Lemma more_stop n k a r : after k r -> read_more (S n) k a r = Some (a, r).
Proof.
  destruct r as [|[]]; cbn [after]; try reflexivity; try contradiction. unfold stop. intro H. rewrite !andb_true_iff in H. destruct H as [[[_ _] H] _].
  rewrite read_more_S. cbv beta iota zeta. destruct (known_op s); [|reflexivity]. cbn [andb] in *. rewrite negb_true_iff in H. apply Nat.leb_gt in H.
  destruct (Nat.eqb_spec (bin_level s) k); [lia|reflexivity].
Qed.
Lemma pieces_stop a r : (match r with [] => True | TOp _ :: _ => True | _ => False end) -> read_pieces a r = (a, r).
Proof. destruct r as [|[]]; intros []; reflexivity. Qed.

(* ---------------------------------------------------------------- expressions *)

Lemma is_op_same o : is_op o (TOp o) = true.
Proof. cbn. now apply str_eqb_eq. Qed.
(** the first token is not the name of a type, and no closing bracket, semicolon or brace *)
Definition opener (t : tok) : Prop :=
  match t with TWord w => tw w = false /\ (is_keyword w = true -> w = $"sizeof") | TText _ | TChar _ => True | TOp o => In o [$"("; $"!"; $"-"; $"*"; $"&"] | _ => False end.
Lemma first_tok e : fine_e e = true -> named e = true -> exists t r, print_e e = t :: r /\ opener t.
Proof.
  induction e; cbn [fine_e named print_e]; intros F N; try discriminate.
  all: rewrite ?andb_true_iff in F; rewrite ?andb_true_iff in N; repeat match goal with H : _ /\ _ |- _ => destruct H end.
  all: try (eexists; eexists; split; [reflexivity|]; cbn [opener pn wd In]; tauto).
  all: try (match goal with H : name_ok _ = true |- _ => unfold name_ok in H; rewrite andb_true_iff, !negb_true_iff in H; destruct H as [H K];
            eexists; eexists; split; [reflexivity|]; split; [exact H|congruence] end).
  all: try (match goal with IH : _ -> _ -> exists t r, print_e ?e = _ /\ _ |- context [print_e ?e ++ _] =>
              destruct IH as (t & r & -> & O); [assumption|assumption|] end; eexists; eexists; split; [reflexivity|exact O]).
  match goal with H : negb _ = true |- _ => rewrite negb_true_iff in H; eexists; eexists; split; [reflexivity|split; [exact H|reflexivity]] end.
Qed.

Definition reads (e : expr) (k : nat) : Prop := forall r, after k r -> ev (fun n => read_at n k (print_e e ++ r) = Some (e, r)).
(** with a postfix behind it, with operators of the same level behind it *)
Definition reads_tail (e : expr) : Prop := forall r x, after 0 r -> ev (fun n => read_tail n e r = Some x) -> ev (fun n => read_at n 1 (print_e e ++ r) = Some x).
Definition reads_more (e : expr) (k : nat) : Prop :=
  forall r x, after (pred k) r -> ev (fun n => read_more n k e r = Some x) -> ev (fun n => read_at n k (print_e e ++ r) = Some x).

Lemma from_tail e : reads_tail e -> reads e 1.
Proof. intros H r R. apply H; [apply (after_less 1); auto|]. apply ev_S, ev_all. intro. now apply tail_stop. Qed.
Lemma from_more e k : reads_more e k -> reads e k.
Proof. intros H r R. apply H; [apply (after_less k); auto; lia|]. apply ev_S, ev_all. intro. now apply more_stop. Qed.
Lemma at_mid n k l : 3 <= k <= 8 -> read_at (S n) k l = match read_at n (pred k) l with Some (a, r) => read_more n k a r | None => None end.
Proof. intro K. do 9 (destruct k as [|k]; [try lia; reflexivity|]). lia. Qed.
Lemma up_more e k : 3 <= k <= 8 -> reads e (pred k) -> reads_more e k.
Proof.
  intros K H r x R X. apply ev_S. specialize (H r R). eapply ev_imp; [|exact (ev_and _ _ H X)]. intros n [A B]. cbn beta in *. now rewrite at_mid, A by assumption.
Qed.
Lemma at_1 n l : read_at (S n) 1 l = match read_first n l with Some (a, r) => read_tail n a r | None => None end.
Proof. reflexivity. Qed.
Lemma up_2 e : fine_e e = true -> named e = true -> (forall t r, print_e e = t :: r -> match t with TOp o => o = $"(" | _ => True end) ->
  (forall l, print_e e = pn "(" :: l -> forall r, starts_type tw (l ++ r) = false) -> reads e 1 -> reads e 2.
Proof.
  intros F N T0 NC H r R. assert (R1 : after 1 r) by (apply (after_less 2); auto). specialize (H r R1). apply ev_S. eapply ev_imp; [|exact H]. intros n A. cbn beta in *.
  destruct (first_tok e F N) as (t & l & P & O). specialize (T0 t l P). rewrite P in A |- *. cbn [app] in *. rewrite read_at_S. cbv beta iota zeta.
  destruct t; cbn [opener] in O; try contradiction; try exact A. subst s.
  cbn. specialize (NC l P r). rewrite NC. exact A.
Qed.
Lemma up_9 e : reads e 8 -> reads e 9.
Proof.
  intros H r R. specialize (H r (after_less 9 8 r ltac:(lia) R)). apply ev_S. eapply ev_imp; [|exact H]. intros n A. cbn beta in *. rewrite read_at_S. cbv beta iota zeta. rewrite A.
  destruct r as [|t r]; [reflexivity|]. destruct t; cbn [after] in R; try contradiction. unfold stop in R. rewrite !andb_true_iff in R. destruct R as [_ R].
  cbn [Nat.ltb Nat.leb orb] in R. rewrite negb_true_iff in R. cbn [is_op]. now rewrite R.
Qed.
(** from level 2 to all the others *)
Lemma up_from e j : 2 <= j <= 8 -> reads e j -> forall k, j < k <= 8 -> reads_more e k.
Proof.
  intros J H k. induction k as [|k IH]; [lia|]. intros K. destruct (Nat.eq_dec j k) as [->|N].
  - apply up_more; [lia|exact H].
  - apply up_more; [lia|]. apply from_more. cbn [pred]. apply IH. lia.
Qed.
Lemma up_all e j : 2 <= j <= 9 -> reads e j -> forall k, j <= k <= 9 -> reads e k.
Proof.
  intros J H k K. destruct (Nat.eq_dec j k) as [->|N]; [exact H|]. destruct (Nat.eq_dec k 9) as [->|N9].
  - apply up_9. destruct (Nat.eq_dec j 8) as [->|]; [exact H|]. apply from_more. apply (up_from e j); auto; lia.
  - apply from_more. apply (up_from e j); auto; lia.
Qed.

Lemma args_read l : forall r, l <> [] -> Forall (fun e => reads e 9) l -> ev (fun n => read_args n (with_commas (map print_e l) ++ pn ")" :: r) = Some (l, r)).
Proof.
  induction l as [|e l IH]; intros r N H; [contradiction|]. inversion H as [|? ? E H']; subst. destruct l as [|e' l].
  - cbn [map with_commas]. apply ev_S. eapply ev_imp; [|exact (E (pn ")" :: r) eq_refl)]. intros n A. cbn beta in *. rewrite read_args_S. cbv beta iota zeta. now rewrite A.
  - change (with_commas (map print_e (e :: e' :: l))) with (print_e e ++ pn "," :: with_commas (map print_e (e' :: l))).
    rewrite <- app_assoc. cbn [app]. apply ev_S. specialize (IH r ltac:(discriminate) H').
    specialize (E (pn "," :: with_commas (map print_e (e' :: l)) ++ pn ")" :: r) eq_refl).
    eapply ev_imp; [|exact (ev_and _ _ E IH)]. intros n [A B]. cbn beta in *. rewrite read_args_S. cbv beta iota zeta. rewrite A.
    cbn [is_op pn]. change (str_eqb $"," $")") with false. change (str_eqb $"," $",") with true. cbn iota. now rewrite B.
Qed.

Lemma literal_read e : fine_e e = true -> named e = true -> is_literal e = true -> forall r x, (match r with TOp o :: _ => str_eqb o $"(" = false | _ => True end) -> read_pieces e r = x ->
  forall n, read_first (S n) (print_e e ++ r) = Some x.
Proof.
  induction e; cbn [is_literal is_piece fine_e named print_e]; intros F N L r y R P n; try discriminate.
  - apply str_eqb_eq in L. subst x. unfold name_ok in N. rewrite andb_true_iff, !negb_true_iff in N. destruct N as [N1 N2]. cbn [app]. rewrite read_first_S. cbv beta iota zeta. rewrite N1.
    destruct r as [|t r]; [cbn in *; now subst|]. destruct t; try (rewrite N2; change (str_eqb $"GDO_DEFAULT_LIB" $"GDO_DEFAULT_LIB") with true; cbn iota; now subst).
    rewrite R, N2. subst y. reflexivity.
  - cbn [app]. rewrite read_first_S. cbv beta iota zeta. now subst.
  - rewrite !andb_true_iff in F. rewrite !andb_true_iff in N. destruct F as [[[F1 F2] F3] F4], N as [N1 N2]. rewrite <- app_assoc. apply IHe1; auto.
    + destruct e2; cbn [is_piece] in F4; try discriminate; exact Logic.I.
    + subst y. destruct e2; cbn [is_piece] in F4; try discriminate; cbn [print_e app read_pieces].
      * now rewrite F4.
      * reflexivity.
Qed.

Lemma first_1 e r x : (forall n, read_first (S n) (print_e e ++ r) = Some (e, r)) -> ev (fun n => read_tail n e r = Some x) -> ev (fun n => read_at n 1 (print_e e ++ r) = Some x).
Proof.
  intros A B. apply ev_S, ev_S. destruct B as [n B]. exists n. intros m M. rewrite at_1, A. apply B. lia.
Qed.
Lemma first_ev e r x : ev (fun n => read_first n (print_e e ++ r) = Some (e, r)) -> ev (fun n => read_tail n e r = Some x) -> ev (fun n => read_at n 1 (print_e e ++ r) = Some x).
Proof.
  intros A B. apply ev_S. eapply ev_imp; [|exact (ev_and _ _ A B)]. intros n [C D]. cbn beta in *. now rewrite at_1, C.
Qed.

Definition all_reads (e : expr) : Prop :=
  (level e <= 1 -> reads_tail e) /\ (level e <= 2 -> reads e 2) /\ (forall k, 3 <= k <= 8 -> level e <= k -> reads_more e k) /\ (level e <= 9 -> reads e 9).
Lemma all_at e k : all_reads e -> 2 <= k <= 9 -> level e <= k -> reads e k.
Proof.
  intros (_ & A & B & C) K V. destruct (Nat.eq_dec k 2) as [->|]; [auto|]. destruct (Nat.eq_dec k 9) as [->|]; [auto|]. apply from_more, B; lia.
Qed.
Lemma read_sized N : forall e, length (print_e e) < N -> fine_e e = true -> named e = true -> all_reads e.
Proof.
  induction N as [|N IH]; [lia|]. intros e LE F NM.
  assert (any : forall e', length (print_e e') < length (print_e e) -> fine_e e' = true -> named e' = true -> level e' <= 9 -> reads e' 9).
  { intros e' L F' N' V. apply all_at; auto; [|lia]. apply IH; auto; lia. }
  (* postfix first *)
  assert (T : level e <= 1 -> reads_tail e).
  { intros V r x R X. destruct e; cbn [level] in V; try lia; cbn [fine_e] in F; try discriminate; cbn [named] in NM.
    - apply first_1; [|exact X]. intro n. unfold name_ok in NM. rewrite andb_true_iff, !negb_true_iff in NM. destruct NM as [N1 N2].
      destruct (str_eqb x0 $"GDO_DEFAULT_LIB") eqn:D.
      + apply literal_read; [reflexivity|cbn [named]; unfold name_ok; now rewrite N1, N2|exact D| |].
        * destruct r as [|[]]; cbn [after] in R; try exact Logic.I. unfold stop in R. rewrite !andb_true_iff, negb_true_iff in R. apply R.
        * apply pieces_stop. destruct r as [|[]]; cbn [after] in R; auto.
      + cbn [print_e app]. rewrite read_first_S. cbv beta iota zeta. rewrite N1. destruct r as [|[]]; cbn [after] in R; try contradiction. { now rewrite N2, D. }
        unfold stop in R. rewrite !andb_true_iff, negb_true_iff in R. destruct R as [[[R _] _] _]. now rewrite R, N2.
    - apply first_1; [|exact X]. apply literal_read; try reflexivity.
      + destruct r as [|[]]; cbn [after] in R; try exact Logic.I. unfold stop in R. rewrite !andb_true_iff, negb_true_iff in R. apply R.
      + apply pieces_stop. destruct r as [|[]]; cbn [after] in R; auto.
    - apply first_1; [|exact X]. reflexivity.
    - (* brackets *)
      rewrite andb_true_iff in F. destruct F as [F1 F2]. apply Nat.leb_le in F2. apply first_ev; [|exact X]. apply ev_S.
      assert (L : length (print_e e) < length (print_e (EParen e))) by (cbn [print_e length]; rewrite app_length; cbn; lia).
      eapply ev_imp; [|exact (any e L F1 NM F2 (pn ")" :: r) eq_refl)]. intros n A. cbn beta in *. cbn [print_e app]. rewrite <- app_assoc. cbn [app].
      cbn [pn]. rewrite read_first_S. cbv beta iota zeta. change (str_eqb $"(" $"(") with true. cbn iota. cbn [pn] in A. rewrite A. now rewrite is_op_same.
    - (* calls *)
      rewrite andb_true_iff in NM. destruct NM as [N0 N1]. unfold name_ok in N0. rewrite andb_true_iff, !negb_true_iff in N0. destruct N0 as [N0 N2].
      assert (Z : str_eqb f $"sizeof" = false). { destruct (str_eqb f $"sizeof") eqn:Z; [|reflexivity]. apply str_eqb_eq in Z. subst. discriminate. }
      apply first_ev; [|exact X]. apply ev_S. cbn [print_e app]. rewrite <- app_assoc. cbn [app pn].
      assert (step : forall n l, read_first (S n) (TWord f :: TOp $"(" :: l) =
        match l with t :: r'' => if is_op $")" t then Some (ECall f [], r'') else match read_args n l with Some (l, r'') => Some (ECall f l, r'') | None => None end | [] => None end).
      { intros n l. rewrite read_first_S. cbv beta iota zeta. rewrite N0. change (str_eqb $"(" $"(") with true. cbv iota. now rewrite Z, N2. }
      destruct args as [|a args]; [apply ev_all; intro n; rewrite step; reflexivity|].
      assert (AR : Forall (fun e => reads e 9) (a :: args)).
      { apply Forall_forall. intros e E. rewrite forallb_forall in F, N1. specialize (F e E). specialize (N1 e E). rewrite andb_true_iff in F. destruct F as [F1 F2]. apply Nat.leb_le in F2.
        apply any; auto. cbn [print_e length]. rewrite app_length. clear -E. cbn [length]. enough (length (print_e e) <= length (with_commas (map print_e (a :: args)))) by lia.
        revert a E. induction args as [|b args IHa]; intros a E. { destruct E as [->|[]]. cbn. lia. }
        change (with_commas (map print_e (a :: b :: args))) with (print_e a ++ pn "," :: with_commas (map print_e (b :: args))). rewrite app_length. cbn [length].
        destruct E as [->|E]; [lia|]. specialize (IHa b E). lia. }
      pose proof (args_read (a :: args) r ltac:(discriminate) AR) as A.
      assert (fa : exists t l, with_commas (map print_e (a :: args)) ++ pn ")" :: r = t :: l /\ is_op $")" t = false).
      { cbn [forallb] in F, N1. rewrite !andb_true_iff in F. rewrite !andb_true_iff in N1. destruct F as [[F _] _], N1 as [N1 _].
        destruct (first_tok a F N1) as (t & l & P & O). exists t. destruct args; cbn [map with_commas]; rewrite P; cbn [app]; eexists; (split; [reflexivity|]); destruct t; cbn [opener] in O; try contradiction; try reflexivity;
          cbn [In] in O; destruct O as [<-|[<-|[<-|[<-|[<-|[]]]]]]; reflexivity. }
      destruct fa as (t & l & P & O). rewrite P in A. eapply ev_imp; [|exact A]. intros n B. cbn beta in *. rewrite step. change (TOp $")") with (pn ")"). rewrite P. cbv iota. rewrite O, B. reflexivity.
    - (* members *)
      rewrite andb_true_iff in F. destruct F as [F1 F2]. apply Nat.leb_le in F2. cbn [print_e]. rewrite <- app_assoc. cbn [app].
      destruct (IH e) as [T _]; auto. { cbn [print_e] in LE. rewrite app_length in LE. cbn in LE. lia. }
      apply (T F2). { reflexivity. } apply ev_S. eapply ev_imp; [|exact X]. intros n A. exact A.
    - rewrite andb_true_iff in F. destruct F as [F1 F2]. apply Nat.leb_le in F2. cbn [print_e]. rewrite <- app_assoc. cbn [app].
      destruct (IH e) as [T _]; auto. { cbn [print_e] in LE. rewrite app_length in LE. cbn in LE. lia. }
      apply (T F2). { reflexivity. } apply ev_S. eapply ev_imp; [|exact X]. intros n A. exact A.
    - (* elements *)
      rewrite !andb_true_iff in F. rewrite !andb_true_iff in NM. destruct F as [[[F1 F2] F3] F4], NM as [N1 N2]. apply Nat.leb_le in F2, F4.
      assert (L : length (print_e e1) < length (print_e (EIndex e1 e2)) /\ length (print_e e2) < length (print_e (EIndex e1 e2))).
      { cbn [print_e]. rewrite app_length. cbn [length]. rewrite app_length. cbn. lia. }
      destruct L as [L1 L2]. pose proof (any e2 L2 F3 N2 F4 (pn "]" :: r) eq_refl) as I2.
      cbn [print_e]. rewrite <- app_assoc. cbn [app]. rewrite <- app_assoc. cbn [app].
      destruct (IH e1) as [T _]; auto. { lia. }
      apply (T F2). { reflexivity. } apply ev_S. eapply ev_imp; [|exact (ev_and _ _ X I2)]. intros n [A B]. cbn beta in *. cbn [pn]. rewrite read_tail_S. cbv beta iota zeta.
      change (str_eqb $"[" $".") with false. change (str_eqb $"[" $"->") with false. change (str_eqb $"[" $"[") with true. cbn iota. cbn [pn] in B. rewrite B. rewrite is_op_same. exact A.
    - pose proof (bin_levels op). lia.
    - (* sizeof *)
      rewrite andb_true_iff in F. rewrite andb_true_iff in NM. destruct F as [F1 F2], NM as [N1 N2]. apply Nat.leb_le in F2. rewrite negb_true_iff in N1. apply first_ev; [|exact X]. apply ev_S.
      assert (L : length (print_e e) < length (print_e (ESizeof e))) by (cbn [print_e length]; rewrite app_length; cbn; lia).
      eapply ev_imp; [|exact (any e L F1 N2 F2 (pn ")" :: r) eq_refl)]. intros n A. cbn beta in *. cbn [print_e app]. rewrite <- app_assoc. cbn [app pn].
      unfold wd. rewrite read_first_S. cbv beta iota zeta. rewrite N1. change (str_eqb $"(" $"(") with true. change (str_eqb $"sizeof" $"sizeof") with true. cbn iota. cbn [pn] in A. rewrite A. now rewrite is_op_same.
    - (* literals *)
      apply first_1; [|exact X]. intro n. rewrite !andb_true_iff in F. destruct F as [[[F1 F2] F3] F4]. apply literal_read; auto.
      + cbn [fine_e]. now rewrite F1, F2, F3, F4.
      + destruct r as [|[]]; cbn [after] in R; try exact Logic.I. unfold stop in R. rewrite !andb_true_iff, negb_true_iff in R. apply R.
      + apply pieces_stop. destruct r as [|[]]; cbn [after] in R; auto. }
  split; [exact T|].
  assert (U : level e = 2 -> reads e 2).
  { intros V. destruct e; cbn [level] in V; try discriminate; cbn [fine_e] in F; cbn [named] in NM; try (pose proof (bin_levels op); lia); rewrite ?andb_true_iff in F; destruct F as [F1 F2]; apply Nat.leb_le in F2.
    1-4: intros r R; apply ev_S; assert (I2 : reads e 2) by (apply (IH e); auto; cbn [print_e length] in LE; lia);
         eapply ev_imp; [|exact (I2 r R)]; intros n A; cbn beta in *; cbn [print_e app pn]; rewrite read_at_S; cbv beta iota zeta; cbn [str_eqb Ascii.eqb lit list_ascii_of_string]; now rewrite A.
    intros r R. apply ev_S. rewrite andb_true_iff in NM. destruct NM as [N1 N2]. unfold type_ok in N1. rewrite andb_true_iff in N1. destruct N1 as [N1 N3].
    assert (I2 : reads e 2). { apply (IH e); auto. cbn [print_e length] in LE. rewrite app_length in LE. cbn in LE. lia. }
    eapply ev_imp; [|exact (I2 r R)]. intros n A. cbn beta in *. cbn [print_e app pn]. rewrite read_at_S. cbv beta iota zeta. rewrite <- app_assoc. cbn [app].
    change (str_eqb $"(" $"!") with false. change (str_eqb $"(" $"-") with false. change (str_eqb $"(" $"*") with false. change (str_eqb $"(" $"&") with false. change (str_eqb $"(" $"(") with true. cbn [andb].
    assert (ST : starts_type tw (ty ++ pn ")" :: print_e e ++ r) = true). { destruct ty as [|[]]; try discriminate. exact N1. }
    change (TOp $")") with (pn ")"). rewrite ST. rewrite closing_type by (destruct (level_at 0 ty) as [[|]|]; congruence). now rewrite A. }
  assert (U2 : level e <= 2 -> reads e 2).
  { intros V. pose proof (levels e F) as V1. destruct (Nat.eq_dec (level e) 2) as [E|E]; [auto|]. assert (V0 : level e <= 1) by lia. specialize (T V0). apply from_tail in T.
    apply up_2; auto.
    - (* the first token of a postfix expression *)
      clear -V0 F. induction e; cbn [level] in V0; try lia; cbn [fine_e] in F; try discriminate; intros t r P; cbn [print_e pn wd] in P; try (injection P as <- _; exact Logic.I || reflexivity).
      + rewrite andb_true_iff in F. destruct F as [F1 F2]. apply Nat.leb_le in F2. destruct (print_e e) as [|t' r'] eqn:Q. { cbn in P. injection P as <- _. exfalso. clear -F1 F2 Q.
          destruct e; cbn in *; try discriminate; try (destruct (print_e e); discriminate); try (destruct (print_e e1); discriminate).
          rewrite !andb_true_iff in F1. destruct F1 as [_ F4]. destruct e2; cbn in *; try discriminate; destruct (print_e e1); discriminate. }
        cbn in P. injection P as <- _. eapply IHe; eauto.
      + rewrite andb_true_iff in F. destruct F as [F1 F2]. apply Nat.leb_le in F2. destruct (print_e e) as [|t' r'] eqn:Q. { cbn in P. injection P as <- _. exfalso. clear -F1 F2 Q.
          destruct e; cbn in *; try discriminate; try (destruct (print_e e); discriminate); try (destruct (print_e e1); discriminate).
          rewrite !andb_true_iff in F1. destruct F1 as [_ F4]. destruct e2; cbn in *; try discriminate; destruct (print_e e1); discriminate. }
        cbn in P. injection P as <- _. eapply IHe; eauto.
      + rewrite !andb_true_iff in F. destruct F as [[[F1 F2] _] _]. apply Nat.leb_le in F2. destruct (print_e e1) as [|t' r'] eqn:Q. { cbn in P. injection P as <- _. exfalso. clear -F1 F2 Q.
          destruct e1; cbn in *; try discriminate; try (destruct (print_e e1); discriminate); try (destruct (print_e e1_1); discriminate).
          rewrite !andb_true_iff in F1. destruct F1 as [_ F4]. destruct e1_2; cbn in *; try discriminate; destruct (print_e e1_1); discriminate. }
        cbn in P. injection P as <- _. eapply IHe1; eauto.
      + pose proof (bin_levels op). lia.
      + rewrite !andb_true_iff in F. destruct F as [[[F1 F2] F3] F4]. destruct (print_e e1) as [|t' r'] eqn:Q. { exfalso. clear -F1 F3 Q.
          destruct e1; cbn in *; try discriminate. rewrite !andb_true_iff in F1. destruct F1 as [_ F4]. destruct e1_2; cbn in *; try discriminate; destruct (print_e e1_1); discriminate. }
        cbn in P. injection P as <- _. eapply IHe1; eauto. clear -F3. destruct e1; try discriminate; cbn; lia.
    - (* a bracket at the beginning is not followed by a type *)
      clear -V0 F NM. induction e; cbn [level] in V0; try lia; cbn [fine_e] in F; try discriminate; cbn [named] in NM; intros l P r; cbn [print_e pn wd] in P; try discriminate.
      + injection P as <-. rewrite andb_true_iff in F. destruct F as [F1 F2]. destruct (first_tok e F1 NM) as (t & l & -> & O). cbn [app starts_type]. destruct t; try reflexivity. apply O.
      + rewrite andb_true_iff in F. destruct F as [F1 F2]. apply Nat.leb_le in F2. destruct (first_tok e F1 NM) as (t & l' & Q & O). rewrite Q in P. cbn in P. injection P as -> <-. rewrite <- app_assoc. eapply IHe; eauto.
      + rewrite andb_true_iff in F. destruct F as [F1 F2]. apply Nat.leb_le in F2. destruct (first_tok e F1 NM) as (t & l' & Q & O). rewrite Q in P. cbn in P. injection P as -> <-. rewrite <- app_assoc. eapply IHe; eauto.
      + rewrite !andb_true_iff in F. rewrite !andb_true_iff in NM. destruct F as [[[F1 F2] _] _], NM as [NM _]. apply Nat.leb_le in F2. destruct (first_tok e1 F1 NM) as (t & l' & Q & O). rewrite Q in P. cbn in P. injection P as -> <-. rewrite <- app_assoc. eapply IHe1; eauto.
      + pose proof (bin_levels op). lia.
      + rewrite !andb_true_iff in F. rewrite !andb_true_iff in NM. destruct F as [[[F1 F2] F3] F4], NM as [NM _]. destruct (first_tok e1 F1 NM) as (t & l' & Q & O). rewrite Q in P. cbn in P. injection P as -> <-. rewrite <- app_assoc. eapply IHe1; eauto.
        clear -F3. destruct e1; try discriminate; cbn; lia. }
  split; [exact U2|].
  assert (M : forall k, 3 <= k <= 8 -> level e <= k -> reads_more e k).
  { intros k K V. destruct (le_lt_dec (level e) 2) as [V2|V2]; [apply (up_from e 2); auto; lia|].
    destruct e; cbn [level] in V, V2; try lia; cbn [fine_e] in F; try discriminate; cbn [named] in NM.
    rewrite !andb_true_iff in F. rewrite !andb_true_iff in NM. destruct F as [[[[F0 F1] F2] F3] F4], NM as [N1 N2]. apply Nat.leb_le in F3. apply Nat.ltb_lt in F4. pose proof (bin_levels op) as B.
    assert (L : length (print_e e1) < N /\ length (print_e e2) < N). { cbn [print_e] in LE. rewrite app_length in LE. cbn in LE. lia. }
    destruct L as [L1 L2]. pose proof (levels e1 F1). pose proof (levels e2 F2).
    assert (own : reads_more (EBin op e1 e2) (bin_level op)).
    { intros r x R X. cbn [print_e]. rewrite <- app_assoc. cbn [app]. destruct (IH e1 L1 F1 N1) as (_ & _ & M1 & _).
      apply M1; auto; try lia.
      - cbn [after]. unfold stop. rewrite F0. clear -F0. cbn [andb]. destruct (Nat.leb_spec (bin_level op) (pred (bin_level op))); [pose proof (bin_levels op); lia|].
        cbn [negb]. unfold known_op in F0. cbn [existsb] in F0. rewrite !orb_true_iff in F0. repeat destruct F0 as [F0|F0]; try discriminate; apply str_eqb_eq in F0; subst op; vm_compute; reflexivity.
      - apply ev_S. pose proof (all_at e2 (pred (bin_level op)) (IH e2 L2 F2 N2) ltac:(lia) ltac:(lia) r R) as A2.
        eapply ev_imp; [|exact (ev_and _ _ X A2)]. intros n [C D]. cbn beta in *. rewrite read_more_S. cbv beta iota zeta. rewrite F0, Nat.eqb_refl. cbn [andb]. now rewrite D. }
    destruct (Nat.eq_dec k (bin_level op)) as [->|NE]; [exact own|]. apply (up_from _ (bin_level op)); try lia. now apply from_more. }
  split; [exact M|]. intro V. destruct (le_lt_dec (level e) 8) as [V8|V8]. { apply up_9. apply from_more. apply M; lia. }
  destruct e; cbn [level] in V, V8; try lia; cbn [fine_e] in F; try discriminate; cbn [named] in NM. { pose proof (bin_levels op). lia. }
  rewrite !andb_true_iff in F. rewrite !andb_true_iff in NM. destruct F as [[[F1 F2] F3] F4], NM as [N1 N2]. apply Nat.leb_le in F3. apply Nat.leb_le in F4.
  assert (L : length (print_e e1) < N /\ length (print_e e2) < N). { cbn [print_e] in LE. rewrite app_length in LE. cbn in LE. lia. }
  destruct L as [L1 L2]. intros r R. cbn [print_e]. rewrite <- app_assoc. cbn [app].
  pose proof (all_at e1 8 (IH e1 L1 F1 N1) ltac:(lia) ltac:(lia) (pn "=" :: print_e e2 ++ r) eq_refl) as A1.
  pose proof (all_at e2 9 (IH e2 L2 F2 N2) ltac:(lia) ltac:(lia) r R) as A2.
  apply ev_S. eapply ev_imp; [|exact (ev_and _ _ A1 A2)]. intros n [C D]. cbn beta in *. rewrite read_at_S. cbv beta iota zeta. rewrite C. cbn [pn]. rewrite is_op_same.
  apply Nat.leb_le in F3. rewrite F3. cbn [andb]. now rewrite D.
Qed.
Lemma expr_read e k : fine_e e = true -> named e = true -> 2 <= k <= 9 -> level e <= k -> reads e k.
Proof. intros F N. apply all_at. apply (read_sized (S (length (print_e e)))); auto. Qed.
Lemma whole_read e : fine_e e = true -> named e = true -> reads_expr tw (print_e e) e.
Proof.
  intros F N. pose proof (expr_read e 9 F N ltac:(lia) ltac:(apply levels; auto) [] Logic.I) as H. rewrite app_nil_r in H. exact H.
Qed.
End Read.

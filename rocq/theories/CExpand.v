(** Proofs for C99: replacing macros in the tokens of an expression is replacing them in the expression. *)
From Coq Require Import Ascii String List Bool Arith Lia.
From Verif Require Import Str StrFacts SpecCLang SpecCProg SpecCMacro HMacro HWrapper SpecCRead.
Import ListNotations.

(* ---------------------------------------------------------------- more steps change nothing *)

Lemma all_some_map {A B} (f g : A -> option B) l y : (forall a b, f a = Some b -> g a = Some b) -> all_some (map f l) = Some y -> all_some (map g l) = Some y.
Proof.
  intro H. revert y. induction l as [|a l IH]; intros y E; [exact E|]. cbn [map all_some] in *. destruct (f a) eqn:F; [|discriminate]. rewrite (H _ _ F).
  destruct (all_some (map f l)) eqn:G; [|discriminate]. now rewrite (IH _ eq_refl).
Qed.
Lemma replace_more m n : forall l x, replace_all m n l = Some x -> replace_all m (S n) l = Some x.
Proof.
  induction n as [|n IH]; [discriminate|]. intros l x H. cbn [replace_all] in H. remember (S n) as k eqn:K. cbn [replace_all]. subst k.
  assert (keep : forall t r, option_map (cons t) (replace_all m n r) = Some x -> option_map (cons t) (replace_all m (S n) r) = Some x).
  { intros t r E. destruct (replace_all m n r) eqn:R; [|discriminate]. now rewrite (IH _ _ R). }
  destruct l as [|[t h] r]; [exact H|]. destruct t; try (now apply keep).
  destruct (mem s h); [now apply keep|]. destruct (macro_at m s) as [[[[ps va]|] b]|]; [|now apply IH|now apply keep].
  destruct r as [|[[] h1] r']; try (now apply keep). destruct (str_eqb s0 _); [|now apply keep].
  destruct (arguments 0 [] r') as [[[raw h'] r'']|]; [|discriminate]. destruct (all_some (map (replace_all m n) raw)) as [full|] eqn:A; [|discriminate].
  rewrite (all_some_map _ _ raw full IH A). now apply IH.
Qed.
Lemma replace_mono m n k l x : n <= k -> replace_all m n l = Some x -> replace_all m k l = Some x.
Proof. induction 1; auto using replace_more. Qed.

Section Macros.
Variable m : macro_table.
Definition goes (a b : list htok) : Prop := exists n, replace_all m n a = Some b.
Lemma goes_all raw full : Forall2 goes raw full -> exists n, forall k, n <= k -> all_some (map (replace_all m k) raw) = Some full.
Proof.
  induction 1 as [|a b raw full [n H] _ [k K]]; [now exists 0|]. exists (n + k). intros q Q. cbn [map all_some]. rewrite (replace_mono m n q a b) by (lia || exact H). now rewrite K by lia.
Qed.
Lemma s_call_full x h ps va b h1 l raw full h2 l2 r : mem x h = false -> macro_at m x = Some (mkdef (Some (ps, va)) b) ->
  arguments 0 [] l = Some (raw, h2, l2) -> Forall2 goes raw full ->
  steps m (hide (x :: filter (fun z => mem z h2) h) (put_in ps va raw full [] b) ++ l2) r -> steps m ((TWord x, h) :: (TOp $"(", h1) :: l) r.
Proof.
  intros M D A G (n & y & E & R). destruct (goes_all _ _ G) as [k K]. exists (S (n + k)), y. split; [|exact R]. cbn [replace_all]. rewrite M, D.
  change (str_eqb $"(" $"(") with true. rewrite A, K by lia. apply (replace_mono m n); [lia|exact E].
Qed.

(* ---------------------------------------------------------------- the arguments of a call *)

Definition shut_at (d : nat -> nat) (l : list tok) : Prop := forall L, map fst L = l -> forall k a rest, arguments (d k) a (L ++ rest) = arguments (d k) (a ++ L) rest.
Notation shut := (shut_at (fun k => k)). Notation within := (shut_at S).
Lemma shut_within l : shut l -> within l.
Proof. intros H L E k. now apply (H L E (S k)). Qed.
Lemma shut_nil d : shut_at d [].
Proof. intros L E k a rest. apply map_eq_nil in E as ->. now rewrite app_nil_r. Qed.
Lemma shut_app d a b : shut_at d a -> shut_at d b -> shut_at d (a ++ b).
Proof.
  intros A B L E k x rest. apply map_eq_app in E as (L1 & L2 & -> & E1 & E2). rewrite <- app_assoc, (A L1 E1), (B L2 E2). now rewrite app_assoc.
Qed.
Definition quiet (t : tok) : bool := match t with TOp c => negb (str_eqb c $"(") && negb (str_eqb c $")") && negb (str_eqb c $",") | _ => true end.
Lemma shut_one d t : quiet t = true -> shut_at d [t].
Proof.
  intros Q L E k a rest. destruct L as [|[t' h] [|]]; try discriminate. cbn [map fst] in E. injection E as ->. cbn [app]. destruct t; try reflexivity. cbn [quiet] in Q. rewrite !andb_true_iff, !negb_true_iff in Q.
  destruct Q as [[Q1 Q2] Q3]. cbn [arguments]. now rewrite Q1, Q2, Q3.
Qed.
Lemma shut_cons d t l : quiet t = true -> shut_at d l -> shut_at d (t :: l).
Proof. intros Q H. apply (shut_app d [t] l); [now apply shut_one|exact H]. Qed.
Lemma within_comma : within [pn ","].
Proof. intros L E k a rest. destruct L as [|[t' h] [|]]; try discriminate. cbn [map fst] in E. injection E as ->. reflexivity. Qed.
Lemma shut_brackets l : within l -> shut (pn "(" :: l ++ [pn ")"]).
Proof.
  intros W L E k a rest. destruct L as [|[t h] L]; [discriminate|]. cbn [map fst] in E. injection E as -> E. apply map_eq_app in E as (L1 & L2 & -> & E1 & E2).
  destruct L2 as [|[t2 h2] [|]]; try discriminate. cbn [map fst] in E2. injection E2 as ->. unfold pn. cbn [app arguments]. change (str_eqb $"(" $"(") with true. cbv iota.
  rewrite <- app_assoc. rewrite (W L1 E1 k). cbn [app arguments]. change (str_eqb $")" $"(") with false. change (str_eqb $")" $")") with true. cbv iota. rewrite <- !app_assoc. reflexivity.
Qed.
Lemma within_commas ls : Forall (fun l => within l) ls -> within (with_commas ls).
Proof.
  induction 1 as [|a [|b l] A L IH]; [apply shut_nil|exact A|]. cbn [with_commas]. apply shut_app; [exact A|]. apply (shut_app S [pn ","]); [apply within_comma|exact IH].
Qed.
(** types with brackets that match *)
Lemma within_type ty : level_at 0 ty = Some 0 -> within ty.
Proof.
  assert (G : forall ty d L, map fst L = ty -> forall d' k a rest, level_at d ty = Some d' -> arguments (S (d + k)) a (L ++ rest) = arguments (S (d' + k)) (a ++ L) rest).
  { induction ty0 as [|t ty0 IH]; intros d L E d' k a rest H.
    - apply map_eq_nil in E as ->. cbn in H. injection H as ->. now rewrite app_nil_r.
    - destruct L as [|[t' h] L]; [discriminate|]. cbn [map fst] in E. injection E as -> E. cbn [level_at] in H. cbn [app].
      assert (other : forall x, level_at d ty0 = Some d' -> arguments (S (d + k)) (a ++ [x]) (L ++ rest) = arguments (S (d' + k)) (a ++ x :: L) rest).
      { intros x Hx. rewrite (IH d L E d' k (a ++ [x]) rest Hx). now rewrite <- app_assoc. }
      destruct t; try (now apply other). cbn [is_op] in H. cbn [arguments].
      destruct (str_eqb s $")") eqn:C.
      + apply str_eqb_eq in C. subst s. change (str_eqb $")" $"(") with false. change (str_eqb $")" $")") with true in *. cbv iota. destruct d as [|d]; [discriminate|]. cbn [Nat.add].
        rewrite (IH d L E d' k (a ++ [(TOp $")", h)]) rest H). now rewrite <- app_assoc.
      + destruct (str_eqb s $"(") eqn:O.
        * cbv iota in H. change (S (S (d + k))) with (S (S d + k)). rewrite (IH (S d) L E d' k (a ++ [(TOp s, h)]) rest H). now rewrite <- app_assoc.
        * cbv iota in H. change (S (d + k) =? 0) with false. rewrite andb_false_r. now apply other. }
  intros H L E k a rest. exact (G ty 0 L E 0 k a rest H).
Qed.
(** expressions *)
Fixpoint shut_e (e : expr) : bool :=
  match e with
  | ENone | EId _ | EStr _ | EChr _ => true
  | EParen e | EField e _ | EArrow e _ | ENot e | ENeg e | EDeref e | EAddr e | ESizeof e => shut_e e
  | ECall _ l => forallb shut_e l
  | ECast ty e => match level_at 0 ty with Some 0 => true | _ => false end && shut_e e
  | EIndex a b | ESet a b | ECat a b => shut_e a && shut_e b
  | EBin o a b => quiet (TOp o) && shut_e a && shut_e b
  end.
Lemma shut_expr : forall e, shut_e e = true -> shut (print_e e).
Proof.
  fix IH 1. intros e H. destruct e; cbn [shut_e] in H; cbn [print_e].
  - apply shut_nil.
  - now apply shut_one.
  - now apply shut_one.
  - now apply shut_one.
  - apply shut_brackets. now apply shut_within, IH.
  - apply shut_cons; [reflexivity|]. apply shut_brackets, within_commas. induction args as [|a l IHl]; [constructor|]. cbn [forallb] in H. apply andb_true_iff in H as [A B]. constructor; [now apply shut_within, IH|now apply IHl].
  - apply shut_app; [now apply IH|]. now repeat apply shut_cons; try apply shut_nil.
  - apply shut_app; [now apply IH|]. now repeat apply shut_cons; try apply shut_nil.
  - apply andb_true_iff in H as [A B]. apply shut_app; [now apply IH|]. apply shut_cons; [reflexivity|]. apply shut_app; [now apply IH|now apply shut_one].
  - apply shut_cons; [reflexivity|now apply IH].
  - apply shut_cons; [reflexivity|now apply IH].
  - apply shut_cons; [reflexivity|now apply IH].
  - apply shut_cons; [reflexivity|now apply IH].
  - apply andb_true_iff in H as [A B]. change (pn "(" :: ty ++ pn ")" :: print_e e) with ((pn "(" :: ty) ++ [pn ")"] ++ print_e e). rewrite app_assoc. apply shut_app; [|now apply IH].
    apply (shut_brackets ty), within_type. destruct (level_at 0 ty) as [[|]|]; congruence.
  - apply andb_true_iff in H as [H B]. apply andb_true_iff in H as [Q A]. apply shut_app; [now apply IH|]. apply shut_cons; [exact Q|now apply IH].
  - apply andb_true_iff in H as [A B]. apply shut_app; [now apply IH|]. apply shut_cons; [reflexivity|now apply IH].
  - apply shut_cons; [reflexivity|]. apply shut_brackets. now apply shut_within, IH.
  - apply andb_true_iff in H as [A B]. apply shut_app; now apply IH.
Qed.
(** they are told apart at the commas *)
Lemma arguments_of l : l <> [] -> Forall (fun e => shut_e e = true) l -> forall L, map fst L = with_commas (map print_e l) -> forall h rest,
  exists raw, arguments 0 [] (L ++ (TOp $")", h) :: rest) = Some (raw, h, rest) /\ Forall2 (fun s e => map fst s = print_e e) raw l /\ incl (concat raw) L.
Proof.
  intros N F. destruct F as [|e l S F]; [congruence|]. clear N. revert e S. induction F as [|e2 l S2 F IH]; intros e S L E h rest.
  - cbn [map with_commas] in E. exists [L]. split; [|split; [now constructor|cbn [concat]; rewrite app_nil_r; apply incl_refl]]. rewrite (shut_expr e S L E 0). reflexivity.
  - cbn [map with_commas] in E. apply map_eq_app in E as (L1 & L2 & -> & E1 & E2). destruct L2 as [|[t h2] L2]; [discriminate|]. cbn [map fst] in E2. injection E2 as -> E2.
    rewrite <- app_assoc. rewrite (shut_expr e S L1 E1 0). cbn [app]. destruct (IH e2 S2 L2 E2 h rest) as (raw & A & B & C). exists (L1 :: raw). split; [|split].
    + unfold pn. cbn [arguments]. change (str_eqb $"," $"(") with false. change (str_eqb $"," $")") with false. change (str_eqb $"," $"," && (0 =? 0)) with true. cbv iota. now rewrite A.
    + now constructor.
    + cbn [concat]. intros x X. apply in_app_or in X as [X|X]; apply in_or_app; [now left|right; right; now apply C].
Qed.

(* ---------------------------------------------------------------- the body of a macro with its arguments *)

Definition no_hash (l : list tok) : bool := forallb (fun t => match t with TOp c => negb (str_eqb c $"##") && negb (str_eqb c $"#") | _ => true end) l.
Definition put_tok (ps : list str) (va : bool) (full : list (list htok)) (t : tok) : list htok :=
  match t with TWord x => match argument x ps va full with Some a => a | None => [(t, [])] end | _ => [(t, [])] end.
Lemma put_in_map ps va raw full l : no_hash l = true -> forall out, put_in ps va raw full out l = out ++ flat_map (put_tok ps va full) l.
Proof.
  induction l as [|t l IH]; intros H out; [now rewrite app_nil_r|]. cbn [no_hash forallb] in H. fold (no_hash l) in H. apply andb_true_iff in H as [H1 H2]. specialize (IH H2). cbn [flat_map].
  destruct t; cbn [put_in put_tok]; try (rewrite IH; now rewrite <- app_assoc).
  - assert (P : match l with TOp c :: _ => str_eqb c $"##" | _ => false end = false).
    { destruct l as [|[] l]; try reflexivity. cbn [no_hash forallb] in H2. apply andb_true_iff in H2 as [H2 _]. apply andb_true_iff in H2 as [H2 _]. now apply negb_true_iff in H2. }
    rewrite P. destruct (argument s ps va full); rewrite IH; now rewrite <- app_assoc.
  - apply andb_true_iff in H1 as [A B]. apply negb_true_iff in A, B. rewrite A, B, IH. now rewrite <- app_assoc.
Qed.
Definition VA : str := $"__VA_ARGS__".
Definition not_param (ps : list str) (x : str) : bool := negb (mem x ps) && negb (str_eqb x VA).
Fixpoint body_ok (ps : list str) (va : bool) (e : expr) : bool :=
  match e with
  | ENone | EStr _ | EChr _ => true
  | EId x => negb (str_eqb x VA)
  | EParen e | ENot e | ENeg e | EDeref e | EAddr e => body_ok ps va e
  | ECall f l => not_param ps f && forallb (fun a => match a with EId x => va || negb (str_eqb x VA) | _ => body_ok ps va a end) l
  | EField e x | EArrow e x => body_ok ps va e && not_param ps x
  | EIndex a b | EBin _ a b | ESet a b | ECat a b => body_ok ps va a && body_ok ps va b
  | ECast ty e => forallb (fun t => match t with TWord w => not_param ps w | _ => true end) ty && body_ok ps va e
  | ESizeof e => not_param ps $"sizeof" && body_ok ps va e
  end.
Lemma commas_concat (ls : list (list (list tok))) : Forall (fun l => l <> []) ls -> with_commas (concat ls) = with_commas (map with_commas ls).
Proof.
  assert (J : forall a b, a <> [] -> b <> [] -> with_commas (a ++ b) = with_commas a ++ pn "," :: with_commas b).
  { induction a as [|x [|y a] IH]; intros b A B; [congruence| |].
    - cbn [app]. destruct b; [congruence|]. reflexivity.
    - change ((x :: y :: a) ++ b) with (x :: (y :: a) ++ b). change (with_commas (x :: (y :: a) ++ b)) with (x ++ pn "," :: with_commas ((y :: a) ++ b)). rewrite IH by (discriminate || exact B).
      change (with_commas (x :: y :: a)) with (x ++ pn "," :: with_commas (y :: a)). now rewrite <- app_assoc. }
  induction 1 as [|a ls A F IH]; [reflexivity|]. cbn [concat map]. destruct ls as [|b ls]; [cbn [concat map with_commas]; now rewrite app_nil_r|].
  rewrite J; [|exact A|]. { rewrite IH. reflexivity. } inversion F as [|? ? B _]; subst. cbn [concat]. destruct b; [congruence|discriminate].
Qed.
Lemma mapp (a b : list htok) : map fst (a ++ b) = map fst a ++ map fst b.
Proof. apply map_app. Qed.
Section Put.
Variables (ps : list str) (va : bool) (full : list (list htok)) (l' : list expr).
Hypothesis F : Forall2 (fun s e => map fst s = print_e e) full l'.
Hypothesis noVA : mem VA ps = false.
Hypothesis enough : va = true -> length ps < length l'.
Notation put := (flat_map (put_tok ps va full)).
Notation sub := (subst (zip ps l') (skipn (length ps) l')).
Lemma parameter_ok x : match parameter x ps full with Some a => exists e, lookup x (zip ps l') = Some e /\ map fst a = print_e e | None => lookup x (zip ps l') = None end.
Proof.
  clear noVA enough. revert full l' F. induction ps as [|p qs IH]; intros f g H; [reflexivity|]. destruct H as [|a e f g A H]; [reflexivity|]. cbn [parameter zip lookup fst snd].
  destruct (str_eqb x p); [eauto|]. now apply IH.
Qed.
Lemma argument_ok x : str_eqb x VA = false -> match argument x ps va full with Some a => exists e, lookup x (zip ps l') = Some e /\ map fst a = print_e e | None => lookup x (zip ps l') = None end.
Proof. intro N. unfold argument. pose proof (parameter_ok x) as P. destruct (parameter x ps full); [exact P|]. fold VA. rewrite N, andb_false_r. exact P. Qed.
Lemma not_argument {A} x (fl : list A) : mem x ps = false -> parameter x ps fl = None.
Proof.
  clear. revert fl. induction ps as [|p qs IH]; intros fl H; [reflexivity|]. destruct fl; [reflexivity|]. cbn [mem existsb] in H. apply orb_false_iff in H as [H1 H2]. cbn [parameter]. rewrite H1. now apply IH.
Qed.
Lemma plain_put x : not_param ps x = true -> put_tok ps va full (TWord x) = [(TWord x, [])].
Proof.
  unfold not_param. rewrite andb_true_iff, !negb_true_iff. intros [A B]. unfold put_tok, argument. rewrite (not_argument x full A). fold VA. now rewrite B, andb_false_r.
Qed.
Lemma rest_put : va = true -> map fst (put_tok ps va full (TWord VA)) = with_commas (map print_e (skipn (length ps) l')).
Proof.
  intro V. unfold put_tok, argument. rewrite (not_argument VA full noVA), V. change (str_eqb VA $"__VA_ARGS__") with true. cbn [andb]. clear -F. revert full l' F. induction (length ps) as [|n IH]; intros f g H.
  - cbn [skipn]. induction H as [|a e f g A H IHf]; [reflexivity|]. destruct H as [|a2 e2 f g A2 H]; [exact A|].
    change (map fst (a ++ (TOp $",", []) :: joined (a2 :: f)) = print_e e ++ pn "," :: with_commas (map print_e (e2 :: g))). rewrite mapp. f_equal; [exact A|]. cbn [map fst]. unfold pn. f_equal. exact IHf.
  - destruct H; [reflexivity|]. cbn [skipn]. now apply IH.
Qed.
Lemma put_type ty : forallb (fun t => match t with TWord w => not_param ps w | _ => true end) ty = true -> map fst (put ty) = ty.
Proof.
  induction ty as [|t ty IH]; [reflexivity|]. cbn [forallb flat_map]. rewrite andb_true_iff. intros [A B]. rewrite mapp, IH by exact B. destruct t; try reflexivity. now rewrite plain_put.
Qed.
Lemma put_commas ls : map fst (put (with_commas ls)) = with_commas (map (fun l => map fst (put l)) ls).
Proof. induction ls as [|a [|b l] IH]; [reflexivity|reflexivity|]. cbn [with_commas map] in *. rewrite flat_map_app, mapp. cbn [flat_map put_tok app map fst pn]. now rewrite <- IH. Qed.
Lemma put_print : forall e, body_ok ps va e = true -> map fst (put (print_e e)) = print_e (sub e).
Proof.
  fix IH 1. intros e H. destruct e; cbn [body_ok] in H; cbn [print_e subst]; unfold pn, wd.
  - reflexivity.
  - apply negb_true_iff in H. pose proof (argument_ok x H) as A. cbn [flat_map put_tok]. rewrite app_nil_r. destruct (argument x ps va full) as [a|].
    + destruct A as (e & -> & A). exact A.
    + now rewrite A.
  - reflexivity.
  - reflexivity.
  - cbn [flat_map put_tok app map fst]. rewrite flat_map_app, mapp, (IH e H). reflexivity.
  - apply andb_true_iff in H as [H1 H2]. cbn [flat_map]. rewrite (plain_put f H1). cbn [put_tok app map fst]. rewrite flat_map_app, mapp. cbn [flat_map put_tok app map fst]. do 2 f_equal. f_equal.
    rewrite put_commas, map_map.
    set (g := fun a => match a with EId x => if str_eqb x $"__VA_ARGS__" then skipn (length ps) l' else [sub a] | _ => [sub a] end).
    assert (G : Forall (fun a => map fst (put (print_e a)) = with_commas (map print_e (g a)) /\ g a <> []) args).
    { induction args as [|a l IHl]; [constructor|]. cbn [forallb] in H2. apply andb_true_iff in H2 as [A B]. constructor; [|now apply IHl].
      assert (one : body_ok ps va a = true -> g a = [sub a] -> map fst (put (print_e a)) = with_commas (map print_e (g a)) /\ g a <> []).
      { intros K ->. split; [now apply IH|discriminate]. }
      destruct a as [|x| | | | | | | | | | | | | | | |]; try (now apply one). destruct (str_eqb x VA) eqn:E.
      - rewrite orb_false_r in A. apply str_eqb_eq in E. subst x. change (g (EId VA)) with (skipn (length ps) l'). cbn [print_e flat_map]. rewrite app_nil_r, (rest_put A). split; [reflexivity|].
        specialize (enough A). intro Z. apply (f_equal (@length _)) in Z. rewrite skipn_length in Z. cbn in Z. lia.
      - apply one; [cbn [body_ok]; now rewrite E|]. unfold g. fold VA. now rewrite E. }
    transitivity (with_commas (map with_commas (map (fun a => map print_e (g a)) args))).
    + rewrite map_map. f_equal. clear -G. induction G as [|a l [A _] _ IHl]; [reflexivity|]. cbn [map]. now rewrite A, IHl.
    + rewrite <- commas_concat.
      * f_equal. rewrite <- flat_map_concat_map. clear. induction args as [|a l IHl]; [reflexivity|]. cbn [flat_map]. rewrite map_app, IHl. reflexivity.
      * clear -G. induction G as [|a l [_ A] _ IHl]; [constructor|]. cbn [map]. constructor; [|exact IHl]. destruct (g a); [congruence|discriminate].
  - apply andb_true_iff in H as [A B]. rewrite flat_map_app, mapp, (IH e A). cbn [flat_map]. now rewrite (plain_put x B).
  - apply andb_true_iff in H as [A B]. rewrite flat_map_app, mapp, (IH e A). cbn [flat_map]. now rewrite (plain_put x B).
  - apply andb_true_iff in H as [A B]. rewrite flat_map_app, mapp, (IH e1 A). cbn [flat_map put_tok app map fst]. now rewrite flat_map_app, mapp, (IH e2 B).
  - cbn [flat_map put_tok app map fst]. now rewrite (IH e H).
  - cbn [flat_map put_tok app map fst]. now rewrite (IH e H).
  - cbn [flat_map put_tok app map fst]. now rewrite (IH e H).
  - cbn [flat_map put_tok app map fst]. now rewrite (IH e H).
  - apply andb_true_iff in H as [A B]. cbn [flat_map put_tok app map fst]. rewrite flat_map_app, mapp, (put_type ty A). cbn [flat_map put_tok app map fst]. now rewrite (IH e B).
  - apply andb_true_iff in H as [A B]. rewrite flat_map_app, mapp, (IH e1 A). cbn [flat_map put_tok app map fst]. now rewrite (IH e2 B).
  - apply andb_true_iff in H as [A B]. rewrite flat_map_app, mapp, (IH e1 A). cbn [flat_map put_tok app map fst]. now rewrite (IH e2 B).
  - apply andb_true_iff in H as [A B]. cbn [flat_map]. rewrite (plain_put _ A). cbn [put_tok app map fst]. rewrite flat_map_app, mapp, (IH e B). reflexivity.
  - apply andb_true_iff in H as [A B]. rewrite flat_map_app, mapp. now rewrite (IH e1 A), (IH e2 B).
Qed.
(** each token is the body's or an argument's *)
Lemma parameter_in {A} x (fl : list A) a : parameter x ps fl = Some a -> In a fl.
Proof. clear. revert fl. induction ps as [|p qs IH]; intros fl H; [discriminate|]. destruct fl as [|b fl]; [discriminate|]. cbn [parameter] in H. destruct (str_eqb x p); [injection H as ->; now left|right; eauto]. Qed.
Lemma joined_in ls : forall t, In t (joined ls) -> t = (TOp $",", []) \/ exists s, In s ls /\ In t s.
Proof.
  induction ls as [|a [|b l] IH]; intros t H; [destruct H|right; exists a; split; [now left|exact H]|]. cbn [joined] in H. apply in_app_or in H as [H|[H|H]]; [right; exists a; split; [now left|exact H]|now left|].
  destruct (IH t H) as [K|(s & I & K)]; [now left|]. right. exists s. split; [now right|exact K].
Qed.
Lemma skipn_in {A} n (ls : list A) s : In s (skipn n ls) -> In s ls.
Proof. revert ls. induction n as [|n IH]; intros ls H; [exact H|]. destruct ls; [destruct H|]. cbn [skipn] in H. right. now apply IH. Qed.
Lemma put_tokens t l : In t (put l) -> (snd t = [] /\ (In (fst t) l \/ fst t = pn ",")) \/ exists s, In s full /\ In t s.
Proof.
  clear F noVA enough. intro H. apply in_flat_map in H as (x & X & H). destruct x; cbn [put_tok] in H; try (destruct H as [<-|[]]; left; split; [reflexivity|now left]).
  unfold argument in H. destruct (parameter s ps full) as [a|] eqn:P; [right; exists a; split; [now apply parameter_in in P|exact H]|].
  destruct (va && _).
  - apply joined_in in H as [->|(q & I & H)]; [left; split; [reflexivity|now right]|]. right. exists q. split; [now apply skipn_in in I|exact H].
  - destruct H as [<-|[]]. left. split; [reflexivity|now left].
Qed.
End Put.

(* ---------------------------------------------------------------- expressions *)

(** macros use only macros of lower rank *)
Variable rank : str -> nat.
Definition plain_word (x : str) : Prop := macro_at m x = None.
Definition plain_type (ty : list tok) : Prop := forall w, In (TWord w) ty -> plain_word w.
Definition low (x : str) (b : expr) : Prop := forall w, In (TWord w) (print_e b) -> plain_word w \/ rank w < rank x.
Inductive mexp : expr -> expr -> Prop :=
| m_none : mexp ENone ENone
| m_str s : mexp (EStr s) (EStr s)
| m_chr s : mexp (EChr s) (EChr s)
| m_id x : plain_word x -> mexp (EId x) (EId x)
| m_object x b b' : macro_at m x = Some (mkdef None (print_e b)) -> no_hash (print_e b) = true -> low x b -> mexp b b' -> mexp (EId x) b'
| m_paren e e' : mexp e e' -> mexp (EParen e) (EParen e')
| m_call f l l' : plain_word f -> Forall2 mexp l l' -> mexp (ECall f l) (ECall f l')
| m_macro f ps va b l l' e' : macro_at m f = Some (mkdef (Some (ps, va)) (print_e b)) -> l <> [] -> Forall (fun e => shut_e e = true) l -> Forall2 mexp l l' ->
    no_hash (print_e b) = true -> body_ok ps va b = true -> mem VA ps = false -> (va = true -> length ps < length l) -> low f b ->
    mexp (subst (zip ps l') (skipn (length ps) l') b) e' -> mexp (ECall f l) e'
| m_field e e' x : mexp e e' -> plain_word x -> mexp (EField e x) (EField e' x)
| m_arrow e e' x : mexp e e' -> plain_word x -> mexp (EArrow e x) (EArrow e' x)
| m_index a a' b b' : mexp a a' -> mexp b b' -> mexp (EIndex a b) (EIndex a' b')
| m_not e e' : mexp e e' -> mexp (ENot e) (ENot e')
| m_neg e e' : mexp e e' -> mexp (ENeg e) (ENeg e')
| m_deref e e' : mexp e e' -> mexp (EDeref e) (EDeref e')
| m_addr e e' : mexp e e' -> mexp (EAddr e) (EAddr e')
| m_cast ty e e' : plain_type ty -> mexp e e' -> mexp (ECast ty e) (ECast ty e')
| m_bin o a a' b b' : mexp a a' -> mexp b b' -> mexp (EBin o a b) (EBin o a' b')
| m_set a a' b b' : mexp a a' -> mexp b b' -> mexp (ESet a b) (ESet a' b')
| m_sizeof e e' : plain_word $"sizeof" -> mexp e e' -> mexp (ESizeof e) (ESizeof e')
| m_cat a a' b b' : mexp a a' -> mexp b b' -> mexp (ECat a b) (ECat a' b').

Lemma mexp_induct (P : expr -> expr -> Prop)
  (Pnone : P ENone ENone) (Pstr : forall s, P (EStr s) (EStr s)) (Pchr : forall s, P (EChr s) (EChr s)) (Pid : forall x, plain_word x -> P (EId x) (EId x))
  (Pobject : forall x b b', macro_at m x = Some (mkdef None (print_e b)) -> no_hash (print_e b) = true -> low x b -> mexp b b' -> P b b' -> P (EId x) b')
  (Pparen : forall e e', P e e' -> P (EParen e) (EParen e'))
  (Pcall : forall f l l', plain_word f -> Forall2 P l l' -> P (ECall f l) (ECall f l'))
  (Pmacro : forall f ps va b l l' e', macro_at m f = Some (mkdef (Some (ps, va)) (print_e b)) -> l <> [] -> Forall (fun e => shut_e e = true) l -> Forall2 mexp l l' -> Forall2 P l l' ->
    no_hash (print_e b) = true -> body_ok ps va b = true -> mem VA ps = false -> (va = true -> length ps < length l) -> low f b ->
    P (subst (zip ps l') (skipn (length ps) l') b) e' -> P (ECall f l) e')
  (Pfield : forall e e' x, P e e' -> plain_word x -> P (EField e x) (EField e' x)) (Parrow : forall e e' x, P e e' -> plain_word x -> P (EArrow e x) (EArrow e' x))
  (Pindex : forall a a' b b', P a a' -> P b b' -> P (EIndex a b) (EIndex a' b'))
  (Pnot : forall e e', P e e' -> P (ENot e) (ENot e')) (Pneg : forall e e', P e e' -> P (ENeg e) (ENeg e'))
  (Pderef : forall e e', P e e' -> P (EDeref e) (EDeref e')) (Paddr : forall e e', P e e' -> P (EAddr e) (EAddr e'))
  (Pcast : forall ty e e', plain_type ty -> P e e' -> P (ECast ty e) (ECast ty e'))
  (Pbin : forall o a a' b b', P a a' -> P b b' -> P (EBin o a b) (EBin o a' b')) (Pset : forall a a' b b', P a a' -> P b b' -> P (ESet a b) (ESet a' b'))
  (Psizeof : forall e e', plain_word $"sizeof" -> P e e' -> P (ESizeof e) (ESizeof e')) (Pcat : forall a a' b b', P a a' -> P b b' -> P (ECat a b) (ECat a' b')) :
  forall e e', mexp e e' -> P e e'.
Proof.
  fix IH 3. intros e e' H. destruct H.
  - exact Pnone. - apply Pstr. - apply Pchr. - now apply Pid. - eapply Pobject; eauto. - apply Pparen. now apply IH.
  - apply Pcall; [assumption|]. clear -IH H0. induction H0; constructor; auto.
  - apply (Pmacro f ps va b l l'); try assumption; [clear -IH H2; induction H2; constructor; auto|now apply IH].
  - apply Pfield; auto. - apply Parrow; auto. - apply Pindex; auto. - apply Pnot; auto. - apply Pneg; auto. - apply Pderef; auto. - apply Paddr; auto. - apply Pcast; auto. - apply Pbin; auto.
  - apply Pset; auto. - apply Psizeof; auto. - apply Pcat; auto.
Qed.

(** what comes out holds no macros *)
Definition settled (e : expr) : Prop := forall w, In (TWord w) (print_e e) -> plain_word w.
Lemma commas_in t ls : In t (with_commas ls) -> t = pn "," \/ exists l, In l ls /\ In t l.
Proof.
  induction ls as [|a [|b l] IH]; intro H; [destruct H|right; exists a; split; [now left|exact H]|]. cbn [with_commas] in H. apply in_app_or in H as [H|[H|H]]; [right; exists a; split; [now left|exact H]|now left|].
  destruct (IH H) as [K|(s & I & K)]; [now left|]. right. exists s. split; [now right|exact K].
Qed.
Lemma mexp_settled e e' : mexp e e' -> settled e'.
Proof.
  intro H. induction H using mexp_induct; unfold settled in *; cbn [print_e]; intros w W;
    repeat match goal with
    | X : In _ (_ ++ _) |- _ => apply in_app_or in X as [X|X]
    | X : In _ (_ :: _) |- _ => destruct X as [X|X]; [first [discriminate X|injection X as X; subst; assumption]|]
    | X : In _ [] |- _ => destruct X
    end; auto.
  apply commas_in in W as [W|(q & Q & W)]; [discriminate|]. apply in_map_iff in Q as (a & <- & Q).
  match goal with X : Forall2 (fun _ _ => _) l l' |- _ => clear -X Q W; revert a Q W; induction X as [|x y l l' A B IH] end; intros a Q W; [destruct Q|]. destruct Q as [<-|Q]; [now apply A|eauto].
Qed.

Definition hides (L : list htok) : Prop := Forall (fun t => match fst t with TWord w => plain_word w \/ forall y, mem y (snd t) = true -> rank w < rank y | _ => True end) L.
Lemma hides_free w h L : hides ((TWord w, h) :: L) -> plain_word w \/ mem w h = false.
Proof.
  intro H. inversion H as [|? ? A _]; subst. destruct A as [A|A]; [now left|]. right. cbn [snd] in A. destruct (mem w h) eqn:E; [|reflexivity]. specialize (A w E). lia.
Qed.
Lemma hides_app a b : hides (a ++ b) <-> hides a /\ hides b.
Proof. apply Forall_app. Qed.
Lemma s_plain_list L l r : (forall w, In (TWord w) (map fst L) -> plain_word w) -> steps m l r -> steps m (L ++ l) (map fst L ++ r).
Proof.
  intros H S. apply s_plains; [|exact S]. apply Forall_forall. intros t T. unfold plain_tok. destruct (fst t) eqn:E; try exact Logic.I. right. apply H. rewrite <- E. now apply in_map.
Qed.
Lemma mem_filter y f l : mem y (filter f l) = true -> mem y l = true.
Proof. unfold mem. rewrite !existsb_exists. intros (x & X & E). apply filter_In in X as [X _]. eauto. Qed.
Definition reaches (e e' : expr) : Prop := forall L l r, map fst L = print_e e -> hides L -> steps m l r -> steps m (L ++ l) (print_e e' ++ r).
Lemma reaches_app a a' b b' : (forall L l r, map fst L = a -> hides L -> steps m l r -> steps m (L ++ l) (a' ++ r)) ->
  (forall L l r, map fst L = b -> hides L -> steps m l r -> steps m (L ++ l) (b' ++ r)) ->
  forall L l r, map fst L = a ++ b -> hides L -> steps m l r -> steps m (L ++ l) ((a' ++ b') ++ r).
Proof.
  intros A B L l r E H S. apply map_eq_app in E as (L1 & L2 & -> & E1 & E2). apply hides_app in H as [H1 H2]. rewrite <- !app_assoc. apply A; auto.
Qed.
Definition holds (a a' : list tok) : Prop := forall L l r, map fst L = a -> hides L -> steps m l r -> steps m (L ++ l) (a' ++ r).
Lemma holds_same a : (forall w, In (TWord w) a -> plain_word w) -> holds a a.
Proof. intros P L l r <- _ S. now apply s_plain_list. Qed.
Lemma holds_op o : holds [TOp o] [TOp o].
Proof. apply holds_same. intros w [W|[]]. discriminate. Qed.
Lemma holds_word x : plain_word x -> holds [TWord x] [TWord x].
Proof. intro P. apply holds_same. intros w [W|[]]. congruence. Qed.
Lemma holds_nil : holds [] [].
Proof. apply holds_same. intros w []. Qed.
Lemma holds_app a a' b b' : holds a a' -> holds b b' -> holds (a ++ b) (a' ++ b').
Proof. exact (reaches_app a a' b b'). Qed.
Lemma holds_cons t b b' : (forall w, t = TWord w -> plain_word w) -> holds b b' -> holds (t :: b) (t :: b').
Proof. intros T B. apply (holds_app [t] [t]); [|exact B]. apply holds_same. intros w [W|[]]. auto. Qed.
Lemma holds_op_cons o b b' : holds b b' -> holds (TOp o :: b) (TOp o :: b').
Proof. apply holds_cons. discriminate. Qed.
Lemma holds_commas l l' : Forall2 (fun e e' => holds (print_e e) (print_e e')) l l' -> holds (with_commas (map print_e l)) (with_commas (map print_e l')).
Proof.
  induction 1 as [|a a' l l' A H IH]; [apply holds_nil|]. destruct H as [|b b' l l' B H]; [exact A|].
  change (with_commas (map print_e (a :: b :: l))) with (print_e a ++ pn "," :: with_commas (map print_e (b :: l))).
  change (with_commas (map print_e (a' :: b' :: l'))) with (print_e a' ++ pn "," :: with_commas (map print_e (b' :: l'))). apply holds_app; [exact A|]. now apply holds_op_cons.
Qed.
Lemma hide_body x h l : hides [(TWord x, h)] -> ~ plain_word x -> Forall (fun t => (exists w, fst t = TWord w /\ (plain_word w \/ (snd t = [] /\ rank w < rank x))) \/ (forall w, fst t <> TWord w)) l ->
  forall h', (forall y, mem y h' = true -> y = x \/ mem y h = true) -> hides (hide h' l).
Proof.
  intros H N F h' I. inversion H as [|? ? A _]; subst. cbn [fst snd] in A. destruct A as [A|A]; [contradiction|]. unfold hides, hide. apply Forall_map. eapply Forall_impl; [|exact F].
  intros [t k] [(w & E & D)|E]; cbn [fst snd] in *.
  - subst t. destruct D as [D|[-> D]]; [now left|]. right. rewrite app_nil_r. intros y Y. destruct (I y Y) as [->|Z]; [exact D|]. specialize (A y Z). lia.
  - destruct t; try exact Logic.I. now destruct (E s).
Qed.
Lemma hide_fst h l : map fst (hide h l) = map fst l.
Proof. unfold hide. rewrite map_map. now apply map_ext. Qed.
Lemma object_put b : no_hash b = true -> map fst (put_in [] false [] [] [] b) = b /\ forall t, In t (put_in [] false [] [] [] b) -> snd t = [] /\ In (fst t) b.
Proof.
  intro N. rewrite put_in_map by exact N. cbn [app]. clear N. assert (E : forall t, put_tok [] false [] t = [(t, [])]) by (intros []; reflexivity). induction b as [|t b [I J]]; [now split|]. cbn [flat_map]. rewrite E. cbn [app map fst].
  split; [now rewrite I|]. intros x [<-|X]; [split; [reflexivity|now left]|]. destruct (J x X). split; [assumption|now right].
Qed.
Lemma mexp_holds e e' : mexp e e' -> holds (print_e e) (print_e e').
Proof.
  intro H. induction H using mexp_induct; cbn [print_e].
  - apply holds_nil.
  - apply holds_same. intros w [W|[]]. discriminate.
  - apply holds_same. intros w [W|[]]. discriminate.
  - now apply holds_word.
  - intros L l r E Hd S. destruct L as [|[t h] [|]]; try discriminate. cbn [map fst] in E. injection E as ->. cbn [app].
    assert (NP : ~ plain_word x) by (unfold plain_word; congruence). destruct (hides_free _ _ _ Hd) as [P|M]; [contradiction|]. destruct (object_put _ H0) as [O1 O2].
    eapply s_object; [exact M|exact H|]. apply IHmexp; [now rewrite hide_fst| |exact S]. apply (hide_body x h); [exact Hd|exact NP| |].
    + apply Forall_forall. intros [u k] U. destruct (O2 _ U) as [K I]. cbn [fst snd] in *. destruct u; try (right; discriminate). left. eexists. split; [reflexivity|]. destruct (H1 _ I) as [P|R]; [now left|right; now split].
    + intros y Y. cbn [mem existsb] in Y. unfold mem in Y. cbn [existsb] in Y. apply orb_true_iff in Y as [Y|Y]; [left; now apply str_eqb_eq in Y|now right].
  - apply holds_op_cons. apply holds_app; [exact IHmexp|apply holds_op].
  - apply holds_cons; [now intros w [= <-]|]. apply holds_op_cons. apply holds_app; [now apply holds_commas|apply holds_op].
  - intros L lr r E Hd S. destruct L as [|[t h] [|[t1 h1] L]]; try discriminate. cbn [map fst] in E. injection E as -> -> E. apply map_eq_app in E as (La & Lb & -> & EA & EB).
    destruct Lb as [|[t2 h2] [|]]; try discriminate. cbn [map fst] in EB. injection EB as ->. cbn [app]. rewrite <- app_assoc. cbn [app].
    assert (NP : ~ plain_word f) by (unfold plain_word; congruence). destruct (hides_free _ _ _ Hd) as [P|M]; [contradiction|].
    destruct (arguments_of l H0 H1 La EA h2 lr) as (raw & A & R & C).
    assert (HA : hides La). { inversion Hd as [|? ? _ Hd1]; subst. inversion Hd1 as [|? ? _ Hd2]; subst. now apply hides_app in Hd2 as [Hd2 _]. }
    assert (G : exists full, Forall2 goes raw full /\ Forall2 (fun s e => map fst s = print_e e) full l').
    { assert (HR : Forall hides raw). { apply Forall_forall. intros s Sx. apply Forall_forall. intros u U. unfold hides in HA. rewrite Forall_forall in HA. apply HA, C. apply in_concat. eauto. }
      clear -R HR H3. revert raw R HR. induction H3 as [|e e' l l' K _ IH]; intros raw R HR; inversion R; subst; [exists []; split; constructor|]. inversion HR; subst.
      match goal with X : Forall2 _ _ l |- _ => destruct (IH _ X) as (full & F1 & F2); [assumption|] end.
      destruct (K x [] []) as (n & y & Y1 & Y2); [assumption|assumption|apply s_nil|]. rewrite !app_nil_r in *. exists (y :: full). split; constructor; try assumption. now exists n. }
    destruct G as (full & G & F). eapply s_call_full; [exact M|exact H|exact A|exact G|]. rewrite put_in_map by exact H4. cbn [app].
    apply IHmexp; [rewrite hide_fst; apply put_print; try assumption| |exact S].
    + intro V. specialize (H7 V). apply Forall2_length in H2. lia.
    + apply (hide_body f h).
      * inversion Hd; subst. now constructor.
      * exact NP.
      * apply Forall_forall. intros [u k] U. apply put_tokens in U as [[K U]|(s & I & U)]; cbn [fst snd] in *.
        { destruct u; try (right; discriminate). destruct U as [U|U]; [|discriminate]. left. eexists. split; [reflexivity|]. destruct (H8 _ U) as [P|Q]; [now left|right; now split]. }
        { destruct u; try (right; discriminate). left. eexists. split; [reflexivity|]. left.
          assert (Se : Forall settled l'). { clear -H2. induction H2; constructor; [now apply mexp_settled in H|assumption]. }
          clear -F Se I U. revert s I U. induction F as [|a e full l' E F IH]; intros s I U; [destruct I|]. inversion Se; subst. destruct I as [->|I]; [|eauto]. match goal with X : settled e |- _ => apply X end. rewrite <- E. apply in_map_iff. now exists (TWord s0, k). }
      * intros y Y. unfold mem in Y. cbn [existsb] in Y. apply orb_true_iff in Y as [Y|Y]; [left; now apply str_eqb_eq in Y|right]. now apply mem_filter in Y.
  - apply holds_app; [assumption|]. apply holds_op_cons. now apply holds_word.
  - apply holds_app; [assumption|]. apply holds_op_cons. now apply holds_word.
  - apply holds_app; [assumption|]. apply holds_op_cons. apply holds_app; [assumption|apply holds_op].
  - now apply holds_op_cons.
  - now apply holds_op_cons.
  - now apply holds_op_cons.
  - now apply holds_op_cons.
  - apply holds_op_cons. apply holds_app; [now apply holds_same|]. now apply holds_op_cons.
  - apply holds_app; [assumption|]. now apply holds_op_cons.
  - apply holds_app; [assumption|]. now apply holds_op_cons.
  - apply holds_cons; [now intros w [= <-]|]. apply holds_op_cons. apply holds_app; [assumption|apply holds_op].
  - now apply holds_app.
Qed.
Lemma holds_becomes a b : holds a b -> becomes m a b.
Proof.
  intro H. apply becomes_steps. specialize (H (map (fun t => (t, [])) a) [] []). rewrite !app_nil_r in H. apply H; [rewrite map_map; cbn; apply map_id| |apply s_nil].
  unfold hides. apply Forall_map, Forall_forall. intros [] _; cbn; auto. right. discriminate.
Qed.
End Macros.

(* ---------------------------------------------------------------- checked *)

Section Check.
Variables (M : str -> option macro) (wordok : str -> bool) (rk : str -> nat).
Definition tyok (ty : list tok) : bool := forallb (fun t => match t with TWord w => wordok w | _ => true end) ty.
Definition lowok (x : str) (b : expr) : bool := forallb (fun t => match t with TWord w => wordok w || (rk w <? rk x) | _ => true end) (print_e b).
Definition body_fits (x : str) (b : expr) : bool := no_hash (print_e b) && lowok x b.
Definition call_fits (f : str) (ps : list str) (va : bool) (b : expr) (l : list expr) : bool :=
  body_fits f b && negb (match l with [] => true | _ => false end) && forallb shut_e l && body_ok ps va b && negb (mem VA ps) && (negb va || (length ps <? length l)).
Fixpoint chk (n : nat) (e : expr) {struct n} : bool :=
  match n with
  | O => false
  | S n =>
      (fix go (e : expr) : bool :=
         match e with
         | ENone | EStr _ | EChr _ => true
         | EId x => match M x with
                    | Some (mkmacro None (MExpr b)) => body_fits x b && chk n b
                    | Some _ => false
                    | None => wordok x
                    end
         | EParen e | ENot e | ENeg e | EDeref e | EAddr e => go e
         | ECall f l => forallb go l && match M f with
                                        | Some (mkmacro (Some (ps, va)) (MExpr b)) => call_fits f ps va b l && chk n (subst (zip ps (map (expand M (S n)) l)) (skipn (length ps) (map (expand M (S n)) l)) b)
                                        | Some _ => false
                                        | None => wordok f
                                        end
         | EField e x | EArrow e x => go e && wordok x
         | EIndex a b | ESet a b | ECat a b | EBin _ a b => go a && go b
         | ECast ty e => tyok ty && go e
         | ESizeof e => wordok $"sizeof" && go e
         end) e
  end.
Fixpoint schk (s : stmt) : bool :=
  match s with
  | SExpr e => chk 8 e
  | SDecl ty x _ init => tyok ty && wordok x && match init with Some e => chk 8 e | None => true end
  | SIf c yes no => chk 8 c && forallb schk yes && match no with Some l => forallb schk l | None => true end
  | SReturn e => match e with Some e => chk 8 e | None => true end
  | SSwitch e body => chk 8 e && forallb schk body
  | SCase e => chk 8 e
  | SDefault | SBreak => true
  end.
Definition fchk (f : func) : bool := tyok (f_head f) && wordok (f_name f) && forallb (fun p => tyok (fst p) && wordok (snd p)) (f_params f) && forallb schk (f_body f).
Definition key_words : list str := map (fun s => $s) ["if"; "else"; "return"; "switch"; "case"; "default"; "break"; "void"]%string.

Variable m : macro_table.
Hypothesis word_plain : forall w, wordok w = true -> macro_at m w = None.
Hypothesis object_same : forall x b, M x = Some (mkmacro None (MExpr b)) -> macro_at m x = Some (mkdef None (print_e b)).
Hypothesis call_same : forall x p b, M x = Some (mkmacro (Some p) (MExpr b)) -> macro_at m x = Some (mkdef (Some p) (print_e b)).
Hypothesis keys : forallb wordok key_words = true.
Lemma tyok_plain ty : tyok ty = true -> plain_type m ty.
Proof. intros H w W. unfold tyok in H. rewrite forallb_forall in H. apply word_plain. exact (H _ W). Qed.
Lemma lowok_low x b : lowok x b = true -> low m rk x b.
Proof.
  intros H w W. unfold lowok in H. rewrite forallb_forall in H. specialize (H _ W). cbn beta iota in H. apply orb_true_iff in H as [H|H]; [left; now apply word_plain|right; now apply Nat.ltb_lt].
Qed.
Lemma fits_body x b : body_fits x b = true -> no_hash (print_e b) = true /\ low m rk x b.
Proof. intro H. apply andb_true_iff in H as [A B]. split; [exact A|now apply lowok_low]. Qed.
Lemma chk_call n f l : chk (S n) (ECall f l) = forallb (chk (S n)) l && match M f with
  | Some (mkmacro (Some (ps, va)) (MExpr b)) => call_fits f ps va b l && chk n (subst (zip ps (map (expand M (S n)) l)) (skipn (length ps) (map (expand M (S n)) l)) b)
  | Some _ => false
  | None => wordok f
  end.
Proof. reflexivity. Qed.
Lemma chk_mexp n : forall e, chk n e = true -> mexp m rk e (expand M n e).
Proof.
  induction n as [|n IH]; [discriminate|]. fix go 1. intros e H. destruct e; try (cbn [chk expand] in *; constructor; fail); try (cbn [chk expand] in *; constructor; now apply go);
    try (cbn [chk] in H; apply andb_true_iff in H as [A B]; cbn [expand]; constructor; first [now apply go|now apply word_plain|now apply tyok_plain]).
  - cbn [chk expand] in *. destruct (M x) as [[[p|] [b|l]]|] eqn:E; try discriminate.
    + apply andb_true_iff in H as [A B]. apply fits_body in A as [A1 A2]. eapply m_object; [exact (object_same _ _ E)|exact A1|exact A2|now apply IH].
    + constructor. now apply word_plain.
  - rewrite chk_call in H. apply andb_true_iff in H as [A B]. assert (F : Forall2 (mexp m rk) args (map (expand M (S n)) args)).
    { clear B. induction args as [|a args IHa]; [constructor|]. change (chk (S n) a && forallb (chk (S n)) args = true) in A. apply andb_true_iff in A as [A1 A2]. change (map (expand M (S n)) (a :: args)) with (expand M (S n) a :: map (expand M (S n)) args). constructor; [now apply go|now apply IHa]. }
    change (expand M (S n) (ECall f args)) with (match M f with
      | Some (mkmacro (Some (ps, _)) (MExpr b)) => expand M n (subst (zip ps (map (expand M (S n)) args)) (skipn (length ps) (map (expand M (S n)) args)) b)
      | _ => ECall f (map (expand M (S n)) args)
      end).
    destruct (M f) as [[[[ps va]|] [b|l]]|] eqn:E; try discriminate.
    + apply andb_true_iff in B as [B C]. unfold call_fits in B. rewrite !andb_true_iff in B. destruct B as (((((B1 & B2) & B3) & B4) & B5) & B6). apply fits_body in B1 as [B1 B1'].
      eapply m_macro; [exact (call_same _ _ _ E)|destruct args; [discriminate|congruence]|apply Forall_forall; intros q Q; rewrite forallb_forall in B3; now apply B3|exact F|exact B1|exact B4|now apply negb_true_iff| |exact B1'|now apply IH].
      intros ->. cbn in B6. now apply Nat.ltb_lt in B6.
    + constructor; [now apply word_plain|exact F].
Qed.
Notation H' := (holds m rk).
Lemma chk_holds e : chk 8 e = true -> H' (print_e e) (print_e (expand_e M e)).
Proof. intro H. apply mexp_holds. now apply chk_mexp. Qed.
Lemma key w : In w key_words -> forall x, TWord w = TWord x -> plain_word m x.
Proof. intros I x [= <-]. rewrite forallb_forall in keys. now apply word_plain, keys. Qed.
Lemma tyok_holds ty : tyok ty = true -> H' ty ty.
Proof. intro H. apply holds_same. now apply tyok_plain. Qed.
Lemma holds_list l : Forall (fun s => schk s = true -> H' (print_s s) (print_s (expand_s M s))) l -> forallb schk l = true -> H' (flat_map print_s l) (flat_map print_s (map (expand_s M) l)).
Proof.
  induction 1 as [|s l A _ IH]; intro H; [apply holds_nil|]. cbn [forallb flat_map map] in *. apply andb_true_iff in H as [H1 H2]. apply holds_app; auto.
Qed.
Ltac kw := apply holds_cons; [apply key; unfold key_words; cbn [map In]; tauto|].
Lemma schk_holds : forall s, schk s = true -> H' (print_s s) (print_s (expand_s M s)).
Proof.
  fix go 1. intros s H. assert (L : forall l, forallb schk l = true -> H' (flat_map print_s l) (flat_map print_s (map (expand_s M) l))).
  { intros l. apply holds_list. induction l as [|x l IH]; constructor; [apply go|exact IH]. }
  destruct s; cbn [schk] in H; cbn [print_s expand_s].
  - apply holds_app; [now apply chk_holds|apply holds_op].
  - rewrite !andb_true_iff in H. destruct H as [[A B] C]. apply holds_app; [now apply tyok_holds|]. apply holds_cons; [intros w [= <-]; now apply word_plain|].
    apply holds_app; [apply holds_same; intros w W; destruct array; repeat (destruct W as [W|W]; [discriminate|]); destruct W|]. apply holds_app; [|apply holds_op].
    destruct init; [|apply holds_nil]. apply holds_op_cons. now apply chk_holds.
  - rewrite !andb_true_iff in H. destruct H as [[A B] C]. kw. apply holds_op_cons. apply holds_app; [now apply chk_holds|]. do 2 apply holds_op_cons. apply holds_app; [now apply L|]. apply holds_op_cons.
    destruct no; [|apply holds_nil]. cbn [option_map]. kw. apply holds_op_cons. apply holds_app; [now apply L|apply holds_op].
  - kw. apply holds_app; [|apply holds_op]. destruct e; [now apply chk_holds|apply holds_nil].
  - rewrite !andb_true_iff in H. destruct H as [A B]. kw. apply holds_op_cons. apply holds_app; [now apply chk_holds|]. do 2 apply holds_op_cons. apply holds_app; [now apply L|apply holds_op].
  - kw. apply holds_app; [now apply chk_holds|apply holds_op].
  - kw. apply holds_op.
  - kw. apply holds_op.
Qed.
Lemma params_words l w : forallb (fun p => tyok (fst p) && wordok (snd p)) l = true -> In (TWord w) (print_params l) -> plain_word m w.
Proof.
  intros H W. unfold print_params in W. destruct l as [|p l]; [destruct W as [W|[]]; apply (key $"void"); [unfold key_words; cbn [map In]; tauto|exact W]|].
  apply commas_in in W as [W|(q & Q & W)]; [discriminate|]. apply in_map_iff in Q as (y & <- & Q). rewrite forallb_forall in H. specialize (H y Q). apply andb_true_iff in H as [A B].
  apply in_app_or in W as [W|[W|[]]]; [now apply (tyok_plain _ A)|]. injection W as <-. now apply word_plain.
Qed.
Lemma fchk_holds f : fchk f = true -> becomes m (print_f f) (print_f (expand_f M f)).
Proof.
  unfold fchk. rewrite !andb_true_iff. intros [[[A B] C] D]. apply (holds_becomes m rk). unfold print_f, expand_f. cbn [f_head f_name f_params f_body].
  apply holds_app; [now apply tyok_holds|]. apply holds_cons; [intros w [= <-]; now apply word_plain|]. apply holds_op_cons. apply holds_app; [apply holds_same; intros w; now apply params_words|].
  do 2 apply holds_op_cons. apply holds_app; [|apply holds_op]. apply holds_list; [|exact D]. apply Forall_forall. intros s _. apply schk_holds.
Qed.
End Check.

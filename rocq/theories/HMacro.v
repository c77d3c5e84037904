(** Proofs for C93 to C96: replacing macros step by step, and which definition of a macro counts. *)
From Coq Require Import Ascii String List Bool Arith Lia.
From Verif Require Import Str StrFacts SpecCLang SpecCProg SpecCMacro SpecHeader HText.
Import ListNotations.

(* ---------------------------------------------------------------- replacement *)

Section Replace.
Variable m : macro_table.
Lemma all_some_mono {A} (f g : A -> option A) l r : (forall x y, In x l -> f x = Some y -> g x = Some y) -> all_some (map f l) = Some r -> all_some (map g l) = Some r.
Proof.
  revert r; induction l as [|x l IH]; intros r H E; [exact E|]. cbn [map all_some] in *. destruct (f x) as [y|] eqn:F; [|discriminate].
  rewrite (H x y (or_introl eq_refl) F). destruct (all_some (map f l)) as [r'|] eqn:R; [|discriminate]. now rewrite (IH r' (fun a b I => H a b (or_intror I)) eq_refl).
Qed.
Lemma replace_mono n : forall n' l x, replace_all m n l = Some x -> n <= n' -> replace_all m n' l = Some x.
Proof.
  induction n as [|n IH]; intros n' l x E L; [discriminate|]. destruct n' as [|n']; [lia|]. assert (L' : n <= n') by lia. cbn [replace_all] in *.
  assert (K : forall t l x, option_map (cons t) (replace_all m n l) = Some x -> option_map (cons (A := htok) t) (replace_all m n' l) = Some x).
  { intros t k y F. destruct (replace_all m n k) as [z|] eqn:Z; [|discriminate]. now rewrite (IH n' k z Z L'). }
  destruct l as [|[t h] l]; [exact E|]. destruct t; try now apply K.
  destruct (mem s h); [now apply K|]. destruct (macro_at m s) as [[[[ps va]|] b]|]; [|now apply (IH n')|now apply K].
  destruct l as [|[t' h'] l']; [now apply K|]. destruct t'; try now apply K. destruct (str_eqb s0 $"("); [|now apply K].
  destruct (arguments 0 [] l') as [[[raw h2] r]|]; [|discriminate]. destruct (all_some (map (replace_all m n) raw)) as [full|] eqn:F; [|discriminate].
  rewrite (all_some_mono (replace_all m n) (replace_all m n') raw full (fun a b _ X => IH n' a b X L') F). now apply (IH n').
Qed.

Definition steps (l : list htok) (r : list tok) : Prop := exists n x, replace_all m n l = Some x /\ map fst x = r.
Lemma s_nil : steps [] [].
Proof. now exists 1, []. Qed.
Lemma keep_next t l r : (forall n, replace_all m (S n) (t :: l) = option_map (cons t) (replace_all m n l)) -> steps l r -> steps (t :: l) (fst t :: r).
Proof. intros H (n & x & E & R). exists (S n), (t :: x). rewrite H, E. cbn. now rewrite R. Qed.
Definition plain_tok (t : htok) : Prop := match fst t with TWord x => mem x (snd t) = true \/ macro_at m x = None | _ => True end.
Lemma plain_keeps t l n : plain_tok t -> replace_all m (S n) (t :: l) = option_map (cons t) (replace_all m n l).
Proof.
  destruct t as [[] h]; intro P; cbn [replace_all]; try reflexivity. unfold plain_tok in P; cbn [fst snd] in P. destruct P as [-> | H]; [reflexivity|].
  destruct (mem s h); [reflexivity|]. now rewrite H.
Qed.
Lemma s_plain t l r : plain_tok t -> steps l r -> steps (t :: l) (fst t :: r).
Proof. intro P. apply keep_next. intro n. now apply plain_keeps. Qed.
Lemma plain_args a : Forall plain_tok a -> replace_all m (S (length a)) a = Some a.
Proof. induction 1 as [|t a P _ IH]; [reflexivity|]. change (length (t :: a)) with (S (length a)). now rewrite (plain_keeps t a _ P), IH. Qed.
Lemma s_plains a l r : Forall plain_tok a -> steps l r -> steps (a ++ l) (map fst a ++ r).
Proof. induction 1 as [|t a P _ IH]; intro S; [exact S|]. cbn [app map]. apply s_plain; [exact P|now apply IH]. Qed.
Lemma s_object x h b l r : mem x h = false -> macro_at m x = Some (mkdef None b) -> steps (hide (x :: h) (put_in [] false [] [] [] b) ++ l) r -> steps ((TWord x, h) :: l) r.
Proof. intros M D (n & y & E & R). exists (S n), y. split; [|exact R]. cbn [replace_all]. now rewrite M, D. Qed.
Lemma s_call x h ps va b h1 l raw h2 l2 r : mem x h = false -> macro_at m x = Some (mkdef (Some (ps, va)) b) ->
  arguments 0 [] l = Some (raw, h2, l2) -> Forall (Forall plain_tok) raw ->
  steps (hide (x :: filter (fun z => mem z h2) h) (put_in ps va raw raw [] b) ++ l2) r -> steps ((TWord x, h) :: (TOp $"(", h1) :: l) r.
Proof.
  intros M D A P (n & y & E & R).
  assert (F : exists k, forall j, k <= j -> all_some (map (replace_all m j) raw) = Some raw).
  { clear A E. induction P as [|a raw Pa _ [k IH]]; [now exists 0|]. exists (Nat.max k (S (length a))). intros j Hj. cbn [map all_some].
    rewrite (replace_mono _ j _ _ (plain_args a Pa)) by lia. now rewrite IH by lia. }
  destruct F as [k F]. exists (S (Nat.max n k)), y. split; [|exact R]. cbn [replace_all]. rewrite M, D. change (str_eqb $"(" $"(") with true. cbv iota.
  rewrite A, F by lia. apply (replace_mono n); [exact E|lia].
Qed.
End Replace.
Lemma becomes_steps m l r : steps m (map (fun t => (t, [])) l) r -> becomes m l r.
Proof. exact (fun H => H). Qed.
Lemma becomes_app m a b r s : Forall (plain_tok m) (map (fun t => (t, [])) a) -> becomes m b s -> map fst (map (fun t : tok => (t, @nil str)) a) = r -> becomes m (a ++ b) (r ++ s).
Proof. intros P B <-. unfold becomes. rewrite map_app. now apply (s_plains m). Qed.

(** the arguments of a call that hold no parentheses *)
Lemma one_argument a h r : forall acc, Forall (fun t => fst t <> TOp $"(" /\ fst t <> TOp $")" /\ fst t <> TOp $",") a ->
  arguments 0 acc (a ++ (TOp $")", h) :: r) = Some ([acc ++ a], h, r).
Proof.
  induction a as [|t a IH]; intros acc H.
  - cbn [app arguments]. change (str_eqb $")" $"(") with false. change (str_eqb $")" $")") with true. cbv iota. now rewrite app_nil_r.
  - inversion H as [|? ? (A & B & C) H']; subst. cbn [app]. destruct t as [t h1]. cbn [fst] in *.
    assert (X : arguments 0 acc ((t, h1) :: a ++ (TOp $")", h) :: r) = arguments 0 (acc ++ [(t, h1)]) (a ++ (TOp $")", h) :: r)).
    { destruct t; try reflexivity. cbn [arguments]. destruct (str_eqb s $"(") eqn:E1; [apply str_eqb_eq in E1; subst; contradiction|].
      destruct (str_eqb s $")") eqn:E2; [apply str_eqb_eq in E2; subst; contradiction|]. destruct (str_eqb s $",") eqn:E3; [apply str_eqb_eq in E3; subst; contradiction|]. reflexivity. }
    rewrite X, IH by exact H'. now rewrite <- app_assoc.
Qed.
Lemma some_arguments a h r : forall acc, Forall (fun t => fst t <> TOp $"(" /\ fst t <> TOp $")") a ->
  exists raw, arguments 0 acc (a ++ (TOp $")", h) :: r) = Some (raw, h, r) /\ forall b t, In b raw -> In t b -> In t (acc ++ a).
Proof.
  induction a as [|t a IH]; intros acc H.
  - exists [acc]. cbn [app arguments]. change (str_eqb $")" $"(") with false. change (str_eqb $")" $")") with true. cbv iota. split; [reflexivity|].
    intros b t [<-|[]] I. apply in_app_iff. now left.
  - inversion H as [|? ? (A & B) H']; subst. cbn [app]. destruct t as [t h1]. cbn [fst] in *.
    assert (N : forall raw, (forall b t0, In b raw -> In t0 b -> In t0 ((acc ++ [(t, h1)]) ++ a)) -> forall b t0, In b raw -> In t0 b -> In t0 (acc ++ (t, h1) :: a)).
    { intros raw G b t0 I J. specialize (G b t0 I J). now rewrite <- app_assoc in G. }
    assert (D : arguments 0 acc ((t, h1) :: a ++ (TOp $")", h) :: r) = arguments 0 (acc ++ [(t, h1)]) (a ++ (TOp $")", h) :: r) \/ t = TOp $",").
    { destruct t; try (left; reflexivity). cbn [arguments]. destruct (str_eqb s $"(") eqn:E1; [apply str_eqb_eq in E1; subst; contradiction|].
      destruct (str_eqb s $")") eqn:E2; [apply str_eqb_eq in E2; subst; contradiction|]. destruct (str_eqb s $",") eqn:E3; [apply str_eqb_eq in E3; subst; now right|now left]. }
    destruct D as [D | ->].
    + destruct (IH (acc ++ [(t, h1)]) H') as (raw & E & G). exists raw. rewrite D, E. split; [reflexivity|now apply N].
    + destruct (IH [] H') as (raw & E & G). exists (acc :: raw). cbn [arguments]. change (str_eqb $"," $"(") with false. change (str_eqb $"," $")") with false.
      change (str_eqb $"," $"," && (0 =? 0)) with true. cbv iota. rewrite E. split; [reflexivity|]. intros b t0 [<-|I] J; apply in_app_iff; [now left|right; right].
      exact (G b t0 I J).
Qed.

(* ---------------------------------------------------------------- the definition that counts *)

Definition named (o : pout) : option str := match o with PTok _ => None | PDefine y _ _ | PUndef y => Some y end.
Definition names_it (x : str) (o : pout) : bool := match named o with Some y => str_eqb x y | None => false end.
Fixpoint last_def (x : str) (l : list pout) : option pout :=
  match l with [] => None | o :: r => match last_def x r with Some d => Some d | None => if names_it x o then Some o else None end end.
Lemma last_def_app x a b : last_def x (a ++ b) = match last_def x b with Some d => Some d | None => last_def x a end.
Proof. induction a as [|o a IH]; cbn [app last_def]; [now destruct (last_def x b)|]. rewrite IH. now destruct (last_def x b). Qed.
Lemma last_def_none x l : (forall o, In o l -> names_it x o = false) -> last_def x l = None.
Proof. induction l as [|o l IH]; intro H; [reflexivity|]. cbn [last_def]. rewrite IH by (intros; apply H; now right). now rewrite (H o (or_introl eq_refl)). Qed.
Definition meaning (o : pout) : option mdef := match o with PDefine _ b l => read_macro b l | _ => None end.
Lemma macro_at_def x l : macro_at (macros_of l) x = match last_def x l with Some o => meaning o | None => None end.
Proof.
  assert (H : forall l t, lookup x (fold_left add_macro l t) = match last_def x l with Some o => Some (meaning o) | None => lookup x t end).
  { clear l. induction l as [|o l IH]; intro t; [reflexivity|]. cbn [fold_left last_def]. rewrite IH. destruct (last_def x l); [reflexivity|].
    destruct o; cbn [add_macro names_it named lookup]; [reflexivity| |]; now destruct (str_eqb x x0). }
  unfold macro_at, macros_of. rewrite H. now destruct (last_def x l).
Qed.
Definition is_define (o : pout) : bool := match o with PDefine _ _ _ => true | _ => false end.
Lemma defined_def x l cfg : defined_after cfg l x = match last_def x l with Some o => is_define o | None => cfg x end.
Proof.
  revert cfg; induction l as [|o l IH]; intro cfg; [reflexivity|]. change (defined_after cfg (o :: l)) with (defined_after
    (match o with PTok _ => cfg | PDefine y _ _ => fun x => if str_eqb x y then true else cfg x | PUndef y => fun x => if str_eqb x y then false else cfg x end) l).
  rewrite IH. cbn [last_def]. destruct (last_def x l); [reflexivity|]. destruct o; cbn [names_it named]; [reflexivity| |]; now destruct (str_eqb x x0).
Qed.

(** Proofs for C92: the functions of the program read from common.c and c.c, with the macros replaced. *)
From Coq Require Import Ascii String List Bool Arith Lia ZArith.
From Verif Require Import Str StrFacts Parse ParamNames Prefix Substitute SpecPrefix SpecSubstitute Templates SpecTemplates CRuntime
  SpecCLang SpecCProg SpecCRun SpecBody CTemplate CTemplatePP CBody CBodyText CCode.
Import ListNotations.

(* ---------------------------------------------------------------- macros that matter *)

Definition useful (o : option macro) : option macro := match o with Some (mkmacro p (MExpr e)) => o | _ => None end.
Lemma expand_call m n f l : expand m (S n) (ECall f l) =
  match m f with
  | Some (mkmacro (Some (ps, _)) (MExpr b)) => expand m n (subst (zip ps (map (expand m (S n)) l)) (skipn (length ps) (map (expand m (S n)) l)) b)
  | _ => ECall f (map (expand m (S n)) l)
  end.
Proof. reflexivity. Qed.
Section Same.
Variables m m' : str -> option macro.
Hypothesis same : forall x, useful (m x) = useful (m' x).
Lemma expand_ext n : forall e, expand m n e = expand m' n e.
Proof.
  induction n as [|n IH]; [reflexivity|]. fix go 1. intro e; destruct e; try (cbn [expand]; reflexivity); try (cbn [expand]; f_equal; apply go).
  - cbn [expand]. specialize (same x). destruct (m x) as [[[p|] [b|l]]|], (m' x) as [[[p'|] [b'|l']]|]; cbn in same; try discriminate; try reflexivity.
    injection same as <-. apply IH.
  - assert (A : map (expand m (S n)) args = map (expand m' (S n)) args).
    { induction args as [|a args IHa]; [reflexivity|]. cbn [map]. rewrite IHa. f_equal. apply go. }
    rewrite !expand_call, A.
    specialize (same f). destruct (m f) as [[[[p q]|] [b|l]]|], (m' f) as [[[[p' q']|] [b'|l']]|]; cbn in same; try discriminate; try reflexivity.
    injection same as <- <- <-. apply IH.
Qed.
Lemma expand_e_ext e : expand_e m e = expand_e m' e. Proof. apply expand_ext. Qed.
Fixpoint expand_s_ext (s : stmt) : expand_s m s = expand_s m' s.
Proof.
  destruct s; cbn [expand_s]; rewrite ?expand_e_ext; try reflexivity.
  - destruct init; cbn [option_map]; now rewrite ?expand_e_ext.
  - f_equal.
    + induction yes as [|y yes IH]; [reflexivity|]. cbn [map]. now rewrite expand_s_ext, IH.
    + destruct no as [l|]; [|reflexivity]. cbn [option_map]. f_equal. induction l as [|y l IH]; [reflexivity|]. cbn [map]. now rewrite expand_s_ext, IH.
  - destruct e; cbn [option_map]; now rewrite ?expand_e_ext.
  - f_equal. induction body as [|y yes IH]; [reflexivity|]. cbn [map]. now rewrite expand_s_ext, IH.
Qed.
Lemma expand_body_ext l : map (expand_s m) l = map (expand_s m') l.
Proof. apply map_ext, expand_s_ext. Qed.
End Same.

(** expansion asks only for the names that occur *)
Fixpoint ids (e : expr) : list str :=
  match e with
  | ENone | EStr _ | EChr _ => []
  | EId x => [x]
  | ECall f l => f :: flat_map ids l
  | EParen e | EField e _ | EArrow e _ | ENot e | ENeg e | EDeref e | EAddr e | ECast _ e | ESizeof e => ids e
  | EIndex a b | EBin _ a b | ESet a b | ECat a b => ids a ++ ids b
  end.
Fixpoint ids_s (s : stmt) : list str :=
  match s with
  | SExpr e | SCase e => ids e
  | SDecl _ _ _ i => match i with Some e => ids e | None => [] end
  | SIf c yes no => ids c ++ flat_map ids_s yes ++ match no with Some l => flat_map ids_s l | None => [] end
  | SReturn e => match e with Some e => ids e | None => [] end
  | SSwitch e body => ids e ++ flat_map ids_s body
  | SDefault | SBreak => []
  end.
Section Agree.
Variables (m m' : str -> option macro) (P : str -> Prop).
Hypothesis same_on : forall x, P x -> useful (m x) = useful (m' x).
Hypothesis bodies : forall x p b, m x = Some (mkmacro p (MExpr b)) -> Forall P (ids b).
Lemma zip_fits (ps : list str) l : Forall (fun e => Forall P (ids e)) l -> Forall (fun y => Forall P (ids (snd y))) (zip ps l).
Proof. intro F. revert ps; induction F as [|e l H F IH]; intros [|p ps]; cbn [zip]; constructor; [exact H|apply IH]. Qed.
Lemma lookup_fits {A} (Q : A -> Prop) (x : str) (l : list (str * A)) e : Forall (fun y => Q (snd y)) l -> lookup x l = Some e -> Q e.
Proof. induction 1 as [|[y a] l H F IH]; cbn [lookup]; [discriminate|]. destruct (str_eqb x y); [|exact IH]. intro E; injection E as <-. exact H. Qed.
Lemma subst_fits (one : list (str * expr)) rest : Forall (fun y => Forall P (ids (snd y))) one -> Forall (fun e => Forall P (ids e)) rest -> forall b, Forall P (ids b) -> Forall P (ids (subst one rest b)).
Proof.
  intros F1 F2. fix go 1. intros b H. destruct b; cbn [subst ids] in *; try exact H; try (apply go; exact H); try (apply Forall_app in H as [Ha Hb]; apply Forall_app; split; apply go; assumption).
  - destruct (lookup x one) eqn:L; [exact (lookup_fits (fun e => Forall P (ids e)) x one e F1 L)|exact H].
  - inversion H as [|? ? Hf Hl]; subst. constructor; [exact Hf|]. clear H Hf. induction args as [|a args IH]; [constructor|]. cbn [flat_map] in Hl. apply Forall_app in Hl as [Ha Hl].
    cbn [flat_map]. rewrite flat_map_app. apply Forall_app; split; [|apply IH, Hl]. specialize (go a Ha).
    assert (G : Forall P (flat_map ids [subst one rest a])) by (cbn [flat_map]; now rewrite app_nil_r).
    destruct a; try exact G. destruct (str_eqb x $"__VA_ARGS__"); [|exact G]. clear - F2. induction F2; [constructor|]. cbn [flat_map]. now apply Forall_app.
Qed.
Lemma expand_agree n : forall e, Forall P (ids e) -> expand m n e = expand m' n e /\ Forall P (ids (expand m n e)).
Proof.
  induction n as [|n IH]; [intros e H; now split|]. fix go 1. intros e H; destruct e; try (split; [reflexivity|exact H]);
    try (cbn [expand ids] in *; destruct (go _ H) as [G1 G2]; change (expand m (S n) e) with (expand m (S n) e) in G1; split; [f_equal; exact G1|exact G2]);
    try (cbn [ids] in H; apply Forall_app in H as [Ha Hb]; destruct (go _ Ha) as [A1 A2]; destruct (go _ Hb) as [B1 B2]; split; [cbn [expand]; f_equal; [exact A1|exact B1]|apply Forall_app; split; assumption]).
  - cbn [ids] in H. inversion H as [|? ? Hx _]; subst. pose proof (same_on x Hx) as S. cbn [expand]. specialize (bodies x).
    destruct (m x) as [[[p|] [b|l]]|], (m' x) as [[[p'|] [b'|l']]|]; cbn in S; try discriminate; try (split; [reflexivity|exact H]).
    injection S as <-. apply IH. now apply (bodies None).
  - cbn [ids] in H. inversion H as [|? ? Hf Hl]; subst. rewrite !expand_call.
    assert (A : map (expand m (S n)) args = map (expand m' (S n)) args /\ Forall (fun e => Forall P (ids e)) (map (expand m (S n)) args)).
    { clear - go Hl. induction args as [|a args IHa]; [split; constructor|]. cbn [flat_map] in Hl. apply Forall_app in Hl as [Ha Hl]. destruct (go a Ha) as [G1 G2]. destruct (IHa Hl) as [I1 I2].
      cbn [map]. rewrite I1 in *. split; [f_equal; exact G1|]. constructor; assumption. }
    destruct A as [A1 A2]. rewrite <- A1.
    assert (G : Forall P (ids (ECall f (map (expand m (S n)) args)))).
    { cbn [ids]. constructor; [exact Hf|]. clear - A2. induction A2; [constructor|]. cbn [flat_map]. now apply Forall_app. }
    pose proof (same_on f Hf) as S. specialize (bodies f).
    destruct (m f) as [[[[p q]|] [b|l]]|], (m' f) as [[[[p' q']|] [b'|l']]|]; cbn in S; try discriminate; try (split; [reflexivity|exact G]).
    injection S as <- <- <-. apply IH. apply subst_fits; [now apply zip_fits| |exact (bodies _ _ eq_refl)].
    clear - A2. revert A2. generalize (map (expand m (S n)) args). generalize (length p). induction n0 as [|k IHk]; intros l F; [exact F|]. destruct F; [constructor|]. now apply IHk.
Qed.
Lemma expand_e_agree e : Forall P (ids e) -> expand_e m e = expand_e m' e.
Proof. intro H. now apply expand_agree. Qed.
Fixpoint expand_s_agree (s : stmt) : Forall P (ids_s s) -> expand_s m s = expand_s m' s.
Proof.
  assert (L : forall l, (fix go l := match l with [] => True | x :: r => (Forall P (ids_s x) -> expand_s m x = expand_s m' x) /\ go r end) l ->
                Forall P (flat_map ids_s l) -> map (expand_s m) l = map (expand_s m') l).
  { clear. intros l. induction l as [|x l IH]; [reflexivity|]. intros [H1 H2] F. cbn [flat_map] in F. apply Forall_app in F as [F1 F2]. cbn [map]. now rewrite (H1 F1), (IH H2 F2). }
  intro H. destruct s; cbn [expand_s ids_s] in *; try reflexivity.
  - f_equal. now apply expand_e_agree.
  - destruct init; [|reflexivity]. cbn [option_map]. now rewrite (expand_e_agree e H).
  - apply Forall_app in H as [H1 H2]. apply Forall_app in H2 as [H2 H3]. rewrite (expand_e_agree c H1).
    rewrite (L yes); [|clear - expand_s_agree; induction yes as [|y yes IH]; [exact I|split; [apply expand_s_agree|exact IH]]|exact H2].
    destruct no as [l|]; [|reflexivity]. cbn [option_map].
    rewrite (L l); [reflexivity|clear - expand_s_agree; induction l as [|y l IH]; [exact I|split; [apply expand_s_agree|exact IH]]|exact H3].
  - destruct e; [|reflexivity]. cbn [option_map]. now rewrite (expand_e_agree e H).
  - apply Forall_app in H as [H1 H2]. rewrite (expand_e_agree e H1).
    rewrite (L body); [reflexivity|clear - expand_s_agree; induction body as [|y l IH]; [exact I|split; [apply expand_s_agree|exact IH]]|exact H2].
  - f_equal. now apply expand_e_agree.
Qed.
Lemma expand_l_agree l : Forall P (flat_map ids_s l) -> map (expand_s m) l = map (expand_s m') l.
Proof. induction l as [|x l IH]; [reflexivity|]. cbn [flat_map map]. intro F. apply Forall_app in F as [F1 F2]. now rewrite (expand_s_agree x F1), (IH F2). Qed.
End Agree.

(** the macros of the headers *)
Definition known (names : list str) (n : str) : bool := existsb (str_eqb n) names.
Definition base (names : list str) (x : str) : option macro :=
  if str_eqb x $"_T" then Some (mkmacro (Some ([$"x"], false)) (MExpr (EId $"x")))
  else match strip $"GDO_RAWPTR_" x with
       | Some n => if known names n then Some (mkmacro None (MExpr (EField (EId $"gdo_hndl") ($"GDO_PTR_" ++ n)))) else None
       | None => None
       end.
Definition look (v : list (str * macro)) (b : str -> option macro) (x : str) : option macro := match lookup x v with Some m => Some m | None => b x end.

Lemma strip_app p n : strip p (p ++ n) = Some n.
Proof.
  unfold strip. assert (E : starts_with p (p ++ n) = true) by (induction p as [|a p IH]; [now destruct n|]; cbn; now rewrite Ascii.eqb_refl).
  rewrite E. f_equal. clear E. induction p as [|a p IH]; [reflexivity|exact IH].
Qed.
Lemma strip_eq p x n : strip p x = Some n -> x = p ++ n.
Proof.
  unfold strip. destruct (starts_with p x) eqn:E; [|discriminate]. intro H; injection H as <-. revert x E; induction p as [|a p IH]; intros x E; [reflexivity|].
  destruct x as [|b x]; [discriminate|]. cbn in E. apply andb_true_iff in E as [E1 E2]. apply Ascii.eqb_eq in E1; subst b. cbn. f_equal. now apply IH.
Qed.
Lemma base_ok names x : in_force (header_macros names) x = base names x.
Proof.
  unfold in_force, header_macros, base. cbn [lookup]. destruct (str_eqb x $"_T") eqn:T; [reflexivity|].
  induction names as [|n names IH].
  - cbn [map lookup known existsb]. now destruct (strip _ x).
  - cbn [map lookup]. destruct (str_eqb x ($"GDO_RAWPTR_" ++ n)) eqn:X.
    + apply str_eqb_eq in X; subst x. rewrite strip_app. unfold known; cbn [existsb]. assert (R : str_eqb n n = true) by (now apply str_eqb_eq). now rewrite R.
    + rewrite IH. destruct (strip $"GDO_RAWPTR_" x) as [n'|] eqn:S; [|reflexivity]. unfold known; cbn [existsb].
      destruct (str_eqb n' n) eqn:N; [|reflexivity]. apply str_eqb_eq in N; subst n'. apply strip_eq in S; subst x.
      assert (R : str_eqb ($"GDO_RAWPTR_" ++ n) ($"GDO_RAWPTR_" ++ n) = true) by (now apply str_eqb_eq). rewrite R in X; discriminate.
Qed.
Lemma base_useful names x : useful (base names x) = base names x.
Proof. unfold base. destruct (str_eqb x _); [reflexivity|]. destruct (strip _ x) as [n|]; [|reflexivity]. now destruct (known names n). Qed.

(* ---------------------------------------------------------------- where a function is *)

Fixpoint has (p : tprogram) (f : str) : bool :=
  match p with [] => false | (_, JFunc _ n _ _) :: r => str_eqb f n || has r f | _ :: r => has r f end.
Definition plain_name (x : str) : bool := negb (str_eqb x $"_T") && negb (starts_with $"GDO_RAWPTR_" x).
Fixpoint flook (v : list (str * macro)) (p : tprogram) (f : str) : option (list form * (list (str * macro) * (list tok * list (list tok * str) * list bstmt))) :=
  match p with
  | [] => None
  | (g, JFunc h n ps b) :: r => if str_eqb f n then if has r f then None else Some (g, (v, (h, ps, b))) else flook v r f
  | (g, JMacro x m) :: r =>
      match m_body m with
      | MExpr _ => match g with [] => flook ((x, m) :: v) r f | _ => None end
      | MRaw _ => match lookup x v with None => if plain_name x then flook v r f else None | Some _ => None end
      end
  | (_, JCode _) :: r => flook v r f
  | (_, (JUndef _ | JEachMacro _ _ _)) :: _ => None
  end.

Section Find.
Variables (cfg : str -> bool) (c : config) (names : list str).
Definition sees (ms : list (str * option macro)) (v : list (str * macro)) : Prop :=
  (forall x, useful (in_force ms x) = look v (base names) x) /\ Forall (fun y => match m_body (snd y) with MExpr _ => True | MRaw _ => False end) v.
Lemma look_useful v x : Forall (fun y => match m_body (snd y) with MExpr _ => True | MRaw _ => False end) v -> useful (look v (base names) x) = look v (base names) x.
Proof.
  intro F. unfold look. induction F as [|[y m] v H F IH]; [cbn [lookup]; apply base_useful|]. cbn [lookup]. destruct (str_eqb x y); [|exact IH].
  cbn [snd] in H. destruct m as [p [e|l]]; [reflexivity|contradiction].
Qed.
Lemma functions_app ms a b : exists ms', functions ms (a ++ b) = functions ms a ++ functions ms' b.
Proof.
  revert ms; induction a as [|x a IH]; intro ms; [now exists ms|]. destruct x; cbn [functions app].
  - destruct (IH ms) as [ms' E]. exists ms'. now rewrite E.
  - apply IH.
  - apply IH.
  - apply IH.
Qed.
Lemma names_in p f : has p f = false -> forall ms, List.find (fun x => str_eqb f (f_name x)) (functions ms (inst cfg c p)) = None.
Proof.
  induction p as [|[g i] p IH]; intros H ms; [reflexivity|].
  assert (Hp : has p f = false) by (cbn [has] in H; destruct i; try exact H; now apply orb_false_iff in H as [_ H]).
  assert (A : forall l ms, (forall f', ~ In (IFunc f') l) -> List.find (fun x => str_eqb f (f_name x)) (functions ms (l ++ inst cfg c p)) = None).
  { induction l as [|y l IHl]; intros ms0 N; [apply IH, Hp|]. destruct y; cbn [app functions]; try (apply IHl; intros f' I; apply (N f'); now right). exfalso; apply (N f0); now left. }
  change (inst cfg c ((g, i) :: p)) with ((if forallb (feval cfg) g then inst_i cfg c i else []) ++ inst cfg c p). destruct (forallb (feval cfg) g); [|apply (IH Hp)].
  destruct i as [h n ps b|l|x m|x|k x l]; cbn [inst_i].
  - cbn [app functions]. cbn [List.find]. cbn [has] in H. apply orb_false_iff in H as [H _]. cbn [expand_f f_name]. rewrite H. apply (IH Hp).
  - apply A. intros f' [I|[]]; discriminate.
  - apply A. intros f' [I|[]]; discriminate.
  - apply A. intros f' [I|[]]; discriminate.
  - apply A. intros f' I. apply in_flat_map in I as (v & _ & I). destruct (itok v x) as [|[] []]; cbn in I; intuition discriminate.
Qed.

Lemma flook_ok p : forall ms v f g v' h ps b, sees ms v -> flook v p f = Some (g, (v', (h, ps, b))) ->
  List.find (fun x => str_eqb f (f_name x)) (functions ms (inst cfg c p)) =
  if forallb (feval cfg) g then Some (mkfunc (unglued h) f (map (fun p => (unglued (fst p), snd p)) ps) (map (expand_s (look v' (base names))) (flat_map (inst_b cfg c) b))) else None.
Proof.
  induction p as [|[g i] p IH]; intros ms v f g0 v' h ps b S E; [discriminate|]. cbn [flook] in E.
  change (inst cfg c ((g, i) :: p)) with ((if forallb (feval cfg) g then inst_i cfg c i else []) ++ inst cfg c p).
  destruct i as [h1 n ps1 b1|l|x m|x|k x l]; try discriminate.
  - destruct (str_eqb f n) eqn:N.
    + destruct (has p f) eqn:HP; [discriminate|]. injection E as <- <- <- <- <-. apply str_eqb_eq in N; subst n. destruct (forallb (feval cfg) g).
      * cbn [inst_i app functions]. cbn [List.find expand_f f_name]. assert (R : str_eqb f f = true) by (now apply str_eqb_eq). rewrite R. f_equal. unfold expand_f; cbn [f_head f_name f_params f_body].
        f_equal. apply expand_body_ext. intro x. destruct S as [S1 S2]. rewrite S1. symmetry. now apply look_useful.
      * apply names_in. exact HP.
    + destruct (forallb (feval cfg) g); [|apply (IH _ _ _ _ _ _ _ _ S E)]. cbn [inst_i app functions]. cbn [List.find expand_f f_name]. rewrite N. apply (IH _ _ _ _ _ _ _ _ S E).
  - destruct (forallb (feval cfg) g); cbn [inst_i app functions]; apply (IH _ _ _ _ _ _ _ _ S E).
  - destruct m as [mp [e|l]]; cbn [m_body] in E.
    + destruct g; [|discriminate]. cbn [forallb inst_i app functions]. apply (IH ((x, Some (mkmacro mp (MExpr e))) :: ms) _ _ _ _ _ _ _) with (2 := E). destruct S as [S1 S2]. split.
      * intro y. unfold in_force, look. cbn [lookup]. destruct (str_eqb y x); [reflexivity|]. apply S1.
      * constructor; [exact I|exact S2].
    + destruct (lookup x v) eqn:L; [discriminate|]. destruct (plain_name x) eqn:P; [|discriminate].
      destruct (forallb (feval cfg) g); cbn [inst_i app functions]; [|apply (IH _ _ _ _ _ _ _ _ S E)].
      apply (IH ((x, Some (mkmacro mp (MRaw l))) :: ms) _ _ _ _ _ _ _) with (2 := E). destruct S as [S1 S2]. split; [|exact S2].
      intro y. unfold in_force. cbn [lookup]. destruct (str_eqb y x) eqn:Y; [|apply S1]. apply str_eqb_eq in Y; subst y. cbn [useful]. unfold look. rewrite L.
      unfold plain_name in P. apply andb_true_iff in P as [P1 P2]. apply negb_true_iff in P1, P2. unfold base. rewrite P1. unfold strip. now rewrite P2.
Qed.
End Find.

(* ---------------------------------------------------------------- bodies *)

Section Bodies.
Variables (cfg : str -> bool) (c : config) (m : str -> option macro).
Let vs := envs c CSymbol.
Definition xe (e : texpr) : expr := expand_e m (ie e).
Fixpoint xb (s : bstmt) : list stmt :=
  match s with
  | BExpr e => [SExpr (xe e)]
  | BDecl ty x array init => [SDecl (unglued ty) x array (option_map xe init)]
  | BIf e yes no => [SIf (xe e) (flat_map xb yes) (option_map (flat_map xb) no)]
  | BIfEach e o each yes => [SIf (fold_left (fun a v => EBin o a (expand_e m (inst_e v each))) vs (xe e)) (flat_map xb yes) None]
  | BReturn e => [SReturn (option_map xe e)]
  | BSwitch e body => [SSwitch (xe e) (flat_map xb body)]
  | BCase e => [SCase (xe e)]
  | BDefault => [SDefault]
  | BBreak => [SBreak]
  | BEach l => flat_map (fun v => map (expand_s m) (map (inst_t v) l)) vs
  | BGuard g l => if forallb (feval cfg) g then flat_map xb l else []
  end.
Lemma map_flat {A B C} (f : B -> C) (h : A -> list B) l : map f (flat_map h l) = flat_map (fun x => map f (h x)) l.
Proof. induction l as [|x l IH]; [reflexivity|]. cbn [flat_map]. now rewrite map_app, IH. Qed.
Fixpoint xb_ok (s : bstmt) : map (expand_s m) (inst_b cfg c s) = xb s.
Proof.
  assert (L : forall l, (fix go l := match l with [] => True | x :: r => map (expand_s m) (inst_b cfg c x) = xb x /\ go r end) l ->
                map (expand_s m) (flat_map (inst_b cfg c) l) = flat_map xb l).
  { clear. intros l. induction l as [|x l IH]; [reflexivity|]. intros [H1 H2]. cbn [flat_map]. now rewrite map_app, H1, IH. }
  destruct s as [e|ty x array init|e yes no|e o each yes|e|e body|e| | |l|g' l]; cbn [inst_b xb map expand_s]; try reflexivity.
  - now destruct init.
  - rewrite (L yes); [|clear L; induction yes as [|y yes IH]; [exact I|split; [apply xb_ok|exact IH]]]. destruct no as [l|]; [|reflexivity]. cbn [option_map].
    rewrite (L l); [|clear L; induction l as [|y l IH]; [exact I|split; [apply xb_ok|exact IH]]]. reflexivity.
  - rewrite (L yes); [|clear L; induction yes as [|y yes IH]; [exact I|split; [apply xb_ok|exact IH]]]. f_equal. f_equal. unfold xe. fold vs.
    generalize (ie e). clear. generalize vs. intro l. induction l as [|v l IH]; intro e; [reflexivity|]. cbn [fold_left]. now rewrite IH.
  - now destruct e.
  - rewrite (L body); [|clear L; induction body as [|y yes IH]; [exact I|split; [apply xb_ok|exact IH]]]. reflexivity.
  - apply map_flat.
  - destruct (forallb (feval cfg) g'); [|reflexivity]. apply L. clear L; induction l as [|y l IH]; [exact I|split; [apply xb_ok|exact IH]].
Qed.
Lemma body_ok l : map (expand_s m) (flat_map (inst_b cfg c) l) = flat_map xb l.
Proof. rewrite map_flat. apply flat_map_ext. apply xb_ok. Qed.
End Bodies.

Lemma fold_same {A B} (f h : A -> B -> A) l : (forall v a, In v l -> f a v = h a v) -> forall e, fold_left f l e = fold_left h l e.
Proof. induction l as [|v l IH]; intros H e; [reflexivity|]. cbn [fold_left]. rewrite H by (now left). apply IH. intros; apply H; now right. Qed.
Lemma flat_map_ext_in {A B} (f h : A -> list B) l : (forall v, In v l -> f v = h v) -> flat_map f l = flat_map h l.
Proof. induction l as [|v l IH]; intros H; [reflexivity|]. cbn [flat_map]. rewrite H by (now left). f_equal. apply IH. intros; apply H; now right. Qed.

(* ---------------------------------------------------------------- the functions *)

Definition all_macros : list (str * macro) :=
  [($"GDO_SET_LAST_ERRNO", mkmacro (Some ([$"x"], false)) (MExpr ENone));
   ($"GDO_SNPRINTF", mkmacro (Some ([$"DEST"; $"FORMAT"], true)) (MExpr (ECall $"snprintf" [(EId $"DEST"); (ECall $"_countof" [(EId $"DEST")]); (EId $"FORMAT"); (EId $"__VA_ARGS__")])));
   ($"_countof", mkmacro (Some ([$"array"], false)) (MExpr (EParen (EBin $"/" (ESizeof (EId $"array")) (ESizeof (EIndex (EId $"array") (EId $"0")))))));
   ($"GDO_UNUSED_REF", mkmacro (Some ([$"x"], false)) (MExpr (ECast [TWord $"void"] (EParen (EId $"x")))));
   ($"GDO_XHS", mkmacro None (MExpr (EStr $"%s")))].

(** the macros of the headers, for every name *)
Definition base_any (x : str) : option macro :=
  if str_eqb x $"_T" then Some (mkmacro (Some ([$"x"], false)) (MExpr (EId $"x")))
  else match strip $"GDO_RAWPTR_" x with
       | Some n => Some (mkmacro None (MExpr (EField (EId $"gdo_hndl") ($"GDO_PTR_" ++ n))))
       | None => None
       end.
Definition fits_names (names : list str) (x : str) : Prop := match strip $"GDO_RAWPTR_" x with Some n => known names n = true | None => True end.
Lemma any_same names x : fits_names names x -> useful (look all_macros (base names) x) = useful (look all_macros base_any x).
Proof.
  intro F. unfold look. destruct (lookup x all_macros); [reflexivity|]. unfold base, base_any. destruct (str_eqb x $"_T"); [reflexivity|].
  unfold fits_names in F. destruct (strip $"GDO_RAWPTR_" x) as [n|]; [|reflexivity]. now rewrite F.
Qed.
Lemma any_bodies names x p b : look all_macros (base names) x = Some (mkmacro p (MExpr b)) -> Forall (fits_names names) (ids b).
Proof.
  unfold look. destruct (lookup x all_macros) eqn:L.
  - intro E; injection E as ->. revert L. unfold all_macros; cbn [lookup].
    repeat (match goal with |- context [str_eqb x ?y] => destruct (str_eqb x y) end; [intro E; injection E as <- <-; repeat (constructor; try exact I)|]). discriminate.
  - clear L. unfold base. destruct (str_eqb x $"_T"); [intro E; injection E as <- <-; repeat (constructor; try exact I)|].
    destruct (strip $"GDO_RAWPTR_" x) as [n|]; [|discriminate]. destruct (known names n); [|discriminate]. intro E; injection E as <- <-. repeat (constructor; try exact I).
Qed.

Section Functions.
Variables (cfg : str -> bool) (c : config) (p : param_mode).
Let vs := envs c CSymbol.
Definition names := symbol_names c.
Definition funs := functions (header_macros names) (inst cfg c (body_of p)).
Lemma known_all v : In v vs -> known names (v HSym) = true.
Proof.
  intro V. unfold known. apply existsb_exists. exists (v HSym). split; [|now apply str_eqb_eq]. unfold names, symbol_names.
  unfold vs in V; cbn [envs] in V. apply in_app_iff in V as [V|V]; apply in_map_iff in V as (e & <- & I); cbn [symbol_value value_of]; apply in_map, in_app_iff; tauto.
Qed.
Lemma sees_all : sees names (header_macros names) [].
Proof. split; [|constructor]. intro x. rewrite base_ok. unfold look; cbn [lookup]. apply base_useful. Qed.
Definition tbody (i : titem) : list bstmt := match i with JFunc _ _ _ b => b | _ => [] end.
Lemma find_by f g v h ps b : flook [] (body_of p) f = Some (g, (v, (h, ps, b))) ->
  find_func funs f = if forallb (feval cfg) g then Some (mkfunc (unglued h) f (map (fun p => (unglued (fst p), snd p)) ps) (flat_map (xb cfg c (look v (base names))) b)) else None.
Proof. intro E. unfold find_func, funs. rewrite (flook_ok cfg c names _ _ _ _ _ _ _ _ _ sees_all E). now rewrite body_ok. Qed.
Definition wrapping : bool := match p with PSkip => false | _ => true end.
Lemma each_1 : flat_map (fun v => map (expand_s (look all_macros (base names))) (map (inst_t v) [(YExpr (XSet (XId ((nm "GDO_RAWPTR_") ++ [(SH HSym)])) (XId (nm "NULL"))))])) vs = flat_map loop_1 vs.
Proof.
  apply flat_map_ext_in. intros v V. pose proof (known_all v V) as K. unfold loop_1. rewrite <- (app_nil_r (v HSym)) in K |- *.
  rewrite (expand_l_agree _ (look all_macros base_any) (fits_names names) (any_same names) (any_bodies names)); [reflexivity|].
  repeat (constructor; [first [exact I | exact K]|]). constructor.
Qed.
Lemma each_2 : flat_map (fun v => map (expand_s (look all_macros (base names))) (map (inst_t v) [(YExpr (XSet (XId ((nm "GDO_RAWPTR_") ++ [(SH HSym)])) (XId (nm "NULL"))))])) vs = flat_map loop_2 vs.
Proof.
  apply flat_map_ext_in. intros v V. pose proof (known_all v V) as K. unfold loop_2. rewrite <- (app_nil_r (v HSym)) in K |- *.
  rewrite (expand_l_agree _ (look all_macros base_any) (fits_names names) (any_same names) (any_bodies names)); [reflexivity|].
  repeat (constructor; [first [exact I | exact K]|]). constructor.
Qed.
Lemma each_3 o e : fold_left (fun a v => EBin o a (expand_e (look all_macros (base names)) (inst_e v (XBin $"!=" (XId ((nm "GDO_RAWPTR_") ++ [(SH HSym)])) (XId (nm "NULL")))))) vs e = fold_left (fun a v => EBin o a (loop_3 v)) vs e.
Proof.
  apply fold_same. intros v a V. f_equal. pose proof (known_all v V) as K. unfold loop_3. rewrite <- (app_nil_r (v HSym)) in K |- *.
  rewrite (expand_e_agree _ (look all_macros base_any) (fits_names names) (any_same names) (any_bodies names)); [reflexivity|].
  repeat (constructor; [first [exact I | exact K]|]). constructor.
Qed.
Lemma each_4 o e : fold_left (fun a v => EBin o a (expand_e (look all_macros (base names)) (inst_e v (XBin $"==" (XId ((nm "GDO_RAWPTR_") ++ [(SH HSym)])) (XId (nm "NULL")))))) vs e = fold_left (fun a v => EBin o a (loop_4 v)) vs e.
Proof.
  apply fold_same. intros v a V. f_equal. pose proof (known_all v V) as K. unfold loop_4. rewrite <- (app_nil_r (v HSym)) in K |- *.
  rewrite (expand_e_agree _ (look all_macros base_any) (fits_names names) (any_same names) (any_bodies names)); [reflexivity|].
  repeat (constructor; [first [exact I | exact K]|]). constructor.
Qed.
Lemma each_5 o e : fold_left (fun a v => EBin o a (expand_e (look all_macros (base names)) (inst_e v (XBin $"!=" (XId ((nm "GDO_RAWPTR_") ++ [(SH HSym)])) (XId (nm "NULL")))))) vs e = fold_left (fun a v => EBin o a (loop_5 v)) vs e.
Proof.
  apply fold_same. intros v a V. f_equal. pose proof (known_all v V) as K. unfold loop_5. rewrite <- (app_nil_r (v HSym)) in K |- *.
  rewrite (expand_e_agree _ (look all_macros base_any) (fits_names names) (any_same names) (any_bodies names)); [reflexivity|].
  repeat (constructor; [first [exact I | exact K]|]). constructor.
Qed.
Lemma each_6 : flat_map (fun v => map (expand_s (look all_macros (base names))) (map (inst_t v) [(YIf (XBin $"==" (XParen (XSet (XId ((nm "GDO_RAWPTR_") ++ [(SH HSym)])) (XCast [(KHole HSymType)] (XCall $"_gdo_sym" [(XStr [(SH HSym)]); (XCall $"_T" [(XStr [(SH HSym)])])])))) (XId (nm "NULL"))) [(YReturn (Some (XId (nm "false"))))])])) vs = flat_map loop_6 vs.
Proof.
  apply flat_map_ext_in. intros v V. pose proof (known_all v V) as K. unfold loop_6. rewrite <- (app_nil_r (v HSym)) in K |- *.
  rewrite (expand_l_agree _ (look all_macros base_any) (fits_names names) (any_same names) (any_bodies names)); [reflexivity|].
  repeat (constructor; [first [exact I | exact K]|]). constructor.
Qed.
Lemma each_7 : flat_map (fun v => map (expand_s (look all_macros (base names))) (map (inst_t v) [(YCase (XId ((nm "GDO_LOAD_") ++ [(SH HSym)]))); (YIf (XNot (XId ((nm "GDO_RAWPTR_") ++ [(SH HSym)]))) [(YExpr (XSet (XId ((nm "GDO_RAWPTR_") ++ [(SH HSym)])) (XCast [(KHole HSymType)] (XCall $"_gdo_sym" [(XStr [(SH HSym)]); (XCall $"_T" [(XStr [(SH HSym)])])]))))]); (YReturn (Some (XParen (XBin $"!=" (XId ((nm "GDO_RAWPTR_") ++ [(SH HSym)])) (XId (nm "NULL"))))))])) vs = flat_map loop_7 vs.
Proof.
  apply flat_map_ext_in. intros v V. pose proof (known_all v V) as K. unfold loop_7. rewrite <- (app_nil_r (v HSym)) in K |- *.
  rewrite (expand_l_agree _ (look all_macros base_any) (fits_names names) (any_same names) (any_bodies names)); [reflexivity|].
  repeat (constructor; [first [exact I | exact K]|]). constructor.
Qed.
Lemma each_8 : flat_map (fun v => map (expand_s (look all_macros (base names))) (map (inst_t v) [(YExpr (XSet (XId (nm "curr")) (XStr [(SH HSym)]))); (YExpr (XSet (XId (nm "curr_len")) (XBin $"-" (XSizeof (XStr [(SH HSym)])) (XId (nm "1"))))); (YIf (XBin $"&&" (XBin $"==" (XId (nm "len")) (XId (nm "curr_len"))) (XBin $"==" (XCall $"strcmp" [(XBin $"+" (XId (nm "symbol")) (XId (nm "pfxlen"))); (XBin $"+" (XId (nm "curr")) (XId (nm "pfxlen")))]) (XId (nm "0")))) [(YIf (XNot (XId ((nm "GDO_RAWPTR_") ++ [(SH HSym)]))) [(YExpr (XSet (XId ((nm "GDO_RAWPTR_") ++ [(SH HSym)])) (XCast [(KHole HSymType)] (XCall $"_gdo_sym" [(XStr [(SH HSym)]); (XCall $"_T" [(XStr [(SH HSym)])])]))))]); (YReturn (Some (XParen (XBin $"!=" (XId ((nm "GDO_RAWPTR_") ++ [(SH HSym)])) (XId (nm "NULL"))))))])])) vs = flat_map loop_8 vs.
Proof.
  apply flat_map_ext_in. intros v V. pose proof (known_all v V) as K. unfold loop_8. rewrite <- (app_nil_r (v HSym)) in K |- *.
  rewrite (expand_l_agree _ (look all_macros base_any) (fits_names names) (any_same names) (any_bodies names)); [reflexivity|].
  repeat (constructor; [first [exact I | exact K]|]). constructor.
Qed.
Lemma each_9 o e : fold_left (fun a v => EBin o a (expand_e (look all_macros (base names)) (inst_e v (XCall $"_gdo_call_dladdr" [(XCast [(KWord (nm "void")); (KOp $"*")] (XId ((nm "GDO_RAWPTR_") ++ [(SH HSym)]))); (XAddr (XId (nm "info")))])))) vs e = fold_left (fun a v => EBin o a (loop_9 v)) vs e.
Proof.
  apply fold_same. intros v a V. f_equal. pose proof (known_all v V) as K. unfold loop_9. rewrite <- (app_nil_r (v HSym)) in K |- *.
  rewrite (expand_e_agree _ (look all_macros base_any) (fits_names names) (any_same names) (any_bodies names)); [reflexivity|].
  repeat (constructor; [first [exact I | exact K]|]). constructor.
Qed.
Lemma body_gdo_call_dlsym_ok : flat_map (xb cfg c (look (@nil (str * macro)) (base names))) (tbody body_gdo_call_dlsym) = code_gdo_call_dlsym.
Proof. unfold body_gdo_call_dlsym. cbn [tbody flat_map xb app]. fold vs. rewrite ?app_nil_r. lazy -[known names vs]. reflexivity. Qed.
Lemma find_gdo_call_dlsym : find_func funs $"_gdo_call_dlsym" = if forallb (feval cfg) [] then Some (mkfunc [(TWord $"GDO_INLINE"); (TWord $"void"); (TOp $"*")] $"_gdo_call_dlsym" [([(TWord $"gdo_hmod_t")], $"handle"); ([(TWord $"const"); (TWord $"char"); (TOp $"*")], $"symbol")] (code_gdo_call_dlsym)) else None.
Proof.
  rewrite (find_by $"_gdo_call_dlsym" [] (@nil (str * macro)) [(TWord $"GDO_INLINE"); (TWord $"void"); (TOp $"*")] [([(TWord $"gdo_hmod_t")], $"handle"); ([(TWord $"const"); (TWord $"char"); (TOp $"*")], $"symbol")] (tbody body_gdo_call_dlsym)) by (destruct p; vm_compute; reflexivity).
  rewrite body_gdo_call_dlsym_ok. reflexivity.
Qed.
Lemma body_gdo_call_dlclose_ok : flat_map (xb cfg c (look (@nil (str * macro)) (base names))) (tbody body_gdo_call_dlclose) = code_gdo_call_dlclose.
Proof. unfold body_gdo_call_dlclose. cbn [tbody flat_map xb app]. fold vs. rewrite ?app_nil_r. lazy -[known names vs]. reflexivity. Qed.
Lemma find_gdo_call_dlclose : find_func funs $"_gdo_call_dlclose" = if forallb (feval cfg) [] then Some (mkfunc [(TWord $"GDO_INLINE"); (TWord $"bool")] $"_gdo_call_dlclose" [([(TWord $"gdo_hmod_t")], $"handle")] (code_gdo_call_dlclose)) else None.
Proof.
  rewrite (find_by $"_gdo_call_dlclose" [] (@nil (str * macro)) [(TWord $"GDO_INLINE"); (TWord $"bool")] [([(TWord $"gdo_hmod_t")], $"handle")] (tbody body_gdo_call_dlclose)) by (destruct p; vm_compute; reflexivity).
  rewrite body_gdo_call_dlclose_ok. reflexivity.
Qed.
Lemma body_gdo_call_dlopen_ok : flat_map (xb cfg c (look (@nil (str * macro)) (base names))) (tbody body_gdo_call_dlopen) = code_gdo_call_dlopen cfg.
Proof. unfold body_gdo_call_dlopen. cbn [tbody flat_map xb app]. fold vs. rewrite ?app_nil_r. lazy -[known names vs]. reflexivity. Qed.
Lemma find_gdo_call_dlopen : find_func funs $"_gdo_call_dlopen" = if forallb (feval cfg) [] then Some (mkfunc [(TWord $"GDO_INLINE"); (TWord $"gdo_hmod_t")] $"_gdo_call_dlopen" [([(TWord $"const"); (TWord $"char"); (TOp $"*")], $"filename"); ([(TWord $"int")], $"flags"); ([(TWord $"bool")], $"new_namespace")] (code_gdo_call_dlopen cfg)) else None.
Proof.
  rewrite (find_by $"_gdo_call_dlopen" [] (@nil (str * macro)) [(TWord $"GDO_INLINE"); (TWord $"gdo_hmod_t")] [([(TWord $"const"); (TWord $"char"); (TOp $"*")], $"filename"); ([(TWord $"int")], $"flags"); ([(TWord $"bool")], $"new_namespace")] (tbody body_gdo_call_dlopen)) by (destruct p; vm_compute; reflexivity).
  rewrite body_gdo_call_dlopen_ok. reflexivity.
Qed.
Lemma body_gdo_call_dladdr_ok : flat_map (xb cfg c (look (@nil (str * macro)) (base names))) (tbody body_gdo_call_dladdr) = code_gdo_call_dladdr.
Proof. unfold body_gdo_call_dladdr. cbn [tbody flat_map xb app]. fold vs. rewrite ?app_nil_r. lazy -[known names vs]. reflexivity. Qed.
Lemma find_gdo_call_dladdr : find_func funs $"_gdo_call_dladdr" = if forallb (feval cfg) [(FDef $"GDO_HAVE_DLADDR")] then Some (mkfunc [(TWord $"GDO_INLINE"); (TWord $"bool")] $"_gdo_call_dladdr" [([(TWord $"const"); (TWord $"void"); (TOp $"*")], $"addr"); ([(TWord $"Dl_info"); (TOp $"*")], $"info")] (code_gdo_call_dladdr)) else None.
Proof.
  rewrite (find_by $"_gdo_call_dladdr" [(FDef $"GDO_HAVE_DLADDR")] (@nil (str * macro)) [(TWord $"GDO_INLINE"); (TWord $"bool")] [([(TWord $"const"); (TWord $"void"); (TOp $"*")], $"addr"); ([(TWord $"Dl_info"); (TOp $"*")], $"info")] (tbody body_gdo_call_dladdr)) by (destruct p; vm_compute; reflexivity).
  rewrite body_gdo_call_dladdr_ok. reflexivity.
Qed.
Lemma body_gdo_tcsstr_ok : flat_map (xb cfg c (look (skipn 2 all_macros) (base names))) (tbody body_gdo_tcsstr) = code_gdo_tcsstr.
Proof. unfold body_gdo_tcsstr. cbn [tbody flat_map xb app]. fold vs. rewrite ?app_nil_r. lazy -[known names vs]. reflexivity. Qed.
Lemma find_gdo_tcsstr : find_func funs $"_gdo_tcsstr" = if forallb (feval cfg) [] then Some (mkfunc [(TWord $"GDO_INLINE"); (TWord $"const"); (TWord $"gdo_char_t"); (TOp $"*")] $"_gdo_tcsstr" [([(TWord $"const"); (TWord $"gdo_char_t"); (TOp $"*")], $"haystack"); ([(TWord $"const"); (TWord $"gdo_char_t"); (TOp $"*")], $"needle")] (code_gdo_tcsstr)) else None.
Proof.
  rewrite (find_by $"_gdo_tcsstr" [] (skipn 2 all_macros) [(TWord $"GDO_INLINE"); (TWord $"const"); (TWord $"gdo_char_t"); (TOp $"*")] [([(TWord $"const"); (TWord $"gdo_char_t"); (TOp $"*")], $"haystack"); ([(TWord $"const"); (TWord $"gdo_char_t"); (TOp $"*")], $"needle")] (tbody body_gdo_tcsstr)) by (destruct p; vm_compute; reflexivity).
  rewrite body_gdo_tcsstr_ok. reflexivity.
Qed.
Lemma body_gdo_save_to_errbuf_ok : flat_map (xb cfg c (look all_macros (base names))) (tbody body_gdo_save_to_errbuf) = code_gdo_save_to_errbuf.
Proof. unfold body_gdo_save_to_errbuf. cbn [tbody flat_map xb app]. fold vs. rewrite ?app_nil_r. lazy -[known names vs]. reflexivity. Qed.
Lemma find_gdo_save_to_errbuf : find_func funs $"_gdo_save_to_errbuf" = if forallb (feval cfg) [] then Some (mkfunc [(TWord $"GDO_INLINE"); (TWord $"void")] $"_gdo_save_to_errbuf" [([(TWord $"const"); (TWord $"gdo_char_t"); (TOp $"*")], $"msg")] (code_gdo_save_to_errbuf)) else None.
Proof.
  rewrite (find_by $"_gdo_save_to_errbuf" [] all_macros [(TWord $"GDO_INLINE"); (TWord $"void")] [([(TWord $"const"); (TWord $"gdo_char_t"); (TOp $"*")], $"msg")] (tbody body_gdo_save_to_errbuf)) by (destruct p; vm_compute; reflexivity).
  rewrite body_gdo_save_to_errbuf_ok. reflexivity.
Qed.
Lemma body_gdo_clear_error_ok : flat_map (xb cfg c (look all_macros (base names))) (tbody body_gdo_clear_error) = code_gdo_clear_error.
Proof. unfold body_gdo_clear_error. cbn [tbody flat_map xb app]. fold vs. rewrite ?app_nil_r. lazy -[known names vs]. reflexivity. Qed.
Lemma find_gdo_clear_error : find_func funs $"_gdo_clear_error" = if forallb (feval cfg) [] then Some (mkfunc [(TWord $"GDO_INLINE"); (TWord $"void")] $"_gdo_clear_error" [] (code_gdo_clear_error)) else None.
Proof.
  rewrite (find_by $"_gdo_clear_error" [] all_macros [(TWord $"GDO_INLINE"); (TWord $"void")] [] (tbody body_gdo_clear_error)) by (destruct p; vm_compute; reflexivity).
  rewrite body_gdo_clear_error_ok. reflexivity.
Qed.
Lemma body_gdo_save_error_ok : flat_map (xb cfg c (look all_macros (base names))) (tbody body_gdo_save_error) = code_gdo_save_error.
Proof. unfold body_gdo_save_error. cbn [tbody flat_map xb app]. fold vs. rewrite ?app_nil_r. lazy -[known names vs]. reflexivity. Qed.
Lemma find_gdo_save_error : find_func funs $"_gdo_save_error" = if forallb (feval cfg) [] then Some (mkfunc [(TWord $"GDO_INLINE"); (TWord $"void")] $"_gdo_save_error" [([(TWord $"const"); (TWord $"gdo_char_t"); (TOp $"*")], $"msg")] (code_gdo_save_error)) else None.
Proof.
  rewrite (find_by $"_gdo_save_error" [] all_macros [(TWord $"GDO_INLINE"); (TWord $"void")] [([(TWord $"const"); (TWord $"gdo_char_t"); (TOp $"*")], $"msg")] (tbody body_gdo_save_error)) by (destruct p; vm_compute; reflexivity).
  rewrite body_gdo_save_error_ok. reflexivity.
Qed.
Lemma body_gdo_set_error_no_library_loaded_ok : flat_map (xb cfg c (look all_macros (base names))) (tbody body_gdo_set_error_no_library_loaded) = code_gdo_set_error_no_library_loaded.
Proof. unfold body_gdo_set_error_no_library_loaded. cbn [tbody flat_map xb app]. fold vs. rewrite ?app_nil_r. lazy -[known names vs]. reflexivity. Qed.
Lemma find_gdo_set_error_no_library_loaded : find_func funs $"_gdo_set_error_no_library_loaded" = if forallb (feval cfg) [] then Some (mkfunc [(TWord $"GDO_INLINE"); (TWord $"void")] $"_gdo_set_error_no_library_loaded" [] (code_gdo_set_error_no_library_loaded)) else None.
Proof.
  rewrite (find_by $"_gdo_set_error_no_library_loaded" [] all_macros [(TWord $"GDO_INLINE"); (TWord $"void")] [] (tbody body_gdo_set_error_no_library_loaded)) by (destruct p; vm_compute; reflexivity).
  rewrite body_gdo_set_error_no_library_loaded_ok. reflexivity.
Qed.
Lemma body_gdo_load_lib_ok : flat_map (xb cfg c (look all_macros (base names))) (tbody body_gdo_load_lib) = code_gdo_load_lib.
Proof. unfold body_gdo_load_lib. cbn [tbody flat_map xb app]. fold vs. rewrite ?app_nil_r. lazy -[known names vs]. reflexivity. Qed.
Lemma find_gdo_load_lib : find_func funs $"gdo_load_lib" = if forallb (feval cfg) [(FDef $"GDO_DEFAULT_LIB")] then Some (mkfunc [(TWord $"GDO_LINKAGE"); (TWord $"bool")] $"gdo_load_lib" [] (code_gdo_load_lib)) else None.
Proof.
  rewrite (find_by $"gdo_load_lib" [(FDef $"GDO_DEFAULT_LIB")] all_macros [(TWord $"GDO_LINKAGE"); (TWord $"bool")] [] (tbody body_gdo_load_lib)) by (destruct p; vm_compute; reflexivity).
  rewrite body_gdo_load_lib_ok. reflexivity.
Qed.
Lemma body_gdo_load_lib_and_symbols_ok : flat_map (xb cfg c (look all_macros (base names))) (tbody body_gdo_load_lib_and_symbols) = code_gdo_load_lib_and_symbols.
Proof. unfold body_gdo_load_lib_and_symbols. cbn [tbody flat_map xb app]. fold vs. rewrite ?app_nil_r. lazy -[known names vs]. reflexivity. Qed.
Lemma find_gdo_load_lib_and_symbols : find_func funs $"gdo_load_lib_and_symbols" = if forallb (feval cfg) [(FDef $"GDO_DEFAULT_LIB")] then Some (mkfunc [(TWord $"GDO_LINKAGE"); (TWord $"bool")] $"gdo_load_lib_and_symbols" [] (code_gdo_load_lib_and_symbols)) else None.
Proof.
  rewrite (find_by $"gdo_load_lib_and_symbols" [(FDef $"GDO_DEFAULT_LIB")] all_macros [(TWord $"GDO_LINKAGE"); (TWord $"bool")] [] (tbody body_gdo_load_lib_and_symbols)) by (destruct p; vm_compute; reflexivity).
  rewrite body_gdo_load_lib_and_symbols_ok. reflexivity.
Qed.
Lemma body_gdo_load_lib_name_ok : flat_map (xb cfg c (look all_macros (base names))) (tbody body_gdo_load_lib_name) = code_gdo_load_lib_name.
Proof. unfold body_gdo_load_lib_name. cbn [tbody flat_map xb app]. fold vs. rewrite ?app_nil_r. lazy -[known names vs]. reflexivity. Qed.
Lemma find_gdo_load_lib_name : find_func funs $"gdo_load_lib_name" = if forallb (feval cfg) [] then Some (mkfunc [(TWord $"GDO_LINKAGE"); (TWord $"bool")] $"gdo_load_lib_name" [([(TWord $"const"); (TWord $"gdo_char_t"); (TOp $"*")], $"filename")] (code_gdo_load_lib_name)) else None.
Proof.
  rewrite (find_by $"gdo_load_lib_name" [] all_macros [(TWord $"GDO_LINKAGE"); (TWord $"bool")] [([(TWord $"const"); (TWord $"gdo_char_t"); (TOp $"*")], $"filename")] (tbody body_gdo_load_lib_name)) by (destruct p; vm_compute; reflexivity).
  rewrite body_gdo_load_lib_name_ok. reflexivity.
Qed.
Lemma body_gdo_load_lib_name_and_symbols_ok : flat_map (xb cfg c (look all_macros (base names))) (tbody body_gdo_load_lib_name_and_symbols) = code_gdo_load_lib_name_and_symbols.
Proof. unfold body_gdo_load_lib_name_and_symbols. cbn [tbody flat_map xb app]. fold vs. rewrite ?app_nil_r. lazy -[known names vs]. reflexivity. Qed.
Lemma find_gdo_load_lib_name_and_symbols : find_func funs $"gdo_load_lib_name_and_symbols" = if forallb (feval cfg) [] then Some (mkfunc [(TWord $"GDO_LINKAGE"); (TWord $"bool")] $"gdo_load_lib_name_and_symbols" [([(TWord $"const"); (TWord $"gdo_char_t"); (TOp $"*")], $"filename")] (code_gdo_load_lib_name_and_symbols)) else None.
Proof.
  rewrite (find_by $"gdo_load_lib_name_and_symbols" [] all_macros [(TWord $"GDO_LINKAGE"); (TWord $"bool")] [([(TWord $"const"); (TWord $"gdo_char_t"); (TOp $"*")], $"filename")] (tbody body_gdo_load_lib_name_and_symbols)) by (destruct p; vm_compute; reflexivity).
  rewrite body_gdo_load_lib_name_and_symbols_ok. reflexivity.
Qed.
Lemma body_gdo_load_lib_args_ok : flat_map (xb cfg c (look all_macros (base names))) (tbody body_gdo_load_lib_args) = code_gdo_load_lib_args.
Proof. unfold body_gdo_load_lib_args. cbn [tbody flat_map xb app]. fold vs. rewrite ?app_nil_r. lazy -[known names vs]. reflexivity. Qed.
Lemma find_gdo_load_lib_args : find_func funs $"gdo_load_lib_args" = if forallb (feval cfg) [] then Some (mkfunc [(TWord $"GDO_LINKAGE"); (TWord $"bool")] $"gdo_load_lib_args" [([(TWord $"const"); (TWord $"gdo_char_t"); (TOp $"*")], $"filename"); ([(TWord $"int")], $"flags"); ([(TWord $"bool")], $"new_namespace")] (code_gdo_load_lib_args)) else None.
Proof.
  rewrite (find_by $"gdo_load_lib_args" [] all_macros [(TWord $"GDO_LINKAGE"); (TWord $"bool")] [([(TWord $"const"); (TWord $"gdo_char_t"); (TOp $"*")], $"filename"); ([(TWord $"int")], $"flags"); ([(TWord $"bool")], $"new_namespace")] (tbody body_gdo_load_lib_args)) by (destruct p; vm_compute; reflexivity).
  rewrite body_gdo_load_lib_args_ok. reflexivity.
Qed.
Lemma body_gdo_load_library_ok : flat_map (xb cfg c (look all_macros (base names))) (tbody body_gdo_load_library) = code_gdo_load_library.
Proof. unfold body_gdo_load_library. cbn [tbody flat_map xb app]. fold vs. rewrite ?app_nil_r. lazy -[known names vs]. reflexivity. Qed.
Lemma find_gdo_load_library : find_func funs $"_gdo_load_library" = if forallb (feval cfg) [] then Some (mkfunc [(TWord $"GDO_INLINE"); (TWord $"void")] $"_gdo_load_library" [([(TWord $"const"); (TWord $"gdo_char_t"); (TOp $"*")], $"filename"); ([(TWord $"int")], $"flags"); ([(TWord $"bool")], $"new_namespace")] (code_gdo_load_library)) else None.
Proof.
  rewrite (find_by $"_gdo_load_library" [] all_macros [(TWord $"GDO_INLINE"); (TWord $"void")] [([(TWord $"const"); (TWord $"gdo_char_t"); (TOp $"*")], $"filename"); ([(TWord $"int")], $"flags"); ([(TWord $"bool")], $"new_namespace")] (tbody body_gdo_load_library)) by (destruct p; vm_compute; reflexivity).
  rewrite body_gdo_load_library_ok. reflexivity.
Qed.
Lemma body_gdo_lib_is_loaded_ok : flat_map (xb cfg c (look all_macros (base names))) (tbody body_gdo_lib_is_loaded) = code_gdo_lib_is_loaded.
Proof. unfold body_gdo_lib_is_loaded. cbn [tbody flat_map xb app]. fold vs. rewrite ?app_nil_r. lazy -[known names vs]. reflexivity. Qed.
Lemma find_gdo_lib_is_loaded : find_func funs $"gdo_lib_is_loaded" = if forallb (feval cfg) [] then Some (mkfunc [(TWord $"GDO_LINKAGE"); (TWord $"bool")] $"gdo_lib_is_loaded" [] (code_gdo_lib_is_loaded)) else None.
Proof.
  rewrite (find_by $"gdo_lib_is_loaded" [] all_macros [(TWord $"GDO_LINKAGE"); (TWord $"bool")] [] (tbody body_gdo_lib_is_loaded)) by (destruct p; vm_compute; reflexivity).
  rewrite body_gdo_lib_is_loaded_ok. reflexivity.
Qed.
Lemma body_gdo_free_lib_ok : flat_map (xb cfg c (look all_macros (base names))) (tbody body_gdo_free_lib) = code_gdo_free_lib vs.
Proof. unfold body_gdo_free_lib. cbn [tbody flat_map xb app]. fold vs. rewrite each_1. rewrite ?app_nil_r. lazy -[known names vs loop_1]. reflexivity. Qed.
Lemma find_gdo_free_lib : find_func funs $"gdo_free_lib" = if forallb (feval cfg) [] then Some (mkfunc [(TWord $"GDO_LINKAGE"); (TWord $"bool")] $"gdo_free_lib" [] (code_gdo_free_lib vs)) else None.
Proof.
  rewrite (find_by $"gdo_free_lib" [] all_macros [(TWord $"GDO_LINKAGE"); (TWord $"bool")] [] (tbody body_gdo_free_lib)) by (destruct p; vm_compute; reflexivity).
  rewrite body_gdo_free_lib_ok. reflexivity.
Qed.
Lemma body_gdo_force_free_lib_ok : flat_map (xb cfg c (look all_macros (base names))) (tbody body_gdo_force_free_lib) = code_gdo_force_free_lib vs.
Proof. unfold body_gdo_force_free_lib. cbn [tbody flat_map xb app]. fold vs. rewrite each_2. rewrite ?app_nil_r. lazy -[known names vs loop_2]. reflexivity. Qed.
Lemma find_gdo_force_free_lib : find_func funs $"gdo_force_free_lib" = if forallb (feval cfg) [] then Some (mkfunc [(TWord $"GDO_LINKAGE"); (TWord $"void")] $"gdo_force_free_lib" [] (code_gdo_force_free_lib vs)) else None.
Proof.
  rewrite (find_by $"gdo_force_free_lib" [] all_macros [(TWord $"GDO_LINKAGE"); (TWord $"void")] [] (tbody body_gdo_force_free_lib)) by (destruct p; vm_compute; reflexivity).
  rewrite body_gdo_force_free_lib_ok. reflexivity.
Qed.
Lemma body_gdo_enable_autorelease_ok : flat_map (xb cfg c (look all_macros (base names))) (tbody body_gdo_enable_autorelease) = code_gdo_enable_autorelease.
Proof. unfold body_gdo_enable_autorelease. cbn [tbody flat_map xb app]. fold vs. rewrite ?app_nil_r. lazy -[known names vs]. reflexivity. Qed.
Lemma find_gdo_enable_autorelease : find_func funs $"gdo_enable_autorelease" = if forallb (feval cfg) [] then Some (mkfunc [(TWord $"GDO_LINKAGE"); (TWord $"bool")] $"gdo_enable_autorelease" [] (code_gdo_enable_autorelease)) else None.
Proof.
  rewrite (find_by $"gdo_enable_autorelease" [] all_macros [(TWord $"GDO_LINKAGE"); (TWord $"bool")] [] (tbody body_gdo_enable_autorelease)) by (destruct p; vm_compute; reflexivity).
  rewrite body_gdo_enable_autorelease_ok. reflexivity.
Qed.
Lemma body_gdo_all_symbols_loaded_ok : flat_map (xb cfg c (look all_macros (base names))) (tbody body_gdo_all_symbols_loaded) = code_gdo_all_symbols_loaded vs.
Proof. unfold body_gdo_all_symbols_loaded. cbn [tbody flat_map xb app]. fold vs. rewrite each_3. rewrite ?app_nil_r. lazy -[known names vs loop_3]. reflexivity. Qed.
Lemma find_gdo_all_symbols_loaded : find_func funs $"gdo_all_symbols_loaded" = if forallb (feval cfg) [] then Some (mkfunc [(TWord $"GDO_LINKAGE"); (TWord $"bool")] $"gdo_all_symbols_loaded" [] (code_gdo_all_symbols_loaded vs)) else None.
Proof.
  rewrite (find_by $"gdo_all_symbols_loaded" [] all_macros [(TWord $"GDO_LINKAGE"); (TWord $"bool")] [] (tbody body_gdo_all_symbols_loaded)) by (destruct p; vm_compute; reflexivity).
  rewrite body_gdo_all_symbols_loaded_ok. reflexivity.
Qed.
Lemma body_gdo_no_symbols_loaded_ok : flat_map (xb cfg c (look all_macros (base names))) (tbody body_gdo_no_symbols_loaded) = code_gdo_no_symbols_loaded vs.
Proof. unfold body_gdo_no_symbols_loaded. cbn [tbody flat_map xb app]. fold vs. rewrite each_4. rewrite ?app_nil_r. lazy -[known names vs loop_4]. reflexivity. Qed.
Lemma find_gdo_no_symbols_loaded : find_func funs $"gdo_no_symbols_loaded" = if forallb (feval cfg) [] then Some (mkfunc [(TWord $"GDO_LINKAGE"); (TWord $"bool")] $"gdo_no_symbols_loaded" [] (code_gdo_no_symbols_loaded vs)) else None.
Proof.
  rewrite (find_by $"gdo_no_symbols_loaded" [] all_macros [(TWord $"GDO_LINKAGE"); (TWord $"bool")] [] (tbody body_gdo_no_symbols_loaded)) by (destruct p; vm_compute; reflexivity).
  rewrite body_gdo_no_symbols_loaded_ok. reflexivity.
Qed.
Lemma body_gdo_any_symbol_loaded_ok : flat_map (xb cfg c (look all_macros (base names))) (tbody body_gdo_any_symbol_loaded) = code_gdo_any_symbol_loaded vs.
Proof. unfold body_gdo_any_symbol_loaded. cbn [tbody flat_map xb app]. fold vs. rewrite each_5. rewrite ?app_nil_r. lazy -[known names vs loop_5]. reflexivity. Qed.
Lemma find_gdo_any_symbol_loaded : find_func funs $"gdo_any_symbol_loaded" = if forallb (feval cfg) [] then Some (mkfunc [(TWord $"GDO_LINKAGE"); (TWord $"bool")] $"gdo_any_symbol_loaded" [] (code_gdo_any_symbol_loaded vs)) else None.
Proof.
  rewrite (find_by $"gdo_any_symbol_loaded" [] all_macros [(TWord $"GDO_LINKAGE"); (TWord $"bool")] [] (tbody body_gdo_any_symbol_loaded)) by (destruct p; vm_compute; reflexivity).
  rewrite body_gdo_any_symbol_loaded_ok. reflexivity.
Qed.
Lemma body_gdo_load_all_symbols_ok : flat_map (xb cfg c (look all_macros (base names))) (tbody body_gdo_load_all_symbols) = code_gdo_load_all_symbols vs.
Proof. unfold body_gdo_load_all_symbols. cbn [tbody flat_map xb app]. fold vs. rewrite each_6. rewrite ?app_nil_r. lazy -[known names vs loop_6]. reflexivity. Qed.
Lemma find_gdo_load_all_symbols : find_func funs $"gdo_load_all_symbols" = if forallb (feval cfg) [] then Some (mkfunc [(TWord $"GDO_LINKAGE"); (TWord $"bool")] $"gdo_load_all_symbols" [] (code_gdo_load_all_symbols vs)) else None.
Proof.
  rewrite (find_by $"gdo_load_all_symbols" [] all_macros [(TWord $"GDO_LINKAGE"); (TWord $"bool")] [] (tbody body_gdo_load_all_symbols)) by (destruct p; vm_compute; reflexivity).
  rewrite body_gdo_load_all_symbols_ok. reflexivity.
Qed.
Lemma body_gdo_sym_ok : flat_map (xb cfg c (look all_macros (base names))) (tbody body_gdo_sym) = code_gdo_sym.
Proof. unfold body_gdo_sym. cbn [tbody flat_map xb app]. fold vs. rewrite ?app_nil_r. lazy -[known names vs]. reflexivity. Qed.
Lemma find_gdo_sym : find_func funs $"_gdo_sym" = if forallb (feval cfg) [] then Some (mkfunc [(TWord $"GDO_INLINE"); (TWord $"void"); (TOp $"*")] $"_gdo_sym" [([(TWord $"const"); (TWord $"char"); (TOp $"*")], $"symbol"); ([(TWord $"const"); (TWord $"gdo_char_t"); (TOp $"*")], $"msg")] (code_gdo_sym)) else None.
Proof.
  rewrite (find_by $"_gdo_sym" [] all_macros [(TWord $"GDO_INLINE"); (TWord $"void"); (TOp $"*")] [([(TWord $"const"); (TWord $"char"); (TOp $"*")], $"symbol"); ([(TWord $"const"); (TWord $"gdo_char_t"); (TOp $"*")], $"msg")] (tbody body_gdo_sym)) by (destruct p; vm_compute; reflexivity).
  rewrite body_gdo_sym_ok. reflexivity.
Qed.
Lemma body_gdo_load_symbol_ok : flat_map (xb cfg c (look all_macros (base names))) (tbody body_gdo_load_symbol) = code_gdo_load_symbol vs.
Proof. unfold body_gdo_load_symbol. cbn [tbody flat_map xb app]. fold vs. rewrite each_7. rewrite ?app_nil_r. lazy -[known names vs loop_7]. reflexivity. Qed.
Lemma find_gdo_load_symbol : find_func funs $"gdo_load_symbol" = if forallb (feval cfg) [] then Some (mkfunc [(TWord $"GDO_LINKAGE"); (TWord $"bool")] $"gdo_load_symbol" [([(TWord $"int")], $"symbol_num")] (code_gdo_load_symbol vs)) else None.
Proof.
  rewrite (find_by $"gdo_load_symbol" [] all_macros [(TWord $"GDO_LINKAGE"); (TWord $"bool")] [([(TWord $"int")], $"symbol_num")] (tbody body_gdo_load_symbol)) by (destruct p; vm_compute; reflexivity).
  rewrite body_gdo_load_symbol_ok. reflexivity.
Qed.
Lemma body_gdo_load_symbol_name_ok : flat_map (xb cfg c (look all_macros (base names))) (tbody body_gdo_load_symbol_name) = code_gdo_load_symbol_name vs.
Proof. unfold body_gdo_load_symbol_name. cbn [tbody flat_map xb app]. fold vs. rewrite each_8. rewrite ?app_nil_r. lazy -[known names vs loop_8]. reflexivity. Qed.
Lemma find_gdo_load_symbol_name : find_func funs $"gdo_load_symbol_name" = if forallb (feval cfg) [] then Some (mkfunc [(TWord $"GDO_LINKAGE"); (TWord $"bool")] $"gdo_load_symbol_name" [([(TWord $"const"); (TWord $"char"); (TOp $"*")], $"symbol")] (code_gdo_load_symbol_name vs)) else None.
Proof.
  rewrite (find_by $"gdo_load_symbol_name" [] all_macros [(TWord $"GDO_LINKAGE"); (TWord $"bool")] [([(TWord $"const"); (TWord $"char"); (TOp $"*")], $"symbol")] (tbody body_gdo_load_symbol_name)) by (destruct p; vm_compute; reflexivity).
  rewrite body_gdo_load_symbol_name_ok. reflexivity.
Qed.
Lemma body_gdo_last_error_ok : flat_map (xb cfg c (look all_macros (base names))) (tbody body_gdo_last_error) = code_gdo_last_error.
Proof. unfold body_gdo_last_error. cbn [tbody flat_map xb app]. fold vs. rewrite ?app_nil_r. lazy -[known names vs]. reflexivity. Qed.
Lemma find_gdo_last_error : find_func funs $"gdo_last_error" = if forallb (feval cfg) [] then Some (mkfunc [(TWord $"GDO_LINKAGE"); (TWord $"const"); (TWord $"gdo_char_t"); (TOp $"*")] $"gdo_last_error" [] (code_gdo_last_error)) else None.
Proof.
  rewrite (find_by $"gdo_last_error" [] all_macros [(TWord $"GDO_LINKAGE"); (TWord $"const"); (TWord $"gdo_char_t"); (TOp $"*")] [] (tbody body_gdo_last_error)) by (destruct p; vm_compute; reflexivity).
  rewrite body_gdo_last_error_ok. reflexivity.
Qed.
Lemma body_gdo_library_path_ok : flat_map (xb cfg c (look all_macros (base names))) (tbody body_gdo_library_path) = code_gdo_library_path cfg.
Proof. unfold body_gdo_library_path. cbn [tbody flat_map xb app]. fold vs. rewrite ?app_nil_r. lazy -[known names vs]. reflexivity. Qed.
Lemma find_gdo_library_path : find_func funs $"gdo_library_path" = if forallb (feval cfg) [] then Some (mkfunc [(TWord $"GDO_LINKAGE"); (TWord $"const"); (TWord $"gdo_char_t"); (TOp $"*")] $"gdo_library_path" [] (code_gdo_library_path cfg)) else None.
Proof.
  rewrite (find_by $"gdo_library_path" [] all_macros [(TWord $"GDO_LINKAGE"); (TWord $"const"); (TWord $"gdo_char_t"); (TOp $"*")] [] (tbody body_gdo_library_path)) by (destruct p; vm_compute; reflexivity).
  rewrite body_gdo_library_path_ok. reflexivity.
Qed.
Lemma body_gdo_libpath_dlinfo_ok : flat_map (xb cfg c (look all_macros (base names))) (tbody body_gdo_libpath_dlinfo) = code_gdo_libpath_dlinfo cfg.
Proof. unfold body_gdo_libpath_dlinfo. cbn [tbody flat_map xb app]. fold vs. rewrite ?app_nil_r. lazy -[known names vs]. reflexivity. Qed.
Lemma find_gdo_libpath_dlinfo : find_func funs $"_gdo_libpath_dlinfo" = if forallb (feval cfg) [(FDef $"GDO_HAVE_DLINFO")] then Some (mkfunc [(TWord $"GDO_INLINE"); (TWord $"bool")] $"_gdo_libpath_dlinfo" [] (code_gdo_libpath_dlinfo cfg)) else None.
Proof.
  rewrite (find_by $"_gdo_libpath_dlinfo" [(FDef $"GDO_HAVE_DLINFO")] all_macros [(TWord $"GDO_INLINE"); (TWord $"bool")] [] (tbody body_gdo_libpath_dlinfo)) by (destruct p; vm_compute; reflexivity).
  rewrite body_gdo_libpath_dlinfo_ok. reflexivity.
Qed.
Lemma body_gdo_libpath_dladdr_ok : flat_map (xb cfg c (look all_macros (base names))) (tbody body_gdo_libpath_dladdr) = code_gdo_libpath_dladdr vs.
Proof. unfold body_gdo_libpath_dladdr. cbn [tbody flat_map xb app]. fold vs. rewrite each_9. rewrite ?app_nil_r. lazy -[known names vs loop_9]. reflexivity. Qed.
Lemma find_gdo_libpath_dladdr : find_func funs $"_gdo_libpath_dladdr" = if forallb (feval cfg) [(FDef $"GDO_HAVE_DLADDR")] then Some (mkfunc [(TWord $"GDO_INLINE"); (TWord $"bool")] $"_gdo_libpath_dladdr" [] (code_gdo_libpath_dladdr vs)) else None.
Proof.
  rewrite (find_by $"_gdo_libpath_dladdr" [(FDef $"GDO_HAVE_DLADDR")] all_macros [(TWord $"GDO_INLINE"); (TWord $"bool")] [] (tbody body_gdo_libpath_dladdr)) by (destruct p; vm_compute; reflexivity).
  rewrite body_gdo_libpath_dladdr_ok. reflexivity.
Qed.
Lemma body_gdo_print_error_ok : flat_map (xb cfg c (look all_macros (base names))) (tbody body_gdo_print_error) = code_gdo_print_error.
Proof. unfold body_gdo_print_error. cbn [tbody flat_map xb app]. fold vs. rewrite ?app_nil_r. lazy -[known names vs]. reflexivity. Qed.
Lemma find_gdo_print_error : wrapping = true -> find_func funs $"_gdo_print_error" = if forallb (feval cfg) [(FOr (FDef $"GDO_WRAP_FUNCTIONS") (FDef $"GDO_ENABLE_AUTOLOAD"))] then Some (mkfunc [(TWord $"GDO_INLINE"); (TWord $"void")] $"_gdo_print_error" [([(TWord $"const"); (TWord $"gdo_char_t"); (TOp $"*")], $"fmt"); ([(TWord $"const"); (TWord $"gdo_char_t"); (TOp $"*")], $"sym"); ([(TWord $"const"); (TWord $"gdo_char_t"); (TOp $"*")], $"msg")] (code_gdo_print_error)) else None.
Proof.
  intro W. rewrite (find_by $"_gdo_print_error" [(FOr (FDef $"GDO_WRAP_FUNCTIONS") (FDef $"GDO_ENABLE_AUTOLOAD"))] all_macros [(TWord $"GDO_INLINE"); (TWord $"void")] [([(TWord $"const"); (TWord $"gdo_char_t"); (TOp $"*")], $"fmt"); ([(TWord $"const"); (TWord $"gdo_char_t"); (TOp $"*")], $"sym"); ([(TWord $"const"); (TWord $"gdo_char_t"); (TOp $"*")], $"msg")] (tbody body_gdo_print_error)) by (unfold wrapping in W; destruct p; try discriminate; vm_compute; reflexivity).
  rewrite body_gdo_print_error_ok. reflexivity.
Qed.
Lemma body_gdo_wrap_check_loaded_ok : flat_map (xb cfg c (look all_macros (base names))) (tbody body_gdo_wrap_check_loaded) = code_gdo_wrap_check_loaded cfg.
Proof. unfold body_gdo_wrap_check_loaded. cbn [tbody flat_map xb app]. fold vs. rewrite ?app_nil_r. lazy -[known names vs]. reflexivity. Qed.
Lemma find_gdo_wrap_check_loaded : wrapping = true -> find_func funs $"_gdo_wrap_check_loaded" = if forallb (feval cfg) [(FOr (FDef $"GDO_WRAP_FUNCTIONS") (FDef $"GDO_ENABLE_AUTOLOAD"))] then Some (mkfunc [(TWord $"GDO_LINKAGE"); (TWord $"void")] $"_gdo_wrap_check_loaded" [([(TWord $"void"); (TOp $"*")], $"symptr"); ([(TWord $"int")], $"load"); ([(TWord $"const"); (TWord $"gdo_char_t"); (TOp $"*")], $"sym")] (code_gdo_wrap_check_loaded cfg)) else None.
Proof.
  intro W. rewrite (find_by $"_gdo_wrap_check_loaded" [(FOr (FDef $"GDO_WRAP_FUNCTIONS") (FDef $"GDO_ENABLE_AUTOLOAD"))] all_macros [(TWord $"GDO_LINKAGE"); (TWord $"void")] [([(TWord $"void"); (TOp $"*")], $"symptr"); ([(TWord $"int")], $"load"); ([(TWord $"const"); (TWord $"gdo_char_t"); (TOp $"*")], $"sym")] (tbody body_gdo_wrap_check_loaded)) by (unfold wrapping in W; destruct p; try discriminate; vm_compute; reflexivity).
  rewrite body_gdo_wrap_check_loaded_ok. reflexivity.
Qed.
Lemma none_dlopen : find_func funs $"dlopen" = None.
Proof. unfold find_func, funs. apply names_in. destruct p; vm_compute; reflexivity. Qed.
Lemma none_dlmopen : find_func funs $"dlmopen" = None.
Proof. unfold find_func, funs. apply names_in. destruct p; vm_compute; reflexivity. Qed.
Lemma none_dlsym : find_func funs $"dlsym" = None.
Proof. unfold find_func, funs. apply names_in. destruct p; vm_compute; reflexivity. Qed.
Lemma none_dlclose : find_func funs $"dlclose" = None.
Proof. unfold find_func, funs. apply names_in. destruct p; vm_compute; reflexivity. Qed.
Lemma none_dlerror : find_func funs $"dlerror" = None.
Proof. unfold find_func, funs. apply names_in. destruct p; vm_compute; reflexivity. Qed.
Lemma none_dlinfo : find_func funs $"dlinfo" = None.
Proof. unfold find_func, funs. apply names_in. destruct p; vm_compute; reflexivity. Qed.
Lemma none_dladdr : find_func funs $"dladdr" = None.
Proof. unfold find_func, funs. apply names_in. destruct p; vm_compute; reflexivity. Qed.
Lemma none_atexit : find_func funs $"atexit" = None.
Proof. unfold find_func, funs. apply names_in. destruct p; vm_compute; reflexivity. Qed.
Lemma none_snprintf : find_func funs $"snprintf" = None.
Proof. unfold find_func, funs. apply names_in. destruct p; vm_compute; reflexivity. Qed.
Lemma none_fprintf : find_func funs $"fprintf" = None.
Proof. unfold find_func, funs. apply names_in. destruct p; vm_compute; reflexivity. Qed.
Lemma none_fputc : find_func funs $"fputc" = None.
Proof. unfold find_func, funs. apply names_in. destruct p; vm_compute; reflexivity. Qed.
Lemma none_strlen : find_func funs $"strlen" = None.
Proof. unfold find_func, funs. apply names_in. destruct p; vm_compute; reflexivity. Qed.
Lemma none_strcmp : find_func funs $"strcmp" = None.
Proof. unfold find_func, funs. apply names_in. destruct p; vm_compute; reflexivity. Qed.
Lemma none_strncmp : find_func funs $"strncmp" = None.
Proof. unfold find_func, funs. apply names_in. destruct p; vm_compute; reflexivity. Qed.
Lemma none_strstr : find_func funs $"strstr" = None.
Proof. unfold find_func, funs. apply names_in. destruct p; vm_compute; reflexivity. Qed.
Lemma none_memcpy : find_func funs $"memcpy" = None.
Proof. unfold find_func, funs. apply names_in. destruct p; vm_compute; reflexivity. Qed.
Lemma none_exit : find_func funs $"exit" = None.
Proof. unfold find_func, funs. apply names_in. destruct p; vm_compute; reflexivity. Qed.
Lemma none_abort : find_func funs $"abort" = None.
Proof. unfold find_func, funs. apply names_in. destruct p; vm_compute; reflexivity. Qed.
Lemma none_gdo_fullpath_procmap : find_func funs $"_gdo_fullpath_procmap" = None.
Proof. unfold find_func, funs. apply names_in. destruct p; vm_compute; reflexivity. Qed.
End Functions.

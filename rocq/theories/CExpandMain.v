(** Proofs for C99: in the single file, the macros in the functions are replaced as SpecCProg.v says. *)
From Coq Require Import Ascii String List Bool Arith Lia.
From Verif Require Import Str StrFacts Parse ParamNames Prefix Substitute Data Generate SpecPrefix SpecSubstitute Templates SpecTemplates CRuntime SpecCRuntime
  SpecCLang SpecCProg SpecCRun SpecCMacro SpecBody SpecHeader CTemplate CTemplateText CTemplatePP CBody CBodyText CCode CBodyFuns CBodyProps HMacro HHeader HHeader2 HOrder HWrapper HAlias HSingle
  SpecCRead SpecCSyntax CReadMain SpecCWhole CExpand.
Import ListNotations.

(* ---------------------------------------------------------------- templates *)

Definition wordok (w : str) : bool :=
  starts_with $"GDO_LOAD_" w || starts_with $"GDO_PTR_" w || (negb (starts_with $"GDO_" w) && negb (starts_with $"_GDO_" w) && negb (one_of w other_macros) && negb (str_eqb w $"_countof")) || one_of w left_alone.
Definition rk (w : str) : nat := if str_eqb w $"GDO_SNPRINTF" then 2 else 1.
Section Template.
Variables (cfg : str -> bool) (c : config) (M : str -> option macro).
Notation chk8 := (chk M wordok rk 8).
Fixpoint bchk (s : bstmt) : bool :=
  match s with
  | BExpr e => chk8 (ie e)
  | BDecl ty x _ init => tyok wordok (unglued ty) && wordok x && match init with Some e => chk8 (ie e) | None => true end
  | BIf e yes no => chk8 (ie e) && forallb bchk yes && match no with Some l => forallb bchk l | None => true end
  | BIfEach e o each yes => chk8 (ie e) && forallb bchk yes
  | BReturn e => match e with Some e => chk8 (ie e) | None => true end
  | BSwitch e body => chk8 (ie e) && forallb bchk body
  | BCase e => chk8 (ie e)
  | BDefault | BBreak | BEach _ => true
  | BGuard _ l => forallb bchk l
  end.
End Template.
Fixpoint each_of (s : bstmt) : list (list tstmt) :=
  match s with
  | BIf _ yes no => flat_map each_of yes ++ match no with Some l => flat_map each_of l | None => [] end
  | BIfEach _ _ _ l | BSwitch _ l | BGuard _ l => flat_map each_of l
  | BEach l => [l]
  | _ => []
  end.
Fixpoint tests_of (s : bstmt) : list texpr :=
  match s with
  | BIf _ yes no => flat_map tests_of yes ++ match no with Some l => flat_map tests_of l | None => [] end
  | BIfEach _ _ e l => e :: flat_map tests_of l
  | BSwitch _ l | BGuard _ l => flat_map tests_of l
  | _ => []
  end.
Section Template2.
Variables (cfg : str -> bool) (c : config) (M : str -> option macro).
Notation sk := (schk M wordok rk).
Lemma bchk_ok : forall b, bchk M b = true -> (forall l v, In l (each_of b) -> In v (envs c CSymbol) -> forallb sk (map (inst_t v) l) = true) ->
  (forall e v, In e (tests_of b) -> In v (envs c CSymbol) -> chk M wordok rk 8 (inst_e v e) = true) -> forallb sk (inst_b cfg c b) = true.
Proof.
  fix go 1. intros b H E T.
  assert (L : forall l, forallb (bchk M) l = true -> (forall q v, In q (flat_map each_of l) -> In v (envs c CSymbol) -> forallb sk (map (inst_t v) q) = true) ->
    (forall e v, In e (flat_map tests_of l) -> In v (envs c CSymbol) -> chk M wordok rk 8 (inst_e v e) = true) -> forallb sk (flat_map (inst_b cfg c) l) = true).
  { clear H E T. induction l as [|x l IH]; intros H E T; [reflexivity|]. cbn [forallb flat_map] in *. apply andb_true_iff in H as [H1 H2]. rewrite forallb_app, (go x H1), IH; auto; intros; (apply E || apply T); auto; apply in_or_app; tauto. }
  destruct b; cbn [bchk inst_b forallb schk each_of tests_of] in *; rewrite ?andb_true_r.
  - exact H.
  - now destruct init.
  - rewrite !andb_true_iff in H. destruct H as [[A B] C]. rewrite A, L; auto; [|intros; apply E; auto; apply in_or_app; tauto|intros; apply T; auto; apply in_or_app; tauto]. cbn [andb].
    destruct no as [l|]; [|reflexivity]. cbn [option_map]. apply L; auto; [intros; apply E; auto; apply in_or_app; tauto|intros; apply T; auto; apply in_or_app; tauto].
  - rewrite !andb_true_iff in H. destruct H as [A B]. rewrite (L yes); auto; [|intros; apply T; auto; now right]. rewrite andb_true_r.
    assert (T' : forall v, In v (envs c CSymbol) -> chk M wordok rk 8 (inst_e v each) = true) by (intros; apply T; auto; now left). clear -A T'. revert A T'. generalize (ie e) (envs c CSymbol).
    intros x l. revert x. induction l as [|v l IH]; intros x A T; [exact A|]. cbn [fold_left]. apply IH; [|intros; apply T; now right].
    change (chk M wordok rk 8 x && chk M wordok rk 8 (inst_e v each) = true). rewrite A, (T v); [reflexivity|now left].
  - now destruct e.
  - apply andb_true_iff in H as [A B]. rewrite A. now apply L.
  - exact H.
  - reflexivity.
  - reflexivity.
  - clear L. assert (G : forall v, In v (envs c CSymbol) -> forallb sk (map (inst_t v) l) = true) by (intros; apply E; auto; now left).
    revert G. generalize (envs c CSymbol). intro vs. induction vs as [|v vs IH]; intro G; [reflexivity|]. cbn [flat_map]. rewrite forallb_app, G, IH; auto; [intros; apply G; now right|now left].
  - destruct (forallb (feval cfg) g); [now apply L|reflexivity].
Qed.
End Template2.

(* ---------------------------------------------------------------- the templates of this program *)

Definition fnames (p : tprogram) : list str := flat_map (fun x => match snd x with JFunc _ n _ _ => [n] | _ => [] end) p.
Lemma has_name p f : has p f = true -> In f (fnames p).
Proof.
  induction p as [|[g i] p IH]; [discriminate|]. intro H. unfold fnames. cbn [flat_map snd]. apply in_or_app. destruct i; try (right; now apply IH). cbn [has] in H.
  apply orb_true_iff in H as [H|H]; [left; apply str_eqb_eq in H; now left|right; now apply IH].
Qed.
Definition found (q : tprogram) (n : str) := match flook [] q n with Some (_, (v, (h, ps, b))) => Some (v, h, ps, b) | None => None end.
Definition whole_ok (names : list str) (q : tprogram) (n : str) : bool :=
  match found q n with
  | Some (v, h, ps, b) => tyok wordok (unglued h) && wordok n && forallb (fun p => tyok wordok (unglued (fst p)) && wordok (snd p)) ps && forallb (bchk (look v (base names))) b
  | None => false
  end.
Lemma all_whole names p : forallb (whole_ok names (body_of p)) (fnames (body_of p)) = true.
Proof. destruct p; vm_compute; reflexivity. Qed.
Definition loops (q : tprogram) : list (list (str * macro) * list tstmt) :=
  flat_map (fun n => match found q n with Some (v, _, _, b) => map (pair v) (flat_map each_of b) | None => [] end) (fnames q).
Definition tests (q : tprogram) : list (list (str * macro) * texpr) :=
  flat_map (fun n => match found q n with Some (v, _, _, b) => map (pair v) (flat_map tests_of b) | None => [] end) (fnames q).
(** what is checked depends on the macros that are named *)
Section Agree.
Variables (m m' : str -> option macro) (P : str -> Prop).
Hypothesis same_on : forall x, P x -> m x = m' x.
Hypothesis bodies : forall x p b, m x = Some (mkmacro p (MExpr b)) -> Forall P (ids b).
Notation K n e := (chk m wordok rk n e = chk m' wordok rk n e).
Lemma chk_agree n : forall e, Forall P (ids e) -> K n e.
Proof.
  assert (useful_on : forall x, P x -> useful (m x) = useful (m' x)) by (intros x X; now rewrite (same_on x X)).
  induction n as [|n IH]; [reflexivity|]. fix go 1. intros e H. destruct e; try reflexivity;
    try (cbn [ids] in H; change (K (S n) e); now apply go);
    try (cbn [ids] in H; apply Forall_app in H as [Ha Hb]; pose proof (go _ Ha) as A; pose proof (go _ Hb) as B; cbn [chk] in *; now rewrite A, B);
    try (cbn [ids] in H; pose proof (go _ H) as A; cbn [chk] in *; now rewrite A).
  - cbn [ids] in H. inversion H as [|? ? Hx _]; subst. cbn [chk]. specialize (bodies x). rewrite <- (same_on x Hx). destruct (m x) as [[[p|] [b|l]]|]; try reflexivity. f_equal. apply IH. now apply (bodies None).
  - cbn [ids] in H. inversion H as [|? ? Hf Hl]; subst. rewrite !chk_call, <- (same_on f Hf).
    assert (A : map (expand m (S n)) args = map (expand m' (S n)) args /\ Forall (fun e => Forall P (ids e)) (map (expand m (S n)) args) /\ forallb (chk m wordok rk (S n)) args = forallb (chk m' wordok rk (S n)) args).
    { clear - go Hl useful_on bodies. induction args as [|a args IHa]; [split; [|split]; constructor|]. cbn [flat_map] in Hl. apply Forall_app in Hl as [Ha Hl].
      destruct (expand_agree m m' P useful_on bodies (S n) a Ha) as [G1 G2]. destruct (IHa Hl) as (I1 & I2 & I3). pose proof (go a Ha) as G3.
      change (map (expand m (S n)) (a :: args)) with (expand m (S n) a :: map (expand m (S n)) args). change (map (expand m' (S n)) (a :: args)) with (expand m' (S n) a :: map (expand m' (S n)) args).
      change (forallb (chk m wordok rk (S n)) (a :: args)) with (chk m wordok rk (S n) a && forallb (chk m wordok rk (S n)) args).
      change (forallb (chk m' wordok rk (S n)) (a :: args)) with (chk m' wordok rk (S n) a && forallb (chk m' wordok rk (S n)) args). rewrite I3, G3. split; [now rewrite I1, G1|]. split; [now constructor|reflexivity]. }
    destruct A as (A1 & A2 & A3). rewrite A3, <- A1. f_equal. specialize (bodies f). destruct (m f) as [[[[ps va]|] [b|l]]|]; try reflexivity. f_equal. apply IH.
    apply subst_fits; [now apply zip_fits| |exact (bodies _ _ eq_refl)].
    clear - A2. revert A2. generalize (map (expand m (S n)) args). generalize (length ps). induction n0 as [|k IHk]; intros l F; [exact F|]. destruct F; [constructor|]. now apply IHk.
Qed.
Lemma schk_agree : forall s, Forall P (ids_s s) -> schk m wordok rk s = schk m' wordok rk s.
Proof.
  fix go 1. intros s H.
  assert (L : forall l, Forall P (flat_map ids_s l) -> forallb (schk m wordok rk) l = forallb (schk m' wordok rk) l).
  { clear H. induction l as [|x l IH]; intro H; [reflexivity|]. cbn [flat_map] in H. apply Forall_app in H as [H1 H2]. cbn [forallb]. now rewrite (go x H1), (IH H2). }
  destruct s; cbn [schk ids_s] in *; try reflexivity; try now apply chk_agree.
  - destruct init; [|reflexivity]. f_equal. now apply chk_agree.
  - apply Forall_app in H as [H1 H2]. apply Forall_app in H2 as [H2 H3]. rewrite (chk_agree 8 c H1), (L yes H2). destruct no as [l|]; [|reflexivity]. now rewrite (L l H3).
  - destruct e; [|reflexivity]. now apply chk_agree.
  - apply Forall_app in H as [H1 H2]. now rewrite (chk_agree 8 e H1), (L body H2).
Qed.
Lemma schk_agree_all l : Forall P (flat_map ids_s l) -> forallb (schk m wordok rk) l = forallb (schk m' wordok rk) l.
Proof. induction l as [|x l IH]; intro H; [reflexivity|]. cbn [flat_map] in H. apply Forall_app in H as [H1 H2]. cbn [forallb]. now rewrite (schk_agree x H1), (IH H2). Qed.
End Agree.
Lemma any_exact names x : fits_names names x -> look all_macros (base names) x = look all_macros base_any x.
Proof.
  intro F. unfold look. destruct (lookup x all_macros); [reflexivity|]. unfold base, base_any. destruct (str_eqb x $"_T"); [reflexivity|].
  unfold fits_names in F. destruct (strip $"GDO_RAWPTR_" x) as [n|]; [|reflexivity]. now rewrite F.
Qed.
Section Loops.
Variables (names : list str) (v : hole -> str).
Hypothesis K : known names (v HSym ++ []) = true.
Hypothesis T : tyok wordok (utoks v [KHole HSymType]) = true.
Ltac fits := repeat (constructor; [first [exact Logic.I | exact K]|]); constructor.
Lemma chk_cast M o x ty e b : chk M wordok rk 8 (EBin o (EParen (ESet x (ECast ty e))) b) = (chk M wordok rk 8 x && (tyok wordok ty && chk M wordok rk 8 e)) && chk M wordok rk 8 b.
Proof. reflexivity. Qed.
Lemma chk_cast2 M x ty e : chk M wordok rk 8 (ESet x (ECast ty e)) = chk M wordok rk 8 x && (tyok wordok ty && chk M wordok rk 8 e).
Proof. reflexivity. Qed.
Ltac each := cbn [map inst_t inst_e option_map]; first [cbn [forallb schk]; first [rewrite chk_cast | rewrite chk_cast2]; rewrite T; vm_compute; reflexivity | vm_compute; reflexivity].
Lemma loops_fine p : Forall (fun y => forallb (schk (look (fst y) (base names)) wordok rk) (map (inst_t v) (snd y)) = true) (loops (body_of p)).
Proof.
  let l := eval vm_compute in (map snd (loops (body_of PRead))) in replace (loops (body_of p)) with (map (pair all_macros) l) by (destruct p; vm_compute; reflexivity).
  apply Forall_map. repeat (apply Forall_cons; [cbn [fst snd]; rewrite (schk_agree_all _ (look all_macros base_any) (fits_names names) (any_exact names) (any_bodies names)) by fits; each|]). apply Forall_nil.
Qed.
Lemma tests_fine p : Forall (fun y => chk (look (fst y) (base names)) wordok rk 8 (inst_e v (snd y)) = true) (tests (body_of p)).
Proof.
  let l := eval vm_compute in (map snd (tests (body_of PRead))) in replace (tests (body_of p)) with (map (pair all_macros) l) by (destruct p; vm_compute; reflexivity).
  apply Forall_map. repeat (apply Forall_cons; [cbn [fst snd]; rewrite (chk_agree _ (look all_macros base_any) (fits_names names) (any_exact names) (any_bodies names)) by fits; each|]). apply Forall_nil.
Qed.
End Loops.

(* ---------------------------------------------------------------- where the functions are *)

Definition raw_names : list str := [$"GDO_LINKAGE"; $"GDO_OBJ_LINKAGE"].
Definition expr_names : list str := map (fun s => $s) ["GDO_XHS"; "GDO_UNUSED_REF"; "_countof"; "GDO_SNPRINTF"; "GDO_SET_LAST_ERRNO"]%string.
Definition macro_fits (i : titem) : Prop :=
  match i with
  | JMacro x mm => match m_body mm with
                   | MExpr b => one_of x expr_names = true /\ read_macro (fst (print_m mm)) (snd (print_m mm)) = Some (mkdef (m_params mm) (print_e b))
                   | MRaw _ => In x raw_names
                   end
  | _ => True
  end.
Lemma macros_fit p : Forall (fun x => macro_fits (snd x)) (body_of p).
Proof.
  assert (A : Forall (fun x => macro_fits (snd x)) body_first) by (repeat (apply Forall_cons; [first [exact Logic.I|split; reflexivity|left; reflexivity|right; left; reflexivity]|]); apply Forall_nil).
  assert (B : Forall (fun x => macro_fits (snd x)) body_wrap) by (repeat (apply Forall_cons; [exact Logic.I|]); apply Forall_nil).
  assert (C : Forall (fun x => macro_fits (snd x)) body_last) by (repeat (apply Forall_cons; [exact Logic.I|]); apply Forall_nil).
  unfold body_of. apply Forall_app. split; [exact A|]. apply Forall_app. split; [|exact C]. destruct p; try exact B. apply Forall_nil.
Qed.
Section Place.
Variables (cfg : str -> bool) (c : config).
Definition tells (v : list (str * macro)) (q : list citem) : Prop :=
  (forall x mm, lookup x v = Some mm -> one_of x expr_names = true /\ (exists b, m_body mm = MExpr b /\ read_macro (fst (print_m mm)) (snd (print_m mm)) = Some (mkdef (m_params mm) (print_e b))) /\
    last_def x (print q) = Some (PDefine x (fst (print_m mm)) (snd (print_m mm)))) /\
  (forall x, lookup x v = None -> ~ In x raw_names -> last_def x (print q) = None).
Lemma print_app a b : print (a ++ b) = print a ++ print b.
Proof. unfold print. apply flat_map_app. Qed.
Lemma tells_plain v q i : (forall x, last_def x (print_i i) = None) -> tells v q -> tells v (q ++ [i]).
Proof.
  intros N [A B]. assert (E : forall x, last_def x (print (q ++ [i])) = last_def x (print q)). { intro x. rewrite print_app, last_def_app. cbn [print flat_map]. now rewrite app_nil_r, N. }
  split; intros; rewrite E; auto.
Qed.
Lemma place p : Forall (fun x => macro_fits (snd x)) p -> forall v q f g v' h ps b, tells v q -> flook v p f = Some (g, (v', (h, ps, b))) -> forallb (feval cfg) g = true ->
  exists p1 p2, inst cfg c p = p1 ++ IFunc (mkfunc (unglued h) f (map (fun p => (unglued (fst p), snd p)) ps) (flat_map (inst_b cfg c) b)) :: p2 /\ tells v' (q ++ p1).
Proof.
  induction 1 as [|[g i] p Hi _ IH]; intros v q f g0 v' h ps b R E G; [discriminate|]. cbn [flook] in E.
  change (inst cfg c ((g, i) :: p)) with ((if forallb (feval cfg) g then inst_i cfg c i else []) ++ inst cfg c p). cbn [snd] in Hi.
  assert (step : forall i' v1, tells v1 (q ++ [i']) -> flook v1 p f = Some (g0, (v', (h, ps, b))) ->
    exists p1 p2, [i'] ++ inst cfg c p = p1 ++ IFunc (mkfunc (unglued h) f (map (fun p => (unglued (fst p), snd p)) ps) (flat_map (inst_b cfg c) b)) :: p2 /\ tells v' (q ++ p1)).
  { intros i' v1 R1 E1. destruct (IH _ _ _ _ _ _ _ _ R1 E1 G) as (p1 & p2 & P & Q). exists (i' :: p1), p2. rewrite P. split; [reflexivity|]. now rewrite <- app_assoc in Q. }
  destruct i as [h1 n ps1 b1|l|x m|x|k x l]; try discriminate.
  - destruct (str_eqb f n) eqn:N.
    + destruct (has p f) eqn:HP; [discriminate|]. injection E as -> -> -> -> ->. apply str_eqb_eq in N as <-. rewrite G. exists [], (inst cfg c p). split; [reflexivity|]. now rewrite app_nil_r.
    + destruct (forallb (feval cfg) g); [|exact (IH _ _ _ _ _ _ _ _ R E G)]. cbn [inst_i]. apply (step _ v); [|exact E]. apply tells_plain; [|exact R]. intro x. apply toks_def.
  - destruct (forallb (feval cfg) g); [|exact (IH _ _ _ _ _ _ _ _ R E G)]. cbn [inst_i]. apply (step _ v); [|exact E]. apply tells_plain; [|exact R]. intro x. apply toks_def.
  - cbn [macro_fits] in Hi. destruct (m_body m) as [e|l] eqn:MB.
    + destruct g; [|discriminate]. cbn [forallb inst_i]. apply (step _ ((x, m) :: v)); [|exact E]. destruct R as [A B]. destruct Hi as [H1 H2]. split.
      * intros y mm Y. cbn [lookup] in Y. rewrite print_app, last_def_app. cbn [print flat_map app print_i last_def names_it HMacro.named].
        destruct (str_eqb y x) eqn:YX; [|now apply A]. injection Y as <-. apply str_eqb_eq in YX as ->. split; [exact H1|]. split; [now exists e|reflexivity].
      * intros y Y NR. cbn [lookup] in Y. rewrite print_app, last_def_app. cbn [print flat_map app print_i last_def names_it HMacro.named]. destruct (str_eqb y x) eqn:YX; [discriminate|]. now apply B.
    + destruct (lookup x v) eqn:L; [discriminate|]. destruct (plain_name x) eqn:PN; [|discriminate]. destruct (forallb (feval cfg) g); [|exact (IH _ _ _ _ _ _ _ _ R E G)]. cbn [inst_i].
      apply (step _ v); [|exact E]. destruct R as [A B].
      assert (S : forall y, y <> x -> last_def y (print (q ++ [IMacro x m])) = last_def y (print q)).
      { intros y Y. rewrite print_app, last_def_app. cbn [print flat_map app print_i last_def names_it HMacro.named]. now rewrite (proj2 (str_eqb_neq y x) Y). }
      split.
      * intros y mm Y. rewrite S by congruence. now apply A.
      * intros y Y NR. rewrite S by (intros ->; contradiction). now apply B.
Qed.
End Place.

(* ---------------------------------------------------------------- the macros where a function stands *)

Lemma without_at names m x : macro_at (without names m) x = if one_of x names then None else macro_at m x.
Proof.
  unfold macro_at, without. induction m as [|[y d] m IH]; [now destruct (one_of x names)|]. cbn [filter fst lookup]. destruct (one_of y names) eqn:Y; cbn [negb].
  - rewrite IH. destruct (str_eqb x y) eqn:E; [apply str_eqb_eq in E as ->; now rewrite Y|reflexivity].
  - cbn [lookup]. destruct (str_eqb x y) eqn:E; [apply str_eqb_eq in E as ->; now rewrite Y|exact IH].
Qed.
Section Table.
Variables (c : config) (cfg : str -> bool) (a : list gel) (v : list (str * macro)) (p1 : list citem).
Hypothesis U : usable c cfg.
Hypothesis quiet : feval cfg f_sep = false.
Hypothesis F : front_facts (c_param c) a.
Hypothesis St : set_facts a.
Hypothesis R : tells v p1.
Notation tb := (macros_of (hout c cfg a ++ print p1)).
Notation m := (without left_alone tb).
Lemma body_word x : one_of x expr_names = false -> lookup x v = None.
Proof. intro N. destruct (lookup x v) as [mm|] eqn:L; [|reflexivity]. destruct (proj1 R x mm L) as [H _]. congruence. Qed.
Lemma from_header x : lookup x v = None -> ~ In x raw_names -> x <> $"GDO_FUNC_ALIAS" -> macro_at tb x = at_front cfg c a x.
Proof. intros L NR NA. rewrite macro_at_def, last_def_app, (proj2 R x L NR), (single_tail c cfg U quiet a x NA). reflexivity. Qed.
Lemma prefix_word x s : starts_with $s x = true -> forallb (fun y => negb (starts_with $s y)) ($"GDO_FUNC_ALIAS" :: raw_names ++ expr_names) = true -> one_of x expr_names = false /\ ~ In x raw_names /\ x <> $"GDO_FUNC_ALIAS".
Proof.
  intros H K. rewrite forallb_forall in K. assert (N : forall y, In y ($"GDO_FUNC_ALIAS" :: raw_names ++ expr_names) -> x <> y). { intros y Y ->. specialize (K y Y). now rewrite H in K. }
  split; [|split].
  - destruct (one_of x expr_names) eqn:E; [|reflexivity]. apply one_of_in in E. exfalso. apply (N x); [right; apply in_or_app; now right|reflexivity].
  - intro I. apply (N x); [right; apply in_or_app; now left|reflexivity].
  - apply N. now left.
Qed.
Lemma word_free w : wordok w = true -> macro_at m w = None.
Proof.
  intro H. rewrite without_at. destruct (one_of w left_alone) eqn:LA; [reflexivity|]. unfold wordok in H. rewrite LA, orb_false_r in H. rewrite !orb_true_iff in H. destruct H as [[H|H]|H].
  - destruct (prefix_word w "GDO_LOAD_" H eq_refl) as (A & B & C). rewrite from_header by (auto using body_word). apply starts_with_spec in H as [r ->]. eapply m_load; eassumption.
  - destruct (prefix_word w "GDO_PTR_" H eq_refl) as (A & B & C). rewrite from_header by (auto using body_word). apply starts_with_spec in H as [r ->]. eapply m_ptr; eassumption.
  - rewrite !andb_true_iff, !negb_true_iff in H. destruct H as [[[H1 _] H2] H3].
    assert (N : forall y, starts_with $"GDO_" y = true -> w <> y) by (intros y Y ->; congruence).
    rewrite from_header.
    + unfold at_front. rewrite (unknown c cfg a w St H1); [reflexivity|]. intro I. apply one_of_in in I. congruence.
    + apply body_word. destruct (one_of w expr_names) eqn:E; [|reflexivity]. apply one_of_in in E. unfold expr_names in E. cbn [map In] in E. apply str_eqb_neq in H3.
      repeat (destruct E as [E|E]; [subst w; first [discriminate H1|now destruct H3]|]). destruct E.
    + intros [I|[I|[]]]; subst w; discriminate.
    + now apply N.
Qed.
Lemma base_cases names x mm : base names x = Some mm -> (x = $"_T" /\ mm = mkmacro (Some ([$"x"], false)) (MExpr (EId $"x"))) \/
  exists n, x = $"GDO_RAWPTR_" ++ n /\ In n names /\ mm = mkmacro None (MExpr (EField (EId $"gdo_hndl") ($"GDO_PTR_" ++ n))).
Proof.
  unfold base. destruct (str_eqb x $"_T") eqn:T; [intros [= <-]; left; split; [now apply str_eqb_eq|reflexivity]|]. destruct (strip $"GDO_RAWPTR_" x) as [n|] eqn:E; [|discriminate].
  destruct (known names n) eqn:K; [|discriminate]. intros [= <-]. right. exists n. split; [now apply strip_eq|]. split; [|reflexivity]. now apply one_of_in.
Qed.
Lemma macro_same x pp b : look v (base (symbol_names c)) x = Some (mkmacro pp (MExpr b)) -> macro_at m x = Some (mkdef pp (print_e b)).
Proof.
  unfold look. intro H. rewrite without_at. destruct (lookup x v) as [mm|] eqn:L.
  - injection H as ->. destruct (proj1 R x _ L) as (A & (b' & B & C) & D). cbn [m_body m_params] in *. injection B as <-.
    assert (E : one_of x left_alone = false). { apply one_of_in in A. unfold expr_names in A. cbn [map In] in A.
      destruct (one_of x left_alone) eqn:LA; [|reflexivity]. repeat (destruct A as [A|A]; [subst x; try discriminate LA|]); try destruct A. }
    rewrite E, macro_at_def, last_def_app, D. exact C.
  - apply base_cases in H as [[-> H]|(n & -> & I & H)].
    + injection H as -> ->. change (one_of $"_T" left_alone) with false. cbv iota. rewrite from_header; [|exact L|intros [Q|[Q|[]]]; discriminate|discriminate]. eapply m_text; eassumption.
    + injection H as -> ->. assert (S : starts_with $"GDO_RAWPTR_" ($"GDO_RAWPTR_" ++ n) = true) by (apply starts_with_spec; now exists n).
      destruct (prefix_word _ "GDO_RAWPTR_" S eq_refl) as (A & B & C). replace (one_of ($"GDO_RAWPTR_" ++ n) left_alone) with false by reflexivity.
      rewrite from_header by assumption. eapply m_pointer; eassumption.
Qed.
End Table.

(* ---------------------------------------------------------------- the single file *)

Lemma types_fine c e b : plain_config c -> plain_types c -> In e (c_funcs c ++ c_objs c) -> plain_proto e -> tyok wordok (utoks (symbol_value b e) [KHole HSymType]) = true.
Proof.
  intros P T I Q. rewrite utoks_hole. cbn [symbol_value]. change (utoks _ []) with (@nil tok). rewrite app_nil_r. destruct (pointer_tokens b e Q) as (u & -> & D).
  unfold tyok. apply forallb_forall. intros t It. destruct t; try reflexivity. assert (In (TWord s) (tokens_of (p_type e) ++ tokens_of (p_args e))) as W.
  { apply in_app_or in It as [It|It]; apply in_or_app; [now left|]. destruct D as [-> | ->].
    - destruct It as [It|[]]; discriminate.
    - right. apply in_app_or in It as [It|It]; [repeat (destruct It as [It|It]; [discriminate|]); destruct It|]. apply in_app_or in It as [It|[It|[]]]; [exact It|discriminate]. }
  destruct (T e s I W) as (A & A' & B & C). unfold wordok. rewrite A, A'. assert (one_of s other_macros = false) as -> by (destruct (one_of s other_macros) eqn:O; [apply one_of_in in O; contradiction|reflexivity]).
  rewrite (proj2 (str_eqb_neq _ _) C). cbn [negb andb]. now rewrite orb_true_r.
Qed.
Lemma env_sym c v : In v (envs c CSymbol) -> plain_config c -> plain_types c -> known (symbol_names c) (v HSym ++ []) = true /\ tyok wordok (utoks v [KHole HSymType]) = true.
Proof.
  intros V P T. split; [rewrite app_nil_r; now apply known_all|]. pose proof P as [P1 P2]. rewrite Forall_forall in P1, P2. cbn [envs] in V. apply in_app_or in V as [V|V]; apply in_map_iff in V as (e & <- & I); apply (types_fine c); auto; apply in_or_app; tauto.
Qed.
Lemma found_fits c cfg q n g v h ps b : plain_config c -> plain_types c -> flook [] q n = Some (g, (v, (h, ps, b))) -> In n (fnames q) ->
  forallb (whole_ok (symbol_names c) q) (fnames q) = true ->
  (forall w, In w (envs c CSymbol) -> Forall (fun y => forallb (schk (look (fst y) (base (symbol_names c))) wordok rk) (map (inst_t w) (snd y)) = true) (loops q)) ->
  (forall w, In w (envs c CSymbol) -> Forall (fun y => chk (look (fst y) (base (symbol_names c))) wordok rk 8 (inst_e w (snd y)) = true) (tests q)) ->
  fchk (look v (base (symbol_names c))) wordok rk (mkfunc (unglued h) n (map (fun p => (unglued (fst p), snd p)) ps) (flat_map (inst_b cfg c) b)) = true.
Proof.
  intros P T E I W LF TF. rewrite forallb_forall in W. specialize (W n I). assert (Fd : found q n = Some (v, h, ps, b)) by (unfold found; now rewrite E). unfold whole_ok in W. rewrite Fd in W.
  rewrite !andb_true_iff in W. destruct W as [[[A B] C] D]. unfold fchk. cbn [f_head f_name f_params f_body]. rewrite A, B. cbn [andb].
  assert (C' : forallb (fun p => tyok wordok (fst p) && wordok (snd p)) (map (fun p => (unglued (fst p), snd p)) ps) = true).
  { clear -C. induction ps as [|x ps IH]; [reflexivity|]. cbn [map forallb fst snd] in *. apply andb_true_iff in C as [C1 C2]. now rewrite C1, IH. }
  rewrite C'. cbn [andb].
  assert (L1 : forall l w, In l (flat_map each_of b) -> In w (envs c CSymbol) -> forallb (schk (look v (base (symbol_names c))) wordok rk) (map (inst_t w) l) = true).
  { intros l w Il Iw. specialize (LF w Iw). rewrite Forall_forall in LF. apply (LF (v, l)). unfold loops. apply in_flat_map. exists n. split; [exact I|]. rewrite Fd. now apply in_map. }
  assert (L2 : forall l w, In l (flat_map tests_of b) -> In w (envs c CSymbol) -> chk (look v (base (symbol_names c))) wordok rk 8 (inst_e w l) = true).
  { intros l w Il Iw. specialize (TF w Iw). rewrite Forall_forall in TF. apply (TF (v, l)). unfold tests. apply in_flat_map. exists n. split; [exact I|]. rewrite Fd. now apply in_map. }
  clear -D L1 L2. induction b as [|x b IH]; [reflexivity|]. cbn [forallb flat_map] in *. apply andb_true_iff in D as [D1 D2]. rewrite forallb_app, (bchk_ok cfg c _ x D1), IH; auto.
  - intros; apply L1; auto; apply in_or_app; tauto.
  - intros; apply L2; auto; apply in_or_app; tauto.
  - intros; apply L1; auto; apply in_or_app; tauto.
  - intros; apply L2; auto; apply in_or_app; tauto.
Qed.
Lemma find_in c cfg q x f : List.find (fun y => str_eqb x (f_name y)) (functions (header_macros (symbol_names c)) (inst cfg c q)) = Some f -> plain_config c -> plain_types c ->
  Forall (fun x => macro_fits (snd x)) q -> forallb (whole_ok (symbol_names c) q) (fnames q) = true ->
  (forall w, In w (envs c CSymbol) -> Forall (fun y => forallb (schk (look (fst y) (base (symbol_names c))) wordok rk) (map (inst_t w) (snd y)) = true) (loops q)) ->
  (forall w, In w (envs c CSymbol) -> Forall (fun y => chk (look (fst y) (base (symbol_names c))) wordok rk 8 (inst_e w (snd y)) = true) (tests q)) ->
  exists p1 f0 p2 v, inst cfg c q = p1 ++ IFunc f0 :: p2 /\ f_name f0 = x /\ tells v p1 /\ fchk (look v (base (symbol_names c))) wordok rk f0 = true /\
    f = expand_f (look v (base (symbol_names c))) f0.
Proof.
  intros E P T MF W LF TF. destruct (has q x) eqn:H; [|exfalso; rewrite (names_in cfg c _ x H) in E; discriminate].
  apply has_name in H. pose proof W as W'. rewrite forallb_forall in W'. specialize (W' x H). unfold whole_ok, found in W'.
  destruct (flook [] q x) as [[g [v [[h ps] b]]]|] eqn:K; [|discriminate]. clear W'.
  pose proof (flook_ok cfg c (symbol_names c) q _ _ _ _ _ _ _ _ (sees_all c) K) as FK. change (CBodyFuns.names c) with (symbol_names c) in FK. rewrite FK in E. clear FK.
  destruct (forallb (feval cfg) g) eqn:G; [|discriminate]. injection E as <-.
  destruct (place cfg c q MF [] [] x g v h ps b) as (p1 & p2 & Q & R); [split; [discriminate|reflexivity]|exact K|exact G|].
  eexists p1, _, p2, v. split; [exact Q|]. split; [reflexivity|]. split; [exact R|]. split; [now apply (found_fits c cfg q x g)|reflexivity].
Qed.
Lemma find_place c cfg x f : find_func (funs cfg c (c_param c)) x = Some f -> plain_config c -> plain_types c ->
  exists p1 f0 p2 v, inst cfg c (body_of (c_param c)) = p1 ++ IFunc f0 :: p2 /\ f_name f0 = x /\ tells v p1 /\ fchk (look v (base (symbol_names c))) wordok rk f0 = true /\
    f = expand_f (look v (base (symbol_names c))) f0.
Proof.
  intros E P T. apply find_in; [exact E|exact P|exact T|apply macros_fit|apply all_whole| |]; intros w Iw; destruct (env_sym c w Iw P T) as [K1 K2]; [now apply loops_fine|now apply tests_fine].
Qed.
(** what stands in front of the library defines no word of its functions *)
Definition leaves_words (pre : list pout) : Prop := forall w, wordok w = true -> one_of w left_alone = false -> last_def w pre = None.
Lemma behind_pre pre out w : leaves_words pre -> wordok w = true -> one_of w left_alone = false -> macro_at (macros_of out) w = None -> macro_at (macros_of (pre ++ out)) w = None.
Proof. intros L W LA. rewrite !macro_at_def, last_def_app. destruct (last_def w out); [auto|]. intros _. now rewrite (L w W LA). Qed.
Lemma behind_def pre out x d : macro_at (macros_of out) x = Some d -> macro_at (macros_of (pre ++ out)) x = Some d.
Proof. rewrite !macro_at_def, last_def_app. now destruct (last_def x out). Qed.
(** a function of the body behind a header whose macros are those of the whole header *)
Lemma replaced c cfg a p1 f0 v pre out : usable c cfg -> feval cfg f_sep = false -> front_facts (c_param c) a -> set_facts a -> tells v p1 -> leaves_words pre ->
  (forall x, macro_at (macros_of out) x = macro_at (macros_of (hout c cfg a ++ print p1)) x) ->
  fchk (look v (base (symbol_names c))) wordok rk f0 = true -> becomes (without left_alone (macros_of (pre ++ out))) (print_f f0) (print_f (expand_f (look v (base (symbol_names c))) f0)).
Proof.
  intros U Sg F St R Lw Sm K.
  assert (Q : forall x pp b, look v (base (symbol_names c)) x = Some (mkmacro pp (MExpr b)) -> macro_at (without left_alone (macros_of (pre ++ out))) x = Some (mkdef pp (print_e b))).
  { intros x pp b Y. pose proof (macro_same c cfg a v p1 U Sg F R x pp b Y) as H. rewrite without_at in H |- *. destruct (one_of x left_alone); [discriminate|]. rewrite <- Sm in H. now apply behind_def. }
  apply (fchk_holds _ wordok rk); auto.
  intros w W. pose proof (word_free c cfg a v p1 U Sg F St R w W) as H. rewrite without_at in H |- *. destruct (one_of w left_alone) eqn:LA; [reflexivity|]. rewrite <- Sm in H. now apply behind_pre.
Qed.
Lemma out_app p1 f0 p2 : print (p1 ++ IFunc f0 :: p2) = print p1 ++ map PTok (print_f f0) ++ print p2.
Proof. rewrite print_app. reflexivity. Qed.
Theorem body_behind k c cfg pre : usable c cfg -> target k c cfg -> cfg $"GDO_INCLUDED_IN_BODY" = true -> leaves_words pre -> plain_types c -> typed_config c -> no_variable c ->
  exists h prog, preprocess cfg (header_text c) = Some h /\ preprocess cfg (included_text c) = Some (h ++ print prog) /\
    let fs := functions (header_macros (symbol_names c)) prog in
    (forall x f, find_func fs x = Some f -> written_as c (pre ++ h ++ print prog) x f) /\
    (forall w ops, Forall (fun o => offered c cfg o = true) ops -> c_run k w fs ops = run k w ops).
Proof.
  intros U T Sg Lw PT Ty Nv. apply body_quiet in Sg. destruct (included_out c cfg U Sg) as (a & F & St & H & B). exists (hout c cfg a), (inst (defined_after cfg (hout c cfg a)) c (body_of (c_param c))).
  split; [exact H|]. split. { rewrite B. unfold bout. now rewrite program_ok. }
  cbv zeta. split; [|exact (proj1 (library_runs k c cfg a U Sg T F St))].
  change (functions (header_macros (symbol_names c)) (inst (defined_after cfg (hout c cfg a)) c (body_of (c_param c)))) with (funs (defined_after cfg (hout c cfg a)) c (c_param c)).
  intros x f E. pose proof (function_back (defined_after cfg (hout c cfg a)) c (c_param c) (u_plain _ _ U) Ty Nv x f E) as Rd.
  destruct (find_place c (defined_after cfg (hout c cfg a)) x f E (u_plain _ _ U) PT) as (p1 & f0 & p2 & v & Q & N & R & K & Ef).
  exists (pre ++ hout c cfg a ++ print p1), f0, (print p2), (print_f f). split; [rewrite Q, out_app; now rewrite <- !app_assoc|]. split; [exact N|]. split; [|exact Rd].
  rewrite Ef. eapply replaced; try eassumption. reflexivity.
Qed.

(* ---------------------------------------------------------------- the functions of common.c in a single file *)

Definition wordok0 (w : str) : bool := (negb (starts_with $"GDO_" w) && negb (starts_with $"_GDO_" w) && negb (one_of w other_macros) && negb (str_eqb w $"_countof")) || one_of w left_alone.
Definition no_base (x : str) : bool := negb (str_eqb x $"_T") && match strip $"GDO_RAWPTR_" x with None => true | _ => false end.
Definition common_ok (i : citem) : bool :=
  match i with IFunc f => fchk (fun _ => None) wordok0 rk f && forallb no_base (flat_map ids_s (f_body f)) | _ => true end.
Lemma common_fine d c : forallb common_ok (inst d c common_part) = true.
Proof.
  assert (A : Forall (fun x => forallb common_ok (inst_i d c (snd x)) = true) common_part).
  { repeat (apply Forall_cons; [cbn [snd]; vm_compute; first [reflexivity | match goal with |- context [d ?x] => destruct (d x) end; reflexivity]|]). apply Forall_nil. }
  induction A as [|[g i] r X A IH]; [reflexivity|]. unfold inst in *. cbn [flat_map fst snd] in *. rewrite forallb_app, IH, andb_true_r. now destruct (forallb (feval d) g).
Qed.
Lemma app_split {A} (a b x y : list A) z : a ++ b = x ++ z :: y -> (exists r, a = x ++ z :: r /\ y = r ++ b) \/ (exists r, x = a ++ r /\ b = r ++ z :: y).
Proof.
  revert x. induction a as [|u a IH]; intros x E; [right; exists x; now split|]. destruct x as [|w x].
  - cbn [app] in E. injection E as -> <-. left. now exists a.
  - cbn [app] in E. injection E as -> E. destruct (IH x E) as [(r & -> & ->)|(r & -> & ->)]; [left; now exists r|right; now exists r].
Qed.
(** nothing is defined in common.c, and the macros of common.h leave its functions as they are *)
Lemma common_replaced c cfg a h1 h2 d p1 f0 r v pre : usable c cfg -> feval cfg f_sep = false -> set_facts a -> hout c cfg a = h1 ++ h2 -> inst d c common_part = p1 ++ IFunc f0 :: r -> tells v p1 -> leaves_words pre ->
  becomes (without left_alone (macros_of (pre ++ h1 ++ print p1))) (print_f f0) (print_f (expand_f (look v (base (symbol_names c))) f0)).
Proof.
  intros U Sg St Eh E [R1 _] Lw. pose proof (common_fine d c) as C. rewrite E, forallb_app in C. apply andb_true_iff in C as [_ C]. cbn [forallb common_ok] in C. rewrite !andb_true_iff in C. destruct C as [[C1 C2] _].
  assert (T : forall x, last_def x (print p1) = None).
  { intro x. destruct (common_tokens d c) as [l L]. rewrite E, out_app in L. assert (D : last_def x (print p1 ++ map PTok (print_f f0) ++ print r) = None) by (rewrite L; apply toks_def).
    rewrite last_def_app in D. destruct (last_def x (map PTok (print_f f0) ++ print r)); [discriminate|exact D]. }
  assert (V : forall x, lookup x v = None). { intro x. destruct (lookup x v) as [mm|] eqn:L; [|reflexivity]. destruct (R1 x mm L) as (_ & _ & D). rewrite T in D. discriminate. }
  assert (Ex : expand_f (look v (base (symbol_names c))) f0 = expand_f (fun _ => None) f0).
  { unfold expand_f. f_equal. apply (expand_l_agree _ _ (fun x => no_base x = true)).
    - intros x X. unfold look. rewrite V. unfold no_base, base in *. apply andb_true_iff in X as [X1 X2]. apply negb_true_iff in X1. rewrite X1. now destruct (strip $"GDO_RAWPTR_" x).
    - intros x p b X. unfold look in X. rewrite V in X. apply base_cases in X as [[-> X]|(n & -> & I & X)]; injection X as -> ->; repeat constructor.
    - apply Forall_forall. intros x I. rewrite forallb_forall in C2. now apply C2. }
  rewrite Ex. apply (fchk_holds _ wordok0 rk); try discriminate; [|reflexivity|exact C1].
  intros w H. rewrite without_at. destruct (one_of w left_alone) eqn:LA; [reflexivity|]. unfold wordok0 in H. rewrite LA, orb_false_r, !andb_true_iff, !negb_true_iff in H. destruct H as [[[H1 H0] H2] H3].
  apply behind_pre; [exact Lw|unfold wordok; now rewrite H1, H0, H2, H3, !orb_true_r|exact LA|]. rewrite macro_at_def, last_def_app, T. assert (D : last_def w (h1 ++ h2) = None).
  { rewrite <- Eh, (single_tail c cfg U Sg a w) by (intros ->; discriminate). apply (unknown c cfg a w St H1). intro I. apply one_of_in in I. congruence. }
  rewrite last_def_app in D. destruct (last_def w h2); [discriminate|]. now rewrite D.
Qed.
Theorem single_behind k c cfg pre : usable c cfg -> target k c cfg -> cfg $"GDO_SEPARATE" = false -> leaves_words pre -> plain_types c -> typed_config c -> no_variable c ->
  exists h1 p1 h2 p2, let out := h1 ++ print p1 ++ h2 ++ print p2 in preprocess cfg (header_text c) = Some (h1 ++ h2) /\ preprocess cfg (single_text c) = Some out /\
    let fs := functions (header_macros (symbol_names c)) (p1 ++ p2) in
    (forall x f, find_func fs x = Some f -> written_as c (pre ++ out) x f) /\
    (forall w ops, Forall (fun o => offered c cfg o = true) ops -> c_run k w fs ops = run k w ops) /\
    (~ In $"__cplusplus" (symbol_names c) -> last_def $"__cplusplus" out = None).
Proof.
  intros U T Sg Lw PT Ty Nv. apply single_quiet in Sg. destruct (single_out c cfg U Sg) as (a & h1 & h2 & F & St & H & Eh & B). cbv zeta in B. set (d := defined_after cfg (hout c cfg a)) in *.
  exists h1, (inst d c common_part), h2, (inst d c (other_part (c_param c))). cbv zeta. split; [now rewrite <- Eh|]. split; [exact B|]. rewrite <- inst_app, <- two_parts.
  split; [|split; [exact (proj1 (library_runs k c cfg a U Sg T F St))|]].
  2: { intro I. rewrite single_def, <- Eh, <- CBodyText.program_ok. fold (bout c d). rewrite last_def_app, (body_other c d _ (u_plain c cfg U) I) by (intro J; unfold body_names in J; cbn [map In] in J; decompose [or] J; solve [discriminate|contradiction]).
       rewrite (single_tail c cfg U Sg) by discriminate. apply (unknown c cfg a); [exact St|reflexivity|]. intro J. unfold other_macros in J. cbn [map In] in J. decompose [or] J; solve [discriminate|contradiction]. }
  change (functions (header_macros (symbol_names c)) (inst d c (body_of (c_param c)))) with (funs d c (c_param c)).
  intros x f E. pose proof (function_back d c (c_param c) (u_plain _ _ U) Ty Nv x f E) as Rd.
  destruct (find_place c d x f E (u_plain _ _ U) PT) as (p1 & f0 & p2 & v & Q & N & R & K & Ef). rewrite two_parts, inst_app in Q.
  apply app_split in Q as [(r & Q1 & Q2)|(r & Q1 & Q2)].
  - exists (pre ++ h1 ++ print p1), f0, (print r ++ h2 ++ print (inst d c (other_part (c_param c)))), (print_f f). split; [rewrite Q1, out_app; now rewrite <- !app_assoc|]. split; [exact N|]. split; [|exact Rd].
    rewrite Ef. eapply common_replaced; eassumption.
  - exists (pre ++ h1 ++ print (inst d c common_part) ++ h2 ++ print r), f0, (print p2), (print_f f). split; [rewrite Q2, out_app; now rewrite <- !app_assoc|]. split; [exact N|]. split; [|exact Rd].
    rewrite Ef. eapply (replaced c cfg a); try eassumption. apply same_macros. intro y. rewrite common_def, Q1, print_app, (common_def d c y (hout c cfg a)), Eh. now rewrite app_assoc.
Qed.
Lemma becomes_one m l r r' : becomes m l r -> becomes m l r' -> r = r'.
Proof.
  intros (n & x & A & <-) (n' & x' & A' & <-). assert (E : Some x = Some x'); [|congruence].
  rewrite <- (replace_mono m n (max n n') _ _ (Nat.le_max_l _ _) A), <- (replace_mono m n' (max n n') _ _ (Nat.le_max_r _ _) A'). reflexivity.
Qed.
Lemma no_words : leaves_words [].
Proof. intros w _ _. reflexivity. Qed.
Theorem body_replaced k c cfg : usable c cfg -> target k c cfg -> cfg $"GDO_INCLUDED_IN_BODY" = true -> plain_types c -> typed_config c -> no_variable c ->
  exists h prog, preprocess cfg (header_text c) = Some h /\ preprocess cfg (included_text c) = Some (h ++ print prog) /\
    let fs := functions (header_macros (symbol_names c)) prog in
    (forall x f, find_func fs x = Some f -> written_as c (h ++ print prog) x f) /\
    (forall w ops, Forall (fun o => offered c cfg o = true) ops -> c_run k w fs ops = run k w ops).
Proof. intros U T Sg. exact (body_behind k c cfg [] U T Sg no_words). Qed.
Theorem single_replaced k c cfg : usable c cfg -> target k c cfg -> cfg $"GDO_SEPARATE" = false -> plain_types c -> typed_config c -> no_variable c ->
  exists h1 p1 h2 p2, let out := h1 ++ print p1 ++ h2 ++ print p2 in preprocess cfg (header_text c) = Some (h1 ++ h2) /\ preprocess cfg (single_text c) = Some out /\
    let fs := functions (header_macros (symbol_names c)) (p1 ++ p2) in
    (forall x f, find_func fs x = Some f -> written_as c out x f) /\
    (forall w ops, Forall (fun o => offered c cfg o = true) ops -> c_run k w fs ops = run k w ops).
Proof.
  intros U T Sg PT Ty Nv. destruct (single_behind k c cfg [] U T Sg no_words PT Ty Nv) as (h1 & p1 & h2 & p2 & A & B & C & D & _). exists h1, p1, h2, p2. cbv zeta. auto.
Qed.

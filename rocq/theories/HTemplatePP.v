(** Proofs for C93: the preprocessor on the header's templates with placeholders. *)
From Coq Require Import Ascii String List Bool Arith Lia.
From Verif Require Import Str StrFacts Parse ParamNames Prefix Substitute SpecPrefix SpecSubstitute SpecTemplates ShippedFacts SpecCLang SpecCProg SpecBody CTemplate CTemplateText CTemplatePP
  CBodyText HTemplate.
Import ListNotations.

Fixpoint func_front (n : tname) : option str :=
  match n with [SH HFunc] => Some [] | SC c :: r => option_map (cons c) (func_front r) | _ => None end.
Lemma func_front_ok v n p : func_front n = Some p -> iname v n = p ++ v HFunc.
Proof.
  revert p; induction n as [|x n IH]; intros p E; [discriminate|]. destruct x as [a|h].
  - cbn [func_front] in E. destruct (func_front n) as [q|]; [|discriminate]. injection E as <-. change (iname v (SC a :: n)) with (a :: iname v n). now rewrite (IH q eq_refl).
  - destruct h; try discriminate. destruct n; [|discriminate]. injection E as <-. cbn [iname flat_map ichar app]. now rewrite app_nil_r.
Qed.
(** names that begin with [p] were not defined in the text *)
Definition untouched (s : spst) (p : str) : bool :=
  forallb (fun q => negb (starts_with q p) && negb (starts_with p q)) (sp_fronts s) && forallb (fun d => negb (starts_with p (fst d))) (sp_defs s).
Lemma starts_either q p x : starts_with q (p ++ x) = true -> starts_with q p = true \/ starts_with p q = true.
Proof.
  revert p; induction q as [|a q IH]; intros p E; [now left|]. destruct p as [|b p]; [now right|]. cbn [app starts_with] in *.
  destruct (Ascii.eqb a b) eqn:X; [|discriminate]. cbn [andb] in E. apply Ascii.eqb_eq in X. subst b. rewrite Ascii.eqb_refl. exact (IH p E).
Qed.
Lemma untouched_ok cfg s ps p x : state_fits cfg s ps -> untouched s p = true -> defined_in cfg ps (p ++ x) = cfg (p ++ x).
Proof.
  intros [_ H] U. apply andb_true_iff in U as [U1 U2]. rewrite forallb_forall in U1, U2.
  rewrite <- H.
  - unfold sdef. destruct (lookup (p ++ x) (sp_defs s)) as [f|] eqn:L; [|reflexivity]. exfalso.
    assert (I : exists y, In (y, f) (sp_defs s) /\ y = p ++ x).
    { clear - L. induction (sp_defs s) as [|[y g] l IH]; [discriminate|]. cbn [lookup] in L. destruct (str_eqb (p ++ x) y) eqn:E.
      - apply str_eqb_eq in E. injection L as ->. exists y. split; [now left|now symmetry].
      - destruct (IH L) as (z & I & Z). exists z. split; [now right|exact Z]. }
    destruct I as (y & I & ->). specialize (U2 _ I). cbn [fst] in U2. apply negb_true_iff in U2.
    assert (starts_with p (p ++ x) = true) by (apply starts_with_spec; now exists x). congruence.
  - unfold apart. apply not_true_is_false. intro E. apply existsb_exists in E as (q & I & E). specialize (U1 q I). apply andb_true_iff in U1 as [A B].
    apply negb_true_iff in A, B. destruct (starts_either _ _ _ E); congruence.
Qed.

Fixpoint all_ok {A} (l : list (option A)) : option (list A) :=
  match l with [] => Some [] | Some x :: r => option_map (cons x) (all_ok r) | None :: _ => None end.
Lemma all_ok_map {A} (l : list (option A)) r : all_ok l = Some r -> l = map Some r.
Proof. revert r; induction l as [|[x|] l IH]; intros r E; cbn in E; [now injection E as <-| |discriminate]. destruct (all_ok l); [|discriminate]. injection E as <-. cbn. now rewrite (IH l0 eq_refl). Qed.
Definition btests (o : list bout) : list tname := flat_map (fun x => match x with OTest n => [n] | _ => [] end) o.
Definition bcode (o : list bout) : list stok := flat_map (fun x => match x with OCode l => l | _ => [] end) o.
Definition no_defs (o : list bout) : bool := forallb (fun x => match x with ODef _ _ _ => false | _ => true end) o.
Definition same_front (n m : tname) : bool := match func_front n, func_front m with Some p, Some q => str_eqb p q | _, _ => false end.
Definition hblock (free : list str) (s : spst) (k : class) (t : list stok) : option (spst * list gel) :=
  match ksplit [] t with
  | Some ls =>
      match all_ok (map kclass ls) with
      | Some qs =>
          match bexec [] qs with
          | Some o =>
              if (match k with CFunction => true | _ => match btests o with [] => no_defs o | _ => false end end) &&
                 forallb (fun n => match func_front n with Some p => existsb (str_eqb p) free && untouched s p | None => false end) (btests o) then
                if no_defs o then Some (s, [(here s, GEach k (bcode o))])
                else match o with
                     | [OTest n; ODef m b l] =>
                         if same_front n m then Some (mksp (sp_groups s) (sp_defs s) (def_front (KWord m) :: sp_fronts s), [(here s, GEachDef k (KWord m) b l)]) else None
                     | _ => None
                     end
              else None
          | None => None
          end
      | None => None
      end
  | None => None
  end.
Definition hline (free : list str) (s : spst) (l : sl) : option (spst * list gel) :=
  match spp_line s l with
  | Some r => Some r
  | None => match l with SEach k t => hblock free s k t | SPlain _ => None end
  end.
Fixpoint hpp (free : list str) (s : spst) (l : list sl) : option (spst * list gel) :=
  match l with
  | [] => Some (s, [])
  | x :: r => match hline free s x with
              | Some (s1, t1) => match hpp free s1 r with Some (s2, t2) => Some (s2, t1 ++ t2) | None => None end
              | None => None
              end
  end.
Definition hread (free : list str) (lines : list str) : option (list gel) :=
  match slex_lines SCode (map sline lines) with
  | Some (SCode, t) => match ssplit [] t with
                       | Some l => match hpp free (mksp [] [] []) l with Some (mksp [] _ _, o) => Some o | _ => None end
                       | None => None
                       end
  | _ => None
  end.

Section PP.
Variables (cfg : str -> bool) (c : config) (free : list str).
Hypothesis free_cfg : forall p v, In p free -> In v (envs c CFunction) -> cfg (p ++ v HFunc) = false.
Hypothesis names : NoDup (map (fun v => v HFunc) (envs c CFunction)).
Hypothesis hashes : forall k v h, In v (envs c k) -> ~ In (TOp $"#") (own_tokens (v h)).

Lemma hash_all k v l : In v (envs c k) -> hash_ok v l.
Proof. intro I. apply Forall_forall. intros t _. destruct t; try exact Logic.I. now apply (hashes k). Qed.
Lemma block_lines k v t ls qs : In v (envs c k) -> ends_ok v t -> ksplit [] t = Some ls -> all_ok (map kclass ls) = Some qs ->
  forall ps, pp_lines cfg ps (split_lines [] (itoks v t)) = pp_classified cfg ps (map (iclass v) qs).
Proof.
  intros I E K Q ps. rewrite (ksplit_ok v t [] ls E K : split_lines [] (itoks v t) = _). apply classified.
  apply all_ok_map in Q. clear K. revert qs Q. induction ls as [|l ls IH]; intros [|q qs] Q; try discriminate; [reflexivity|].
  injection Q as Q1 Q2. cbn [map]. rewrite (kclass_ok v l q (hash_all k v l I) Q1), (IH qs Q2). reflexivity.
Qed.
Lemma btests_in o n : In (OTest n) o -> In n (btests o).
Proof. intro I. apply in_flat_map. exists (OTest n). split; [exact I|now left]. Qed.
Lemma no_defs_text v o : no_defs o = true -> btext v o = map PTok (utoks v (bcode o)) /\ bmac v o = [] /\ tests_first o.
Proof.
  induction o as [|x o IH]; intro E; [now repeat split|]. cbn [no_defs forallb] in E. apply andb_true_iff in E as [E1 E2]. destruct (IH E2) as (A & B & C).
  destruct x as [n|l|n b l]; [..|discriminate]; cbn [btext bmac bcode tests_first flat_map]; (split; [|now split]).
  - exact A.
  - change (flat_map _ o) with (btext v o) at 1. rewrite A, utoks_app, map_app. reflexivity.
Qed.

Lemma block_ok s ps k t s' o : state_fits cfg s ps -> env_fits c k t -> hblock free s k t = Some (s', o) ->
  exists ps', pp_lines cfg ps (iline c (SEach k t)) = Some (ps', outs cfg c o) /\ state_fits cfg s' ps'.
Proof.
  intros F V E. unfold hblock in E. destruct (ksplit [] t) as [ls|] eqn:K; [|discriminate]. destruct (all_ok (map kclass ls)) as [qs|] eqn:Q; [|discriminate].
  destruct (bexec [] qs) as [bo|] eqn:B; [|discriminate]. destruct (_ && forallb _ (btests bo)) eqn:T; [|discriminate]. apply andb_true_iff in T as [TK T].
  rewrite forallb_forall in T. pose proof (here_fits cfg s ps (proj1 F)) as Hh.
  assert (ends : forall v, In v (envs c k) -> ends_ok v t) by (intros v I; unfold env_fits in V; rewrite Forall_forall in V; now apply V).
  assert (step : forall v ps, In v (envs c k) -> tests_first bo -> (forall n, In (OTest n) bo -> defined_in cfg ps (iname v n) = false) ->
            pp_lines cfg ps (split_lines [] (itoks v t)) =
            Some (if all_used (p_groups ps) then mkp (p_groups ps) (rev (bmac v bo) ++ p_macros ps) else ps, if all_used (p_groups ps) then btext v bo else [])).
  { intros v [g0 ms] I TF D. rewrite (block_lines k v t ls qs I (ends v I) K Q). cbn [p_groups p_macros]. destruct (all_used g0) eqn:A.
    - exact (bexec_ok cfg v g0 A qs [] [] ms bo (Forall2_nil _) Logic.I B TF D).
    - exact (bexec_dead cfg v g0 A ms qs [] [] bo eq_refl B). }
  assert (undef : forall v n, In v (envs c k) -> In (OTest n) bo -> defined_in cfg ps (iname v n) = false).
  { intros v n I J. apply btests_in in J. specialize (T n J). destruct (func_front n) as [p|] eqn:P; [|discriminate]. apply andb_true_iff in T as [T1 T2].
    apply existsb_exists in T1 as (q & Iq & T1). apply str_eqb_eq in T1. subst q. rewrite (func_front_ok v n p P), (untouched_ok cfg s ps p _ F T2). apply free_cfg; [exact Iq|].
    destruct k; [exact I|..]; destruct (btests bo); try discriminate TK; destruct J. }
  cbn [iline]. destruct (no_defs bo) eqn:ND.
  - injection E as <- <-. exists ps. split; [|exact F]. unfold outs; cbn [flat_map]. rewrite app_nil_r. unfold iout; cbn [fst snd]. rewrite Hh.
    assert (L : forall vs, incl vs (envs c k) -> pp_lines cfg ps (flat_map (fun v => split_lines [] (itoks v t)) vs) =
              Some (ps, if all_used (p_groups ps) then flat_map (fun v => map PTok (utoks v (bcode bo))) vs else [])).
    { induction vs as [|v vs IH]; intro I; [cbn; now destruct (all_used _)|]. cbn [flat_map]. rewrite pp_app.
      assert (Iv : In v (envs c k)) by (apply I; now left). destruct (no_defs_text v bo ND) as (T1 & T2 & T3).
      rewrite (step v ps Iv T3 (fun n => undef v n Iv)), T1, T2. cbn [rev app].
      assert (P : (if all_used (p_groups ps) then {| p_groups := p_groups ps; p_macros := p_macros ps |} else ps) = ps) by (destruct ps; now destruct (all_used _)).
      rewrite P, IH by (intros x Ix; apply I; now right). now destruct (all_used (p_groups ps)). }
    exact (L _ (fun x I => I)).
  - assert (k = CFunction) by (destruct k; [reflexivity|..]; destruct (btests bo); congruence). subst k. clear TK.
    destruct bo as [|[n| |] [|[|?|m b l] [|? ?]]]; try discriminate E. destruct (same_front n m) eqn:SF; [|discriminate]. injection E as <- <-.
    unfold same_front in SF. destruct (func_front n) as [p|] eqn:Pn; [|discriminate]. destruct (func_front m) as [p'|] eqn:Pm; [|discriminate]. apply str_eqb_eq in SF; subst p'.
    assert (TF : tests_first [OTest n; ODef m b l]) by (split; [intros ? []|exact Logic.I]).
    set (s1 := mksp (sp_groups s) (sp_defs s) (def_front (KWord m) :: sp_fronts s)).
    assert (F1 : state_fits cfg s1 ps).
    { destruct F as [G H]. split; [exact G|]. intros y A. unfold apart in A; cbn [sp_fronts existsb s1] in A. apply orb_false_iff in A as [_ A]. exact (H y A). }
    assert (L : forall vs ps, incl vs (envs c CFunction) -> NoDup (map (fun v => v HFunc) vs) -> state_fits cfg s1 ps ->
              (forall v, In v vs -> defined_in cfg ps (iname v n) = false) ->
              exists ps', pp_lines cfg ps (flat_map (fun v => split_lines [] (itoks v t)) vs) =
                Some (ps', if all_used (p_groups ps) then flat_map (fun v => [PDefine (iname v m) b (utoks v l)]) vs else []) /\ state_fits cfg s1 ps').
    { clear undef Hh F F1 ps. induction vs as [|v vs IH]; intros ps I N F D; [exists ps; cbn; split; [now destruct (all_used _)|exact F]|].
      cbn [map] in N. inversion N as [|? ? N1 N2]; subst. cbn [flat_map]. rewrite pp_app. assert (Iv : In v (envs c CFunction)) by (apply I; now left).
      rewrite (step v ps Iv TF) by (intros n' [X|[X|[]]]; [injection X as <-; apply D; now left|discriminate X]).
      cbn [bmac btext flat_map app rev]. destruct (all_used (p_groups ps)) eqn:A.
      - destruct (IH (mkp (p_groups ps) ((iname v m, true) :: p_macros ps))) as (ps' & E' & F'); [intros x Ix; apply I; now right|exact N2| | |].
        + destruct F as [G H]. split; [exact G|]. intros y Ay. rewrite (H y Ay). unfold defined_in; cbn [p_macros lookup].
          destruct (str_eqb y (iname v m)) eqn:Y; [|reflexivity]. apply str_eqb_eq in Y; subst y. unfold apart in Ay; cbn [sp_fronts existsb s1] in Ay.
          cbn [def_front] in Ay. now rewrite front_name in Ay.
        + intros w Iw. unfold defined_in; cbn [p_macros lookup]. rewrite (func_front_ok w n p Pn), (func_front_ok v m p Pm).
          destruct (str_eqb (p ++ w HFunc) (p ++ v HFunc)) eqn:Y.
          * apply str_eqb_eq, app_inv_head in Y. destruct N1. rewrite <- Y. apply (in_map (fun v => v HFunc)). exact Iw.
          * specialize (D w (or_intror Iw)). unfold defined_in in D. now rewrite (func_front_ok w n p Pn) in D.
        + exists ps'. rewrite E'. cbn [p_groups]. rewrite A. now split.
      - destruct (IH ps) as (ps' & E' & F'); [intros x Ix; apply I; now right|exact N2|exact F|intros w Iw; apply D; now right|].
        exists ps'. rewrite E', A. now split. }
    destruct (L (envs c CFunction) ps (fun x I => I) names F1) as (ps' & E' & F'); [intros v Iv; apply undef; [exact Iv|now left]|].
    exists ps'. split; [|exact F']. rewrite E'. unfold outs; cbn [flat_map]. rewrite app_nil_r. unfold iout; cbn [fst snd]. rewrite Hh. reflexivity.
Qed.
Lemma hline_ok s ps l s' o : state_fits cfg s ps -> sl_fits c l -> hline free s l = Some (s', o) ->
  exists ps', pp_lines cfg ps (iline c l) = Some (ps', outs cfg c o) /\ state_fits cfg s' ps'.
Proof.
  intros F V E. unfold hline in E. destruct (spp_line s l) as [r|] eqn:E1; [injection E as ->; exact (line_ok cfg c _ _ _ _ _ F V E1)|].
  destruct l as [|k t]; try discriminate. now apply block_ok with (s := s).
Qed.
Lemma hlines_ok ls : forall s ps s' o, state_fits cfg s ps -> Forall (sl_fits c) ls -> hpp free s ls = Some (s', o) ->
  exists ps', pp_lines cfg ps (flat_map (iline c) ls) = Some (ps', outs cfg c o) /\ state_fits cfg s' ps'.
Proof.
  induction ls as [|l ls IH]; intros s ps s' o F V E; cbn [hpp] in E; [injection E as <- <-; now exists ps|].
  destruct (hline free s l) as [[s1 o1]|] eqn:E1; [|discriminate]. destruct (hpp free s1 ls) as [[s2 o2]|] eqn:E2; [|discriminate]. injection E as <- <-.
  inversion V as [|? ? V1 V2]; subst. destruct (hline_ok _ _ _ _ _ F V1 E1) as (ps1 & L1 & F1). destruct (IH _ _ _ _ F1 V2 E2) as (ps2 & L2 & F2).
  exists ps2. cbn [flat_map]. rewrite pp_app, L1, L2. split; [|exact F2]. unfold outs. now rewrite flat_map_app.
Qed.
End PP.

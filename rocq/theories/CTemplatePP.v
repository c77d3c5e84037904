(** Proofs for C92: the preprocessor on templates with placeholders, and syntax trees with placeholders as tokens. *)
From Coq Require Import Ascii String List Bool Arith Lia.
From Verif Require Import Str StrFacts Parse ParamNames Prefix Substitute SpecPrefix SpecSubstitute SpecTemplates ShippedFacts SpecCLang SpecCProg CTemplate CTemplateText.
Import ListNotations.

Section PP.
Variables (cfg : str -> bool) (c : config).

Lemma pp_app s a b : pp_lines cfg s (a ++ b) =
  match pp_lines cfg s a with Some (s1, t1) => match pp_lines cfg s1 b with Some (s2, t2) => Some (s2, t1 ++ t2) | None => None end | None => None end.
Proof.
  revert s; induction a as [|l a IH]; intro s; cbn [app pp_lines]; [now destruct (pp_lines cfg s b) as [[]|]|].
  destruct (classify l) as [l'|]; [|reflexivity]. destruct (pp_line cfg s l') as [[s1 t1]|]; [|reflexivity]. rewrite IH.
  destruct (pp_lines cfg s1 a) as [[s2 t2]|]; [|reflexivity]. destruct (pp_lines cfg s2 b) as [[s3 t3]|]; [|reflexivity]. now rewrite app_assoc.
Qed.

Lemma unglued_app a b : unglued (a ++ b) = unglued a ++ unglued b.
Proof. apply filter_app. Qed.
Lemma unglued_twice a : unglued (unglued a) = unglued a.
Proof. induction a as [|t a IH]; [reflexivity|]. cbn [unglued filter]. destruct (glue t) eqn:G; cbn [negb]; [exact IH|]. cbn [filter]. rewrite G; cbn [negb]. f_equal. exact IH. Qed.

(* ---------------------------------------------------------------- repeated code *)

Definition safe (l : list tok) : Prop := match l with [] => False | TOp o :: _ => str_eqb o $"#" = false | _ => True end.
Lemma safe_app a b : safe a -> safe (a ++ b).
Proof. destruct a as [|[]]; [now intros []|..]; intro H; exact H. Qed.
Lemma safe_code l : l = [] \/ safe l -> classify l = Some (LCode (unglued l)).
Proof.
  intros [->|H]; [reflexivity|]. destruct l as [|t l]; [contradiction|]. destruct t; try reflexivity. cbn [safe] in H. cbn [classify]. now rewrite H.
Qed.
Lemma split_plain acc a b : ~ In TEnd a -> split_lines acc (a ++ b) = split_lines (acc ++ a) b.
Proof.
  revert acc; induction a as [|t a IH]; intros acc N; [now rewrite app_nil_r|]. cbn [app split_lines].
  assert (T : t <> TEnd) by (intro E; apply N; now left).
  change (acc ++ t :: a) with (acc ++ [t] ++ a). rewrite app_assoc, <- IH by (intro I; apply N; now right). now destruct t.
Qed.
Definition ends_ok (v : hole -> str) (l : list stok) : Prop := Forall (fun t => match t with KHole h => ~ In TEnd (own_tokens (v h)) | _ => True end) l.
Lemma code_ok v ps l : forall start acc t,
  ends_ok v l -> code_lines start l = Some t -> (if start then acc = [] else safe acc) ->
  pp_lines cfg ps (split_lines acc (itoks v l)) = Some (ps, if all_used (p_groups ps) then map PTok (unglued acc ++ utoks v t) else []).
Proof.
  induction l as [|x l IH]; intros start acc t G E A; cbn [code_lines] in E.
  - destruct start; [|discriminate]. injection E as <-. subst. cbn. now destruct (all_used _).
  - inversion G as [|? ? G1 G2]; subst. change (itoks v (x :: l)) with (itok v x ++ itoks v l).
    assert (step : forall t1, code_lines false l = Some t1 -> ~ In TEnd (itok v x) -> safe (acc ++ itok v x) -> utoks v t = unglued (itok v x) ++ utoks v t1 ->
              pp_lines cfg ps (split_lines acc (itok v x ++ itoks v l)) = Some (ps, if all_used (p_groups ps) then map PTok (unglued acc ++ utoks v t) else [])).
    { intros t1 E1 N S U. rewrite split_plain by exact N. rewrite (IH false (acc ++ itok v x) t1 G2 E1 S), U, unglued_app, <- app_assoc. reflexivity. }
    assert (one : forall t1, code_lines false l = Some t1 -> utoks v (x :: t1) = unglued (itok v x) ++ utoks v t1).
    { intros t1 _. unfold utoks. now rewrite <- unglued_app. }
    assert (S1 : forall y, (if start then True else True) -> match y with TOp o => start = false \/ str_eqb o $"#" = false | _ => True end -> safe (acc ++ [y])).
    { intros y _ Y. destruct start; [subst; destruct y; try exact I; destruct Y as [Y|Y]; [discriminate|exact Y]|now apply safe_app]. }
    destruct x as [n|n|n|o| | | |h]; cbn [itok] in *.
    + destruct (code_lines false l) as [t1|] eqn:E1; [|discriminate]. injection E as <-.
      apply (step t1 eq_refl); [intros [I|[]]; discriminate|now apply S1; [destruct start|]|now apply one].
    + destruct (code_lines false l) as [t1|] eqn:E1; [|discriminate]. injection E as <-.
      apply (step t1 eq_refl); [intros [I|[]]; discriminate|now apply S1; [destruct start|]|now apply one].
    + destruct (code_lines false l) as [t1|] eqn:E1; [|discriminate]. injection E as <-.
      apply (step t1 eq_refl); [intros [I|[]]; discriminate|now apply S1; [destruct start|]|now apply one].
    + destruct (start && str_eqb o $"#") eqn:B; [discriminate|]. destruct (code_lines false l) as [t1|] eqn:E1; [|discriminate]. injection E as <-.
      apply (step t1 eq_refl); [intros [I|[]]; discriminate| |now apply one]. apply S1; [now destruct start|]. destruct start; [right|left]; [exact B|reflexivity].
    + cbn [app split_lines pp_lines]. rewrite safe_code by (destruct start; [left|right]; assumption). cbn [pp_line].
      rewrite (IH true [] t G2 E eq_refl). cbn [unglued filter app]. destruct (all_used (p_groups ps)); [|reflexivity]. now rewrite map_app.
    + destruct start; [discriminate|]. apply (step t E); [intros [I|[]]; discriminate|now apply safe_app|reflexivity].
    + destruct (code_lines false l) as [t1|] eqn:E1; [|discriminate]. injection E as <-.
      apply (step t1 eq_refl); [intros [I|[]]; discriminate|now apply S1; [destruct start|]|now apply one].
    + destruct start; [discriminate|]. destruct (code_lines false l) as [t1|] eqn:E1; [|discriminate]. injection E as <-.
      apply (step t1 eq_refl); [exact G1|now apply safe_app|now apply one].
Qed.

(* ---------------------------------------------------------------- states *)

Definition groups_fit (s : spst) (ps : pstate) : Prop :=
  Forall2 (fun a g => feval cfg (fst a) = b_used g /\ feval cfg (snd a) = b_done g) (sp_groups s) (p_groups ps).
Definition apart (s : spst) (x : str) : Prop := existsb (fun p => starts_with p x) (sp_fronts s) = false.
Definition state_fits (s : spst) (ps : pstate) : Prop :=
  groups_fit s ps /\ forall x, apart s x -> feval cfg (sdef s x) = defined_in cfg ps x.

Lemma here_fits s ps : groups_fit s ps -> forallb (feval cfg) (here s) = all_used (p_groups ps).
Proof.
  unfold groups_fit, here, all_used. intro H. rewrite <- (rev_involutive (p_groups ps)).
  assert (R : forall (l : list group), forallb b_used (rev l) = forallb b_used l).
  { intro l. induction l as [|a l IH]; [reflexivity|]. cbn [rev]. rewrite forallb_app, IH. cbn [forallb]. rewrite andb_true_r. apply andb_comm. }
  rewrite rev_involutive. assert (R' : forall (l : list form), forallb (feval cfg) (rev l) = forallb (feval cfg) l).
  { intro l. induction l as [|a l IH]; [reflexivity|]. cbn [rev]. rewrite forallb_app, IH. cbn [forallb]. rewrite andb_true_r. apply andb_comm. }
  rewrite R'. induction H as [|a g la lg [H1 _] H2 IH]; [reflexivity|]. cbn [map forallb]. now rewrite H1, IH.
Qed.
Lemma all_of_fits l : feval cfg (all_of l) = forallb (feval cfg) l.
Proof. induction l as [|a l IH]; [reflexivity|]. change (feval cfg (all_of (a :: l))) with (feval cfg a && feval cfg (all_of l)). now rewrite IH. Qed.
Lemma ftrans_fits s ps a f : state_fits s ps -> ftrans s a = Some f -> feval cfg f = holds (defined_in cfg ps) a.
Proof.
  intros [_ H]. revert f; induction a as [x|a IH|a IHa b IHb|a IHa b IHb]; intros f E; cbn [ftrans] in E.
  - destruct (existsb _ (sp_fronts s)) eqn:A; [discriminate|]. injection E as <-. now apply H.
  - destruct (ftrans s a) as [g|]; [|discriminate]. injection E as <-. cbn [feval holds]. now rewrite (IH g eq_refl).
  - destruct (ftrans s a) as [g|]; [|discriminate]. destruct (ftrans s b) as [h|]; [|discriminate]. injection E as <-. cbn [feval holds]. now rewrite (IHa g eq_refl), (IHb h eq_refl).
  - destruct (ftrans s a) as [g|]; [|discriminate]. destruct (ftrans s b) as [h|]; [|discriminate]. injection E as <-. cbn [feval holds]. now rewrite (IHa g eq_refl), (IHb h eq_refl).
Qed.
Lemma add_fits x b s ps : state_fits s ps ->
  state_fits (add_def x b s) (if all_used (p_groups ps) then mkp (p_groups ps) ((x, b) :: p_macros ps) else ps).
Proof.
  intros [G H]. split.
  - unfold groups_fit, add_def; cbn [sp_groups]. now destruct (all_used _).
  - intros y A. change (apart s y) in A. specialize (H y A). pose proof (here_fits s ps G) as U.
    unfold sdef at 1. cbn [sp_defs add_def lookup]. destruct (str_eqb y x) eqn:E.
    + apply str_eqb_eq in E. subst y. unfold defined_in in *.
      destruct (here s) as [|f l] eqn:L.
      * cbn [forallb] in U. rewrite <- U. cbn [p_macros lookup]. rewrite (proj2 (str_eqb_eq x x) eq_refl). now destruct b.
      * destruct b; cbn [feval]; rewrite all_of_fits, U, H; destruct (all_used (p_groups ps)); cbn [p_macros lookup orb andb negb]; try rewrite (proj2 (str_eqb_eq x x) eq_refl); reflexivity.
    + change (feval cfg (sdef s y) = defined_in cfg (if all_used (p_groups ps) then mkp (p_groups ps) ((x, b) :: p_macros ps) else ps) y).
      rewrite H. unfold defined_in. destruct (all_used (p_groups ps)); [|reflexivity]. cbn [p_macros lookup]. now rewrite E.
Qed.

Definition outs : list gel -> list pout := flat_map (iout cfg c).
Lemma of_tok_back t : itok no_value (of_tok t) = [t].
Proof. destruct t; cbn [of_tok itok]; rewrite ?iname_lit; reflexivity. Qed.
Lemma at_out g l : outs (map (fun t => (g, GTok (of_tok t))) l) = if forallb (feval cfg) g then map PTok (unglued l) else [].
Proof.
  unfold outs. induction l as [|t l IH]; [now destruct (forallb _ g)|]. cbn [map flat_map]. rewrite IH. unfold iout; cbn [fst snd].
  destruct (forallb (feval cfg) g); [|reflexivity]. unfold utoks, itoks. cbn [flat_map]. rewrite app_nil_r, of_tok_back, <- map_app, <- unglued_app. reflexivity.
Qed.
Lemma plain_ok s ps l s' o : state_fits s ps -> spp_plain s l = Some (s', o) -> match l with LCode t => unglued t = t | _ => True end ->
  exists ps', pp_line cfg ps l = Some (ps', outs o) /\ state_fits s' ps'.
Proof.
  intros F E U. pose proof F as F0. destruct F as [G H]. pose proof (here_fits s ps G) as Hh.
  destruct l as [t|a|a| | |x b t|x|]; cbn [spp_plain] in E; cbn [pp_line].
  - injection E as <- <-. exists ps. rewrite at_out, Hh, U. now split.
  - destruct (ftrans s a) as [f|] eqn:E1; [|discriminate]. injection E as <- <-. rewrite <- (ftrans_fits _ _ _ _ F0 E1).
    eexists; split; [reflexivity|]. split; [|exact H]. constructor; [|exact G]. now split.
  - destruct (sp_groups s) as [|[u d] r] eqn:E0; [discriminate|]. destruct (ftrans s a) as [f|] eqn:E1; [|discriminate]. injection E as <- <-.
    unfold groups_fit in G. rewrite E0 in G. inversion G as [|? g ? lg [G1 G2] G3 X Y]; subst. cbn [fst snd] in *. rewrite <- (ftrans_fits _ _ _ _ F0 E1).
    eexists; split; [reflexivity|]. split; [|exact H]. constructor; [|exact G3]. cbn [fst snd feval b_used b_done]. now rewrite G2.
  - destruct (sp_groups s) as [|[u d] r] eqn:E0; [discriminate|]. injection E as <- <-.
    unfold groups_fit in G. rewrite E0 in G. inversion G as [|? g ? lg [G1 G2] G3 X Y]; subst. cbn [fst snd] in *.
    eexists; split; [reflexivity|]. split; [|exact H]. constructor; [|exact G3]. cbn [fst snd feval b_used b_done]. now rewrite G2.
  - destruct (sp_groups s) as [|[u d] r] eqn:E0; [discriminate|]. injection E as <- <-.
    unfold groups_fit in G. rewrite E0 in G. inversion G as [|? g ? lg [G1 G2] G3 X Y]; subst.
    eexists; split; [reflexivity|]. split; [exact G3|exact H].
  - injection E as <- <-. pose proof (add_fits x true s ps F0) as A. unfold outs; cbn [flat_map]. unfold iout; cbn [fst snd]. rewrite Hh.
    destruct (all_used (p_groups ps)); (eexists; split; [reflexivity|exact A]).
  - injection E as <- <-. pose proof (add_fits x false s ps F0) as A. unfold outs; cbn [flat_map]. unfold iout; cbn [fst snd]. rewrite Hh.
    destruct (all_used (p_groups ps)); (eexists; split; [reflexivity|exact A]).
  - injection E as <- <-. exists ps. now split.
Qed.

(* ---------------------------------------------------------------- lines *)

Lemma lit_name v n s : lit n = Some s -> iname v n = s.
Proof.
  revert s; induction n as [|x n IH]; intros s E; cbn [lit] in E; [now injection E as <-|]. destruct x as [a|]; [|discriminate].
  destruct (lit n) as [r|]; [|discriminate]. injection E as <-. change (iname v (SC a :: n)) with (a :: iname v n). now rewrite (IH r eq_refl).
Qed.
Lemma lit_tok_ok v x t : lit_tok x = Some t -> itok v x = [t].
Proof.
  destruct x as [n|n|n|o| | | |h]; cbn [lit_tok]; intro E; try (now injection E as <-); try discriminate;
    (destruct (lit n) as [s|] eqn:L; [|discriminate]; injection E as <-; cbn [itok]; now rewrite (lit_name _ _ _ L)).
Qed.
Lemma lit_toks_ok v l t : lit_toks l = Some t -> itoks v l = t.
Proof.
  revert t; induction l as [|x l IH]; intros t E; cbn [lit_toks] in E; [now injection E as <-|].
  destruct (lit_tok x) as [a|] eqn:L; [|discriminate]. destruct (lit_toks l) as [r|]; [|discriminate]. injection E as <-.
  change (itoks v (x :: l)) with (itok v x ++ itoks v l). now rewrite (lit_tok_ok _ _ _ L), (IH r eq_refl).
Qed.
Lemma classify_code l t : classify l = Some (LCode t) -> unglued t = t.
Proof.
  assert (A : forall x, Some (LCode (unglued x)) = Some (LCode t) -> unglued t = t) by (intros x E; injection E as <-; apply unglued_twice).
  destruct l as [|[w|w|w|o| | |] l]; cbn [classify]; try (apply A).
  destruct (str_eqb o $"#"); [|apply A].
  destruct l as [|[w|w|w|o'| | |] l]; try discriminate.
  destruct (str_eqb w $"if"); [destruct (read_condition (unglued l)); discriminate|]. destruct (str_eqb w $"elif"); [destruct (read_condition (unglued l)); discriminate|].
  destruct (str_eqb w $"else"); [discriminate|]. destruct (str_eqb w $"endif"); [discriminate|].
  destruct l as [|[w'|w'|w'|o'| | |] l]; try (destruct (existsb (str_eqb w) _); discriminate).
  destruct (str_eqb w $"ifdef"); [discriminate|]. destruct (str_eqb w $"ifndef"); [discriminate|]. destruct (str_eqb w $"define"); [discriminate|]. destruct (str_eqb w $"undef"); discriminate.
Qed.

Lemma front_name v n : starts_with (front n) (iname v n) = true.
Proof.
  induction n as [|x n IH]; [reflexivity|]. destruct x as [a|h]; [|destruct (iname v (SH h :: n)); reflexivity].
  change (iname v (SC a :: n)) with (a :: iname v n). cbn [front starts_with]. rewrite Ascii.eqb_refl. exact IH.
Qed.
Lemma one_line_ok v l r : one_line l = Some r -> ends_ok v l -> itoks v l = itoks v r ++ [TEnd] /\ ~ In TEnd (itoks v r).
Proof.
  revert r; induction l as [|x l IH]; intros r E G; [discriminate|]. inversion G as [|? ? G1 G2]; subst.
  assert (more : forall r', one_line l = Some r' -> ~ In TEnd (itok v x) -> itoks v (x :: l) = itoks v (x :: r') ++ [TEnd] /\ ~ In TEnd (itoks v (x :: r'))).
  { intros r' E' N. destruct (IH r' E' G2) as [A B]. change (itoks v (x :: l)) with (itok v x ++ itoks v l). change (itoks v (x :: r')) with (itok v x ++ itoks v r').
    rewrite A, app_assoc. split; [reflexivity|]. intro I. apply in_app_iff in I as [I|I]; contradiction. }
  destruct x as [n|n|n|o| | | |h]; cbn [one_line] in E;
    try (destruct (one_line l) as [r'|]; [|discriminate]; injection E as <-; apply more; [reflexivity|]; first [exact G1|(intros [I|[]]; discriminate)]).
  destruct l; [|discriminate]. injection E as <-. now split.
Qed.

Definition toks_of (l : sl) : list stok := match l with SPlain t => t | SEach _ t => t end.
Definition env_fits (k : class) (l : list stok) : Prop :=
  Forall (fun v => ends_ok v l /\ Forall (fun t => match t with KHole h => hole_fits v h | _ => True end) l) (envs c k).
Definition sl_fits (l : sl) : Prop := match l with SPlain _ => True | SEach k t => env_fits k t end.

Lemma sunglued_toks v l : unglued (itoks v (sunglued l)) = unglued (itoks v l).
Proof.
  induction l as [|x l IH]; [reflexivity|]. change (itoks v (x :: l)) with (itok v x ++ itoks v l). rewrite unglued_app, <- IH.
  unfold sunglued; cbn [filter]. destruct x; cbn [sglue negb];
  try (match goal with |- unglued (itoks v (?y :: ?r)) = _ => change (itoks v (y :: r)) with (itok v y ++ itoks v r); now rewrite unglued_app end). reflexivity.
Qed.

Lemma def_name_env x v : def_name x = true -> match x with KHole h => hole_fits v h | _ => True end -> exists n, itok v x = [TWord n] /\ starts_with (def_front x) n = true.
Proof.
  destruct x as [n|n|n|o| | | |h]; try discriminate; intros E G.
  - exists (iname v n). split; [reflexivity|]. apply front_name.
  - destruct h; try discriminate; destruct G as (_ & _ & (n & G) & _); exists n; (split; [exact G|reflexivity]).
Qed.

Lemma each_def_ok x b r s vs : forall ps,
  state_fits (mksp (sp_groups s) (sp_defs s) (def_front x :: sp_fronts s)) ps ->
  Forall (fun v => exists n, itok v x = [TWord n] /\ starts_with (def_front x) n = true) vs ->
  Forall (fun v => (match itoks v r with TGlue :: _ => true | _ => false end) = b) vs ->
  exists ps', pp_lines cfg ps (map (fun v => [TOp $"#"; TWord $"define"] ++ itok v x ++ itoks v r) vs) =
                Some (ps', if all_used (p_groups ps) then flat_map (fun v => match itok v x with [TWord n] => [PDefine n b (utoks v (sunglued r))] | _ => [] end) vs else []) /\
              state_fits (mksp (sp_groups s) (sp_defs s) (def_front x :: sp_fronts s)) ps'.
Proof.
  induction vs as [|v vs IH]; intros ps F V B; [exists ps; cbn; split; [now destruct (all_used _)|exact F]|].
  inversion V as [|? ? (n & V1 & V1') V2]; subst. inversion B as [|? ? B1 B2]; subst. cbn [map pp_lines flat_map]. rewrite V1.
  assert (C : classify ([TOp $"#"; TWord $"define"] ++ [TWord n] ++ itoks v r) = Some (LDefine n (match itoks v r with TGlue :: _ => true | _ => false end) (utoks v (sunglued r)))).
  { cbn [app classify]. unfold utoks. rewrite sunglued_toks. reflexivity. }
  rewrite C. cbn [pp_line].
  destruct (all_used (p_groups ps)) eqn:U.
  - destruct (IH (mkp (p_groups ps) ((n, true) :: p_macros ps))) as (ps' & E & F'); [|exact V2|exact B2|].
    { destruct F as [G H]. split; [exact G|]. intros y A. specialize (H y A). rewrite H. unfold defined_in; cbn [p_macros lookup].
      destruct (str_eqb y n) eqn:Y; [|reflexivity]. apply str_eqb_eq in Y; subst y. unfold apart in A; cbn [sp_fronts existsb] in A. now rewrite V1' in A. }
    exists ps'. rewrite E. cbn [p_groups]. rewrite U. split; [reflexivity|exact F'].
  - destruct (IH ps F V2 B2) as (ps' & E & F'). exists ps'. rewrite E, U. split; [reflexivity|exact F'].
Qed.

Lemma each_code_ok s ps k l t : state_fits s ps -> env_fits k l -> code_lines true l = Some t ->
  pp_lines cfg ps (iline c (SEach k l)) = Some (ps, outs [(here s, GEach k t)]).
Proof.
  intros [G _] V E. cbn [iline]. unfold outs; cbn [flat_map]. rewrite app_nil_r. unfold iout; cbn [fst snd]. rewrite (here_fits _ _ G).
  unfold env_fits in V. induction V as [|v vs [V1 _] V2 IH]; [cbn; now destruct (all_used _)|]. cbn [flat_map]. rewrite pp_app.
  rewrite (code_ok v ps l true [] t V1 E eq_refl), IH. cbn [unglued filter app]. destruct (all_used (p_groups ps)); reflexivity.
Qed.
Lemma line_ok s ps l s' o : state_fits s ps -> sl_fits l -> spp_line s l = Some (s', o) ->
  exists ps', pp_lines cfg ps (iline c l) = Some (ps', outs o) /\ state_fits s' ps'.
Proof.
  intros F V E. destruct l as [t|k t]; cbn [spp_line] in E.
  - destruct (lit_toks t) as [t1|] eqn:L; [|discriminate]. destruct (classify t1) as [l|] eqn:C; [|discriminate].
    destruct (plain_ok _ _ _ _ _ F E) as (ps' & E1 & F1).
    { destruct l; try exact I. exact (classify_code _ _ C). }
    exists ps'. cbn [iline pp_lines]. rewrite (lit_toks_ok _ _ _ L), C, E1. now rewrite app_nil_r.
  - assert (code : option_map (fun t => (s, [(here s, GEach k t)])) (code_lines true t) = Some (s', o) ->
              exists ps', pp_lines cfg ps (iline c (SEach k t)) = Some (ps', outs o) /\ state_fits s' ps').
    { intro E0. destruct (code_lines true t) as [t1|] eqn:E1; [|discriminate]. injection E0 as <- <-. exists ps. split; [now apply each_code_ok|exact F]. }
    unfold spp_each in E. destruct t as [|[| | |h| | | |] [|[d| | | | | | |] [|x r]]]; try (exact (code E)).
    destruct (str_eqb h $"#") eqn:Hh; [|exact (code E)]. clear code. apply str_eqb_eq in Hh; subst h.
    destruct (one_line r) as [r1|] eqn:O; [|discriminate].
    destruct (def_name x && _ && _) eqn:B; [|discriminate]. injection E as <- <-.
    apply andb_true_iff in B as [B B3]. apply andb_true_iff in B as [B1 B2].
    destruct (lit d) as [d'|] eqn:D; [|discriminate]. apply str_eqb_eq in B3; subst d'.
    cbn [sl_fits] in V. unfold env_fits in V.
    assert (L : iline c (SEach k (KOp $"#" :: KWord d :: x :: r)) = map (fun v => [TOp $"#"; TWord $"define"] ++ itok v x ++ itoks v r1) (envs c k)).
    { cbn [iline]. induction V as [|v vs [V1 V3] V2 IH]; [reflexivity|]. cbn [flat_map map]. rewrite IH. clear IH V2.
      inversion V1 as [|? ? _ V4]; subst. inversion V4 as [|? ? _ V5]; subst. inversion V5 as [|? ? Vx V6]; subst.
      inversion V3 as [|? ? _ W4]; subst. inversion W4 as [|? ? _ W5]; subst. inversion W5 as [|? ? Wx _]; subst.
      destruct (one_line_ok v r r1 O V6) as [R1 R2]. destruct (def_name_env x v B1 Wx) as (n & X & _).
      change (itoks v (KOp $"#" :: KWord d :: x :: r)) with (TOp $"#" :: TWord (iname v d) :: itok v x ++ itoks v r).
      rewrite (lit_name v _ _ D), R1, X. rewrite app_assoc.
      change (TOp $"#" :: TWord $"define" :: ([TWord n] ++ itoks v r1) ++ [TEnd]) with ((TOp $"#" :: TWord $"define" :: [TWord n] ++ itoks v r1) ++ [TEnd]).
      rewrite split_plain. - reflexivity. - cbn [app]. intros [I|[I|[I|I]]]; [discriminate..|contradiction]. }
    assert (F1 : state_fits (mksp (sp_groups s) (sp_defs s) (def_front x :: sp_fronts s)) ps).
    { destruct F as [G H]. split; [exact G|]. intros y A. unfold apart in A; cbn [sp_fronts existsb] in A. apply orb_false_iff in A as [_ A]. exact (H y A). }
    destruct (each_def_ok x (match r1 with KGlue :: _ => true | _ => false end) r1 s (envs c k) ps F1) as (ps' & E1 & F2).
    + clear L. induction V as [|v vs [V1 V3] V2 IH]; [constructor|]. constructor; [|exact IH].
      inversion V3 as [|? ? _ W4]; subst. inversion W4 as [|? ? _ W5]; subst. inversion W5 as [|? ? Wx _]; subst. exact (def_name_env x v B1 Wx).
    + rewrite Forall_forall. intros v _. destruct r1 as [|[] r1]; try reflexivity. exfalso.
      destruct r as [|y r]; [discriminate|]. destruct y; cbn [one_line] in O; try (destruct r; discriminate); try discriminate B2;
        destruct (one_line r); discriminate.
    + exists ps'. rewrite L, E1. split; [|exact F2]. unfold outs; cbn [flat_map]. rewrite app_nil_r. unfold iout; cbn [fst snd]. now rewrite (here_fits _ _ (proj1 F)).
Qed.
Lemma lines_ok ls : forall s ps s' o, state_fits s ps -> Forall sl_fits ls -> spp s ls = Some (s', o) ->
  exists ps', pp_lines cfg ps (flat_map (iline c) ls) = Some (ps', outs o) /\ state_fits s' ps'.
Proof.
  induction ls as [|l ls IH]; intros s ps s' o F V E; cbn [spp] in E; [injection E as <- <-; now exists ps|].
  destruct (spp_line s l) as [[s1 o1]|] eqn:E1; [|discriminate]. destruct (spp s1 ls) as [[s2 o2]|] eqn:E2; [|discriminate]. injection E as <- <-.
  inversion V as [|? ? V1 V2]; subst. destruct (line_ok _ _ _ _ _ F V1 E1) as (ps1 & L1 & F1). destruct (IH _ _ _ _ F1 V2 E2) as (ps2 & L2 & F2).
  exists ps2. cbn [flat_map]. rewrite pp_app, L1, L2. split; [|exact F2]. unfold outs. now rewrite flat_map_app.
Qed.
End PP.

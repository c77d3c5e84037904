(** Proofs for C93: templates in which blanks are left out behind some placeholders, and lines repeated for every symbol that have
    conditions in them. *)
From Coq Require Import Ascii String List Bool Arith Lia.
From Verif Require Import Str StrFacts Parse ParamNames Prefix Substitute SpecPrefix SpecSubstitute SpecTemplates ShippedFacts SpecCLang SpecCProg SpecBody CTemplate CTemplateText CTemplatePP
  CBodyText.
Import ListNotations.

(* ---------------------------------------------------------------- blanks that are left out *)

Fixpoint sfill (v : hole -> str) (eats : hole -> bool) (skip : bool) (l : list schar) : str :=
  match l with
  | [] => []
  | SC c :: r => (if skip && Ascii.eqb c sp then [] else [c]) ++ sfill v eats false r
  | SH h :: r => v h ++ sfill v eats (eats h) r
  end.
Lemma sfill_lit v eats s r : sfill v eats false (map SC s ++ r) = s ++ sfill v eats false r.
Proof. induction s as [|c s IH]; [reflexivity|]. cbn [map app sfill andb]. now rewrite IH. Qed.
Lemma fill_sfill v eats l : forall skip, fill v eats skip l = sfill v eats skip (schars l).
Proof.
  induction l as [|p l IH]; intro skip; [reflexivity|]. destruct p as [[|c s]|h].
  - exact (IH skip).
  - change (schars (Lit (c :: s) :: l)) with (SC c :: map SC s ++ schars l). cbn [fill sfill]. rewrite sfill_lit, IH.
    destruct (skip && Ascii.eqb c sp); reflexivity.
  - change (schars (Hole h :: l)) with (SH h :: schars l). cbn [fill sfill]. now rewrite IH.
Qed.
Lemma sfill_nl v eats l : forall skip, sfill v eats skip (l ++ [SC nl]) = sfill v eats skip l ++ [nl].
Proof.
  induction l as [|x l IH]; intro skip; [cbn [app sfill]; now rewrite andb_false_r|]. destruct x as [a|h]; cbn [app sfill]; now rewrite IH, app_assoc.
Qed.

(** placeholders behind which blanks may be left out end in front of a token *)
Definition eats_fits (v : hole -> str) (eats : hole -> bool) : Prop :=
  forall h, eats h = true -> word_hole h = false /\ pad_hole h = false /\ fst (lex_from MCode (v h)) = MCode.
Lemma slex_eat v eats (EF : eats_fits v eats) l : forall skip sm m x sm' t,
  fits v l -> good v sm -> reads v sm m x -> (skip = true -> m = MCode /\ exists h, sm = SHole h) -> slex sm l = Some (sm', t) ->
  exists x', reads v sm' (fst (lex_from m (sfill v eats skip l))) x' /\ x ++ snd (lex_from m (sfill v eats skip l)) = itoks v t ++ x' /\ good v sm'.
Proof.
  induction l as [|c l IH]; intros skip sm m x sm' t F Gm R S E; cbn [slex] in E.
  - injection E as <- <-. exists x. cbn [sfill lex_from fst snd itoks flat_map]. now rewrite app_nil_r.
  - destruct (slex_char sm c) as [[sm1 t1]|] eqn:E1; [|discriminate]. destruct (slex sm1 l) as [[sm2 t2]|] eqn:E2; [|discriminate]. injection E as <- <-.
    inversion F as [|? ? F1 F2]; subst.
    destruct c as [c|h].
    + cbn [sfill]. destruct (skip && Ascii.eqb c sp) eqn:K.
      * apply andb_true_iff in K as [K1 K2]. apply Ascii.eqb_eq in K2. subst c. destruct (S K1) as [-> [h ->]].
        change (slex_char (SHole h) (SC sp)) with (Some (SCode, [KHole h])) in E1. injection E1 as <- <-. cbn [app].
        destruct (IH false SCode MCode [] _ _ F2 Logic.I (conj eq_refl eq_refl) ltac:(discriminate) E2) as (x' & R' & X' & G').
        exists x'. split; [exact R'|]. split; [|exact G']. cbn [reads] in R. change (itoks v (KHole h :: t2)) with (own_tokens (v h) ++ itoks v t2). rewrite <- app_assoc, <- X'. cbn [app]. f_equal.
        unfold own_tokens. rewrite R. cbn [fst snd pending]. now rewrite app_nil_r.
      * destruct (slex_char_ok v (SC c) sm m x sm1 t1 F1 Gm R E1) as (x1 & R1 & X1 & G1). cbn [ichar] in *.
        destruct (IH false _ _ _ _ _ F2 G1 R1 ltac:(discriminate) E2) as (x2 & R2 & X2 & G2).
        rewrite lex_app; cbn [fst snd]. exists x2. split; [exact R2|]. split; [|exact G2].
        rewrite app_assoc, X1, <- app_assoc, X2, itoks_app, app_assoc. reflexivity.
    + cbn [sfill]. destruct (slex_char_ok v (SH h) sm m x sm1 t1 F1 Gm R E1) as (x1 & R1 & X1 & G1). cbn [ichar] in *.
      assert (S1 : eats h = true -> fst (lex_from m (v h)) = MCode /\ exists h0, sm1 = SHole h0).
      { intro H. destruct (EF h H) as (W & P & L). cbn [slex_char] in E1.
        destruct sm; cbn [slex_hole] in E1; rewrite ?W, ?P in E1; cbn [andb] in E1; try discriminate E1. injection E1 as <- <-.
        cbn [reads imode] in R. destruct R as [-> _]. split; [exact L|now exists h]. }
      destruct (IH (eats h) _ _ _ _ _ F2 G1 R1 S1 E2) as (x2 & R2 & X2 & G2).
      rewrite lex_app; cbn [fst snd]. exists x2. split; [exact R2|]. split; [|exact G2].
      rewrite app_assoc, X1, <- app_assoc, X2, itoks_app, app_assoc. reflexivity.
Qed.

(* ---------------------------------------------------------------- lines *)

Definition eenvs (c : config) (k : class) : list ((hole -> str) * (hole -> bool)) :=
  match k with
  | CFunction => map (fun e => (value_of (longest (class_names c k)) e, eats_of e)) (c_funcs c)
  | CObject => map (fun e => (value_of (longest (class_names c k)) e, eats_of e)) (c_objs c)
  | CSymbol => map (fun e => (symbol_value true e, fun _ => false)) (c_funcs c) ++ map (fun e => (symbol_value false e, fun _ => false)) (c_objs c)
  end.
Lemma eenvs_envs c k : map fst (eenvs c k) = envs c k.
Proof. destruct k; cbn [eenvs envs]; rewrite ?map_app, ?map_map; reflexivity. Qed.
Definition htexts (c : config) (l : option class * list schar) : list str :=
  match fst l with None => [iname no_value (snd l)] | Some k => map (fun ve => sfill (fst ve) (snd ve) false (snd l)) (eenvs c k) end.
Definition eaten_fits (c : config) : Prop := forall k, Forall (fun ve => eats_fits (fst ve) (snd ve)) (eenvs c k).

Lemma hlex_line_ok c l m m' t : eaten_fits c -> line_fits c l -> not_hole m -> slex_line m l = Some (m', t) ->
  lex_from (imode no_value m) (concat (htexts c l)) = (imode no_value m', isels c t) /\ not_hole m'.
Proof.
  intros EF F N E. destruct l as [[k|] l]; [|exact (slex_line_ok c (None, l) m m' t F N E)].
  unfold line_fits, slex_line, htexts in *; cbn [fst snd] in *.
  destruct m; try discriminate. destruct (slex SCode l) as [[[] t1]|] eqn:E1; try discriminate. injection E as <- <-.
  split; [|exact Logic.I]. cbn [imode].
  assert (A : forall ve, In ve (eenvs c k) -> lex_from MCode (sfill (fst ve) (snd ve) false l) = (MCode, itoks (fst ve) t1)).
  { intros [v eats] I. cbn [fst snd]. specialize (EF k). rewrite Forall_forall in EF, F. specialize (EF _ I). cbn [fst snd] in EF.
    assert (Iv : In v (envs c k)) by (rewrite <- eenvs_envs; apply (in_map fst) in I; exact I).
    destruct (slex_eat v eats EF l false SCode MCode [] SCode t1 (F _ Iv) Logic.I (conj eq_refl eq_refl) ltac:(discriminate) E1) as (x' & [R X] & Q & _).
    rewrite X, app_nil_r in Q. cbn [app] in Q. destruct (lex_from MCode (sfill v eats false l)) as [m1 t2]. cbn [fst snd] in *. cbn [imode] in R. now subst. }
  rewrite lex_concat.
  - f_equal. unfold isels; cbn [flat_map isel]. rewrite app_nil_r, <- eenvs_envs. clear E1 F EF.
    induction (eenvs c k) as [|v vs IH]; [reflexivity|]. cbn [map flat_map]. rewrite (A v (or_introl eq_refl)), IH by (intros; apply A; now right). reflexivity.
  - intros s I. apply in_map_iff in I as (v & <- & I). now rewrite (A v I).
Qed.
Lemma hlex_lines_ok c ls : eaten_fits c -> forall m m' t, Forall (line_fits c) ls -> not_hole m -> slex_lines m ls = Some (m', t) ->
  lex_from (imode no_value m) (concat (flat_map (htexts c) ls)) = (imode no_value m', isels c t) /\ not_hole m'.
Proof.
  intro EF. induction ls as [|l ls IH]; intros m m' t F N E; cbn [slex_lines] in E; [injection E as <- <-; now split|].
  destruct (slex_line m l) as [[m1 t1]|] eqn:E1; [|discriminate]. destruct (slex_lines m1 ls) as [[m2 t2]|] eqn:E2; [|discriminate]. injection E as <- <-.
  inversion F as [|? ? F1 F2]; subst. destruct (hlex_line_ok _ _ _ _ _ EF F1 N E1) as [L1 N1]. destruct (IH _ _ _ F2 N1 E2) as [L2 N2].
  split; [|exact N2]. cbn [flat_map]. rewrite concat_app, lex_app, L1; cbn [fst snd]. rewrite L2; cbn [fst snd].
  unfold isels. now rewrite flat_map_app.
Qed.
Lemma htexts_ok c s : default_prefix c -> line_text (parts 0 s) = s ->
  map (fun t => t ++ [nl]) (expansion c s) = htexts c (sline s).
Proof.
  intros [U L] T. unfold expansion, sline, htexts. rewrite U, L.
  destruct (holes (parts 0 s)) as [|h r] eqn:H; cbn [fst snd map].
  - rewrite rename_same, iname_app. destruct (no_holes_text _ H) as [_ B]. now rewrite B, T.
  - rewrite rename_parts_same.
    assert (A : forall v eats, fill v eats false (parts 0 s) ++ [nl] = sfill v eats false (schars (parts 0 s) ++ [SC nl])).
    { intros v eats. now rewrite fill_sfill, sfill_nl. }
    destruct (hole_class h); cbn [copies eenvs]; rewrite ?map_app, ?map_map; [| |f_equal]; apply map_ext; intro e; apply A.
Qed.
Lemma decl_star s : declaration_text s -> ends_with $"*" s = true -> fst (lex_from MCode s) = MCode.
Proof.
  intros D E. apply ends_with_spec in E as [a ->]. apply Forall_app in D as [D _]. rewrite lex_app. cbn [fst].
  destruct (proj1 (decl_lex a D MCode (or_introl eq_refl))) as [->|[w ->]]; reflexivity.
Qed.
Lemma eaten_ok c : plain_config c -> eaten_fits c.
Proof.
  intros [F O]. assert (A : forall n l, Forall plain_proto l -> Forall (fun ve => eats_fits (fst ve) (snd ve)) (map (fun e => (value_of n e, eats_of e)) l)).
  { intros n l P. apply Forall_forall. intros ve I. apply in_map_iff in I as (e & <- & I). rewrite Forall_forall in P. destruct (P _ I) as (T & _). cbn [fst snd].
    intros h H. destruct h; try discriminate H; (split; [reflexivity|split; [reflexivity|]]); cbn [eats_of value_of] in *.
    - now rewrite H.
    - now apply decl_star.
    - now apply decl_star. }
  intros []; cbn [eenvs]; [now apply A|now apply A|].
  apply Forall_app; split; apply Forall_forall; intros ve I; apply in_map_iff in I as (e & <- & I); now intros h H.
Qed.

(* ---------------------------------------------------------------- repeated lines with conditions *)

Fixpoint ksplit (acc : list stok) (l : list stok) : option (list (list stok)) :=
  match l with
  | [] => match acc with [] => Some [] | _ => None end
  | KEnd :: r => option_map (cons acc) (ksplit [] r)
  | t :: r => ksplit (acc ++ [t]) r
  end.
Lemma ksplit_ok v l : forall acc ls, ends_ok v l -> ksplit acc l = Some ls -> split_lines (itoks v acc) (itoks v l) = map (itoks v) ls.
Proof.
  induction l as [|x l IH]; intros acc ls G E; cbn [ksplit] in E.
  - destruct acc; [|discriminate]. now injection E as <-.
  - inversion G as [|? ? G1 G2]; subst. change (itoks v (x :: l)) with (itok v x ++ itoks v l).
    assert (P : ~ In TEnd (itok v x) -> ksplit (acc ++ [x]) l = Some ls -> split_lines (itoks v acc) (itok v x ++ itoks v l) = map (itoks v) ls).
    { intros N E'. rewrite split_plain by exact N. rewrite <- (IH _ _ G2 E'), itoks_app. cbn [itoks flat_map]. now rewrite app_nil_r. }
    destruct x; try (apply P; [intros [I|[]]; discriminate|exact E]).
    + destruct (ksplit [] l) as [ls'|] eqn:E'; [|discriminate]. injection E as <-. cbn [itok app split_lines map]. f_equal. exact (IH [] ls' G2 E').
    + apply P; [exact G1|exact E].
Qed.

Inductive kline := QCode (l : list stok) | QIf (neg : bool) (n : tname) | QElse | QEndif | QDef (n : tname) (call : bool) (l : list stok).
Definition khash (t : stok) : bool := match t with KOp o => str_eqb o $"#" | _ => false end.
Definition khole (t : stok) : bool := match t with KHole _ => true | _ => false end.
Definition kcode (l : list stok) : option kline := if existsb khash l then None else Some (QCode l).
Definition kclass (l : list stok) : option kline :=
  match l with
  | KOp h :: KWord d :: r =>
      if str_eqb h $"#" then
        match lit d with
        | Some d =>
            if str_eqb d $"else" then Some QElse
            else if str_eqb d $"endif" then Some QEndif
            else match r with
                 | KWord n :: r' =>
                     if str_eqb d $"ifdef" then Some (QIf false n)
                     else if str_eqb d $"ifndef" then Some (QIf true n)
                     else if str_eqb d $"define" then match r' with KHole _ :: _ => None | _ => Some (QDef n (match r' with KGlue :: _ => true | _ => false end) (sunglued r')) end
                     else None
                 | _ => None
                 end
        | None => None
        end
      else kcode l
  | _ => kcode l
  end.
Definition iclass (v : hole -> str) (k : kline) : line :=
  match k with
  | QCode l => LCode (utoks v l)
  | QIf neg n => LIf (if neg then CNot (CDef (iname v n)) else CDef (iname v n))
  | QElse => LElse
  | QEndif => LEndif
  | QDef n b l => LDefine (iname v n) b (utoks v l)
  end.
(** no placeholder stands for something with a hash sign *)
Definition hash_ok (v : hole -> str) (l : list stok) : Prop := Forall (fun t => match t with KHole h => ~ In (TOp $"#") (own_tokens (v h)) | _ => True end) l.
Lemma no_hash l : ~ In (TOp $"#") l -> classify l = Some (LCode (unglued l)).
Proof.
  intro N. destruct l as [|[w|w|w|o| | |] l]; try reflexivity. cbn [classify]. destruct (str_eqb o $"#") eqn:E; [|reflexivity].
  apply str_eqb_eq in E. subst o. destruct N. now left.
Qed.
Lemma kcode_ok v l q : hash_ok v l -> kcode l = Some q -> classify (itoks v l) = Some (iclass v q).
Proof.
  intros H E. unfold kcode in E. destruct (existsb khash l) eqn:X; [discriminate|]. injection E as <-. cbn [iclass]. apply no_hash.
  intro I. apply in_flat_map in I as (t & I & J). unfold hash_ok in H. rewrite Forall_forall in H. specialize (H t I).
  destruct t; cbn [itok] in J; try (destruct J as [J|[]]; discriminate J); try contradiction.
  destruct J as [J|[]]. injection J as ->. assert (existsb khash l = true) by (apply existsb_exists; exists (KOp $"#"); now split). congruence.
Qed.
Lemma kclass_ok v l q : hash_ok v l -> kclass l = Some q -> classify (itoks v l) = Some (iclass v q).
Proof.
  intros H E. unfold kclass in E.
  destruct l as [|[n|n|n|h| | | |h] l]; try (exact (kcode_ok v _ q H E)).
  destruct l as [|[d|d|d|o| | | |o] r]; try (exact (kcode_ok v _ q H E)).
  destruct (str_eqb h $"#") eqn:Hh; [|exact (kcode_ok v _ q H E)]. apply str_eqb_eq in Hh. subst h.
  destruct (lit d) as [d'|] eqn:D; [|discriminate].
  change (itoks v (KOp $"#" :: KWord d :: r)) with (TOp $"#" :: TWord (iname v d) :: itoks v r). rewrite (lit_name v _ _ D).
  cbn [classify]. change (str_eqb $"#" $"#") with true. cbv iota.
  destruct (str_eqb d' $"else") eqn:D1. { injection E as <-. apply str_eqb_eq in D1; subst d'. reflexivity. }
  destruct (str_eqb d' $"endif") eqn:D2. { injection E as <-. apply str_eqb_eq in D2; subst d'. reflexivity. }
  destruct r as [|[n|n|n|o| | | |o] r]; try discriminate E. change (itoks v (KWord n :: r)) with (TWord (iname v n) :: itoks v r).
  destruct (str_eqb d' $"ifdef") eqn:D3. { injection E as <-. apply str_eqb_eq in D3; subst d'. reflexivity. }
  destruct (str_eqb d' $"ifndef") eqn:D4. { injection E as <-. apply str_eqb_eq in D4; subst d'. reflexivity. }
  destruct (str_eqb d' $"define") eqn:D5; [|discriminate]. apply str_eqb_eq in D5; subst d'.
  assert (G : Some (QDef n (match r with KGlue :: _ => true | _ => false end) (sunglued r)) = Some q /\ match r with KHole _ :: _ => False | _ => True end)
    by (destruct r as [|[] r]; try discriminate E; now split).
  destruct G as [G1 G2]. injection G1 as <-. cbn [iclass]. unfold utoks. rewrite sunglued_toks.
  destruct r as [|[] r]; try contradiction; reflexivity.
Qed.

Inductive bout := OTest (n : tname) | OCode (l : list stok) | ODef (n : tname) (call : bool) (l : list stok).
Definition live (st : list (option (bool * bool))) : bool := forallb (fun g => match g with Some (u, _) => u | None => false end) st.
(** the lines, if none of the names tested is defined *)
Fixpoint bexec (st : list (option (bool * bool))) (l : list kline) : option (list bout) :=
  match l with
  | [] => match st with [] => Some [] | _ => None end
  | QCode t :: r => if live st then option_map (cons (OCode t)) (bexec st r) else bexec st r
  | QDef n b t :: r => if live st then option_map (cons (ODef n b t)) (bexec st r) else bexec st r
  | QIf neg n :: r => if live st then option_map (cons (OTest n)) (bexec (Some (neg, neg) :: st) r) else bexec (None :: st) r
  | QElse :: r => match st with
                  | Some (u, d) :: st => bexec (Some (negb d, true) :: st) r
                  | None :: st => bexec (None :: st) r
                  | [] => None
                  end
  | QEndif :: r => match st with _ :: st => bexec st r | [] => None end
  end.
Fixpoint pp_classified (cfg : str -> bool) (s : pstate) (l : list line) : option (pstate * list pout) :=
  match l with
  | [] => Some (s, [])
  | x :: r => match pp_line cfg s x with
              | Some (s1, t1) => match pp_classified cfg s1 r with Some (s2, t2) => Some (s2, t1 ++ t2) | None => None end
              | None => None
              end
  end.
Lemma classified cfg l : forall ls s, map classify l = map Some ls -> pp_lines cfg s l = pp_classified cfg s ls.
Proof.
  induction l as [|x l IH]; intros [|y ls] s E; try discriminate; [reflexivity|]. injection E as E1 E2. cbn [pp_lines pp_classified]. rewrite E1.
  destruct (pp_line cfg s y) as [[s1 t1]|]; [|reflexivity]. now rewrite (IH ls s1 E2).
Qed.

Section Blocks.
Variables (cfg : str -> bool) (v : hole -> str) (g0 : list group).
Definition stack_fits (st : list (option (bool * bool))) (gs : list group) : Prop :=
  Forall2 (fun a g => match a with Some (u, d) => b_used g = u /\ b_done g = d | None => True end) st gs.
Fixpoint wf (st : list (option (bool * bool))) : Prop :=
  match st with [] => True | None :: r => live r = false /\ wf r | Some _ :: r => wf r end.
Lemma live_used st gs : stack_fits st gs -> wf st -> all_used (gs ++ g0) = live st && all_used g0.
Proof.
  intro F. induction F as [|a g st gs H _ IH]; intro W; [reflexivity|]. unfold all_used, live in *. cbn [app forallb].
  destruct a as [[u d]|]; cbn [wf] in W.
  - rewrite (IH W). destruct H as [-> _]. now rewrite andb_assoc.
  - destruct W as [W1 W2]. rewrite (IH W2). cbn [andb]. unfold live in W1. rewrite W1. cbn [andb]. apply andb_false_r.
Qed.
Definition bmac (o : list bout) : list (str * bool) := flat_map (fun x => match x with ODef n _ _ => [(iname v n, true)] | _ => [] end) o.
Definition btext (o : list bout) : list pout :=
  flat_map (fun x => match x with OTest _ => [] | OCode l => map PTok (utoks v l) | ODef n b l => [PDefine (iname v n) b (utoks v l)] end) o.
(** no test behind a definition *)
Fixpoint tests_first (o : list bout) : Prop :=
  match o with
  | [] => True
  | ODef _ _ _ :: r => (forall n, ~ In (OTest n) r) /\ tests_first r
  | _ :: r => tests_first r
  end.
Lemma bexec_dead (A : all_used g0 = false) ms l : forall st gs o, length st = length gs -> bexec st l = Some o ->
  pp_classified cfg (mkp (gs ++ g0) ms) (map (iclass v) l) = Some (mkp g0 ms, []).
Proof.
  induction l as [|q l IH]; intros st gs o Q E; cbn [bexec] in E.
  - destruct st; [|discriminate]. destruct gs; [|discriminate]. reflexivity.
  - assert (N : all_used (gs ++ g0) = false) by (unfold all_used in *; rewrite forallb_app, A; apply andb_false_r).
    cbn [map pp_classified]. destruct q as [t|neg n| | |n b t]; cbn [iclass pp_line p_groups p_macros].
    + rewrite N. destruct (live st); [destruct (bexec st l) eqn:E'; [|discriminate]|]; erewrite IH by (first [exact Q|eassumption]); reflexivity.
    + destruct (live st); [destruct (bexec (Some (neg, neg) :: st) l) eqn:E'; [|discriminate]|];
      rewrite app_comm_cons; (erewrite IH; [reflexivity| |eassumption]); cbn [length]; now rewrite Q.
    + destruct st as [|[[u d]|] st]; [discriminate|..]; (destruct gs as [|g gs]; [discriminate|]); cbn [app]; rewrite app_comm_cons; (erewrite IH; [reflexivity| |eassumption]); cbn [length] in *; congruence.
    + destruct st as [|x st]; [discriminate|]. destruct gs as [|g gs]; [discriminate|]. cbn [app]. erewrite IH; [reflexivity| |eassumption]. cbn [length] in Q. congruence.
    + rewrite N. destruct (live st); [destruct (bexec st l) eqn:E'; [|discriminate]|]; erewrite IH by (first [exact Q|eassumption]); reflexivity.
Qed.
Lemma bexec_ok (A : all_used g0 = true) l : forall st gs ms o, stack_fits st gs -> wf st -> bexec st l = Some o -> tests_first o ->
  (forall n, In (OTest n) o -> defined_in cfg (mkp [] ms) (iname v n) = false) ->
  pp_classified cfg (mkp (gs ++ g0) ms) (map (iclass v) l) = Some (mkp g0 (rev (bmac o) ++ ms), btext o).
Proof.
  induction l as [|q l IH]; intros st gs ms o F W E T U; cbn [bexec] in E.
  - destruct st; [|discriminate]. injection E as <-. inversion F; subst. reflexivity.
  - pose proof (live_used st gs F W) as LU. rewrite A, andb_true_r in LU. cbn [map pp_classified].
    destruct q as [t|neg n| | |n b t]; cbn [iclass pp_line p_groups p_macros].
    + rewrite LU. destruct (live st) eqn:L.
      * destruct (bexec st l) as [o'|] eqn:E'; [|discriminate]. injection E as <-. rewrite (IH st gs ms o' F W E' T) by (intros n I; apply U; now right). reflexivity.
      * rewrite (IH st gs ms o F W E T U). reflexivity.
    + destruct (live st) eqn:L.
      * destruct (bexec (Some (neg, neg) :: st) l) as [o'|] eqn:E'; [|discriminate]. injection E as <-.
        assert (H : holds (defined_in cfg {| p_groups := gs ++ g0; p_macros := ms |}) (if neg then CNot (CDef (iname v n)) else CDef (iname v n)) = neg).
        { specialize (U n (or_introl eq_refl)). unfold defined_in in U; cbn [p_macros] in U. destruct neg; cbn [holds]; unfold defined_in; cbn [p_macros]; now rewrite U. }
        rewrite H, app_comm_cons. rewrite (IH (Some (neg, neg) :: st) (mkgroup neg neg :: gs) ms o'); [reflexivity|constructor; [now split|exact F]|exact W|exact E'|exact T|].
        intros m I. apply U. now right.
      * rewrite app_comm_cons. rewrite (IH (None :: st) (mkgroup _ _ :: gs) ms o); [reflexivity|constructor; [exact I|exact F]|now split|exact E|exact T|exact U].
    + destruct st as [|[[u d]|] st]; [discriminate|..]; inversion F as [|? g ? gs' H F' X Y]; subst; cbn [app]; rewrite app_comm_cons.
      * rewrite (IH (Some (negb d, true) :: st) (mkgroup (negb (b_done g)) true :: gs') ms o); [reflexivity|constructor; [|exact F']|exact W|exact E|exact T|exact U].
        destruct H as [_ ->]. now split.
      * rewrite (IH (None :: st) (mkgroup (negb (b_done g)) true :: gs') ms o); [reflexivity|constructor; [exact I|exact F']|exact W|exact E|exact T|exact U].
    + destruct st as [|x st]; [discriminate|]. inversion F as [|? g ? gs' H F' X Y]; subst; cbn [app].
      rewrite (IH st gs' ms o); [reflexivity|exact F'| |exact E|exact T|exact U]. destruct x as [x|]; cbn [wf] in W; [exact W|apply W].
    + rewrite LU. destruct (live st) eqn:L.
      * destruct (bexec st l) as [o'|] eqn:E'; [|discriminate]. injection E as <-. destruct T as [T1 T2].
        rewrite (IH st gs ((iname v n, true) :: ms) o' F W E' T2) by (intros m I; destruct (T1 m I)).
        cbn [bmac btext flat_map app rev]. now rewrite <- app_assoc.
      * rewrite (IH st gs ms o F W E T U). reflexivity.
Qed.
End Blocks.

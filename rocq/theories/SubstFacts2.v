(** What a template line is expanded to. *)
From Coq Require Import Ascii String List Bool Arith Lia.
From Verif Require Import Str StrFacts SpecFormat FormatFacts TypedefFacts Parse ParamNames Prefix Substitute SpecSubstitute SubstFacts.
Import ListNotations.

(** placeholders found in a line *)
Lemma has_occurs k s : has k s = true <-> occurs k s.
Proof.
  unfold has. destruct (find k s) as [n|] eqn:E; split; intro H; try easy.
  - apply find_split in E as (a & b & -> & _). now exists a, b.
  - apply find_occurs in E. contradiction.
Qed.
Lemma hole_occurs t l h : line_ok t l -> occurs (hole_text h) (line_text l) <-> In h (holes l).
Proof.
  intro Ht. rewrite holes_in. split.
  - intros (a & b & E). destruct (occurrence_split h l t Ht a b E) as (pre & post & -> & _). eauto.
  - intros (pre & post & ->). exists (line_text pre), (line_text post). now rewrite line_text_app, line_text_cons.
Qed.
Lemma has_hole t l h : line_ok t l -> has (hole_text h) (line_text l) = true <-> In h (holes l).
Proof. intro Ht. rewrite has_occurs. now apply (hole_occurs t). Qed.

Definition class_holes (k : class) : list hole :=
  match k with
  | CFunction => [HReturn; HType; HFunc; HFuncPad; HArgs; HNames]
  | CObject => [HObjType; HObj; HObjPad]
  | CSymbol => [HSymType; HSym]
  end.
Definition class_keywords (k : class) : list str :=
  match k with CFunction => function_keywords | CObject => object_keywords | CSymbol => symbol_keywords end.
Lemma class_keywords_holes k : class_keywords k = map hole_text (class_holes k).
Proof. now destruct k. Qed.
Lemma class_holes_in k h : In h (class_holes k) <-> hole_class h = k.
Proof. destruct k, h; cbn; intuition (discriminate || easy). Qed.

Lemma find_keyword_true k s : find_keyword (class_keywords k) s = true <-> exists h, hole_class h = k /\ occurs (hole_text h) s.
Proof.
  unfold find_keyword. rewrite class_keywords_holes, existsb_exists. split.
  - intros (x & Hx & H). apply in_map_iff in Hx as (h & <- & Hh). exists h. split; [now apply class_holes_in|now apply has_occurs].
  - intros (h & Hh & H). exists (hole_text h). split; [apply in_map_iff; exists h; split; [easy|now apply class_holes_in]|now apply has_occurs].
Qed.
Lemma find_keyword_false k s : (forall h, hole_class h = k -> ~ occurs (hole_text h) s) -> find_keyword (class_keywords k) s = false.
Proof.
  intro H. destruct (find_keyword (class_keywords k) s) eqn:E; [|easy]. apply find_keyword_true in E as (h & Hh & X). now apply H in X.
Qed.

(* ---------------------------------------------------------------- filling *)

Definition clean (s : str) : Prop := ~ In pct s.
Lemma clean_app a b : clean a -> clean b -> clean (a ++ b).
Proof. intros H1 H2 X. apply in_app_or in X as [X|X]; [now apply H1|now apply H2]. Qed.
Lemma clean_blanks n : clean (repeat sp n).
Proof. intro H. apply repeat_spec in H. discriminate. Qed.

Lemma value_clean n e h : clean_proto e -> clean (value_of n e h).
Proof.
  intros (H1 & H2 & H3 & H4 & _). destruct h; cbn [value_of]; auto; try (now intro X);
    try (apply clean_app; [assumption|apply clean_blanks]).
  destruct (void_type e); intro X; [easy|]. cbn in X. intuition discriminate.
Qed.
Lemma clean_lit s : forallb (fun c => negb (Ascii.eqb c pct)) s = true -> clean s.
Proof. intros H X. rewrite forallb_forall in H. apply H in X. rewrite Ascii.eqb_refl in X. discriminate. Qed.
Lemma symbol_value_clean b e h : clean_proto e -> clean (symbol_value b e h).
Proof.
  intros H. pose proof H as (H1 & H2 & H3 & H4 & _). destruct h; try (apply value_clean; assumption). cbn [symbol_value].
  unfold pointer_to. apply clean_app; [easy|]. apply clean_app; [destruct (pointer_type e); now apply clean_lit|].
  destruct b; [|now apply clean_lit]. apply clean_app; [now apply clean_lit|]. apply clean_app; [easy|now apply clean_lit].
Qed.

(** both passes for a placeholder that may swallow a blank *)
Definition passed (V : hole -> str) (E : hole -> bool) (g : hole) (l l' : list part) : Prop :=
  line_ok false l' /\ fill V E false l' = fill V E false l /\ incl (holes l') (holes l) /\ ~ In g (holes l').
Lemma pass_both g v (V : hole -> str) (E : hole -> bool) l : clean v -> v = V g -> line_ok false l ->
  exists l0 l', (if E g then replace (hole_text g ++ [sp]) v (line_text l) else Ok (line_text l)) = Ok (line_text l0) /\
    replace (hole_text g) v (line_text l0) = Ok (line_text l') /\ passed V E g l l'.
Proof.
  intros Hv Ev Ht. destruct (E g) eqn:Eg.
  - destruct (pass_space g v V E false l Hv Ev Eg Ht) as (l1 & R1 & O1 & N1 & F1 & I1).
    destruct (pass_all g v V E false l1 Hv Ev (fun _ => N1) O1) as (l2 & R2 & O2 & F2 & I2 & G2). exists l1, l2.
    split; [easy|]. split; [easy|]. split; [easy|]. split; [congruence|]. split; [eapply incl_tran; eauto|easy].
  - destruct (pass_all g v V E false l Hv Ev) as (l2 & R2 & O2 & F2 & I2 & G2); auto; [congruence|]. exists l, l2. now repeat split.
Qed.
Lemma pass_one g v (V : hole -> str) (E : hole -> bool) l : clean v -> v = V g -> E g = false -> line_ok false l ->
  exists l', replace (hole_text g) v (line_text l) = Ok (line_text l') /\ passed V E g l l'.
Proof.
  intros Hv Ev Eg Ht. destruct (pass_both g v V E l Hv Ev Ht) as (l0 & l' & R0 & R & P). rewrite Eg in R0. injection R0 as R0.
  rewrite R0. eauto.
Qed.

Lemma no_holes l : (forall h, ~ In h (holes l)) -> holes l = [].
Proof. intro H. destruct (holes l) as [|h r]; [easy|]. exfalso. apply (H h). now left. Qed.

Lemma filled (V : hole -> str) (E : hole -> bool) l l' : line_ok false l' -> holes l' = [] -> fill V E false l' = fill V E false l ->
  line_text l' = fill V E false l /\ clean (fill V E false l).
Proof.
  intros O H F. rewrite <- F, fill_literal by easy. split; [easy|]. now apply (literal_no_pct false).
Qed.

Lemma fill_function_spec n e l : clean_proto e -> line_ok false l -> (forall h, In h (holes l) -> hole_class h = CFunction) ->
  (In HFuncPad (holes l) -> 0 < n) ->
  fill_function n (line_text l) e = Ok (fill_entry n l e) /\ clean (fill_entry n l e).
Proof.
  intros Hc Ht Hk Hn. pose proof Hc as (C1 & C2 & C3 & C4 & C5). unfold fill_function, fill_entry.
  set (V := value_of n e). set (E := eats_of e).
  (* return *)
  assert (P1 : exists l1, (if strcaseeq (p_type e) $"void"
         then (a <- replace $"%%return%% " [] (line_text l) ;; replace $"%%return%%" [] a)
         else replace $"%%return%%" $"return" (line_text l)) = Ok (line_text l1) /\ passed V E HReturn l l1).
  { change (strcaseeq (p_type e) $"void") with (void_type e). destruct (void_type e) eqn:Ve.
    - destruct (pass_both HReturn [] V E l) as (l0 & l1 & R0 & R1 & P); auto.
      + now apply clean_lit.
      + unfold V. cbn [value_of]. now rewrite Ve.
      + replace (E HReturn) with true in R0 by (symmetry; exact Ve).
        change (hole_text HReturn ++ [sp]) with ($"%%return%% ") in R0. rewrite R0. cbn [bind]. exists l1. now split.
    - destruct (pass_one HReturn $"return" V E l) as (l1 & R & P); auto.
      + now apply clean_lit.
      + unfold V. cbn [value_of]. now rewrite Ve.
      + exists l1. now split. }
  destruct P1 as (l1 & -> & O1 & F1 & I1 & G1). cbn [bind].
  (* type *)
  destruct (pass_both HType (p_type e) V E l1 C1 eq_refl O1) as (l2' & l2 & R2' & R2 & O2 & F2 & I2 & G2).
  change (hole_text HType ++ [sp]) with ($"%%type%% ") in R2'. change (E HType) with (ends_with $"*" (p_type e)) in R2'. rewrite R2'. cbn [bind].
  change (hole_text HType) with ($"%%type%%") in R2. rewrite R2. cbn [bind].
  (* the others *)
  destruct (pass_one HFunc (p_symbol e) V E l2 C2 eq_refl eq_refl O2) as (l3 & R3 & O3 & F3 & I3 & G3).
  change (hole_text HFunc) with ($"%%func_symbol%%") in R3. rewrite R3. cbn [bind].
  destruct (pass_one HArgs (p_args e) V E l3 C3 eq_refl eq_refl O3) as (l4 & R4 & O4 & F4 & I4 & G4).
  change (hole_text HArgs) with ($"%%args%%") in R4. rewrite R4. cbn [bind].
  destruct (pass_one HNames (p_param_names e) V E l4 C4 eq_refl eq_refl O4) as (l5 & R5 & O5 & F5 & I5 & G5).
  change (hole_text HNames) with ($"%%param_names%%") in R5. rewrite R5. cbn [bind].
  assert (P6 : exists l6, (if 0 <? n then replace $"%%func_symbol_pad%%" (padded n (p_symbol e)) (line_text l5) else Ok (line_text l5))
                          = Ok (line_text l6) /\ passed V E HFuncPad l5 l6).
  { destruct (Nat.ltb_spec 0 n) as [L|L].
    - destruct (pass_one HFuncPad (padded n (p_symbol e)) V E l5 (value_clean n e HFuncPad Hc) eq_refl eq_refl O5) as (l6 & R6 & P6). now exists l6.
    - exists l5. split; [easy|]. split; [easy|]. split; [easy|]. split; [apply incl_refl|]. intro X. apply I5, I4, I3, I2, I1 in X. apply Hn in X. lia. }
  destruct P6 as (l6 & -> & O6 & F6 & I6 & G6).
  destruct (filled V E l l6) as [-> Hcl]; auto; [|congruence].
  apply no_holes. intros h X. assert (K : hole_class h = CFunction) by (apply Hk, I1, I2, I3, I4, I5, I6, X).
  destruct h; try discriminate K; auto 10.
Qed.

Lemma fill_object_spec n e l : clean_proto e -> line_ok false l -> (forall h, In h (holes l) -> hole_class h = CObject) ->
  (In HObjPad (holes l) -> 0 < n) ->
  fill_object n (line_text l) e = Ok (fill_entry n l e) /\ clean (fill_entry n l e).
Proof.
  intros Hc Ht Hk Hn. pose proof Hc as (C1 & C2 & C3 & C4 & C5). unfold fill_object, fill_entry.
  set (V := value_of n e). set (E := eats_of e).
  destruct (pass_both HObjType (p_type e) V E l C1 eq_refl Ht) as (l2' & l2 & R2' & R2 & O2 & F2 & I2 & G2).
  change (hole_text HObjType ++ [sp]) with ($"%%obj_type%% ") in R2'. change (E HObjType) with (ends_with $"*" (p_type e)) in R2'. rewrite R2'. cbn [bind].
  change (hole_text HObjType) with ($"%%obj_type%%") in R2. rewrite R2. cbn [bind].
  destruct (pass_one HObj (p_symbol e) V E l2 C2 eq_refl eq_refl O2) as (l3 & R3 & O3 & F3 & I3 & G3).
  change (hole_text HObj) with ($"%%obj_symbol%%") in R3. rewrite R3. cbn [bind].
  assert (P6 : exists l6, (if 0 <? n then replace $"%%obj_symbol_pad%%" (padded n (p_symbol e)) (line_text l3) else Ok (line_text l3))
                          = Ok (line_text l6) /\ passed V E HObjPad l3 l6).
  { destruct (Nat.ltb_spec 0 n) as [L|L].
    - destruct (pass_one HObjPad (padded n (p_symbol e)) V E l3 (value_clean n e HObjPad Hc) eq_refl eq_refl O3) as (l6 & R6 & P6). now exists l6.
    - exists l3. split; [easy|]. split; [easy|]. split; [easy|]. split; [apply incl_refl|]. intro X. apply I3, I2 in X. apply Hn in X. lia. }
  destruct P6 as (l6 & -> & O6 & F6 & I6 & G6).
  destruct (filled V E l l6) as [-> Hcl]; auto; [|congruence].
  apply no_holes. intros h X. assert (K : hole_class h = CObject) by (apply Hk, I2, I3, I6, X).
  destruct h; try discriminate K; auto 10.
Qed.

Lemma fill_symbol_spec (b : bool) e l : clean_proto e -> line_ok false l -> (forall h, In h (holes l) -> hole_class h = CSymbol) ->
  fill_symbol (line_text l) (if b then sym_type_function e else sym_type_object e) (p_symbol e) = Ok (fill_symbol_of b l e) /\
  clean (fill_symbol_of b l e).
Proof.
  intros Hc Ht Hk. pose proof Hc as (C1 & C2 & C3 & C4 & C5). unfold fill_symbol, fill_symbol_of.
  set (V := symbol_value b e). set (E := fun _ : hole => false).
  destruct (pass_one HSymType (pointer_to b e) V E l (symbol_value_clean b e HSymType Hc) eq_refl eq_refl Ht) as (l2 & R2 & O2 & F2 & I2 & G2).
  change (hole_text HSymType) with ($"%%sym_type%%") in R2.
  assert (T : (if b then sym_type_function e else sym_type_object e) = pointer_to b e).
  { unfold sym_type_function, sym_type_object, pointer_to, pointer_type. destruct b, (ends_with $"*" (p_type e)); reflexivity. }
  rewrite T, R2. cbn [bind].
  destruct (pass_one HSym (p_symbol e) V E l2 C2 eq_refl eq_refl O2) as (l3 & R3 & O3 & F3 & I3 & G3).
  change (hole_text HSym) with ($"%%symbol%%") in R3. rewrite R3.
  destruct (filled V E l l3) as [-> Hcl]; auto; [|congruence].
  apply no_holes. intros h X. assert (K : hole_class h = CSymbol) by (apply Hk, I2, I3, X).
  destruct h; try discriminate K; auto 10.
Qed.

(* ---------------------------------------------------------------- the column width *)

Lemma longest_width v n : width (map p_symbol v) n -> v <> [] -> longest_symbol v = n.
Proof.
  intros [H1 H2] Hv. destruct H2 as (s & Hs & Ls); [now destruct v|]. apply Nat.le_antisymm.
  - clear s Hs Ls Hv. unfold longest_symbol. induction v as [|p v IH]; cbn [fold_right]; [lia|]. apply Nat.max_lub.
    + apply H1. now left.
    + apply IH. intros s Hs. apply H1. now right.
  - apply in_map_iff in Hs as (p & <- & Hp). rewrite <- Ls. clear - Hp. unfold longest_symbol. induction v as [|q v IH]; [easy|]. cbn [fold_right].
    destruct Hp as [->|Hp]; [lia|]. specialize (IH Hp). lia.
Qed.
Lemma width_positive v n : width (map p_symbol v) n -> v <> [] -> Forall clean_proto v -> 0 < n.
Proof.
  intros [H1 _] Hv Hc. destruct v as [|p v]; [easy|]. inversion Hc as [|? ? (_ & _ & _ & _ & Hp) _]; subst.
  specialize (H1 (p_symbol p) (or_introl eq_refl)). destruct (p_symbol p); [easy|]. cbn [length] in H1. lia.
Qed.
Lemma fill_width_irrelevant n m l e : ~ In HFuncPad (holes l) -> ~ In HObjPad (holes l) -> fill_entry n l e = fill_entry m l e.
Proof.
  intros H1 H2. unfold fill_entry. generalize false. induction l as [|[s|h] l IH]; intro b; cbn [fill holes flat_map app] in *; auto.
  - destruct s; [now apply IH|]. f_equal. now apply IH.
  - f_equal; [|apply IH; intuition]. destruct h; cbn [value_of]; auto; exfalso; cbn in *; tauto.
Qed.

(* ---------------------------------------------------------------- one line *)

Lemma texts_app a b : texts (a ++ b) = texts a ++ texts b.
Proof. unfold texts. apply flat_map_app. Qed.
Lemma texts_copies c lineno cs : texts (flat_map (print_copy c lineno) cs) = map (fun s => s ++ [nl]) cs.
Proof.
  induction cs as [|s cs IH]; [easy|]. cbn [flat_map map]. rewrite texts_app, IH. unfold print_copy. now destruct (c_line c).
Qed.

Definition all_protos (c : config) : list proto := c_funcs c ++ c_objs c.

Lemma loop_function c lineno l n : Forall clean_proto (c_funcs c) -> c_funcs c <> [] -> line_ok false l ->
  (forall h, In h (holes l) -> hole_class h = CFunction) -> width (class_names c CFunction) n ->
  replace_function_prototypes c lineno (line_text l) =
  Ok (flat_map (print_copy c lineno) (copies c n CFunction l), length (copies c n CFunction l) * copy_lines c (count_linefeed (line_text l))) /\
  Forall clean (copies c n CFunction l).
Proof.
  intros Hc Hf Ht Hk Hw. unfold replace_function_prototypes, print_all. cbn [copies class_names] in *.
  set (m := if has $"%%func_symbol_pad%%" (line_text l) then longest_symbol (c_funcs c) else 0).
  assert (M : forall e, fill_entry m l e = fill_entry n l e).
  { intro e. unfold m. destruct (has $"%%func_symbol_pad%%" (line_text l)) eqn:Hp; [now rewrite (longest_width _ _ Hw Hf)|].
    apply fill_width_irrelevant.
    - intro X. apply (has_hole false l HFuncPad Ht) in X. change (hole_text HFuncPad) with ($"%%func_symbol_pad%%") in X. congruence.
    - intro X. now apply Hk in X. }
  assert (P : In HFuncPad (holes l) -> 0 < m).
  { intro X. apply (has_hole false l HFuncPad Ht) in X. change (hole_text HFuncPad) with ($"%%func_symbol_pad%%") in X. unfold m. rewrite X.
    rewrite (longest_width _ _ Hw Hf). now apply (width_positive _ _ Hw). }
  assert (A : forall fs, Forall clean_proto fs ->
    mapR (fill_function m (line_text l)) fs = Ok (map (fill_entry n l) fs) /\ Forall clean (map (fill_entry n l) fs)).
  { induction 1 as [|e fs He Hfs IH]; [split; [easy|constructor]|]. cbn [mapR map].
    destruct (fill_function_spec m e l He Ht Hk P) as [-> Hcl]. cbn [bind]. destruct IH as [-> IH]. cbn [bind]. rewrite M in *. split; [easy|now constructor]. }
  destruct (A _ Hc) as [-> Hcl]. cbn [bind]. now split.
Qed.
Lemma loop_object c lineno l n : Forall clean_proto (c_objs c) -> c_objs c <> [] -> line_ok false l ->
  (forall h, In h (holes l) -> hole_class h = CObject) -> width (class_names c CObject) n ->
  replace_object_prototypes c lineno (line_text l) =
  Ok (flat_map (print_copy c lineno) (copies c n CObject l), length (copies c n CObject l) * copy_lines c (count_linefeed (line_text l))) /\
  Forall clean (copies c n CObject l).
Proof.
  intros Hc Hf Ht Hk Hw. unfold replace_object_prototypes, print_all. cbn [copies class_names] in *.
  set (m := if has $"%%obj_symbol_pad%%" (line_text l) then longest_symbol (c_objs c) else 0).
  assert (M : forall e, fill_entry m l e = fill_entry n l e).
  { intro e. unfold m. destruct (has $"%%obj_symbol_pad%%" (line_text l)) eqn:Hp; [now rewrite (longest_width _ _ Hw Hf)|].
    apply fill_width_irrelevant.
    - intro X. now apply Hk in X.
    - intro X. apply (has_hole false l HObjPad Ht) in X. change (hole_text HObjPad) with ($"%%obj_symbol_pad%%") in X. congruence. }
  assert (P : In HObjPad (holes l) -> 0 < m).
  { intro X. apply (has_hole false l HObjPad Ht) in X. change (hole_text HObjPad) with ($"%%obj_symbol_pad%%") in X. unfold m. rewrite X.
    rewrite (longest_width _ _ Hw Hf). now apply (width_positive _ _ Hw). }
  assert (A : forall fs, Forall clean_proto fs ->
    mapR (fill_object m (line_text l)) fs = Ok (map (fill_entry n l) fs) /\ Forall clean (map (fill_entry n l) fs)).
  { induction 1 as [|e fs He Hfs IH]; [split; [easy|constructor]|]. cbn [mapR map].
    destruct (fill_object_spec m e l He Ht Hk P) as [-> Hcl]. cbn [bind]. destruct IH as [-> IH]. cbn [bind]. rewrite M in *. split; [easy|now constructor]. }
  destruct (A _ Hc) as [-> Hcl]. cbn [bind]. now split.
Qed.
Lemma loop_symbol c lineno l n : Forall clean_proto (c_funcs c) -> Forall clean_proto (c_objs c) -> line_ok false l ->
  (forall h, In h (holes l) -> hole_class h = CSymbol) ->
  replace_symbol_names c lineno (line_text l) =
  Ok (flat_map (print_copy c lineno) (copies c n CSymbol l), length (copies c n CSymbol l) * copy_lines c (count_linefeed (line_text l))) /\
  Forall clean (copies c n CSymbol l).
Proof.
  intros Hf Ho Ht Hk. unfold replace_symbol_names, print_all. cbn [copies].
  assert (A : forall (b : bool) fs, Forall clean_proto fs ->
    mapR (fun e => fill_symbol (line_text l) (if b then sym_type_function e else sym_type_object e) (p_symbol e)) fs =
    Ok (map (fill_symbol_of b l) fs) /\ Forall clean (map (fill_symbol_of b l) fs)).
  { intros b fs H. induction H as [|e fs He Hfs IH]; [split; [easy|constructor]|]. cbn [mapR map].
    destruct (fill_symbol_spec b e l He Ht Hk) as [-> Hcl]. cbn [bind]. destruct IH as [-> IH]. cbn [bind]. split; [easy|now constructor]. }
  destruct (A true _ Hf) as [A1 C1]. destruct (A false _ Ho) as [A2 C2]. cbn [bind]. rewrite A1. cbn [bind]. rewrite A2. cbn [bind].
  split; [easy|]. now apply Forall_app.
Qed.

Lemma str_eqb_spec a b : reflect (a = b) (str_eqb a b).
Proof. destruct (str_eqb a b) eqn:E; constructor; [now apply str_eqb_eq|]. intro X. apply str_eqb_eq in X. congruence. Qed.
Lemma marker_check data m : (~ is_marker data -> check_skip_keyword data m = None) /\
  (forall k, c_str data = marker_text k -> check_skip_keyword data m = Some (negb (opens k m))).
Proof.
  unfold check_skip_keyword. split.
  - intro H.
    destruct (str_eqb_spec (c_str data) $"%PARAM_SKIP_REMOVE_BEGIN%") as [E|_]; [exfalso; apply H; now exists RemoveBegin|].
    destruct (str_eqb_spec (c_str data) $"%PARAM_SKIP_USE_BEGIN%") as [E|_]; [exfalso; apply H; now exists UseBegin|].
    destruct (str_eqb_spec (c_str data) $"%PARAM_SKIP_END%") as [E|_]; [exfalso; apply H; now exists SectionEnd|]. easy.
  - intros k ->. destruct k, m; reflexivity.
Qed.

Lemma rename_empty p : replace_prefixes p [] = [].
Proof. unfold replace_prefixes. reflexivity. Qed.

Lemma has_pct t l : line_ok t l -> holes l <> [] -> has $"%%" (line_text l) = true.
Proof.
  intros Ht H. destruct (holes l) as [|h r] eqn:E; [easy|]. assert (X : In h (holes l)) by (rewrite E; now left).
  apply (hole_occurs t l h Ht) in X. destruct X as (a & b & ->). apply has_occurs. exists a, (hole_name h ++ $"%%" ++ b).
  unfold hole_text. now rewrite <- !app_assoc.
Qed.

Lemma plain_line c lineno e : ~ is_marker (e_data e) -> (forall h, ~ occurs (hole_text h) (line_data c e)) ->
  substitute_line c lineno false e = Ok ([WText (line_data c e ++ [nl])], S (count_linefeed (line_data c e)), false).
Proof.
  intros Hm Hh.
  unfold substitute_line. fold (line_data c e). destruct (e_data e) as [|a d] eqn:Ed.
  - assert (Hd : line_data c e = []). { unfold line_data. rewrite Ed. destruct (str_eqb _ _); [easy|apply rename_empty]. }
      now rewrite Hd.
  - assert (Ck : (if e_kw e then check_skip_keyword (a :: d) (c_param c) else None) = None).
      { destruct (e_kw e); [|easy]. now apply marker_check. }
      rewrite Ck. rewrite <- Ed. fold (line_data c e).
      assert (N : forall k, find_keyword (class_keywords k) (line_data c e) = false).
      { intro k. apply find_keyword_false. intros h _. apply Hh. }
      pose proof (N CFunction) as N1. pose proof (N CObject) as N2. pose proof (N CSymbol) as N3. cbn [class_keywords] in *.
      rewrite N1, N2, N3. replace (count_linefeed (line_data c e) + 1) with (S (count_linefeed (line_data c e))) by lia.
      now destruct (e_kw e && has $"%%" (line_data c e)).
Qed.
Lemma line_expands c lineno e ts : Forall clean_proto (c_funcs c) -> Forall clean_proto (c_objs c) -> expands c e ts ->
  exists ws k, substitute_line c lineno false e = Ok (ws, k, false) /\ texts ws = map (fun s => s ++ [nl]) ts /\
    ((ts = [line_data c e] /\ ws = [WText (line_data c e ++ [nl])] /\ k = S (count_linefeed (line_data c e))) \/
     (ts <> [] /\ ws = flat_map (print_copy c lineno) ts /\ k = length ts * copy_lines c (count_linefeed (line_data c e))) \/
     (ts = [])).
Proof.
  intros Hf Ho H. destruct H as [Hm Hh|l k n Hm Hkw El Ht Hne Hk Hw].
  - exists [WText (line_data c e ++ [nl])], (S (count_linefeed (line_data c e))). split; [|split; [easy|now left]].
    now apply plain_line.
  - assert (Nd : e_data e <> []).
    { intro Ed. assert (Hd : line_data c e = []). { unfold line_data. rewrite Ed. destruct (str_eqb _ _); [easy|apply rename_empty]. }
      rewrite El in Hd. pose proof (has_pct false l Ht Hne) as P. rewrite Hd in P. discriminate. }
    unfold substitute_line. destruct (e_data e) as [|a d] eqn:Ed; [easy|]. rewrite Hkw.
    rewrite (proj1 (marker_check (a :: d) (c_param c)) Hm). rewrite <- Ed. fold (line_data c e). rewrite El.
    rewrite (has_pct false l Ht Hne). cbn [andb].
    assert (F : forall k', find_keyword (class_keywords k') (line_text l) = match k, k' with CFunction, CFunction | CObject, CObject | CSymbol, CSymbol => true | _, _ => false end).
    { assert (Fk : find_keyword (class_keywords k) (line_text l) = true).
      { apply find_keyword_true. destruct (holes l) as [|h r] eqn:Eh; [easy|]. exists h. split; [apply Hk; now left|]. apply (hole_occurs false l h Ht). rewrite Eh. now left. }
      assert (Fo : forall k', k' <> k -> find_keyword (class_keywords k') (line_text l) = false).
      { intros k' D. apply find_keyword_false. intros h Hh X. apply (hole_occurs false l h Ht) in X. apply Hk in X. congruence. }
      intro k'. destruct k, k'; try exact Fk; apply Fo; discriminate. }
    pose proof (F CFunction) as N1. pose proof (F CObject) as N2. pose proof (F CSymbol) as N3. cbn [class_keywords] in *.
    rewrite N1, N2, N3. clear N1 N2 N3. destruct k.
    + destruct (c_funcs c) as [|f0 fs] eqn:Ef.
      * exists (if c_line c then [WLine (lineno + count_linefeed (line_text l))] else []), (count_linefeed (line_text l)). split; [easy|].
        assert (K : copies c n CFunction l = []) by (cbn [copies]; now rewrite Ef). rewrite K. split; [now destruct (c_line c)|auto].
      * rewrite <- Ef in *. destruct (loop_function c lineno l n Hf) as [-> Hcl]; auto; [congruence|]. cbn [bind fst snd]. do 2 eexists. split; [reflexivity|].
        split; [apply texts_copies|]. right. left. split; [|easy]. cbn [copies]. now rewrite Ef.
    + destruct (c_objs c) as [|f0 fs] eqn:Ef.
      * exists (if c_line c then [WLine (lineno + count_linefeed (line_text l))] else []), (count_linefeed (line_text l)). split; [easy|].
        assert (K : copies c n CObject l = []) by (cbn [copies]; now rewrite Ef). rewrite K. split; [now destruct (c_line c)|auto].
      * rewrite <- Ef in *. destruct (loop_object c lineno l n Ho) as [-> Hcl]; auto; [congruence|]. cbn [bind fst snd]. do 2 eexists. split; [reflexivity|].
        split; [apply texts_copies|]. right. left. split; [|easy]. cbn [copies]. now rewrite Ef.
    + destruct (loop_symbol c lineno l n Hf Ho Ht Hk) as [-> Hcl]. cbn [bind fst snd]. do 2 eexists. split; [reflexivity|].
      split; [apply texts_copies|]. destruct (copies c n CSymbol l) eqn:Ec; [auto|]. right. left. now split.
Qed.

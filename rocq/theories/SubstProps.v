(** Whole templates: expansion, sections, line numbers. *)
From Coq Require Import Ascii String List Bool Arith Lia.
From Verif Require Import Str StrFacts NumFacts SpecFormat FormatFacts Parse ParamNames Prefix Substitute SpecSubstitute SubstFacts SubstFacts2.
Import ListNotations.

(* ---------------------------------------------------------------- counting line feeds *)

Lemma count_app a b : count_linefeed (a ++ b) = count_linefeed a + count_linefeed b.
Proof. unfold count_linefeed. now rewrite filter_app, app_length. Qed.
Lemma count_none s : ~ In nl s -> count_linefeed s = 0.
Proof.
  unfold count_linefeed. induction s as [|c s IH]; [easy|]. intro H. cbn [filter]. destruct (Ascii.eqb_spec nl c) as [<-|N].
  - exfalso. apply H. now left.
  - apply IH. intro X. apply H. now right.
Qed.
Lemma count_nl : count_linefeed [nl] = 1.
Proof. reflexivity. Qed.

Lemma hole_text_count h : count_linefeed (hole_text h) = 0.
Proof. destruct h; reflexivity. Qed.
Lemma fill_count (V : hole -> str) (E : hole -> bool) l : (forall h, In h (holes l) -> count_linefeed (V h) = 0) -> forall b,
  count_linefeed (fill V E b l) = count_linefeed (line_text l).
Proof.
  induction l as [|[s|h] l IH]; intros H b; cbn [fill]; [easy| |].
  - rewrite line_text_cons, count_app. cbn [part_text]. destruct s as [|c s]; [now apply IH|]. rewrite count_app, IH by exact H. f_equal.
    destruct (b && Ascii.eqb c sp) eqn:Eb; [|easy]. apply andb_true_iff in Eb as [_ Eb]. apply Ascii.eqb_eq in Eb. subst c. reflexivity.
  - rewrite line_text_cons, !count_app. cbn [part_text]. rewrite hole_text_count, IH by (intros g Hg; apply H; now right).
    rewrite (H h); [easy|now left].
Qed.
Lemma blanks_count n : count_linefeed (blanks n) = 0.
Proof. apply count_none. intro H. apply repeat_spec in H. discriminate. Qed.
Lemma value_count n e h : one_line_proto e -> count_linefeed (value_of n e h) = 0.
Proof.
  intros (H1 & H2 & H3 & H4). destruct h; cbn [value_of]; try (now apply count_none).
  - now destruct (void_type e).
  - now rewrite count_app, blanks_count, (count_none _ H2).
  - now rewrite count_app, blanks_count, (count_none _ H2).
Qed.
Lemma symbol_value_count b e h : one_line_proto e -> count_linefeed (symbol_value b e h) = 0.
Proof.
  intro H. destruct h; try now apply value_count. destruct H as (H1 & H2 & H3 & H4). cbn [symbol_value]. unfold pointer_to.
  destruct (pointer_type e), b; rewrite !count_app, (count_none _ H1); rewrite ?(count_none _ H3); reflexivity.
Qed.
Lemma copies_count c n k l : Forall one_line_proto (c_funcs c) -> Forall one_line_proto (c_objs c) ->
  Forall (fun t => count_linefeed t = count_linefeed (line_text l)) (copies c n k l).
Proof.
  intros Hf Ho. rewrite Forall_forall in Hf, Ho |- *. intros t Ht.
  destruct k; cbn [copies] in Ht; [| |apply in_app_or in Ht as [Ht|Ht]]; apply in_map_iff in Ht as (e & <- & He);
    apply fill_count; intros h _; (apply value_count || apply symbol_value_count); auto.
Qed.

(* ---------------------------------------------------------------- no placeholder left *)

Lemma copies_clean c n k l : Forall clean_proto (c_funcs c) -> Forall clean_proto (c_objs c) -> line_ok false l ->
  (forall h, In h (holes l) -> hole_class h = k) -> width (class_names c k) n -> Forall clean (copies c n k l).
Proof.
  intros Hf Ho Ht Hk Hw. destruct k; cbn [copies class_names] in *.
  - apply Forall_map. pose proof (width_positive _ _ Hw) as P. rewrite Forall_forall in *. intros e He.
    apply (fill_function_spec n e l); auto. intros _. apply P; [intro X; now rewrite X in He|assumption].
  - apply Forall_map. pose proof (width_positive _ _ Hw) as P. rewrite Forall_forall in *. intros e He.
    apply (fill_object_spec n e l); auto. intros _. apply P; [intro X; now rewrite X in He|assumption].
  - apply Forall_app. split; apply Forall_map; rewrite Forall_forall in *; intros e He.
    + apply (fill_symbol_spec true e l); auto.
    + apply (fill_symbol_spec false e l); auto.
Qed.
Lemma clean_no_hole s h : clean s -> ~ occurs (hole_text h) s.
Proof. intros H (a & b & ->). apply H. apply in_or_app. right. apply in_or_app. left. now left. Qed.
Lemma expanded_no_hole c e ts : Forall clean_proto (c_funcs c) -> Forall clean_proto (c_objs c) -> expands c e ts ->
  Forall (fun t => forall h, ~ occurs (hole_text h) t) ts.
Proof.
  intros Hf Ho H. destruct H as [Hm Hh|l k n Hm Hkw El Ht Hne Hk Hw]; [now repeat constructor|].
  eapply Forall_impl; [|now apply copies_clean]. intros t Hc h. now apply clean_no_hole.
Qed.

(* ---------------------------------------------------------------- mixing classes *)

Lemma mixed_line c lineno e h1 h2 : ~ is_marker (e_data e) -> e_kw e = true -> occurs (hole_text h1) (line_data c e) ->
  occurs (hole_text h2) (line_data c e) -> hole_class h1 <> hole_class h2 -> exists msg, substitute_line c lineno false e = Err msg.
Proof.
  intros Hm Hkw H1 H2 D. unfold substitute_line. destruct (e_data e) as [|a d] eqn:Ed.
  - exfalso. assert (Hd : line_data c e = []). { unfold line_data. rewrite Ed. destruct (str_eqb _ _); [easy|apply rename_empty]. }
    rewrite Hd in H1. destruct H1 as (x & y & H1). destruct x; discriminate.
  - rewrite Hkw, (proj1 (marker_check (a :: d) (c_param c)) Hm). rewrite <- Ed. fold (line_data c e).
    assert (P : has $"%%" (line_data c e) = true).
    { apply has_occurs. destruct H1 as (x & y & ->). exists x, (hole_name h1 ++ $"%%" ++ y). unfold hole_text. now rewrite <- !app_assoc. }
    rewrite P. cbn [andb].
    assert (F1 : find_keyword (class_keywords (hole_class h1)) (line_data c e) = true) by (apply find_keyword_true; eauto).
    assert (F2 : find_keyword (class_keywords (hole_class h2)) (line_data c e) = true) by (apply find_keyword_true; eauto).
    destruct (hole_class h1), (hole_class h2); try congruence; cbn [class_keywords] in F1, F2; rewrite F1, F2;
      repeat match goal with |- context [find_keyword ?l ?s] => destruct (find_keyword l s) end; eauto.
Qed.

(* ---------------------------------------------------------------- whole templates *)

Lemma items_line e l : line_items_ok (Line e :: l) -> ~ is_marker (e_data e) /\ e_count e <> 0 /\ line_items_ok l.
Proof. intro H. inversion H as [|? ? H1 H2]. cbv beta iota in H1. tauto. Qed.
Lemma items_mark m l : line_items_ok (Mark m :: l) -> line_items_ok l.
Proof. intro H. now inversion H. Qed.

Lemma hidden_line c lineno e : ~ is_marker (e_data e) -> substitute_line c lineno true e = Ok ([], 0, true).
Proof.
  intro Hm. unfold substitute_line. destruct (e_data e) as [|a d] eqn:Ed; [easy|].
  destruct (e_kw e); [|easy]. now rewrite (proj1 (marker_check (a :: d) (c_param c)) Hm).
Qed.
Lemma mark_line c lineno skip m : substitute_line c lineno skip (item_entry (Mark m)) =
  Ok (if opens m (c_param c) && c_line c then ([WLine (lineno + 1)], 1, negb (opens m (c_param c))) else ([], 0, negb (opens m (c_param c)))).
Proof.
  unfold substitute_line. cbn [item_entry e_data e_kw].
  pose proof (proj2 (marker_check (marker_text m) (c_param c)) m) as K.
  assert (Q : c_str (marker_text m) = marker_text m) by (destruct m; reflexivity). specialize (K Q).
  destruct (marker_text m) as [|a d] eqn:Em; [destruct m; discriminate|]. rewrite K. rewrite negb_involutive.
  now destruct (opens m (c_param c) && c_line c).
Qed.

Lemma line_skip c lineno skip e w n sk : ~ is_marker (e_data e) -> substitute_line c lineno skip e = Ok (w, n, sk) -> sk = skip.
Proof.
  intros Hm R. unfold substitute_line in R. destruct (e_data e) as [|a d] eqn:Ed.
  - destruct skip; now injection R as <- <- <-.
  - assert (Ck : (if e_kw e then check_skip_keyword (a :: d) (c_param c) else None) = None).
    { destruct (e_kw e); [|easy]. now apply marker_check. }
    rewrite Ck in R. rewrite <- Ed in R. fold (line_data c e) in R. destruct skip; [now injection R as <- <- <-|].
    repeat match goal with
    | H : context [if ?b then _ else _] |- _ => destruct b; try discriminate
    | H : Ok _ = Ok _ |- _ => injection H as <- <- <-; reflexivity
    | H : context [match ?l with [] => _ | _ :: _ => _ end] |- _ => destruct l
    | H : bind ?r _ = Ok _ |- _ => destruct r; cbn [bind] in H; try discriminate
    end.
Qed.

Section Run.
  Variable c : config.
  Hypotheses (Hf : Forall clean_proto (c_funcs c)) (Ho : Forall clean_proto (c_objs c)).
  Let expands_at (p : nat * entry) (ts : list str) : Prop := expands c (snd p) ts.

  Lemma run_texts : forall items lineno shown tss, line_items_ok items ->
    Forall2 expands_at (visible (c_param c) shown lineno items) tss ->
    exists ws k skip, substitute_entries c lineno (negb shown) (map item_entry items ++ [terminator]) = Ok (ws, k, skip) /\
      texts ws = map (fun t => t ++ [nl]) (concat tss).
  Proof.
    induction items as [|[e|m] items IH]; intros lineno shown tss Hi Hv; cbn [visible map app item_entry substitute_entries] in *.
    - inversion Hv; subst. cbn [terminator e_count Nat.eqb]. exists [], 0, (negb shown). now split.
    - apply items_line in Hi as (Hm & Hz & Hi'). apply Nat.eqb_neq in Hz. rewrite Hz. destruct shown; cbn [negb app] in *.
      + inversion Hv as [|? ts ? tss' He Hv']; subst. destruct (line_expands c lineno e ts Hf Ho He) as (ws & k & -> & T & _). cbn [bind].
        destruct (IH (lineno + e_count e) true tss' Hi' Hv') as (ws' & k' & skip & R & T'). cbn [negb] in R. rewrite R. cbn [bind].
        exists (ws ++ ws'), (k + k'), skip. split; [easy|]. rewrite texts_app, T, T'. cbn [concat]. now rewrite map_app.
      + rewrite (hidden_line c lineno e Hm). cbn [bind]. destruct (IH (lineno + e_count e) false tss Hi' Hv) as (ws' & k' & skip & R & T').
        cbn [negb] in R. rewrite R. cbn [bind]. exists ws', k', skip. now split.
    - apply items_mark in Hi as Hi'. cbn [e_count Nat.eqb]. fold (item_entry (Mark m)). rewrite mark_line.
      destruct (IH (lineno + 1) (opens m (c_param c)) tss Hi' Hv) as (ws' & k' & skip & R & T').
      destruct (opens m (c_param c) && c_line c); cbn [bind]; rewrite R; cbn [bind].
      + exists (WLine (lineno + 1) :: ws'), (S k'), skip. now split.
      + exists ws', k', skip. now split.
  Qed.

  Lemma run_skip : forall items lineno shown ws k skip, line_items_ok items ->
    substitute_entries c lineno (negb shown) (map item_entry items ++ [terminator]) = Ok (ws, k, skip) ->
    skip = negb (shown_after (c_param c) shown items).
  Proof.
    induction items as [|[e|m] items IH]; intros lineno shown ws k skip Hi R; cbn [map app item_entry substitute_entries shown_after] in *.
    - cbn [terminator e_count Nat.eqb] in R. now injection R as <- <- <-.
    - apply items_line in Hi as (Hm & Hz & Hi'). apply Nat.eqb_neq in Hz. rewrite Hz in R.
      destruct (substitute_line c lineno (negb shown) e) as [[[w n] sk1]| | |] eqn:E1; try discriminate. cbn [bind] in R.
      destruct (substitute_entries c (lineno + e_count e) sk1 (map item_entry items ++ [terminator])) as [[[w' n'] sk2]| | |] eqn:E;
        try discriminate. cbn [bind] in R. injection R as <- <- <-.
      apply line_skip in E1; [|easy]. subst sk1. now apply IH in E.
    - apply items_mark in Hi as Hi'. cbn [e_count Nat.eqb] in R. fold (item_entry (Mark m)) in R. rewrite mark_line in R.
      destruct (substitute_entries c (lineno + 1) (negb (opens m (c_param c))) (map item_entry items ++ [terminator])) as [[[w' n'] sk2]| | |] eqn:E;
        destruct (opens m (c_param c) && c_line c); cbn [bind] in R; rewrite E in R; cbn [bind] in R; try discriminate;
        injection R as <- <- <-; now apply IH in E.
  Qed.

  Lemma start_kept d items : c_line c = true \/ starts_with $"#line" (c_str (e_data d)) = true -> 
    template_start c (d :: items) = if c_line c then d :: items else items.
  Proof. intro H. cbn [template_start]. destruct (c_line c); [easy|]. cbn [negb andb]. destruct H as [H|H]; [discriminate|]. now rewrite H. Qed.

  Lemma templates_texts : forall tpls shown tss, Forall template_ok tpls ->
    Forall2 (expands c) (visible_all c shown tpls) tss ->
    exists ws k, substitute_templates c (negb shown) (map template_entries tpls) = Ok (ws, k) /\
      texts ws = map (fun t => t ++ [nl]) (concat tss).
  Proof.
    induction tpls as [|[d items] tpls IH]; intros shown tss Hok Hv; cbn [visible_all map substitute_templates] in *.
    - inversion Hv; subst. exists [], 0. now split.
    - inversion Hok as [|? ? [Hd Hi] Hok']; subst. cbn [fst snd] in *. unfold template_entries at 1. cbn [fst snd].
      rewrite start_kept by (right; apply Hd). 
      replace (if c_line c then d :: map item_entry items ++ [terminator] else map item_entry items ++ [terminator])
        with (map item_entry (if c_line c then Line d :: items else items) ++ [terminator]) by (now destruct (c_line c)).
      apply Forall2_app_inv_l in Hv as (t1 & t2 & H1 & H2 & ->).
      set (its := if c_line c then Line d :: items else items) in *.
      assert (Hi' : line_items_ok its). { unfold its. destruct (c_line c); [constructor; [split; apply Hd|]|]; exact Hi. }
      destruct (run_texts its 0 shown t1 Hi') as (ws & k & skip & R & T).
      { clear - H1. revert t1 H1. induction (visible (c_param c) shown 0 its) as [|[n e] v IHv]; intros t1 H1; inversion H1; subst; constructor; auto. }
      rewrite R. cbn [bind]. pose proof (run_skip its 0 shown ws k skip Hi' R) as Sk. subst skip.
      destruct (IH _ t2 Hok' H2) as (ws' & k' & R' & T'). rewrite R'. cbn [bind fst snd]. exists (ws ++ ws'), (k + k'). split; [easy|].
      rewrite texts_app, T, T', concat_app, map_app. reflexivity.
  Qed.

  Lemma custom_run : forall items lineno sk ws k skip, line_items_ok items ->
    substitute_entries c lineno sk (map item_entry items ++ [terminator]) = Ok (ws, k, skip) ->
    custom_entries c lineno sk (map item_entry items) = Ok ws.
  Proof.
    induction items as [|i items IH]; intros lineno sk ws k skip Hi R; cbn [map app substitute_entries custom_entries] in *.
    - cbn in R. now injection R as <- <- <-.
    - assert (Hz : Nat.eqb (e_count (item_entry i)) 0 = false).
      { destruct i; [|easy]. apply items_line in Hi as (_ & Hz & _). now apply Nat.eqb_neq. }
      rewrite Hz in R. destruct (substitute_line c lineno sk (item_entry i)) as [[[w n] sk1]| | |]; try discriminate. cbn [bind] in *.
      destruct (substitute_entries c (lineno + e_count (item_entry i)) sk1 (map item_entry items ++ [terminator])) as [[[w' n'] sk2]| | |] eqn:E;
        try discriminate. cbn [bind] in R. injection R as <- <- <-. assert (Hi' : line_items_ok items) by (now inversion Hi).
      now rewrite (IH _ _ _ _ _ Hi' E).
  Qed.
  Lemma custom_texts : forall items lineno shown tss, line_items_ok items ->
    Forall2 expands_at (visible (c_param c) shown lineno items) tss ->
    exists ws, custom_entries c lineno (negb shown) (map item_entry items) = Ok ws /\ texts ws = map (fun t => t ++ [nl]) (concat tss).
  Proof.
    intros items lineno shown tss Hi Hv. destruct (run_texts items lineno shown tss Hi Hv) as (ws & k & skip & R & T).
    exists ws. split; [|easy]. now apply (custom_run _ _ _ _ _ _ Hi R).
  Qed.

  (* -------------------------------------------------------------- line numbers *)

  Hypotheses (Of : Forall one_line_proto (c_funcs c)) (Oo : Forall one_line_proto (c_objs c)).

  Lemma expanded_count e ts : expands c e ts -> Forall (fun t => count_linefeed t = count_linefeed (line_data c e)) ts.
  Proof.
    intro H. destruct H as [Hm Hh|l k n Hm Hkw El Ht Hne Hk Hw]; [now repeat constructor|]. rewrite El. now apply copies_count.
  Qed.

  Lemma numbered_copies L pos ts rest n : c_line c = true -> ts <> [] -> Forall (fun t => count_linefeed t = n) ts ->
    numbered pos (flat_map (print_copy c L) ts ++ rest) = map (fun t => (L, t ++ [nl])) ts ++ numbered (L + n + 1) rest.
  Proof.
    intros Hl Hne Hc. revert pos Hne. induction Hc as [|t ts Ht Hc IH]; intros pos Hne; [easy|]. cbn [flat_map map app].
    unfold print_copy at 1. rewrite Hl. cbn [app numbered]. f_equal. rewrite count_app, Ht, count_nl. destruct ts as [|t' ts'].
    - cbn [flat_map app map]. f_equal. lia.
    - apply IH. discriminate.
  Qed.

  Lemma run_numbers : c_line c = true -> forall items lineno shown tss, line_items_ok items ->
    Forall2 expands_at (visible (c_param c) shown lineno items) tss -> Forall (fun ts => ts <> []) tss ->
    Forall (fun p => counted c (snd p)) (visible (c_param c) shown lineno items) ->
    exists ws k skip, substitute_entries c lineno (negb shown) (map item_entry items ++ [terminator]) = Ok (ws, k, skip) /\
      (forall pos, (shown = true -> pos = lineno) -> numbered pos ws = expected (visible (c_param c) shown lineno items) tss).
  Proof.
    intro Hl. induction items as [|[e|m] items IH]; intros lineno shown tss Hi Hv Hn Hc; cbn [visible map app item_entry substitute_entries] in *.
    - inversion Hv; subst. cbn [terminator e_count Nat.eqb]. exists [], 0, (negb shown). now split.
    - apply items_line in Hi as (Hm & Hz & Hi'). apply Nat.eqb_neq in Hz. rewrite Hz. destruct shown; cbn [negb app] in *.
      + inversion Hv as [|? ts ? tss' He Hv']; subst. inversion Hn as [|? ? Ne Hn']; subst. inversion Hc as [|? ? Ce Hc']; subst.
        cbn [snd] in Ce. unfold expands_at in He. cbn [snd] in He.
        destruct (line_expands c lineno e ts Hf Ho He) as (ws & k & -> & _ & D). cbn [bind].
        destruct (IH (lineno + e_count e) true tss' Hi' Hv' Hn' Hc') as (ws' & k' & skip & R & N). cbn [negb] in R. rewrite R. cbn [bind].
        exists (ws ++ ws'), (k + k'), skip. split; [easy|]. intros pos Hp. specialize (Hp eq_refl). subst pos.
        unfold expected. cbn [combine flat_map fst snd]. fold (expected (visible (c_param c) true (lineno + e_count e) items) tss').
        unfold counted in Ce. destruct D as [(-> & -> & _)|[(_ & -> & _)|D]]; [| |now rewrite D in Ne].
        * cbn [app numbered map]. f_equal. apply N. intros _. rewrite count_app, count_nl. lia.
        * rewrite (numbered_copies lineno lineno ts ws' (count_linefeed (line_data c e)) Hl Ne (expanded_count e ts He)). f_equal.
          apply N. intros _. lia.
      + rewrite (hidden_line c lineno e Hm). cbn [bind]. destruct (IH (lineno + e_count e) false tss Hi' Hv Hn Hc) as (ws' & k' & skip & R & N).
        cbn [negb] in R. rewrite R. cbn [bind]. exists ws', k', skip. split; [easy|]. intros pos _. now apply N.
    - apply items_mark in Hi as Hi'. cbn [e_count Nat.eqb]. fold (item_entry (Mark m)). rewrite mark_line.
      destruct (IH (lineno + 1) (opens m (c_param c)) tss Hi' Hv Hn Hc) as (ws' & k' & skip & R & N). rewrite Hl.
      destruct (opens m (c_param c)) eqn:Om; cbn [andb bind negb] in *; rewrite R; cbn [bind].
      + exists (WLine (lineno + 1) :: ws'), (S k'), skip. split; [easy|]. intros pos _. cbn [numbered]. now apply N.
      + exists ws', k', skip. split; [easy|]. intros pos _. now apply N.
  Qed.

  Lemma output_app a b : output (a ++ b) = output a ++ output b.
  Proof. unfold output. now rewrite map_app, concat_app. Qed.
  Lemma line_count n : count_linefeed (write_text (WLine n)) = 1.
  Proof.
    cbn [write_text]. rewrite !count_app, count_nl. rewrite (count_none (nat_to_string n)); [reflexivity|].
    intro X. destruct (to_string_value (BinNat.N.of_nat n)) as (_ & _ & D). rewrite Forall_forall in D. apply D in X. discriminate.
  Qed.
  Lemma output_copies L ts n : Forall (fun t => count_linefeed t = n) ts ->
    count_linefeed (output (flat_map (print_copy c L) ts)) = length ts * copy_lines c n.
  Proof.
    intro H. induction H as [|t ts Ht H IH]; [easy|]. cbn [flat_map length]. rewrite output_app, count_app, IH.
    assert (E : count_linefeed (output (print_copy c L t)) = copy_lines c n); [|lia].
    unfold print_copy, copy_lines. destruct (c_line c); unfold output; cbn [app map concat].
    - rewrite !count_app, line_count. cbn [write_text]. rewrite count_app, Ht, count_nl. change (count_linefeed []) with 0. lia.
    - cbn [write_text]. rewrite !count_app, Ht, count_nl. change (count_linefeed []) with 0. lia.
  Qed.

  Lemma run_counts : forall items lineno shown tss, line_items_ok items ->
    Forall2 expands_at (visible (c_param c) shown lineno items) tss -> Forall (fun ts => ts <> []) tss ->
    exists ws k skip, substitute_entries c lineno (negb shown) (map item_entry items ++ [terminator]) = Ok (ws, k, skip) /\
      k = count_linefeed (output ws).
  Proof.
    induction items as [|[e|m] items IH]; intros lineno shown tss Hi Hv Hn; cbn [visible map app item_entry substitute_entries] in *.
    - inversion Hv; subst. cbn [terminator e_count Nat.eqb]. exists [], 0, (negb shown). now split.
    - apply items_line in Hi as (Hm & Hz & Hi'). apply Nat.eqb_neq in Hz. rewrite Hz. destruct shown; cbn [negb app] in *.
      + inversion Hv as [|? ts ? tss' He Hv']; subst. inversion Hn as [|? ? Ne Hn']; subst. unfold expands_at in He. cbn [snd] in He.
        destruct (line_expands c lineno e ts Hf Ho He) as (ws & k & -> & _ & D). cbn [bind].
        destruct (IH (lineno + e_count e) true tss' Hi' Hv' Hn') as (ws' & k' & skip & R & ->). cbn [negb] in R. rewrite R. cbn [bind].
        do 3 eexists. split; [reflexivity|]. rewrite output_app, count_app. f_equal.
        destruct D as [(-> & -> & ->)|[(_ & -> & ->)|D]]; [| |now rewrite D in Ne].
        * unfold output. cbn [map concat write_text]. rewrite !count_app, count_nl. change (count_linefeed []) with 0. lia.
        * symmetry. apply output_copies. now apply expanded_count.
      + rewrite (hidden_line c lineno e Hm). cbn [bind]. destruct (IH (lineno + e_count e) false tss Hi' Hv Hn) as (ws' & k' & skip & R & N).
        cbn [negb] in R. rewrite R. cbn [bind]. exists ws', k', skip. now split.
    - apply items_mark in Hi as Hi'. cbn [e_count Nat.eqb]. fold (item_entry (Mark m)). rewrite mark_line.
      destruct (IH (lineno + 1) (opens m (c_param c)) tss Hi' Hv Hn) as (ws' & k' & skip & R & N).
      destruct (opens m (c_param c) && c_line c); cbn [bind]; rewrite R; cbn [bind].
      + do 3 eexists. split; [reflexivity|]. change (WLine (lineno + 1) :: ws') with ([WLine (lineno + 1)] ++ ws'). rewrite output_app, count_app.
        unfold output at 1. cbn [map concat app]. rewrite app_nil_r, line_count. lia.
      + exists ws', k', skip. now split.
  Qed.

  (** a built-in template: the directive, then the lines from number 1 on *)
  Lemma builtin_numbers d items tss : c_line c = true -> template_ok (d, items) -> e_count d = 1 -> all_protos c <> [] ->
    (forall h, ~ occurs (hole_text h) (line_data c d)) ->
    Forall2 expands_at (visible (c_param c) true 1 items) tss -> Forall (fun ts => ts <> []) tss ->
    Forall (fun p => counted c (snd p)) (visible (c_param c) true 1 items) ->
    exists ws k, substitute c [template_entries (d, items)] = Ok (WText (line_data c d ++ [nl]) :: ws, k) /\
      numbered 1 ws = expected (visible (c_param c) true 1 items) tss.
  Proof.
    intros Hl [Hd Hi] Hd1 Hp Hh Hv Hn Hc. cbn [fst snd] in *. unfold substitute, template_entries. cbn [fst snd].
    assert (E : match c_funcs c, c_objs c with [], [] => Err $"no function or object prototypes"
      | _, _ => substitute_templates c false [d :: map item_entry items ++ [terminator]] end
      = substitute_templates c false [d :: map item_entry items ++ [terminator]]).
    { unfold all_protos in Hp. destruct (c_funcs c), (c_objs c); easy. }
    rewrite E. cbn [substitute_templates]. rewrite start_kept by (now left). rewrite Hl. cbn [substitute_entries]. rewrite Hd1. cbn [Nat.eqb].
    rewrite (plain_line c 0 d) by (easy || apply Hd). cbn [bind].
    destruct (run_numbers Hl items 1 true tss Hi Hv Hn Hc) as (ws & k & skip & R & N). cbn [negb Nat.add] in *. rewrite R. cbn [bind fst snd].
    rewrite app_nil_r. cbn [app]. do 2 eexists. split; [reflexivity|]. now apply N.
  Qed.
  (** a custom template *)
  Lemma custom_numbers name items tss : c_line c = true -> line_items_ok items ->
    Forall2 expands_at (visible (c_param c) true 1 items) tss -> Forall (fun ts => ts <> []) tss ->
    Forall (fun p => counted c (snd p)) (visible (c_param c) true 1 items) ->
    exists ws, process_custom_template c name (map item_entry items) =
        Ok (WText ($"#line 1 " ++ [dquote] ++ name ++ [dquote] ++ [nl]) :: ws) /\
      numbered 1 ws = expected (visible (c_param c) true 1 items) tss.
  Proof.
    intros Hl Hi Hv Hn Hc. unfold process_custom_template. rewrite Hl.
    destruct (run_numbers Hl items 1 true tss Hi Hv Hn Hc) as (ws & k & skip & R & N). cbn [negb] in *.
    rewrite (custom_run _ _ _ _ _ _ Hi R). cbn [bind]. exists ws. split; [easy|]. now apply N.
  Qed.
End Run.

(* ---------------------------------------------------------------- what is not true *)

Definition demo_fn (t s a p : str) : proto := mkproto KFunction t s a [] p.
Definition demo_obj (t s : str) : proto := mkproto KObject t s [] [] [].
Definition demo_cfg (fs os : list proto) : config := mkcfg true PRead (set_prefix $"gdo") fs os.
Definition demo_line (s : string) : entry := mkentry $s true 1.

Lemma clean_proto_dec e : forallb (fun c => negb (Ascii.eqb c pct)) (p_type e ++ p_symbol e ++ p_args e ++ p_param_names e) = true ->
  p_symbol e <> [] -> clean_proto e.
Proof.
  rewrite !forallb_app, !andb_true_iff. intros (H1 & H2 & H3 & H4) Hs. repeat split; auto; now apply clean_lit.
Qed.
Lemma nl_free_dec s : forallb (fun c => negb (Ascii.eqb c nl)) s = true -> ~ In nl s.
Proof. intros H X. rewrite forallb_forall in H. apply H in X. rewrite Ascii.eqb_refl in X. discriminate. Qed.

Lemma line_numbers_wrong : exists c items tss, c_line c = true /\ all_protos c <> [] /\
  Forall clean_proto (all_protos c) /\ Forall one_line_proto (all_protos c) /\ line_items_ok items /\
  Forall2 (fun p ts => expands c (snd p) ts) (visible (c_param c) true 1 items) tss /\
  Forall (fun p => counted c (snd p)) (visible (c_param c) true 1 items) /\
  exists ws k skip, substitute_entries c 1 false (map item_entry items ++ [terminator]) = Ok (ws, k, skip) /\
    numbered 1 ws <> expected (visible (c_param c) true 1 items) tss /\ k <> count_linefeed (output ws).
Proof.
  exists (demo_cfg [demo_fn $"int" $"f" $"void" []] []), [Line (demo_line "%%obj_symbol%%;"); Line (demo_line "last line")],
    [[]; [$"last line"]].
  split; [easy|]. split; [discriminate|]. split; [|split; [|split; [|split; [|split]]]].
  - repeat constructor; now intro X; cbn in X; intuition discriminate.
  - repeat constructor; now intro X; cbn in X; intuition discriminate.
  - constructor; [|constructor; [|constructor]]; (split; [|discriminate]); intros ([] & E); discriminate.
  - cbn [visible c_param demo_cfg app]. constructor; [|constructor; [|constructor]]; cbn [snd].
    + set (c := demo_cfg _ _). change (@nil str) with (copies c 0 CObject [Hole HObj; Lit $";"]). apply ExpandsCopies.
      * intros ([] & E); discriminate.
      * easy.
      * reflexivity.
      * cbn. intuition discriminate.
      * discriminate.
      * intros h [<-|[]]. easy.
      * split; [easy|]. now intro.
    + set (c := demo_cfg _ _). change ($"last line") with (line_data c (demo_line "last line")). apply ExpandsPlain; [intros ([] & E); discriminate|]. intros h X. apply has_occurs in X. destruct h; discriminate.
  - cbn [visible c_param demo_cfg app]. repeat constructor.
  - do 3 eexists. split; [vm_compute; reflexivity|]. split; [intro E; vm_compute in E; discriminate|]. intro E. vm_compute in E. discriminate.
Qed.

(** placeholders that touch: [%%args%%%%return%%%%args%%] *)
Lemma placeholder_reforms : exists c l e, Forall clean_proto (all_protos c) /\ line_data c e = line_text l /\ e_kw e = true /\
  (forall p, In p l -> exists h, p = Hole h /\ hole_class h = CFunction) /\
  exists ws k, substitute_line c 1 false e = Ok (ws, k, false) /\
    texts ws <> map (fun t => t ++ [nl]) (copies c 1 CFunction l) /\ In $"%%argsreturnargs%%
" (texts ws).
Proof.
  exists (mkcfg false PRead (set_prefix $"gdo") [demo_fn $"int" $"f" $"void" []] []), [Hole HArgs; Hole HReturn; Hole HArgs],
    (demo_line "%%args%%%%return%%%%args%%").
  split; [|split; [|split; [|split]]].
  - repeat constructor; now intro X; cbn in X; intuition discriminate.
  - reflexivity.
  - easy.
  - intros p [<-|[<-|[<-|[]]]]; eexists; split; reflexivity.
  - do 2 eexists. split; [vm_compute; reflexivity|]. split; [intro E; vm_compute in E; discriminate|]. vm_compute. tauto.
Qed.

(* ---------------------------------------------------------------- columns *)

Lemma fill_hole V E h r b : fill V E b (Hole h :: r) = V h ++ fill V E (E h) r.
Proof. reflexivity. Qed.
Lemma pad_columns c lineno e a b k n : Forall clean_proto (c_funcs c) -> Forall clean_proto (c_objs c) -> ~ is_marker (e_data e) -> e_kw e = true ->
  k <> CSymbol -> line_data c e = a ++ pad_text k ++ b -> ~ In pct a -> ~ In pct b -> width (class_names c k) n ->
  exists ws m, substitute_line c lineno false e = Ok (ws, m, false) /\
    texts ws = map (fun f => a ++ p_symbol f ++ blanks (n - length (p_symbol f)) ++ b ++ [nl]) (class_protos c k) /\
    Forall (fun f => length (p_symbol f ++ blanks (n - length (p_symbol f))) = n) (class_protos c k).
Proof.
  intros Hf Ho Hm Hkw Hk El Ha Hb Hw. set (g := match k with CObject => HObjPad | _ => HFuncPad end).
  set (l := [Lit a; Hole g; Lit b]).
  assert (X : expands c e (copies c n k l)).
  { apply ExpandsCopies; auto.
    - rewrite El. unfold l, line_text. cbn [map concat part_text]. rewrite app_nil_r. f_equal. f_equal. now destruct k.
    - cbn. auto 10.
    - discriminate.
    - intros h [<-|[]]. now destruct k. }
  destruct (line_expands c lineno e _ Hf Ho X) as (ws & m & R & T & _). exists ws, m. split; [easy|]. split.
  - rewrite T. destruct k; [| |easy]; cbn [copies class_protos]; rewrite map_map; apply map_ext; intro f; unfold fill_entry, l;
      rewrite fill_lit, fill_hole; unfold g; cbn [eats_of value_of]; rewrite fill_lit; cbn [fill];
      rewrite app_nil_r, <- !app_assoc; reflexivity.
  - destruct Hw as [Hw _]. rewrite Forall_forall. intros f Hin. rewrite app_length. unfold blanks. rewrite repeat_length.
    assert (L : length (p_symbol f) <= n); [|lia]. apply Hw. destruct k; [| |easy]; cbn [class_names class_protos] in *; now apply in_map.
Qed.

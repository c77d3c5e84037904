(** The command line properties. *)
From Coq Require Import Ascii String List Bool Arith Lia.
From Verif Require Import Str StrFacts Prefix ParamNames SpecData DataFacts Options SpecOptions OptionsFacts.
Import ListNotations.

Lemma spell_length i : 1 <= length (spell i).
Proof. destruct i as [f|l o|l o [|] v|o [|] v]; cbn [spell length]; lia. Qed.

Lemma argument_tail (d p : str) : argument (d ++ p) -> argument p.
Proof. intros H X. apply H. apply in_or_app. now right. Qed.

Lemma iterate_end pre a : a_iter a + 1 = length pre -> iterate pre a = Ok None.
Proof. intros E. unfold iterate. rewrite E. rewrite Nat.leb_refl. reflexivity. Qed.
Lemma iterate_next pre a c rest : a_iter a + 1 = length pre ->
  iterate (pre ++ c :: rest) a = bind (prefix_len c) (fun n => Ok (Some (mkargs (length pre) c n))).
Proof.
  intros E. unfold iterate. rewrite E. rewrite app_length. cbn [length].
  replace (length pre + S (length rest) <=? length pre) with false by (symmetry; apply Nat.leb_gt; lia).
  rewrite argv_at_app. reflexivity.
Qed.

(** one item *)
Lemma loop_item fuel pre i rest a g : item_ok i -> Forall argument (spell i) -> a_iter a + 1 = length pre ->
  exists a', a_iter a' + 1 = length (pre ++ spell i) /\
  cmdline_loop (S fuel) (pre ++ spell i ++ rest) a g =
  bind (effect i g) (fun o => match o with
    | Done g' => cmdline_loop fuel ((pre ++ spell i) ++ rest) a' g'
    | Exited e => Ok (Exited e)
    end).
Proof.
  intros I A E. destruct (is_file i) eqn:F.
  - destruct i as [f| | |]; try discriminate F. cbn [spell app item_ok] in *. exists (mkargs (length pre) f 0).
    split; [cbn [a_iter]; rewrite app_length; reflexivity|]. cbn [cmdline_loop]. rewrite (iterate_next pre a f rest E).
    destruct (shape f) as [[_ P]|(long & p & _ & _ & _ & _ & L)]; [inversion A; assumption| |congruence].
    rewrite P. cbn [bind a_pfxlen effect]. rewrite <- app_assoc. cbn [app].
    destruct (g_input g); cbn [bind]; reflexivity.
  - pose proof (spell_of i F) as S. destruct (w_of i) as [[l w] n] eqn:WI.
    set (nx := (match n with Some v => [v] | None => [] end) : list str) in *.
    set (c := (dashes l ++ w_text w) : str) in *.
    assert (AC : argument c) by (rewrite S in A; inversion A; assumption).
    destruct (shape c AC) as [[L _]|(long & p & Ec & Np & Dp & P & _)].
    { unfold c in L. rewrite written_like in L. discriminate. }
    assert (PA : argument p) by (rewrite Ec in AC; apply argument_tail in AC; exact AC).
    pose proof (dispatch_here pre long p (nx ++ rest) branches (g_set g) PA Np good_branches) as D. cbv zeta in D.
    rewrite <- Ec in D.
    assert (Q : spell i ++ rest = c :: nx ++ rest) by (rewrite S; reflexivity).
    exists (mkargs (length pre + length (spell i) - 1) c (length (dashes long))).
    split; [cbn [a_iter]; rewrite app_length; pose proof (spell_length i); lia|].
    cbn [cmdline_loop]. rewrite Q. rewrite (iterate_next pre a c (nx ++ rest) E). rewrite P. cbn [bind a_pfxlen].
    replace (mkargs (length pre) c (length (dashes long))) with (here pre long p) by (unfold here; rewrite Ec; reflexivity).
    destruct D as [(i' & rest' & F' & I' & Q' & D)|[[D _]|[_ D]]].
    + rewrite <- Q in Q'. apply spell_unique in Q'; [|assumption|assumption]. destruct Q' as [<- ->].
      rewrite D. rewrite <- app_assoc, Q.
      destruct long; cbn [dashes lit list_ascii_of_string length a_current a_pfxlen here];
      (destruct i as [f|l' o|l' o e v|o e v]; [discriminate F| | |]; cbn [item_effect effect]);
      [destruct (flag_effect o (g_set g))|destruct (value_effect o v (g_set g)) as [[s'|ex]|m| |]| |
       destruct (flag_effect o (g_set g))|destruct (value_effect o v (g_set g)) as [[s'|ex]|m| |]|]; cbn [bind]; try reflexivity.
      all: unfold here; cbn [a_current a_pfxlen]; rewrite Ec; reflexivity.
    + exfalso. rewrite <- Q in D. exact (spell_not_lacking i rest I D).
    + exfalso. destruct (spell_documented i rest F) as (x & y & X & Y). rewrite Q in X. injection X as <- _.
      rewrite Ec in Y. revert Y. apply missed_undocumented with (rest := nx ++ rest); assumption.
Qed.

(** the whole list *)
Lemma loop_items items : forall fuel pre rest a g, Forall item_ok items -> Forall argument (concat (map spell items)) ->
  a_iter a + 1 = length pre -> length items < fuel ->
  exists a' fuel', a_iter a' + 1 = length (pre ++ concat (map spell items)) /\ fuel' + length items = fuel /\
  cmdline_loop fuel (pre ++ concat (map spell items) ++ rest) a g =
  bind (interpret items g) (fun o => match o with
    | Done g' => cmdline_loop fuel' ((pre ++ concat (map spell items)) ++ rest) a' g'
    | Exited e => Ok (Exited e)
    end).
Proof.
  induction items as [|i items IH]; intros fuel pre rest a g I A E L.
  - exists a, fuel. cbn [map concat interpret bind app]. rewrite !app_nil_r. split; [assumption|]. split; [cbn [length]; lia|]. reflexivity.
  - inversion I; subst. cbn [map concat] in *. apply Forall_app in A. destruct A as [A1 A2].
    destruct fuel as [|fuel]; [lia|].
    destruct (loop_item fuel pre i (concat (map spell items) ++ rest) a g) as (a1 & E1 & R); try assumption.
    cbn [length] in L. rewrite <- app_assoc, R.
    cbn [interpret].
    destruct (effect i g) as [[g'|e]|m| |] eqn:EF; cbn [bind].
    1:{ destruct (IH fuel (pre ++ spell i) rest a1 g') as (a2 & fuel2 & E2 & L2 & R2); try assumption; [lia|].
        exists a2, fuel2. split; [rewrite app_assoc; exact E2|]. split; [cbn [length]; lia|].
        rewrite R2. rewrite (app_assoc pre (spell i)). reflexivity. }
    all: exists (mkargs (length (pre ++ spell i ++ concat (map spell items)) - 1) [] 0), (S fuel - length (i :: items));
      split; [cbn [a_iter]; pose proof (spell_length i); rewrite !app_length; lia|];
      split; [cbn [length]; lia|]; reflexivity.
Qed.

(** every argument list is read item by item up to the first unreadable argument *)
Lemma decompose : forall n args, length args <= n -> Forall argument args ->
  exists items rest, Forall item_ok items /\ args = concat (map spell items) ++ rest /\ (rest = [] \/ unreadable rest).
Proof.
  induction n as [|n IH]; intros args L A.
  { destruct args; [|cbn [length] in L; lia]. exists [], []. split; [constructor|]. split; [reflexivity|left; reflexivity]. }
  destruct args as [|c args]; [exists [], []; split; [constructor|]; split; [reflexivity|left; reflexivity]|].
  inversion A as [|? ? AC A']; subst. cbn [length] in L.
  destruct (shape c AC) as [[O _]|(long & p & Ec & Np & Dp & P & O)].
  - destruct (IH args) as (items & rest & I & E & R); [lia|assumption|].
    exists (IFile c :: items), rest. split; [constructor; assumption|]. split; [cbn [map concat spell app]; congruence|exact R].
  - assert (PA : argument p) by (rewrite Ec in AC; apply argument_tail in AC; exact AC).
    pose proof (dispatch_here [] long p args branches defaults PA Np good_branches) as D. cbv zeta in D. rewrite <- Ec in D.
    destruct D as [(i & rest' & F & I & Q & _)|[[D _]|[_ D]]].
    + destruct (IH rest') as (items & rest & I' & E & R).
      * pose proof (spell_length i). assert (length (c :: args) = length (spell i ++ rest')) by congruence.
        rewrite app_length in H0. cbn [length] in H0. lia.
      * rewrite Q in A. apply Forall_app in A. tauto.
      * exists (i :: items), rest. split; [constructor; assumption|]. split; [|exact R].
        cbn [map concat]. rewrite Q, E. rewrite app_assoc. reflexivity.
    + exists [], (c :: args). split; [constructor|]. split; [reflexivity|]. right. left. exact D.
    + exists [], (c :: args). split; [constructor|]. split; [reflexivity|]. right. right. exists c, args.
      split; [reflexivity|]. split; [exact O|]. rewrite Ec. apply missed_undocumented with (rest := args); assumption.
Qed.

(** what is said about an unreadable argument *)
Lemma loop_unreadable fuel pre rest a g : unreadable rest -> Forall argument rest -> a_iter a + 1 = length pre ->
  exists msg, cmdline_loop (S fuel) (pre ++ rest) a g = Err msg /\
   (forall c r, rest = c :: r -> ~ documented c -> msg = $"unknown option: " ++ c) /\
   (lacks_value rest -> exists long opt why, (hd [] rest = dashes long ++ opt \/ hd [] rest = dashes long ++ opt ++ $"=") /\
      (why = $"' requires an argument" \/ why = $"' has an empty argument") /\
      (why = $"' requires an argument" <-> rest = [dashes long ++ opt]) /\
      msg = $"option '" ++ shown long opt ++ opt ++ why).
Proof.
  intros U A E.
  assert (N : exists c r, rest = c :: r /\ option_like c = true).
  { destruct U as [L|(c & r & -> & O & _)]; [|eauto].
    inversion L; subst; eexists _, _; (split; [reflexivity|]).
    - exact (written_like long (WValue o None)).
    - exact (written_like long (WValue o None)).
    - pose proof (written_like long (WValue o (Some []))) as X. cbn [w_text] in X. rewrite app_nil_r in X. exact X.
    - pose proof (written_like false (WLetter o [])) as X. cbn [w_text] in X. rewrite app_nil_r in X. exact X.
    - pose proof (written_like false (WLetter o [])) as X. cbn [w_text] in X. rewrite app_nil_r in X. exact X. }
  destruct N as (c & r & -> & O). inversion A as [|? ? AC A']; subst.
  destruct (shape c AC) as [[L _]|(long & p & Ec & Np & Dp & P & _)]; [congruence|].
  assert (PA : argument p) by (rewrite Ec in AC; apply argument_tail in AC; exact AC).
  pose proof (dispatch_here pre long p r branches (g_set g) PA Np good_branches) as D. cbv zeta in D. rewrite <- Ec in D.
  assert (ST : cmdline_loop (S fuel) (pre ++ c :: r) a g =
    bind (dispatch (pre ++ c :: r) (here pre long p) branches (g_set g)) (fun x => let '(it, o) := x in match o with
        | Exited e => Ok (Exited e)
        | Done s => cmdline_loop fuel (pre ++ c :: r) (mkargs it (a_current (here pre long p)) (a_pfxlen (here pre long p))) (mkgat s (g_input g) (g_ignored g))
        end)).
  { cbn [cmdline_loop]. rewrite (iterate_next pre a c r E). rewrite P. cbn [bind a_pfxlen].
    replace (mkargs (length pre) c (length (dashes long))) with (here pre long p) by (unfold here; rewrite Ec; reflexivity).
    destruct long; reflexivity. }
  rewrite ST.
  destruct D as [(i & rest' & F & I & Q & _)|[[D (opt & why & D' & LK & IN)]|[D D']]].
  - exfalso. destruct U as [L|(x & y & X & _ & Y)].
    + rewrite Q in L. exact (spell_not_lacking i rest' I L).
    + injection X as <- _. destruct (spell_documented i rest' F) as (x & y' & X & Z). rewrite <- Q in X. injection X as <- _. exact (Y Z).
  - rewrite D'. unfold opt_error. cbn [bind]. eexists. split; [reflexivity|]. split.
    + intros c' r' X ND. injection X as <- <-. exfalso. apply ND. clear -D. inversion D; subst.
      * right. left. eauto.
      * right. left. eauto.
      * right. right. left. exists long, o, []. rewrite app_nil_r. reflexivity.
      * right. right. right. exists o, []. rewrite app_nil_r. reflexivity.
      * right. right. right. exists o, []. rewrite app_nil_r. reflexivity.
    + intros _. destruct (lookup_lack _ _ _ _ _ LK IN) as (W1 & W2 & W3 & W4). exists long, opt, why.
      assert (ON : opt <> []).
      { intros ->. cbn [map app In] in IN. repeat (destruct IN as [IN|IN]; [discriminate IN|]). exact IN. }
      cbn [hd]. split; [destruct W1 as [-> | ->]; rewrite Ec; auto|]. split; [exact W2|].
      assert (SH : shown long p = shown long opt) by (destruct W1 as [-> | ->]; [reflexivity|destruct opt; [congruence|reflexivity]]).
      split.
      * rewrite W3. rewrite Ec. split.
        -- intros [-> ->]. reflexivity.
        -- intros H. injection H as H H'. apply app_inv_head in H. split; assumption.
      * rewrite firstn_all2 by exact W4. rewrite SH. reflexivity.
  - rewrite D. cbn [bind]. eexists. split; [reflexivity|]. split.
    + intros c' r' X _. injection X as <- <-. reflexivity.
    + intros L. exfalso. apply missed_undocumented in D'; [|exact Dp]. rewrite <- Ec in D'. apply D'. clear -L. inversion L; subst.
      * right. left. eauto.
      * right. left. eauto.
      * right. right. left. exists long, o, []. rewrite app_nil_r. reflexivity.
      * right. right. right. exists o, []. rewrite app_nil_r. reflexivity.
      * right. right. right. exists o, []. rewrite app_nil_r. reflexivity.
Qed.

Lemma items_length items : length items <= length (concat (map spell items)).
Proof. induction items as [|i items IH]; [cbn; lia|]. cbn [map concat length]. rewrite app_length. pose proof (spell_length i). lia. Qed.

Lemma finish_parse argv s : parse_cmdline argv s = finish (cmdline_loop (S (length argv)) argv (mkargs 0 [] 0) (start s)).
Proof.
  unfold parse_cmdline, finish, start. destruct (cmdline_loop _ _ _ _) as [[g|e]|m| |]; try reflexivity.
Qed.

Lemma readable prog items s : Forall item_ok items -> Forall argument (concat (map spell items)) ->
  parse_cmdline (prog :: concat (map spell items)) s = finish (interpret items (start s)).
Proof.
  intros I A. rewrite finish_parse. f_equal.
  destruct (loop_items items (S (length (prog :: concat (map spell items)))) [prog] [] (mkargs 0 [] 0) (start s) I A) as (a' & f' & E & L & R).
  - reflexivity.
  - cbn [length]. pose proof (items_length items). lia.
  - rewrite !app_nil_r in R. cbn [app] in R. rewrite R.
    destruct (interpret items (start s)) as [[g|e]|m| |]; try reflexivity. cbn [bind].
    destruct f'; [cbn [length] in L; pose proof (items_length items); lia|].
    cbn [cmdline_loop]. rewrite iterate_end; [reflexivity|]. cbn [app length] in E |- *. exact E.
Qed.

Lemma unread prog items rest s : Forall item_ok items -> Forall argument (concat (map spell items) ++ rest) ->
  unreadable rest ->
  exists msg,
    parse_cmdline (prog :: concat (map spell items) ++ rest) s =
    bind (interpret items (start s)) (fun o => match o with Done _ => Err msg | Exited e => Ok (Exited e) end) /\
    (forall c r, rest = c :: r -> ~ documented c -> msg = $"unknown option: " ++ c) /\
    (lacks_value rest -> exists long opt why, (hd [] rest = dashes long ++ opt \/ hd [] rest = dashes long ++ opt ++ $"=") /\
      (why = $"' requires an argument" \/ why = $"' has an empty argument") /\
      (why = $"' requires an argument" <-> rest = [dashes long ++ opt]) /\
      msg = $"option '" ++ shown long opt ++ opt ++ why).
Proof.
  intros I A U. apply Forall_app in A. destruct A as [A1 A2].
  rewrite finish_parse.
  destruct (loop_items items (S (length (prog :: concat (map spell items) ++ rest))) [prog] rest (mkargs 0 [] 0) (start s) I A1) as (a' & f' & E & L & R).
  - reflexivity.
  - cbn [length]. rewrite app_length. pose proof (items_length items). lia.
  - cbn [app] in R, E. rewrite R.
    destruct f'; [cbn [length] in L; rewrite app_length in L; pose proof (items_length items); lia|].
    destruct (interpret items (start s)) as [[g|e]|m| |] eqn:EI.
    1:{ destruct (loop_unreadable f' (prog :: concat (map spell items)) rest a' g U A2 E) as (msg & M & M1 & M2).
        exists msg. cbn [bind finish]. cbn [app] in M. rewrite M. split; [reflexivity|]. split; assumption. }
    all: destruct (loop_unreadable f' (prog :: concat (map spell items)) rest a' (start s) U A2 E) as (msg & _ & M1 & M2);
      exists msg; split; [reflexivity|]; split; assumption.
Qed.

Lemma effect_defined i g : (exists o, effect i g = Ok o) \/ (exists m, effect i g = Err m).
Proof.
  destruct i as [f|l o|l o e v|o e v]; cbn [effect].
  - destruct (g_input g); eauto.
  - eauto.
  - destruct o; cbn [value_effect]; try (left; eexists; reflexivity).
    + unfold read_format. repeat match goal with |- context [if ?b then _ else _] => destruct b end; cbn [bind]; eauto.
    + unfold read_param. repeat match goal with |- context [if ?b then _ else _] => destruct b end; cbn [bind]; eauto.
  - eauto.
Qed.
Lemma interpret_defined items : forall g, (exists o, interpret items g = Ok o) \/ (exists m, interpret items g = Err m).
Proof.
  induction items as [|i items IH]; intros g; cbn [interpret]; [eauto|].
  destruct (effect_defined i g) as [[[g'|e] E]|[m E]]; rewrite E; cbn [bind]; eauto.
Qed.
Lemma cmdline_defined prog args s : Forall argument args ->
  (exists o, parse_cmdline (prog :: args) s = Ok o) \/ (exists m, parse_cmdline (prog :: args) s = Err m).
Proof.
  intros A. destruct (decompose (length args) args (le_n _) A) as (items & rest & I & -> & R).
  destruct R as [->|U].
  - rewrite app_nil_r in *. rewrite readable by assumption.
    destruct (interpret_defined items (start s)) as [[[g|e] E]|[m E]]; rewrite E; unfold finish; cbn [bind]; eauto.
    unfold need_input. destruct (g_input g) as [[|]|]; eauto.
  - destruct (unread prog items rest s I A U) as (msg & E & _). rewrite E.
    destruct (interpret_defined items (start s)) as [[[g|e] E']|[m E']]; rewrite E'; cbn [bind]; eauto.
Qed.

Lemma items_unique : forall is js r, Forall item_ok is -> Forall item_ok js ->
  concat (map spell is) = concat (map spell js) ++ r -> r = [] \/ unreadable r -> is = js /\ r = [].
Proof.
  induction is as [|i is IH]; intros js r I J E U.
  - destruct js as [|j js].
    + cbn [map concat app] in E. split; [reflexivity|now symmetry].
    + exfalso. cbn [map concat] in E. pose proof (spell_length j). destruct (spell j); [cbn [length] in *; lia|discriminate E].
  - destruct js as [|j js].
    + exfalso. cbn [map concat app] in E. subst r. destruct U as [U|[U|(c & x & U & O & ND)]].
      * pose proof (spell_length i). destruct (spell i); [cbn [length] in *; lia|discriminate U].
      * inversion I; subst. exact (spell_not_lacking _ _ H1 U).
      * inversion I; subst. destruct (is_file i) eqn:F.
        -- destruct i; try discriminate F. cbn [spell app] in U. injection U as -> _. cbn [item_ok] in H1. congruence.
        -- destruct (spell_documented i (concat (map spell is)) F) as (c' & x' & U' & D). rewrite U in U'. injection U' as <- _. exact (ND D).
    + cbn [map concat] in E. rewrite <- app_assoc in E. inversion I; inversion J; subst.
      apply spell_unique in E; [|assumption|assumption]. destruct E as [-> E].
      destruct (IH js r H2 H6 E U) as [-> ->]. split; reflexivity.
Qed.

(* ---------------------------------------------------------------- order *)

Lemma interpret_app is : forall js g, interpret (is ++ js) g =
  bind (interpret is g) (fun o => match o with Done g' => interpret js g' | Exited e => Ok (Exited e) end).
Proof.
  induction is as [|i is IH]; intros js g; [reflexivity|]. cbn [app interpret].
  destruct (effect i g) as [[g'|e]|m| |]; cbn [bind]; try reflexivity. apply IH.
Qed.

Ltac fin := cbn [bind flag_effect value_effect letter_effect g_set g_input g_ignored]; try discriminate; try (intros H; exact H).

(** the settings an item changes, when it neither fails nor ends the run *)
Lemma swap i j g g' : slot i <> slot j -> interpret [i; j] g = Ok (Done g') -> interpret [j; i] g = Ok (Done g').
Proof.
  intros N. cbn [interpret]. destruct g as [s inp ign].
  destruct i as [f|l o|l o e v|o e v], j as [f'|l' o'|l' o' e' v'|o' e' v']; cbn [effect slot g_set g_input g_ignored] in *.
  - congruence.
  - destruct inp; destruct o'; fin.
  - destruct inp; fin; destruct (value_effect o' v' s) as [[s'|ex]|m| |]; fin.
  - destruct inp; fin.
  - destruct inp; destruct o; fin.
  - destruct o, o'; try (exfalso; apply N; reflexivity); fin.
  - destruct o, o'; fin; try (destruct (read_format v')); try (destruct (read_param v')); fin.
  - destruct o, o'; fin.
  - destruct inp; fin; destruct (value_effect o v s) as [[s'|ex]|m| |]; fin.
  - destruct o, o'; fin; try (destruct (read_format v)); try (destruct (read_param v)); fin.
  - destruct o, o'; try (exfalso; apply N; reflexivity); fin;
      try (destruct (read_format v)); try (destruct (read_param v)); try (destruct (read_format v')); try (destruct (read_param v')); fin.
  - destruct o, o'; fin; try (destruct (read_format v)); try (destruct (read_param v)); fin.
  - destruct inp; fin.
  - destruct o, o'; fin.
  - destruct o, o'; fin; try (destruct (read_format v')); try (destruct (read_param v')); fin.
  - destruct o, o'; try (exfalso; apply N; reflexivity); fin.
Qed.

Lemma interpret_cons2 i j is g : interpret (i :: j :: is) g =
  bind (interpret [i; j] g) (fun o => match o with Done g' => interpret is g' | Exited e => Ok (Exited e) end).
Proof. exact (interpret_app [i; j] is g). Qed.

Lemma move_back a p : forall q g r, Forall (fun i => slot i <> slot a) p ->
  interpret (a :: p ++ q) g = Ok (Done r) -> interpret (p ++ a :: q) g = Ok (Done r).
Proof.
  induction p as [|i p IH]; intros q g r F H; [exact H|]. inversion F; subst. cbn [app] in *.
  assert (H' : interpret (i :: a :: p ++ q) g = Ok (Done r)).
  { rewrite interpret_cons2 in *. destruct (interpret [a; i] g) as [[g'|e]|m| |] eqn:E; try discriminate H.
    rewrite (swap a i g g'); [exact H|congruence|exact E]. }
  cbn [interpret] in H' |- *. destruct (effect i g) as [[g'|e]|m| |]; cbn [bind] in *; try discriminate H'.
  apply IH; assumption.
Qed.

Lemma of_slot_split n a : forall js l, of_slot n js = a :: l -> exists p q, js = p ++ a :: q /\
  Forall (fun i => slot i <> n) p /\ slot a = n /\ of_slot n q = l.
Proof.
  induction js as [|j js IH]; intros l E; [discriminate E|]. unfold of_slot in E. cbn [filter] in E.
  destruct (str_eqb (slot j) n) eqn:Q.
  - injection E as -> E. exists [], js. split; [reflexivity|]. split; [constructor|]. split; [now apply str_eqb_eq|exact E].
  - destruct (IH l E) as (p & q & -> & F & S & R). exists (j :: p), q. split; [reflexivity|].
    split; [constructor; [now apply str_eqb_neq|assumption]|]. split; assumption.
Qed.
Lemma of_slot_app n is js : of_slot n (is ++ js) = of_slot n is ++ of_slot n js.
Proof. apply filter_app. Qed.

Lemma any_order : forall is js g r, (forall n, of_slot n is = of_slot n js) ->
  interpret is g = Ok (Done r) -> interpret js g = Ok (Done r).
Proof.
  induction is as [|i is IH]; intros js g r E H.
  - destruct js as [|j js]; [exact H|]. specialize (E (slot j)). unfold of_slot in E. cbn [filter] in E. rewrite str_eqb_refl in E. discriminate E.
  - pose proof (E (slot i)) as E0. unfold of_slot at 1 in E0. cbn [filter] in E0. rewrite str_eqb_refl in E0.
    symmetry in E0. destruct (of_slot_split _ _ _ _ E0) as (p & q & -> & F & _ & R).
    apply move_back; [exact F|]. cbn [interpret] in H |- *.
    destruct (effect i g) as [[g'|e]|m| |]; cbn [bind] in *; try discriminate H.
    apply IH; [|exact H]. intros n. specialize (E n). rewrite of_slot_app in E |- *.
    unfold of_slot in E at 1 3. cbn [filter] in E. fold (of_slot n is) in E. fold (of_slot n q) in E.
    destruct (str_eqb (slot i) n) eqn:Q; [|exact E]. apply str_eqb_eq in Q. subst n.
    assert (P : of_slot (slot i) p = []).
    { clear -F. induction F as [|x p N F IHp]; [reflexivity|]. unfold of_slot in *. cbn [filter]. apply str_eqb_neq in N. rewrite N. exact IHp. }
    rewrite P in *. cbn [app] in *. now injection E.
Qed.

(* ---------------------------------------------------------------- %option *)

Lemma read_format_done v s : bind (opt_format v s) (fun x => Ok (Done x)) = value_effect OFormat v s.
Proof. unfold opt_format, value_effect. destruct (read_format v); reflexivity. Qed.

Lemma get_option_value t o : match get_option t o with
  | Ok (Some v) => t = o ++ v /\ v <> []
  | Ok None => starts_with o t = false
  | Err m => t = o /\ m = $"%option string requires an argument: " ++ t
  | _ => False
  end.
Proof.
  unfold get_option. destruct (str_eqb (firstn (length o) t) o) eqn:E.
  - apply str_eqb_eq in E. rewrite <- (firstn_skipn (length o) t). rewrite E.
    rewrite skipn_here. rewrite app_length. destruct (skipn (length o) t) as [|c r].
    + cbn [length]. replace (length o <? length o + 0) with false by (symmetry; apply Nat.ltb_ge; lia). rewrite app_nil_r. split; reflexivity.
    + cbn [length]. replace (length o <? length o + S (length r)) with true by (symmetry; apply Nat.ltb_lt; lia). split; [reflexivity|discriminate].
  - destruct (starts_with o t) eqn:S; [|reflexivity]. exfalso. apply starts_with_spec in S. destruct S as [r ->].
    rewrite firstn_app in E. rewrite Nat.sub_diag, firstn_all in E. cbn [firstn] in E. rewrite app_nil_r in E.
    rewrite str_eqb_refl in E. discriminate.
Qed.

Lemma c_str_argument v : argument v -> c_str v = v.
Proof.
  induction v as [|c v IH]; intros H; [reflexivity|]. cbn [c_str]. rewrite nul_eqb by (intros ->; apply H; left; reflexivity).
  f_equal. apply IH. intros X. apply H. right. exact X.
Qed.

Lemma option_accepted t act s : argument t -> file_option t act ->
  bind (parse_option t s) (fun s' => Ok (Done s')) = act s.
Proof.
  intros A F. inversion F as [ | | |o v I N|v N]; subst; try reflexivity.
  - assert (V : argument v) by (apply argument_tail in A; apply argument_tail in A; exact A).
    destruct v as [|c v]; [congruence|].
    cbn [In] in I. destruct I as [<-|[<-|[<-|[<-|[<-|[]]]]]].
    + transitivity (bind (opt_format (c_str (c :: v)) s) (fun s' => Ok (Done s'))); [reflexivity|].
      rewrite c_str_argument by exact V. apply read_format_done.
    + transitivity (Ok (Done (add_inc (c_str (c :: v)) s))); [reflexivity|]. rewrite c_str_argument by exact V. reflexivity.
    + transitivity (Ok (Done (set_lib (c_str (c :: v)) s))); [reflexivity|]. rewrite c_str_argument by exact V. reflexivity.
    + transitivity (bind (opt_param (c_str (c :: v)) s) (fun s' => Ok (Done s'))); [reflexivity|].
      rewrite c_str_argument by exact V. unfold opt_param, value_effect. destruct (read_param (c :: v)); reflexivity.
    + transitivity (Ok (Done (opt_prefix (c_str (c :: v)) s))); [reflexivity|]. rewrite c_str_argument by exact V. reflexivity.
  - assert (V : argument v) by (apply argument_tail in A; exact A).
    destruct v as [|c v]; [congruence|].
    transitivity (Ok (Done (add_def (c_str (c :: v)) s))); [reflexivity|]. rewrite c_str_argument by exact V. reflexivity.
Qed.

Lemma option_lacking t s : file_lacks_value t -> parse_option t s = Err ($"%option string requires an argument: " ++ t).
Proof.
  intros [->|(o & I & ->)]; [reflexivity|].
  cbn [In] in I. destruct I as [<-|[<-|[<-|[<-|[<-|[]]]]]]; reflexivity.
Qed.

Lemma try_unknown t s l : Forall (fun x => starts_with (fst x) t = false) l -> try_options t l s = Err ($"unknown %option string: " ++ t).
Proof.
  induction 1 as [|[o act] l H F IH]; [reflexivity|]. cbn [try_options].
  pose proof (get_option_value t o) as G. cbn [fst] in H. destruct (get_option t o) as [[v|]|m| |]; try contradiction.
  - destruct G as [-> _]. rewrite starts_with_app in H. discriminate.
  - exact IH.
  - destruct G as [-> _]. pose proof (starts_with_app o []) as X. rewrite app_nil_r in X. congruence.
Qed.

Lemma option_unknown t s : (forall act, ~ file_option t act) -> ~ file_lacks_value t ->
  parse_option t s = Err ($"unknown %option string: " ++ t).
Proof.
  intros N L. unfold parse_option.
  destruct (str_eqb t $"line") eqn:E1; [apply str_eqb_eq in E1; subst; exfalso; eapply N; constructor|].
  destruct (str_eqb t $"no-date") eqn:E2; [apply str_eqb_eq in E2; subst; exfalso; eapply N; constructor|].
  destruct (str_eqb t $"no-pragma-once") eqn:E3; [apply str_eqb_eq in E3; subst; exfalso; eapply N; constructor|].
  assert (V : forall o, In o [OFormat; OInclude; OLibrary; OParam; OPrefix] -> starts_with (value_name o ++ $"=") t = false).
  { intros o I. destruct (starts_with (value_name o ++ $"=") t) eqn:S; [|reflexivity]. exfalso.
    apply starts_with_spec in S. destruct S as [r ->]. destruct r as [|c r].
    - apply L. right. exists o. split; [exact I|]. now rewrite app_nil_r.
    - rewrite <- app_assoc in N. eapply N. apply file_value; [exact I|discriminate]. }
  assert (D : starts_with $"D=" t = false).
  { destruct (starts_with $"D=" t) eqn:S; [|reflexivity]. exfalso.
    apply starts_with_spec in S. destruct S as [r ->]. destruct r as [|c r].
    - apply L. left. now rewrite app_nil_r.
    - eapply N. apply file_define. discriminate. }
  apply try_unknown. unfold option_args. repeat constructor; cbn [fst]; [exact D| | | | |].
  - apply (V OFormat). cbn [In]. tauto.
  - apply (V OInclude). cbn [In]. tauto.
  - apply (V OLibrary). cbn [In]. tauto.
  - apply (V OParam). cbn [In]. tauto.
  - apply (V OPrefix). cbn [In]. tauto.
Qed.

(* ---------------------------------------------------------------- -D and -include *)

Lemma find_eq_here n v : ~ In "="%char n -> find $"=" (n ++ $"=" ++ v) = Some (length n).
Proof.
  induction n as [|c n IH]; intros H; [reflexivity|]. cbn [app find].
  assert (N : Ascii.eqb "=" c = false) by (destruct (Ascii.eqb_spec "="%char c); [subst; exfalso; apply H; left; reflexivity|reflexivity]).
  cbn [starts_with lit list_ascii_of_string]. rewrite N. cbn [andb].
  cbn [lit list_ascii_of_string] in IH. rewrite IH; [reflexivity|]. intros X. apply H. right. exact X.
Qed.
Lemma find_eq_none n : ~ In "="%char n -> find $"=" n = None.
Proof.
  induction n as [|c n IH]; intros H; [reflexivity|]. cbn [find].
  assert (N : Ascii.eqb "=" c = false) by (destruct (Ascii.eqb_spec "="%char c); [subst; exfalso; apply H; left; reflexivity|reflexivity]).
  cbn [starts_with lit list_ascii_of_string]. rewrite N. cbn [andb].
  cbn [lit list_ascii_of_string] in IH. rewrite IH; [reflexivity|]. intros X. apply H. right. exact X.
Qed.
Lemma name_free n c : macro_name n -> is_ident c = false -> ~ In c n.
Proof. intros [_ F] N X. rewrite Forall_forall in F. specialize (F c X). congruence. Qed.

Lemma strip_name n : macro_name n -> strip_spaces n = n.
Proof.
  intros [N F].
  assert (S : forall l, l <> [] -> Forall (fun c => is_ident c = true) l -> drop_while isspace l = l).
  { intros [|c l] Nl Fl; [congruence|]. inversion Fl; subst. cbn [drop_while].
    assert (isspace c = false) as ->; [|reflexivity].
    revert H1. destruct c as [[|] [|] [|] [|] [|] [|] [|] [|]]; vm_compute; congruence. }
  unfold strip_spaces, strip_back. rewrite (S (rev n)).
  - rewrite rev_involutive. apply S; assumption.
  - intros E. apply N. apply (f_equal (@rev ascii)) in E. now rewrite rev_involutive in E.
  - now apply Forall_rev.
Qed.

Definition define_lines (n v : str) : str :=
  ($"#ifndef " ++ n ++ [nl]) ++ ($"# define " ++ n ++ v ++ [nl]) ++ ($"#endif" ++ [nl]).
Definition value_text (v : option str) : str := match v with Some v => sp :: v | None => [] end.
Lemma define_text_of d : define_ok d ->
  define_text (define_arg d) = define_lines (fst d) (value_text (snd d)).
Proof.
  intros [M _]. destruct d as [n v]. cbn [fst snd] in *. unfold define_arg, define_text. cbn [fst snd].
  assert (E : ~ In "="%char n) by (apply name_free; [exact M|reflexivity]).
  destruct v as [v|].
  - rewrite find_eq_here by exact E. rewrite firstn_app, Nat.sub_diag, firstn_all. cbn [firstn]. rewrite app_nil_r, strip_name by exact M.
    replace (skipn (length n + 1) (n ++ $"=" ++ v)) with v.
    + destruct n; [destruct M; congruence|reflexivity].
    + symmetry. replace (n ++ $"=" ++ v) with ((n ++ $"=") ++ v) by (now rewrite <- app_assoc).
      replace (length n + 1) with (length (n ++ $"=")) by (rewrite app_length; reflexivity). apply skipn_here.
  - rewrite app_nil_r. rewrite find_eq_none by exact E. rewrite strip_name by exact M. destruct n; [destruct M; congruence|reflexivity].
Qed.

Lemma splice_line p r : ~ In nl p -> ends_with [bslash] p = false -> splice (p ++ nl :: r) = p ++ nl :: splice r.
Proof.
  induction p as [|c p IH]; intros N B.
  - cbn [app splice]. reflexivity.
  - cbn [app splice]. assert (Np : ~ In nl p) by (intros X; apply N; right; exact X).
    destruct p as [|d p].
    + cbn [app]. destruct (Ascii.eqb_spec c bslash) as [->|]; [discriminate B|]. cbn [splice]. reflexivity.
    + assert (Bp : ends_with [bslash] (d :: p) = false).
      { unfold ends_with in *. cbn [rev app] in *. destruct (rev p) eqn:R; cbn [app starts_with] in *; exact B. }
      rewrite (IH Np Bp). cbn [app].
      assert (Ascii.eqb d nl = false) as -> by (destruct (Ascii.eqb_spec d nl); [subst; exfalso; apply N; right; left; reflexivity|reflexivity]).
      destruct (Ascii.eqb c bslash); reflexivity.
Qed.

Lemma until_space_name n v : ~ In sp n -> until_space (n ++ sp :: v) = (n, v).
Proof.
  induction n as [|c n IH]; intros H; [reflexivity|]. cbn [app until_space].
  destruct (Ascii.eqb_spec c sp) as [->|]; [exfalso; apply H; left; reflexivity|]. rewrite IH; [reflexivity|]. intros X. apply H. right. exact X.
Qed.
Lemma until_space_end n : ~ In sp n -> until_space n = (n, []).
Proof.
  induction n as [|c n IH]; intros H; [reflexivity|]. cbn [app until_space].
  destruct (Ascii.eqb_spec c sp) as [->|]; [exfalso; apply H; left; reflexivity|]. rewrite IH; [reflexivity|]. intros X. apply H. right. exact X.
Qed.

Lemma ends_app (c : ascii) p q : q <> [] -> ends_with [c] (p ++ q) = ends_with [c] q.
Proof.
  intros N. unfold ends_with. rewrite rev_app_distr. destruct (rev q) eqn:R; [|reflexivity].
  exfalso. apply N. apply (f_equal (@rev ascii)) in R. now rewrite rev_involutive in R.
Qed.
Lemma name_end n : macro_name n -> ends_with [bslash] n = false.
Proof.
  intros M. destruct (ends_with [bslash] n) eqn:E; [|reflexivity]. exfalso.
  unfold ends_with in E. cbn [rev app] in E. apply starts_with_spec in E. destruct E as [r E].
  apply (name_free n bslash M); [reflexivity|]. rewrite in_rev, E. left. reflexivity.
Qed.

Lemma define_lines_app n w r : define_lines n w ++ r =
  ($"#ifndef " ++ n) ++ nl :: (($"# define " ++ n ++ w) ++ nl :: ($"#endif" ++ nl :: r)).
Proof. unfold define_lines. rewrite <- !app_assoc. reflexivity. Qed.

Lemma define_once_lines d m r : define_ok d ->
  fold_left (fun st l => pp_line l st) (lines (splice (define_text (define_arg d) ++ r))) (m, []) =
  fold_left (fun st l => pp_line l st) (lines (splice r)) (define_once (define_of d) m, []).
Proof.
  intros D. rewrite define_text_of by exact D. rewrite define_lines_app. destruct D as [M V]. destruct d as [n v]. cbn [fst snd] in *.
  remember (value_text v) as w eqn:W.
  assert (S : ~ In sp n) by (apply name_free; [exact M|reflexivity]).
  assert (NN : ~ In nl n) by (apply name_free; [exact M|reflexivity]).
  assert (NW : ~ In nl w /\ ends_with [bslash] (n ++ w) = false).
  { subst w. unfold value_text. destruct v as [v|].
    - destruct V as [V1 V2]. split.
      + intros [X|X]; [discriminate X|exact (V1 X)].
      + destruct v as [|v0 v]; [rewrite ends_app; [reflexivity|discriminate]|].
        change (n ++ sp :: v0 :: v) with (n ++ [sp] ++ v0 :: v). rewrite app_assoc, ends_app by discriminate. exact V2.
    - split; [intros []|]. rewrite app_nil_r. apply name_end. exact M. }
  destruct NW as [NW EW].
  assert (N1 : ~ In nl ($"#ifndef " ++ n)).
  { intros X. apply in_app_or in X. destruct X as [X|X]; [|exact (NN X)]. cbn in X. repeat (destruct X as [X|X]; [discriminate X|]). exact X. }
  assert (N2 : ~ In nl ($"# define " ++ n ++ w)).
  { intros X. apply in_app_or in X. destruct X as [X|X]; [cbn in X; repeat (destruct X as [X|X]; [discriminate X|]); exact X|].
    apply in_app_or in X. destruct X as [X|X]; [exact (NN X)|exact (NW X)]. }
  rewrite (splice_line ($"#ifndef " ++ n)); [|exact N1|rewrite ends_app; [apply name_end; exact M|destruct M; assumption]].
  rewrite (splice_line ($"# define " ++ n ++ w)); [|exact N2|].
  2:{ rewrite ends_app; [exact EW|]. destruct M as [M0 _]. destruct n; [congruence|discriminate]. }
  rewrite (splice_line $"#endif"); [|cbn; intros X; repeat (destruct X as [X|X]; [discriminate X|]); exact X|reflexivity].
  rewrite !lines_app; [|cbn; intros X; repeat (destruct X as [X|X]; [discriminate X|]); exact X|exact N2|exact N1].
  cbn [fold_left]. f_equal.
  unfold pp_line at 3. cbn [starts_with lit list_ascii_of_string app Ascii.eqb Bool.eqb andb skipn].
  unfold pp_line at 2. cbn [starts_with lit list_ascii_of_string app Ascii.eqb Bool.eqb andb skipn forallb].
  unfold define_once, define_of. cbn [fst snd].
  assert (U : until_space (n ++ w) = (n, match v with Some v => v | None => [] end)).
  { subst w. unfold value_text. destruct v as [v|]; [apply until_space_name; exact S|rewrite app_nil_r; apply until_space_end; exact S]. }
  rewrite U. destruct (is_defined n m); cbn [negb andb]; reflexivity.
Qed.

Lemma defines_text l : forall s, o_defines (fold_left (fun s d => add_def (define_arg d) s) l s) =
  o_defines s ++ concat (map (fun d => define_text (define_arg d)) l).
Proof.
  induction l as [|d l IH]; intros s; cbn [fold_left map concat]; [now rewrite app_nil_r|].
  rewrite IH. unfold add_def, append_defines. cbn [o_defines]. now rewrite <- app_assoc.
Qed.

Lemma defines_mean l m : Forall define_ok l ->
  preprocess (o_defines (fold_left (fun s d => add_def (define_arg d) s) l defaults)) m =
  (fold_left (fun m d => define_once (define_of d) m) l m, []).
Proof.
  intros F. rewrite defines_text. cbn [o_defines defaults app]. unfold preprocess.
  revert m. induction F as [|d l D F IH]; intros m; [reflexivity|]. cbn [map concat fold_left].
  rewrite define_once_lines by exact D. apply IH.
Qed.

(* ---------------------------------------------------------------- -include *)

Lemma nq_spec i : prefixed_and_longer_case i $"nq:" = true <-> exists f, nq_marked i f.
Proof.
  unfold prefixed_and_longer_case. split.
  - intros H. apply andb_true_iff in H. destruct H as [L S]. apply Nat.ltb_lt in L.
    exists (skipn 3 i). split.
    + intros E. apply (f_equal (@length _)) in E. rewrite skipn_length in E. cbn [length lit list_ascii_of_string] in *. lia.
    + exists (firstn 3 i). split; [|symmetry; apply firstn_skipn].
      apply starts_with_spec in S. destruct S as [r S]. rewrite <- firstn_map, S. reflexivity.
  - intros (f & N & m & M & ->). rewrite map_app, M. apply andb_true_iff. split; [|reflexivity].
    apply Nat.ltb_lt. assert (length m = 3) by (rewrite <- (map_length tolower), M; reflexivity).
    rewrite app_length, H. destruct f; [congruence|]. cbn [length lit list_ascii_of_string]. lia.
Qed.
Lemma nq_value i f : nq_marked i f -> skipn 3 i = f.
Proof.
  intros (_ & m & M & ->). assert (length m = 3) by (rewrite <- (map_length tolower), M; reflexivity).
  rewrite <- H. apply skipn_here.
Qed.
Lemma last_of (c : ascii) s : ends_with [c] s = true -> exists t, s = t ++ [c].
Proof.
  unfold ends_with. cbn [rev app]. intros H. apply starts_with_spec in H. destruct H as [r H].
  exists (rev r). rewrite <- (rev_involutive s), H. reflexivity.
Qed.
Lemma front_back_spec i a b : (2 <= length i /\ front_and_back i [a] [b] = true) <-> exists f, i = [a] ++ f ++ [b].
Proof.
  unfold front_and_back. split.
  - intros [L H]. apply andb_true_iff in H. destruct H as [S E]. apply starts_with_spec in S. destruct S as [r ->].
    apply last_of in E. destruct E as [t E]. destruct t as [|t0 t].
    + cbn [app] in E. injection E as -> ->. cbn [app length] in L. lia.
    + cbn [app] in E. injection E as -> ->. exists t. reflexivity.
  - intros [f ->]. split; [rewrite !app_length; cbn [length]; lia|]. apply andb_true_iff. split; [cbn [app starts_with]; now rewrite Ascii.eqb_refl|].
    unfold ends_with. rewrite app_assoc, rev_app_distr. cbn [rev app starts_with]. now rewrite Ascii.eqb_refl.
Qed.
Lemma enclosed_spec i : Nat.leb 2 (length i) && (front_and_back i $"<" $">" || front_and_back i [dquote] [dquote]) = true <-> enclosed i.
Proof.
  rewrite andb_true_iff, orb_true_iff, Nat.leb_le. split.
  - intros [L [H|H]].
    + destruct (proj1 (front_back_spec i "<" ">") (conj L H)) as [f E]. exists f. left. exact E.
    + destruct (proj1 (front_back_spec i dquote dquote) (conj L H)) as [f E]. exists f. right. exact E.
  - intros [f [E|E]].
    + destruct (proj2 (front_back_spec i "<" ">") (ex_intro _ f E)) as [L H]. split; [exact L|left; exact H].
    + destruct (proj2 (front_back_spec i dquote dquote) (ex_intro _ f E)) as [L H]. split; [exact L|right; exact H].
Qed.
Lemma include_cases i :
  (forall f, nq_marked i f -> include_text i = f) /\
  (enclosed i -> include_text i = i) /\
  ((forall f, ~ nq_marked i f) -> ~ enclosed i -> include_text i = [dquote] ++ i ++ [dquote]).
Proof.
  unfold include_text. split; [|split].
  - intros f M. rewrite (proj2 (nq_spec i)) by (exists f; exact M). exact (nq_value i f M).
  - intros E. destruct (prefixed_and_longer_case i $"nq:") eqn:P.
    + exfalso. apply nq_spec in P. destruct P as (f & _ & m & M & ->). destruct m as [|c m]; [discriminate M|].
      cbn [map lit list_ascii_of_string] in M. injection M as M _. destruct E as [g [E|E]]; cbn [app lit list_ascii_of_string] in E; injection E as -> _; discriminate M.
    + rewrite (proj2 (enclosed_spec i) E). reflexivity.
  - intros N E. destruct (prefixed_and_longer_case i $"nq:") eqn:P.
    + exfalso. apply nq_spec in P. destruct P as [f P]. exact (N f P).
    + destruct (Nat.leb 2 (length i) && (front_and_back i $"<" $">" || front_and_back i [dquote] [dquote])) eqn:Q; [|reflexivity].
      exfalso. apply E. apply enclosed_spec. exact Q.
Qed.

(* ---------------------------------------------------------------- the statements *)

Lemma used_once prog args s : Forall argument args ->
  exists items rest, Forall item_ok items /\ args = concat (map spell items) ++ rest /\
  ((rest = [] /\ parse_cmdline (prog :: args) s = finish (interpret items (start s))) \/
   (unreadable rest /\ exists msg, parse_cmdline (prog :: args) s =
      bind (interpret items (start s)) (fun o => match o with Done _ => Err msg | Exited e => Ok (Exited e) end))).
Proof.
  intros A. destruct (decompose (length args) args (le_n _) A) as (items & rest & I & E & R).
  exists items, rest. split; [exact I|]. split; [exact E|]. destruct R as [->|U].
  - left. split; [reflexivity|]. rewrite app_nil_r in E. subst args. apply readable; assumption.
  - right. split; [exact U|]. subst args. destruct (unread prog items rest s I A U) as (msg & M & _). exists msg. exact M.
Qed.

Lemma one_reading : forall is js r r', Forall item_ok is -> Forall item_ok js ->
  concat (map spell is) ++ r = concat (map spell js) ++ r' -> r = [] \/ unreadable r -> r' = [] \/ unreadable r' ->
  is = js /\ r = r'.
Proof.
  assert (H : forall i is r, item_ok i -> spell i ++ is = r -> r = [] \/ unreadable r -> False).
  { intros i is r I E [U|[U|(c & x & U & O & ND)]].
    - pose proof (spell_length i). subst r. destruct (spell i); [cbn [length] in *; lia|discriminate U].
    - subst r. exact (spell_not_lacking i is I U).
    - subst r. destruct (is_file i) eqn:F.
      + destruct i; try discriminate F. cbn [spell app] in U. injection U as -> _. cbn [item_ok] in I. congruence.
      + destruct (spell_documented i is F) as (c' & x' & U' & D). rewrite U in U'. injection U' as <- _. exact (ND D). }
  induction is as [|i is IH]; intros [|j js] r r' I J E U U'; cbn [map concat app] in E.
  - split; [reflexivity|exact E].
  - exfalso. inversion J; subst. rewrite <- app_assoc in U. exact (H j _ _ H2 eq_refl U).
  - exfalso. inversion I; subst. rewrite <- app_assoc in U'. exact (H i _ _ H2 eq_refl U').
  - inversion I; inversion J; subst. rewrite <- !app_assoc in E. apply spell_unique in E; [|assumption|assumption].
    destruct E as [-> E]. destruct (IH js r r' H3 H7 E U U') as [-> ->]. split; reflexivity.
Qed.

Lemma unknown_rejected prog items a rest s : Forall item_ok items -> Forall argument (concat (map spell items) ++ a :: rest) ->
  option_like a = true -> ~ documented a ->
  parse_cmdline (prog :: concat (map spell items) ++ a :: rest) s =
  bind (interpret items (start s)) (fun o => match o with Done _ => Err ($"unknown option: " ++ a) | Exited e => Ok (Exited e) end).
Proof.
  intros I A O D. destruct (unread prog items (a :: rest) s I A) as (msg & E & M & _).
  - right. exists a, rest. auto.
  - rewrite E. rewrite (M a rest eq_refl D). reflexivity.
Qed.

Lemma lacking_message prog items rest s g : Forall item_ok items -> Forall argument (concat (map spell items) ++ rest) ->
  lacks_value rest -> interpret items (start s) = Ok (Done g) -> starts_with $"--" (hd [] rest) = false ->
  exists name why, (hd [] rest = name \/ hd [] rest = name ++ $"=") /\
    (why = $"requires an argument" \/ why = $"has an empty argument") /\
    (why = $"requires an argument" <-> rest = [name]) /\
    parse_cmdline (prog :: concat (map spell items) ++ rest) s = Err ($"option '" ++ name ++ $"' " ++ why).
Proof.
  intros I A L G S. destruct (unread prog items rest s I A (or_introl L)) as (msg & E & _ & M).
  destruct (M L) as (long & opt & why & H & W & X & ->). rewrite E, G. cbn [bind].
  destruct long.
  { exfalso. destruct H as [H|H]; rewrite H in S; discriminate S. }
  exists (dashes false ++ opt), (skipn 2 why). split; [rewrite <- app_assoc; exact H|].
  assert (Y : why = $"' " ++ skipn 2 why) by (destruct W as [-> | ->]; reflexivity).
  split; [destruct W as [-> | ->]; [left|right]; reflexivity|]. split.
  - rewrite <- X. destruct W as [-> | ->]; split; intros Q; try reflexivity; discriminate Q.
  - f_equal. cbn [shown]. rewrite Y at 1. rewrite <- !app_assoc. reflexivity.
Qed.

Lemma long_message_wrong : exists args msg, parse_cmdline ($"gendlopen" :: args) defaults = Err msg /\
  lacks_value args /\ find (hd [] args) msg = None.
Proof.
  exists [$"--format"], $"option '-fformat' requires an argument". split; [vm_compute; reflexivity|].
  split; [exact (value_missing true OFormat)|vm_compute; reflexivity].
Qed.

Lemma define_unterminated : exists d, ~ In nl d /\
  snd (preprocess (o_defines (add_def d defaults)) []) = [true] /\
  fst (preprocess (o_defines (add_def d defaults)) []) = [($"X", $"a#endif")].
Proof.
  exists ($"X=a" ++ [bslash]). split; [|split; vm_compute; reflexivity].
  cbn. intros X. repeat (destruct X as [X|X]; [discriminate X|]). exact X.
Qed.

Lemma format_accepted v f : read_format v = Ok f <-> In (map tolower v) (format_words f).
Proof.
  unfold read_format.
  replace (to_lower false v) with (map tolower v) by reflexivity. generalize (map tolower v) as w. intros w.
  split.
  - intros H.
    repeat match type of H with (if ?b then _ else _) = _ => destruct b eqn:?; [injection H as <-|] end; [..|discriminate H];
      repeat match goal with
      | H : (_ || _)%bool = true |- _ => apply orb_true_iff in H; destruct H
      | H : str_eqb _ _ = true |- _ => apply str_eqb_eq in H; subst w
      end; cbn [format_words In]; tauto.
  - destruct f; cbn [format_words In]; intros H; repeat (destruct H as [<-|H]; [reflexivity|]); destruct H.
Qed.
Lemma format_rejected v : (forall f, ~ In (map tolower v) (format_words f)) <-> read_format v = Err ($"unknown output format: " ++ v).
Proof.
  split.
  - intros H. destruct (read_format v) as [f|m| |] eqn:E.
    + exfalso. apply (H f). apply format_accepted. exact E.
    + revert E. unfold read_format. repeat match goal with |- context [if ?b then _ else _] => destruct b end; congruence.
    + revert E. unfold read_format. repeat match goal with |- context [if ?b then _ else _] => destruct b end; congruence.
    + revert E. unfold read_format. repeat match goal with |- context [if ?b then _ else _] => destruct b end; congruence.
  - intros H f I. apply format_accepted in I. congruence.
Qed.
Lemma param_accepted v m : argument v -> (read_param v = Ok m <-> map tolower v = param_word m).
Proof.
  intros A. unfold read_param, strcaseeq. rewrite !(c_str_argument v) by exact A.
  generalize (map tolower v) as w. intros w. split.
  - intros H.
    repeat match type of H with (if ?b then _ else _) = _ => destruct b eqn:E; [injection H as <-; apply str_eqb_eq in E; exact E|clear E] end.
    discriminate H.
  - destruct m; cbn [param_word]; intros ->; reflexivity.
Qed.
Lemma param_rejected v : argument v -> ((forall m, map tolower v <> param_word m) <-> read_param v = Err ($"parameter_names: unknown mode: " ++ v)).
Proof.
  intros A. split.
  - intros H. destruct (read_param v) as [f|m| |] eqn:E.
    + exfalso. apply (H f). apply param_accepted; assumption.
    + revert E. unfold read_param. repeat match goal with |- context [if ?b then _ else _] => destruct b end; congruence.
    + revert E. unfold read_param. repeat match goal with |- context [if ?b then _ else _] => destruct b end; congruence.
    + revert E. unfold read_param. repeat match goal with |- context [if ?b then _ else _] => destruct b end; congruence.
  - intros H m I. apply param_accepted in I; [|exact A]. congruence.
Qed.

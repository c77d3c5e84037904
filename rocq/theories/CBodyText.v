(** Proofs for C92: the syntax trees of common.c and c.c are what a compiler reads from the filled templates. *)
From Coq Require Import Ascii String List Bool Arith Lia.
From Verif Require Import Str StrFacts Parse ParamNames Prefix Substitute SpecPrefix SpecSubstitute Options Generate Templates SpecTemplates ShippedFacts
  SpecCLang SpecCProg SpecBody CTemplate CTemplateText CTemplatePP CBody.
Import ListNotations.

(* ---------------------------------------------------------------- values of placeholders *)

Lemma decl_lex s : declaration_text s -> forall m, m = MCode \/ (exists w, m = MWord w) ->
  (fst (lex_from m s) = MCode \/ exists w, fst (lex_from m s) = MWord w) /\ ~ In TEnd (snd (lex_from m s)).
Proof.
  induction 1 as [|c s Hc Hs IH]; intros m Hm; [cbn; split; [exact Hm|now intros []]|].
  assert (F : (is_ident c = true /\ fresh_char c = (MWord [c], [])) \/ (is_ident c = false /\ fst (fresh_char c) = MCode /\ ~ In TEnd (snd (fresh_char c)))).
  { unfold declaration_char in Hc. destruct (is_ident c) eqn:I; [left; split; [reflexivity|]; unfold fresh_char; now rewrite I|]. right.
    cbn [orb] in Hc. apply existsb_exists in Hc as (d & D & E). apply Ascii.eqb_eq in E; subst d.
    repeat (destruct D as [<-|D]; [split; [reflexivity|split; [reflexivity|cbn; intuition discriminate]]|]). contradiction. }
  assert (S : (fst (lex_char m c) = MCode \/ exists w, fst (lex_char m c) = MWord w) /\ ~ In TEnd (snd (lex_char m c))).
  { destruct Hm as [->|[w ->]]; cbn [lex_char].
    - destruct F as [[_ ->]|(_ & -> & N)]; [cbn; split; [right; now eexists|now intros []]|split; [now left|exact N]].
    - destruct F as [[-> _]|(-> & E & N)]; [cbn; split; [right; now eexists|now intros []]|]. unfold after; cbn [fst snd]. rewrite E. split; [now left|].
      intro I. apply in_app_iff in I as [I|I]; [|contradiction]. destruct (Ascii.eqb c "("); cbn in I; intuition discriminate. }
  cbn [lex_from]. destruct (lex_char m c) as [m1 t1]. cbn [fst snd] in S. destruct S as [S1 S2]. destruct (IH m1 S1) as [I1 I2].
  destruct (lex_from m1 s) as [m2 t2]. cbn [fst snd] in *. split; [exact I1|]. intro I. apply in_app_iff in I as [I|I]; contradiction.
Qed.
Lemma decl_fits v h : word_hole h = false -> declaration_text (v h) -> match h with HFuncPad | HObjPad => (exists n, own_tokens (v h) = [TWord n]) /\ ident_text (v (unpad h)) /\ exists k, v h = v (unpad h) ++ blanks k | _ => True end -> hole_fits v h.
Proof.
  intros W D P. unfold hole_fits. rewrite W. destruct (decl_lex _ D MCode (or_introl eq_refl)) as [A B]. split; [|split; [|exact P]].
  - destruct A as [->|[w ->]]; exact I.
  - unfold own_tokens. intro I. apply in_app_iff in I as [I|I]; [contradiction|]. destruct A as [E|[w E]]; rewrite E in I; cbn in I; intuition discriminate.
Qed.
Lemma pad_tokens s n : s <> [] -> ident_text s -> own_tokens (s ++ blanks n) = [TWord s].
Proof.
  intros N I. unfold own_tokens. rewrite lex_app, (word_start s N I). cbn [fst snd app].
  destruct n as [|n]; [reflexivity|]. change (blanks (S n)) with (sp :: blanks n). cbn [lex_from].
  change (lex_char (MWord s) sp) with (MCode, [TWord s]). cbv beta iota. now rewrite blanks_lex.
Qed.
Lemma decl_app a b : declaration_text a -> declaration_text b -> declaration_text (a ++ b).
Proof. apply Forall_app_2 || (intros; apply Forall_app; now split). Qed.
Lemma ident_decl s : ident_text s -> declaration_text s.
Proof. intro H. eapply Forall_impl; [|exact H]. intros c I. unfold declaration_char. now rewrite I. Qed.
Lemma blanks_decl n : declaration_text (blanks n).
Proof. induction n; constructor; [reflexivity|assumption]. Qed.

Lemma value_fits n e h : plain_proto e -> hole_fits (value_of n e) h.
Proof.
  intros (T & A & P & I & N).
  assert (D : forall s, forallb declaration_char s = true -> declaration_text s) by (intros s E; apply Forall_forall; now apply forallb_forall).
  destruct h; try (split; assumption); (apply decl_fits; [reflexivity| |]); cbn [value_of]; try exact Logic.I; try assumption;
    try (apply decl_app; [now apply ident_decl|apply blanks_decl]); try (split; [eexists; apply pad_tokens; assumption|split; [exact I|eexists; reflexivity]]); try constructor.
  destruct (void_type e); now apply D.
Qed.
Lemma symbol_fits b e h : plain_proto e -> hole_fits (symbol_value b e) h.
Proof.
  intro P. destruct h; try (match goal with |- hole_fits _ ?x => pose proof (value_fits 0 e x P) as V; exact V end). apply decl_fits; [reflexivity| |exact I].
  destruct P as (T & A & _). cbn [symbol_value]. unfold pointer_to. apply decl_app; [exact T|]. apply decl_app.
  - destruct (pointer_type e); repeat constructor.
  - destruct b; [|repeat constructor]. change (declaration_text ([" "; "("; "*"; ")"; "("]%char ++ p_args e ++ $")") -> False) in T || idtac.
    change ($"(*)(" ++ p_args e ++ $")") with (["("; "*"; ")"; "("]%char ++ p_args e ++ [")"]%char).
    apply decl_app; [repeat constructor|]. apply decl_app; [exact A|repeat constructor].
Qed.
Lemma env_holes c k v h : plain_config c -> In v (envs c k) -> hole_fits v h.
Proof.
  intros [F O] I. rewrite Forall_forall in F, O.
  destruct k; cbn [envs] in I; rewrite ?in_app_iff, ?in_map_iff in I; [destruct I as (e & <- & I); now apply value_fits, F|destruct I as (e & <- & I); now apply value_fits, O|].
  destruct I as [(e & <- & I)|(e & <- & I)]; apply symbol_fits; [now apply F|now apply O].
Qed.

(* ---------------------------------------------------------------- the texts of lines *)

(** no blank is left out behind these *)
Definition eats_none (h : hole) : bool := match h with HReturn | HType | HObjType => false | _ => true end.
Lemma fill_flat v eats l : (forall h, In h (holes l) -> eats h = false) -> fill v eats false l = iname v (schars l).
Proof.
  induction l as [|p l IH]; intro H; [reflexivity|]. destruct p as [s|h].
  - change (schars (Lit s :: l)) with (map SC s ++ schars l). rewrite iname_app, iname_lit, <- IH by (intros h I; apply H; exact I). now destruct s.
  - change (schars (Hole h :: l)) with (SH h :: schars l). change (iname v (SH h :: schars l)) with (v h ++ iname v (schars l)). cbn [fill].
    rewrite (H h) by now left. now rewrite IH by (intros h' I; apply H; now right).
Qed.
Lemma rename_parts_same l : map (rename_part $"GDO" $"gdo") l = l.
Proof. induction l as [|p l IH]; [reflexivity|]. cbn [map]. rewrite IH. destruct p; cbn [rename_part]; now rewrite ?rename_same. Qed.

Definition line_check (s : str) : bool :=
  match holes (parts 0 s) with
  | [] => true
  | h :: r => forallb eats_none (h :: r)
  end.
Lemma no_holes_text l : holes l = [] -> Forall (fun x => match x with SC _ => True | SH _ => False end) (schars l) /\ iname no_value (schars l) = line_text l.
Proof.
  induction l as [|p l IH]; intro H; [split; [constructor|reflexivity]|]. destruct p as [s|h]; [|discriminate].
  destruct (IH H) as [A B]. change (schars (Lit s :: l)) with (map SC s ++ schars l). split.
  - apply Forall_app; split; [|exact A]. apply Forall_forall. intros x I. apply in_map_iff in I as (a & <- & _). exact Logic.I.
  - rewrite iname_app, iname_lit, B. reflexivity.
Qed.

Lemma line_texts_ok c s : default_prefix c -> line_check s = true -> line_text (parts 0 s) = s ->
  map (fun t => t ++ [nl]) (expansion c s) = line_texts c (sline s).
Proof.
  intros [U L] C T. unfold expansion, sline, line_texts. rewrite U, L. unfold line_check in C.
  destruct (holes (parts 0 s)) as [|h r] eqn:H; cbn [fst snd map].
  - rewrite rename_same, iname_app. destruct (no_holes_text _ H) as [_ B]. now rewrite B, T.
  - rewrite rename_parts_same.
    assert (A : forall v eats, (forall h, eats_none h = true -> eats h = false) -> fill v eats false (parts 0 s) ++ [nl] = iname v (schars (parts 0 s) ++ [SC nl])).
    { intros v eats E. rewrite fill_flat, iname_app; [reflexivity|]. intros h' I. apply E. rewrite forallb_forall in C. apply C. now rewrite <- H. }
    assert (E : forall e h, eats_none h = true -> eats_of e h = false) by (now intros e []).
    destruct (hole_class h); cbn [copies envs]; rewrite ?map_app, ?map_map; [| |f_equal]; apply map_ext; intro e; apply A; try exact (E e); reflexivity.
Qed.

(* ---------------------------------------------------------------- trees as tokens *)

Section Trees.
Variables (cfg : str -> bool) (c : config).
Lemma utoks_app v a b : utoks v (a ++ b) = utoks v a ++ utoks v b.
Proof. unfold utoks. now rewrite itoks_app, unglued_app. Qed.
Lemma commas_utoks v l : utoks v (commas l) = with_commas (map (utoks v) l).
Proof.
  induction l as [|x l IH]; [reflexivity|]. destruct l as [|y l]; [reflexivity|].
  change (commas (x :: y :: l)) with (x ++ ko "," :: commas (y :: l)).
  change (with_commas (map (utoks v) (x :: y :: l))) with (utoks v x ++ pn "," :: with_commas (map (utoks v) (y :: l))).
  now rewrite utoks_app, <- IH.
Qed.
Lemma utoks_op v o l : utoks v (KOp o :: l) = TOp o :: utoks v l. Proof. reflexivity. Qed.
Lemma utoks_word v n l : utoks v (KWord n :: l) = TWord (iname v n) :: utoks v l. Proof. reflexivity. Qed.
Lemma utoks_text v n l : utoks v (KText n :: l) = TText (iname v n) :: utoks v l. Proof. reflexivity. Qed.
Lemma utoks_char v n l : utoks v (KChar n :: l) = TChar (iname v n) :: utoks v l. Proof. reflexivity. Qed.
Lemma utoks_nil v : utoks v [] = []. Proof. reflexivity. Qed.
Ltac ut := unfold ko, kw; repeat (rewrite ?utoks_app, ?utoks_op, ?utoks_word, ?utoks_text, ?utoks_char, ?utoks_nil, ?iname_lit, <- ?app_assoc; cbn [app]).

Fixpoint pe_ok (v : hole -> str) (e : texpr) {struct e} : utoks v (pe e) = print_e (inst_e v e).
Proof.
  destruct e; cbn [pe inst_e print_e]; ut; try rewrite !pe_ok; try reflexivity.
  rewrite commas_utoks, !map_map. do 2 f_equal. f_equal. f_equal. induction args as [|a args IH]; [reflexivity|]. cbn [map]. now rewrite pe_ok, IH.
Qed.
Fixpoint pt_ok (v : hole -> str) (s : tstmt) {struct s} : utoks v (pt s) = print_s (inst_t v s).
Proof.
  destruct s as [e|e yes|e|e]; cbn [pt inst_t print_s]; ut; rewrite ?pe_ok; try reflexivity.
  - assert (H : utoks v (flat_map pt yes) = flat_map print_s (map (inst_t v) yes)).
    { induction yes as [|y yes IH]; [reflexivity|]. cbn [flat_map map]. rewrite utoks_app, pt_ok, IH. reflexivity. }
    rewrite H. reflexivity.
  - destruct e as [e|]; cbn [option_map]; rewrite ?pe_ok; reflexivity.
Qed.

Definition on (g : list form) : bool := forallb (feval cfg) g.
Lemma outs_app a b : outs cfg c (a ++ b) = outs cfg c a ++ outs cfg c b.
Proof. apply flat_map_app. Qed.
Lemma outs_at g l : outs cfg c (at_ g l) = if on g then map PTok (utoks no_value l) else [].
Proof.
  unfold outs, at_, on. induction l as [|t l IH]; [now destruct (forallb _ g)|]. cbn [map flat_map]. rewrite IH. unfold iout; cbn [fst snd].
  destruct (forallb (feval cfg) g); [|reflexivity]. change (t :: l) with ([t] ++ l). now rewrite utoks_app, map_app.
Qed.
Lemma of_toks_back l : utoks no_value (map of_tok l) = unglued l.
Proof. unfold utoks. f_equal. unfold itoks. induction l as [|t l IH]; [reflexivity|]. cbn [map flat_map]. now rewrite of_tok_back, IH. Qed.

Lemma chain_tokens o (f : (hole -> str) -> expr) vs : forall e, print_e (fold_left (fun a v => EBin o a (f v)) vs e) = print_e e ++ flat_map (fun v => TOp o :: print_e (f v)) vs.
Proof.
  induction vs as [|v vs IH]; intro e; cbn [fold_left flat_map]; [now rewrite app_nil_r|]. rewrite IH. cbn [print_e]. now rewrite <- app_assoc.
Qed.
Lemma map_ptok_flat {A} (f : A -> list tok) l : flat_map (fun v => map PTok (f v)) l = map PTok (flat_map f l).
Proof. induction l as [|v l IH]; [reflexivity|]. cbn [flat_map]. now rewrite IH, map_app. Qed.

Fixpoint pb_ok (g : list form) (s : bstmt) {struct s} : outs cfg c (pb g s) = if on g then map PTok (flat_map print_s (inst_b cfg c s)) else [].
Proof.
  assert (L : forall g l, (fix go l := match l with [] => True | x :: r => (forall g, outs cfg c (pb g x) = if on g then map PTok (flat_map print_s (inst_b cfg c x)) else []) /\ go r end) l ->
                outs cfg c (flat_map (pb g) l) = if on g then map PTok (flat_map print_s (flat_map (inst_b cfg c) l)) else []).
  { clear. intros g l. induction l as [|x l IH]; [intros _; cbn; now destruct (on g)|]. intros [H1 H2]. cbn [flat_map]. rewrite outs_app, H1, (IH H2).
    destruct (on g); [|reflexivity]. now rewrite flat_map_app, map_app. }
  destruct s as [e|ty x array init|e yes no|e o each yes|e|e body|e| | |l|g' l]; cbn [pb inst_b].
  - rewrite outs_at. cbn [flat_map print_s]. rewrite app_nil_r. destruct (on g); [|reflexivity]. ut. now rewrite pe_ok.
  - rewrite outs_at. cbn [flat_map print_s]. rewrite app_nil_r. destruct (on g); [|reflexivity]. f_equal. rewrite utoks_app, of_toks_back.
    destruct array, init as [e|]; cbn [option_map app]; ut; rewrite ?pe_ok; reflexivity.
  - rewrite !outs_app, !outs_at, (L g yes).
    2:{ clear L. induction yes as [|y yes IH]; [exact I|]. split; [intro g0; apply pb_ok|exact IH]. }
    assert (N : outs cfg c match no with Some l => at_ g [kw "else"; ko "{"] ++ flat_map (pb g) l ++ at_ g [ko "}"] | None => [] end =
              if on g then map PTok match no with Some l => wd "else" :: pn "{" :: flat_map print_s (flat_map (inst_b cfg c) l) ++ [pn "}"] | None => [] end else []).
    { destruct no as [l|]; [|now destruct (on g)]. rewrite !outs_app, !outs_at, (L g l).
      2:{ clear L. induction l as [|y l IH]; [exact I|]. split; [intro g0; apply pb_ok|exact IH]. }
      destruct (on g); [|reflexivity]. rewrite <- !map_app. reflexivity. }
    rewrite N. destruct (on g); [|reflexivity]. rewrite <- !map_app. f_equal. cbn [flat_map print_s]. rewrite app_nil_r. ut. rewrite pe_ok.
    cbn [app]. rewrite <- ?app_assoc. destruct no as [l|]; reflexivity.
  - change ((g, GEach CSymbol (KOp o :: pe each)) :: at_ g [ko ")"; ko "{"] ++ flat_map (pb g) yes ++ at_ g [ko "}"]) with
      ([(g, GEach CSymbol (KOp o :: pe each))] ++ at_ g [ko ")"; ko "{"] ++ flat_map (pb g) yes ++ at_ g [ko "}"]).
    rewrite !outs_app, !outs_at, (L g yes).
    2:{ clear L. induction yes as [|y yes IH]; [exact I|]. split; [intro g0; apply pb_ok|exact IH]. }
    unfold outs at 1; cbn [flat_map]. unfold iout; cbn [fst snd]. fold (on g). destruct (on g); [|reflexivity]. rewrite app_nil_r.
    rewrite map_ptok_flat, <- !map_app. f_equal. cbn [flat_map print_s]. rewrite chain_tokens. ut. rewrite pe_ok. unfold ie.
    assert (M : forall vs, flat_map (fun v => utoks v (KOp o :: pe each)) vs = flat_map (fun v => TOp o :: print_e (inst_e v each)) vs).
    { induction vs as [|v vs IH]; [reflexivity|]. cbn [flat_map]. rewrite utoks_op, pe_ok, IH. reflexivity. }
    rewrite M. reflexivity.
  - rewrite outs_at. cbn [flat_map print_s]. rewrite app_nil_r. destruct (on g); [|reflexivity]. f_equal. destruct e as [e|]; cbn [option_map]; ut; rewrite ?pe_ok; reflexivity.
  - rewrite !outs_app, !outs_at, (L g body).
    2:{ clear L. induction body as [|y body IH]; [exact I|]. split; [intro g0; apply pb_ok|exact IH]. }
    destruct (on g); [|reflexivity]. rewrite <- !map_app. f_equal. cbn [flat_map print_s]. rewrite app_nil_r. ut. rewrite pe_ok. reflexivity.
  - rewrite outs_at. cbn [flat_map print_s]. rewrite app_nil_r. destruct (on g); [|reflexivity]. ut. now rewrite pe_ok.
  - rewrite outs_at. now destruct (on g).
  - rewrite outs_at. now destruct (on g).
  - unfold outs; cbn [flat_map]. unfold iout; cbn [fst snd]. fold (on g). destruct (on g); [|reflexivity]. rewrite app_nil_r, map_ptok_flat. f_equal.
    induction (envs c CSymbol) as [|v vs IH]; [reflexivity|]. cbn [flat_map]. rewrite flat_map_app, IH. f_equal.
    clear. induction l as [|x l IH]; [reflexivity|]. cbn [flat_map map]. now rewrite utoks_app, pt_ok, IH.
  - rewrite (L (g ++ g') l).
    2:{ clear L. induction l as [|y l IH]; [exact I|]. split; [intro g0; apply pb_ok|exact IH]. }
    unfold on. rewrite forallb_app. destruct (forallb (feval cfg) g); [|reflexivity]. cbn [andb]. now destruct (forallb (feval cfg) g').
Qed.

Lemma unglued_commas l : unglued (with_commas l) = with_commas (map unglued l).
Proof.
  induction l as [|x l IH]; [reflexivity|]. destruct l as [|y l]; [reflexivity|].
  change (with_commas (x :: y :: l)) with (x ++ pn "," :: with_commas (y :: l)).
  change (with_commas (map unglued (x :: y :: l))) with (unglued x ++ pn "," :: with_commas (map unglued (y :: l))).
  now rewrite unglued_app, <- IH.
Qed.
Lemma unglued_params ps : unglued (print_params ps) = print_params (map (fun p => (unglued (fst p), snd p)) ps).
Proof.
  destruct ps as [|p ps]; [reflexivity|]. unfold print_params. cbn [map]. rewrite unglued_commas. f_equal. cbn [map]. f_equal; [now rewrite unglued_app|].
  induction ps as [|q ps IH]; [reflexivity|]. cbn [map]. now rewrite unglued_app, IH.
Qed.
Lemma pi_ok x : outs cfg c (pi x) = if on (fst x) then flat_map print_i (inst_i cfg c (snd x)) else [].
Proof.
  destruct x as [g i]. unfold pi; cbn [fst snd]. destruct i as [head name params body|l|x m|x|k x l]; cbn [inst_i].
  - assert (L : outs cfg c (flat_map (pb g) body) = if on g then map PTok (flat_map print_s (flat_map (inst_b cfg c) body)) else []).
    { induction body as [|s body IH]; [cbn; now destruct (on g)|]. cbn [flat_map]. rewrite outs_app, pb_ok, IH. destruct (on g); [|reflexivity]. now rewrite flat_map_app, map_app. }
    rewrite !outs_app, !outs_at, L, of_toks_back. destruct (on g); [|reflexivity]. rewrite <- !map_app. cbn [flat_map print_i]. rewrite app_nil_r. f_equal.
    unfold print_f; cbn [f_head f_name f_params f_body]. rewrite unglued_app.
    change (unglued (TWord name :: pn "(" :: print_params params ++ [pn ")"; pn "{"])) with (TWord name :: pn "(" :: unglued (print_params params ++ [pn ")"; pn "{"])).
    rewrite unglued_app, unglued_params, <- !app_assoc. cbn [app]. rewrite <- app_assoc. reflexivity.
  - rewrite outs_at, of_toks_back. destruct (on g); [|reflexivity]. cbn [flat_map print_i]. now rewrite app_nil_r.
  - unfold outs; cbn [flat_map]. unfold iout; cbn [fst snd]. fold (on g). now destruct (on g).
  - unfold outs; cbn [flat_map]. unfold iout; cbn [fst snd]. fold (on g). now destruct (on g).
  - unfold outs; cbn [flat_map]. unfold iout; cbn [fst snd]. fold (on g). destruct (on g); [|reflexivity]. rewrite app_nil_r.
    induction (envs c k) as [|v vs IH]; [reflexivity|]. cbn [flat_map]. rewrite flat_map_app, <- IH. f_equal. now destruct (itok v x) as [|[] []].
Qed.
Lemma program_ok p : outs cfg c (pprogram p) = print (inst cfg c p).
Proof.
  induction p as [|x p IH]; [reflexivity|]. change (pprogram (x :: p)) with (pi x ++ pprogram p). rewrite outs_app, pi_ok, IH.
  unfold inst; cbn [flat_map]. unfold print; rewrite flat_map_app. unfold on. now destruct (forallb (feval cfg) (fst x)).
Qed.

(* ---------------------------------------------------------------- leaving out *)

Variable no : list str.
Hypothesis no_cfg : forall x, In x no -> cfg x = false.
Lemma tri_ok f b : tri no f = Some b -> feval cfg f = b.
Proof.
  revert b; induction f as [|x|f IH|f IHf g IHg|f IHf g IHg]; intros b E; cbn [tri] in E; cbn [feval].
  - now injection E as <-.
  - destruct (existsb (str_eqb x) no) eqn:X; [|discriminate]. injection E as <-. apply existsb_exists in X as (y & I & Y). apply str_eqb_eq in Y; subst y. now apply no_cfg.
  - destruct (tri no f) as [a|]; [|discriminate]. injection E as <-. now rewrite (IH a eq_refl).
  - destruct (tri no f) as [[]|]; [rewrite (IHf true eq_refl)|rewrite (IHf false eq_refl)|].
    + cbn [andb]. apply IHg. destruct (tri no g) as [[]|]; exact E || discriminate.
    + injection E as <-. reflexivity.
    + destruct (tri no g) as [[]|]; try discriminate. injection E as <-. rewrite (IHg false eq_refl). apply andb_false_r.
  - destruct (tri no f) as [[]|]; [rewrite (IHf true eq_refl)|rewrite (IHf false eq_refl)|].
    + injection E as <-. reflexivity.
    + cbn [orb]. apply IHg. destruct (tri no g) as [[]|]; exact E || discriminate.
    + destruct (tri no g) as [[]|]; try discriminate. injection E as <-. rewrite (IHg true eq_refl). apply orb_true_r.
Qed.
Lemma pruned_ok l : outs cfg c (flat_map (pruned no) l) = outs cfg c l.
Proof.
  induction l as [|[g o] l IH]; [reflexivity|]. cbn [flat_map]. rewrite outs_app, IH. change ((g, o) :: l) with ([(g, o)] ++ l). rewrite outs_app. f_equal.
  unfold pruned; cbn [fst snd]. destruct (existsb _ g) eqn:E.
  - apply existsb_exists in E as (f & I & T). destruct (tri no f) as [[]|] eqn:F; try discriminate. apply tri_ok in F.
    unfold outs; cbn [flat_map]. unfold iout; cbn [fst snd].
    assert (X : forallb (feval cfg) g = false). { apply not_true_is_false. intro A. rewrite forallb_forall in A. now rewrite (A f I) in F. }
    now rewrite X.
  - unfold outs; cbn [flat_map]. unfold iout; cbn [fst snd].
    assert (X : forallb (feval cfg) (filter (fun f => match tri no f with Some true => false | _ => true end) g) = forallb (feval cfg) g).
    { clear E. induction g as [|f g IHg]; [reflexivity|]. cbn [filter forallb]. destruct (tri no f) as [[]|] eqn:F; cbn [forallb]; rewrite IHg; [|reflexivity|reflexivity].
      now rewrite (tri_ok _ _ F). }
    now rewrite X.
Qed.
End Trees.

(* ---------------------------------------------------------------- the templates *)

Definition body_of (p : param_mode) : tprogram := body_first ++ match p with PSkip => [] | _ => body_wrap end ++ body_last.
Definition body_lines (p : param_mode) : list str := flat_map (fun t => shown_lines p true (inner_lines (shipped t))) [TCommonC; TCC].
Definition holes_fine (l : list str) : bool := forallb (fun s => line_check s && str_eqb (line_text (parts 0 s)) s) l.

Lemma read_ok c cfg lines o : default_prefix c -> plain_config c -> holes_fine lines = true -> sread lines = Some o ->
  preprocess cfg (concat (map (fun t => t ++ [nl]) (flat_map (expansion c) lines))) = Some (outs cfg c o).
Proof.
  intros D P H E. unfold sread in E. destruct (slex_lines SCode (map sline lines)) as [[m t]|] eqn:E1; [|discriminate]. destruct m; try discriminate.
  destruct (ssplit [] t) as [ls|] eqn:E2; [|discriminate]. destruct (spp (mksp [] [] []) ls) as [[[[|] d fr] o']|] eqn:E3; try discriminate. injection E as ->.
  assert (T : map (fun t => t ++ [nl]) (flat_map (expansion c) lines) = flat_map (line_texts c) (map sline lines)).
  { clear E1 E2 E3. induction lines as [|s lines IH]; [reflexivity|]. cbn [holes_fine forallb] in H. apply andb_true_iff in H as [H H'].
    apply andb_true_iff in H as [H1 H2]. apply str_eqb_eq in H2. cbn [flat_map map]. etransitivity; [apply map_app|].
    f_equal; [now apply line_texts_ok|exact (IH H')]. }
  rewrite T. assert (F : Forall (line_fits c) (map sline lines)).
  { apply Forall_forall. intros l I. apply in_map_iff in I as (s & <- & I). unfold line_fits, sline; cbn [fst snd]. destruct (holes (parts 0 s)) as [|h r] eqn:Hs.
    - apply Forall_app; split; [now apply no_holes_text|]. constructor; [exact Logic.I|constructor].
    - apply Forall_forall. intros v V. unfold fits. apply Forall_forall. intros x _. destruct x; [exact Logic.I|]. exact (env_holes c _ v h0 P V). }
  assert (NH : not_hole SCode) by exact Logic.I.
  destruct (slex_lines_ok c _ _ _ _ F NH E1) as [L _]. cbn [imode] in L.
  unfold preprocess, c_tokens. rewrite L. pose proof (ssplit_ok c t [] ls E2) as S. cbn [itoks flat_map] in S. rewrite S.
  assert (SF : Forall (sl_fits c) ls).
  { apply Forall_forall. intros l _. destruct l as [|k l]; [exact Logic.I|]. unfold sl_fits, env_fits. apply Forall_forall. intros v V. split; apply Forall_forall; intros x _; destruct x; try exact Logic.I.
    + pose proof (env_holes c k v h P V) as X. unfold hole_fits in X. destruct (word_hole h) eqn:W; [|now apply X]. destruct X as [X1 X2]. unfold own_tokens. rewrite (word_start _ X1 X2). cbn. intuition discriminate.
    + exact (env_holes c k v h P V). }
  assert (S0 : state_fits cfg (mksp [] [] []) (mkp [] [])) by (split; [constructor|]; now intros).
  destruct (lines_ok cfg c ls _ _ _ _ S0 SF E3) as (ps & Q & [G _]).
  rewrite Q. unfold groups_fit in G. cbn [sp_groups] in G. destruct ps as [pg pm]. cbn [p_groups] in G. inversion G; subst. reflexivity.
Qed.

Definition body_fact (p : param_mode) : Prop :=
  match sread (body_lines p) with Some o => flat_map (pruned absent) o = pprogram (body_of p) | None => False end /\ holes_fine (body_lines p) = true.
Lemma body_create : body_fact PCreate.
Proof. vm_compute. split; reflexivity. Qed.
Lemma body_skip : body_fact PSkip.
Proof. vm_compute. split; reflexivity. Qed.
Lemma body_read : body_fact PRead.
Proof. vm_compute. split; reflexivity. Qed.
Lemma body_facts p : body_fact p.
Proof. destruct p; [exact body_read|exact body_create|exact body_skip]. Qed.

Lemma read_prog c cfg lines prog : default_prefix c -> plain_config c -> (forall x, In x absent -> cfg x = false) ->
  match sread lines with Some o => flat_map (pruned absent) o = pprogram prog | None => False end -> holes_fine lines = true ->
  preprocess cfg (concat (map (fun t => t ++ [nl]) (flat_map (expansion c) lines))) = Some (print (inst cfg c prog)).
Proof.
  intros D P A R H. destruct (sread lines) as [o|] eqn:E; [|contradiction].
  rewrite (read_ok c cfg _ o D P H E), <- program_ok, <- R. f_equal. symmetry. now apply pruned_ok.
Qed.
Lemma shown_two c a b : c_line c = false -> flat_map (lines_shown c) [a; b] = flat_map (fun l => shown_lines (c_param c) true (inner_lines l)) [a; b].
Proof. intro L. unfold lines_shown. now rewrite L. Qed.
Lemma shown_body p : flat_map (fun l => shown_lines p true (inner_lines l)) [shipped TCommonC; shipped TCC] = body_lines p.
Proof. unfold body_lines. cbn [flat_map]. generalize (shipped TCommonC) (shipped TCC). reflexivity. Qed.

Theorem body_text c cfg : c_line c = false -> default_prefix c -> plain_config c -> (forall x, In x absent -> cfg x = false) ->
  preprocess cfg (concat (filled_texts c [shipped TCommonC; shipped TCC])) = Some (print (inst cfg c (body_of (c_param c)))).
Proof.
  intros L D P A. unfold filled_texts. rewrite (shown_two c _ _ L), (shown_body (c_param c)).
  pose proof (body_facts (c_param c)) as F. unfold body_fact in F. destruct F as [R H].
  generalize dependent (body_lines (c_param c)). intros lines R H. generalize dependent (body_of (c_param c)). intros prog R.
  exact (read_prog c cfg lines prog D P A R H).
Qed.

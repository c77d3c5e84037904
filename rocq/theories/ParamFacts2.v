(** More about parameter names: created names, and the whole parse step. *)
From Coq Require Import Ascii String List Bool Arith NArith ZArith Lia.
From Coq Require Import ZifyBool ZifyNat ZifyN.
From Verif Require Import Str StrFacts NumFacts CheckPattern Parse SpecParse ParseFacts ParseFacts2 ParamNames ParamFacts SelectFacts SpecTables.
Import ListNotations.
Local Open Scope Z_scope.

Lemma gen_name_inj a b : gen_name a = gen_name b -> a = b.
Proof. unfold gen_name. intro H. apply app_inv_head in H. now apply nat_to_string_inj. Qed.

Lemma gen_names_NoDup k n : NoDup (map gen_name (List.seq k n)).
Proof.
  apply FinFun.Injective_map_NoDup; [|apply seq_NoDup]. intros a b. apply gen_name_inj.
Qed.



Lemma created_names k vs ts ns : created k vs ts ns -> ~ In ellipsis vs -> ns = map gen_name (List.seq k (length vs)).
Proof.
  induction 1 as [k|k vs ts ns H IH|k v w t vs ts ns Hi Ht H IH]; intro Hn.
  - easy.
  - exfalso. apply Hn. now left.
  - cbn [length List.seq map]. f_equal. apply IH. intro X. apply Hn. now right.
Qed.
Lemma created_texts k vs ts ns : created k vs ts ns -> ~ In ellipsis vs ->
  Forall2 (fun iv t => exists w, insert_name (gen_name (fst iv)) (snd iv) w /\ (t = unwords w \/ t = unwords w ++ $" "))
    (combine (List.seq k (length vs)) vs) ts.
Proof.
  induction 1 as [k|k vs ts ns H IH|k v w t vs ts ns Hi Ht H IH]; intro Hn.
  - constructor.
  - exfalso. apply Hn. now left.
  - cbn [length List.seq combine]. constructor; [|apply IH; intro X; apply Hn; now right].
    exists w. auto.
Qed.

Lemma app_eq_app_len {A} (a b c d : list A) : a ++ b = c ++ d -> length a = length c -> b = d.
Proof.
  revert c; induction a as [|x a IH]; intros [|y c] H L; try easy. cbn in *. injection H as _ H. injection L as L. eauto.
Qed.



Lemma create_accepts vs : Forall (Forall lexeme) vs -> Forall nameable vs -> forall sym k args names,
  exists A N, create_loop sym k args names vs = Ok (A, N).
Proof.
  intros HL HN. induction HN as [|v vs Hv HN IH]; intros sym k args names; cbn [create_loop]; [eauto|].
  inversion HL as [|? ? Hlv HL']; subst. specialize (IH HL').
  destruct Hv as [->|(n & w & Hi)].
  - cbn [ellipsis]. change (starts_with $"*" $"...") with false. change (vsize [$"..."] =? 1) with true.
    change (str_eqb $"..." $"...") with true. cbn [andb]. apply IH.
  - assert (Hty : exists ty b, v = ty ++ b /\ type_tokens ty /\ match b with [] => True | x :: _ => tyish x = false end).
    { destruct Hi as [v0 Ht|ty s ps Ht Hs|ty ps Ht|ty i Ht].
      - exists v0, []. now rewrite app_nil_r.
      - exists ty. eexists. split; [reflexivity|]. split; [easy|]. easy.
      - exists ty. eexists. split; [reflexivity|]. split; [easy|]. easy.
      - exists ty. eexists. split; [reflexivity|]. split; [easy|]. easy. }
    destruct Hty as (ty & b & Hv & Ht & Hb).
    pose proof (type_tokens_tyish _ Ht) as Htt.
    destruct ty as [|t0 ty0] eqn:Ety; [easy|]. destruct v as [|f v0] eqn:Ev; [easy|].
    assert (f = t0) by (injection Hv; auto). subst f. rewrite <- Ev in *. rewrite <- Ety in *.
    assert (Ht0 : ident_word t0) by (rewrite Ety in Ht; apply Ht).
    rewrite (not_star_start t0) by now apply ident_front.
    replace (str_eqb t0 $"...") with false.
    2:{ symmetry. apply str_eqb_neq. intros ->. destruct Ht0 as [_ X]. inversion X as [|? ? Y _]; subst. vm_compute in Y. easy. }
    rewrite andb_false_r.
    assert (Hf : find_first_not_pointer_or_ident v = vsize ty) by (rewrite Hv; now apply find_first_app).
    rewrite Hf. destruct (vsize ty =? vsize v) eqn:Esz; [apply IH|].
    assert (Hbn : b <> []). { intros ->. rewrite app_nil_r in Hv. subst v. rewrite Hv in Esz. lia. }
    assert (Htn : ty <> []) by (rewrite Ety; easy).
    unfold is_function_pointer, is_function_pointer_no_name, is_array_no_name. rewrite Hv.
    destruct (check_pattern_spec q_function_pointer ty b) as (rf & -> & Hrf); [gf|ge|easy|]. cbn [bind].
    destruct (check_pattern_spec q_function_pointer_no_name ty b) as (rn & Ern & Hrn); [gf|ge|easy|].
    destruct (check_pattern_spec q_array_no_name ty b) as (ra & Era & Hra); [gf|ge|easy|].
    assert (Hor : rf = true \/ rn = true \/ ra = true).
    { clear Ern Era. destruct Hi as [v1 Ht1|ty1 s ps Ht1 Hs|ty1 ps Ht1|ty1 i Ht1].
      - exfalso. apply type_tokens_tyish in Ht1. destruct b as [|x b]; [easy|]. rewrite Hv in Ht1. apply Forall_app in Ht1 as [_ X].
        inversion X; subst. congruence.
      - left. apply Hrf. split; [easy|].
        assert (b = [$"("; $"*"; s; $")"; $"("] ++ ps ++ [$")"]) as ->.
        { assert (Hf1 : find_first_not_pointer_or_ident (ty1 ++ [$"("; $"*"; s; $")"; $"("] ++ ps ++ [$")"]) = vsize ty1)
            by (apply find_first_app; [now apply type_tokens_tyish|easy]).
          rewrite Hf in Hf1. eapply app_eq_app_len; [symmetry; exact Hv|]. unfold vsize in Hf1. lia. }
        exists [$"("; $"*"; s; $")"; $"("], ps, [$")"]. cbn. split; [easy|].
        split; repeat constructor. apply (ident_front _ Hs).
      - right; left. apply Hrn. split; [easy|].
        assert (b = [$"("; $"*"; $")"; $"("] ++ ps ++ [$")"]) as ->.
        { assert (Hf1 : find_first_not_pointer_or_ident (ty1 ++ [$"("; $"*"; $")"; $"("] ++ ps ++ [$")"]) = vsize ty1)
            by (apply find_first_app; [now apply type_tokens_tyish|easy]).
          rewrite Hf in Hf1. eapply app_eq_app_len; [symmetry; exact Hv|]. unfold vsize in Hf1. lia. }
        exists [$"("; $"*"; $")"; $"("], ps, [$")"]. cbn. split; [easy|]. split; repeat constructor.
      - right; right. apply Hra. split; [easy|].
        assert (b = [$"["] ++ i ++ [$"]"]) as ->.
        { assert (Hf1 : find_first_not_pointer_or_ident (ty1 ++ [$"["] ++ i ++ [$"]"]) = vsize ty1)
            by (apply find_first_app; [now apply type_tokens_tyish|easy]).
          rewrite Hf in Hf1. eapply app_eq_app_len; [symmetry; exact Hv|]. unfold vsize in Hf1. lia. }
        exists [$"["], i, [$"]"]. cbn. split; [easy|]. split; repeat constructor. }
    assert (Hlong : rf = true \/ rn = true -> 2 <= vsize b /\ (rf = true -> 3 <= vsize b)).
    { intros Hx. assert (Hr3 : rf = true -> 3 <= vsize b).
      { intro X. apply Hrf in X as (_ & m & c & e & -> & Hm & _). cbn in Hm. apply Forall2_length in Hm.
        rewrite vsize_app. pose proof (vsize_nonneg (c ++ e)). unfold vsize at 1. cbn in Hm. lia. }
      split; [|exact Hr3]. destruct Hx as [X|X]; [specialize (Hr3 X); lia|].
      apply Hrn in X as (_ & m & c & e & -> & Hm & _). cbn in Hm. apply Forall2_length in Hm.
      rewrite vsize_app. pose proof (vsize_nonneg (c ++ e)). unfold vsize at 1. cbn in Hm. lia. }
    pose proof (vsize_nonneg ty). pose proof (vsize_nonneg b).
    assert (Hslice : forall i j, 0 <= i <= j -> j <= vsize (ty ++ b) -> exists l, slice (ty ++ b) i j = Ok l).
    { intros i j Hij Hj. unfold slice. replace ((0 <=? i) && (i <=? j) && (j <=? vsize (ty ++ b))) with true by lia. eauto. }
    rewrite vsize_app in *.
    destruct rf.
    { cbn [bind orb]. destruct (Hlong (or_introl eq_refl)) as [Hl2 Hl3]. specialize (Hl3 eq_refl).
      destruct (Hslice 0 (vsize ty + 2)) as (l1 & ->); [lia|lia|]. cbn [bind].
      destruct (Hslice (vsize ty + 3) (vsize ty + vsize b)) as (l2 & ->); [lia|lia|]. cbn [bind]. apply IH. }
    rewrite Ern. cbn [bind orb]. destruct rn.
    { destruct (Hlong (or_intror eq_refl)) as [Hl2 _].
      destruct (Hslice 0 (vsize ty + 2)) as (l1 & ->); [lia|lia|]. cbn [bind].
      destruct (Hslice (vsize ty + 2) (vsize ty + vsize b)) as (l2 & ->); [lia|lia|]. cbn [bind]. apply IH. }
    rewrite Era. cbn [bind]. destruct ra; [|destruct Hor as [?|[?|?]]; easy].
    destruct (Hslice 0 (vsize ty)) as (l1 & ->); [lia|lia|]. cbn [bind].
    destruct (Hslice (vsize ty) (vsize ty + vsize b)) as (l2 & ->); [lia|lia|]. cbn [bind]. apply IH.
Qed.

(* ---------------------------------------------------------------- all parameters of a function *)

Lemma comma_join_lexemes gs : Forall lexeme (comma_join gs) -> Forall (Forall lexeme) gs.
Proof.
  induction gs as [|g [|h gs] IH]; intro H; [constructor|constructor; auto|].
  rewrite comma_join_cons in H. apply Forall_app in H as [H1 H]. apply Forall_app in H as [_ H].
  constructor; auto.
Qed.
Lemma copy_parameters_lexemes l : Forall lexeme l -> Forall (Forall lexeme) (copy_parameters l).
Proof.
  intro H. destruct (copy_parameters_spec_aux (length l) l (le_n _) H) as (gs & -> & _ & _ & [[E _]|(_ & _ & E)]);
    rewrite E in H; [|apply Forall_app in H as [H _]]; now apply comma_join_lexemes.
Qed.

(** what do_params records for a function with the parameters [vs] *)
Definition read_ok (vs : list (list str)) (args names : str) : Prop :=
  args = unwords (comma_join vs) /\ exists ns, Forall2 own_name vs ns /\ names = join $", " (somes ns).
Definition create_ok (vs : list (list str)) (args names : str) : Prop :=
  exists ts ns, created 1 vs ts ns /\ args = join $", " ts /\ names = join $", " ns.
Definition skip_ok (vs : list (list str)) (args names : str) : Prop :=
  args = unwords (comma_join vs) /\ names = [].


Definition params_ok (m : param_mode) (vs : list (list str)) (args names : str) : Prop :=
  (vs = [] /\ args = [] /\ names = []) \/
  (exists t, vs = [[t]] /\ strcaseeq t $"void" = true /\ args = t /\ names = []) \/
  (vs <> [] /\ ~ void_param vs /\
   match m with PRead => read_ok vs args names | PCreate => create_ok vs args names | PSkip => skip_ok vs args names end).

Lemma param_void_or_empty_spec p :
  match param_void_or_empty p with
  | Some p' => (p_args_vec p = [] /\ p' = p) \/ (exists t, p_args_vec p = [[t]] /\ strcaseeq t $"void" = true /\ p' = set_args p t)
  | None => p_args_vec p <> [] /\ ~ void_param (p_args_vec p)
  end.
Proof.
  unfold param_void_or_empty, void_param. destruct (p_args_vec p) as [|v [|v2 vs]] eqn:E.
  - left. auto.
  - destruct v as [|t [|t2 v]].
    + split; [easy|]. intros (t & X & _). easy.
    + destruct (strcaseeq t $"void") eqn:Et; [right; eauto|]. split; [easy|].
      intros (t' & X & Y). injection X as <-. congruence.
    + split; [easy|]. intros (t' & X & _). easy.
  - split; [easy|]. intros (t' & X & _). easy.
Qed.

Lemma do_params_spec m p : p_args p = [] -> p_param_names p = [] -> Forall (Forall lexeme) (p_args_vec p) ->
  match do_params m p with
  | Ok p' => p_kind p' = p_kind p /\ p_type p' = p_type p /\ p_symbol p' = p_symbol p /\ p_args_vec p' = p_args_vec p /\
             (is_function_kind p = true -> params_ok m (p_args_vec p) (p_args p') (p_param_names p')) /\
             (is_function_kind p = false -> p' = p)
  | Err _ => True
  | _ => False
  end.
Proof.
  intros Ha Hn Hl. pose proof (param_void_or_empty_spec p) as Hv.
  destruct m; cbn [do_params]; unfold get_parameter_names, create_parameter_names;
  (destruct (is_function_kind p) eqn:Ek; cbn [negb]; [|repeat split; auto; discriminate]);
  (destruct (param_void_or_empty p) as [p'|];
   [destruct Hv as [[Hv ->]|(t & Hv & Ht & ->)]; [repeat split; auto; try discriminate; intros _; left; auto|
      repeat split; auto; try discriminate; intros _; right; left; exists t; auto] |]).
  - pose proof (read_names_sound (p_args_vec p) (p_symbol p) (p_param_names p)) as X.
    destruct (read_names_loop _ _ _); auto. cbn [bind]. repeat split; auto; try discriminate. intros _. right; right.
    destruct Hv as [Hv1 Hv2]. split; [easy|]. split; [easy|]. cbn [p_args p_param_names set_args_names].
    destruct X as (ns & HF & ->). rewrite Hn, Ha. cbn [app]. rewrite delete_terminated. split; [now apply copied_args_text|]. eauto.
  - pose proof (create_sound (p_args_vec p) Hl (p_symbol p) 1 (p_args p) (p_param_names p)) as X.
    destruct (create_loop _ _ _ _ _) as [[A N]| | |]; auto. cbn [bind fst snd]. repeat split; auto; try discriminate. intros _. right; right.
    destruct Hv as [Hv1 Hv2]. split; [easy|]. split; [easy|]. cbn [p_args p_param_names set_args_names].
    destruct X as (ts & ns & HF & -> & ->). rewrite Hn, Ha. cbn [app]. rewrite !delete_terminated. exists ts, ns. auto.
  - repeat split; auto; try discriminate. intros _. right; right.
    destruct Hv as [Hv1 Hv2]. split; [easy|]. split; [easy|]. cbn [p_args p_param_names set_args].
    rewrite Ha, Hn. split; [now apply copied_args_text|easy].
Qed.

(* ---------------------------------------------------------------- the parse step as a whole *)

Lemma parse_tokens_total vec :
  exists r, parse_tokens vec = Ok r /\
    (Forall (Forall lexeme) vec -> forall ps, r = Some ps ->
       exists ds, Forall decl_ok ds /\ map written ds = vec /\ ps = map proto_of ds).
Proof.
  induction vec as [|v vec (r & Hr & IH)]; cbn [parse_tokens].
  - exists (Some []). split; [easy|]. intros _ ps [= <-]. exists []. repeat split; constructor.
  - destruct (check_prototype_total v) as (o & -> & Ho). cbn [bind]. destruct o as [p|].
    + rewrite Hr. cbn [bind]. eexists. split; [reflexivity|]. intros Hl ps Hps.
      inversion Hl as [|? ? Hl1 Hl2]; subst. destruct r as [ps'|]; [|easy]. injection Hps as <-.
      destruct (Ho Hl1 p eq_refl) as (d & Hd & Hw & ->). destruct (IH Hl2 ps' eq_refl) as (ds & Hds & Hws & ->).
      exists (d :: ds). cbn [map]. rewrite Hw, Hws. repeat split; auto.
    + exists None. split; [easy|]. discriminate.
Qed.

(** what the tables say about a declaration *)
Definition recorded (m : param_mode) (d : decl) (p : proto) : Prop :=
  p_kind p = decl_kind d /\ p_symbol p = decl_name d /\ p_type p = decl_type d /\
  match decl_kind d with
  | KFunction => p_args_vec p = copy_parameters (decl_params d) /\
                 params_ok m (copy_parameters (decl_params d)) (p_args p) (p_param_names p)
  | _ => p_args p = [] /\ p_param_names p = [] /\ p_args_vec p = []
  end.

Lemma mapR_recorded m ds : Forall (fun d => Forall lexeme (written d)) ds ->
  match mapR (do_params m) (map proto_of ds) with
  | Ok ps => Forall2 (recorded m) ds ps
  | Err _ => True
  | _ => False
  end.
Proof.
  intro H. induction H as [|d ds Hd H IH]; cbn [map mapR]; [constructor|].
  assert (Hlp : Forall lexeme (decl_params d)).
  { destruct d; cbn [written decl_params] in *; try constructor; rewrite !Forall_app in Hd; tauto. }
  assert (Hlv : Forall (Forall lexeme) (p_args_vec (proto_of d))).
  { unfold proto_of. cbn [p_args_vec]. destruct (decl_kind d); try constructor. now apply copy_parameters_lexemes. }
  pose proof (do_params_spec m (proto_of d) eq_refl eq_refl Hlv) as X.
  destruct (do_params m (proto_of d)) as [p'| | |] eqn:E; cbn [bind]; auto.
  destruct (mapR (do_params m) (map proto_of ds)) as [ps'| | |]; cbn [bind]; auto.
  constructor; auto. destruct X as (X1 & X2 & X3 & X4 & X5 & X6).
  unfold recorded. split; [easy|]. split; [easy|]. split; [easy|].
  unfold proto_of in *. unfold is_function_kind in *. cbn [p_kind p_args_vec p_args p_param_names] in *.
  destruct (decl_kind d) eqn:Ek; try (rewrite (X6 eq_refl); cbn; auto); auto.
Qed.

Lemma gdo_parse_spec m pfx syms name vec : Forall (Forall lexeme) vec ->
  match gdo_parse m pfx syms name vec with
  | Ok t => exists ds ps, ds <> [] /\ Forall decl_ok ds /\ map written ds = vec /\ NoDup (map decl_name ds) /\
              Forall2 (recorded m) ds ps /\ missing syms ps = [] /\ selected pfx syms ps <> [] /\
              t = tables_of (selected pfx syms ps)
  | Err _ => True
  | _ => False
  end.
Proof.
  intro Hl. unfold gdo_parse. destruct (parse_tokens_total vec) as (r & -> & Hr). cbn [bind].
  destruct r as [ps|]; [|easy]. destruct (Hr Hl ps eq_refl) as (ds & Hok & Hw & ->).
  destruct (map proto_of ds) as [|p0 ps0] eqn:E0; [easy|]. rewrite <- E0.
  destruct (multiple_definitions (map proto_of ds)) eqn:Em; [easy|].
  apply multiple_definitions_None in Em. rewrite map_map in Em. cbn [p_symbol proto_of] in Em.
  assert (Hlw : Forall (fun d => Forall lexeme (written d)) ds).
  { subst vec. rewrite Forall_map in Hl. exact Hl. }
  pose proof (mapR_recorded m ds Hlw) as X.
  destruct (mapR (do_params m) (map proto_of ds)) as [ps| | |]; cbn [with_prefix bind]; auto.
  assert (Hsy : map p_symbol ps = map decl_name ds).
  { clear - X. induction X as [|d p ds ps Hd X IH]; cbn; [easy|]. destruct Hd as (_ & -> & _). now rewrite IH. }
  rewrite select_spec by now rewrite Hsy.
  destruct (missing syms ps) eqn:Emi; [|easy].
  destruct (selected pfx syms ps) eqn:Es; [easy|].
  exists ds, ps. rewrite Es. repeat split; auto; try easy.
  intros ->. easy.
Qed.

(** The parser properties in the form in which they are stated in PropertiesParse.v. *)
From Coq Require Import Ascii String List Bool Arith NArith ZArith Lia Sorted.
From Coq Require Import ZifyBool ZifyNat ZifyN.
From Verif Require Import Str StrFacts NumFacts CheckPattern Parse SpecParse ParseFacts ParseFacts2 ParamNames ParamFacts
  ParamFacts2 SelectFacts SpecTables.
Import ListNotations.
Local Open Scope Z_scope.

(** deciding [lexeme], for examples *)
Definition lexemeb (t : str) : bool :=
  (match t with [] => false | _ => forallb is_ident t end) ||
  existsb (str_eqb t) [$"*"; $","; $"("; $")"; $"["; $"]"; $"..."].
Lemma lexemeb_sound t : lexemeb t = true -> lexeme t.
Proof.
  unfold lexemeb. rewrite orb_true_iff. intros [H|H].
  - left. destruct t; [easy|]. split; [easy|]. now apply Forall_forall, forallb_forall.
  - right. now apply existsb_str_In in H.
Qed.
Lemma lexemes_sound v : forallb lexemeb v = true -> Forall lexeme v.
Proof. intro H. apply Forall_forall. intros x Hx. apply lexemeb_sound. rewrite forallb_forall in H. auto. Qed.

Definition identb (t : str) : bool := match t with [] => false | _ => forallb is_ident t end.
Lemma identb_sound t : identb t = true -> ident_word t.
Proof. unfold identb. destruct t; [easy|]. intro H. split; [easy|]. now apply Forall_forall, forallb_forall. Qed.
Definition type_tokensb (ty : list str) : bool :=
  match ty with [] => false | t :: r => identb t && forallb (fun t => identb t || str_eqb t $"*") r end.
Lemma type_tokensb_sound ty : type_tokensb ty = true -> type_tokens ty.
Proof.
  destruct ty as [|t r]; [easy|]. cbn. intro H. apply andb_prop in H as [H1 H2]. split; [now apply identb_sound|].
  apply Forall_forall. intros x Hx. rewrite forallb_forall in H2. specialize (H2 x Hx). apply orb_prop in H2 as [H2|H2].
  - left. now apply identb_sound.
  - right. now apply str_eqb_eq.
Qed.
Lemma decl_okb_sound d : type_tokensb (decl_type_tokens d) && identb (decl_name d) = true -> decl_ok d.
Proof. intro H. apply andb_prop in H as [H1 H2]. split; [now apply type_tokensb_sound|now apply identb_sound]. Qed.

(* ---- C07 *)

Lemma prototype_defined v : defined (check_prototype v).
Proof. now destruct (check_prototype_total v) as (r & -> & _). Qed.
Lemma read_defined sym names vs : defined (read_names_loop sym names vs).
Proof. pose proof (read_names_sound vs sym names) as X. now destruct (read_names_loop sym names vs). Qed.
Lemma parse_defined m pfx syms name vec : Forall (Forall lexeme) vec -> defined (gdo_parse m pfx syms name vec).
Proof. intro H. pose proof (gdo_parse_spec m pfx syms name vec H) as X. now destruct (gdo_parse m pfx syms name vec). Qed.

(* ---- C08 *)

Lemma split_lossless v p : Forall lexeme v -> check_prototype v = Ok (Some p) ->
  exists d, decl_ok d /\ written d = v /\
    p_kind p = decl_kind d /\ p_symbol p = decl_name d /\ p_type p = decl_type d /\
    (decl_params d = comma_join (p_args_vec p) \/ decl_params d = comma_join (p_args_vec p) ++ [$","]).
Proof.
  intros Hl Hp. destruct (check_prototype_total v) as (r & Hr & Hx). rewrite Hr in Hp. injection Hp as ->.
  destruct (Hx Hl p eq_refl) as (d & Hd & Hw & ->). exists d. split; [easy|]. split; [easy|]. split; [easy|]. split; [easy|]. split; [easy|].
  assert (Hlp : Forall lexeme (decl_params d)).
  { subst v. destruct d; cbn [written decl_params] in *; try constructor; rewrite !Forall_app in Hl; tauto. }
  destruct (copy_parameters_spec_aux _ _ (le_n _) Hlp) as (gs & Hc & _ & _ & Hor).
  unfold proto_of. cbn [p_args_vec].
  destruct d; cbn [decl_kind decl_params] in *; try (left; reflexivity); rewrite Hc; destruct Hor as [[-> _]|(_ & _ & ->)]; auto.
Qed.

Definition trailing_comma : list str := [$"int"; $"f"; $"("; $"int"; $"a"; $","; $")"].
Lemma split_loses_comma : exists v p, Forall lexeme v /\ check_prototype v = Ok (Some p) /\ p_kind p = KFunction /\
  forall d, decl_kind d = KFunction -> decl_params d = comma_join (p_args_vec p) -> written d <> v.
Proof.
  exists trailing_comma. eexists. split.
  { now apply lexemes_sound. }
  split; [vm_compute; reflexivity|]. split; [reflexivity|].
  intros d Hk Hp H. apply (f_equal (@rev str)) in H.
  assert (Hps : decl_params d = [$"int"; $"a"]) by exact Hp. clear Hp.
  destruct d as [ty n|ty n i|ty n ps|ty n ps|two ty n ps|ty n ps]; try discriminate; cbn [decl_params] in Hps; subst ps;
    cbn [written] in H; rewrite ?rev_app_distr in H; cbn in H; try (injection H; discriminate).
Qed.

(* ---- C09 *)

Lemma accepts d gs : decl_ok d -> (paren_form d -> single_or_pointer (decl_type_tokens d)) ->
  decl_params d = comma_join gs -> Forall (Forall lexeme) gs -> Forall no_top_comma gs -> closed_groups gs ->
  (gs = [] \/ last gs [] <> []) ->
  exists p, check_prototype (written d) = Ok (Some p) /\
    p_kind p = decl_kind d /\ p_symbol p = decl_name d /\ p_type p = decl_type d /\
    (decl_kind d = KFunction -> p_args_vec p = gs).
Proof.
  intros Hd Hf Hp H1 H2 H3 H4. exists (proto_of d). split; [now apply check_prototype_accepts|].
  unfold proto_of; cbn [p_kind p_symbol p_type p_args_vec]. repeat split; auto.
  intros ->. rewrite Hp. now apply copy_parameters_join.
Qed.

(* ---- C10 *)

Lemma multiword_fptr ty s n ps : type_tokens ty -> ident_word s ->
  exists p, check_prototype (written (DFunctionPointer (ty ++ [s]) n ps)) = Ok (Some p) /\
    p_symbol p = s /\ p_kind p = KFunction.
Proof.
  intros Ht Hs. exists (proto_of (DFunction ty s ($"*" :: n :: $")" :: $"(" :: ps))). split; [|easy].
  replace (written (DFunctionPointer (ty ++ [s]) n ps)) with (written (DFunction ty s ($"*" :: n :: $")" :: $"(" :: ps)))
    by (cbn [written app]; now rewrite <- app_assoc).
  apply check_prototype_accepts; [now split|easy].
Qed.
Lemma multiword_refuted : exists d, decl_ok d /\ decl_kind d = KFunctionPointer /\
  forall p, check_prototype (written d) = Ok (Some p) -> p_symbol p <> decl_name d.
Proof.
  exists (DFunctionPointer [$"unsigned"; $"int"] $"fp" [$"int"]).
  split; [now apply decl_okb_sound|]. split; [easy|].
  intros p H. vm_compute in H. injection H as <-. vm_compute. discriminate.
Qed.

(* ---- C11 *)

Lemma groups_spec l : Forall lexeme l ->
  Forall no_top_comma (copy_parameters l) /\ closed_groups (copy_parameters l) /\
  (l = comma_join (copy_parameters l) \/ l = comma_join (copy_parameters l) ++ [$","]).
Proof.
  intro H. destruct (copy_parameters_spec_aux _ _ (le_n _) H) as (gs & -> & H1 & H2 & [[-> _]|(_ & _ & ->)]); auto.
Qed.
Lemma groups_refuted : exists l, Forall lexeme l /\ l <> comma_join (copy_parameters l).
Proof.
  exists [$"int"; $","]. split.
  - now apply lexemes_sound.
  - vm_compute. discriminate.
Qed.

(* ---- C12 - C14 *)

Lemma recorded_symbols m ds ps : Forall2 (recorded m) ds ps -> map p_symbol ps = map decl_name ds.
Proof. induction 1 as [|d p ds ps Hd X IH]; cbn; [easy|]. destruct Hd as (_ & -> & _). now rewrite IH. Qed.

Lemma NoDup_filter_map {A B} (f : A -> B) (q : A -> bool) l : NoDup (map f l) -> NoDup (map f (filter q l)).
Proof.
  induction l as [|a l IH]; cbn; [auto|]. intro H. inversion H; subst. destruct (q a); cbn; auto.
  constructor; auto. intro X. apply H2. apply in_map_iff in X as (b & Hb & Hin). apply filter_In in Hin as [Hin _].
  rewrite <- Hb. now apply in_map.
Qed.
Lemma NoDup_map_app {A B} (f : A -> B) a b : NoDup (map f a) -> NoDup (map f b) ->
  (forall x y, In x a -> In y b -> f x <> f y) -> NoDup (map f (a ++ b)).
Proof.
  intros Ha Hb Hx. rewrite map_app. induction a as [|x a IH]; cbn in *; [easy|]. inversion Ha; subst.
  constructor.
  - rewrite in_app_iff. intros [X|X]; [easy|]. apply in_map_iff in X as (y & Hy & Hin). exact (Hx x y (or_introl eq_refl) Hin (eq_sym Hy)).
  - apply IH; auto.
Qed.
Lemma NoDup_map_inj {A B} (f : A -> B) l x y : NoDup (map f l) -> In x l -> In y l -> f x = f y -> x = y.
Proof.
  induction l as [|a l IH]; cbn; [easy|]. intros H [->|Hx] [->|Hy] E; inversion H; subst; auto.
  - exfalso. apply H2. rewrite E. now apply in_map.
  - exfalso. apply H2. rewrite <- E. now apply in_map.
Qed.
Lemma split_NoDup {A} (f : A -> str) (q : A -> bool) l r : NoDup (map f l) -> (forall x, r x = negb (q x)) ->
  NoDup (map f (filter q l ++ filter r l)).
Proof.
  intros H Hr. apply NoDup_map_app; try now apply NoDup_filter_map.
  intros x y Hx Hy E. apply filter_In in Hx as [Hx Qx]. apply filter_In in Hy as [Hy Qy].
  assert (x = y) by (eapply NoDup_map_inj; eauto). subst. rewrite Hr, Qx in Qy. easy.
Qed.

Lemma selected_NoDup pfx syms l : NoDup (map p_symbol l) -> NoDup (map p_symbol (selected pfx syms l)).
Proof.
  intro H.
  assert (Hs : NoDup (map p_symbol (filter (by_prefix pfx) l ++ filter (fun p => by_list syms p && negb (by_prefix pfx p)) l))).
  { apply NoDup_map_app; try now apply NoDup_filter_map.
    intros x y Hx Hy E. apply filter_In in Hx as [Hx Qx]. apply filter_In in Hy as [Hy Qy].
    assert (x = y) by (eapply NoDup_map_inj; eauto). subst. rewrite Qx, andb_false_r in Qy. easy. }
  unfold selected. destruct pfx, syms; auto.
Qed.



Lemma by_prefix_spec pfx p : p_symbol p <> [] -> by_prefix pfx p = true <-> exists x r, In x pfx /\ p_symbol p = x ++ r.
Proof.
  unfold by_prefix, is_prefixed. intro Hn. destruct (p_symbol p) as [|c s] eqn:E; [easy|].
  destruct pfx as [|y pfx]; [split; [easy|intros (x & r & [] & _)]|].
  rewrite existsb_exists. split.
  - intros (x & Hx & Hs). apply starts_with_spec in Hs as (r & Hr). exists x, r. auto.
  - intros (x & r & Hx & Hr). exists x. split; [easy|]. rewrite Hr. apply starts_with_spec. eauto.
Qed.
Lemma by_list_spec syms p : by_list syms p = true <-> In (p_symbol p) syms.
Proof. unfold by_list. apply existsb_str_In. Qed.

Lemma selected_In pfx syms l p : Forall (fun q => p_symbol q <> []) l ->
  In p (selected pfx syms l) <-> In p l /\ wanted pfx syms (p_symbol p).
Proof.
  intro Hne. rewrite Forall_forall in Hne.
  assert (Hs : pfx <> [] \/ syms <> [] ->
    In p (filter (by_prefix pfx) l ++ filter (fun p => by_list syms p && negb (by_prefix pfx p)) l) <->
    In p l /\ wanted pfx syms (p_symbol p)).
  { intro Hn. rewrite in_app_iff, !filter_In. unfold wanted. split.
    - intros [[Hi Hp]|[Hi Hp]]; (split; [easy|]).
      + right; left. apply by_prefix_spec; auto.
      + right; right. apply andb_prop in Hp as [Hp _]. now apply by_list_spec.
    - intros [Hi [[-> ->]|[Hw|Hw]]].
      + destruct Hn; easy.
      + left. split; [easy|]. apply by_prefix_spec; auto.
      + destruct (by_prefix pfx p) eqn:E; [now left|]. right. split; [easy|]. apply by_list_spec in Hw. now rewrite Hw. }
  unfold selected. destruct pfx as [|x pfx], syms as [|y syms]; try (apply Hs; (now left) || now right).
  unfold wanted. tauto.
Qed.

Lemma tables_In l p : In p (t_funcs (tables_of l) ++ t_objs (tables_of l)) <-> In p l.
Proof.
  unfold tables_of, isf, isn. cbn [t_funcs t_objs]. rewrite in_app_iff, !filter_In.
  destruct (is_function_kind p); cbn; intuition.
Qed.

Lemma recorded_nonempty m ds ps : Forall decl_ok ds -> Forall2 (recorded m) ds ps -> Forall (fun q => p_symbol q <> []) ps.
Proof.
  intros Hd H. induction H as [|d p ds ps Hr H IH]; [constructor|]. inversion Hd as [|? ? [_ Hd1] Hd2]; subst. constructor; auto.
  destruct Hr as (_ & -> & _). apply Hd1.
Qed.

Lemma parse_names_distinct m pfx syms name vec t : Forall (Forall lexeme) vec ->
  gdo_parse m pfx syms name vec = Ok t -> NoDup (map p_symbol (t_funcs t ++ t_objs t)).
Proof.
  intros Hl H. pose proof (gdo_parse_spec m pfx syms name vec Hl) as X. rewrite H in X.
  destruct X as (ds & ps & _ & _ & _ & Hnd & Hrec & _ & _ & ->).
  unfold tables_of, isf, isn. cbn [t_funcs t_objs]. apply split_NoDup; [|easy].
  apply selected_NoDup. now rewrite (recorded_symbols _ _ _ Hrec).
Qed.

Lemma parse_tokens_accepts ds : Forall decl_ok ds ->
  Forall (fun d => paren_form d -> single_or_pointer (decl_type_tokens d)) ds ->
  parse_tokens (map written ds) = Ok (Some (map proto_of ds)).
Proof.
  intros H1 H2. induction ds as [|d ds IH]; [easy|]. inversion H1; inversion H2; subst. cbn [map parse_tokens].
  rewrite check_prototype_accepts by auto. cbn [bind]. rewrite IH by auto. easy.
Qed.

Lemma duplicate_reported m pfx syms name ds : Forall decl_ok ds ->
  Forall (fun d => paren_form d -> single_or_pointer (decl_type_tokens d)) ds ->
  ~ NoDup (map decl_name ds) ->
  exists s l1 l2 l3, map decl_name ds = l1 ++ s :: l2 ++ s :: l3 /\
    gdo_parse m pfx syms name (map written ds) = Err (name ++ nl :: $"multiple definitions of symbol `" ++ s ++ $"' found").
Proof.
  intros H1 H2 H3. unfold gdo_parse. rewrite parse_tokens_accepts by auto. cbn [bind].
  assert (Hm : map p_symbol (map proto_of ds) = map decl_name ds) by now rewrite map_map.
  destruct (map proto_of ds) as [|p0 ps0] eqn:E0.
  - exfalso. apply H3. destruct ds; [constructor|easy].
  - rewrite <- E0 in *. destruct (multiple_definitions (map proto_of ds)) as [s|] eqn:Em.
    + apply multiple_definitions_Some in Em as (l1 & p & l2 & q & l3 & El & Hp & Hq).
      exists s, (map p_symbol l1), (map p_symbol l2), (map p_symbol l3). split; [|easy].
      rewrite <- Hm, El, !map_app. cbn [map]. rewrite map_app. cbn [map]. now rewrite Hp, Hq.
    + exfalso. apply multiple_definitions_None in Em. rewrite Hm in Em. easy.
Qed.

Lemma parse_selects m pfx syms name vec t : Forall (Forall lexeme) vec ->
  gdo_parse m pfx syms name vec = Ok t ->
  exists ds ps, Forall decl_ok ds /\ map written ds = vec /\ Forall2 (recorded m) ds ps /\
    (forall p, In p (t_funcs t ++ t_objs t) <-> In p ps /\ wanted pfx syms (p_symbol p)) /\
    NoDup (map p_symbol (t_funcs t ++ t_objs t)) /\
    (forall p, In p (t_funcs t) -> p_kind p = KFunction) /\ (forall p, In p (t_objs t) -> p_kind p <> KFunction) /\
    (pfx = [] -> syms = [] -> t_funcs t = filter is_function_kind ps /\
                              t_objs t = filter (fun p => negb (is_function_kind p)) ps).
Proof.
  intros Hl H. pose proof (parse_names_distinct _ _ _ _ _ _ Hl H) as Hnd.
  pose proof (gdo_parse_spec m pfx syms name vec Hl) as X. rewrite H in X.
  destruct X as (ds & ps & _ & Hok & Hw & _ & Hrec & _ & _ & ->). exists ds, ps.
  split; [easy|]. split; [easy|]. split; [easy|]. split.
  { intro p. rewrite tables_In. apply selected_In. eapply recorded_nonempty; eauto. }
  split; [easy|]. unfold tables_of. cbn [t_funcs t_objs]. split; [|split].
  - intros p Hp. apply filter_In in Hp as [_ Hp]. unfold isf, is_function_kind in Hp. now destruct (p_kind p).
  - intros p Hp. apply filter_In in Hp as [_ Hp]. unfold isn, is_function_kind in Hp. now destruct (p_kind p).
  - intros -> ->. easy.
Qed.

Lemma missing_reported m pfx syms name ds ps : Forall decl_ok ds ->
  Forall (fun d => paren_form d -> single_or_pointer (decl_type_tokens d)) ds ->
  NoDup (map decl_name ds) -> ds <> [] -> Forall (fun d => Forall lexeme (written d)) ds ->
  mapR (do_params m) (map proto_of ds) = Ok ps ->
  ((exists s, In s syms /\ ~ In s (map decl_name ds)) ->
     exists l, gdo_parse m pfx syms name (map written ds) =
        Err ($"the following symbols were not found:" ++ concat (map (fun e => sp :: e) l)) /\
        StronglySorted str_lt l /\ (forall s, In s l <-> In s syms /\ ~ In s (map decl_name ds))) /\
  ((forall s, In s syms -> In s (map decl_name ds)) -> (forall s, In s (map decl_name ds) -> ~ wanted pfx syms s) ->
     gdo_parse m pfx syms name (map written ds) = Err ($"no function or object prototypes found in " ++ name)) /\
  ((forall s, In s syms -> In s (map decl_name ds)) -> (exists s, In s (map decl_name ds) /\ wanted pfx syms s) ->
     exists t, gdo_parse m pfx syms name (map written ds) = Ok t).
Proof.
  intros H1 H2 H3 H0 Hlx H4. unfold gdo_parse. rewrite parse_tokens_accepts by auto. cbn [bind].
  destruct (map proto_of ds) as [|p0 ps0] eqn:E0; [destruct ds; easy|]. rewrite <- E0 in *.
  rewrite multiple_definitions_NoDup by (rewrite map_map; exact H3).
  pose proof (mapR_recorded m ds Hlx) as Hrec. rewrite H4 in Hrec. pose proof (recorded_symbols _ _ _ Hrec) as H5.
  pose proof (recorded_nonempty _ _ _ H1 Hrec) as Hne.
  rewrite H4. cbn [with_prefix bind]. rewrite select_spec by now rewrite H5.
  assert (Hmi : forall s, In s (missing syms ps) <-> In s syms /\ ~ In s (map decl_name ds)).
  { intro s. unfold missing. rewrite filter_In, negb_true_iff, existsb_str_notIn, H5. tauto. }
  assert (Hm0 : (forall s, In s syms -> In s (map decl_name ds)) -> missing syms ps = []).
  { intro Hall. destruct (missing syms ps) as [|s r] eqn:E; [easy|]. exfalso. destruct (proj1 (Hmi s)) as [A B]; [now left|].
    apply B, Hall, A. }
  split; [|split].
  - intros (s & Hs). exists (sort_dedup (missing syms ps)). destruct (missing syms ps) as [|x r] eqn:E.
    + exfalso. apply (proj2 (Hmi s)); auto.
    + split; [easy|]. split; [apply sort_dedup_sorted|]. intro y. rewrite sort_dedup_In, <- Hmi. easy.
  - intros Hall Hno. rewrite (Hm0 Hall). destruct (selected pfx syms ps) as [|p l] eqn:E; [easy|]. exfalso.
    assert (Hp : In p (selected pfx syms ps)) by (rewrite E; now left).
    apply selected_In in Hp as [Hp Hw]; [|easy]. apply (Hno (p_symbol p)); [|easy]. rewrite <- H5. now apply in_map.
  - intros Hall (s & Hs & Hw). rewrite (Hm0 Hall). destruct (selected pfx syms ps) as [|p l] eqn:E; [|eauto]. exfalso.
    rewrite <- H5 in Hs. apply in_map_iff in Hs as (p & <- & Hp).
    assert (In p (selected pfx syms ps)) as X by (apply selected_In; auto). rewrite E in X. easy.
Qed.

(* ---- C13, C14 relative to the run without filters *)

Lemma parse_front m name vec : Forall (Forall lexeme) vec ->
  exists r, (forall pfx syms, gdo_parse m pfx syms name vec = bind r (select pfx syms name)) /\ defined r /\
    forall ps, r = Ok ps -> NoDup (map p_symbol ps) /\ Forall (fun q => p_symbol q <> []) ps /\ ps <> [].
Proof.
  intro Hl. unfold gdo_parse. destruct (parse_tokens_total vec) as (r & -> & Hr). cbn [bind].
  destruct r as [ps|]; [|eexists (Err _); split; [reflexivity|easy]].
  destruct (Hr Hl ps eq_refl) as (ds & Hok & Hw & ->).
  destruct (map proto_of ds) as [|p0 ps0] eqn:E0; [eexists (Err _); split; [reflexivity|easy]|]. rewrite <- E0.
  destruct (multiple_definitions (map proto_of ds)) eqn:Em; [eexists (Err _); split; [reflexivity|easy]|].
  apply multiple_definitions_None in Em. rewrite map_map in Em. cbn [p_symbol proto_of] in Em.
  assert (Hlw : Forall (fun d => Forall lexeme (written d)) ds).
  { subst vec. rewrite Forall_map in Hl. exact Hl. }
  pose proof (mapR_recorded m ds Hlw) as X.
  exists (with_prefix name (mapR (do_params m) (map proto_of ds))). split; [easy|].
  destruct (mapR (do_params m) (map proto_of ds)) as [ps| | |]; cbn [with_prefix]; try easy.
  split; [easy|]. intros ps' [= <-]. split; [now rewrite (recorded_symbols _ _ _ X)|].
  split; [eapply recorded_nonempty; eauto|]. intros ->. inversion X. subst ds. easy.
Qed.

Lemma starts_some_spec pfx s : existsb (fun x => starts_with x s) pfx = true <-> exists x r, In x pfx /\ s = x ++ r.
Proof.
  rewrite existsb_exists. split.
  - intros (x & Hx & Hs). apply starts_with_spec in Hs as (r & Hr). eauto.
  - intros (x & r & Hx & Hr). exists x. split; [easy|]. apply starts_with_spec. eauto.
Qed.

Lemma filter_swap {A} (f g : A -> bool) l : filter f (filter g l) = filter g (filter f l).
Proof.
  induction l as [|a l IH]; cbn; [easy|]. destruct (f a) eqn:F, (g a) eqn:G; cbn; rewrite ?F, ?G, IH; easy.
Qed.


Lemma tables_pick pfx syms l :
  tables_of (selected pfx syms l) = mktab (pick pfx syms (filter isf l)) (pick pfx syms (filter isn l)).
Proof.
  unfold tables_of, selected, pick. destruct pfx, syms; try easy; rewrite !filter_app;
    rewrite !(filter_swap isf), !(filter_swap isn); easy.
Qed.

Lemma filtered_run m name vec pfx syms t : Forall (Forall lexeme) vec -> gdo_parse m pfx syms name vec = Ok t ->
  exists t0, gdo_parse m [] [] name vec = Ok t0 /\
    t_funcs t = pick pfx syms (t_funcs t0) /\ t_objs t = pick pfx syms (t_objs t0) /\
    NoDup (map p_symbol (t_funcs t ++ t_objs t)) /\
    (forall p, In p (t_funcs t) <-> In p (t_funcs t0) /\ wanted pfx syms (p_symbol p)) /\
    (forall p, In p (t_objs t) <-> In p (t_objs t0) /\ wanted pfx syms (p_symbol p)).
Proof.
  intros Hl H. pose proof (parse_names_distinct _ _ _ _ _ _ Hl H) as Hnd.
  destruct (parse_front m name vec Hl) as (r & Hr & Hd & Hps). rewrite Hr in *.
  destruct r as [ps| | |]; try easy. cbn [bind] in *. destruct (Hps ps eq_refl) as (H1 & H2 & H3).
  rewrite select_spec in H by auto. destruct (missing syms ps); [|easy].
  destruct (selected pfx syms ps) as [|q l] eqn:E; [easy|]. rewrite <- E in H. injection H as <-.
  exists (tables_of ps). split; [rewrite select_spec by auto; now destruct ps|].
  assert (Hpick : forall l p, (forall q, In q l -> In q ps) -> In p (pick pfx syms l) <-> In p l /\ wanted pfx syms (p_symbol p)).
  { intros l' p Hsub. change (pick pfx syms l') with (selected pfx syms l'). apply selected_In.
    rewrite Forall_forall in *. auto. }
  rewrite tables_pick in *. cbn [t_funcs t_objs tables_of] in *. split; [easy|]. split; [easy|]. split; [easy|].
  split; intro p; apply Hpick; intros ? X; now apply filter_In in X.
Qed.



Lemma filtered_errors m name vec pfx syms t0 : Forall (Forall lexeme) vec -> gdo_parse m [] [] name vec = Ok t0 ->
  ((exists s, In s syms /\ ~ In s (names_of t0)) ->
     exists l, gdo_parse m pfx syms name vec =
        Err ($"the following symbols were not found:" ++ concat (map (fun e => sp :: e) l)) /\
        StronglySorted str_lt l /\ (forall s, In s l <-> In s syms /\ ~ In s (names_of t0))) /\
  ((forall s, In s syms -> In s (names_of t0)) -> (forall s, In s (names_of t0) -> ~ wanted pfx syms s) ->
     gdo_parse m pfx syms name vec = Err ($"no function or object prototypes found in " ++ name)) /\
  ((forall s, In s syms -> In s (names_of t0)) -> (exists s, In s (names_of t0) /\ wanted pfx syms s) ->
     exists t, gdo_parse m pfx syms name vec = Ok t).
Proof.
  intros Hl H. destruct (parse_front m name vec Hl) as (r & Hr & Hd & Hps). rewrite Hr in *.
  destruct r as [ps| | |]; try easy. cbn [bind] in *. destruct (Hps ps eq_refl) as (H1 & H2 & H3).
  rewrite select_spec in H by auto. cbn [missing filter selected] in H.
  assert (Ht : t0 = tables_of ps) by (destruct ps; [easy|now injection H]). subst t0. clear H.
  rewrite select_spec by auto.
  assert (Hin : forall s, In s (names_of (tables_of ps)) <-> In s (map p_symbol ps)).
  { intro s. unfold names_of. rewrite !in_map_iff. split; intros (p & Hp & Hi); exists p; (split; [easy|]); now apply tables_In. }
  assert (Hmi : forall s, In s (missing syms ps) <-> In s syms /\ ~ In s (names_of (tables_of ps))).
  { intro s. unfold missing. rewrite filter_In, negb_true_iff, existsb_str_notIn, Hin. tauto. }
  assert (Hm0 : (forall s, In s syms -> In s (names_of (tables_of ps))) -> missing syms ps = []).
  { intro Hall. destruct (missing syms ps) as [|s r] eqn:E; [easy|]. exfalso. destruct (proj1 (Hmi s)) as [A B]; [now left|].
    apply B, Hall, A. }
  split; [|split].
  - intros (s & Hs). exists (sort_dedup (missing syms ps)). destruct (missing syms ps) as [|x r] eqn:E.
    + exfalso. apply (proj2 (Hmi s)); auto.
    + split; [easy|]. split; [apply sort_dedup_sorted|]. intro y. rewrite sort_dedup_In, <- Hmi. easy.
  - intros Hall Hno. rewrite (Hm0 Hall). destruct (selected pfx syms ps) as [|p l] eqn:E; [easy|]. exfalso.
    assert (Hp : In p (selected pfx syms ps)) by (rewrite E; now left).
    apply selected_In in Hp as [Hp Hw]; [|easy]. apply (Hno (p_symbol p)); [|easy]. apply Hin. now apply in_map.
  - intros Hall (s & Hs & Hw). rewrite (Hm0 Hall). destruct (selected pfx syms ps) as [|p l] eqn:E; [|eauto]. exfalso.
    apply Hin in Hs. apply in_map_iff in Hs as (p & <- & Hp).
    assert (In p (selected pfx syms ps)) as X by (apply selected_In; auto). rewrite E in X. easy.
Qed.

(* ---- C15, C16 *)

Definition plain_params (vs : list (list str)) : Prop := vs <> [] /\ ~ void_param vs.

Lemma with_params_function m p vs : p_kind p = KFunction -> p_args p = [] -> p_param_names p = [] -> p_args_vec p = vs ->
  Forall (Forall lexeme) vs ->
  match do_params m p with
  | Ok p' => p_kind p' = KFunction /\ p_type p' = p_type p /\ p_symbol p' = p_symbol p /\
             params_ok m vs (p_args p') (p_param_names p')
  | Err _ => True
  | _ => False
  end.
Proof.
  intros Hk Ha Hn Hv Hl. subst vs. pose proof (do_params_spec m p Ha Hn Hl) as X. destruct (do_params m p); auto.
  destruct X as (X1 & X2 & X3 & X4 & X5 & X6). rewrite X1. repeat split; auto. apply X5. unfold is_function_kind. now rewrite Hk.
Qed.

Lemma create_total_names p vs : p_kind p = KFunction -> p_args p = [] -> p_param_names p = [] -> p_args_vec p = vs ->
  Forall (Forall lexeme) vs -> vs <> [] -> ~ void_param vs -> ~ In ellipsis vs ->
  (forall p', do_params PCreate p = Ok p' ->
     p_param_names p' = join $", " (map gen_name (List.seq 1 (length vs))) /\
     NoDup (map gen_name (List.seq 1 (length vs))) /\
     exists ts, p_args p' = join $", " ts /\
       Forall2 (fun iv t => exists w, insert_name (gen_name (fst iv)) (snd iv) w /\ (t = unwords w \/ t = unwords w ++ $" "))
         (combine (List.seq 1 (length vs)) vs) ts) /\
  (Forall nameable vs -> exists p', do_params PCreate p = Ok p').
Proof.
  intros Hk Ha Hn Hv Hl Hne Hvo Hel. split.
  - intros p' Hp. pose proof (with_params_function PCreate p vs Hk Ha Hn Hv Hl) as X. rewrite Hp in X.
    destruct X as (_ & _ & _ & [[X _]|[(t & X & Y & _)|(_ & _ & ts & ns & Hc & HA & HN)]]).
    + easy.
    + exfalso. apply Hvo. exists t. auto.
    + rewrite HN, (created_names _ _ _ _ Hc Hel). split; [easy|]. split; [apply gen_names_NoDup|].
      exists ts. split; [easy|]. now apply created_texts with ns.
  - intro Hna. cbn [do_params]. unfold create_parameter_names. unfold is_function_kind. rewrite Hk. cbn [negb].
    pose proof (param_void_or_empty_spec p) as Y. destruct (param_void_or_empty p); [eauto|].
    rewrite Hv. destruct (create_accepts vs Hl Hna (p_symbol p) 1 (p_args p) (p_param_names p)) as (A & N & ->).
    cbn [bind]. eauto.
Qed.


Lemma read_loop_accepts vs ns : Forall2 rd_param vs ns -> forall sym names,
  read_names_loop sym names vs = Ok (delete_suffix (names ++ terminated (somes ns)) $", ").
Proof.
  induction 1 as [|v o vs ns Hv H IH]; intros sym names.
  - cbn. unfold terminated. cbn. now rewrite app_nil_r.
  - destruct o as [n|].
    + destruct Hv as (d & Hd & Hf & <- & <-). rewrite read_names_step by auto. rewrite IH. unfold terminated. cbn [somes map concat].
      now rewrite <- !app_assoc.
    + cbn in Hv. subst v. cbn [read_names_loop ellipsis]. change (str_eqb $"..." $"...") with true. cbv iota. apply IH.
Qed.

Lemma read_total p vs ns : p_kind p = KFunction -> p_args p = [] -> p_param_names p = [] -> p_args_vec p = vs ->
  Forall (Forall lexeme) vs -> vs <> [] -> ~ void_param vs -> Forall2 rd_param vs ns ->
  exists p', do_params PRead p = Ok p' /\ p_args p' = unwords (comma_join vs) /\ p_param_names p' = join $", " (somes ns).
Proof.
  intros Hk Ha Hn Hv Hl Hne Hvo Hr. cbn [do_params]. unfold get_parameter_names. unfold is_function_kind. rewrite Hk. cbn [negb].
  pose proof (param_void_or_empty_spec p) as Y. destruct (param_void_or_empty p) as [q|].
  - exfalso. rewrite Hv in Y. destruct Y as [[Y _]|(t & Y & Z0 & _)]; [easy|]. apply Hvo. exists t. auto.
  - rewrite Hv, (read_loop_accepts vs ns Hr). cbn [bind]. eexists. split; [reflexivity|]. cbn [p_args p_param_names set_args_names].
    rewrite Ha, Hn, copied_args_text by auto. split; [easy|]. cbn [app]. apply delete_terminated.
Qed.

(* ---- C48: the names used in a forwarded call are identifiers *)
Lemma create_variadic_refuted : exists p p', p_kind p = KFunction /\ p_args p = [] /\ p_param_names p = [] /\
  Forall (Forall lexeme) (p_args_vec p) /\ do_params PCreate p = Ok p' /\ p_param_names p' = $"a1, ... ".
Proof.
  exists (mkproto KFunction $"int " $"f" [] [[$"int"]; [$"..."]] []). eexists.
  split; [easy|]. split; [easy|]. split; [easy|]. split.
  - constructor; [|constructor; [|constructor]]; now apply lexemes_sound.
  - split; vm_compute; reflexivity.
Qed.

Lemma unfiltered_complete m name vec t : Forall (Forall lexeme) vec ->
  gdo_parse m [] [] name vec = Ok t ->
  exists ds ps, Forall decl_ok ds /\ map written ds = vec /\
    Forall2 (fun d p => p_kind p = decl_kind d /\ p_symbol p = decl_name d /\ p_type p = decl_type d) ds ps /\
    t_funcs t = filter is_function_kind ps /\ t_objs t = filter (fun p => negb (is_function_kind p)) ps.
Proof.
  intros Hl H. destruct (parse_selects _ _ _ _ _ _ Hl H) as (ds & ps & H1 & H2 & H3 & _ & _ & _ & _ & H4).
  exists ds, ps. destruct (H4 eq_refl eq_refl). repeat split; auto.
  clear - H3. induction H3 as [|d p ds ps Hd H IH]; constructor; auto. unfold recorded in Hd. tauto.
Qed.

Lemma created_ellipsis p vs p' : p_kind p = KFunction -> p_args p = [] -> p_param_names p = [] -> p_args_vec p = vs ->
  Forall (Forall lexeme) vs -> vs <> [] -> ~ void_param vs -> do_params PCreate p = Ok p' ->
  exists ts ns, created 1 vs ts ns /\ p_args p' = join $", " ts /\ p_param_names p' = join $", " ns.
Proof.
  intros Hk Ha Hn Hv Hl Hne Hvo Hp. pose proof (with_params_function PCreate p vs Hk Ha Hn Hv Hl) as X. rewrite Hp in X.
  destruct X as (_ & _ & _ & [[X _]|[(t & X & Y & _)|(_ & _ & X)]]); [easy| |exact X].
  exfalso. apply Hvo. exists t. auto.
Qed.
Lemma read_own p vs p' : p_kind p = KFunction -> p_args p = [] -> p_param_names p = [] -> p_args_vec p = vs ->
  Forall (Forall lexeme) vs -> vs <> [] -> ~ void_param vs -> do_params PRead p = Ok p' ->
  p_args p' = unwords (comma_join vs) /\
  exists ns, Forall2 own_name vs ns /\ p_param_names p' = join $", " (somes ns).
Proof.
  intros Hk Ha Hn Hv Hl Hne Hvo Hp. pose proof (with_params_function PRead p vs Hk Ha Hn Hv Hl) as X. rewrite Hp in X.
  destruct X as (_ & _ & _ & [[X _]|[(t & X & Y & _)|(_ & _ & X)]]); [easy| |exact X].
  exfalso. apply Hvo. exists t. auto.
Qed.
Lemma void_or_empty m p : p_kind p = KFunction -> p_args p = [] -> p_param_names p = [] ->
  p_args_vec p = [] \/ void_param (p_args_vec p) ->
  exists p', do_params m p = Ok p' /\ p_param_names p' = [] /\ p_args p' = concat (concat (p_args_vec p)).
Proof.
  intros Hk Ha Hn Hv. assert (X : exists p', param_void_or_empty p = Some p' /\ p_param_names p' = [] /\
    p_args p' = concat (concat (p_args_vec p))).
  { unfold param_void_or_empty. destruct Hv as [->|(t & -> & Ht)].
    - exists p. auto.
    - rewrite Ht. eexists. split; [reflexivity|]. cbn. now rewrite app_nil_r. }
  destruct X as (p' & Hp & X). exists p'. split; [|exact X].
  destruct m; cbn [do_params]; unfold get_parameter_names, create_parameter_names, is_function_kind; rewrite Hk, Hp; easy.
Qed.
Lemma read_forwarded p p' : p_kind p = KFunction -> p_args p = [] -> p_param_names p = [] ->
  Forall (Forall lexeme) (p_args_vec p) -> do_params PRead p = Ok p' ->
  exists ns, Forall (fun n => ident_word n) ns /\ p_param_names p' = join $", " ns.
Proof.
  intros Hk Ha Hn Hl Hp. pose proof (with_params_function PRead p _ Hk Ha Hn eq_refl Hl) as X. rewrite Hp in X.
  destruct X as (_ & _ & _ & [(_ & _ & X)|[(t & _ & _ & _ & X)|(_ & _ & _ & ns & HF & X)]]).
  - exists []. split; [constructor|exact X].
  - exists []. split; [constructor|exact X].
  - exists (somes ns). split; [|exact X]. clear - HF Hl. induction HF as [|v o vs ns Ho HF IH]; [constructor|].
    inversion Hl; subst. destruct o as [n|]; cbn [somes]; auto. constructor; auto. destruct Ho as [Hi Hc].
    apply lexeme_ident; auto. rewrite Forall_forall in H1. auto.
Qed.

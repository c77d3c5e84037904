(** The token loops of the Clang AST reader. *)
From Coq Require Import Ascii String List Bool Arith NArith Lia.
From Verif Require Import Str StrFacts FormatFacts Lex Tokenize Parse Format ClangAst SpecParse SpecFormat SpecClangAst ClangAstFacts.
Import ListNotations.

(* ------------------------------------------------------------ what a token list shows *)

Inductive tparams : list str -> list token -> Prop :=
| tp_nil : tparams [] []
| tp_cons t ps l ts : param_line t l -> tparams ps ts -> tparams (t :: ps) (T_AST_PARMVAR l :: ts).
Inductive tshow : list item -> list token -> Prop :=
| ts_nil : tshow [] []
| ts_var n t its l ts : ident_word n -> decl_line $"VarDecl" n t l -> tshow its ts -> tshow (IVar n t :: its) (T_AST_FUNCVAR l :: ts)
| ts_func n t ps its l tps ts : ident_word n -> decl_line $"FunctionDecl" n t l -> tparams ps tps -> tshow its ts ->
    tshow (IFunc n t ps :: its) (T_AST_FUNCVAR l :: tps ++ ts).

Definition par_step (p : params) (ty : str) : params :=
  let name := "a"%char :: nat_to_string (pr_count p) in
  let args :=
    match find $"(*)" ty with
    | Some pos => pr_args p ++ insert_at (pos + 2) name ty ++ $", "
    | None =>
        let a := pr_args p ++ ty in
        (if ends_with $"*" a then a else a ++ $" ") ++ name ++ $", "
    end in
  mkpar args (pr_names p ++ name ++ $", ") (S (pr_count p)).

Lemma get_parameters_line ty l p : param_line ty l -> get_parameters l p = Some (par_step p ty).
Proof. intros H. destruct (param_line_spec ty l H) as [E _]. unfold get_parameters. rewrite E. reflexivity. Qed.

(** the next declaration line, or nothing at the end *)
Definition next_text (ts : list token) : str := match ts with T_AST_FUNCVAR t :: _ => t | _ => [] end.

Lemma read_params_show ps tps : tparams ps tps -> forall p its ts, tshow its ts ->
  read_params p (tps ++ ts) = (fold_left par_step ps p, next_text ts, tl ts).
Proof.
  induction 1 as [|t ps l tps H _ IH]; intros p its ts Hs.
  - cbn [app fold_left]. destruct Hs; reflexivity.
  - cbn [app read_params fold_left]. rewrite (get_parameters_line t l p H). eapply IH, Hs.
Qed.

(* ------------------------------------------------------------ one declaration *)

Definition item_proto (i : item) : proto :=
  match i with
  | IVar n t =>
      mkproto (if find $"(*)" t then KFunctionPointer else if find $"[" t then KObjectArray else KObject)
        (strip_spaces t) n [] [] []
  | IFunc n t ps =>
      let p := fold_left par_step ps (mkpar [] [] 1) in
      mkproto KFunction (strip_spaces (firstn (match find $"(" t with Some k => k | None => 0 end) t)) n
        (delete_suffix (pr_args p) $", ") [] (delete_suffix (pr_names p) $", ")
  end.

Definition push (t : tables) (i : item) : tables :=
  if is_func i then mktab (t_funcs t ++ [item_proto i]) (t_objs t)
  else mktab (t_funcs t) (t_objs t ++ [item_proto i]).

Definition item_step (mode : filter_mode) (pfx : list str) (st : ast_state) (i : item) : ast_state :=
  match ast_filter mode pfx (item_name i) (as_syms st) with
  | None => st
  | Some syms => mkast syms (push (as_tab st) i)
  end.

Lemma find_paren t : In "("%char t -> exists k, find $"(" t = Some k.
Proof.
  intros H. destruct (find $"(" t) as [k|] eqn:E; [eauto|]. exfalso.
  apply in_split in H. destruct H as (a & b & ->). apply (proj1 (find_None _ _) E a b). reflexivity.
Qed.

Lemma decl_var mode pfx st n t l rest : ident_word n -> decl_line $"VarDecl" n t l ->
  get_declarations mode pfx st l rest = (item_step mode pfx st (IVar n t), None).
Proof.
  intros Hn H. destruct (decl_line_spec _ n t l (or_intror eq_refl) Hn H) as (E & F & _).
  unfold get_declarations, item_step. rewrite F. change (str_eqb $"VarDecl" $"FunctionDecl") with false. cbv iota. rewrite E.
  cbn [item_name]. destruct (ast_filter mode pfx n (as_syms st)); reflexivity.
Qed.

Lemma decl_func mode pfx st n t ps l tps its ts : ident_word n -> decl_line $"FunctionDecl" n t l -> In "("%char t ->
  tparams ps tps -> tshow its ts ->
  get_declarations mode pfx st l (tps ++ ts) =
  (item_step mode pfx st (IFunc n t ps),
   match ast_filter mode pfx n (as_syms st) with None => None | Some _ => Some (next_text ts, tl ts) end).
Proof.
  intros Hn H Ht Hp Hs. destruct (decl_line_spec _ n t l (or_introl eq_refl) Hn H) as (E & F & _).
  unfold get_declarations, item_step. rewrite F. change (str_eqb $"FunctionDecl" $"FunctionDecl") with true. cbv iota. rewrite E.
  cbn [item_name]. destruct (ast_filter mode pfx n (as_syms st)) as [syms|]; [|reflexivity].
  destruct (find_paren t Ht) as (k & Ek). rewrite Ek.
  rewrite (read_params_show ps tps Hp _ its ts Hs). unfold push. cbn [is_func item_proto]. rewrite Ek. reflexivity.
Qed.

Lemma decl_nothing mode pfx st rest : get_declarations mode pfx st [] rest = (st, None).
Proof. reflexivity. Qed.

(* ------------------------------------------------------------ the loops *)

Definition stray (ts : list token) : Prop := Forall (fun t => exists l, t = T_AST_PARMVAR l) ts.
Lemma tparams_stray ps tps : tparams ps tps -> stray tps.
Proof. induction 1; constructor; eauto. Qed.

Lemma inner_show mode pfx its : Forall spelled_out its -> forall i l r, spelled_out i -> tshow (i :: its) (T_AST_FUNCVAR l :: r) ->
  forall fi st, 2 + length r <= fi ->
  exists st1 its1 ys ts1, ast_inner fi mode pfx st l r = Ok (st1, ys ++ ts1) /\ stray ys /\ tshow its1 ts1 /\ Forall spelled_out its1 /\
    fold_left (item_step mode pfx) (i :: its) st = fold_left (item_step mode pfx) its1 st1 /\ length (ys ++ ts1) <= length r.
Proof.
  induction 1 as [|i' its Si' Sits IH]; intros i l r Si Hs fi st Hf;
    (destruct fi as [|fi]; [lia|]); cbn [ast_inner fold_left]; inversion Hs; subst.
  - rewrite (decl_var mode pfx st n t l r) by assumption.
    exists (item_step mode pfx st (IVar n t)), [], [], r. repeat split; auto; constructor.
  - match goal with H : tparams _ _, K : tshow [] _ |- _ => inversion K; subst end.
    rewrite (decl_func mode pfx st n t ps l tps [] []) by (try assumption; constructor).
    destruct (ast_filter mode pfx n (as_syms st)) eqn:E.
    + cbn [next_text tl]. destruct fi as [|fi]; [lia|]. cbn [ast_inner]. rewrite decl_nothing.
      exists (item_step mode pfx st (IFunc n t ps)), [], [], []. cbn [app length]. repeat split; auto; try constructor. lia.
    + exists (item_step mode pfx st (IFunc n t ps)), [], tps, []. repeat split; auto; try constructor.
      eapply tparams_stray; eassumption.
  - rewrite (decl_var mode pfx st n t l r) by assumption.
    exists (item_step mode pfx st (IVar n t)), (i' :: its), [], r. repeat split; auto; try constructor; auto.
  - match goal with H : tshow (i' :: its) ?x |- _ => rename x into ts0; rename H into Ht end.
    match goal with H : tparams _ _ |- _ => rename H into Hp end.
    rewrite (decl_func mode pfx st n t ps l tps (i' :: its) ts0) by assumption.
    destruct (ast_filter mode pfx n (as_syms st)) eqn:E.
    + assert (exists l' r', ts0 = T_AST_FUNCVAR l' :: r') as (l' & r' & ->) by (inversion Ht; eauto).
      cbn [next_text tl]. rewrite app_length in Hf. cbn [length] in Hf.
      destruct (IH i' l' r' Si' Ht fi (item_step mode pfx st (IFunc n t ps)) ltac:(lia))
        as (st1 & its1 & ys & ts1 & -> & G1 & G2 & G3 & G4 & G5).
      exists st1, its1, ys, ts1. repeat split; auto. rewrite (app_length tps). cbn [length]. lia.
    + exists (item_step mode pfx st (IFunc n t ps)), (i' :: its), tps, ts0. repeat split; auto.
      eapply tparams_stray; eassumption.
Qed.

Lemma empty_list_step pfx its : forall st, as_syms st = [] -> fold_left (item_step FList pfx) its st = st.
Proof.
  induction its as [|i its IH]; intros st H; [reflexivity|]. cbn [fold_left].
  unfold item_step at 2. cbn [ast_filter]. rewrite H. cbn [existsb]. apply IH, H.
Qed.

Lemma outer_show mode pfx fuel : forall its ys ts st, stray ys -> tshow its ts -> Forall spelled_out its -> length (ys ++ ts) < fuel ->
  ast_outer fuel mode pfx st (ys ++ ts) = Ok (fold_left (item_step mode pfx) its st).
Proof.
  induction fuel as [|f IH]; intros its ys ts st Hy Hs Hi Hf; [lia|].
  destruct Hy as [|y ys (l & ->) Hy].
  - cbn [app] in *. destruct Hs as [|n t its l ts Hn Hd Hs|n t ps its l tps ts Hn Hd Hp Hs]; [reflexivity| |]; cbn [ast_outer].
    + inversion Hi; subst. cbn [length] in Hf.
      destruct (inner_show mode pfx its H2 (IVar n t) l ts H1 (ts_var _ _ _ _ _ Hn Hd Hs) (2 + length ts) st (le_n _))
        as (st1 & its1 & ys & ts1 & -> & K1 & K2 & K3 & K4 & K5).
      cbn [bind fst snd]. rewrite K4.
      assert (D : ast_outer f mode pfx st1 (ys ++ ts1) = Ok (fold_left (item_step mode pfx) its1 st1)) by (apply IH; auto; lia).
      destruct mode; auto. destruct (as_syms st1) eqn:E; auto. rewrite empty_list_step by exact E. reflexivity.
    + inversion Hi; subst. cbn [length] in Hf.
      destruct (inner_show mode pfx its H2 (IFunc n t ps) l (tps ++ ts) H1 (ts_func _ _ _ _ _ _ _ Hn Hd Hp Hs) (2 + length (tps ++ ts)) st (le_n _))
        as (st1 & its1 & ys & ts1 & -> & K1 & K2 & K3 & K4 & K5).
      cbn [bind fst snd]. rewrite K4.
      assert (D : ast_outer f mode pfx st1 (ys ++ ts1) = Ok (fold_left (item_step mode pfx) its1 st1)) by (apply IH; auto; lia).
      destruct mode; auto. destruct (as_syms st1) eqn:E; auto. rewrite empty_list_step by exact E. reflexivity.
  - cbn [app ast_outer]. apply IH; auto. cbn [app length] in Hf. lia.
Qed.

(* ------------------------------------------------------------ selection *)

Lemma prefixed_word n pfx : ident_word n -> is_prefixed n pfx = has_prefix pfx n.
Proof. intros [H _]. destruct n as [|c n]; [congruence|]. destruct pfx; reflexivity. Qed.

(** the names still on the list once the names [seen] have gone by *)
Definition left_over (pfx syms seen : list str) : list str :=
  filter (fun s => has_prefix pfx s || negb (listed seen s)) syms.

Lemma filter_ext_in' {A} (f g : A -> bool) l : (forall x, In x l -> f x = g x) -> filter f l = filter g l.
Proof.
  induction l as [|x l IH]; intros H; [reflexivity|]. cbn [filter]. rewrite (H x (or_introl eq_refl)).
  rewrite IH; [reflexivity|]. intros y Hy. apply H. right. exact Hy.
Qed.

Lemma listed_cons n seen s : listed (n :: seen) s = str_eqb s n || listed seen s.
Proof. reflexivity. Qed.

Lemma listed_left pfx syms seen n : has_prefix pfx n = false ->
  existsb (str_eqb n) (left_over pfx syms seen) = listed syms n && negb (listed seen n).
Proof.
  intros H. apply eq_true_iff_eq. rewrite andb_true_iff, existsb_str_In. unfold listed at 1. rewrite existsb_str_In.
  unfold left_over. rewrite filter_In, H. cbn [orb]. tauto.
Qed.

Lemma left_prefixed pfx syms seen n : has_prefix pfx n = true -> left_over pfx syms (n :: seen) = left_over pfx syms seen.
Proof.
  intros H. apply filter_ext_in'. intros s _. rewrite listed_cons. destruct (str_eqb s n) eqn:E; [|reflexivity].
  apply str_eqb_eq in E. subst s. rewrite H. reflexivity.
Qed.

Lemma left_erased pfx syms seen n : has_prefix pfx n = false -> erase_sym n (left_over pfx syms seen) = left_over pfx syms (n :: seen).
Proof.
  intros H. unfold erase_sym, left_over. induction syms as [|s syms IH]; [reflexivity|]. cbn [filter].
  rewrite listed_cons. destruct (str_eqb s n) eqn:E.
  - apply str_eqb_eq in E. subst s. rewrite H. cbn [orb negb].
    destruct (negb (listed seen n)); cbn [filter]; rewrite ?str_eqb_refl; exact IH.
  - cbn [orb]. destruct (has_prefix pfx s || negb (listed seen s)); [|exact IH].
    cbn [filter]. rewrite str_eqb_sym, E. cbn [negb]. f_equal. exact IH.
Qed.

Lemma left_same pfx syms seen n : has_prefix pfx n = false -> listed syms n && negb (listed seen n) = false ->
  left_over pfx syms (n :: seen) = left_over pfx syms seen.
Proof.
  intros H K. apply filter_ext_in'. intros s Hs. rewrite listed_cons. destruct (str_eqb s n) eqn:E; [|reflexivity].
  apply str_eqb_eq in E. subst s. rewrite H. cbn [orb negb].
  apply existsb_str_In in Hs. fold (listed syms n) in Hs. rewrite Hs in K. cbn [andb] in K. rewrite K. reflexivity.
Qed.

Lemma ast_filter_eq pfx syms0 cur n : get_filter_mode pfx syms0 <> FNone -> (syms0 = [] -> cur = []) -> ident_word n ->
  ast_filter (get_filter_mode pfx syms0) pfx n cur =
  if has_prefix pfx n then Some cur else if existsb (str_eqb n) cur then Some (erase_sym n cur) else None.
Proof.
  intros Hm Hc Hn. destruct pfx as [|p pfx], syms0 as [|s syms0]; cbn [get_filter_mode ast_filter] in *; try congruence;
    rewrite ?prefixed_word by assumption; try reflexivity.
  rewrite (Hc eq_refl). destruct (has_prefix (p :: pfx) n); reflexivity.
Qed.

Lemma run_chosen pfx syms : get_filter_mode pfx syms <> FNone -> forall its seen st,
  Forall (fun i => ident_word (item_name i)) its -> as_syms st = left_over pfx syms seen ->
  exists seen', (forall s, listed seen' s = listed seen s || listed (map item_name its) s) /\
  fold_left (item_step (get_filter_mode pfx syms) pfx) its st =
  mkast (left_over pfx syms seen') (fold_left push (chosen false pfx syms seen its) (as_tab st)).
Proof.
  intros Hm. induction its as [|i its IH]; intros seen st Hn Hs.
  - exists seen. cbn [fold_left chosen map]. split; [intros; rewrite orb_false_r; reflexivity|].
    destruct st as [ss tt]; cbn [as_syms as_tab] in *. subst; reflexivity.
  - inversion Hn as [|? ? Hi Hi']; subst. cbn [fold_left chosen map].
    assert (N : syms = [] -> as_syms st = []) by (intros ->; rewrite Hs; reflexivity).
    set (n := item_name i) in *.
    assert (S1 : exists t', item_step (get_filter_mode pfx syms) pfx st i = mkast (left_over pfx syms (n :: seen)) t' /\
      t' = if has_prefix pfx n || listed syms n && negb (listed seen n) then push (as_tab st) i else as_tab st).
    { unfold item_step. fold n. rewrite ast_filter_eq by assumption. rewrite Hs.
      destruct (has_prefix pfx n) eqn:Ep; cbn [orb].
      - eexists. rewrite left_prefixed by exact Ep. split; reflexivity.
      - rewrite listed_left by exact Ep. destruct (listed syms n && negb (listed seen n)) eqn:El.
        + eexists. rewrite left_erased by exact Ep. split; reflexivity.
        + exists (as_tab st). rewrite left_same by assumption. rewrite <- Hs. destruct st; split; reflexivity. }
    destruct S1 as (t' & E1 & E2). rewrite E1.
    destruct (IH (n :: seen) (mkast (left_over pfx syms (n :: seen)) t') Hi' eq_refl) as (seen' & H1 & H2).
    exists seen'. split.
    + intros s. rewrite H1. rewrite !listed_cons. destruct (str_eqb s n), (listed seen s), (listed (map item_name its) s); reflexivity.
    + rewrite H2. cbn [as_tab orb]. subst t'. destruct (has_prefix pfx n || listed syms n && negb (listed seen n)); reflexivity.
Qed.

Lemma run_all pfx its : forall syms seen st,
  fold_left (item_step FNone pfx) its st = mkast (as_syms st) (fold_left push (chosen true pfx syms seen its) (as_tab st)).
Proof.
  induction its as [|i its IH]; intros syms seen st; [destruct st; reflexivity|].
  cbn [fold_left chosen orb]. unfold item_step at 2. cbn [ast_filter].
  rewrite (IH syms (item_name i :: seen)). reflexivity.
Qed.

Lemma push_all its : forall t, fold_left push its t =
  mktab (t_funcs t ++ map item_proto (filter is_func its)) (t_objs t ++ map item_proto (filter (fun i => negb (is_func i)) its)).
Proof.
  induction its as [|i its IH]; intros t; cbn [fold_left filter map].
  - rewrite !app_nil_r. destruct t; reflexivity.
  - rewrite IH. unfold push. destruct (is_func i); cbn [t_funcs t_objs negb map]; rewrite <- app_assoc; reflexivity.
Qed.

Definition taken (its : list item) : tables :=
  mktab (map item_proto (filter is_func its)) (map item_proto (filter (fun i => negb (is_func i)) its)).

Lemma taken_empty its : (t_funcs (taken its) = [] /\ t_objs (taken its) = []) <-> its = [].
Proof.
  split; [|intros ->; split; reflexivity]. destruct its as [|i its]; [reflexivity|].
  unfold taken. cbn [filter]. destruct (is_func i); cbn; intros [H1 H2]; discriminate.
Qed.

Lemma tshow_names its ts : tshow its ts -> Forall (fun i => ident_word (item_name i)) its.
Proof. induction 1; constructor; auto. Qed.

Lemma parse_show all pfx syms input its ts : tshow its ts -> Forall spelled_out its ->
  parse_clang_ast all pfx syms input ts =
  if negb all && match get_filter_mode pfx syms with FNone => true | _ => false end then Err err_no_symbols
  else match (if all then [] else reported pfx syms its) with
       | _ :: _ => Err (not_found_msg (reported pfx syms its))
       | [] => match chosen all pfx syms [] its with
               | [] => Err ($"no function or object prototypes found in file: " ++ input)
               | ch => Ok (taken ch)
               end
       end.
Proof.
  intros Ht Hs. unfold parse_clang_ast.
  assert (O := fun mode st => outer_show mode pfx (S (length ts)) its [] ts st (Forall_nil _) Ht Hs (le_n _)). cbn [app] in O.
  destruct all; cbn [negb andb].
  - rewrite O. cbn [bind mode_list]. rewrite (run_all pfx its syms []). cbn [as_tab].
    rewrite push_all. cbn [no_tables t_funcs t_objs app]. fold (taken (chosen true pfx syms [] its)).
    set (ch := chosen true pfx syms [] its).
    destruct ch as [|i ch]; [reflexivity|]. cbn [filter]. destruct (is_func i); cbn [negb map]; [reflexivity|]. destruct (map item_proto (filter is_func ch)); reflexivity.
  - destruct (get_filter_mode pfx syms) eqn:Em; [reflexivity| | |].
    all: cbn [andb]; rewrite O; cbn [bind];
      assert (Hm : get_filter_mode pfx syms <> FNone) by (rewrite Em; discriminate);
      destruct (run_chosen pfx syms Hm its [] (mkast syms no_tables) (tshow_names _ _ Ht)) as (seen' & H1 & H2);
      [cbn [as_syms]; unfold left_over; symmetry; clear; induction syms as [|s syms IH]; [reflexivity|];
       cbn [filter]; cbn [listed existsb negb]; rewrite orb_true_r; f_equal; exact IH|];
      rewrite Em in H2; rewrite H2; cbn [as_syms as_tab];
      assert (L : left_over pfx syms seen' = reported pfx syms its)
        by (unfold left_over, reported; apply filter_ext_in'; intros s _; rewrite H1; reflexivity);
      rewrite L; rewrite push_all; cbn [no_tables t_funcs t_objs app];
      fold (taken (chosen false pfx syms [] its)); set (ch := chosen false pfx syms [] its).
    + assert (R : reported pfx syms its = []).
      { destruct pfx, syms; cbn [get_filter_mode] in Em; try discriminate. reflexivity. }
      rewrite R. cbn [mode_list]. destruct ch as [|i ch]; [reflexivity|]. cbn [filter]. destruct (is_func i); cbn [negb map]; [reflexivity|]. destruct (map item_proto (filter is_func ch)); reflexivity.
    + cbn [mode_list]. destruct (reported pfx syms its); [|reflexivity]. destruct ch as [|i ch]; [reflexivity|]. cbn [filter]. destruct (is_func i); cbn [negb map]; [reflexivity|]. destruct (map item_proto (filter is_func ch)); reflexivity.
    + cbn [mode_list]. destruct (reported pfx syms its); [|reflexivity]. destruct ch as [|i ch]; [reflexivity|]. cbn [filter]. destruct (is_func i); cbn [negb map]; [reflexivity|]. destruct (map item_proto (filter is_func ch)); reflexivity.
Qed.

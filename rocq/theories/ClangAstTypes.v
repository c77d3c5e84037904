(** Proofs for C65 and C66: what the program records of the functions and variables of a dump. *)
From Coq Require Import Ascii String List Bool Arith.
From Verif Require Import Str SpecParse Prefix Parse Format Options Frontend ClangAst SpecFormat SpecClangAst SpecClangType
  ClangAstFacts2 ClangAstProps ClangAstSelect ClangTypeFacts ClangAstFinal.
Import ListNotations.

Lemma read_dump_parts s input its text s' y : dump its text -> Forall spelled_out its -> read_input s input text = Ok (s', y) ->
  let ch := chosen (o_ast_all s) (o_prefix_list s) (o_symbol_list s) [] its in
  exists objs, Forall2 recorded (filter is_func ch) (s_funcs y) /\ Forall2 recorded (filter (fun i => negb (is_func i)) ch) objs /\
    create_typedefs (m_pfx_lower (o_pfxs s)) objs = Ok (s_typedefs y, s_objs y).
Proof.
  intros Hd Hs. destruct (dump_stream (o_read_options s) its text Hd) as (ts & Sh & E).
  unfold read_input. rewrite E. unfold ast_symbols. rewrite (parse_show _ _ _ input its ts Sh Hs).
  destruct (negb (o_ast_all s) && _); [discriminate|].
  destruct (if o_ast_all s then [] else reported (o_prefix_list s) (o_symbol_list s) its) as [|x u]; [|discriminate].
  destruct (chosen (o_ast_all s) (o_prefix_list s) (o_symbol_list s) [] its) as [|c ch] eqn:Ec; [discriminate|].
  cbn [bind]. rewrite <- Ec. set (L := chosen _ _ _ _ _). assert (HL : Forall spelled_out L) by (apply chosen_Forall, Hs).
  unfold taken. cbn [t_funcs t_objs].
  destruct (create_typedefs (m_pfx_lower (o_pfxs s)) (map item_proto (filter (fun i => negb (is_func i)) L))) as [[defs objs]| | |] eqn:Ct; try discriminate.
  cbn [bind fst snd]. intros K. injection K as <- <-. eexists. cbn [s_funcs s_objs s_typedefs].
  split; [apply recorded_map, Forall_filter', HL|]. split; [apply recorded_map, Forall_filter', HL|exact Ct].
Qed.

Lemma functions_read s input its text s' y : dump its text -> Forall spelled_out its -> read_input s input text = Ok (s', y) ->
  Forall2 (fun i p => forall n r ps, i = IFunc n (type_text (CFun r ps false)) (map type_text ps) -> simple r -> ps <> [] -> Forall param_type ps ->
    p_symbol p = n /\ p_type p = type_text r /\ p_args p = param_list (declare_all ps (arg_names 1 ps)) false /\ p_param_names p = join $", " (arg_names 1 ps))
    (filter is_func (chosen (o_ast_all s) (o_prefix_list s) (o_symbol_list s) [] its)) (s_funcs y).
Proof.
  intros Hd Hs E. destruct (read_dump_parts _ _ _ _ _ _ Hd Hs E) as (objs & F & _). clear E Hd Hs.
  induction F as [|i p l ps H _ IH]; constructor; [|exact IH]. intros n r ts -> S N P. destruct (function_declared n r ts p S N P H) as (A & _ & B). now split.
Qed.

Lemma create_parts pl objs : forall defs objs', create_typedefs pl objs = Ok (defs, objs') -> forall p, In p objs ->
  (forall d p', create_typedefs pl [p] = Ok ([d], [p']) -> In d defs /\ In p' objs') /\ (p_kind p = KObject -> In p objs').
Proof.
  induction objs as [|q objs IH]; intros defs objs' E p I; [destruct I|]. cbn [create_typedefs] in E.
  destruct I as [->|I].
  - cbn [create_typedefs]. destruct (p_kind p) eqn:K;
      repeat match type of E with
             | bind ?x _ = _ => destruct x as [[]| | |] eqn:?; cbn [bind fst snd] in E; try discriminate E
             | match ?x with _ => _ end = _ => destruct x eqn:?; cbn [bind fst snd] in E; try discriminate E
             end; injection E as <- <-; (split; [intros d p' X; cbn [bind fst snd] in X; try discriminate X; injection X as <- <-; split; now left|try discriminate; intros _; now left]).
  - assert (M : exists d o, create_typedefs pl objs = Ok (d, o) /\ incl d defs /\ incl o objs').
    { destruct (p_kind q) eqn:K;
      repeat match type of E with
             | bind ?x _ = _ => destruct x as [[]| | |] eqn:?; cbn [bind fst snd] in E; try discriminate E
             | match ?x with _ => _ end = _ => destruct x eqn:?; cbn [bind fst snd] in E; try discriminate E
             end; injection E as <- <-; eexists _, _; (split; [reflexivity|]); split; intros z Z; try (now right); exact Z. }
    destruct M as (d & o & C & Id & Io). destruct (IH d o C p I) as [A B]. split; [|intro K; apply Io, B, K].
    intros d' p' X. destruct (A d' p' X). split; [now apply Id|now apply Io].
Qed.

Lemma in_recorded l objs i : Forall2 recorded l objs -> In i l -> exists p, In p objs /\ recorded i p.
Proof. induction 1 as [|a p l objs H _ IH]; intros []; [subst; exists p; split; [now left|exact H]|]. destruct (IH H0) as (q & A & B). exists q. split; [now right|exact B]. Qed.
Lemma retyped_typedef pl n p d p' : p_symbol p = n -> create_typedefs pl [p] = Ok ([d], [p']) -> p' = with_typedef pl p -> p_symbol p' = n /\ p_type p' = td_name pl n.
Proof.
  intros S E ->. cbn [create_typedefs] in E. unfold with_typedef in *. destruct (p_kind p) eqn:K; cbn [bind fst snd] in E; try discriminate E; unfold retyped; cbn [p_symbol p_type]; now rewrite S.
Qed.
Lemma variables_read s input its text s' y n tt : dump its text -> Forall spelled_out its -> read_input s input text = Ok (s', y) ->
  In (IVar n tt) (chosen (o_ast_all s) (o_prefix_list s) (o_symbol_list s) [] its) ->
  let pl := m_pfx_lower (o_pfxs s) in
  (forall t, tt = type_text t -> simple t -> exists p, In p (s_objs y) /\ p_symbol p = n /\ p_kind p = KObject /\ p_type p = type_text t) /\
  (forall t, tt = type_text (CPtr [] t) -> composite t = true -> flat t ->
    exists p, In p (s_objs y) /\ p_symbol p = n /\ p_type p = td_name pl n /\ In (declare (CPtr [] t) (td_name pl n)) (s_typedefs y)) /\
  (forall m e, tt = type_text (CArr m e) -> spine_ok e -> ~ occurs $"(*)" (type_text (CArr m e)) -> (forall r, pl <> "["%char :: r) ->
    exists p def, In p (s_objs y) /\ p_symbol p = n /\ p_type p = td_name pl n /\ In def (s_typedefs y) /\
      tokens def = tokens (declare (CArr m e) (td_name pl n))).
Proof.
  intros Hd Hs E I pl. destruct (read_dump_parts _ _ _ _ _ _ Hd Hs E) as (objs & _ & F & C).
  destruct (in_recorded _ _ (IVar n tt) F) as (p & Ip & R). { apply filter_In. split; [exact I|reflexivity]. }
  destruct (create_parts _ _ _ _ C p Ip) as [A B]. assert (S : p_symbol p = n) by apply R.
  split; [|split].
  - intros t -> St. destruct (variable_simple n t p St R) as (_ & K & T). exists p. repeat split; auto.
  - intros t -> Ct Ft. pose proof (variable_pointer n t p pl Ct Ft R) as X. destruct (A _ _ X) as [A1 A2].
    destruct (retyped_typedef pl n p _ _ S X eq_refl) as [Y1 Y2]. exists (with_typedef pl p). repeat split; auto.
  - intros m e -> Se O N. destruct (variable_array n m e p pl Se O N R) as (def & X & T). destruct (A _ _ X) as [A1 A2].
    destruct (retyped_typedef pl n p _ _ S X eq_refl) as [Y1 Y2]. exists (with_typedef pl p), def. repeat split; auto.
Qed.

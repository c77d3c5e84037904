(** Clang AST: from the text of a dump to the symbol tables; deciders for concrete dumps. *)
From Coq Require Import Ascii String List Bool Arith NArith Lia.
From Verif Require Import Str StrFacts FormatFacts TypedefFacts Regex Lex Tokenize Parse Format Prefix Options Frontend ClangAst
  SpecParse SpecFormat SpecClangAst ClangAstFacts ClangAstFacts2 ClangAstProps.
Import ListNotations.

(* ------------------------------------------------------------ typedefs *)

Definition blank (l : str) : Prop := Forall (fun c => isspace c = true) l.

Lemma trim_middle l s r a c x d b : blank l -> blank r -> isspace c = false -> isspace d = false ->
  l ++ s ++ r = a ++ (c :: x ++ [d]) ++ b -> exists a' b', a = l ++ a' /\ s = a' ++ (c :: x ++ [d]) ++ b' /\ b = b' ++ r.
Proof.
  intros Hl Hr Hc Hd E.
  assert (H1 : exists a', a = l ++ a').
  { destruct (app_eq_app _ _ _ _ E) as (y & [[E1 E2]|[E1 E2]]); [|exists y; exact E1].
    destruct y as [|e y]; [exists []; rewrite app_nil_r in *; congruence|]. cbn [app] in E2. injection E2 as <- _.
    rewrite E1 in Hl. apply Forall_app in Hl. destruct Hl as [_ Hl]. inversion Hl. congruence. }
  destruct H1 as (a' & ->). rewrite <- !app_assoc in E. apply app_inv_head in E.
  assert (E' : s ++ r = (a' ++ c :: x ++ [d]) ++ b) by (rewrite <- !app_assoc; exact E).
  destruct (app_eq_app _ _ _ _ E') as (z & [[E1 E2]|[E1 E2]]).
  - exists a', z. split; [reflexivity|]. split; [rewrite E1, <- !app_assoc; reflexivity|exact E2].
  - destruct z as [|e z] using rev_ind.
    + exists a', []. rewrite app_nil_r in *. cbn [app] in E2. split; [reflexivity|]. split; [rewrite <- E1; reflexivity|]. rewrite E2. reflexivity.
    + rewrite E2 in Hr. apply Forall_app in Hr. destruct Hr as [Hr _]. apply Forall_app in Hr. destruct Hr as [_ Hr]. inversion Hr; subst.
      assert (Ed : d = e).
      { change (a' ++ c :: x ++ [d]) with (a' ++ (c :: x) ++ [d]) in E1. rewrite !app_assoc in E1. apply app_inj_tail in E1. tauto. }
      congruence.
Qed.

Lemma insert_at_ne i (x y : str) : 0 < length y -> insert_at i x y <> [].
Proof.
  intros H K. unfold insert_at, replace_at in K. apply (f_equal (@length _)) in K. rewrite !app_length, firstn_length, skipn_length in K.
  cbn [length] in K. lia.
Qed.

Lemma typedef_var n t pl p : typedef_ok (IVar n t) -> p = item_proto (IVar n t) ->
  match p_kind p with
  | KFunctionPointer => fptr_typedef (p_type p) (typedef_name pl (p_symbol p)) <> []
  | KObjectArray => array_typedef (p_type p) (typedef_name pl (p_symbol p)) <> []
  | _ => True
  end.
Proof.
  intros H ->. cbn [item_proto p_kind p_type p_symbol]. destruct (strip_trim t) as (l & r & E & Hl & Hr & _). set (s := strip_spaces t) in *.
  destruct (find $"(*)" t) as [pos|] eqn:F.
  - pose proof (find_spec $"(*)" t) as G. rewrite F in G. destruct G as [(a & b & Et & L) M].
    assert (N : ~ occurs $"(*)" (a ++ $"(*")).
    { intros (x & y & K). specialize (M x (y ++ $")" ++ b)).
      assert (K' : t = x ++ $"(*)" ++ y ++ $")" ++ b).
      { rewrite Et. change ($"(*)" ++ b) with ($"(*" ++ $")" ++ b). rewrite app_assoc, K, <- !app_assoc. reflexivity. }
      apply M in K'. apply (f_equal (@length _)) in K. rewrite !app_length in K. cbn [length lit list_ascii_of_string] in K. lia. }
    assert (P := H a b Et N).
    assert (E2 : l ++ s ++ r = a ++ ("("%char :: ["*"%char] ++ [")"%char]) ++ b) by (rewrite <- E; exact Et).
    apply (trim_middle l s r a "(" ["*"%char] ")" b Hl Hr eq_refl eq_refl) in E2. destruct E2 as (a' & b' & -> & Es & _).
    assert (P' : ~ In "("%char a') by (intros K; apply P, in_or_app; right; exact K).
    unfold fptr_typedef. rewrite Es.
    change ("("%char :: ["*"%char] ++ [")"%char]) with $"(*)".
    change $"(*)" with ("("%char :: $"*)"). rewrite (find_clean "(" $"*)" a' b' P').
    change (("("%char :: $"*)") ++ b') with ((["("%char]) ++ $"*)" ++ b'). change $"(" with ["("%char].
    rewrite (find_clean "(" [] a' ($"*)" ++ b') P'), Nat.eqb_refl. apply insert_at_ne.
    rewrite app_length. cbn [length app lit list_ascii_of_string]. lia.
  - destruct (find $"[" t) as [pos|] eqn:F2; [|exact I].
    destruct (find_split _ _ _ F2) as (a & b & Et & _).
    assert (I' : In "["%char s).
    { assert (K : In "["%char t) by (rewrite Et; apply in_or_app; right; left; reflexivity). rewrite E in K.
      apply in_app_or in K. destruct K as [K|K]; [apply (proj1 (Forall_forall _ _) Hl) in K; discriminate|].
      apply in_app_or in K. destruct K as [K|K]; [exact K|apply (proj1 (Forall_forall _ _) Hr) in K; discriminate]. }
    apply find_In in I'. destruct I' as (k & Hk). unfold array_typedef. change $"[" with ["["%char]. rewrite Hk.
    pose proof (find_Some_lt _ _ _ Hk) as L. cbn [length] in L.
    destruct (Nat.ltb 0 k && negb (Ascii.eqb (str_at s (k - 1)) " ")); apply insert_at_ne; [|lia].
    unfold insert_at, replace_at. rewrite !app_length, firstn_length, skipn_length. lia.
Qed.

Lemma typedefs_vars pl its : Forall typedef_ok its -> exists defs,
  create_typedefs pl (map item_proto (filter (fun i => negb (is_func i)) its)) =
  Ok (defs, map (with_typedef pl) (map item_proto (filter (fun i => negb (is_func i)) its))).
Proof.
  induction 1 as [|i its Hi _ (defs & IH)]; [exists []; reflexivity|].
  cbn [filter]. destruct i as [n t ps|n t]; cbn [is_func negb]; [exists defs; exact IH|].
  cbn [map create_typedefs]. rewrite IH. assert (K := typedef_var n t pl _ Hi eq_refl).
  assert (W : forall q, with_typedef pl q = match p_kind q with
    | KFunctionPointer | KObjectArray => mkproto (p_kind q) (typedef_name pl (p_symbol q)) (p_symbol q) (p_args q) (p_args_vec q) (p_param_names q)
    | _ => q end) by (intros q; reflexivity).
  rewrite (W (item_proto (IVar n t))). destruct (p_kind (item_proto (IVar n t))); cbn [bind fst snd].
  - eexists. reflexivity.
  - destruct (fptr_typedef _ _); [congruence|]. eexists. reflexivity.
  - eexists. reflexivity.
  - destruct (array_typedef _ _); [congruence|]. eexists. reflexivity.
Qed.

(* ------------------------------------------------------------ the whole way *)

Lemma recorded_map its : Forall spelled_out its -> Forall2 recorded its (map item_proto its).
Proof. induction 1; constructor; [apply item_recorded; assumption|assumption]. Qed.
Lemma Forall_filter' {A} (P : A -> Prop) f l : Forall P l -> Forall P (filter f l).
Proof. rewrite !Forall_forall. intros H x K. apply filter_In in K. apply H, K. Qed.
Lemma chosen_incl all pfx syms its : forall seen i, In i (chosen all pfx syms seen its) -> In i its.
Proof.
  induction its as [|j its IH]; intros seen i H; [destruct H|]. cbn [chosen] in H. destruct (_ || _).
  - destruct H as [->|H]; [left; reflexivity|right; eapply IH, H].
  - right. eapply IH, H.
Qed.
Lemma chosen_Forall (P : item -> Prop) all pfx syms seen its : Forall P its -> Forall P (chosen all pfx syms seen its).
Proof. rewrite !Forall_forall. intros H i K. apply H. eapply chosen_incl, K. Qed.
Lemma chosen_all pfx syms its : forall seen, chosen true pfx syms seen its = its.
Proof. induction its as [|i its IH]; intros seen; [reflexivity|]. cbn [chosen orb]. rewrite IH. reflexivity. Qed.

Lemma read_dump s input its text : dump its text -> Forall spelled_out its -> Forall typedef_ok its ->
  (o_ast_all s = true \/ o_prefix_list s <> [] \/ o_symbol_list s <> []) ->
  match (if o_ast_all s then [] else reported (o_prefix_list s) (o_symbol_list s) its),
        chosen (o_ast_all s) (o_prefix_list s) (o_symbol_list s) [] its with
  | _ :: _, _ => read_input s input text = Err (not_found_msg (reported (o_prefix_list s) (o_symbol_list s) its))
  | [], [] => read_input s input text = Err ($"no function or object prototypes found in file: " ++ input)
  | [], ch => exists y, read_input s input text = Ok (s, y) /\ tables_of (m_pfx_lower (o_pfxs s)) ch y
  end.
Proof.
  intros Hd Hs Ht Hm. destruct (dump_stream (o_read_options s) its text Hd) as (ts & Sh & E).
  unfold read_input. rewrite E. unfold ast_symbols. rewrite (parse_show _ _ _ input its ts Sh Hs).
  assert (M : negb (o_ast_all s) && match get_filter_mode (o_prefix_list s) (o_symbol_list s) with FNone => true | _ => false end = false).
  { destruct (o_ast_all s); [reflexivity|]. cbn [negb andb]. destruct (o_prefix_list s), (o_symbol_list s); try reflexivity.
    destruct Hm as [Hm|[Hm|Hm]]; congruence. }
  rewrite M. destruct (if o_ast_all s then [] else reported (o_prefix_list s) (o_symbol_list s) its) as [|x u]; [|reflexivity].
  destruct (chosen (o_ast_all s) (o_prefix_list s) (o_symbol_list s) [] its) as [|c ch] eqn:Ec; [reflexivity|].
  cbn [bind]. rewrite <- Ec. set (L := chosen _ _ _ _ _).
  assert (HL : Forall spelled_out L) by (apply chosen_Forall, Hs). assert (HT : Forall typedef_ok L) by (apply chosen_Forall, Ht).
  unfold taken. cbn [t_funcs t_objs]. destruct (typedefs_vars (m_pfx_lower (o_pfxs s)) L HT) as (defs & ->). cbn [bind fst snd].
  eexists. split; [reflexivity|]. eexists. cbn [s_funcs s_objs]. split; [apply recorded_map, Forall_filter', HL|].
  split; [apply recorded_map, Forall_filter', HL|reflexivity].
Qed.

Lemma reported_undeclared pfx syms its : no_overlap pfx syms its -> reported pfx syms its = undeclared syms its.
Proof.
  intros H. unfold reported, undeclared. apply filter_ext_in'. intros n Hn.
  destruct (has_prefix pfx n) eqn:E; [|reflexivity]. cbn [orb].
  destruct (listed (map item_name its) n) eqn:L; [|reflexivity].
  unfold listed in L. apply existsb_exists in L. destruct L as (m & Hm & K). apply str_eqb_eq in K. subst m.
  apply in_map_iff in Hm. destruct Hm as (i & <- & Hi). rewrite (H i Hi Hn) in E. discriminate.
Qed.

(* ------------------------------------------------------------ concrete dumps *)

Lemma sgrs_no_esc n c : sgrs n c -> ~ In esc c -> c = [].
Proof. intros H N. destruct H as [|n q s (p & -> & _) _]; [reflexivity|]. exfalso. apply N. left. reflexivity. Qed.

Definition other_lineb (l : str) : bool :=
  forallb (fun c => negb (Ascii.eqb c nl) && negb (Ascii.eqb c esc)) l &&
  negb (existsb (fun h => starts_with h l)
    (flat_map (fun m => [m ++ $"FunctionDecl 0x"; m ++ $"VarDecl 0x"]) [$"|-"; $"`-"] ++
     map (fun m => m ++ $"ParmVarDecl 0x") [$"| |-"; $"| `-"; $"  |-"; $"  `-"])).
Lemma other_lineb_spec l : other_lineb l = true -> other_line l.
Proof.
  unfold other_lineb. intros H. apply andb_true_iff in H. destruct H as [H1 H2]. rewrite forallb_forall in H1.
  assert (Nl : ~ In nl l) by (intros K; apply H1 in K; vm_compute in K; discriminate).
  assert (Ne : ~ In esc l) by (intros K; apply H1 in K; vm_compute in K; discriminate).
  split; [exact Nl|]. intros c1 m c2 kw c3 s E K1 K2 K3.
  assert (c1 = []) by (apply (sgrs_no_esc 1 _ K1); intros K; apply Ne; rewrite E, !in_app_iff; tauto).
  assert (c2 = []) by (apply (sgrs_no_esc 2 _ K2); intros K; apply Ne; rewrite E, !in_app_iff; tauto).
  assert (c3 = []) by (apply (sgrs_no_esc 2 _ K3); intros K; apply Ne; rewrite E, !in_app_iff; tauto).
  subst c1 c2 c3. cbn [app] in E. apply negb_true_iff in H2.
  assert (N : forall h, In h (flat_map (fun m => [m ++ $"FunctionDecl 0x"; m ++ $"VarDecl 0x"]) [$"|-"; $"`-"] ++
     map (fun m => m ++ $"ParmVarDecl 0x") [$"| |-"; $"| `-"; $"  |-"; $"  `-"]) -> forall x, l <> h ++ x).
  { intros h Hh x Ex. assert (K : existsb (fun h => starts_with h l) (flat_map (fun m => [m ++ $"FunctionDecl 0x"; m ++ $"VarDecl 0x"]) [$"|-"; $"`-"] ++
     map (fun m => m ++ $"ParmVarDecl 0x") [$"| |-"; $"| `-"; $"  |-"; $"  `-"]) = true); [|congruence].
    apply existsb_exists. exists h. split; [exact Hh|]. apply starts_with_spec. exists x. exact Ex. }
  split.
  - intros [[Hm|[Hm|[]]] [Hk|Hk]]; subst m kw.
    + apply (N ($"|-" ++ $"FunctionDecl 0x")) with s; [left; reflexivity|exact E].
    + apply (N ($"|-" ++ $"VarDecl 0x")) with s; [right; left; reflexivity|exact E].
    + apply (N ($"`-" ++ $"FunctionDecl 0x")) with s; [do 2 right; left; reflexivity|exact E].
    + apply (N ($"`-" ++ $"VarDecl 0x")) with s; [do 3 right; left; reflexivity|exact E].
  - intros [[Hm|[Hm|[Hm|[Hm|[]]]]] Hk]; subst m kw.
    + apply (N ($"| |-" ++ $"ParmVarDecl 0x")) with s; [do 4 right; left; reflexivity|exact E].
    + apply (N ($"| `-" ++ $"ParmVarDecl 0x")) with s; [do 5 right; left; reflexivity|exact E].
    + apply (N ($"  |-" ++ $"ParmVarDecl 0x")) with s; [do 6 right; left; reflexivity|exact E].
    + apply (N ($"  `-" ++ $"ParmVarDecl 0x")) with s; [do 7 right; left; reflexivity|exact E].
Qed.

Lemma coloured_refl s : ~ In esc s -> coloured s s.
Proof. induction s as [|c s IH]; intros H; constructor; [intros ->; apply H; left; reflexivity|apply IH; intros K; apply H; right; exact K]. Qed.

Definition no_esc (s : str) : bool := forallb (fun c => negb (Ascii.eqb c esc)) s.
Definition plain_text (s : str) : bool := forallb (fun c => negb (Ascii.eqb c nl) && negb (Ascii.eqb c cr) && negb (Ascii.eqb c nul)) s.
Definition quoteless (s : str) : bool := forallb (fun c => negb (Ascii.eqb c "'")) s.
Lemma no_escb s : no_esc s = true -> ~ In esc s.
Proof. unfold no_esc. rewrite forallb_forall. intros H K. apply H in K. vm_compute in K. discriminate. Qed.
Lemma plain_textb s : plain_text s = true -> line_text s.
Proof.
  unfold plain_text, line_text. rewrite forallb_forall, Forall_forall. intros H c K. apply H in K.
  apply andb_true_iff in K. destruct K as [K K3]. apply andb_true_iff in K. destruct K as [K1 K2].
  apply negb_true_iff in K1, K2, K3. apply Ascii.eqb_neq in K1, K2, K3. auto.
Qed.
Lemma quotelessb s : quoteless s = true -> no_quote s.
Proof. unfold quoteless. rewrite forallb_forall. intros H K. apply H in K. vm_compute in K. discriminate. Qed.

(** uncoloured lines *)
Definition decl_text (m kw j name type t : str) : str := m ++ kw ++ $" 0x" ++ j ++ $" " ++ name ++ $" '" ++ type ++ $"'" ++ t.
Definition param_text (m j type t : str) : str := m ++ $"ParmVarDecl 0x" ++ j ++ $" '" ++ type ++ $"'" ++ t.
Lemma decl_line_plain m kw j name type t : top_marks m ->
  no_esc (j ++ $" " ++ name ++ $" '" ++ type ++ $"'" ++ t) && plain_text j && quoteless j && plain_text type && quoteless type && plain_text t = true ->
  decl_line kw name type (decl_text m kw j name type t).
Proof.
  intros Hm H. rewrite !andb_true_iff in H. destruct H as [[[[[H0 H1] H2] H3] H4] H5].
  exists m, j, t, (decl_text m kw j name type t). split; [exact Hm|]. split; [left; reflexivity|]. split.
  - exists [], [], [], (j ++ $" " ++ name ++ $" '" ++ type ++ $"'" ++ t). split; [reflexivity|].
    split; [constructor|]. split; [constructor|]. split; [constructor|apply coloured_refl, no_escb, H0].
  - auto 10 using plain_textb, quotelessb.
Qed.
Lemma param_line_plain m j type t : child_marks m ->
  no_esc (j ++ $" '" ++ type ++ $"'" ++ t) && plain_text j && quoteless j && plain_text type && quoteless type && plain_text t = true ->
  param_line type (param_text m j type t).
Proof.
  intros Hm H. rewrite !andb_true_iff in H. destruct H as [[[[[H0 H1] H2] H3] H4] H5].
  exists m, j, t, (param_text m j type t). split; [exact Hm|]. split; [left; reflexivity|]. split.
  - exists [], [], [], (j ++ $" '" ++ type ++ $"'" ++ t). split; [reflexivity|].
    split; [constructor|]. split; [constructor|]. split; [constructor|apply coloured_refl, no_escb, H0].
  - auto 10 using plain_textb, quotelessb.
Qed.
Lemma first_line_plain j : forallb (fun c => negb (Ascii.eqb c nl)) j = true -> first_line ($"TranslationUnitDecl 0x" ++ j).
Proof.
  intros H. rewrite forallb_forall in H. split.
  - intros K. apply in_app_or in K. destruct K as [K|K]; [|apply H in K; vm_compute in K; discriminate].
    revert K. cbn. intros K. repeat destruct K as [K|K]; try discriminate; destruct K.
  - exists [], [], [], j. split; [reflexivity|]. split; [left; reflexivity|]. split; constructor.
Qed.

(** an uncoloured dump of some declarations *)
Definition item_lines (i : item) : list str :=
  match i with
  | IVar n t => [decl_text $"|-" $"VarDecl" $"2a <a.h:1:1, col:5> col:5" n t $" extern"]
  | IFunc n t ps => decl_text $"|-" $"FunctionDecl" $"1b <a.h:1:1, col:5> col:5" n t $" extern" ::
                    map (fun p => param_text $"| |-" $"3c <col:7, col:9> col:9 x" p []) ps
  end.
Definition dump_text (its : list item) : str :=
  concat (map (fun x => x ++ [nl]) ($"TranslationUnitDecl 0x55 <<invalid sloc>>" :: $"|-TypedefDecl 0x7 <<invalid sloc>> implicit T 'int'" ::
    flat_map item_lines its)).
Definition text_ok (s : str) : bool := no_esc s && plain_text s && quoteless s.
Definition ident_wordb (n : str) : bool := match n with [] => false | _ => forallb is_ident n end.
Definition item_okb (i : item) : bool :=
  match i with
  | IVar n t => ident_wordb n && text_ok n && text_ok t
  | IFunc n t ps => ident_wordb n && text_ok n && text_ok t && forallb text_ok ps
  end.

Lemma text_okb s : text_ok s = true -> ~ In esc s /\ plain_text s = true /\ quoteless s = true.
Proof. unfold text_ok. rewrite !andb_true_iff. intros [[H1 H2] H3]. auto using no_escb. Qed.
Lemma no_esc_app a b : no_esc (a ++ b) = no_esc a && no_esc b.
Proof. apply forallb_app. Qed.

Lemma dump_text_ok its : forallb item_okb its = true -> dump its (dump_text its).
Proof.
  intros H. eexists _, _. split; [|split; [|reflexivity]].
  - apply (first_line_plain $"55 <<invalid sloc>>"). reflexivity.
  - apply sh_other; [apply other_lineb_spec; reflexivity|].
    induction its as [|i its IH]; [constructor|]. cbn [forallb] in H. apply andb_true_iff in H. destruct H as [Hi H]. specialize (IH H).
    destruct i as [n t ps|n t]; cbn [flat_map item_lines app].
    + cbn [item_okb] in Hi. rewrite !andb_true_iff in Hi. destruct Hi as [[[Hw Hn] Ht] Hp].
      apply sh_func; [split; [destruct n; discriminate|]| | |exact IH].
      * destruct n; [constructor|]. apply Forall_forall. apply forallb_forall. exact Hw.
      * apply decl_line_plain; [left; reflexivity|]. unfold text_ok in Hn, Ht. rewrite !andb_true_iff in Hn, Ht.
        destruct Hn as [[N1 N2] N3]. destruct Ht as [[T1 T2] T3]. rewrite !no_esc_app, N1, T1, T2, T3. reflexivity.
      * clear - Hp. induction ps as [|p ps IH]; [constructor|]. cbn [forallb] in Hp. apply andb_true_iff in Hp. destruct Hp as [H1 H2].
        cbn [map]. apply sp_param; [|apply IH, H2]. apply param_line_plain; [left; reflexivity|]. unfold text_ok in H1. rewrite !andb_true_iff in H1.
        destruct H1 as [[T1 T2] T3]. rewrite !no_esc_app, T1, T2, T3. reflexivity.
    + cbn [item_okb] in Hi. rewrite !andb_true_iff in Hi. destruct Hi as [[Hw Hn] Ht].
      apply sh_var; [split; [destruct n; discriminate|]| |exact IH].
      * destruct n; [constructor|]. apply Forall_forall. apply forallb_forall. exact Hw.
      * apply decl_line_plain; [left; reflexivity|]. unfold text_ok in Hn, Ht. rewrite !andb_true_iff in Hn, Ht.
        destruct Hn as [[N1 N2] N3]. destruct Ht as [[T1 T2] T3]. rewrite !no_esc_app, N1, T1, T2, T3. reflexivity.
Qed.

(* ------------------------------------------------------------ after success *)

Lemma read_dump_ok s input its text s' y : dump its text -> Forall spelled_out its -> read_input s input text = Ok (s', y) ->
  s' = s /\ tables_of (m_pfx_lower (o_pfxs s)) (chosen (o_ast_all s) (o_prefix_list s) (o_symbol_list s) [] its) y /\
  (o_ast_all s = true \/ reported (o_prefix_list s) (o_symbol_list s) its = []).
Proof.
  intros Hd Hs. destruct (dump_stream (o_read_options s) its text Hd) as (ts & Sh & E).
  unfold read_input. rewrite E. unfold ast_symbols. rewrite (parse_show _ _ _ input its ts Sh Hs).
  destruct (negb (o_ast_all s) && _); [discriminate|].
  assert (R : (if o_ast_all s then [] else reported (o_prefix_list s) (o_symbol_list s) its) = [] ->
              o_ast_all s = true \/ reported (o_prefix_list s) (o_symbol_list s) its = []) by (destruct (o_ast_all s); auto).
  destruct (if o_ast_all s then [] else reported (o_prefix_list s) (o_symbol_list s) its) as [|x u]; [|discriminate].
  destruct (chosen (o_ast_all s) (o_prefix_list s) (o_symbol_list s) [] its) as [|c ch] eqn:Ec; [discriminate|].
  cbn [bind]. rewrite <- Ec. set (L := chosen _ _ _ _ _). assert (HL : Forall spelled_out L) by (apply chosen_Forall, Hs).
  unfold taken. cbn [t_funcs t_objs].
  destruct (create_typedefs (m_pfx_lower (o_pfxs s)) (map item_proto (filter (fun i => negb (is_func i)) L))) as [[defs objs]| | |] eqn:Ct; try discriminate.
  cbn [bind fst snd]. intros K. injection K as <- <-. split; [reflexivity|]. split; [|apply R; reflexivity].
  apply create_typedefs_any in Ct. destruct Ct as [-> _]. eexists. cbn [s_funcs s_objs].
  split; [apply recorded_map, Forall_filter', HL|]. split; [apply recorded_map, Forall_filter', HL|reflexivity].
Qed.

Lemma recorded_names ch ps : Forall2 recorded ch ps -> map p_symbol ps = map item_name ch.
Proof. induction 1 as [|i p ch ps H _ IH]; [reflexivity|]. cbn [map]. rewrite IH. f_equal. destruct i; apply H. Qed.
Lemma tables_names pl ch y : tables_of pl ch y ->
  map p_symbol (s_funcs y) = map item_name (filter is_func ch) /\ map p_symbol (s_objs y) = map item_name (filter (fun i => negb (is_func i)) ch).
Proof.
  intros (objs & H1 & H2 & E). split; [apply recorded_names, H1|]. rewrite E, map_map. rewrite <- (recorded_names _ _ H2).
  apply map_ext. intros p. unfold with_typedef, retyped. destruct (p_kind p); reflexivity.
Qed.
Lemma listed_In l n : listed l n = true <-> In n l.
Proof.
  unfold listed. rewrite existsb_exists. split; [intros (x & H & K); apply str_eqb_eq in K; subst x; exact H|].
  intros H. exists n. split; [exact H|]. apply str_eqb_eq. reflexivity.
Qed.
Lemma chosen_list_nodup syms its : forall seen, NoDup (map item_name (chosen false [] syms seen its)) /\
  (forall n, In n (map item_name (chosen false [] syms seen its)) -> ~ In n seen).
Proof.
  induction its as [|i its IH]; intros seen; [split; [constructor|intros n []]|]. cbn [chosen has_prefix existsb orb].
  destruct (IH (item_name i :: seen)) as [H1 H2]. destruct (listed syms (item_name i) && negb (listed seen (item_name i))) eqn:E.
  - apply andb_true_iff in E. destruct E as [_ E]. apply negb_true_iff in E. cbn [map]. split.
    + constructor; [|exact H1]. intros K. apply H2 in K. apply K. left. reflexivity.
    + intros n [<-|K]; [intros X; apply listed_In in X; congruence|]. intros X. apply (H2 n K). right. exact X.
  - split; [exact H1|]. intros n K X. apply (H2 n K). right. exact X.
Qed.
Lemma names_nodup ch : NoDup (map item_name ch) -> NoDup (map item_name (filter is_func ch) ++ map item_name (filter (fun i => negb (is_func i)) ch)).
Proof.
  induction ch as [|i ch IH]; intros H; [constructor|]. cbn [map] in H. inversion H as [|x l H1 H2]; subst. specialize (IH H2).
  assert (N : ~ In (item_name i) (map item_name (filter is_func ch) ++ map item_name (filter (fun i => negb (is_func i)) ch))).
  { intros K. apply H1. apply in_app_or in K. destruct K as [K|K]; apply in_map_iff in K; destruct K as (j & <- & K); apply filter_In in K; apply in_map, K. }
  cbn [filter]. destruct (is_func i); cbn [negb map]; [constructor; assumption|].
  apply NoDup_Add with (a := item_name i) (l := map item_name (filter is_func ch) ++ map item_name (filter (fun i => negb (is_func i)) ch)); [apply Add_app|auto].
Qed.
Lemma ast_list_nodup s input its text s' y : dump its text -> Forall spelled_out its -> o_ast_all s = false -> o_prefix_list s = [] ->
  read_input s input text = Ok (s', y) -> NoDup (map p_symbol (s_funcs y ++ s_objs y)).
Proof.
  intros Hd Hs Ha Hp E. destruct (read_dump_ok _ _ _ _ _ _ Hd Hs E) as (_ & T & _). rewrite Ha, Hp in T. apply tables_names in T.
  destruct T as [T1 T2]. rewrite map_app, T1, T2. apply names_nodup, chosen_list_nodup.
Qed.

(** which declarations are chosen, by name *)
Lemma chosen_In all pfx syms its i : In i (chosen all pfx syms [] its) -> In i its /\
  (all = true \/ has_prefix pfx (item_name i) = true \/ In (item_name i) syms).
Proof.
  intros H. split; [eapply chosen_incl, H|]. revert H. generalize (@nil str) as seen. induction its as [|j its IH]; intros seen H; [destruct H|].
  cbn [chosen] in H. destruct (all || has_prefix pfx (item_name j) || (listed syms (item_name j) && negb (listed seen (item_name j)))) eqn:E.
  - destruct H as [->|H]; [|eapply IH, H]. apply orb_true_iff in E. destruct E as [E|E]; [apply orb_true_iff in E; tauto|].
    apply andb_true_iff in E. destruct E as [E _]. apply listed_In in E. auto.
  - eapply IH, H.
Qed.

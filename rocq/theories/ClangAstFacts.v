(** Facts about single lines of a Clang AST dump. *)
From Coq Require Import Ascii String List Bool Arith NArith Lia.
From Verif Require Import Str StrFacts Lex Tokenize Parse Format ClangAst SpecParse SpecClangAst.
Import ListNotations.

(* ------------------------------------------------------------ colours *)

Lemma sgr_tail_spec p s : Forall (fun c => isdigit c = true \/ c = ";"%char) p -> sgr_tail (p ++ "m"%char :: s) = Some (S (length p)).
Proof.
  induction 1 as [|c p H _ IH]; cbn [app sgr_tail length].
  - reflexivity.
  - assert (E : isdigit c || Ascii.eqb c ";" = true) by (destruct H as [->| ->]; reflexivity).
    rewrite E, IH. reflexivity.
Qed.

Lemma strip_skip n : forall a s, length a = n -> strip_ansi n (a ++ s) = strip_ansi 0 s.
Proof.
  induction n as [|n IH]; intros [|c a] s; cbn [length]; try discriminate; [reflexivity|].
  injection 1 as H. cbn [app strip_ansi]. apply IH, H.
Qed.

Lemma strip_sgr q s : sgr q -> strip_ansi 0 (q ++ s) = strip_ansi 0 s.
Proof.
  intros (p & -> & H).
  change ((esc :: "["%char :: p ++ ["m"%char]) ++ s) with (esc :: "["%char :: (p ++ ["m"%char]) ++ s).
  cbn [strip_ansi]. replace (Ascii.eqb esc esc) with true by reflexivity. rewrite <- app_assoc.
  cbn [sgr_len]. replace (Ascii.eqb "[" "[") with true by reflexivity.
  change ([("m")%char] ++ s) with ("m"%char :: s).
  rewrite sgr_tail_spec by exact H. cbn [option_map].
  replace (p ++ "m"%char :: s) with ((p ++ ["m"%char]) ++ s) by (rewrite <- app_assoc; reflexivity).
  apply (strip_skip _ (p ++ ["m"%char]) s). rewrite app_length. cbn [length]. lia.
Qed.

Lemma strip_sgrs n q s : sgrs n q -> strip_ansi 0 (q ++ s) = strip_ansi 0 s.
Proof.
  induction 1 as [|n q r H _ IH]; [reflexivity|]. rewrite <- app_assoc, strip_sgr by exact H. exact IH.
Qed.

Lemma strip_char c s : c <> esc -> strip_ansi 0 (c :: s) = c :: strip_ansi 0 s.
Proof. intros H. cbn [strip_ansi]. apply Ascii.eqb_neq in H. rewrite H. reflexivity. Qed.

Lemma strip_plain w s : ~ In esc w -> strip_ansi 0 (w ++ s) = w ++ strip_ansi 0 s.
Proof.
  induction w as [|c w IH]; intros H; [reflexivity|]. cbn [app]. rewrite strip_char by (intros ->; apply H; left; reflexivity).
  rewrite IH; [reflexivity|]. intros K; apply H; right; exact K.
Qed.

Lemma strip_coloured p s : coloured p s -> strip_ansi 0 s = p.
Proof.
  induction 1 as [|c p s H _ IH|q p s H _ IH]; [reflexivity|rewrite strip_char, IH by exact H; reflexivity|].
  rewrite strip_sgr by exact H. exact IH.
Qed.

Lemma no_esc (w : str) : existsb (Ascii.eqb esc) w = false -> ~ In esc w.
Proof.
  intros H K. assert (existsb (Ascii.eqb esc) w = true); [|congruence].
  apply existsb_exists. exists esc. split; [exact K|reflexivity].
Qed.

Lemma strip_node m kw s l : ~ In esc m -> ~ In esc kw -> node m kw s l -> strip_ansi 0 l = m ++ kw ++ $" 0x" ++ s.
Proof.
  intros Hm Hk (c1 & c2 & c3 & s' & -> & H1 & H2 & H3 & H4).
  rewrite (strip_sgrs 1) by exact H1. rewrite strip_plain by exact Hm. f_equal.
  rewrite (strip_sgrs 2) by exact H2. rewrite strip_plain by exact Hk. f_equal.
  rewrite (strip_sgrs 2) by exact H3. rewrite strip_plain by (apply no_esc; reflexivity). f_equal.
  apply strip_coloured, H4.
Qed.

(* ------------------------------------------------------------ bytes of a line *)

Definition lineb (c : ascii) : bool := negb (Ascii.eqb c nl) && negb (Ascii.eqb c cr) && negb (Ascii.eqb c nul).
Lemma line_textb s : forallb lineb s = true <-> line_text s.
Proof.
  unfold line_text. rewrite forallb_forall, Forall_forall. unfold lineb.
  split; intros H c Hc; specialize (H c Hc).
  - rewrite !andb_true_iff, !negb_true_iff, !Ascii.eqb_neq in H. tauto.
  - rewrite !andb_true_iff, !negb_true_iff, !Ascii.eqb_neq. tauto.
Qed.
Lemma line_text_app a b : line_text (a ++ b) <-> line_text a /\ line_text b.
Proof. apply Forall_app. Qed.

Lemma sgr_line q : sgr q -> line_text q.
Proof.
  intros (p & -> & H). constructor; [vm_compute; repeat split; discriminate|].
  constructor; [vm_compute; repeat split; discriminate|].
  apply line_text_app. split; [|apply line_textb; reflexivity].
  eapply Forall_impl; [|exact H]. intros c [D| ->]; [|vm_compute; repeat split; discriminate].
  repeat split; intros ->; vm_compute in D; discriminate.
Qed.
Lemma sgrs_line n q : sgrs n q -> line_text q.
Proof. induction 1; [constructor|]. apply line_text_app. split; [apply sgr_line|]; assumption. Qed.
Lemma coloured_line p s : coloured p s -> line_text p -> line_text s.
Proof.
  induction 1 as [|c p s H _ IH|q p s H _ IH]; intros L; [constructor| |].
  { inversion L; subst. constructor; [assumption|]. apply IH. assumption. }
  apply line_text_app. split; [apply sgr_line, H|apply IH, L].
Qed.
Lemma node_line m kw s l : line_text m -> line_text kw -> line_text s -> node m kw s l -> line_text l.
Proof.
  intros Hm Hk Hs (c1 & c2 & c3 & s' & -> & H1 & H2 & H3 & H4). rewrite !line_text_app. repeat split; try assumption.
  - apply (sgrs_line 1), H1. - apply (sgrs_line 2), H2. - apply (sgrs_line 2), H3.
  - apply line_textb; reflexivity. - apply (coloured_line s), Hs. exact H4.
Qed.

Lemma line_text_cstr l : line_text l -> c_str l = l.
Proof.
  induction 1 as [|c l (_ & _ & H) _ IH]; [reflexivity|]. cbn [c_str]. apply Ascii.eqb_neq in H. rewrite H, IH. reflexivity.
Qed.
Lemma cstr_cr l : line_text l -> c_str (l ++ [cr]) = l ++ [cr].
Proof.
  induction 1 as [|c l (_ & _ & H) _ IH]; [reflexivity|]. cbn [c_str app]. apply Ascii.eqb_neq in H. rewrite H, IH. reflexivity.
Qed.

Lemma delete_cr l : delete_suffix (l ++ [cr]) [cr] = l.
Proof.
  unfold delete_suffix, ends_with. rewrite rev_app_distr. cbn [rev app starts_with].
  replace (Ascii.eqb cr cr) with true by reflexivity. cbn [andb].
  rewrite app_length. cbn [length]. replace (length l + 1 - 1) with (length l) by lia.
  rewrite firstn_app, Nat.sub_diag, firstn_O, app_nil_r. apply firstn_all.
Qed.
Lemma delete_no_cr l : line_text l -> delete_suffix l [cr] = l.
Proof.
  intros H. unfold delete_suffix, ends_with. destruct (starts_with (rev [cr]) (rev l)) eqn:E; [|reflexivity].
  exfalso. cbn [rev app] in E. destruct (rev l) as [|c r] eqn:R; [discriminate|]. cbn [starts_with] in E.
  apply andb_true_iff in E. destruct E as [E _]. apply Ascii.eqb_eq in E. subst c.
  assert (In cr l) by (rewrite in_rev, R; left; reflexivity).
  apply (proj1 (Forall_forall _ _) H cr) in H0. tauto.
Qed.
Lemma strip_maybe_cr l0 l : line_text l0 -> maybe_cr l0 l -> strip_line l = strip_ansi 0 l0.
Proof.
  intros H [->| ->]; unfold strip_line; [rewrite delete_no_cr by exact H|rewrite delete_cr]; reflexivity.
Qed.
Lemma cstr_maybe_cr l0 l : line_text l0 -> maybe_cr l0 l -> c_str l = l.
Proof. intros H [->| ->]; [apply line_text_cstr, H|apply cstr_cr, H]. Qed.

(* ------------------------------------------------------------ the patterns *)

Lemma until_quote_spec t r : no_quote t -> until_quote (t ++ quote :: r) = Some t.
Proof.
  induction t as [|c t IH]; intros H; cbn [app until_quote]; [reflexivity|].
  assert (E : Ascii.eqb c quote = false) by (apply Ascii.eqb_neq; intros ->; apply H; left; reflexivity).
  rewrite E, IH; [reflexivity|]. intros K; apply H; right; exact K.
Qed.

Lemma ident_not_blank c : is_ident c = true -> c <> sp.
Proof. intros H ->. vm_compute in H. discriminate. Qed.
Lemma ident_quote_spec n r : Forall (fun c => is_ident c = true) n -> ident_quote (n ++ sp :: quote :: r) = Some (n, r).
Proof.
  induction 1 as [|c n H _ IH]; cbn [app ident_quote]; [reflexivity|]. rewrite H, IH. reflexivity.
Qed.
(** between a blank and the next quote lies another blank that is not the last byte: no symbol here *)
Lemma ident_quote_none a b r : no_quote a -> no_quote b -> b <> [] -> ident_quote (a ++ sp :: b ++ quote :: r) = None.
Proof.
  intros Ha Hb Hn. induction a as [|c a IH]; cbn [app ident_quote].
  - replace (is_ident sp) with false by reflexivity. destruct b as [|d b]; [congruence|].
    cbn [app starts_with]. assert (E : Ascii.eqb quote d = false) by (apply Ascii.eqb_neq; intros <-; apply Hb; left; reflexivity).
    rewrite E. cbn [andb]. rewrite andb_false_r. reflexivity.
  - rewrite IH by (intros K; apply Ha; right; exact K). destruct (is_ident c) eqn:E; [reflexivity|].
    replace (starts_with [sp; quote] (c :: a ++ sp :: b ++ quote :: r)) with false; [reflexivity|].
    symmetry. cbn [starts_with]. destruct a as [|d a]; cbn [app]; [rewrite andb_false_r; reflexivity|].
    assert (E' : Ascii.eqb quote d = false) by (apply Ascii.eqb_neq; intros <-; apply Ha; right; left; reflexivity).
    rewrite E'. rewrite andb_false_r. reflexivity.
Qed.

Lemma gap_symbol_spec j n ty t : no_quote j -> ident_word n -> no_quote ty ->
  gap_symbol_type (j ++ $" " ++ n ++ $" '" ++ ty ++ $"'" ++ t) = Some (n, ty).
Proof.
  intros Hj [_ Hn] Ht. change ($" '" ++ ty ++ $"'" ++ t) with (sp :: quote :: ty ++ quote :: t). change ($" ") with [sp].
  assert (Nn : no_quote n).
  { intros K. apply (proj1 (Forall_forall _ _) Hn) in K. vm_compute in K. discriminate. }
  assert (B : no_quote (n ++ [sp])).
  { intros K. apply in_app_or in K. destruct K as [K|[K|[]]]; [apply Nn, K|discriminate]. }
  induction j as [|c j IH]; cbn [app gap_symbol_type].
  - replace (Ascii.eqb sp sp) with true by reflexivity. rewrite ident_quote_spec by exact Hn.
    rewrite until_quote_spec by exact Ht. reflexivity.
  - cbn [app] in IH. rewrite IH by (intros K; apply Hj; right; exact K).
    destruct (Ascii.eqb c sp); [|reflexivity].
    replace (n ++ sp :: quote :: ty ++ quote :: t) with ((n ++ [sp]) ++ quote :: ty ++ quote :: t) by (rewrite <- app_assoc; reflexivity).
    rewrite ident_quote_none; [reflexivity| |exact B|destruct n; discriminate].
    intros K; apply Hj; right; exact K.
Qed.

Lemma gap_type_spec j ty t : no_quote j -> no_quote ty -> gap_type (j ++ $" '" ++ ty ++ $"'" ++ t) = Some ty.
Proof.
  intros Hj Ht. change ($" '" ++ ty ++ $"'" ++ t) with (sp :: quote :: ty ++ quote :: t).
  induction j as [|c j IH]; cbn [app].
  - cbn [gap_type]. replace (starts_with [sp; quote] (sp :: quote :: ty ++ quote :: t)) with true by reflexivity.
    cbn [skipn]. rewrite until_quote_spec by exact Ht. reflexivity.
  - cbn [gap_type]. rewrite IH by (intros K; apply Hj; right; exact K).
    replace (starts_with [sp; quote] (c :: j ++ sp :: quote :: ty ++ quote :: t)) with false; [reflexivity|].
    symmetry. cbn [starts_with]. destruct j as [|d j]; cbn [app]; [rewrite andb_false_r; reflexivity|].
    assert (E' : Ascii.eqb quote d = false) by (apply Ascii.eqb_neq; intros <-; apply Hj; right; left; reflexivity).
    rewrite E'. rewrite andb_false_r. reflexivity.
Qed.

Lemma line_dot s : line_text s -> forallb reg_dot s = true.
Proof.
  intros H. apply forallb_forall. intros c Hc. apply (proj1 (Forall_forall _ _) H) in Hc. destruct Hc as (H1 & H2 & _).
  unfold reg_dot. apply Ascii.eqb_neq in H1, H2. rewrite H1, H2. reflexivity.
Qed.

Lemma starts_app p s : starts_with p (p ++ s) = true.
Proof. induction p as [|c p IH]; [reflexivity|]. cbn [app starts_with]. rewrite Ascii.eqb_refl. exact IH. Qed.
Lemma skipn_app_len {A} (p s : list A) : skipn (length p) (p ++ s) = s.
Proof. induction p; [reflexivity|exact IHp]. Qed.

Lemma match_decl_spec kw m s : top_marks m -> line_text s ->
  match_decl kw (m ++ kw ++ $" 0x" ++ s) = gap_symbol_type s.
Proof.
  intros Hm Hs. assert (E : exists b, m = b :: $"-" /\ Ascii.eqb b "|" || Ascii.eqb b "`" = true).
  { destruct Hm as [<-|[<-|[]]]; eexists; split; reflexivity. }
  destruct E as (b & -> & Eb). cbn [app match_decl].
  change ("-"%char :: kw ++ $" 0x" ++ s) with ($"-" ++ kw ++ $" 0x" ++ s).
  replace ($"-" ++ kw ++ $" 0x" ++ s) with (($"-" ++ kw ++ $" 0x") ++ s) by (rewrite <- !app_assoc; reflexivity).
  unfold match_decl. cbn [app lit list_ascii_of_string] in *. rewrite Eb.
  set (h := "-"%char :: kw ++ [" "; "0"; "x"]%char).
  change (starts_with h ("-"%char :: (kw ++ [" "; "0"; "x"]%char) ++ s)) with (starts_with h (h ++ s)).
  change ("-"%char :: (kw ++ [" "; "0"; "x"]%char) ++ s) with (h ++ s).
  rewrite starts_app, skipn_app_len, line_dot by exact Hs. reflexivity.
Qed.

Lemma match_param_spec m s : child_marks m -> line_text s ->
  match_param (m ++ $"ParmVarDecl" ++ $" 0x" ++ s) = gap_type s.
Proof.
  intros Hm Hs. unfold match_param.
  destruct Hm as [<-|[<-|[<-|[<-|[]]]]]; cbn [lit list_ascii_of_string app];
    match goal with |- context [starts_with ?h ?x] => change x with (h ++ s); rewrite (starts_app h s), (skipn_app_len h s) end;
    rewrite line_dot by exact Hs; reflexivity.
Qed.

(* ------------------------------------------------------------ declaration and parameter lines *)

Lemma marks_esc m : top_marks m \/ child_marks m -> ~ In esc m.
Proof. intros H. apply no_esc. destruct H as [H|H]; repeat (destruct H as [<-|H]; [reflexivity|]); destruct H. Qed.
Lemma marks_line m : top_marks m \/ child_marks m -> line_text m.
Proof. intros H. apply line_textb. destruct H as [H|H]; repeat (destruct H as [<-|H]; [reflexivity|]); destruct H. Qed.

Lemma word_line n : ident_word n -> line_text n.
Proof.
  intros [_ H]. eapply Forall_impl; [|exact H]. intros c Hc.
  repeat split; intros ->; vm_compute in Hc; discriminate.
Qed.
Lemma decl_rest_line j n ty t : line_text j -> ident_word n -> line_text ty -> line_text t ->
  line_text (j ++ $" " ++ n ++ $" '" ++ ty ++ $"'" ++ t).
Proof.
  intros. rewrite !line_text_app. repeat split; try assumption; try (apply line_textb; reflexivity). apply word_line; assumption.
Qed.
Lemma param_rest_line j ty t : line_text j -> line_text ty -> line_text t -> line_text (j ++ $" '" ++ ty ++ $"'" ++ t).
Proof. intros. rewrite !line_text_app. repeat split; try assumption; apply line_textb; reflexivity. Qed.

Lemma decl_line_spec kw n ty l : kw = $"FunctionDecl" \/ kw = $"VarDecl" -> ident_word n -> decl_line kw n ty l ->
  match_decl kw (strip_line l) = Some (n, ty) /\
  Ascii.eqb (str_at (strip_line l) 2) "F" = str_eqb kw $"FunctionDecl" /\ c_str l = l.
Proof.
  intros Hk Hn (m & j & t & l0 & Hm & Hc & N & Lj & Qj & Lt & Qt & Lr).
  assert (Ek : ~ In esc kw) by (destruct Hk as [->| ->]; apply no_esc; reflexivity).
  assert (Lk : line_text kw) by (destruct Hk as [->| ->]; apply line_textb; reflexivity).
  assert (Ls := decl_rest_line j n ty t Lj Hn Lt Lr).
  assert (L0 : line_text l0) by (eapply node_line; [apply marks_line; left; exact Hm|exact Lk|exact Ls|exact N]).
  rewrite (strip_maybe_cr l0 l L0 Hc).
  rewrite (strip_node _ _ _ _ (marks_esc m (or_introl Hm)) Ek N).
  split; [|split; [|exact (cstr_maybe_cr l0 l L0 Hc)]].
  - rewrite match_decl_spec by assumption. apply gap_symbol_spec; assumption.
  - destruct Hm as [<-|[<-|[]]]; destruct Hk as [->| ->]; reflexivity.
Qed.

Lemma param_line_spec ty l : param_line ty l -> match_param (strip_line l) = Some ty /\ c_str l = l.
Proof.
  intros (m & j & t & l0 & Hm & Hc & N & Lj & Qj & Lt & Qt & Lr).
  assert (Ls := param_rest_line j ty t Lj Lt Lr).
  assert (L0 : line_text l0).
  { eapply node_line; [apply marks_line; right; exact Hm| |exact Ls|exact N]. apply line_textb. reflexivity. }
  rewrite (strip_maybe_cr l0 l L0 Hc).
  assert (Ek : ~ In esc $"ParmVarDecl") by (apply no_esc; reflexivity).
  rewrite (strip_node _ _ _ _ (marks_esc m (or_intror Hm)) Ek N).
  split; [|exact (cstr_maybe_cr l0 l L0 Hc)].
  rewrite match_param_spec by assumption. apply gap_type_spec; assumption.
Qed.

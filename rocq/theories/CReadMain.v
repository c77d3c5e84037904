(** Proofs for C97: the functions of the generated library are read back as they are. *)
From Coq Require Import Ascii String List Bool Arith Lia.
From Verif Require Import Str StrFacts Parse ParamNames Prefix Substitute Data Generate SpecPrefix SpecSubstitute Templates SpecTemplates CRuntime
  SpecCLang SpecCProg SpecCRun SpecBody SpecHeader CTemplate CTemplateText CTemplatePP CBody CBodyText CCode CBodyFuns CBodyFine HHeader2 SpecCRead SpecCSyntax CRead CReadS CReadCode.
Import ListNotations.

(* ---------------------------------------------------------------- the types that are cast to *)

Lemma tokens_join a d b : declaration_text a -> is_ident d = false -> tokens_of (a ++ d :: b) = tokens_of a ++ tokens_of (d :: b).
Proof.
  intros A D. unfold tokens_of. rewrite lex_app. destruct (decl_lex a A MCode (or_introl eq_refl)) as [M _].
  destruct (lex_from MCode a) as [m l] eqn:L. cbn [fst snd] in *. destruct M as [->|[w ->]].
  - destruct (lex_from MCode (d :: b)) as [m' l']. cbn [fst snd]. rewrite app_nil_r. rewrite <- app_assoc, unglued_app. reflexivity.
  - cbn [lex_from lex_char]. rewrite D. unfold SpecCLang.after. destruct (Ascii.eqb d "("); destruct (fresh_char d) as [m1 t1]; cbn [fst snd];
      destruct (lex_from m1 b) as [m2 t2]; cbn [fst snd]; rewrite !unglued_app; cbn [unglued filter app glue negb]; repeat (rewrite <- ?app_assoc; cbn [app]); reflexivity.
Qed.
Lemma level_app a : forall b d d', level_at d a = Some d' -> level_at d (a ++ b) = level_at d' b.
Proof.
  induction a as [|t a IH]; intros b d d' H; cbn [app level_at] in *; [now injection H as ->|].
  destruct (is_op _ t). { destruct d; [discriminate|]. now apply IH. } destruct (is_op _ t); now apply IH.
Qed.
Lemma closing_level l : forall d, closing d (l ++ [pn ")"]) = Some (l, []) -> level_at d l = Some 0.
Proof.
  induction l as [|t l IH]; intros d H; cbn [app] in H.
  - cbn [closing is_op pn] in H. change (str_eqb $")" $")") with true in H. cbv iota in H. destruct d as [|d]; [reflexivity|discriminate].
  - cbn [closing level_at] in *. destruct (is_op $")" t).
    + destruct d as [|d]; [discriminate|]. apply IH. destruct (closing d (l ++ [pn ")"])) as [[? ?]|]; [|discriminate]. congruence.
    + destruct (is_op $"(" t); apply IH; (destruct (closing _ (l ++ [pn ")"])) as [[? ?]|]; [|discriminate]; congruence).
Qed.
Lemma pointer_tokens b e : plain_proto e -> exists u, tokens_of (pointer_to b e) = tokens_of (p_type e) ++ u /\
  (u = [pn "*"] \/ u = [pn "("; pn "*"; pn ")"; pn "("] ++ tokens_of (p_args e) ++ [pn ")"]).
Proof.
  intros (T & A & _). unfold pointer_to.
  assert (K : forall d r, is_ident d = false -> tokens_of (p_type e ++ (if pointer_type e then [] else $" ") ++ d :: r) = tokens_of (p_type e) ++ tokens_of (d :: r)).
  { intros d r D. destruct (pointer_type e). { now apply tokens_join. } change ($" " ++ d :: r) with (" "%char :: d :: r). rewrite tokens_join by auto. f_equal. unfold tokens_of. generalize (d :: r) as q. intro q. cbn [lex_from]. change (lex_char MCode " "%char) with (MCode, @nil tok). cbv beta iota. now destruct (lex_from MCode q). }
  destruct b.
  - exists ([pn "("; pn "*"; pn ")"; pn "("] ++ tokens_of (p_args e) ++ [pn ")"]). split; [|now right].
    change ($"(*)(" ++ p_args e ++ $")") with ("("%char :: ($"*)(" ++ p_args e ++ $")")). rewrite K by reflexivity. f_equal.
    change ("("%char :: ($"*)(" ++ p_args e ++ $")")) with ($"(*)(" ++ (p_args e ++ ")"%char :: [])).
    assert (Z : tokens_of ($"(*)(" ++ (p_args e ++ ")"%char :: [])) = [pn "("; pn "*"; pn ")"; pn "("] ++ tokens_of (p_args e ++ ")"%char :: [])).
    { unfold tokens_of. rewrite lex_app. change (lex_from MCode $"(*)(") with (MCode, [TOp $"("; TOp $"*"; TOp $")"; TOp $"("]). cbn [fst snd].
      destruct (lex_from MCode (p_args e ++ [")"%char])) as [m l]. reflexivity. }
    rewrite Z. now rewrite tokens_join by auto.
  - exists [pn "*"]. split; [|now left]. change $"*" with ("*"%char :: []). now rewrite K.
Qed.
Lemma cast_ok tw b e : plain_proto e -> typed_proto e -> (forall w, In w (first_word e) -> tw w = true) -> type_ok tw (utoks (symbol_value b e) [KHole HSymType]) = true.
Proof.
  intros P ((w & r & T & _) & B1 & B2) W. rewrite utoks_hole. cbn [symbol_value]. change (utoks _ []) with (@nil tok). rewrite app_nil_r.
  destruct (pointer_tokens b e P) as (u & -> & U). unfold type_ok.
  assert (L : level_at 0 (tokens_of (p_type e) ++ u) = Some 0).
  { rewrite (level_app _ _ _ 0) by now apply closing_level. destruct U as [-> | ->]; [reflexivity|]. cbn. rewrite (level_app _ _ 1 1); [reflexivity|].
    apply closing_level in B2. clear -B2. revert B2. generalize (tokens_of (p_args e)) as l. assert (G : forall l d, level_at d l = Some 0 -> level_at (S d) l = Some 1).
    { induction l as [|t l IH]; intros d H; cbn [level_at] in *; [congruence|]. destruct (is_op $")" t). { destruct d; [discriminate|]. now apply IH. } destruct (is_op $"(" t); now apply IH. }
    intros l. apply G. }
  rewrite L, andb_true_r. rewrite T. cbn [app starts_type]. apply W. unfold first_word. rewrite T. now left.
Qed.

(* ---------------------------------------------------------------- types and names *)

Lemma one_of_in x l : one_of x l = true <-> In x l.
Proof.
  unfold one_of. rewrite existsb_exists. split; [intros (y & Y & E); apply str_eqb_eq in E; now subst|intro H; exists x; split; [exact H|now apply str_eqb_eq]].
Qed.
Lemma base_not_own w : one_of w base_types = true -> one_of w own_variables = false.
Proof. intro H. apply one_of_in in H. cbn in H. repeat (destruct H as [<-|H]; [reflexivity|]). destruct H. Qed.
Lemma base_not_key w : is_keyword w = true -> one_of w base_types = false.
Proof. intro H. apply existsb_exists in H as (x & X & E). apply str_eqb_eq in E. subst x. cbn in X. repeat (destruct X as [<-|X]; [reflexivity|]). destruct X. Qed.
Lemma listed_not_key w : listed w = true -> is_keyword w = false.
Proof.
  destruct (is_keyword w) eqn:K; [|reflexivity]. apply existsb_exists in K as (x & X & E). apply str_eqb_eq in E. subst x. cbn in X.
  intro H. exfalso. repeat (destruct X as [<-|X]; [vm_compute in H; discriminate|]). destruct X.
Qed.
Section Config.
Variables (cfg : str -> bool) (c : config) (p : param_mode).
Notation F := (funs cfg c p).
Hypotheses (Pl : plain_config c) (Ty : typed_config c) (Nv : no_variable c).
Lemma user_word w : In w (user_types c) -> is_keyword w = false /\ one_of w own_variables = false /\ one_of w system_names = false /\ own_prefix w = false.
Proof.
  intro H. pose proof (Nv w H) as V. apply in_flat_map in H as (e & E & H). pose proof Ty as Ty'. unfold typed_config in Ty'. rewrite Forall_forall in Ty'. destruct (Ty' e E) as ((x & r & T & A & B & C) & _).
  unfold first_word in H. rewrite T in H. destruct H as [->|[]]. repeat split; auto.
Qed.
Lemma function_back f fn : find_func F f = Some fn -> reads_function (type_in c fn) (print_f fn) fn.
Proof.
  intro E. pose proof (all_locals cfg c p f fn E) as LC.
  assert (hid : forall w, one_of w own_variables = false -> one_of w (hidden_by fn) = false).
  { intros w W. destruct (one_of w (hidden_by fn)) eqn:H; [|reflexivity]. apply one_of_in in H. unfold locals_ok in LC. rewrite forallb_forall in LC. now rewrite (LC w H) in W. }
  assert (key : forall w, is_keyword w = true -> type_in c fn w = false).
  { intros w W. unfold type_in. rewrite base_not_key by exact W. destruct (one_of w (user_types c)) eqn:U; [|reflexivity]. apply one_of_in in U. apply user_word in U. destruct U as [U _]. congruence. }
  apply function_read.
  - apply forallb_forall. intros w W. apply negb_true_iff, key. unfold is_keyword. apply existsb_exists. exists w. split; [exact W|now apply str_eqb_eq].
  - exact (all_fine cfg c p f fn E).
  - apply (all_named cfg c p (type_in c fn) f fn); auto.
    + intros w W. unfold name_ok. rewrite (listed_not_key w W), andb_true_r. apply negb_true_iff. unfold type_in. unfold listed in W. rewrite andb_true_iff, negb_true_iff in W. destruct W as [W1 W2]. rewrite W2.
      destruct (one_of w (user_types c)) eqn:U; [|reflexivity]. apply one_of_in in U. apply user_word in U. destruct U as (_ & U1 & U2 & U3). rewrite U1, U2, U3 in W1. discriminate.
    + intros w W. unfold type_in. rewrite W, hid; [reflexivity|now apply base_not_own].
    + intros v V. destruct Pl as [P1 P2]. rewrite Forall_forall in P1, P2. pose proof Ty as Ty'. unfold typed_config in Ty'. rewrite Forall_forall in Ty'.
      assert (X : exists b e, v = symbol_value b e /\ In e (c_funcs c ++ c_objs c) /\ plain_proto e).
      { apply in_app_or in V as [V|V]; apply in_map_iff in V as (e & <- & V); [exists true, e|exists false, e]; (split; [reflexivity|]); (split; [apply in_or_app; tauto|auto]). }
      destruct X as (b & e & -> & I & P). apply cast_ok; auto. intros w W. assert (U : In w (user_types c)) by (apply in_flat_map; eauto).
      unfold type_in. rewrite (proj2 (one_of_in w (user_types c)) U), orb_true_r. apply user_word in U. rewrite hid by apply U. reflexivity.
Qed.
End Config.

Lemma library_reads k c cfg : c_line c = false -> default_prefix c -> plain_config c -> build k c cfg -> typed_config c -> no_variable c ->
  exists prog, preprocess cfg (library_text c) = Some (print prog) /\
    forall x f, find_func (functions (header_macros (symbol_names c)) prog) x = Some f -> reads_function (type_in c f) (print_f f) f.
Proof.
  intros L D P B T N. exists (inst cfg c (body_of (c_param c))). split; [apply body_text; try assumption; apply (b_absent _ _ _ B)|].
  change (functions (header_macros (symbol_names c)) (inst cfg c (body_of (c_param c)))) with (funs cfg c (c_param c)). intros x f. now apply function_back.
Qed.

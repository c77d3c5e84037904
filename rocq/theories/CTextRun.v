(** Proofs for C85: whole runs. *)
From Coq Require Import Ascii String List Bool Arith NArith ZArith Lia.
From Verif Require Import Str StrFacts Lex Tokenize Parse ParamNames Format Prefix SpecParse SpecTables SpecPrefix Substitute SpecSubstitute PrefixFacts SpecTemplates Options Generate SpecGenerate ClangAst Frontend
  TablesClean ShippedFacts ShippedProps SpecEndToEnd EndToEnd SpecCText CTextProps CTextFile CTextTables SpecCFiles.
Import ListNotations.

Lemma settings_fine e s f o defs tdefs : usable_prefix (o_pfxs s) -> closed_settings e s -> Forall plain_proto (f ++ o) -> Forall matched_proto (f ++ o) -> f ++ o <> [] ->
  all_defines s f o = Ok defs -> Forall (fun t => declaration_text t /\ matched t) tdefs -> forall cxx, fine_parts cxx e s f o defs tdefs.
Proof.
  intros P (D & I & (L1 & L2) & Q & DT) PF PM N A T cxx. destruct (usable _ P) as (U & _).
  split; [exact PF|]. split; [exact PM|]. split.
  { apply (macros_in_front_closed cxx s f o defs P PF N (D cxx)); [|exact A]. intros lib _ E. exact (library_closed cxx (o_lib s) _ lib U L1 L2 E). }
  split; [apply Forall_forall; intros i Hi; exact (I i Hi cxx)|]. split; [exact T|]. split; [exact Q|].
  destruct (o_date s); [|exact Logic.I]. destruct (e_date e) as [d|]; [now apply DT|exact Logic.I].
Qed.
Lemma program_closes e help argv stdin fs out g input text s y :
  parse_cmdline argv defaults = Ok (Done g) -> g_input g = Some input -> input_is e fs stdin input text -> o_template (g_set g) = [] ->
  read_input (g_set g) input text = Ok (s, y) -> Forall plain_proto (s_funcs y ++ s_objs y) -> s_funcs y ++ s_objs y <> [] ->
  Forall matched_proto (s_funcs y ++ s_objs y) -> Forall (fun t => declaration_text t /\ matched t) (s_typedefs y) ->
  ordinary_run e s -> (o_lib s = [] \/ exists x, format_libname (o_lib s) (m_pfx_upper (o_pfxs s)) = Ok x) -> can_write e s fs -> closed_settings e s ->
  exists w', program e help argv stdin (started fs out) = (w', Ret tt) /\ writes_closed s out w'.
Proof.
  intros C I (In0 & In1) Tm Ri Pl Ne Ma Td R Lib W CS.
  destruct (defines_exist s (s_funcs y) (s_objs y) Lib) as (defs & Df). assert (P : usable_prefix (o_pfxs s)) by apply R.
  pose proof (settings_fine e s _ _ defs (s_typedefs y) P CS Pl Ma Ne Df Td) as FP.
  assert (Pg : program e help argv stdin (started fs out) = run e s (s_funcs y) (s_objs y) (s_typedefs y) stdin (started fs out)).
  { unfold program, Generate.seq, lift. rewrite C, I. unfold tokenize, Generate.seq, lift. destruct input as [|c0 input0]; [now elim In0|]. set (input := c0 :: input0) in *.
    rewrite Tm. replace (str_eqb input $"-" && str_eqb [] $"-") with false by now rewrite andb_false_r.
    destruct In1 as [(E1 & E2)|(E1 & E2 & E3)].
    - rewrite E1 in *. cbn [str_eqb ret]. change (str_eqb $"-" $"-") with true. unfold ret. rewrite <- E2, Ri. reflexivity.
    - rewrite (proj2 (str_eqb_neq input $"-") E1). unfold read_file. rewrite E2. cbn [started w_fs]. rewrite E3, Ri. reflexivity. }
  unfold can_write in W. unfold writes_closed. rewrite Pg. destruct (to_stdout s) eqn:So.
  - destruct (generates_stdout e s _ _ _ (s_typedefs y) stdin fs out R Pl Ne Df So) as (w' & t & R1 & _ & R2 & R3).
    exists w'. split; [exact R1|]. exists t. split; [exact R2|]. intros cxx. exact (header_closed cxx _ _ _ _ _ _ _ P (FP cxx) R3).
  - destruct (separate s) eqn:Sp.
    + destruct W as (W1 & W2). destruct (generates_two e s _ _ _ (s_typedefs y) stdin fs out R Pl Ne Df Sp W1 W2) as (w' & t & t' & R1 & R2 & R3 & R4 & R5 & _).
      exists w'. split; [exact R1|]. exists t, t'. split; [exact R2|]. split; [exact R4|].
      split; intros cxx; [exact (header_closed cxx _ _ _ _ _ _ _ P (FP cxx) R3)|exact (body_closed cxx _ _ _ _ _ _ _ P (FP cxx) R5)].
    + destruct W as (W1 & W2). destruct (generates_single e s _ _ _ (s_typedefs y) stdin fs out R Pl Ne Df Sp So W1 W2) as (w' & t & R1 & R2 & R3 & _).
      exists w'. split; [exact R1|]. exists t. split; [exact R2|]. intros cxx. exact (header_closed cxx _ _ _ _ _ _ _ P (FP cxx) R3).
Qed.
Lemma header_run_closed e help argv stdin fs out g input text ds :
  parse_cmdline argv defaults = Ok (Done g) -> g_input g = Some input -> input_is e fs stdin input text ->
  ordinary_run e (g_set g) -> (o_lib (g_set g) = [] \/ exists x, format_libname (o_lib (g_set g)) (m_pfx_upper (o_pfxs (g_set g))) = Ok x) -> can_write e (g_set g) fs ->
  header_with ds text -> NoDup (map decl_name ds) -> Forall (simple_decl (o_param (g_set g))) ds ->
  (forall n, In n (o_symbol_list (g_set g)) -> In n (declared_names ds)) ->
  asked_for (o_prefix_list (g_set g)) (o_symbol_list (g_set g)) (declared_names ds) <> [] ->
  Forall matched_decl ds -> closed_settings e (g_set g) ->
  exists w', program e help argv stdin (started fs out) = (w', Ret tt) /\ writes_closed (g_set g) out w'.
Proof.
  intros C I Inp R Lib W H U D Al So M CS. assert (P : usable_prefix (o_pfxs (g_set g))) by apply R. destruct (usable _ P) as (_ & L & _).
  destruct (read_matched (g_set g) input text ds H U D M L Al So) as (y & Ri & P1 & P2 & P3 & P4).
  apply (program_closes e help argv stdin fs out g input text (g_set g) y); auto. apply R.
Qed.

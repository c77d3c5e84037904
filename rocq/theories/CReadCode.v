(** Proofs for C97: the names in the generated functions are no types, and the types in them are.  Written by a program. *)
From Coq Require Import Ascii String List Bool Arith Lia.
From Verif Require Import Str StrFacts Parse ParamNames Prefix Substitute SpecPrefix SpecSubstitute Templates SpecTemplates CRuntime
  SpecCLang SpecCProg SpecCRun SpecBody SpecHeader CTemplate CTemplateText CTemplatePP CBody CBodyText CCode CBodyFuns CBodyFine SpecCRead SpecCSyntax CRead CReadS.
Import ListNotations.

Definition listed (w : str) : bool := (one_of w own_variables || one_of w system_names || own_prefix w) && negb (one_of w base_types).
Section Named.
Variables (cfg : str -> bool) (c : config) (p : param_mode).
Notation F := (funs cfg c p).
Notation vs := (map (symbol_value true) (c_funcs c) ++ map (symbol_value false) (c_objs c)).
Section Types.
Variable tw : str -> bool.
Hypothesis words_ok : forall w, listed w = true -> name_ok tw w = true.
Hypothesis base_ok : forall w, one_of w base_types = true -> tw w = true.
Hypothesis size_ok : tw $"sizeof" = false.
Hypothesis casts_ok : forall v, In v vs -> type_ok tw (utoks v [KHole HSymType]) = true.
Lemma cast_void : type_ok tw [TWord $"void"] = true.
Proof. unfold type_ok. cbn [starts_type]. now rewrite base_ok. Qed.
Lemma cast_void_p : type_ok tw [TWord $"void"; TOp $"*"] = true.
Proof. unfold type_ok. cbn [starts_type]. now rewrite base_ok. Qed.
Lemma named_map f l : (forall v : hole -> str, In v l -> forallb (named_s tw) (f v) = true) -> forallb (named_s tw) (flat_map f l) = true.
Proof. induction l as [|v l IH]; intro H; [reflexivity|]. cbn [flat_map]. rewrite forallb_app, H, IH; auto; [intros; apply H; now right|now left]. Qed.
Lemma named_fold o f l : (forall v : hole -> str, In v l -> named tw (f v) = true) ->
  forall e, named tw e = true -> named tw (fold_left (fun a v => EBin o a (f v)) l e) = true.
Proof.
  induction l as [|v l IH]; intros H e E; [exact E|]. cbn [fold_left]. apply IH; [intros; apply H; now right|]. cbn [named]. rewrite E, H; [reflexivity|now left].
Qed.
Ltac words := cbn [forallb named_s named starts_type decl_tok fst snd];
  rewrite ?cast_void, ?cast_void_p, ?size_ok;
  repeat match goal with |- context [name_ok tw ?w] => rewrite (words_ok w) by reflexivity end;
  repeat match goal with |- context [tw ?w] => rewrite (base_ok w) by reflexivity end;
  repeat match goal with V : In ?v _ |- context [type_ok tw (utoks ?v ?k)] => rewrite (casts_ok v V) end.
Ltac folds := match goal with |- context [named tw (fold_left ?g ?l ?e)] =>
  match g with (fun a v => EBin ?o a (@?f v)) => rewrite (named_fold o f l); [|let v := fresh "v" in let V := fresh "V" in intros v V; cbv beta; unfold loop_3, loop_4, loop_5, loop_9; words; reflexivity|words; reflexivity] end end.
Ltac maps := match goal with |- context [forallb (named_s tw) (flat_map ?f ?l)] => rewrite (named_map f l);
  [|let v := fresh "v" in let V := fresh "V" in intros v V; unfold loop_1, loop_2, loop_6, loop_7, loop_8; words; reflexivity] end.
Ltac ifs := match goal with |- context [if ?b then _ else _] => destruct b end.
Ltac nm := unfold named_f; cbn [f_head f_params f_body]; words; rewrite ?forallb_app;
  repeat first [folds | maps | ifs; rewrite ?forallb_app]; words; try reflexivity.
Lemma named_gdo_call_dlsym fn : find_func F $"_gdo_call_dlsym" = Some fn -> named_f tw fn = true.
Proof.
  rewrite (find_gdo_call_dlsym cfg c p). destruct (forallb _ _); intro H; [|discriminate]. injection H as <-. unfold code_gdo_call_dlsym. nm.
Qed.
Lemma named_gdo_call_dlclose fn : find_func F $"_gdo_call_dlclose" = Some fn -> named_f tw fn = true.
Proof.
  rewrite (find_gdo_call_dlclose cfg c p). destruct (forallb _ _); intro H; [|discriminate]. injection H as <-. unfold code_gdo_call_dlclose. nm.
Qed.
Lemma named_gdo_call_dlopen fn : find_func F $"_gdo_call_dlopen" = Some fn -> named_f tw fn = true.
Proof.
  rewrite (find_gdo_call_dlopen cfg c p). destruct (forallb _ _); intro H; [|discriminate]. injection H as <-. unfold code_gdo_call_dlopen. nm.
Qed.
Lemma named_gdo_call_dladdr fn : find_func F $"_gdo_call_dladdr" = Some fn -> named_f tw fn = true.
Proof.
  rewrite (find_gdo_call_dladdr cfg c p). destruct (forallb _ _); intro H; [|discriminate]. injection H as <-. unfold code_gdo_call_dladdr. nm.
Qed.
Lemma named_gdo_tcsstr fn : find_func F $"_gdo_tcsstr" = Some fn -> named_f tw fn = true.
Proof.
  rewrite (find_gdo_tcsstr cfg c p). destruct (forallb _ _); intro H; [|discriminate]. injection H as <-. unfold code_gdo_tcsstr. nm.
Qed.
Lemma named_gdo_save_to_errbuf fn : find_func F $"_gdo_save_to_errbuf" = Some fn -> named_f tw fn = true.
Proof.
  rewrite (find_gdo_save_to_errbuf cfg c p). destruct (forallb _ _); intro H; [|discriminate]. injection H as <-. unfold code_gdo_save_to_errbuf. nm.
Qed.
Lemma named_gdo_clear_error fn : find_func F $"_gdo_clear_error" = Some fn -> named_f tw fn = true.
Proof.
  rewrite (find_gdo_clear_error cfg c p). destruct (forallb _ _); intro H; [|discriminate]. injection H as <-. unfold code_gdo_clear_error. nm.
Qed.
Lemma named_gdo_save_error fn : find_func F $"_gdo_save_error" = Some fn -> named_f tw fn = true.
Proof.
  rewrite (find_gdo_save_error cfg c p). destruct (forallb _ _); intro H; [|discriminate]. injection H as <-. unfold code_gdo_save_error. nm.
Qed.
Lemma named_gdo_set_error_no_library_loaded fn : find_func F $"_gdo_set_error_no_library_loaded" = Some fn -> named_f tw fn = true.
Proof.
  rewrite (find_gdo_set_error_no_library_loaded cfg c p). destruct (forallb _ _); intro H; [|discriminate]. injection H as <-. unfold code_gdo_set_error_no_library_loaded. nm.
Qed.
Lemma named_gdo_load_lib fn : find_func F $"gdo_load_lib" = Some fn -> named_f tw fn = true.
Proof.
  rewrite (find_gdo_load_lib cfg c p). destruct (forallb _ _); intro H; [|discriminate]. injection H as <-. unfold code_gdo_load_lib. nm.
Qed.
Lemma named_gdo_load_lib_and_symbols fn : find_func F $"gdo_load_lib_and_symbols" = Some fn -> named_f tw fn = true.
Proof.
  rewrite (find_gdo_load_lib_and_symbols cfg c p). destruct (forallb _ _); intro H; [|discriminate]. injection H as <-. unfold code_gdo_load_lib_and_symbols. nm.
Qed.
Lemma named_gdo_load_lib_name fn : find_func F $"gdo_load_lib_name" = Some fn -> named_f tw fn = true.
Proof.
  rewrite (find_gdo_load_lib_name cfg c p). destruct (forallb _ _); intro H; [|discriminate]. injection H as <-. unfold code_gdo_load_lib_name. nm.
Qed.
Lemma named_gdo_load_lib_name_and_symbols fn : find_func F $"gdo_load_lib_name_and_symbols" = Some fn -> named_f tw fn = true.
Proof.
  rewrite (find_gdo_load_lib_name_and_symbols cfg c p). destruct (forallb _ _); intro H; [|discriminate]. injection H as <-. unfold code_gdo_load_lib_name_and_symbols. nm.
Qed.
Lemma named_gdo_load_lib_args fn : find_func F $"gdo_load_lib_args" = Some fn -> named_f tw fn = true.
Proof.
  rewrite (find_gdo_load_lib_args cfg c p). destruct (forallb _ _); intro H; [|discriminate]. injection H as <-. unfold code_gdo_load_lib_args. nm.
Qed.
Lemma named_gdo_load_library fn : find_func F $"_gdo_load_library" = Some fn -> named_f tw fn = true.
Proof.
  rewrite (find_gdo_load_library cfg c p). destruct (forallb _ _); intro H; [|discriminate]. injection H as <-. unfold code_gdo_load_library. nm.
Qed.
Lemma named_gdo_lib_is_loaded fn : find_func F $"gdo_lib_is_loaded" = Some fn -> named_f tw fn = true.
Proof.
  rewrite (find_gdo_lib_is_loaded cfg c p). destruct (forallb _ _); intro H; [|discriminate]. injection H as <-. unfold code_gdo_lib_is_loaded. nm.
Qed.
Lemma named_gdo_free_lib fn : find_func F $"gdo_free_lib" = Some fn -> named_f tw fn = true.
Proof.
  rewrite (find_gdo_free_lib cfg c p). destruct (forallb _ _); intro H; [|discriminate]. injection H as <-. unfold code_gdo_free_lib. nm.
Qed.
Lemma named_gdo_force_free_lib fn : find_func F $"gdo_force_free_lib" = Some fn -> named_f tw fn = true.
Proof.
  rewrite (find_gdo_force_free_lib cfg c p). destruct (forallb _ _); intro H; [|discriminate]. injection H as <-. unfold code_gdo_force_free_lib. nm.
Qed.
Lemma named_gdo_enable_autorelease fn : find_func F $"gdo_enable_autorelease" = Some fn -> named_f tw fn = true.
Proof.
  rewrite (find_gdo_enable_autorelease cfg c p). destruct (forallb _ _); intro H; [|discriminate]. injection H as <-. unfold code_gdo_enable_autorelease. nm.
Qed.
Lemma named_gdo_all_symbols_loaded fn : find_func F $"gdo_all_symbols_loaded" = Some fn -> named_f tw fn = true.
Proof.
  rewrite (find_gdo_all_symbols_loaded cfg c p). destruct (forallb _ _); intro H; [|discriminate]. injection H as <-. unfold code_gdo_all_symbols_loaded. nm.
Qed.
Lemma named_gdo_no_symbols_loaded fn : find_func F $"gdo_no_symbols_loaded" = Some fn -> named_f tw fn = true.
Proof.
  rewrite (find_gdo_no_symbols_loaded cfg c p). destruct (forallb _ _); intro H; [|discriminate]. injection H as <-. unfold code_gdo_no_symbols_loaded. nm.
Qed.
Lemma named_gdo_any_symbol_loaded fn : find_func F $"gdo_any_symbol_loaded" = Some fn -> named_f tw fn = true.
Proof.
  rewrite (find_gdo_any_symbol_loaded cfg c p). destruct (forallb _ _); intro H; [|discriminate]. injection H as <-. unfold code_gdo_any_symbol_loaded. nm.
Qed.
Lemma named_gdo_load_all_symbols fn : find_func F $"gdo_load_all_symbols" = Some fn -> named_f tw fn = true.
Proof.
  rewrite (find_gdo_load_all_symbols cfg c p). destruct (forallb _ _); intro H; [|discriminate]. injection H as <-. unfold code_gdo_load_all_symbols. nm.
Qed.
Lemma named_gdo_sym fn : find_func F $"_gdo_sym" = Some fn -> named_f tw fn = true.
Proof.
  rewrite (find_gdo_sym cfg c p). destruct (forallb _ _); intro H; [|discriminate]. injection H as <-. unfold code_gdo_sym. nm.
Qed.
Lemma named_gdo_load_symbol fn : find_func F $"gdo_load_symbol" = Some fn -> named_f tw fn = true.
Proof.
  rewrite (find_gdo_load_symbol cfg c p). destruct (forallb _ _); intro H; [|discriminate]. injection H as <-. unfold code_gdo_load_symbol. nm.
Qed.
Lemma named_gdo_load_symbol_name fn : find_func F $"gdo_load_symbol_name" = Some fn -> named_f tw fn = true.
Proof.
  rewrite (find_gdo_load_symbol_name cfg c p). destruct (forallb _ _); intro H; [|discriminate]. injection H as <-. unfold code_gdo_load_symbol_name. nm.
Qed.
Lemma named_gdo_last_error fn : find_func F $"gdo_last_error" = Some fn -> named_f tw fn = true.
Proof.
  rewrite (find_gdo_last_error cfg c p). destruct (forallb _ _); intro H; [|discriminate]. injection H as <-. unfold code_gdo_last_error. nm.
Qed.
Lemma named_gdo_library_path fn : find_func F $"gdo_library_path" = Some fn -> named_f tw fn = true.
Proof.
  rewrite (find_gdo_library_path cfg c p). destruct (forallb _ _); intro H; [|discriminate]. injection H as <-. unfold code_gdo_library_path. nm.
Qed.
Lemma named_gdo_libpath_dlinfo fn : find_func F $"_gdo_libpath_dlinfo" = Some fn -> named_f tw fn = true.
Proof.
  rewrite (find_gdo_libpath_dlinfo cfg c p). destruct (forallb _ _); intro H; [|discriminate]. injection H as <-. unfold code_gdo_libpath_dlinfo. nm.
Qed.
Lemma named_gdo_libpath_dladdr fn : find_func F $"_gdo_libpath_dladdr" = Some fn -> named_f tw fn = true.
Proof.
  rewrite (find_gdo_libpath_dladdr cfg c p). destruct (forallb _ _); intro H; [|discriminate]. injection H as <-. unfold code_gdo_libpath_dladdr. nm.
Qed.
Lemma named_gdo_print_error fn : find_func F $"_gdo_print_error" = Some fn -> named_f tw fn = true.
Proof.
  destruct (wrapping p) eqn:W; [|intro H; exfalso; revert H; unfold find_func, funs; rewrite (names_in cfg c); [discriminate|destruct p; try discriminate W; vm_compute; reflexivity]].
  rewrite (find_gdo_print_error cfg c p W). destruct (forallb _ _); intro H; [|discriminate]. injection H as <-. unfold code_gdo_print_error. nm.
Qed.
Lemma named_gdo_wrap_check_loaded fn : find_func F $"_gdo_wrap_check_loaded" = Some fn -> named_f tw fn = true.
Proof.
  destruct (wrapping p) eqn:W; [|intro H; exfalso; revert H; unfold find_func, funs; rewrite (names_in cfg c); [discriminate|destruct p; try discriminate W; vm_compute; reflexivity]].
  rewrite (find_gdo_wrap_check_loaded cfg c p W). destruct (forallb _ _); intro H; [|discriminate]. injection H as <-. unfold code_gdo_wrap_check_loaded. nm.
Qed.
End Types.

Definition locals_ok (fn : func) : bool := forallb (fun x => one_of x own_variables) (hidden_by fn).
Lemma vars_map f l : (forall v : hole -> str, flat_map variables (f v) = []) -> flat_map variables (flat_map f l) = [].
Proof. intro H. induction l as [|v l IH]; [reflexivity|]. cbn [flat_map]. now rewrite flat_map_app, H, IH. Qed.
Ltac vmaps := match goal with |- context [flat_map variables (flat_map ?f ?l)] => rewrite (vars_map f l) by (intro v; reflexivity) end.
Ltac ifs := match goal with |- context [if ?b then _ else _] => destruct b end.
Ltac lc := unfold locals_ok, hidden_by; cbn [f_params f_body map snd app]; rewrite ?flat_map_app; cbn [flat_map variables app]; rewrite ?flat_map_app;
  repeat first [vmaps | ifs; rewrite ?flat_map_app; cbn [flat_map variables app]]; reflexivity.
Lemma locals_gdo_call_dlsym fn : find_func F $"_gdo_call_dlsym" = Some fn -> locals_ok fn = true.
Proof.
  rewrite (find_gdo_call_dlsym cfg c p). destruct (forallb _ _); intro H; [|discriminate]. injection H as <-. unfold code_gdo_call_dlsym. lc.
Qed.
Lemma locals_gdo_call_dlclose fn : find_func F $"_gdo_call_dlclose" = Some fn -> locals_ok fn = true.
Proof.
  rewrite (find_gdo_call_dlclose cfg c p). destruct (forallb _ _); intro H; [|discriminate]. injection H as <-. unfold code_gdo_call_dlclose. lc.
Qed.
Lemma locals_gdo_call_dlopen fn : find_func F $"_gdo_call_dlopen" = Some fn -> locals_ok fn = true.
Proof.
  rewrite (find_gdo_call_dlopen cfg c p). destruct (forallb _ _); intro H; [|discriminate]. injection H as <-. unfold code_gdo_call_dlopen. lc.
Qed.
Lemma locals_gdo_call_dladdr fn : find_func F $"_gdo_call_dladdr" = Some fn -> locals_ok fn = true.
Proof.
  rewrite (find_gdo_call_dladdr cfg c p). destruct (forallb _ _); intro H; [|discriminate]. injection H as <-. unfold code_gdo_call_dladdr. lc.
Qed.
Lemma locals_gdo_tcsstr fn : find_func F $"_gdo_tcsstr" = Some fn -> locals_ok fn = true.
Proof.
  rewrite (find_gdo_tcsstr cfg c p). destruct (forallb _ _); intro H; [|discriminate]. injection H as <-. unfold code_gdo_tcsstr. lc.
Qed.
Lemma locals_gdo_save_to_errbuf fn : find_func F $"_gdo_save_to_errbuf" = Some fn -> locals_ok fn = true.
Proof.
  rewrite (find_gdo_save_to_errbuf cfg c p). destruct (forallb _ _); intro H; [|discriminate]. injection H as <-. unfold code_gdo_save_to_errbuf. lc.
Qed.
Lemma locals_gdo_clear_error fn : find_func F $"_gdo_clear_error" = Some fn -> locals_ok fn = true.
Proof.
  rewrite (find_gdo_clear_error cfg c p). destruct (forallb _ _); intro H; [|discriminate]. injection H as <-. unfold code_gdo_clear_error. lc.
Qed.
Lemma locals_gdo_save_error fn : find_func F $"_gdo_save_error" = Some fn -> locals_ok fn = true.
Proof.
  rewrite (find_gdo_save_error cfg c p). destruct (forallb _ _); intro H; [|discriminate]. injection H as <-. unfold code_gdo_save_error. lc.
Qed.
Lemma locals_gdo_set_error_no_library_loaded fn : find_func F $"_gdo_set_error_no_library_loaded" = Some fn -> locals_ok fn = true.
Proof.
  rewrite (find_gdo_set_error_no_library_loaded cfg c p). destruct (forallb _ _); intro H; [|discriminate]. injection H as <-. unfold code_gdo_set_error_no_library_loaded. lc.
Qed.
Lemma locals_gdo_load_lib fn : find_func F $"gdo_load_lib" = Some fn -> locals_ok fn = true.
Proof.
  rewrite (find_gdo_load_lib cfg c p). destruct (forallb _ _); intro H; [|discriminate]. injection H as <-. unfold code_gdo_load_lib. lc.
Qed.
Lemma locals_gdo_load_lib_and_symbols fn : find_func F $"gdo_load_lib_and_symbols" = Some fn -> locals_ok fn = true.
Proof.
  rewrite (find_gdo_load_lib_and_symbols cfg c p). destruct (forallb _ _); intro H; [|discriminate]. injection H as <-. unfold code_gdo_load_lib_and_symbols. lc.
Qed.
Lemma locals_gdo_load_lib_name fn : find_func F $"gdo_load_lib_name" = Some fn -> locals_ok fn = true.
Proof.
  rewrite (find_gdo_load_lib_name cfg c p). destruct (forallb _ _); intro H; [|discriminate]. injection H as <-. unfold code_gdo_load_lib_name. lc.
Qed.
Lemma locals_gdo_load_lib_name_and_symbols fn : find_func F $"gdo_load_lib_name_and_symbols" = Some fn -> locals_ok fn = true.
Proof.
  rewrite (find_gdo_load_lib_name_and_symbols cfg c p). destruct (forallb _ _); intro H; [|discriminate]. injection H as <-. unfold code_gdo_load_lib_name_and_symbols. lc.
Qed.
Lemma locals_gdo_load_lib_args fn : find_func F $"gdo_load_lib_args" = Some fn -> locals_ok fn = true.
Proof.
  rewrite (find_gdo_load_lib_args cfg c p). destruct (forallb _ _); intro H; [|discriminate]. injection H as <-. unfold code_gdo_load_lib_args. lc.
Qed.
Lemma locals_gdo_load_library fn : find_func F $"_gdo_load_library" = Some fn -> locals_ok fn = true.
Proof.
  rewrite (find_gdo_load_library cfg c p). destruct (forallb _ _); intro H; [|discriminate]. injection H as <-. unfold code_gdo_load_library. lc.
Qed.
Lemma locals_gdo_lib_is_loaded fn : find_func F $"gdo_lib_is_loaded" = Some fn -> locals_ok fn = true.
Proof.
  rewrite (find_gdo_lib_is_loaded cfg c p). destruct (forallb _ _); intro H; [|discriminate]. injection H as <-. unfold code_gdo_lib_is_loaded. lc.
Qed.
Lemma locals_gdo_free_lib fn : find_func F $"gdo_free_lib" = Some fn -> locals_ok fn = true.
Proof.
  rewrite (find_gdo_free_lib cfg c p). destruct (forallb _ _); intro H; [|discriminate]. injection H as <-. unfold code_gdo_free_lib. lc.
Qed.
Lemma locals_gdo_force_free_lib fn : find_func F $"gdo_force_free_lib" = Some fn -> locals_ok fn = true.
Proof.
  rewrite (find_gdo_force_free_lib cfg c p). destruct (forallb _ _); intro H; [|discriminate]. injection H as <-. unfold code_gdo_force_free_lib. lc.
Qed.
Lemma locals_gdo_enable_autorelease fn : find_func F $"gdo_enable_autorelease" = Some fn -> locals_ok fn = true.
Proof.
  rewrite (find_gdo_enable_autorelease cfg c p). destruct (forallb _ _); intro H; [|discriminate]. injection H as <-. unfold code_gdo_enable_autorelease. lc.
Qed.
Lemma locals_gdo_all_symbols_loaded fn : find_func F $"gdo_all_symbols_loaded" = Some fn -> locals_ok fn = true.
Proof.
  rewrite (find_gdo_all_symbols_loaded cfg c p). destruct (forallb _ _); intro H; [|discriminate]. injection H as <-. unfold code_gdo_all_symbols_loaded. lc.
Qed.
Lemma locals_gdo_no_symbols_loaded fn : find_func F $"gdo_no_symbols_loaded" = Some fn -> locals_ok fn = true.
Proof.
  rewrite (find_gdo_no_symbols_loaded cfg c p). destruct (forallb _ _); intro H; [|discriminate]. injection H as <-. unfold code_gdo_no_symbols_loaded. lc.
Qed.
Lemma locals_gdo_any_symbol_loaded fn : find_func F $"gdo_any_symbol_loaded" = Some fn -> locals_ok fn = true.
Proof.
  rewrite (find_gdo_any_symbol_loaded cfg c p). destruct (forallb _ _); intro H; [|discriminate]. injection H as <-. unfold code_gdo_any_symbol_loaded. lc.
Qed.
Lemma locals_gdo_load_all_symbols fn : find_func F $"gdo_load_all_symbols" = Some fn -> locals_ok fn = true.
Proof.
  rewrite (find_gdo_load_all_symbols cfg c p). destruct (forallb _ _); intro H; [|discriminate]. injection H as <-. unfold code_gdo_load_all_symbols. lc.
Qed.
Lemma locals_gdo_sym fn : find_func F $"_gdo_sym" = Some fn -> locals_ok fn = true.
Proof.
  rewrite (find_gdo_sym cfg c p). destruct (forallb _ _); intro H; [|discriminate]. injection H as <-. unfold code_gdo_sym. lc.
Qed.
Lemma locals_gdo_load_symbol fn : find_func F $"gdo_load_symbol" = Some fn -> locals_ok fn = true.
Proof.
  rewrite (find_gdo_load_symbol cfg c p). destruct (forallb _ _); intro H; [|discriminate]. injection H as <-. unfold code_gdo_load_symbol. lc.
Qed.
Lemma locals_gdo_load_symbol_name fn : find_func F $"gdo_load_symbol_name" = Some fn -> locals_ok fn = true.
Proof.
  rewrite (find_gdo_load_symbol_name cfg c p). destruct (forallb _ _); intro H; [|discriminate]. injection H as <-. unfold code_gdo_load_symbol_name. lc.
Qed.
Lemma locals_gdo_last_error fn : find_func F $"gdo_last_error" = Some fn -> locals_ok fn = true.
Proof.
  rewrite (find_gdo_last_error cfg c p). destruct (forallb _ _); intro H; [|discriminate]. injection H as <-. unfold code_gdo_last_error. lc.
Qed.
Lemma locals_gdo_library_path fn : find_func F $"gdo_library_path" = Some fn -> locals_ok fn = true.
Proof.
  rewrite (find_gdo_library_path cfg c p). destruct (forallb _ _); intro H; [|discriminate]. injection H as <-. unfold code_gdo_library_path. lc.
Qed.
Lemma locals_gdo_libpath_dlinfo fn : find_func F $"_gdo_libpath_dlinfo" = Some fn -> locals_ok fn = true.
Proof.
  rewrite (find_gdo_libpath_dlinfo cfg c p). destruct (forallb _ _); intro H; [|discriminate]. injection H as <-. unfold code_gdo_libpath_dlinfo. lc.
Qed.
Lemma locals_gdo_libpath_dladdr fn : find_func F $"_gdo_libpath_dladdr" = Some fn -> locals_ok fn = true.
Proof.
  rewrite (find_gdo_libpath_dladdr cfg c p). destruct (forallb _ _); intro H; [|discriminate]. injection H as <-. unfold code_gdo_libpath_dladdr. lc.
Qed.
Lemma locals_gdo_print_error fn : find_func F $"_gdo_print_error" = Some fn -> locals_ok fn = true.
Proof.
  destruct (wrapping p) eqn:W; [|intro H; exfalso; revert H; unfold find_func, funs; rewrite (names_in cfg c); [discriminate|destruct p; try discriminate W; vm_compute; reflexivity]].
  rewrite (find_gdo_print_error cfg c p W). destruct (forallb _ _); intro H; [|discriminate]. injection H as <-. unfold code_gdo_print_error. lc.
Qed.
Lemma locals_gdo_wrap_check_loaded fn : find_func F $"_gdo_wrap_check_loaded" = Some fn -> locals_ok fn = true.
Proof.
  destruct (wrapping p) eqn:W; [|intro H; exfalso; revert H; unfold find_func, funs; rewrite (names_in cfg c); [discriminate|destruct p; try discriminate W; vm_compute; reflexivity]].
  rewrite (find_gdo_wrap_check_loaded cfg c p W). destruct (forallb _ _); intro H; [|discriminate]. injection H as <-. unfold code_gdo_wrap_check_loaded. lc.
Qed.
Lemma one_found f fn : find_func F f = Some fn -> In f [$"_gdo_call_dlsym"; $"_gdo_call_dlclose"; $"_gdo_call_dlopen"; $"_gdo_call_dladdr"; $"_gdo_tcsstr"; $"_gdo_save_to_errbuf"; $"_gdo_clear_error"; $"_gdo_save_error"; $"_gdo_set_error_no_library_loaded"; $"gdo_load_lib"; $"gdo_load_lib_and_symbols"; $"gdo_load_lib_name"; $"gdo_load_lib_name_and_symbols"; $"gdo_load_lib_args"; $"_gdo_load_library"; $"gdo_lib_is_loaded"; $"gdo_free_lib"; $"gdo_force_free_lib"; $"gdo_enable_autorelease"; $"gdo_all_symbols_loaded"; $"gdo_no_symbols_loaded"; $"gdo_any_symbol_loaded"; $"gdo_load_all_symbols"; $"_gdo_sym"; $"gdo_load_symbol"; $"gdo_load_symbol_name"; $"gdo_last_error"; $"gdo_library_path"; $"_gdo_libpath_dlinfo"; $"_gdo_libpath_dladdr"; $"_gdo_print_error"; $"_gdo_wrap_check_loaded"].
Proof.
  intro E. assert (H : has (body_of p) f = true).
  { destruct (has (body_of p) f) eqn:H; [reflexivity|]. unfold find_func, funs in E. rewrite (names_in cfg c _ _ H) in E. discriminate. }
  apply has_in in H. destruct p; vm_compute in H |- *; tauto.
Qed.
Lemma all_locals f fn : find_func F f = Some fn -> locals_ok fn = true.
Proof.
  intro E. pose proof (one_found f fn E) as N. cbn [In] in N. revert E.
  destruct N as [<-|N]; [apply locals_gdo_call_dlsym|].
  destruct N as [<-|N]; [apply locals_gdo_call_dlclose|].
  destruct N as [<-|N]; [apply locals_gdo_call_dlopen|].
  destruct N as [<-|N]; [apply locals_gdo_call_dladdr|].
  destruct N as [<-|N]; [apply locals_gdo_tcsstr|].
  destruct N as [<-|N]; [apply locals_gdo_save_to_errbuf|].
  destruct N as [<-|N]; [apply locals_gdo_clear_error|].
  destruct N as [<-|N]; [apply locals_gdo_save_error|].
  destruct N as [<-|N]; [apply locals_gdo_set_error_no_library_loaded|].
  destruct N as [<-|N]; [apply locals_gdo_load_lib|].
  destruct N as [<-|N]; [apply locals_gdo_load_lib_and_symbols|].
  destruct N as [<-|N]; [apply locals_gdo_load_lib_name|].
  destruct N as [<-|N]; [apply locals_gdo_load_lib_name_and_symbols|].
  destruct N as [<-|N]; [apply locals_gdo_load_lib_args|].
  destruct N as [<-|N]; [apply locals_gdo_load_library|].
  destruct N as [<-|N]; [apply locals_gdo_lib_is_loaded|].
  destruct N as [<-|N]; [apply locals_gdo_free_lib|].
  destruct N as [<-|N]; [apply locals_gdo_force_free_lib|].
  destruct N as [<-|N]; [apply locals_gdo_enable_autorelease|].
  destruct N as [<-|N]; [apply locals_gdo_all_symbols_loaded|].
  destruct N as [<-|N]; [apply locals_gdo_no_symbols_loaded|].
  destruct N as [<-|N]; [apply locals_gdo_any_symbol_loaded|].
  destruct N as [<-|N]; [apply locals_gdo_load_all_symbols|].
  destruct N as [<-|N]; [apply locals_gdo_sym|].
  destruct N as [<-|N]; [apply locals_gdo_load_symbol|].
  destruct N as [<-|N]; [apply locals_gdo_load_symbol_name|].
  destruct N as [<-|N]; [apply locals_gdo_last_error|].
  destruct N as [<-|N]; [apply locals_gdo_library_path|].
  destruct N as [<-|N]; [apply locals_gdo_libpath_dlinfo|].
  destruct N as [<-|N]; [apply locals_gdo_libpath_dladdr|].
  destruct N as [<-|N]; [apply locals_gdo_print_error|].
  destruct N as [<-|N]; [apply locals_gdo_wrap_check_loaded|].
  contradiction.
Qed.
Lemma all_named tw f fn : (forall w, listed w = true -> name_ok tw w = true) -> (forall w, one_of w base_types = true -> tw w = true) -> tw $"sizeof" = false ->
  (forall v, In v vs -> type_ok tw (utoks v [KHole HSymType]) = true) -> find_func F f = Some fn -> named_f tw fn = true.
Proof.
  intros A B C D E. pose proof (one_found f fn E) as N. cbn [In] in N. revert E.
  destruct N as [<-|N]; [apply named_gdo_call_dlsym; assumption|].
  destruct N as [<-|N]; [apply named_gdo_call_dlclose; assumption|].
  destruct N as [<-|N]; [apply named_gdo_call_dlopen; assumption|].
  destruct N as [<-|N]; [apply named_gdo_call_dladdr; assumption|].
  destruct N as [<-|N]; [apply named_gdo_tcsstr; assumption|].
  destruct N as [<-|N]; [apply named_gdo_save_to_errbuf; assumption|].
  destruct N as [<-|N]; [apply named_gdo_clear_error; assumption|].
  destruct N as [<-|N]; [apply named_gdo_save_error; assumption|].
  destruct N as [<-|N]; [apply named_gdo_set_error_no_library_loaded; assumption|].
  destruct N as [<-|N]; [apply named_gdo_load_lib; assumption|].
  destruct N as [<-|N]; [apply named_gdo_load_lib_and_symbols; assumption|].
  destruct N as [<-|N]; [apply named_gdo_load_lib_name; assumption|].
  destruct N as [<-|N]; [apply named_gdo_load_lib_name_and_symbols; assumption|].
  destruct N as [<-|N]; [apply named_gdo_load_lib_args; assumption|].
  destruct N as [<-|N]; [apply named_gdo_load_library; assumption|].
  destruct N as [<-|N]; [apply named_gdo_lib_is_loaded; assumption|].
  destruct N as [<-|N]; [apply named_gdo_free_lib; assumption|].
  destruct N as [<-|N]; [apply named_gdo_force_free_lib; assumption|].
  destruct N as [<-|N]; [apply named_gdo_enable_autorelease; assumption|].
  destruct N as [<-|N]; [apply named_gdo_all_symbols_loaded; assumption|].
  destruct N as [<-|N]; [apply named_gdo_no_symbols_loaded; assumption|].
  destruct N as [<-|N]; [apply named_gdo_any_symbol_loaded; assumption|].
  destruct N as [<-|N]; [apply named_gdo_load_all_symbols; assumption|].
  destruct N as [<-|N]; [apply named_gdo_sym; assumption|].
  destruct N as [<-|N]; [apply named_gdo_load_symbol; assumption|].
  destruct N as [<-|N]; [apply named_gdo_load_symbol_name; assumption|].
  destruct N as [<-|N]; [apply named_gdo_last_error; assumption|].
  destruct N as [<-|N]; [apply named_gdo_library_path; assumption|].
  destruct N as [<-|N]; [apply named_gdo_libpath_dlinfo; assumption|].
  destruct N as [<-|N]; [apply named_gdo_libpath_dladdr; assumption|].
  destruct N as [<-|N]; [apply named_gdo_print_error; assumption|].
  destruct N as [<-|N]; [apply named_gdo_wrap_check_loaded; assumption|].
  contradiction.
Qed.
End Named.

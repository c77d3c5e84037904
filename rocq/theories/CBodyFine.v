(** Proofs for C92: the expressions of the generated functions are written down so that they are read back as they are. *)
From Coq Require Import Ascii String List Bool Arith Lia.
From Verif Require Import Str StrFacts Parse ParamNames Prefix Substitute SpecPrefix SpecSubstitute Templates SpecTemplates CRuntime
  SpecCLang SpecCProg SpecCRun SpecBody CTemplate CTemplateText CTemplatePP CBody CBodyText CCode CBodyFuns.
Import ListNotations.

Fixpoint function_names (p : tprogram) : list str :=
  match p with [] => [] | (_, JFunc _ n _ _) :: r => n :: function_names r | _ :: r => function_names r end.
Lemma has_in p f : has p f = true -> In f (function_names p).
Proof.
  induction p as [|[g i] p IH]; [discriminate|]. destruct i; cbn [has function_names]; try exact IH.
  intro H. apply orb_true_iff in H as [H|H]; [left; symmetry; now apply str_eqb_eq|right; now apply IH].
Qed.

Section Fine.
Variables (cfg : str -> bool) (c : config) (p : param_mode).
Notation F := (funs cfg c p).
Lemma fine_map f l : (forall v : hole -> str, forallb fine_s (f v) = true) -> forallb fine_s (flat_map f l) = true.
Proof. intro H. induction l as [|v l IH]; [reflexivity|]. cbn [flat_map]. now rewrite forallb_app, H, IH. Qed.
Lemma fine_fold o f l : known_op o = true -> (forall v : hole -> str, fine_e (f v) = true /\ level (f v) <? bin_level o = true) ->
  forall e, fine_e e = true -> level e <=? bin_level o = true -> fine_e (fold_left (fun a v => EBin o a (f v)) l e) = true.
Proof.
  intros O H. induction l as [|v l IH]; intros e E V; [exact E|]. cbn [fold_left]. apply IH.
  - cbn [fine_e]. destruct (H v) as [H1 H2]. now rewrite O, E, V, H1, H2.
  - cbn [level]. apply Nat.leb_refl.
Qed.
Ltac folds := match goal with |- context [fine_e (fold_left ?g ?l ?e)] =>
  match g with (fun a v => EBin ?o a (@?f v)) => rewrite (fine_fold o f l) by (try reflexivity; intro v; split; reflexivity) end end.
Ltac maps := match goal with |- context [forallb fine_s (flat_map ?f ?l)] => rewrite (fine_map f l) by (intro v; reflexivity) end.
Ltac ifs := match goal with |- context [if ?b then _ else _] => destruct b end.
Ltac fine := unfold fine_f; cbn [f_body]; cbn [forallb fine_s fine_x]; rewrite ?forallb_app; cbn [forallb fine_s fine_x];
  repeat first [folds | maps | ifs; rewrite ?forallb_app; cbn [forallb fine_s fine_x]]; try reflexivity.
Lemma fine_gdo_call_dlsym fn : find_func F $"_gdo_call_dlsym" = Some fn -> fine_f fn = true.
Proof.
  rewrite (find_gdo_call_dlsym cfg c p). destruct (forallb _ _); intro H; [|discriminate]. injection H as <-. unfold code_gdo_call_dlsym. fine.
Qed.
Lemma fine_gdo_call_dlclose fn : find_func F $"_gdo_call_dlclose" = Some fn -> fine_f fn = true.
Proof.
  rewrite (find_gdo_call_dlclose cfg c p). destruct (forallb _ _); intro H; [|discriminate]. injection H as <-. unfold code_gdo_call_dlclose. fine.
Qed.
Lemma fine_gdo_call_dlopen fn : find_func F $"_gdo_call_dlopen" = Some fn -> fine_f fn = true.
Proof.
  rewrite (find_gdo_call_dlopen cfg c p). destruct (forallb _ _); intro H; [|discriminate]. injection H as <-. unfold code_gdo_call_dlopen. fine.
Qed.
Lemma fine_gdo_call_dladdr fn : find_func F $"_gdo_call_dladdr" = Some fn -> fine_f fn = true.
Proof.
  rewrite (find_gdo_call_dladdr cfg c p). destruct (forallb _ _); intro H; [|discriminate]. injection H as <-. unfold code_gdo_call_dladdr. fine.
Qed.
Lemma fine_gdo_tcsstr fn : find_func F $"_gdo_tcsstr" = Some fn -> fine_f fn = true.
Proof.
  rewrite (find_gdo_tcsstr cfg c p). destruct (forallb _ _); intro H; [|discriminate]. injection H as <-. unfold code_gdo_tcsstr. fine.
Qed.
Lemma fine_gdo_save_to_errbuf fn : find_func F $"_gdo_save_to_errbuf" = Some fn -> fine_f fn = true.
Proof.
  rewrite (find_gdo_save_to_errbuf cfg c p). destruct (forallb _ _); intro H; [|discriminate]. injection H as <-. unfold code_gdo_save_to_errbuf. fine.
Qed.
Lemma fine_gdo_clear_error fn : find_func F $"_gdo_clear_error" = Some fn -> fine_f fn = true.
Proof.
  rewrite (find_gdo_clear_error cfg c p). destruct (forallb _ _); intro H; [|discriminate]. injection H as <-. unfold code_gdo_clear_error. fine.
Qed.
Lemma fine_gdo_save_error fn : find_func F $"_gdo_save_error" = Some fn -> fine_f fn = true.
Proof.
  rewrite (find_gdo_save_error cfg c p). destruct (forallb _ _); intro H; [|discriminate]. injection H as <-. unfold code_gdo_save_error. fine.
Qed.
Lemma fine_gdo_set_error_no_library_loaded fn : find_func F $"_gdo_set_error_no_library_loaded" = Some fn -> fine_f fn = true.
Proof.
  rewrite (find_gdo_set_error_no_library_loaded cfg c p). destruct (forallb _ _); intro H; [|discriminate]. injection H as <-. unfold code_gdo_set_error_no_library_loaded. fine.
Qed.
Lemma fine_gdo_load_lib fn : find_func F $"gdo_load_lib" = Some fn -> fine_f fn = true.
Proof.
  rewrite (find_gdo_load_lib cfg c p). destruct (forallb _ _); intro H; [|discriminate]. injection H as <-. unfold code_gdo_load_lib. fine.
Qed.
Lemma fine_gdo_load_lib_and_symbols fn : find_func F $"gdo_load_lib_and_symbols" = Some fn -> fine_f fn = true.
Proof.
  rewrite (find_gdo_load_lib_and_symbols cfg c p). destruct (forallb _ _); intro H; [|discriminate]. injection H as <-. unfold code_gdo_load_lib_and_symbols. fine.
Qed.
Lemma fine_gdo_load_lib_name fn : find_func F $"gdo_load_lib_name" = Some fn -> fine_f fn = true.
Proof.
  rewrite (find_gdo_load_lib_name cfg c p). destruct (forallb _ _); intro H; [|discriminate]. injection H as <-. unfold code_gdo_load_lib_name. fine.
Qed.
Lemma fine_gdo_load_lib_name_and_symbols fn : find_func F $"gdo_load_lib_name_and_symbols" = Some fn -> fine_f fn = true.
Proof.
  rewrite (find_gdo_load_lib_name_and_symbols cfg c p). destruct (forallb _ _); intro H; [|discriminate]. injection H as <-. unfold code_gdo_load_lib_name_and_symbols. fine.
Qed.
Lemma fine_gdo_load_lib_args fn : find_func F $"gdo_load_lib_args" = Some fn -> fine_f fn = true.
Proof.
  rewrite (find_gdo_load_lib_args cfg c p). destruct (forallb _ _); intro H; [|discriminate]. injection H as <-. unfold code_gdo_load_lib_args. fine.
Qed.
Lemma fine_gdo_load_library fn : find_func F $"_gdo_load_library" = Some fn -> fine_f fn = true.
Proof.
  rewrite (find_gdo_load_library cfg c p). destruct (forallb _ _); intro H; [|discriminate]. injection H as <-. unfold code_gdo_load_library. fine.
Qed.
Lemma fine_gdo_lib_is_loaded fn : find_func F $"gdo_lib_is_loaded" = Some fn -> fine_f fn = true.
Proof.
  rewrite (find_gdo_lib_is_loaded cfg c p). destruct (forallb _ _); intro H; [|discriminate]. injection H as <-. unfold code_gdo_lib_is_loaded. fine.
Qed.
Lemma fine_gdo_free_lib fn : find_func F $"gdo_free_lib" = Some fn -> fine_f fn = true.
Proof.
  rewrite (find_gdo_free_lib cfg c p). destruct (forallb _ _); intro H; [|discriminate]. injection H as <-. unfold code_gdo_free_lib. fine.
Qed.
Lemma fine_gdo_force_free_lib fn : find_func F $"gdo_force_free_lib" = Some fn -> fine_f fn = true.
Proof.
  rewrite (find_gdo_force_free_lib cfg c p). destruct (forallb _ _); intro H; [|discriminate]. injection H as <-. unfold code_gdo_force_free_lib. fine.
Qed.
Lemma fine_gdo_enable_autorelease fn : find_func F $"gdo_enable_autorelease" = Some fn -> fine_f fn = true.
Proof.
  rewrite (find_gdo_enable_autorelease cfg c p). destruct (forallb _ _); intro H; [|discriminate]. injection H as <-. unfold code_gdo_enable_autorelease. fine.
Qed.
Lemma fine_gdo_all_symbols_loaded fn : find_func F $"gdo_all_symbols_loaded" = Some fn -> fine_f fn = true.
Proof.
  rewrite (find_gdo_all_symbols_loaded cfg c p). destruct (forallb _ _); intro H; [|discriminate]. injection H as <-. unfold code_gdo_all_symbols_loaded. fine.
Qed.
Lemma fine_gdo_no_symbols_loaded fn : find_func F $"gdo_no_symbols_loaded" = Some fn -> fine_f fn = true.
Proof.
  rewrite (find_gdo_no_symbols_loaded cfg c p). destruct (forallb _ _); intro H; [|discriminate]. injection H as <-. unfold code_gdo_no_symbols_loaded. fine.
Qed.
Lemma fine_gdo_any_symbol_loaded fn : find_func F $"gdo_any_symbol_loaded" = Some fn -> fine_f fn = true.
Proof.
  rewrite (find_gdo_any_symbol_loaded cfg c p). destruct (forallb _ _); intro H; [|discriminate]. injection H as <-. unfold code_gdo_any_symbol_loaded. fine.
Qed.
Lemma fine_gdo_load_all_symbols fn : find_func F $"gdo_load_all_symbols" = Some fn -> fine_f fn = true.
Proof.
  rewrite (find_gdo_load_all_symbols cfg c p). destruct (forallb _ _); intro H; [|discriminate]. injection H as <-. unfold code_gdo_load_all_symbols. fine.
Qed.
Lemma fine_gdo_sym fn : find_func F $"_gdo_sym" = Some fn -> fine_f fn = true.
Proof.
  rewrite (find_gdo_sym cfg c p). destruct (forallb _ _); intro H; [|discriminate]. injection H as <-. unfold code_gdo_sym. fine.
Qed.
Lemma fine_gdo_load_symbol fn : find_func F $"gdo_load_symbol" = Some fn -> fine_f fn = true.
Proof.
  rewrite (find_gdo_load_symbol cfg c p). destruct (forallb _ _); intro H; [|discriminate]. injection H as <-. unfold code_gdo_load_symbol. fine.
Qed.
Lemma fine_gdo_load_symbol_name fn : find_func F $"gdo_load_symbol_name" = Some fn -> fine_f fn = true.
Proof.
  rewrite (find_gdo_load_symbol_name cfg c p). destruct (forallb _ _); intro H; [|discriminate]. injection H as <-. unfold code_gdo_load_symbol_name. fine.
Qed.
Lemma fine_gdo_last_error fn : find_func F $"gdo_last_error" = Some fn -> fine_f fn = true.
Proof.
  rewrite (find_gdo_last_error cfg c p). destruct (forallb _ _); intro H; [|discriminate]. injection H as <-. unfold code_gdo_last_error. fine.
Qed.
Lemma fine_gdo_library_path fn : find_func F $"gdo_library_path" = Some fn -> fine_f fn = true.
Proof.
  rewrite (find_gdo_library_path cfg c p). destruct (forallb _ _); intro H; [|discriminate]. injection H as <-. unfold code_gdo_library_path. fine.
Qed.
Lemma fine_gdo_libpath_dlinfo fn : find_func F $"_gdo_libpath_dlinfo" = Some fn -> fine_f fn = true.
Proof.
  rewrite (find_gdo_libpath_dlinfo cfg c p). destruct (forallb _ _); intro H; [|discriminate]. injection H as <-. unfold code_gdo_libpath_dlinfo. fine.
Qed.
Lemma fine_gdo_libpath_dladdr fn : find_func F $"_gdo_libpath_dladdr" = Some fn -> fine_f fn = true.
Proof.
  rewrite (find_gdo_libpath_dladdr cfg c p). destruct (forallb _ _); intro H; [|discriminate]. injection H as <-. unfold code_gdo_libpath_dladdr. fine.
Qed.
Lemma fine_gdo_print_error fn : find_func F $"_gdo_print_error" = Some fn -> fine_f fn = true.
Proof.
  destruct (wrapping p) eqn:W; [|intro H; exfalso; revert H; unfold find_func, funs; rewrite (names_in cfg c); [discriminate|destruct p; try discriminate W; vm_compute; reflexivity]].
  rewrite (find_gdo_print_error cfg c p W). destruct (forallb _ _); intro H; [|discriminate]. injection H as <-. unfold code_gdo_print_error. fine.
Qed.
Lemma fine_gdo_wrap_check_loaded fn : find_func F $"_gdo_wrap_check_loaded" = Some fn -> fine_f fn = true.
Proof.
  destruct (wrapping p) eqn:W; [|intro H; exfalso; revert H; unfold find_func, funs; rewrite (names_in cfg c); [discriminate|destruct p; try discriminate W; vm_compute; reflexivity]].
  rewrite (find_gdo_wrap_check_loaded cfg c p W). destruct (forallb _ _); intro H; [|discriminate]. injection H as <-. unfold code_gdo_wrap_check_loaded. fine.
Qed.
Lemma all_fine f fn : find_func F f = Some fn -> fine_f fn = true.
Proof.
  intro E. assert (H : has (body_of p) f = true).
  { destruct (has (body_of p) f) eqn:H; [reflexivity|]. unfold find_func, funs in E. rewrite (names_in cfg c _ _ H) in E. discriminate. }
  apply has_in in H.
  assert (N : In f [$"_gdo_call_dlsym"; $"_gdo_call_dlclose"; $"_gdo_call_dlopen"; $"_gdo_call_dladdr"; $"_gdo_tcsstr"; $"_gdo_save_to_errbuf"; $"_gdo_clear_error"; $"_gdo_save_error"; $"_gdo_set_error_no_library_loaded"; $"gdo_load_lib"; $"gdo_load_lib_and_symbols"; $"gdo_load_lib_name"; $"gdo_load_lib_name_and_symbols"; $"gdo_load_lib_args"; $"_gdo_load_library"; $"gdo_lib_is_loaded"; $"gdo_free_lib"; $"gdo_force_free_lib"; $"gdo_enable_autorelease"; $"gdo_all_symbols_loaded"; $"gdo_no_symbols_loaded"; $"gdo_any_symbol_loaded"; $"gdo_load_all_symbols"; $"_gdo_sym"; $"gdo_load_symbol"; $"gdo_load_symbol_name"; $"gdo_last_error"; $"gdo_library_path"; $"_gdo_libpath_dlinfo"; $"_gdo_libpath_dladdr"; $"_gdo_print_error"; $"_gdo_wrap_check_loaded"]).
  { destruct p; vm_compute in H |- *; tauto. }
  cbn [In] in N. revert E.
  destruct N as [<-|N]; [apply fine_gdo_call_dlsym|].
  destruct N as [<-|N]; [apply fine_gdo_call_dlclose|].
  destruct N as [<-|N]; [apply fine_gdo_call_dlopen|].
  destruct N as [<-|N]; [apply fine_gdo_call_dladdr|].
  destruct N as [<-|N]; [apply fine_gdo_tcsstr|].
  destruct N as [<-|N]; [apply fine_gdo_save_to_errbuf|].
  destruct N as [<-|N]; [apply fine_gdo_clear_error|].
  destruct N as [<-|N]; [apply fine_gdo_save_error|].
  destruct N as [<-|N]; [apply fine_gdo_set_error_no_library_loaded|].
  destruct N as [<-|N]; [apply fine_gdo_load_lib|].
  destruct N as [<-|N]; [apply fine_gdo_load_lib_and_symbols|].
  destruct N as [<-|N]; [apply fine_gdo_load_lib_name|].
  destruct N as [<-|N]; [apply fine_gdo_load_lib_name_and_symbols|].
  destruct N as [<-|N]; [apply fine_gdo_load_lib_args|].
  destruct N as [<-|N]; [apply fine_gdo_load_library|].
  destruct N as [<-|N]; [apply fine_gdo_lib_is_loaded|].
  destruct N as [<-|N]; [apply fine_gdo_free_lib|].
  destruct N as [<-|N]; [apply fine_gdo_force_free_lib|].
  destruct N as [<-|N]; [apply fine_gdo_enable_autorelease|].
  destruct N as [<-|N]; [apply fine_gdo_all_symbols_loaded|].
  destruct N as [<-|N]; [apply fine_gdo_no_symbols_loaded|].
  destruct N as [<-|N]; [apply fine_gdo_any_symbol_loaded|].
  destruct N as [<-|N]; [apply fine_gdo_load_all_symbols|].
  destruct N as [<-|N]; [apply fine_gdo_sym|].
  destruct N as [<-|N]; [apply fine_gdo_load_symbol|].
  destruct N as [<-|N]; [apply fine_gdo_load_symbol_name|].
  destruct N as [<-|N]; [apply fine_gdo_last_error|].
  destruct N as [<-|N]; [apply fine_gdo_library_path|].
  destruct N as [<-|N]; [apply fine_gdo_libpath_dlinfo|].
  destruct N as [<-|N]; [apply fine_gdo_libpath_dladdr|].
  destruct N as [<-|N]; [apply fine_gdo_print_error|].
  destruct N as [<-|N]; [apply fine_gdo_wrap_check_loaded|].
  contradiction.
Qed.
End Fine.

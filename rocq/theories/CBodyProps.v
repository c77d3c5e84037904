(** Proofs for C92: the functions of the generated C library do what CRuntime.v says. *)
From Coq Require Import Ascii String List Bool Arith Lia ZArith.
From Verif Require Import Str StrFacts Parse ParamNames Prefix Substitute SpecPrefix SpecSubstitute Templates SpecTemplates CRuntime
  SpecCRuntime CRuntimeFacts CRuntimeFacts2 CRuntimeProps SpecCLang SpecCProg SpecCRun SpecBody CTemplate CTemplateText CTemplatePP CBody CBodyText CCode CBodyFuns
  CBodyExec CBodyRun CBodyRun2 CBodyRun3 CBodyRun4.
Import ListNotations.

Lemma path_text k w s t s' : library_path k w s = Ok (Some t, s') -> t = s_libpath s'.
Proof.
  unfold library_path. destruct (negb (k_dlinfo k || k_dladdr k)); [discriminate|]. destruct (s_handle (clear_error w s)) as [h|]; [|discriminate].
  destruct (s_libpath (clear_error w s)) eqn:L; [|intro E; injection E as <- <-; now rewrite L].
  destruct (if k_dlinfo k then libpath_dlinfo k w h (clear_error w s) else Ok (false, clear_error w s)) as [[[] s1]| | |]; cbn [bind]; try discriminate.
  - intro E. now injection E as <- <-.
  - destruct (if k_dladdr k then libpath_dladdr k w s1 else Ok (false, s1)) as [[[] s2]| | |]; cbn [bind]; intro E; try discriminate E. now injection E as <- <-.
Qed.

Section Body.
Variables (k : rconf) (w : world) (c : config) (cfg : str -> bool).
Hypothesis B : build k c cfg.
Hypothesis C_plain : plain_config c.
Notation F := (funs cfg c (c_param c)).
Let K := b_ok _ _ _ B.
Let Cd := b_dlmopen _ _ _ B.
Let Cn := b_names _ _ _ B.

Lemma auto_macros : match k_auto k with
  | AutoOff => cfg $"GDO_ENABLE_AUTOLOAD" = false
  | AutoAll => cfg $"GDO_ENABLE_AUTOLOAD" = true /\ cfg $"GDO_ENABLE_AUTOLOAD_LAZY" = false
  | AutoLazy => cfg $"GDO_ENABLE_AUTOLOAD" = true /\ cfg $"GDO_ENABLE_AUTOLOAD_LAZY" = true
  end.
Proof. pose proof (b_auto _ _ _ B) as A. pose proof (b_lazy _ _ _ B) as L. destruct (k_auto k); [exact A|split; [exact A|now apply L]..]. Qed.


Notation call_f := (call_func k w F).
Ltac enter L := rewrite (call_unfold k w F _ _ _ _ _ _ (L cfg c (c_param c))); cbn [f_params f_body bind_params snd].
Ltac enter_if L := rewrite (call_unfold k w F _ _ _ _ _ _ L); cbn [f_params f_body bind_params snd].
Definition of_value (r : res (value * st)) (cs : list cell) : out val :=
  match r with Ok (VBool b, s) => Done (b2v b) (mkmem s cs) | _ => Bad end.

Lemma run_load_both n s cs : inv k s -> cfg $"GDO_DEFAULT_LIB" = true ->
  call_f (S (S (S (S (S (S (S n))))))) $"gdo_load_lib_and_symbols" [] (mkmem s cs) = of_value (then_symbols k w (load_lib k w s)) cs.
Proof.
  intros I D. assert (Fn := find_gdo_load_lib_and_symbols cfg c (c_param c)). cbn [forallb feval] in Fn. rewrite D in Fn. cbn [andb] in Fn. enter_if Fn.
  unfold code_gdo_load_lib_and_symbols, then_symbols. run. rewrite (run_load_lib k w c cfg (c_param c)) by (assumption || apply (b_lib _ _ _ B)). run.
  assert (I2 := load_args_inv k w K (Some (k_lib k)) (k_flags k) false s I). change (load_lib_args k w (Some (k_lib k)) (k_flags k) false s) with (load_lib k w s) in I2.
  destruct (load_lib k w s) as [[] s2]; cbn [fst snd] in *; run; [|reflexivity].
  destruct (load_all_ok k w K s2 I2) as (b & s3 & R & (I3 & _) & _). rewrite (run_load_all k w c cfg (c_param c) K) by (try assumption; apply (i_len _ _ I2)).
  rewrite R. cbn [of_bool bind]. destruct b; run; reflexivity.
Qed.
Lemma run_name_both n f s cs : inv k s ->
  call_f (S (S (S (S (S (S (S n))))))) $"gdo_load_lib_name_and_symbols" [arg f] (mkmem s cs) = of_value (then_symbols k w (load_lib_name k w (c_arg f) s)) cs.
Proof.
  intros I. enter find_gdo_load_lib_name_and_symbols.
  assert (I2 := load_args_inv k w K (c_arg f) (k_flags k) false s I). change (load_lib_args k w (c_arg f) (k_flags k) false s) with (load_lib_name k w (c_arg f) s) in I2.
  unfold code_gdo_load_lib_name_and_symbols, then_symbols. unfold arg. destruct f as [f|]; cbn [of_text c_arg option_map] in *; run.
  1: rewrite (run_load_name k w c cfg (c_param c)) by (try assumption; apply c_str_id). 2: rewrite (run_load_name_null k w c cfg (c_param c)) by assumption.
  all: run; match goal with |- context [load_lib_name ?k ?w ?f ?s] => destruct (load_lib_name k w f s) as [[] s2] end; cbn [fst snd] in *; run; try reflexivity.
  1: destruct (load_all_ok k w K s2 I2) as (b & s3 & R & (I3 & _) & _); rewrite (run_load_all k w c cfg (c_param c) K) by (try assumption; apply (i_len _ _ I2));
     rewrite R; cbn [of_bool bind]; destruct b; run; reflexivity.
  destruct (load_all_ok k w K s2 I2) as (b & s3 & R & (I3 & _) & _); rewrite (run_load_all k w c cfg (c_param c) K) by (try assumption; apply (i_len _ _ I2));
     rewrite R; cbn [of_bool bind]; destruct b; run; reflexivity.
Qed.
Lemma seen_bool b s cs : match seen ABool (b2v b) (g (mkmem s cs)) with Some x => Ok (x, g (mkmem s cs)) | None => UB end = Ok (VBool b, s).
Proof. destruct b; reflexivity. Qed.
Ltac calls_of X := rewrite X; cbv iota beta; cbn [answer_of]; rewrite ?seen_bool; try reflexivity.

Lemma call_same o s : inv k s -> callable k c cfg o = true -> c_call k w F o s = call k w o s.
Proof.
  intros I A. pose proof (i_len _ _ I) as L. pose proof (proj2 (i_err _ _ I)) as IE. pose proof (proj2 (i_path _ _ I)) as IP.
  pose proof K as HK. pose proof Cd as HCd. pose proof Cn as HCn. pose proof (b_lib _ _ _ B) as HL.
  destruct o as [ | |f|f|f fl ns| | | | | |num|name| | | | | |i args|z]; unfold c_call, api_call, arg; cbn [callable] in A.
  - rewrite (run_load_lib k w c cfg (c_param c)) by assumption. apply seen_bool.
  - rewrite run_load_both by assumption. unfold call, then_symbols. assert (I2 := load_args_inv k w K (Some (k_lib k)) (k_flags k) false s I).
    change (load_lib_args k w (Some (k_lib k)) (k_flags k) false s) with (load_lib k w s) in I2.
    destruct (load_lib k w s) as [[] s2]; cbn [snd] in I2; cbn [of_value]; [|reflexivity].
    destruct (load_all_ok k w K s2 I2) as (b & s3 & R & _). rewrite R. cbn [bind of_value fst snd]. apply seen_bool.
  - destruct f as [f|]; cbn [of_text].
    + rewrite (run_load_name k w c cfg (c_param c)) by (try assumption; apply c_str_id). apply seen_bool.
    + rewrite (run_load_name_null k w c cfg (c_param c)) by assumption. apply seen_bool.
  - change (of_text f) with (arg f). rewrite run_name_both by assumption. unfold call, then_symbols.
    assert (I2 := load_args_inv k w K (c_arg f) (k_flags k) false s I). change (load_lib_args k w (c_arg f) (k_flags k) false s) with (load_lib_name k w (c_arg f) s) in I2.
    destruct (load_lib_name k w (c_arg f) s) as [[] s2]; cbn [snd] in I2; cbn [of_value]; [|reflexivity].
    destruct (load_all_ok k w K s2 I2) as (b & s3 & R & _). rewrite R. cbn [bind of_value fst snd]. apply seen_bool.
  - destruct f as [f|]; cbn [of_text].
    + rewrite (run_load_args k w c cfg (c_param c)) by (try assumption; apply c_str_id). apply seen_bool.
    + rewrite (run_load_args_null k w c cfg (c_param c)) by assumption. apply seen_bool.
  - rewrite (run_is_loaded k w c cfg (c_param c)) by assumption. apply seen_bool.
  - rewrite (run_free_lib k w c cfg (c_param c)) by assumption. apply seen_bool.
  - rewrite (run_force_free k w c cfg (c_param c)) by assumption. reflexivity.
  - rewrite (run_autorelease k w c cfg (c_param c)) by assumption. apply seen_bool.
  - rewrite (run_load_all k w c cfg (c_param c)) by assumption. unfold call. destruct (load_all_ok k w K s I) as (b & s3 & R & _). rewrite R. cbn [of_bool bind fst snd]. apply seen_bool.
  - rewrite (run_load_symbol k w c cfg (c_param c)) by assumption. unfold call. destruct (load_symbol_ok k w K num s I) as (b & s3 & R & _). rewrite R. cbn [of_bool bind fst snd]. apply seen_bool.
  - unfold call. destruct (load_name_ok k w K (c_arg name) s I) as (b & s3 & R & _). rewrite R. destruct name as [t|]; cbn [of_text c_arg option_map] in *.
    + rewrite (run_symbol_name k w c cfg (c_param c)) by (try assumption; apply c_str_id). rewrite R. cbn [of_bool bind fst snd]. apply seen_bool.
    + rewrite (run_symbol_name_null k w c cfg (c_param c)) by assumption. rewrite R. cbn [of_bool bind fst snd]. apply seen_bool.
  - rewrite (run_all_loaded k w c cfg (c_param c)) by assumption. apply seen_bool.
  - rewrite (run_none_loaded k w c cfg (c_param c)) by assumption. apply seen_bool.
  - rewrite (run_any_loaded k w c cfg (c_param c)) by assumption. apply seen_bool.
  - rewrite (run_last_error k w c cfg (c_param c)) by assumption. reflexivity.
  - rewrite (run_library_path k w c cfg (c_param c)) by (try assumption; first [apply (b_dlinfo _ _ _ B)|apply (b_dladdr _ _ _ B)|apply (b_linux _ _ _ B)|apply (b_absent _ _ _ B); cbn; tauto]).
    unfold call. destruct (library_path_ok k w K s I) as (r & s3 & R & _). rewrite R. destruct r as [t|]; [|reflexivity].
    rewrite (path_text k w s t s3 R). reflexivity.
  - unfold call, wrapped_call. destruct (nth_error (k_names k) i) as [name|] eqn:N; [|reflexivity].
    apply andb_prop in A as [A AL]. apply andb_prop in A as [AM AP].
    rewrite (run_check k w c cfg (c_param c)); try assumption.
    + pose proof (wrap_facts k w K i name s I N) as W. destruct (wrap_check_loaded k w i name s) as [[[] s2]| | |]; cbn [of_check bind outcome] in *; try reflexivity; try (elim W; fail).
      cbn [g]. destruct (get_ptr i s2); reflexivity.
    + exact auto_macros.
    + destruct (k_auto k); [now left|right..]; easy.
  - rewrite (run_exit k w c cfg (c_param c)) by assumption. reflexivity.
Qed.
Lemma run_same ops : Forall (fun o => callable k c cfg o = true) ops -> c_run k w F ops = run k w ops.
Proof.
  induction ops as [|o ops IH] using rev_ind; intro A; [reflexivity|]. apply Forall_app in A as [A A2]. inversion A2; subst.
  rewrite run_app. unfold c_run in *. rewrite fold_left_app. cbn [fold_left]. rewrite (IH A). pose proof (run_facts k w K ops) as R.
  destruct (run k w ops) as [s| | |]; try reflexivity. cbn [bind outcome] in *. unfold c_step, step. destruct (s_end s); [reflexivity|].
  now rewrite call_same.
Qed.
End Body.
Lemma call_after k w c cfg ops s o : build k c cfg -> plain_config c -> run k w ops = Ok s -> callable k c cfg o = true ->
  c_call k w (funs cfg c (c_param c)) o s = call k w o s.
Proof.
  intros B P R A. apply call_same; try assumption. pose proof (run_facts k w (b_ok _ _ _ B) ops) as X. rewrite R in X. apply X.
Qed.
Lemma never_wrong k w c cfg ops : build k c cfg -> plain_config c -> lib_printable k -> Forall (fun o => callable k c cfg o = true) ops ->
  exists s, c_run k w (funs cfg c (c_param c)) ops = Ok s.
Proof.
  intros B P LP A. rewrite run_same by assumption. pose proof (run_facts k w (b_ok _ _ _ B) ops) as X.
  destruct (run k w ops) as [s| | |]; cbn in X; try contradiction. now exists s.
Qed.

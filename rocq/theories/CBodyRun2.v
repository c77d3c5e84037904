(** Proofs for C92: the functions of the generated C library one by one, second part. *)
From Coq Require Import Ascii String List Bool Arith Lia ZArith.
From Verif Require Import Str StrFacts Parse ParamNames Prefix Substitute SpecPrefix SpecSubstitute Templates SpecTemplates CRuntime
  SpecCRuntime CRuntimeFacts CRuntimeFacts2 CRuntimeProps SpecCLang SpecCProg SpecCRun SpecBody CTemplate CTemplateText CTemplatePP CBody CBodyText CCode CBodyFuns
  CBodyExec CBodyRun.
Import ListNotations.
From Coq Require Import ZifyBool ZifyNat ZifyN.

Ltac syscall x :=
  lazymatch x with
  | "dlerror"%string => rewrite sys_dlerror | "dlopen"%string => rewrite sys_dlopen | "dlmopen"%string => rewrite sys_dlmopen
  | "dlsym"%string => first [rewrite sys_dlsym | rewrite sys_dlsym_null] | "dlclose"%string => rewrite sys_dlclose | "dlinfo"%string => rewrite sys_dlinfo
  | "dladdr"%string => rewrite sys_dladdr | "atexit"%string => rewrite sys_atexit | "fprintf"%string => rewrite sys_fprintf | "fputc"%string => rewrite sys_fputc
  | "strlen"%string => rewrite sys_strlen | "strcmp"%string => rewrite sys_strcmp | "strncmp"%string => rewrite sys_strncmp | "strstr"%string => rewrite sys_strstr
  | "memcpy"%string => rewrite sys_memcpy | "abort"%string => rewrite sys_abort | "_gdo_fullpath_procmap"%string => rewrite sys_procmap
  | "snprintf"%string => rewrite sys_snprintf by (reflexivity || assumption)
  end.
Ltac errcall x :=
  lazymatch x with
  | "_gdo_clear_error"%string => rewrite run_clear_error | "_gdo_save_to_errbuf"%string => first [rewrite run_save_null | rewrite run_save_text by assumption]
  | "_gdo_save_error"%string => first [rewrite run_save_error_t by assumption | rewrite run_save_error_n by assumption]
  | "_gdo_set_error_no_library_loaded"%string => rewrite run_no_library by assumption | "gdo_lib_is_loaded"%string => rewrite run_is_loaded
  end.
Ltac funcall x := errcall x.
Ltac other h :=
  lazymatch h with
  | text_value _ => erewrite symbol_text by eassumption
  | lookup _ _ => match goal with H : h = None |- _ => rewrite H end
  | format _ [VText _] _ => first [rewrite fmt_s | rewrite fmt_name]
  | format _ [VInt _] _ => rewrite fmt_number
  end.
Ltac calls h ::= lazymatch h with call_func _ _ _ _ (Str.lit ?x) _ _ => first [syscall x | funcall x] | _ => other h end.

Lemma clean_first a t : c_str (a :: t) = a :: t -> Z.eqb (Z.of_nat (nat_of_ascii a)) 0 = false.
Proof.
  cbn [c_str]. destruct (Ascii.eqb_spec a nul) as [->|N]; [discriminate|]. intros _. apply Z.eqb_neq. intro E. apply N.
  rewrite <- (ascii_nat_embedding a). replace (nat_of_ascii a) with 0 by lia. reflexivity.
Qed.

Section Body.
Variables (k : rconf) (w : world) (c : config) (cfg : str -> bool) (p : param_mode).
Hypothesis K : conf_ok k.
Hypothesis C_dlmopen : cfg $"GDO_HAVE_DLMOPEN" = k_dlmopen k.
Hypothesis C_names : k_names k = symbol_names c.
Hypothesis C_plain : plain_config c.
Notation F := (funs cfg c p).
Notation call_f := (call_func k w F).
Notation vs := (envs c CSymbol).
Notation sym := (fun v : hole -> str => v HSym).
Ltac enter L := rewrite (call_unfold k w F _ _ _ _ _ _ (L cfg c p)); cbn [f_params f_body bind_params snd].
Ltac enter_if L := rewrite (call_unfold k w F _ _ _ _ _ _ L); cbn [f_params f_body bind_params snd].

(* ---------------------------------------------------------------- symbols by name *)

Lemma prefix_test q t : str_eqb (firstn (length q) t) (firstn (length q) q) = starts_with q t.
Proof.
  rewrite firstn_all. revert t. induction q as [|a q IH]; intros [|b t]; try reflexivity. cbn [firstn length str_eqb starts_with]. rewrite IH. f_equal.
  destruct (Ascii.eqb_spec b a), (Ascii.eqb_spec a b); congruence.
Qed.
Definition name_env (cs : list cell) : list (str * nat) :=
  [($"curr_len", 5 + length cs); ($"curr", 4 + length cs); ($"len", 3 + length cs); ($"pfxlen", 2 + length cs); ($"pfx", 1 + length cs); ($"symbol", 0 + length cs)].
Definition name_cells (t : str) (x y : val) : list cell :=
  [CVal (VText t); CArr (k_prefix k); CVal (VInt (Z.of_nat (length (k_prefix k)))); CVal (VInt (Z.of_nat (length t))); CVal x; CVal y].
Lemma run_name_loop n t l : starts_with (k_prefix k) t = true -> forall a x y s cs, (forall v, In v l -> In v vs) -> k_names k = a ++ map sym l ->
  length (s_ptrs s) = length (k_names k) -> exists x' y',
  exec k F (call_f (S (S (S (S n))))) 9 (name_env cs) (flat_map loop_8 l) (mkmem s (cs ++ name_cells t x y)) =
  match find_symbol k w (map sym l) (length a) t s with
  | Some r => of_res r (cs ++ name_cells t x' y')
  | None => Done FNext (mkmem s (cs ++ name_cells t x' y'))
  end.
Proof.
  intros T. induction l as [|v l IH]; intros a x y s cs I E L; [exists x, y; run; reflexivity|].
  assert (V := I v (or_introl eq_refl)). assert (X := index_loop k K a v l E). destruct (next_loop k a v l E) as [E1 E2].
  set (len1 := (Z.of_nat (length (v HSym) + 1) - 1)%Z). destruct (IH _ (VText (v HSym)) (VInt len1) s cs (fun v' H => I v' (or_intror H)) E1 L) as (x1 & y1 & R).
  rewrite E2 in R. unfold name_env, name_cells in R.
  assert (Z1 : Z.eqb (Z.of_nat (length t)) len1 = Nat.eqb (length t) (length (v HSym))) by lia.
  assert (P1 : length (k_prefix k) <= length t) by (apply starts_with_app in T as [r ->]; rewrite app_length; lia).
  assert (P2 : length (k_prefix k) <= length (v HSym)).
  { pose proof (ok_prefix _ K) as P. rewrite E in P. apply Forall_app in P as [_ P]. inversion P as [|? ? [r A] B]; subst. cbn beta in A. rewrite A, app_length. lia. }
  cbn [flat_map map find_symbol]. unfold loop_8 at 1. fold (one v). cbn [app].
  destruct (Nat.eqb (length t) (length (v HSym)) && str_eqb (skipn (length (k_prefix k)) t) (skipn (length (k_prefix k)) (v HSym))) eqn:Q.
  - exists (VText (v HSym)), (VInt len1). apply andb_true_iff in Q as [Q1 Q2]. unfold name_env, name_cells. run. fold len1. rewrite Z1, Q1. run. rewrite Q2. run.
    rewrite <- (app_nil_r (one v)). rewrite (run_one k w c cfg p K C_dlmopen C_plain n 6 _ v (length a)); auto; [|rewrite L, E, app_length; cbn [map length]; lia].
    unfold name_cells. destruct (load_one k w (length a) (v HSym) s) as [[b s1]| | |]; cbn [of_res]; run; reflexivity.
  - exists x1, y1. unfold name_env, name_cells. run. fold len1. rewrite Z1. destruct (Nat.eqb (length t) (length (v HSym))); run; [|exact R].
    cbn [andb] in Q. rewrite Q. run. exact R.
Qed.
Lemma run_symbol_name n t s cs : c_str t = t -> length (s_ptrs s) = length (k_names k) ->
  call_f (S (S (S (S (S n))))) $"gdo_load_symbol_name" [VText t] (mkmem s cs) = of_bool (load_symbol_name k w (Some t) s) cs.
Proof.
  intros T L. enter find_gdo_load_symbol_name. unfold code_gdo_load_symbol_name, load_symbol_name. run.
  destruct (lib_is_loaded (clear_error w s)); run; [|reflexivity]. destruct t as [|x t]; run; [reflexivity|]. rewrite (clean_first _ _ T). run.
  set (tt := x :: t) in *. replace (Z.of_nat (length (k_prefix k) + 1) - 1)%Z with (Z.of_nat (length (k_prefix k))) by lia.
  replace (Z.eqb (Z.of_nat (length (k_prefix k))) 0) with (Nat.eqb (length (k_prefix k)) 0) by lia.
  assert (N : map sym vs = k_names k) by (rewrite C_names; unfold symbol_names, envs; rewrite !map_app, !map_map; f_equal; apply map_ext; intro e; reflexivity).
  destruct (starts_with (k_prefix k) tt) eqn:W.
  - destruct (run_name_loop n tt vs W [] VUndef VUndef (clear_error w s) cs (fun _ H => H) (eq_sym N) L) as (x' & y' & R).
    unfold name_env, name_cells in R. rewrite orb_true_r. rewrite <- N.
    destruct (Nat.eqb (length (k_prefix k)) 0) eqn:P0; run.
    + change (if str_eqb $"size_t" $"Dl_info" then CRec [] else CVal VUndef) with (CVal VUndef). rewrite R. cbn [length].
      destruct (find_symbol k w (map sym vs) 0 tt (clear_error w s)) as [[[b s1]| | |]|]; cbn [of_res of_bool]; run; reflexivity.
    + replace (Z.ltb (Z.of_nat (length (k_prefix k))) 0) with false by lia. rewrite Nat2Z.id, prefix_test, W. run.
      change (if str_eqb $"size_t" $"Dl_info" then CRec [] else CVal VUndef) with (CVal VUndef). rewrite R. cbn [length].
      destruct (find_symbol k w (map sym vs) 0 tt (clear_error w s)) as [[[b s1]| | |]|]; cbn [of_res of_bool]; run; reflexivity.
  - destruct (Nat.eqb (length (k_prefix k)) 0) eqn:P0; [apply Nat.eqb_eq in P0; destruct (k_prefix k); [discriminate W|discriminate P0]|].
    run. replace (Z.ltb (Z.of_nat (length (k_prefix k))) 0) with false by lia. rewrite Nat2Z.id, prefix_test, W. run. reflexivity.
Qed.
End Body.

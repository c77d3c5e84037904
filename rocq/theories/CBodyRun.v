(** Proofs for C92: the functions of the generated C library one by one. *)
From Coq Require Import Ascii String List Bool Arith Lia ZArith.
From Verif Require Import Str StrFacts Parse ParamNames Prefix Substitute SpecPrefix SpecSubstitute Templates SpecTemplates CRuntime
  SpecCRuntime CRuntimeFacts CRuntimeFacts2 CRuntimeProps SpecCLang SpecCProg SpecCRun SpecBody CTemplate CTemplateText CTemplatePP CBody CBodyText CCode CBodyFuns CBodyExec.
Import ListNotations.
From Coq Require Import ZifyBool ZifyNat ZifyN.

Section Body.
Variables (k : rconf) (w : world) (c : config) (cfg : str -> bool) (p : param_mode).
Hypothesis K : conf_ok k.
Notation F := (funs cfg c p).
Notation call_f := (call_func k w F).


(* ---------------------------------------------------------------- the system *)

Lemma sys_dlerror n s cs : call_f (S n) $"dlerror" [] (mkmem s cs) = Done (of_text (w_error w (s_trace s))) (mkmem (log (EvError (w_error w (s_trace s))) s) cs).
Proof. rewrite call_system by apply (none_dlerror cfg c p). reflexivity. Qed.
Lemma sys_dlopen n f z s cs : call_f (S n) $"dlopen" [VText f; VInt z] (mkmem s cs) =
  Done (of_ptr (w_open w (s_trace s) f z false)) (mkmem (log (EvOpen f z false (w_open w (s_trace s) f z false)) s) cs).
Proof. rewrite call_system by apply (none_dlopen cfg c p). reflexivity. Qed.
Lemma sys_dlmopen n f z s cs : call_f (S n) $"dlmopen" [VInt (-1); VText f; VInt z] (mkmem s cs) =
  Done (of_ptr (w_open w (s_trace s) f z true)) (mkmem (log (EvOpen f z true (w_open w (s_trace s) f z true)) s) cs).
Proof. rewrite call_system by apply (none_dlmopen cfg c p). reflexivity. Qed.
Lemma sys_dlsym n h f s cs : call_f (S n) $"dlsym" [VPtr h; VText f] (mkmem s cs) =
  Done (of_ptr (w_sym w (s_trace s) h f)) (mkmem (log (EvSym h f (w_sym w (s_trace s) h f)) s) cs).
Proof. rewrite call_system by apply (none_dlsym cfg c p). reflexivity. Qed.
Lemma sys_dlsym_null n f s cs : call_f (S n) $"dlsym" [VNull; VText f] (mkmem s cs) = Bad.
Proof. rewrite call_system by apply (none_dlsym cfg c p). reflexivity. Qed.
Lemma sys_dlclose n h s cs : call_f (S n) $"dlclose" [VPtr h] (mkmem s cs) =
  Done (VInt (if w_close w (s_trace s) h then 0 else -1)) (mkmem (log (EvClose h (w_close w (s_trace s) h)) s) cs).
Proof. rewrite call_system by apply (none_dlclose cfg c p). reflexivity. Qed.
Lemma sys_dlinfo n h a s cs : call_f (S n) $"dlinfo" [VPtr h; VInt 2; VRef a] (mkmem s cs) =
  match w_info w (s_trace s) h with
  | Some name => Done (VInt 0) (put_cell a (CVal (VMap name)) (mkmem (log (EvInfo h (w_info w (s_trace s) h)) s) cs))
  | None => Done (VInt (-1)) (mkmem (log (EvInfo h (w_info w (s_trace s) h)) s) cs)
  end.
Proof. rewrite call_system by apply (none_dlinfo cfg c p). reflexivity. Qed.
Lemma sys_dladdr n q a s cs : call_f (S n) $"dladdr" [VPtr q; VRef a] (mkmem s cs) =
  match w_addr w (s_trace s) q with
  | Some name => Done (VInt 1) (put_cell a (CRec [($"dli_fname", of_text name)]) (mkmem (log (EvAddr q (w_addr w (s_trace s) q)) s) cs))
  | None => Done (VInt 0) (mkmem (log (EvAddr q (w_addr w (s_trace s) q)) s) cs)
  end.
Proof. rewrite call_system by apply (none_dladdr cfg c p). reflexivity. Qed.
Lemma sys_atexit n s cs : call_f (S n) $"atexit" [VFun $"gdo_force_free_lib"] (mkmem s cs) =
  Done (VInt (if w_atexit w (s_trace s) then 0 else 1)) (mkmem (log (EvAtexit (w_atexit w (s_trace s))) s) cs).
Proof. rewrite call_system by apply (none_atexit cfg c p). reflexivity. Qed.
Lemma sys_snprintf n fmt args s cs : existsb (is_buffer Errbuf) args = false ->
  call_f (S n) $"snprintf" (VBuf Errbuf :: VInt (Z.of_nat (k_buflen k)) :: VText fmt :: args) (mkmem s cs) =
  match format fmt args s with Some t => Done (VInt (Z.of_nat (length t))) (mkmem (print_errbuf k t s) cs) | None => Bad end.
Proof.
  intro E. pose proof (ok_buf _ K) as HB. rewrite call_system by apply (none_snprintf cfg c p). cbn [system]. change (str_eqb _ _) with false.
  unfold system. repeat (change (str_eqb $"snprintf" _) with false at 1; cbv iota). cbn [g].
  change (str_eqb $"snprintf" $"snprintf") with true. cbv iota. rewrite E. cbn [orb].
  replace (Z.ltb 0 (Z.of_nat (k_buflen k)) && Z.leb (Z.of_nat (k_buflen k)) (Z.of_nat (k_buflen k))) with true by lia. cbn [negb].
  destruct (format fmt args s); [|reflexivity]. unfold put, print_errbuf, set_content; cbn [cells]. repeat f_equal. lia.
Qed.
Lemma sys_fprintf n fmt args s cs : call_f (S n) $"fprintf" (VStream :: VText fmt :: args) (mkmem s cs) =
  match format fmt args s with Some t => Done (VInt (Z.of_nat (length t))) (mkmem (log (EvPrint t) s) cs) | None => Bad end.
Proof. rewrite call_system by apply (none_fprintf cfg c p). reflexivity. Qed.
Lemma sys_fputc n t s cs : call_f (S n) $"fputc" [VInt 10; VStream] (mkmem (log (EvPrint t) s) cs) = Done (VInt 10) (mkmem (log (EvPrint (t ++ [nl])) s) cs).
Proof. rewrite call_system by apply (none_fputc cfg c p). reflexivity. Qed.
Lemma sys_strlen n t s cs : call_f (S n) $"strlen" [VText t] (mkmem s cs) = Done (VInt (Z.of_nat (length t))) (mkmem s cs).
Proof. rewrite call_system by apply (none_strlen cfg c p). reflexivity. Qed.
Lemma sys_strcmp n x y s cs : call_f (S n) $"strcmp" [VText x; VText y] (mkmem s cs) = Done (VInt (if str_eqb x y then 0 else 1)) (mkmem s cs).
Proof. rewrite call_system by apply (none_strcmp cfg c p). reflexivity. Qed.
Lemma sys_strncmp n x y z s cs : call_f (S n) $"strncmp" [VText x; VText y; VInt z] (mkmem s cs) =
  if Z.ltb z 0 then Bad else Done (VInt (if str_eqb (firstn (Z.to_nat z) x) (firstn (Z.to_nat z) y) then 0 else 1)) (mkmem s cs).
Proof. rewrite call_system by apply (none_strncmp cfg c p). reflexivity. Qed.
Lemma sys_strstr n y s cs : call_f (S n) $"strstr" [VBuf Errbuf; VText y] (mkmem s cs) =
  Done (match find y (s_errbuf s) with Some i => VText (skipn i (s_errbuf s)) | None => VNull end) (mkmem s cs).
Proof. rewrite call_system by apply (none_strstr cfg c p). reflexivity. Qed.
Lemma sys_memcpy n t z s cs : call_f (S n) $"memcpy" [VBuf Libpath; VText t; VInt z] (mkmem s cs) =
  if Z.eqb z (Z.of_nat (length t + 1)) && Nat.leb (length t + 1) (k_buflen k) then Done (VBuf Libpath) (mkmem (with_libpath t s) cs) else Bad.
Proof. rewrite call_system by apply (none_memcpy cfg c p). reflexivity. Qed.
Lemma sys_abort n s cs : call_f (S n) $"abort" [] (mkmem s cs) = Ended (with_end Aborted s).
Proof. rewrite call_system by apply (none_abort cfg c p). reflexivity. Qed.
Lemma sys_procmap n x s cs : call_f (S n) $"_gdo_fullpath_procmap" [VMap x; VBuf Libpath; VInt (Z.of_nat (k_buflen k))] (mkmem s cs) =
  match fullpath_procmap k w s with Ok (b, s) => Done (b2v b) (mkmem s cs) | _ => Bad end.
Proof. rewrite call_system by apply (none_gdo_fullpath_procmap cfg c p). cbn. rewrite Z.eqb_refl. reflexivity. Qed.

Ltac syscall x :=
  lazymatch x with
  | "dlerror"%string => rewrite sys_dlerror | "dlopen"%string => rewrite sys_dlopen | "dlmopen"%string => rewrite sys_dlmopen
  | "dlsym"%string => first [rewrite sys_dlsym | rewrite sys_dlsym_null] | "dlclose"%string => rewrite sys_dlclose | "dlinfo"%string => rewrite sys_dlinfo
  | "dladdr"%string => rewrite sys_dladdr | "atexit"%string => rewrite sys_atexit | "fprintf"%string => rewrite sys_fprintf | "fputc"%string => rewrite sys_fputc
  | "strlen"%string => rewrite sys_strlen | "strcmp"%string => rewrite sys_strcmp | "strncmp"%string => rewrite sys_strncmp | "strstr"%string => rewrite sys_strstr
  | "memcpy"%string => rewrite sys_memcpy | "abort"%string => rewrite sys_abort | "_gdo_fullpath_procmap"%string => rewrite sys_procmap
  | "snprintf"%string => rewrite sys_snprintf by reflexivity
  end.
Ltac funcall x := fail.
Ltac other h := fail.
Ltac calls h ::= lazymatch h with call_func _ _ _ _ (Str.lit ?x) _ _ => first [syscall x | funcall x] | _ => other h end.
Ltac enter L := rewrite (call_unfold k w F _ _ _ _ _ _ (L cfg c p)); cbn [f_params f_body bind_params snd].
Ltac enter_if L := rewrite (call_unfold k w F _ _ _ _ _ _ L); cbn [f_params f_body bind_params snd].

(* ---------------------------------------------------------------- errors *)

Lemma fmt_s t s : format $"%s" [VText t] s = Some t.
Proof. cbn. now rewrite app_nil_r. Qed.
Lemma fmt_number z s : format $"unknown symbol number: %d" [VInt z] s = Some ($"unknown symbol number: " ++ int_to_string z).
Proof. cbn. now rewrite app_nil_r. Qed.
Lemma fmt_name t s : format ($"unknown symbol: " ++ $"%s") [VText t] s = Some ($"unknown symbol: " ++ t).
Proof. cbn. now rewrite app_nil_r. Qed.

Ltac other h ::= lazymatch h with format _ [VText _] _ => first [rewrite fmt_s | rewrite fmt_name] | format _ [VInt _] _ => rewrite fmt_number end.
Lemma run_clear_error n s cs : call_f (S (S n)) $"_gdo_clear_error" [] (mkmem s cs) = Done VVoid (mkmem (clear_error w s) cs).
Proof. enter find_gdo_clear_error. unfold code_gdo_clear_error. run. reflexivity. Qed.
Lemma run_save_null n s cs : call_f (S (S n)) $"_gdo_save_to_errbuf" [VNull] (mkmem s cs) = Done VVoid (mkmem (with_errbuf [] s) cs).
Proof. enter find_gdo_save_to_errbuf. unfold code_gdo_save_to_errbuf. run. reflexivity. Qed.
Lemma run_save_text n t s cs : call_f (S (S n)) $"_gdo_save_to_errbuf" [VText t] (mkmem s cs) = Done VVoid (mkmem (save_to_errbuf k (Some t) s) cs).
Proof. enter find_gdo_save_to_errbuf. unfold code_gdo_save_to_errbuf. run. reflexivity. Qed.
Ltac funcall x ::= lazymatch x with "_gdo_save_to_errbuf"%string => first [rewrite run_save_null | rewrite run_save_text] end.
Lemma save_c_str t s : save_to_errbuf k (Some (c_str t)) s = save_to_errbuf k (Some t) s.
Proof. unfold save_to_errbuf, print_errbuf. now rewrite c_str_id. Qed.
Lemma run_save_error n v s cs : v <> VUndef -> call_f (S (S (S n))) $"_gdo_save_error" [v] (mkmem s cs) = Done VVoid (mkmem (save_error k w s) cs).
Proof.
  intro U. enter find_gdo_save_error. unfold code_gdo_save_error. run.
  assert (E : forall A (f g : A), match v with VUndef => f | _ => g end = g) by (intros; destruct v; congruence).
  replace (match v with VUndef => None | v0 => Some v0 end) with (Some v) by (destruct v; congruence). run.
  unfold save_error, call_error. destruct (w_error w (s_trace s)) as [t|]; run; [|reflexivity]. now rewrite save_c_str.
Qed.
Lemma run_save_error_t n t s cs : call_f (S (S (S n))) $"_gdo_save_error" [VText t] (mkmem s cs) = Done VVoid (mkmem (save_error k w s) cs).
Proof. now apply run_save_error. Qed.
Lemma run_save_error_n n s cs : call_f (S (S (S n))) $"_gdo_save_error" [VNull] (mkmem s cs) = Done VVoid (mkmem (save_error k w s) cs).
Proof. now apply run_save_error. Qed.
Lemma run_no_library n s cs : call_f (S (S (S n))) $"_gdo_set_error_no_library_loaded" [] (mkmem s cs) = Done VVoid (mkmem (set_no_library k s) cs).
Proof. enter find_gdo_set_error_no_library_loaded. unfold code_gdo_set_error_no_library_loaded. run. reflexivity. Qed.
Lemma run_is_loaded n s cs : call_f (S n) $"gdo_lib_is_loaded" [] (mkmem s cs) = Done (b2v (lib_is_loaded s)) (mkmem s cs).
Proof. enter find_gdo_lib_is_loaded. unfold code_gdo_lib_is_loaded, lib_is_loaded. run. destruct (s_handle s); run; reflexivity. Qed.
Ltac errcall x :=
  lazymatch x with
  | "_gdo_clear_error"%string => rewrite run_clear_error | "_gdo_save_to_errbuf"%string => first [rewrite run_save_null | rewrite run_save_text]
  | "_gdo_save_error"%string => first [rewrite run_save_error_t | rewrite run_save_error_n]
  | "_gdo_set_error_no_library_loaded"%string => rewrite run_no_library | "gdo_lib_is_loaded"%string => rewrite run_is_loaded
  end.
Ltac funcall x ::= errcall x.

(* ---------------------------------------------------------------- loading *)

Hypothesis C_dlmopen : cfg $"GDO_HAVE_DLMOPEN" = k_dlmopen k.
Lemma run_call_dlopen n f z b s cs : call_f (S (S n)) $"_gdo_call_dlopen" [VText f; VInt z; b2v b] (mkmem s cs) =
  let r := w_open w (s_trace s) f z (k_dlmopen k && b) in Done (of_ptr r) (mkmem (log (EvOpen f z (k_dlmopen k && b) r) s) cs).
Proof.
  enter find_gdo_call_dlopen. unfold code_gdo_call_dlopen. cbn [forallb feval negb andb]. rewrite C_dlmopen. cbv zeta.
  destruct (k_dlmopen k); cbn [app]; destruct b; cbn [b2v andb]; run; reflexivity.
Qed.
Ltac funcall x ::= lazymatch x with "_gdo_call_dlopen"%string => rewrite run_call_dlopen end.
Lemma run_load_library n f z b s cs : call_f (S (S (S n))) $"_gdo_load_library" [VText f; VInt z; b2v b] (mkmem s cs) =
  Done VVoid (mkmem (load_library k w f z b s) cs).
Proof.
  enter find_gdo_load_library. unfold code_gdo_load_library, load_library. run. cbv zeta. run. destruct (w_open w (s_trace s) f z (k_dlmopen k && b)); run; reflexivity.
Qed.
Lemma clean_head a t : c_str (a :: t) = a :: t -> Z.eqb (Z.of_nat (nat_of_ascii a)) 0 = false.
Proof.
  cbn [c_str]. destruct (Ascii.eqb_spec a nul) as [->|N]; [discriminate|]. intros _. apply Z.eqb_neq. intro E. apply N.
  rewrite <- (ascii_nat_embedding a). replace (nat_of_ascii a) with 0 by lia. reflexivity.
Qed.
Ltac funcall x ::= lazymatch x with "_gdo_load_library"%string => rewrite run_load_library | _ => errcall x end.
Lemma run_load_args_null n z b s cs : call_f (S (S (S (S n)))) $"gdo_load_lib_args" [VNull; VInt z; b2v b] (mkmem s cs) =
  Done (b2v (fst (load_lib_args k w None z b s))) (mkmem (snd (load_lib_args k w None z b s)) cs).
Proof.
  enter find_gdo_load_lib_args. unfold code_gdo_load_lib_args, load_lib_args. run.
  destruct (lib_is_loaded (clear_error w s)) eqn:E; run; reflexivity.
Qed.
Lemma run_load_args n t z b s cs : c_str t = t -> call_f (S (S (S (S n)))) $"gdo_load_lib_args" [VText t; VInt z; b2v b] (mkmem s cs) =
  Done (b2v (fst (load_lib_args k w (Some t) z b s))) (mkmem (snd (load_lib_args k w (Some t) z b s)) cs).
Proof.
  intro T. enter find_gdo_load_lib_args. unfold code_gdo_load_lib_args, load_lib_args. run.
  destruct (lib_is_loaded (clear_error w s)) eqn:E; run; [reflexivity|]. destruct t as [|a t]; run; [reflexivity|]. rewrite (clean_head _ _ T). run.
  destruct (lib_is_loaded (load_library k w (a :: t) z b (clear_error w s))) eqn:E2; run; reflexivity.
Qed.
Lemma run_load_name_null n s cs : call_f (S (S (S (S (S n))))) $"gdo_load_lib_name" [VNull] (mkmem s cs) =
  Done (b2v (fst (load_lib_name k w None s))) (mkmem (snd (load_lib_name k w None s)) cs).
Proof.
  enter find_gdo_load_lib_name. unfold code_gdo_load_lib_name. run. change (VInt 0) with (b2v false). rewrite run_load_args_null. run. reflexivity.
Qed.
Lemma run_load_name n t s cs : c_str t = t -> call_f (S (S (S (S (S n))))) $"gdo_load_lib_name" [VText t] (mkmem s cs) =
  Done (b2v (fst (load_lib_name k w (Some t) s))) (mkmem (snd (load_lib_name k w (Some t) s)) cs).
Proof.
  intro T. enter find_gdo_load_lib_name. unfold code_gdo_load_lib_name. run. change (VInt 0) with (b2v false). rewrite run_load_args by exact T. run. reflexivity.
Qed.
Lemma run_load_lib n s cs : cfg $"GDO_DEFAULT_LIB" = true -> c_str (k_lib k) = k_lib k -> call_f (S (S (S (S (S (S n)))))) $"gdo_load_lib" [] (mkmem s cs) =
  Done (b2v (fst (load_lib k w s))) (mkmem (snd (load_lib k w s)) cs).
Proof.
  intros D T. assert (Fn := find_gdo_load_lib cfg c p). cbn [forallb feval] in Fn. rewrite D in Fn. cbn [andb] in Fn. enter_if Fn.
  unfold code_gdo_load_lib. run. rewrite run_load_name by exact T. run. reflexivity.
Qed.

(* ---------------------------------------------------------------- the symbols *)

Notation vs := (envs c CSymbol).
Notation sym := (fun v : hole -> str => v HSym).
Hypothesis C_names : k_names k = symbol_names c.
Lemma vs_names : map sym vs = k_names k.
Proof.
  rewrite C_names. unfold symbol_names, envs. rewrite !map_app, !map_map. f_equal; apply map_ext; intro e; reflexivity.
Qed.
Lemma strip_app q n : strip q (q ++ n) = Some n.
Proof. unfold strip. rewrite (proj2 (starts_with_app q (q ++ n))) by eauto. now rewrite skipn_app, skipn_all, Nat.sub_diag. Qed.
Lemma index_at l a n r : NoDup l -> l = a ++ n :: r -> index_of n l = Some (length a).
Proof.
  intros N ->. induction a as [|x a IH]; cbn [app index_of length].
  - now rewrite str_eqb_refl.
  - inversion N as [|? ? A B]; subst. replace (str_eqb n x) with false; [now rewrite IH|]. symmetry. apply str_eqb_neq. intros ->. apply A.
    apply in_or_app. right. now left.
Qed.
Lemma get_symbol n i s : index_of n (k_names k) = Some i -> get_member k ($"GDO_PTR_" ++ n) s = Some (of_ptr (get_ptr i s)).
Proof. intro E. unfold get_member. rewrite (strip_app $"GDO_PTR_"), E. reflexivity. Qed.
Lemma set_symbol n i v s q : index_of n (k_names k) = Some i -> as_ptr v = Some q -> set_member k ($"GDO_PTR_" ++ n) v s = Some (set_ptr i q s).
Proof. intros E Q. unfold set_member. rewrite (strip_app $"GDO_PTR_"), E, Q. reflexivity. Qed.
Lemma set_symbol' n i v s : index_of n (k_names k) = Some i -> set_member k ($"GDO_PTR_" ++ n) v s = option_map (fun q => set_ptr i q s) (as_ptr v).
Proof. intros E. unfold set_member. rewrite (strip_app $"GDO_PTR_"), E. destruct (as_ptr v); reflexivity. Qed.
Lemma load_constant n i : index_of n (k_names k) = Some i -> constant k ($"GDO_LOAD_" ++ n) = Some (VInt (Z.of_nat i)).
Proof. intro E. unfold constant. rewrite (strip_app $"GDO_LOAD_"), E. reflexivity. Qed.

Hypothesis C_plain : plain_config c.
Lemma index_loop a v l : k_names k = a ++ map sym (v :: l) -> index_of (v HSym) (k_names k) = Some (length a).
Proof. intro E. apply (index_at _ a _ (map sym l)); [apply (ok_nodup _ K)|exact E]. Qed.
Lemma next_loop a v l : k_names k = a ++ map sym (v :: l) -> k_names k = (a ++ [v HSym]) ++ map sym l /\ length (a ++ [v HSym]) = S (length a).
Proof. intro E. rewrite <- app_assoc, app_length, Nat.add_comm. now split. Qed.

(** every pointer set to NULL from the [i]-th on *)
Fixpoint nulls (i m : nat) (s : st) : st := match m with 0 => s | S m => nulls (S i) m (set_ptr i None s) end.
Lemma nulls_all m : forall i s, length (s_ptrs s) = i + m -> nulls i m s = with_ptrs (firstn i (s_ptrs s) ++ repeat None m) s.
Proof.
  induction m as [|m IH]; intros i s E; cbn [nulls repeat].
  - rewrite app_nil_r, firstn_all2 by lia. now destruct s.
  - rewrite IH; cbn [s_ptrs set_ptr with_ptrs].
    + unfold set_ptr, with_ptrs; cbn [s_handle s_reg s_ptrs s_libpath s_errbuf s_trace s_end]. f_equal.
      rewrite firstn_app, firstn_firstn, firstn_length. replace (Nat.min (S i) i) with i by lia. replace (S i - Nat.min i (length (s_ptrs s))) with 1 by lia.
      cbn [firstn]. rewrite <- app_assoc. reflexivity.
    + rewrite app_length, firstn_length. cbn [length]. rewrite skipn_length. lia.
Qed.
Lemma nulls_reset s : length (s_ptrs s) = length (k_names k) -> nulls 0 (length vs) s = with_ptrs (map (fun _ => None) (k_names k)) s.
Proof.
  intro E. rewrite nulls_all; cbn [firstn app].
  - f_equal. rewrite <- vs_names, map_map. clear. induction vs as [|v l IH]; [reflexivity|]. cbn [length repeat map]. now rewrite IH.
  - rewrite E, <- vs_names, map_length. lia.
Qed.
Lemma run_nulls_1 cf d l : forall a rest s cs, k_names k = a ++ map sym l ->
  exec k F cf (S d) [] (flat_map loop_1 l ++ rest) (mkmem s cs) = exec k F cf (S d) [] rest (mkmem (nulls (length a) (length l) s) cs).
Proof.
  induction l as [|v l IH]; intros a rest s cs E; [reflexivity|]. cbn [flat_map length nulls]. unfold loop_1 at 1. cbn [app]. destruct (next_loop _ _ _ E) as [E1 E2].
  run. rewrite (set_symbol (v HSym) (length a) _ _ None (index_loop _ _ _ E)) by reflexivity. run. rewrite (IH _ _ _ _ E1), E2. reflexivity.
Qed.
Lemma run_nulls_2 cf d l : forall a rest s cs, k_names k = a ++ map sym l ->
  exec k F cf (S d) [] (flat_map loop_2 l ++ rest) (mkmem s cs) = exec k F cf (S d) [] rest (mkmem (nulls (length a) (length l) s) cs).
Proof. exact (run_nulls_1 cf d l). Qed.
Lemma run_call_dlclose n h s cs : call_f (S (S n)) $"_gdo_call_dlclose" [VPtr h] (mkmem s cs) =
  Done (b2v (fst (call_close w h s))) (mkmem (snd (call_close w h s)) cs).
Proof.
  enter find_gdo_call_dlclose. unfold code_gdo_call_dlclose, call_close. run. destruct (w_close w (s_trace s) h); run; reflexivity.
Qed.
Ltac funcall x ::= lazymatch x with "_gdo_call_dlclose"%string => rewrite run_call_dlclose | _ => errcall x end.
Lemma run_free_lib n s cs : length (s_ptrs s) = length (k_names k) -> call_f (S (S (S (S n)))) $"gdo_free_lib" [] (mkmem s cs) =
  Done (b2v (fst (free_lib k w s))) (mkmem (snd (free_lib k w s)) cs).
Proof.
  intro L. enter find_gdo_free_lib. unfold code_gdo_free_lib, free_lib, lib_is_loaded. cbn [app]. run. unfold lib_is_loaded.
  destruct (s_handle (clear_error w s)) as [h|] eqn:H; run.
  - rewrite H. run. destruct (call_close w h (clear_error w s)) as [ok s1] eqn:C. run. cbn [fst snd]. destruct ok; run; [|reflexivity].
    rewrite (run_nulls_1 _ _ vs []) by (symmetry; apply vs_names). rewrite nulls_reset by (unfold call_close in C; injection C as _ <-; exact L). run. reflexivity.
  - rewrite (run_nulls_1 _ _ vs []) by (symmetry; apply vs_names). rewrite nulls_reset by exact L. run. reflexivity.
Qed.
Lemma run_force_free n s cs : length (s_ptrs s) = length (k_names k) -> call_f (S (S (S n))) $"gdo_force_free_lib" [] (mkmem s cs) =
  Done VVoid (mkmem (force_free_lib k w s) cs).
Proof.
  intro L. enter find_gdo_force_free_lib. unfold code_gdo_force_free_lib, force_free_lib. cbn [app]. run. unfold lib_is_loaded.
  destruct (s_handle (clear_error w s)) as [h|] eqn:H; run; rewrite <- (app_nil_r (flat_map _ _)).
  - rewrite H. run. rewrite (run_nulls_2 _ _ vs []) by (symmetry; apply vs_names). rewrite nulls_reset by exact L. run. reflexivity.
  - rewrite (run_nulls_2 _ _ vs []) by (symmetry; apply vs_names). rewrite nulls_reset by exact L. run. reflexivity.
Qed.

Ltac funcall x ::= errcall x.
Ltac other h ::= lazymatch h with find_func _ _ => rewrite (find_gdo_force_free_lib cfg c p); cbn [forallb] end.
Lemma run_autorelease n s cs : call_f (S (S (S n))) $"gdo_enable_autorelease" [] (mkmem s cs) =
  Done (b2v (fst (enable_autorelease k w s))) (mkmem (snd (enable_autorelease k w s)) cs).
Proof.
  enter find_gdo_enable_autorelease. unfold code_gdo_enable_autorelease, enable_autorelease. run.
  destruct (s_reg (clear_error w s)) eqn:R; run; [rewrite R; reflexivity|]. destruct (w_atexit w (s_trace (clear_error w s))) eqn:A; run; reflexivity.
Qed.

Lemma ptr_at (i : nat) (l : list (option ptr)) : i < length l -> skipn i l = nth i l None :: skipn (S i) l.
Proof. revert l. induction i as [|i IH]; intros [|x l] H; cbn [length] in H; try lia; [reflexivity|]. cbn [skipn nth]. apply IH. lia. Qed.
Lemma left_at a v l s : length (s_ptrs s) = length (k_names k) -> k_names k = a ++ map sym (v :: l) ->
  skipn (length a) (s_ptrs s) = get_ptr (length a) s :: skipn (S (length a)) (s_ptrs s).
Proof. intros L E. unfold get_ptr. apply ptr_at. rewrite L, E, app_length. cbn [map length]. lia. Qed.
Lemma left_end a s : length (s_ptrs s) = length (k_names k) -> k_names k = a ++ map sym [] -> skipn (length a) (s_ptrs s) = [].
Proof. intros L E. cbn [map] in E. rewrite app_nil_r in E. rewrite <- E, <- L. apply skipn_all. Qed.
Lemma eval_test o f cf v a l s cs : length (s_ptrs s) = length (k_names k) -> k_names k = a ++ map sym (v :: l) ->
  (o = $"==" /\ f = (fun q => negb (non_null q))) \/ (o = $"!=" /\ f = non_null) ->
  eval k F cf [] (EBin o (EField (EId $"gdo_hndl") ($"GDO_PTR_" ++ v HSym)) (EId $"NULL")) (mkmem s cs) = Done (b2v (f (get_ptr (length a) s))) (mkmem s cs).
Proof.
  intros L E [[-> ->]|[-> ->]]; run; rewrite (get_symbol _ _ _ (index_loop _ _ _ E)); run; destruct (get_ptr (length a) s); run; reflexivity.
Qed.
Lemma eval_and1 cf e e' m b b' : eval k F cf [] e m = Done (b2v b) m -> eval k F cf [] e' m = Done (b2v b') m ->
  eval k F cf [] (EBin $"&&" e e') m = Done (b2v (b && b')) m.
Proof.
  intros H H'. rewrite eval_unfold. cbn [eval1]. rewrite H. cbn [obind]. change (str_eqb $"&&" $"&&") with true. cbv iota. rewrite b2v_truth. destruct b; [|reflexivity].
  rewrite H'. cbn [obind]. rewrite b2v_truth. reflexivity.
Qed.
Lemma eval_or1 cf e e' m b b' : eval k F cf [] e m = Done (b2v b) m -> eval k F cf [] e' m = Done (b2v b') m ->
  eval k F cf [] (EBin $"||" e e') m = Done (b2v (b || b')) m.
Proof.
  intros H H'. rewrite eval_unfold. cbn [eval1]. rewrite H. cbn [obind]. change (str_eqb $"||" $"&&") with false. change (str_eqb $"||" $"||") with true. cbv iota.
  rewrite b2v_truth. destruct b; [reflexivity|]. rewrite H'. cbn [obind]. rewrite b2v_truth. reflexivity.
Qed.
Lemma eval_and f o t cf l : forall a e s cs b, length (s_ptrs s) = length (k_names k) -> k_names k = a ++ map sym l ->
  (o = $"==" /\ f = (fun q => negb (non_null q))) \/ (o = $"!=" /\ f = non_null) ->
  t = (fun v : hole -> str => EBin o (EField (EId $"gdo_hndl") ($"GDO_PTR_" ++ v HSym)) (EId $"NULL")) ->
  eval k F cf [] e (mkmem s cs) = Done (b2v b) (mkmem s cs) ->
  eval k F cf [] (fold_left (fun a v => EBin $"&&" a (t v)) l e) (mkmem s cs) =
  Done (b2v (fold_left (fun b q => b && f q) (skipn (length a) (s_ptrs s)) b)) (mkmem s cs).
Proof.
  induction l as [|v l IH]; intros a e s cs b L E O T H.
  - rewrite (left_end _ _ L E). exact H.
  - rewrite (left_at _ _ _ _ L E). destruct (next_loop _ _ _ E) as [E1 E2]. cbn [fold_left]. rewrite <- E2. apply (IH _ _ _ _ _ L E1 O T).
    apply eval_and1; [exact H|]. subst t. now apply (eval_test o f _ v a l).
Qed.
Lemma eval_or f o t cf l : forall a e s cs b, length (s_ptrs s) = length (k_names k) -> k_names k = a ++ map sym l ->
  (o = $"==" /\ f = (fun q => negb (non_null q))) \/ (o = $"!=" /\ f = non_null) ->
  t = (fun v : hole -> str => EBin o (EField (EId $"gdo_hndl") ($"GDO_PTR_" ++ v HSym)) (EId $"NULL")) ->
  eval k F cf [] e (mkmem s cs) = Done (b2v b) (mkmem s cs) ->
  eval k F cf [] (fold_left (fun a v => EBin $"||" a (t v)) l e) (mkmem s cs) =
  Done (b2v (fold_left (fun b q => b || f q) (skipn (length a) (s_ptrs s)) b)) (mkmem s cs).
Proof.
  induction l as [|v l IH]; intros a e s cs b L E O T H.
  - rewrite (left_end _ _ L E). exact H.
  - rewrite (left_at _ _ _ _ L E). destruct (next_loop _ _ _ E) as [E1 E2]. cbn [fold_left]. rewrite <- E2. apply (IH _ _ _ _ _ L E1 O T).
    apply eval_or1; [exact H|]. subst t. now apply (eval_test o f _ v a l).
Qed.
Lemma run_all_loaded n s cs : length (s_ptrs s) = length (k_names k) -> call_f (S n) $"gdo_all_symbols_loaded" [] (mkmem s cs) =
  Done (b2v (all_symbols_loaded s)) (mkmem s cs).
Proof.
  intro L. enter find_gdo_all_symbols_loaded. unfold code_gdo_all_symbols_loaded, all_symbols_loaded. cbn [app]. rewrite exec_unfold. cbn [exec1].
  rewrite (eval_and non_null $"!=" loop_3 _ vs [] (EId $"true") s (cs ++ []) true L (eq_sym vs_names)); [|now right|reflexivity|run; reflexivity].
  cbn [skipn length]. run. destruct (fold_left _ _ _); run; reflexivity.
Qed.
Lemma run_none_loaded n s cs : length (s_ptrs s) = length (k_names k) -> call_f (S n) $"gdo_no_symbols_loaded" [] (mkmem s cs) =
  Done (b2v (no_symbols_loaded s)) (mkmem s cs).
Proof.
  intro L. enter find_gdo_no_symbols_loaded. unfold code_gdo_no_symbols_loaded, no_symbols_loaded. cbn [app]. rewrite exec_unfold. cbn [exec1].
  rewrite (eval_and (fun q => negb (non_null q)) $"==" loop_4 _ vs [] (EId $"true") s (cs ++ []) true L (eq_sym vs_names)); [|now left|reflexivity|run; reflexivity].
  cbn [skipn length]. run. destruct (fold_left _ _ _); run; reflexivity.
Qed.
Lemma run_any_loaded n s cs : length (s_ptrs s) = length (k_names k) -> call_f (S n) $"gdo_any_symbol_loaded" [] (mkmem s cs) =
  Done (b2v (any_symbol_loaded s)) (mkmem s cs).
Proof.
  intro L. enter find_gdo_any_symbol_loaded. unfold code_gdo_any_symbol_loaded, any_symbol_loaded. cbn [app]. rewrite exec_unfold. cbn [exec1].
  rewrite (eval_or non_null $"!=" loop_5 _ vs [] (EId $"false") s (cs ++ []) false L (eq_sym vs_names)); [|now right|reflexivity|run; reflexivity].
  cbn [skipn length]. run. destruct (fold_left _ _ _); run; reflexivity.
Qed.

(** loading symbols *)
Lemma run_call_dlsym n h t s cs : call_f (S (S n)) $"_gdo_call_dlsym" [VPtr h; VText t] (mkmem s cs) =
  Done (of_ptr (w_sym w (s_trace s) h t)) (mkmem (log (EvSym h t (w_sym w (s_trace s) h t)) s) cs).
Proof. enter find_gdo_call_dlsym. unfold code_gdo_call_dlsym. run. reflexivity. Qed.
Lemma run_call_dlsym_null n t s cs : call_f (S (S n)) $"_gdo_call_dlsym" [VNull; VText t] (mkmem s cs) = Bad.
Proof. enter find_gdo_call_dlsym. unfold code_gdo_call_dlsym. run. reflexivity. Qed.
Ltac funcall x ::= lazymatch x with "_gdo_call_dlsym"%string => first [rewrite run_call_dlsym | rewrite run_call_dlsym_null] | _ => errcall x end.
Definition of_sym (r : res (option ptr * st)) (cs : list cell) : out val := match r with Ok (q, s) => Done (of_ptr q) (mkmem s cs) | _ => Bad end.
Lemma run_sym n t t' s cs : call_f (S (S (S (S n)))) $"_gdo_sym" [VText t; VText t'] (mkmem s cs) = of_sym (gdo_sym k w t s) cs.
Proof.
  enter find_gdo_sym. unfold code_gdo_sym, gdo_sym, of_sym. run. destruct (s_handle s) as [h|]; run; [|reflexivity].
  destruct (w_sym w (s_trace s) h t) as [q|]; run; reflexivity.
Qed.
Lemma ident_text_value t : ident_text t -> text_value t = Some t.
Proof.
  intro I. unfold text_value. replace (existsb (Ascii.eqb bslash) t) with false; [reflexivity|]. symmetry. apply not_true_iff_false. intro E.
  apply existsb_exists in E as (x & X & E). apply Ascii.eqb_eq in E; subst x. eapply Forall_forall in I; [|exact X]. discriminate.
Qed.
Lemma plain_symbol v : In v vs -> exists b e, v = symbol_value b e /\ plain_proto e.
Proof.
  destruct C_plain as [P1 P2]. intro V. apply in_app_or in V as [V|V]; apply in_map_iff in V as (e & <- & V);
    [exists true, e|exists false, e]; (split; [reflexivity|]); [exact (proj1 (Forall_forall _ _) P1 e V)|exact (proj1 (Forall_forall _ _) P2 e V)].
Qed.
Lemma symbol_text v : In v vs -> text_value (v HSym) = Some (v HSym).
Proof. intro V. apply plain_symbol in V as (b & e & -> & P). apply ident_text_value. apply P. Qed.
Lemma cast_kept v x : In v vs ->
  match utoks v [KHole HSymType] with [TWord t] => if str_eqb t $"void" then VVoid else x | _ => x end = x.
Proof.
  intro V. apply plain_symbol in V as (b & e & -> & P).
  assert (X : exists l d, utoks (symbol_value b e) [KHole HSymType] = l ++ [TOp [d]]).
  { assert (T : exists t d, pointer_to b e = t ++ [d] /\ declaration_text t /\ (d = "*" \/ d = ")")%char).
    { pose proof (symbol_fits b e HSymType P) as D. unfold pointer_to. destruct P as (T & A & _). destruct b.
      - exists (p_type e ++ (if pointer_type e then [] else $" ") ++ $"(*)(" ++ p_args e), ")"%char. rewrite <- !app_assoc. split; [reflexivity|]. split; [|now right].
        apply decl_app; [exact T|]. apply decl_app; [destruct (pointer_type e); repeat constructor|]. apply decl_app; [repeat constructor|exact A].
      - exists (p_type e ++ (if pointer_type e then [] else $" ")), "*"%char. rewrite <- !app_assoc. split; [reflexivity|]. split; [|now left].
        apply decl_app; [exact T|]. destruct (pointer_type e); repeat constructor. }
    destruct T as (t & d & T & D & Hd). unfold utoks, itoks. cbn [flat_map itok symbol_value]. rewrite app_nil_r, T. unfold own_tokens. rewrite lex_app, lex_one.
    destruct (decl_lex t D MCode (or_introl eq_refl)) as [[M|[x' M]] _]; rewrite M; destruct Hd as [-> | ->]; cbn -[lex_from];
      rewrite ?app_nil_r; unfold unglued; rewrite !filter_app; cbn; eexists; eexists; rewrite ?app_nil_r, ?app_assoc; try reflexivity.
    all: match goal with |- ?a ++ [?b; ?c] = _ => change [b; c] with ([b] ++ [c]); rewrite app_assoc; reflexivity | |- ?a ++ [?b; ?c; ?d] = _ => change [b; c; d] with ([b; c] ++ [d]); rewrite app_assoc; reflexivity end. }
  destruct X as (l & d & ->). destruct l as [|x1 [|x2 l]]; cbn; [reflexivity| |]; destruct x1; reflexivity.
Qed.

Ltac other h ::=
  lazymatch h with
  | text_value _ => rewrite symbol_text by assumption
  | lookup _ _ => match goal with H : h = None |- _ => rewrite H end
  | utoks _ _ => rewrite cast_kept by assumption
  | get_member _ _ _ => match goal with H : index_of ?x (k_names k) = Some _ |- _ => rewrite (get_symbol _ _ _ H) end
  | set_member _ _ _ _ => match goal with H : index_of ?x (k_names k) = Some _ |- _ => rewrite (set_symbol' _ _ _ _ H) end
  | format _ [VText _] _ => first [rewrite fmt_s | rewrite fmt_name]
  | format _ [VInt _] _ => rewrite fmt_number
  end.
Ltac funcall x ::= lazymatch x with "_gdo_sym"%string => rewrite run_sym | _ => errcall x end.
Definition of_res (r : res (bool * st)) (cs : list cell) : out flow := match r with Ok (b, s) => Done (FReturn (b2v b)) (mkmem s cs) | _ => Bad end.
Definition of_bool (r : res (bool * st)) (cs : list cell) : out val := match r with Ok (b, s) => Done (b2v b) (mkmem s cs) | _ => Bad end.
Lemma get_set i q s : i < length (s_ptrs s) -> get_ptr i (set_ptr i q s) = q.
Proof.
  intro L. unfold get_ptr, set_ptr; cbn [s_ptrs with_ptrs]. rewrite app_nth2; rewrite firstn_length; [|lia]. replace (i - Nat.min i (length (s_ptrs s))) with 0 by lia. reflexivity.
Qed.
Lemma sym_ptrs t s q s' : gdo_sym k w t s = Ok (q, s') -> s_ptrs s' = s_ptrs s.
Proof.
  unfold gdo_sym. destruct (s_handle s); [|discriminate]. destruct (w_sym w (s_trace s) p0 t); intro E; injection E as <- <-; [reflexivity|].
  unfold save_error, call_error, save_to_errbuf. cbn. destruct (w_error _ _); reflexivity.
Qed.
Lemma in_loop a v l : k_names k = a ++ map sym (v :: l) -> length a < length (k_names k).
Proof. intros ->. rewrite app_length. cbn [map length]. lia. Qed.
Lemma run_load_all_loop n l : forall a s cs, (forall v, In v l -> In v vs) -> k_names k = a ++ map sym l ->
  exec k F (call_f (S (S (S (S n))))) 10 [] (flat_map loop_6 l ++ [SReturn (Some (EId $"true"))]) (mkmem s cs) = of_res (load_symbols k w (map sym l) (length a) s) cs.
Proof.
  induction l as [|v l IH]; intros a s cs I E; [run; reflexivity|]. cbn [flat_map]. unfold loop_6 at 1. cbn [app map load_symbols]. destruct (next_loop _ _ _ E) as [E1 E2].
  assert (V := I v (or_introl eq_refl)). assert (X := index_loop _ _ _ E). run. unfold of_sym.
  destruct (gdo_sym k w (v HSym) s) as [[q s1]| | |]; cbn [bind of_res]; run; try reflexivity. destruct q as [q|]; run; [|reflexivity].
  rewrite (IH (a ++ [v HSym]) (set_ptr (length a) (Some q) s1) cs (fun v' H => I v' (or_intror H)) E1), E2. reflexivity.
Qed.
Ltac funcall x ::= lazymatch x with "gdo_all_symbols_loaded"%string => rewrite run_all_loaded by assumption | _ => errcall x end.
Lemma leave_res r cs l : obind (of_res r (cs ++ l)) (leave cs) = of_bool r cs.
Proof. destruct r as [[b s]| | |]; cbn [of_res of_bool obind]; try reflexivity. apply leave_at. Qed.
Lemma run_load_all n s cs : length (s_ptrs s) = length (k_names k) -> call_f (S (S (S (S (S n))))) $"gdo_load_all_symbols" [] (mkmem s cs) = of_bool (load_all_symbols k w s) cs.
Proof.
  intro L. assert (L' : length (s_ptrs (clear_error w s)) = length (k_names k)) by exact L. enter find_gdo_load_all_symbols. unfold code_gdo_load_all_symbols, load_all_symbols. run.
  destruct (all_symbols_loaded (clear_error w s)); run; [reflexivity|]. destruct (lib_is_loaded (clear_error w s)); run; [|reflexivity].
  rewrite (run_load_all_loop n vs []) by (auto; symmetry; apply vs_names). rewrite vs_names. apply leave_res.
Qed.

(** one symbol: the pointer is filled if it is empty *)
Definition one (v : hole -> str) : list stmt :=
  [SIf (ENot (EField (EId $"gdo_hndl") ($"GDO_PTR_" ++ v HSym))) [SExpr (ESet (EField (EId $"gdo_hndl") ($"GDO_PTR_" ++ v HSym)) (ECast (utoks v [(KHole HSymType)]) (ECall $"_gdo_sym" [(EStr (v HSym)); (EStr (v HSym))])))] None;
   SReturn (Some (EParen (EBin $"!=" (EField (EId $"gdo_hndl") ($"GDO_PTR_" ++ v HSym)) (EId $"NULL"))))].
Ltac funcall x ::= lazymatch x with "_gdo_sym"%string => rewrite run_sym | _ => errcall x end.
Lemma run_one n d env v i s cs rest : In v vs -> index_of (v HSym) (k_names k) = Some i -> i < length (s_ptrs s) ->
  lookup $"gdo_hndl" env = None -> lookup $"NULL" env = None ->
  exec k F (call_f (S (S (S (S n))))) (S (S d)) env (one v ++ rest) (mkmem s cs) = of_res (load_one k w i (v HSym) s) cs.
Proof.
  intros V X L N1 N2. unfold one, load_one. cbn [app]. run. destruct (get_ptr i s) as [q|] eqn:G; run.
  - rewrite G. run. reflexivity.
  - unfold of_sym. destruct (gdo_sym k w (v HSym) s) as [[q s1]| | |] eqn:Y; cbn [bind of_res]; run; try reflexivity.
    assert (P : get_ptr i (set_ptr i q s1) = q) by (apply get_set; now rewrite (sym_ptrs _ _ _ _ Y)).
    destruct q as [q|]; run; rewrite P; run; reflexivity.
Qed.
Lemma case_here l : forall a rest num, (forall v, In v l -> In v vs) -> k_names k = a ++ map sym l ->
  match from_case k num (flat_map loop_7 l ++ rest) with
  | Some r => (exists i v r', r = one v ++ r' /\ In v vs /\ num = Z.of_nat i /\ length a <= i /\ nth_error (k_names k) i = Some (v HSym)) \/ from_case k num rest = Some r
  | None => from_case k num rest = None /\ forall i, length a <= i < length (k_names k) -> num <> Z.of_nat i
  end.
Proof.
  induction l as [|v l IH]; intros a rest num I E.
  - cbn [flat_map app]. destruct (from_case k num rest); [now right|]. split; [reflexivity|]. intros i Hi. cbn [map] in E. rewrite app_nil_r in E. rewrite E in Hi. lia.
  - cbn [flat_map]. unfold loop_7 at 1. assert (X := index_loop _ _ _ E). destruct (next_loop _ _ _ E) as [E1 E2]. cbn [app from_case]. rewrite (load_constant _ _ X).
    destruct (Z.eqb_spec num (Z.of_nat (length a))) as [->|D].
    + left. exists (length a), v, (flat_map loop_7 l ++ rest). repeat split; [apply I; now left|lia|]. rewrite E. rewrite nth_error_app2 by lia. now rewrite Nat.sub_diag.
    + specialize (IH _ rest num (fun v' H => I v' (or_intror H)) E1). destruct (from_case k num (flat_map loop_7 l ++ rest)).
      * destruct IH as [(i & v' & r' & A & B & C & D' & G)|IH]; [|now right]. left. exists i, v', r'. repeat split; auto. lia.
      * destruct IH as [A B]. split; [exact A|]. intros i Hi. destruct (Nat.eq_dec i (length a)) as [->|]; [exact D|]. apply B. lia.
Qed.
Lemma default_here l rest : from_default (flat_map loop_7 l ++ SDefault :: rest) = rest.
Proof. induction l as [|v l IH]; [reflexivity|]. exact IH. Qed.
Lemma index_nth i n : nth_error (k_names k) i = Some n -> index_of n (k_names k) = Some i.
Proof. intro E. apply nth_error_split in E as (a & b & E & <-). apply (index_at _ a n b); [apply (ok_nodup _ K)|exact E]. Qed.
Lemma run_load_symbol n num s cs : length (s_ptrs s) = length (k_names k) -> call_f (S (S (S (S (S n))))) $"gdo_load_symbol" [VInt num] (mkmem s cs) = of_bool (load_symbol k w num s) cs.
Proof.
  intro L. enter find_gdo_load_symbol. unfold code_gdo_load_symbol, load_symbol. run.
  destruct (lib_is_loaded (clear_error w s)); run; [|reflexivity]. unfold case_body.
  pose proof (case_here vs [] [SDefault; SBreak] num (fun _ H => H) (eq_sym vs_names)) as C. destruct (from_case k num (flat_map loop_7 vs ++ [SDefault; SBreak])) as [r|].
  - destruct C as [(i & v & r' & -> & V & -> & _ & G)|C]; [|discriminate C].
    replace (Z.ltb (Z.of_nat i) 0) with false by lia. rewrite Nat2Z.id, G. rewrite (run_one n _ _ v i); auto; [|now apply index_nth|].
    2:{ change (s_ptrs (clear_error w s)) with (s_ptrs s). rewrite L. apply nth_error_Some. congruence. }
    destruct (load_one k w i (v HSym) (clear_error w s)) as [[b s1]| | |]; cbn [of_res of_bool]; run; reflexivity.
  - destruct C as [_ C]. rewrite default_here. replace (if Z.ltb num 0 then None else nth_error (k_names k) (Z.to_nat num)) with (@None str).
    2:{ destruct (Z.ltb_spec num 0); [reflexivity|]. symmetry. apply nth_error_None. destruct (le_lt_dec (length (k_names k)) (Z.to_nat num)); [assumption|].
        exfalso. apply (C (Z.to_nat num)); cbn [length]; lia. }
    run. reflexivity.
Qed.
End Body.

(** Proofs for C92: the functions of the generated C library one by one, third part. *)
From Coq Require Import Ascii String List Bool Arith Lia ZArith.
From Verif Require Import Str StrFacts Parse ParamNames Prefix Substitute SpecPrefix SpecSubstitute Templates SpecTemplates CRuntime
  SpecCRuntime CRuntimeFacts CRuntimeFacts2 CRuntimeProps SpecCLang SpecCProg SpecCRun SpecBody CTemplate CTemplateText CTemplatePP CBody CBodyText CCode CBodyFuns
  CBodyExec CBodyRun CBodyRun2.
Import ListNotations.
From Coq Require Import ZifyBool ZifyNat ZifyN.

Ltac consts0 h ::=
  lazymatch h with
  | char_at (content _ _) _ => progress cbn [content]
  | char_at _ (Z.to_nat 0) => change (Z.to_nat 0) with 0
  | _ => consts h
  end.
Ltac iotas ::= cbn [need decl_cell as_ptr compare_eq obind ret option_map truth text_of negb b2v of_text of_ptr cells g put orb andb app Z.eqb Pos.eqb Z.opp].
Ltac other2 h :=
  lazymatch h with
  | Z.ltb 0 0 => change (Z.ltb 0 0) with false
  | char_value (Str.lit ?x) => let r := eval vm_compute in (char_value (Str.lit x)) in change (char_value (Str.lit x)) with r
  | _ => other h
  end.
Ltac calls h ::= lazymatch h with call_func _ _ _ _ (Str.lit ?x) _ _ => first [syscall x | funcall x] | _ => other2 h end.

Lemma code_eqb x y : Z.eqb (Z.of_nat (nat_of_ascii x)) (Z.of_nat (nat_of_ascii y)) = Ascii.eqb x y.
Proof.
  destruct (Ascii.eqb_spec x y) as [->|N]; [apply Z.eqb_refl|]. apply Z.eqb_neq. intro E. apply N. apply Nat2Z.inj in E.
  rewrite <- (ascii_nat_embedding x), <- (ascii_nat_embedding y). now f_equal.
Qed.

(** a cell of the caller *)
Definition set_cell (a : nat) (x : cell) (cs : list cell) : list cell := firstn a cs ++ x :: skipn (S a) cs.
Lemma set_len a x r cs : nth_error cs a = Some r -> length (set_cell a x cs) = length cs.
Proof.
  intro E. assert (a < length cs) by (apply nth_error_Some; congruence). unfold set_cell. rewrite app_length, firstn_length. cbn [length].
  rewrite skipn_length. lia.
Qed.
Lemma set_get a x r cs : nth_error cs a = Some r -> nth_error (set_cell a x cs) a = Some x.
Proof.
  intro E. assert (a < length cs) by (apply nth_error_Some; congruence). unfold set_cell. rewrite nth_error_app2; rewrite firstn_length; [|lia].
  replace (a - Nat.min a (length cs)) with 0 by lia. reflexivity.
Qed.
Lemma set_put a x r cs l s : nth_error cs a = Some r -> put_cell a x (mkmem s (cs ++ l)) = mkmem s (set_cell a x cs ++ l).
Proof.
  intro E. assert (a < length cs) by (apply nth_error_Some; congruence). unfold put_cell, set_cell; cbn [cells g]. f_equal.
  rewrite <- app_assoc. cbn [app]. rewrite firstn_app, skipn_app. replace (a - length cs) with 0 by lia. replace (S a - length cs) with 0 by lia.
  cbn [firstn skipn]. now rewrite app_nil_r.
Qed.
Lemma set_app a (r : cell) cs l : nth_error cs a = Some r -> nth_error (cs ++ l) a = Some r.
Proof. intro E. rewrite nth_error_app1; [exact E|]. apply nth_error_Some. congruence. Qed.
Lemma set_set a x y r cs : nth_error cs a = Some r -> set_cell a y (set_cell a x cs) = set_cell a y cs.
Proof.
  intro E. assert (a < length cs) by (apply nth_error_Some; congruence). unfold set_cell.
  rewrite firstn_app, skipn_app, !firstn_firstn, firstn_length. replace (a - Nat.min a (length cs)) with 0 by lia. replace (Nat.min a a) with a by lia.
  cbn [firstn]. rewrite app_nil_r. f_equal. f_equal. rewrite skipn_all2 by (rewrite firstn_length; lia). replace (S a - Nat.min a (length cs)) with 1 by lia.
  reflexivity.
Qed.
Lemma leave_len cs cs' v s l : length cs' = length cs -> leave cs (FReturn v) (mkmem s (cs' ++ l)) = Done v (mkmem s cs').
Proof. intro E. unfold leave; cbn [cells g]. rewrite <- E. now rewrite cut_at. Qed.

Section Body.
Variables (k : rconf) (w : world) (c : config) (cfg : str -> bool) (p : param_mode).
Hypothesis K : conf_ok k.
Hypothesis C_dlmopen : cfg $"GDO_HAVE_DLMOPEN" = k_dlmopen k.
Hypothesis C_names : k_names k = symbol_names c.
Hypothesis C_plain : plain_config c.
Notation F := (funs cfg c p).
Notation call_f := (call_func k w F).
Notation vs := (envs c CSymbol).
Notation sym := (fun v : hole -> str => v HSym).
Ltac enter L := rewrite (call_unfold k w F _ _ _ _ _ _ (L cfg c p)); cbn [f_params f_body bind_params snd].
Ltac enter_if L := rewrite (call_unfold k w F _ _ _ _ _ _ L); cbn [f_params f_body bind_params snd].

(* ---------------------------------------------------------------- the error message *)

Lemma run_symbol_name_null n s cs :
  call_f (S (S (S (S (S n))))) $"gdo_load_symbol_name" [VNull] (mkmem s cs) = of_bool (load_symbol_name k w None s) cs.
Proof.
  enter find_gdo_load_symbol_name. unfold code_gdo_load_symbol_name, load_symbol_name. run. destruct (lib_is_loaded (clear_error w s)); run; reflexivity.
Qed.
Lemma run_last_error n s cs : c_str (s_errbuf s) = s_errbuf s ->
  call_f (S (S (S n))) $"gdo_last_error" [] (mkmem s cs) = Done (VBuf Errbuf) (mkmem (snd (last_error k s)) cs).
Proof.
  intro E. enter find_gdo_last_error. unfold code_gdo_last_error, last_error. run. cbn [content]. destruct (s_errbuf s) as [|x t] eqn:X; run; [reflexivity|].
  rewrite (clean_first _ _ E). run. rewrite X. reflexivity.
Qed.

(* ---------------------------------------------------------------- the path of the library *)

Ltac copy_end tt X :=
  rewrite ?X; unfold copy_path, store_path; destruct (Nat.leb (length tt + 1) (k_buflen k)) eqn:Y;
  [ replace (Z.gtb (Z.of_nat (length tt) + 1) (Z.of_nat (k_buflen k))) with false by lia; run; rewrite ?X; run;
    replace (Z.eqb (Z.of_nat (length tt) + 1) (Z.of_nat (length tt + 1))) with true by lia; rewrite Y; run; reflexivity
  | replace (Z.gtb (Z.of_nat (length tt) + 1) (Z.of_nat (k_buflen k))) with true by lia; run; reflexivity ].
Lemma run_dlinfo n h s cs : cfg $"GDO_HAVE_DLINFO" = true -> cfg $"__linux__" = k_linux k -> s_handle s = Some h ->
  call_f (S (S (S (S n)))) $"_gdo_libpath_dlinfo" [] (mkmem s cs) = of_bool (libpath_dlinfo k w h s) cs.
Proof.
  intros CI CL H. assert (Fn := find_gdo_libpath_dlinfo cfg c p). cbn [forallb feval] in Fn. rewrite CI in Fn. cbn [andb] in Fn. enter_if Fn. unfold code_gdo_libpath_dlinfo, libpath_dlinfo. run.
  change (s_handle (clear_error w s)) with (s_handle s). rewrite H. run.
  destruct (w_info w (s_trace (clear_error w s)) h) as [nm|] eqn:W; run; [|reflexivity].
  destruct nm as [nm|]; run; [|reflexivity]. assert (C2 : c_str (c_str nm) = c_str nm) by apply c_str_id. destruct (c_str nm) as [|x t] eqn:X; run; [reflexivity|].
  rewrite (clean_first _ _ C2). run. set (tt := x :: t) in *. set (s1 := log (EvInfo h (Some (Some nm))) (clear_error w s)).
  clearbody s1. cbn [forallb feval]. rewrite CL. destruct (k_linux k); cbn [andb]; run.
  - rewrite X. unfold tt. run. change 47%Z with (Z.of_nat (nat_of_ascii "/"%char)). rewrite code_eqb. destruct (Ascii.eqb x "/"%char); run.
    + fold tt. copy_end tt X.
    + destruct (fullpath_procmap k w s1) as [[b s2]| | |]; cbn [bind]; run; try reflexivity. destruct b; run; [reflexivity|]. fold tt. copy_end tt X.
  - copy_end tt X.
Qed.

(** _gdo_call_dladdr for one pointer: the name it leaves *)
Definition addr_name (q : option ptr) (s : st) : option str :=
  match q with Some q => match w_addr w (s_trace s) q with Some (Some n) => Some (c_str n) | _ => None end | None => None end.
Definition addr_state (q : option ptr) (s : st) : st := match q with Some q => log (EvAddr q (w_addr w (s_trace s) q)) s | None => s end.
Definition filled_name (t : option str) : bool := match t with Some (_ :: _) => true | _ => false end.
Definition name_rec (t : option str) : cell := CRec [($"dli_fname", match t with Some t => VText t | None => VNull end)].
Lemma run_call_dladdr n q a r s cs : cfg $"GDO_HAVE_DLADDR" = true -> nth_error cs a = Some (CRec r) ->
  call_f (S (S n)) $"_gdo_call_dladdr" [of_ptr q; VRef a] (mkmem s cs) =
  Done (b2v (filled_name (addr_name q s))) (mkmem (addr_state q s) (set_cell a (name_rec (addr_name q s)) cs)).
Proof.
  intros CA R. assert (Fn := find_gdo_call_dladdr cfg c p). cbn [forallb feval] in Fn. rewrite CA in Fn. cbn [andb] in Fn. enter_if Fn.
  unfold code_gdo_call_dladdr. run.
  rewrite (set_app _ _ _ _ R), (set_put _ _ _ _ _ _ R). set (x1 := CRec [($"dli_fname", VNull)]). rewrite <- (set_len a x1 _ _ R).
  assert (R1 := set_get a x1 _ _ R). assert (L1 := set_len a x1 _ _ R). assert (S1 := fun y => set_set a x1 y _ _ R).
  assert (X1 : set_cell a x1 cs = set_cell a (name_rec None) cs) by reflexivity. set (cs1 := set_cell a x1 cs) in *. clearbody cs1.
  run. destruct q as [q|]; run; [|rewrite (leave_len _ _ _ _ _ L1), X1; reflexivity].
  unfold addr_name, addr_state. destruct (w_addr w (s_trace s) q) as [nm|]; run; [|rewrite (leave_len _ _ _ _ _ L1), X1; reflexivity].
  rewrite (set_put _ _ _ _ _ _ R1). set (x2 := CRec [($"dli_fname", of_text nm)]). rewrite <- (set_len a x2 _ _ R1).
  assert (R2 := set_get a x2 _ _ R1). assert (L2 := set_len a x2 _ _ R1). rewrite L1 in L2.
  assert (X2 : set_cell a x2 cs1 = set_cell a x2 cs) by apply S1. set (cs2 := set_cell a x2 cs1) in *. clearbody cs2.
  run. rewrite (set_app _ _ _ _ R2). unfold x2. destruct nm as [nm|]; run; [|rewrite (leave_len _ _ _ _ _ L2), X2; reflexivity].
  rewrite (set_app _ _ _ _ R2). unfold x2. run. assert (C2 : c_str (c_str nm) = c_str nm) by apply c_str_id. unfold x2 in X2. cbn [of_text] in X2.
  destruct (c_str nm) as [|x t] eqn:X; run; [rewrite (leave_len _ _ _ _ _ L2), X2; reflexivity|].
  rewrite (clean_first _ _ C2). run. rewrite (leave_len _ _ _ _ _ L2), X2. reflexivity.
Qed.
Lemma need_ptr {A} q (X : out A) : need (of_ptr q) X = X.
Proof. now destruct q. Qed.
Lemma set_at (cs : list cell) x y z : set_cell (1 + length cs) z (cs ++ [x; y]) = cs ++ [x; z].
Proof.
  unfold set_cell. rewrite firstn_app, skipn_app. rewrite firstn_all2, skipn_all2 by lia. replace (1 + length cs - length cs) with 1 by lia.
  replace (S (1 + length cs) - length cs) with 2 by lia. cbn [firstn skipn app]. now rewrite <- app_assoc.
Qed.
Notation dl_env cs := [($"info", 1 + length cs); ($"path", 0 + length cs)].
Lemma loop_stays cf env l : forall e m M, eval k F cf env e m = Done (b2v true) M ->
  eval k F cf env (fold_left (fun a (v : hole -> str) => EBin $"||" a (loop_9 v)) l e) m = Done (b2v true) M.
Proof.
  induction l as [|v l IH]; intros e m M H; [exact H|]. cbn [fold_left]. apply IH. rewrite eval_unfold. cbn [eval1]. rewrite H. reflexivity.
Qed.
Lemma run_dladdr_loop n cs l : cfg $"GDO_HAVE_DLADDR" = true -> forall a e m s r, length (s_ptrs s) = length (k_names k) -> k_names k = a ++ map sym l ->
  eval k F (call_f (S (S n))) (dl_env cs) e m = Done (b2v false) (mkmem s (cs ++ [CVal VNull; CRec r])) -> exists r',
  eval k F (call_f (S (S n))) (dl_env cs) (fold_left (fun a (v : hole -> str) => EBin $"||" a (loop_9 v)) l e) m =
  Done (b2v (match fst (dladdr_first w (skipn (length a) (s_ptrs s)) s) with Some _ => true | None => false end))
       (mkmem (snd (dladdr_first w (skipn (length a) (s_ptrs s)) s)) (cs ++ [CVal VNull; CRec r'])) /\
  forall t, fst (dladdr_first w (skipn (length a) (s_ptrs s)) s) = Some t -> CRec r' = name_rec (Some t).
Proof.
  intro CA. induction l as [|v l IH]; intros a e m s r L E H.
  - exists r. rewrite (left_end k _ _ L E). split; [exact H|discriminate].
  - rewrite (left_at k cfg C_dlmopen _ _ _ _ L E). destruct (next_loop k _ _ _ E) as [E1 E2]. cbn [fold_left]. rewrite <- E2.
    assert (X := index_loop k K a v l E). set (q := get_ptr (length a) s).
    assert (R0 : nth_error (cs ++ [CVal VNull; CRec r]) (1 + length cs) = Some (CRec r)) by apply (cell_at 1 cs).
    assert (G : eval k F (call_f (S (S n))) (dl_env cs) (EBin $"||" e (loop_9 v)) m =
      Done (b2v (filled_name (addr_name q s))) (mkmem (addr_state q s) (cs ++ [CVal VNull; name_rec (addr_name q s)]))).
    { rewrite eval_unfold. cbn [eval1]. rewrite H. cbn [obind]. unfold loop_9. run. rewrite (get_symbol k _ _ _ X). fold q. run.
      rewrite need_ptr. run. rewrite (run_call_dladdr n q _ r) by assumption. rewrite set_at. run. destruct (filled_name (addr_name q s)); reflexivity. }
    destruct (addr_name q s) as [[|x t]|] eqn:N.
    + assert (D : dladdr_first w (q :: skipn (length (a ++ [v HSym])) (s_ptrs s)) s = dladdr_first w (skipn (length (a ++ [v HSym])) (s_ptrs (addr_state q s))) (addr_state q s)).
      { destruct q as [q|]; [|discriminate]. cbn [dladdr_first]. cbv zeta. unfold addr_name in N. unfold addr_state. destruct (w_addr w (s_trace s) q) as [[nm|]|]; try discriminate.
        injection N as ->. reflexivity. }
      rewrite D. apply (IH _ _ _ (addr_state q s) [($"dli_fname", VText [])]); [destruct q; exact L|exact E1|exact G].
    + assert (D : dladdr_first w (q :: skipn (length (a ++ [v HSym])) (s_ptrs s)) s = (Some (x :: t), addr_state q s)).
      { destruct q as [q|]; [|discriminate]. cbn [dladdr_first]. cbv zeta. unfold addr_name in N. unfold addr_state. destruct (w_addr w (s_trace s) q) as [[nm|]|]; try discriminate.
        injection N as ->. reflexivity. }
      rewrite D. exists [($"dli_fname", VText (x :: t))]. split; [|intros t0 T0; injection T0 as <-; reflexivity]. apply loop_stays. exact G.
    + assert (D : dladdr_first w (q :: skipn (length (a ++ [v HSym])) (s_ptrs s)) s = dladdr_first w (skipn (length (a ++ [v HSym])) (s_ptrs (addr_state q s))) (addr_state q s)).
      { destruct q as [q|]; [|reflexivity]. cbn [dladdr_first]. cbv zeta. unfold addr_name in N. unfold addr_state. destruct (w_addr w (s_trace s) q) as [[nm|]|]; try discriminate; reflexivity. }
      rewrite D. apply (IH _ _ _ (addr_state q s) [($"dli_fname", VNull)]); [destruct q; exact L|exact E1|exact G].
Qed.
Lemma run_dladdr n s cs : cfg $"GDO_HAVE_DLADDR" = true -> length (s_ptrs s) = length (k_names k) ->
  call_f (S (S (S n))) $"_gdo_libpath_dladdr" [] (mkmem s cs) = of_bool (libpath_dladdr k w s) cs.
Proof.
  intros CA L. assert (Fn := find_gdo_libpath_dladdr cfg c p). cbn [forallb feval] in Fn. rewrite CA in Fn. cbn [andb] in Fn. enter_if Fn.
  unfold code_gdo_libpath_dladdr, libpath_dladdr. run. rewrite (run_none_loaded k w c cfg p K C_dlmopen C_names) by exact L. run.
  destruct (no_symbols_loaded (clear_error w s)); run; [reflexivity|].
  assert (N : map sym vs = k_names k) by (rewrite C_names; unfold symbol_names, envs; rewrite !map_app, !map_map; f_equal; apply map_ext; intro e; reflexivity).
  rewrite <- eval_unfold. change (if str_eqb $"Dl_info" $"Dl_info" then CRec [] else CVal VUndef) with (CRec []).
  destruct (run_dladdr_loop n cs vs CA [] (EId $"false") (mkmem (clear_error w s) (cs ++ [CVal VNull; CRec []])) (clear_error w s) [] L (eq_sym N)) as (r & R & T); [run; reflexivity|].
  rewrite R. cbn [length skipn] in *. destruct (dladdr_first w (s_ptrs (clear_error w s)) (clear_error w s)) as [[t|] s1]; cbn [fst snd] in *; run; [|reflexivity].
  specialize (T t eq_refl). injection T as ->. run. copy_end t CA.
Qed.

Lemma path_head x t : c_str (x :: t) = x :: t -> negb (Z.eqb (Z.of_nat (nat_of_ascii x)) 0) = true.
Proof. intro C. now rewrite (clean_first _ _ C). Qed.
Lemma copy_ptrs t s b s' : copy_path k t s = Ok (b, s') -> s_ptrs s' = s_ptrs s.
Proof. unfold copy_path, store_path. destruct (Nat.leb _ _); cbn [bind]; intro E; injection E as <- <-; reflexivity. Qed.
Lemma dlinfo_ptrs h s b s' : libpath_dlinfo k w h s = Ok (b, s') -> s_ptrs s' = s_ptrs s.
Proof.
  unfold libpath_dlinfo. destruct (w_info w (s_trace (clear_error w s)) h) as [nm|].
  - destruct (match nm with Some n => c_str n | None => [] end) as [|x t]; [intro E; injection E as <- <-; reflexivity|].
    destruct (k_linux k && negb (Ascii.eqb x "/")); [|intro E; apply copy_ptrs in E; exact E].
    unfold fullpath_procmap, store_path. destruct (w_maps _ _) as [q|]; [destruct (Nat.ltb _ _); [destruct (Nat.leb _ _)|]|]; cbn [bind]; intro E; try discriminate E;
      try (injection E as <- <-; reflexivity); apply copy_ptrs in E; exact E.
  - intro E. injection E as <- <-. unfold save_error, call_error. destruct (w_error _ _); reflexivity.
Qed.
Lemma run_library_path n s cs : cfg $"GDO_HAVE_DLINFO" = k_dlinfo k -> cfg $"GDO_HAVE_DLADDR" = k_dladdr k -> cfg $"__linux__" = k_linux k ->
  cfg $"_WIN32" = false -> cfg $"_AIX" = false -> length (s_ptrs s) = length (k_names k) -> c_str (s_libpath s) = s_libpath s ->
  call_f (S (S (S (S (S n))))) $"gdo_library_path" [] (mkmem s cs) =
  match library_path k w s with Ok (Some t, s) => Done (VBuf Libpath) (mkmem s cs) | Ok (None, s) => Done VNull (mkmem s cs) | _ => Bad end.
Proof.
  intros CI CA CL CW CX L P. enter find_gdo_library_path. unfold code_gdo_library_path, library_path. cbn [forallb feval]. rewrite CI, CA, CW, CX. run.
  assert (D : negb (k_dlinfo k) && negb (k_dladdr k) && true = negb (k_dlinfo k || k_dladdr k)) by (destruct (k_dlinfo k), (k_dladdr k); reflexivity). rewrite D, !andb_true_r.
  destruct (negb (k_dlinfo k || k_dladdr k)) eqn:D0; run; [reflexivity|].
  unfold lib_is_loaded at 1. destruct (s_handle (clear_error w s)) as [h|] eqn:H; run; [|reflexivity].
  change (s_libpath (clear_error w s)) with (s_libpath s). destruct (s_libpath s) as [|x t] eqn:X; run.
  - assert (Q : forall b s1 cs1, length (s_ptrs s1) = length (k_names k) -> b = k_dladdr k ->
      obind (exec k F (call_f (S (S (S (S n))))) 10 [] ((if b then [SIf (ECall $"_gdo_libpath_dladdr" []) [SReturn (Some (EField (EId $"gdo_hndl") $"libpath"))] None] else []) ++
        [SExpr (ESet (EIndex (EField (EId $"gdo_hndl") $"libpath") (EId $"0")) (EId $"0")); SReturn (Some (EId $"NULL"))]) (mkmem s1 (cs1 ++ []))) (leave cs1) =
      match (r0 <- (if k_dladdr k then libpath_dladdr k w s1 else Ok (false, s1)) ;; let '(ok, s0) := r0 in if ok then Ok (Some (s_libpath s0), s0) else Ok (None, with_libpath [] s0)) with
      | Ok (Some _, s0) => Done (VBuf Libpath) (mkmem s0 cs1) | Ok (None, s0) => Done VNull (mkmem s0 cs1) | _ => Bad end).
    { intros b s1 cs1 L1 ->. destruct (k_dladdr k) eqn:DA; run.
      - rewrite run_dladdr by assumption. destruct (libpath_dladdr k w s1) as [[ok s2]| | |]; cbn [of_bool bind]; run; try reflexivity. destruct ok; run; reflexivity.
      - reflexivity. }
    destruct (k_dlinfo k) eqn:DI; cbn [andb bind]; run.
    + rewrite (run_dlinfo _ h) by assumption. destruct (libpath_dlinfo k w h (clear_error w s)) as [[ok s2]| | |] eqn:I; cbn [of_bool bind]; run; try reflexivity.
      destruct ok; run; [reflexivity|]. apply Q; [|reflexivity]. now rewrite (dlinfo_ptrs _ _ _ _ I).
    + apply Q; [exact L|reflexivity].
  - rewrite (path_head _ _ P). run. reflexivity.
Qed.
End Body.

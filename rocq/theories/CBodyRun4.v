(** Proofs for C92: the functions of the generated C library one by one, last part. *)
From Coq Require Import Ascii String List Bool Arith Lia ZArith.
From Verif Require Import Str StrFacts Parse ParamNames Prefix Substitute SpecPrefix SpecSubstitute Templates SpecTemplates CRuntime
  SpecCRuntime CRuntimeFacts CRuntimeFacts2 CRuntimeProps SpecCLang SpecCProg SpecCRun SpecBody CTemplate CTemplateText CTemplatePP CBody CBodyText CCode CBodyFuns
  CBodyExec CBodyRun CBodyRun2 CBodyRun3.
Import ListNotations.
From Coq Require Import ZifyBool ZifyNat ZifyN.

(** printf with strings only *)
Lemma format_s_cons a r xs : format_s (a :: r) xs =
  if Ascii.eqb a "%" then
    match r with
    | d :: r => if Ascii.eqb d "s" then match xs with [] => UB | x :: xs => t <- format_s r xs ;; Ok (x ++ t) end
                else if Ascii.eqb d "%" then (t <- format_s r xs ;; Ok ("%"%char :: t)) else UB
    | [] => UB
    end
  else t <- format_s r xs ;; Ok (a :: t).
Proof.
  destruct (Ascii.eqb_spec a "%") as [->|N].
  - destruct r as [|d r]; [reflexivity|]. cbn [format_s]. destruct d as [[] [] [] [] [] [] [] []]; reflexivity.
  - cbn [format_s]. destruct a as [[] [] [] [] [] [] [] []]; try reflexivity. now elim N.
Qed.
Lemma format_texts s n : forall fmt args xs, length fmt <= n -> Forall2 (fun a x => text_of a s = Some x) args xs ->
  format fmt args s = match format_s fmt xs with Ok t => Some t | _ => None end.
Proof.
  induction n as [|n IH]; intros fmt args xs L A; destruct fmt as [|a r]; try reflexivity; [cbn in L; lia|]. cbn [length] in L.
  rewrite format_s_cons. cbn [format]. destruct (Ascii.eqb a "%") eqn:E.
  - destruct r as [|d r]; [reflexivity|]. cbn [length] in L. destruct (Ascii.eqb d "s") eqn:E1.
    + destruct A as [|v x args xs T A]; [reflexivity|]. rewrite T, (IH r args xs) by (auto; lia). destruct (format_s r xs); reflexivity.
    + destruct (Ascii.eqb_spec d "d") as [->|N].
      * change (Ascii.eqb "d" "%") with false. destruct A as [|v x args xs T A]; [reflexivity|]. destruct v; try reflexivity; discriminate T.
      * destruct (Ascii.eqb d "%"); [|reflexivity]. apply Ascii.eqb_eq in E as ->. rewrite (IH r args xs) by (auto; lia). destruct (format_s r xs); reflexivity.
  - rewrite (IH r args xs) by (auto; lia). destruct (format_s r xs); reflexivity.
Qed.

Ltac funcall x ::=
  lazymatch x with
  | "gdo_force_free_lib"%string => rewrite run_force_free by assumption
  | "gdo_enable_autorelease"%string => rewrite run_autorelease by assumption
  | _ => errcall x
  end.

Section Body.
Variables (k : rconf) (w : world) (c : config) (cfg : str -> bool) (p : param_mode).
Hypothesis K : conf_ok k.
Hypothesis C_dlmopen : cfg $"GDO_HAVE_DLMOPEN" = k_dlmopen k.
Hypothesis C_names : k_names k = symbol_names c.
Hypothesis C_plain : plain_config c.
Notation F := (funs cfg c p).
Notation call_f := (call_func k w F).
Ltac enter L := rewrite (call_unfold k w F _ _ _ _ _ _ (L cfg c p)); cbn [f_params f_body bind_params snd].
Ltac enter_if L := rewrite (call_unfold k w F _ _ _ _ _ _ L); cbn [f_params f_body bind_params snd].

(* ---------------------------------------------------------------- the end of the program *)

Lemma run_tcsstr n y s cs : call_f (S (S n)) $"_gdo_tcsstr" [VBuf Errbuf; VText y] (mkmem s cs) =
  Done (match find y (s_errbuf s) with Some i => VText (skipn i (s_errbuf s)) | None => VNull end) (mkmem s cs).
Proof. enter find_gdo_tcsstr. unfold code_gdo_tcsstr. run. destruct (find y (s_errbuf s)); run; reflexivity. Qed.
Hypothesis C_wrap : wrapping p = true.
Hypothesis C_macros : cfg $"GDO_WRAP_FUNCTIONS" || cfg $"GDO_ENABLE_AUTOLOAD" = true.
Lemma run_print_error n fmt name msg m s cs : msg = VText m \/ msg = VBuf Errbuf /\ s_errbuf s = m ->
  call_f (S (S n)) $"_gdo_print_error" [VText fmt; VText name; msg] (mkmem s cs) =
  match print_error fmt name m s with Ok s => Done VVoid (mkmem s cs) | _ => Bad end.
Proof.
  intro M. assert (Fn := find_gdo_print_error cfg c p C_wrap). cbn [forallb feval] in Fn. rewrite C_macros in Fn. cbn [andb] in Fn. enter_if Fn.
  unfold code_gdo_print_error, print_error. assert (T : text_of msg s = Some m) by (destruct M as [->|[-> <-]]; reflexivity).
  assert (X := format_texts s _ fmt [VText name; msg] [name; m] (le_n _) ltac:(repeat constructor; exact T)).
  destruct M as [-> | [-> Q]]; run; rewrite X; destruct (format_s fmt [name; m]) as [t| | |]; cbn [bind]; run; reflexivity.
Qed.
Lemma force_len s : length (s_ptrs s) = length (k_names k) -> length (s_ptrs (force_free_lib k w s)) = length (k_names k).
Proof.
  intro L. unfold force_free_lib, reset. destruct (s_handle (clear_error w s)); cbn; rewrite ?map_length, ?repeat_length; try exact L; reflexivity.
Qed.
Lemma iter_last {A} (f : A -> A) m x : Nat.iter (S m) f x = Nat.iter m f (f x).
Proof. induction m as [|m IH]; [reflexivity|]. change (f (Nat.iter (S m) f x) = f (Nat.iter m f (f x))). now rewrite IH. Qed.
Lemma run_exit n z s cs : length (s_ptrs s) = length (k_names k) ->
  call_f (S (S (S (S n)))) $"exit" [VInt (Z.of_nat z)] (mkmem s cs) = Ended (exit_program k w z s).
Proof.
  intro L. rewrite call_system by apply (none_exit cfg c p). unfold system, exit_program, run_handlers.
  repeat (change (str_eqb $"exit" _) with false at 1; cbv iota). change (str_eqb $"exit" $"exit") with true. cbn [g]. cbv iota.
  generalize (registrations (s_trace s)). intro m. revert s L. induction m as [|m IH]; intros s L; [cbn; now rewrite Nat2Z.id|].
  rewrite (run_force_free k w c cfg p) by assumption. cbn [obind]. rewrite IH by now apply force_len. now rewrite iter_last.
Qed.

(* ---------------------------------------------------------------- wrapped functions *)

Definition of_check (r : res (bool * st)) (cs : list cell) : out val :=
  match r with Ok (true, s) => Done VVoid (mkmem s cs) | Ok (false, s) => Ended s | _ => Bad end.
Hypothesis C_auto : match k_auto k with
  | AutoOff => cfg $"GDO_ENABLE_AUTOLOAD" = false
  | AutoAll => cfg $"GDO_ENABLE_AUTOLOAD" = true /\ cfg $"GDO_ENABLE_AUTOLOAD_LAZY" = false
  | AutoLazy => cfg $"GDO_ENABLE_AUTOLOAD" = true /\ cfg $"GDO_ENABLE_AUTOLOAD_LAZY" = true
  end.
Hypothesis C_lib : k_auto k = AutoOff \/ cfg $"GDO_DEFAULT_LIB" = true /\ c_str (k_lib k) = k_lib k.
Lemma error_len fmt name m s s' : print_error fmt name m s = Ok s' -> s_ptrs s' = s_ptrs s.
Proof. unfold print_error. destruct (format_s fmt [name; m]); cbn [bind]; intro E; try discriminate E. now injection E as <-. Qed.
Lemma last_ptrs s : s_ptrs (snd (last_error k s)) = s_ptrs s.
Proof. unfold last_error. destruct (s_errbuf s); reflexivity. Qed.
Ltac fail_end s2 I2 :=
  rewrite (run_last_error k w c cfg p K) by (apply (i_err _ _ I2)); run; rewrite run_tcsstr; run;
  let L := fresh "L" in let e := fresh "e" in
  assert (L := i_len _ _ I2); rewrite <- (last_ptrs s2) in L;
  change (last_error k s2) with (s_errbuf (snd (last_error k s2)), snd (last_error k s2)); cbv beta iota zeta;
  set (e := snd (last_error k s2)) in *; clearbody e; cbn [snd];
  destruct (find (k_lib k) (s_errbuf e)); run; rewrite (run_print_error _ _ _ _ _ _ _ (or_intror (conj eq_refl eq_refl))); rewrite <- ?app_assoc;
  (match goal with |- context [print_error ?a ?b ?c ?d] => destruct (print_error a b c d) eqn:? end; cbn [bind]; run; try reflexivity;
   match goal with PE : print_error _ _ _ _ = Ok ?s4 |- _ =>
     assert (length (s_ptrs s4) = length (k_names k)) by (rewrite (error_len _ _ _ _ _ PE); exact L); run;
     change (VInt 1) with (VInt (Z.of_nat 1)); rewrite run_exit by (apply force_len; assumption); run; reflexivity end).
Lemma run_check n i name s cs : inv k s ->
  call_f (S (S (S (S (S (S (S n))))))) $"_gdo_wrap_check_loaded" [of_ptr (get_ptr i s); VInt (Z.of_nat i); VText name] (mkmem s cs) =
  of_check (wrap_check_loaded k w i name s) cs.
Proof.
  intro I. assert (Fn := find_gdo_wrap_check_loaded cfg c p C_wrap). cbn [forallb feval] in Fn. rewrite C_macros in Fn. cbn [andb] in Fn. enter_if Fn. clear Fn.
  unfold code_gdo_wrap_check_loaded, wrap_check_loaded. cbn [forallb feval]. destruct (get_ptr i s) as [q|]; run; [reflexivity|].
  destruct (k_auto k) eqn:A.
  - rewrite C_auto. run. unfold lib_is_loaded. destruct (s_handle s); run; rewrite (run_print_error _ _ _ _ _ _ _ (or_introl eq_refl)); run.
    + destruct (print_error _ _ _ s); cbn [bind]; run; reflexivity.
    + destruct (print_error _ _ _ s); cbn [bind]; run; reflexivity.
  - destruct C_auto as [-> ->]. destruct C_lib as [?|[CL CC]]; [discriminate|]. run.
    assert (I1 := autorelease_inv k w K s I). set (s1 := snd (enable_autorelease k w s)) in *. clearbody s1. clear s I.
    destruct (lib_is_loaded s1); run.
    + destruct (load_all_ok k w K s1 I1) as (b & s2 & R & (I2 & _) & _). rewrite (run_load_all k w c cfg p K) by (try assumption; apply (i_len _ _ I1)). rewrite R. cbn [of_bool bind].
      destruct b; run; [reflexivity|]. fail_end s2 I2.
    + rewrite (run_load_lib k w c cfg p) by assumption. run. assert (I2 := load_args_inv k w K (Some (k_lib k)) (k_flags k) false s1 I1).
      change (snd (load_lib_args k w (Some (k_lib k)) (k_flags k) false s1)) with (snd (load_lib k w s1)) in I2. set (s2 := snd (load_lib k w s1)) in *. clearbody s2.
      destruct (load_all_ok k w K s2 I2) as (b & s3 & R & (I3 & _) & _). rewrite (run_load_all k w c cfg p K) by (try assumption; apply (i_len _ _ I2)). rewrite R. cbn [of_bool bind].
      destruct b; run; [reflexivity|]. fail_end s3 I3.
  - destruct C_auto as [-> ->]. destruct C_lib as [?|[CL CC]]; [discriminate|]. run.
    assert (I1 := autorelease_inv k w K s I). set (s1 := snd (enable_autorelease k w s)) in *. clearbody s1. clear s I.
    destruct (lib_is_loaded s1); run.
    + destruct (load_symbol_ok k w K (Z.of_nat i) s1 I1) as (b & s2 & R & (I2 & _)). rewrite (run_load_symbol k w c cfg p K) by (try assumption; apply (i_len _ _ I1)). rewrite R. cbn [of_bool bind].
      destruct b; run; [reflexivity|]. fail_end s2 I2.
    + rewrite (run_load_lib k w c cfg p) by assumption. run. assert (I2 := load_args_inv k w K (Some (k_lib k)) (k_flags k) false s1 I1).
      change (snd (load_lib_args k w (Some (k_lib k)) (k_flags k) false s1)) with (snd (load_lib k w s1)) in I2. set (s2 := snd (load_lib k w s1)) in *. clearbody s2.
      destruct (load_symbol_ok k w K (Z.of_nat i) s2 I2) as (b & s3 & R & (I3 & _)). rewrite (run_load_symbol k w c cfg p K) by (try assumption; apply (i_len _ _ I2)). rewrite R. cbn [of_bool bind].
      destruct b; run; [reflexivity|]. fail_end s3 I3.
Qed.
End Body.

(** The C API: the properties, and programs on which the full claims fail *)
From Coq Require Import Ascii String List Bool Arith ZArith Lia.
From Verif Require Import Str StrFacts SpecFormat CRuntime SpecCRuntime CRuntimeFacts CRuntimeFacts2 CRuntimeProps.
Import ListNotations.

Section K.
Variables (k : rconf) (w : world).
Hypothesis K : conf_ok k.

(* ------------------------------------------------------------ C35 *)
Lemma pointers_current s : reachable k w s ->
  match s_handle s with
  | None => forall i, nth i (s_ptrs s) None = None
  | Some h => exists l, session (s_trace s) = Some (h, l) /\
      forall i n, nth_error (k_names k) i = Some n -> nth i (s_ptrs s) None = last_answer h n l
  end.
Proof.
  intros R. assert (I := reachable_inv k w K s R). destruct (s_handle s) as [h|] eqn:H.
  - destruct (i_some _ _ I h H) as (_ & l & A & B & _). exists l. split; [exact A|exact B].
  - apply (i_none _ _ I H).
Qed.

(* ------------------------------------------------------------ C36 *)
Lemma length_remove h l : In h l -> length l = S (length (remove_one h l)).
Proof. induction l as [|x l IH]; [easy|]. cbn. destruct (Nat.eqb_spec h x); [easy|]. intros [E|E]; [congruence|]. cbn. now rewrite IH. Qed.
Lemma opens_closes t : uses_open t -> opens t = closes t + length (open_handles t).
Proof.
  induction t as [|e t IH]; [easy|]. cbn [uses_open]. intros [U1 U2]. specialize (IH U2). unfold opens, closes in *.
  destruct e as [? ? ? []| |h []| | | | | | |]; cbn [filter open_handles length]; try exact IH.
  - rewrite IH. lia.
  - rewrite IH, (length_remove h) by easy. lia.
Qed.
Lemma handles_balance s : reachable k w s -> uses_open (s_trace s) /\ opens (s_trace s) = closes (s_trace s) + length (open_handles (s_trace s)) /\
  forall h, s_handle s = Some h -> In h (open_handles (s_trace s)).
Proof.
  intros R. assert (I := reachable_inv k w K s R). assert (U := i_uses _ _ I). split; [easy|]. split; [now apply opens_closes|].
  intros h H. apply (i_some _ _ I h H).
Qed.
Lemma handles_exact ops s : run k w ops = Ok s -> never_refuses w \/ (~ In ForceFreeLib ops /\ s_end s = None) ->
  open_handles (s_trace s) = match s_handle s with Some h => [h] | None => [] end.
Proof. intros R H. assert (F := run_facts k w K ops). rewrite R in F. now apply F. Qed.

(* ------------------------------------------------------------ C37 *)
Lemma open_when_loaded s o : reachable k w s -> opens_library o = true -> s_handle s <> None ->
  exists s', call k w o s = Ok (VBool false, s') /\ s_handle s' = s_handle s /\ s_ptrs s' = s_ptrs s /\ s_libpath s' = s_libpath s /\ s_errbuf s' <> [].
Proof.
  intros R O H. assert (I := reachable_inv k w K s R).
  assert (A : forall f fl ns, exists s', load_lib_args k w f fl ns s = (false, s') /\ s_handle s' = s_handle s /\ s_ptrs s' = s_ptrs s /\ s_libpath s' = s_libpath s /\ s_errbuf s' <> []).
  { intros f fl ns. assert (X := load_args_facts k w K f fl ns s I). destruct (load_lib_args k w f fl ns s) as [b s'].
    destruct X as (_ & _ & _ & _ & X & Y & _). destruct (Y H) as [-> E]. exists s'. repeat split; auto; now apply X. }
  destruct o; try discriminate; cbn [call].
  - destruct (A (Some (k_lib k)) (k_flags k) false) as (s' & E & P). unfold load_lib, load_lib_name. rewrite E. now exists s'.
  - destruct (A (Some (k_lib k)) (k_flags k) false) as (s' & E & P). unfold load_lib, load_lib_name. rewrite E. now exists s'.
  - destruct (A (c_arg file) (k_flags k) false) as (s' & E & P). unfold load_lib_name. rewrite E. now exists s'.
  - destruct (A (c_arg file) (k_flags k) false) as (s' & E & P). unfold load_lib_name. rewrite E. now exists s'.
  - destruct (A (c_arg file) flags newns) as (s' & E & P). rewrite E. now exists s'.
Qed.
Lemma failed_open s o s' : reachable k w s -> opens_library o = true -> call k w o s = Ok (VBool false, s') -> s_handle s' = None ->
  s_handle s = None /\ s_ptrs s' = s_ptrs s.
Proof.
  intros R O C H. assert (I := reachable_inv k w K s R).
  assert (D : s_handle s = None) by (destruct (s_handle s) eqn:E; [destruct (open_when_loaded s o R O) as (s2 & C' & B & _); congruence|easy]). split; [easy|].
  assert (A : forall f fl ns s', load_lib_args k w f fl ns s = (false, s') -> s_ptrs s' = s_ptrs s).
  { intros f fl ns s2 E. assert (X := load_args_facts k w K f fl ns s I). rewrite E in X. now apply X. }
  assert (B : forall f fl ns s', load_lib_args k w f fl ns s = (true, s') -> s_handle s' <> None /\ CRuntimeFacts.inv k s').
  { intros f fl ns s2 E. assert (X := load_args_facts k w K f fl ns s I). assert (Y := load_args_inv k w K f fl ns s I). rewrite E in X, Y. split; [|exact Y]. now apply X. }
  assert (T : forall f fl ns, then_symbols k w (load_lib_args k w f fl ns s) = Ok (VBool false, s') -> s_ptrs s' = s_ptrs s).
  { intros f fl ns E. unfold then_symbols in E. destruct (load_lib_args k w f fl ns s) as [[] s2] eqn:L.
    - destruct (B _ _ _ _ L) as [N I2]. destruct (load_all_ok k w K s2 I2) as (b & s3 & Q & (_ & (F & _) & _) & _). rewrite Q in E. cbn in E. injection E as _ <-. congruence.
    - injection E as <-. now apply (A _ _ _ _ L). }
  assert (P : forall f fl ns, Ok (VBool (fst (load_lib_args k w f fl ns s)), snd (load_lib_args k w f fl ns s)) = Ok (VBool false, s') -> s_ptrs s' = s_ptrs s).
  { intros f fl ns E. destruct (load_lib_args k w f fl ns s) as [b s2] eqn:L. cbn in E. injection E as -> <-. now apply (A _ _ _ _ L). }
  destruct o; try discriminate; cbn [call] in C; eauto.
Qed.
Lemma failed_free s s' : reachable k w s -> call k w FreeLib s = Ok (VBool false, s') ->
  s_handle s' = s_handle s /\ s_ptrs s' = s_ptrs s /\ s_libpath s' = s_libpath s.
Proof.
  intros R C. assert (X := free_facts k w K s (reachable_inv k w K s R)). cbn [call] in C. destruct (free_lib k w s) as [b s2]. cbn in C.
  injection C as -> ->. destruct X as (_ & _ & X & _). now destruct (X eq_refl) as (? & ? & ? & _).
Qed.
Lemma autorelease_message s : let '(b, s') := enable_autorelease k w s in (b = true -> s_errbuf s' = []) /\ (b = false -> s_errbuf s' <> []).
Proof.
  unfold enable_autorelease. remember (clear_error w s) as s1 eqn:E1. assert (Z : s_errbuf s1 = []) by now rewrite E1.
  destruct (s_reg s1) eqn:Rg; [now rewrite Rg|]. destruct (w_atexit _ _); [now cbn|].
  split; [cbn; congruence|]. intros _. now apply print_nonempty.
Qed.
Lemma messages s o b s' : reachable k w s -> reports o = true -> call k w o s = Ok (VBool b, s') ->
  (b = true -> s_errbuf s' = []) /\ (b = false -> explains w -> s_errbuf s' <> []).
Proof.
  intros R O C. assert (I := reachable_inv k w K s R).
  assert (P : forall f fl ns, Ok (VBool (fst (load_lib_args k w f fl ns s)), snd (load_lib_args k w f fl ns s)) = Ok (VBool b, s') ->
    (b = true -> s_errbuf s' = []) /\ (b = false -> explains w -> s_errbuf s' <> [])).
  { intros f fl ns E. assert (X := load_args_facts k w K f fl ns s I). destruct (load_lib_args k w f fl ns s) as [b2 s2]. cbn in E. injection E as -> ->. now split; apply X. }
  assert (T : forall f fl ns, then_symbols k w (load_lib_args k w f fl ns s) = Ok (VBool b, s') ->
    (b = true -> s_errbuf s' = []) /\ (b = false -> explains w -> s_errbuf s' <> [])).
  { intros f fl ns E. assert (X := load_args_facts k w K f fl ns s I). assert (Y := load_args_inv k w K f fl ns s I).
    unfold then_symbols in E. destruct (load_lib_args k w f fl ns s) as [[] s2]; cbn [snd] in *.
    - destruct (load_all_ok k w K s2 Y) as (b2 & s3 & Q & (_ & _ & _ & L4 & L5) & _). rewrite Q in E. cbn in E. injection E as -> ->. now split.
    - injection E as <- <-. split; [easy|]. apply X. }
  destruct o; try discriminate; cbn [call] in C; eauto.
  - assert (X := free_facts k w K s I). destruct (free_lib k w s) as [b2 s2]. cbn in C. injection C as -> ->. destruct X as (_ & X & _ & Y & _). split; [apply X|exact Y].
  - assert (X := autorelease_message s). destruct (enable_autorelease k w s) as [b2 s2]. cbn in C. injection C as -> ->. split; [apply X|]. intros E _. now apply X.
  - destruct (load_all_ok k w K s I) as (b2 & s3 & Q & (_ & _ & _ & L4 & L5) & _). rewrite Q in C. cbn in C. injection C as -> ->. now split.
  - destruct (load_symbol_ok k w K num s I) as (b2 & s3 & Q & (_ & _ & _ & L4 & L5)). rewrite Q in C. cbn in C. injection C as -> ->. now split.
  - destruct (load_name_ok k w K (c_arg symbol) s I) as (b2 & s3 & Q & (_ & _ & _ & L4 & L5)). rewrite Q in C. cbn in C. injection C as -> ->. now split.
Qed.
Lemma path_messages s r s' : reachable k w s -> call k w LibraryPath s = Ok (VStr r, s') ->
  (r <> None -> s_errbuf s' = []) /\ (r = None -> explains w -> paths_fit k w -> s_errbuf s' <> []).
Proof.
  intros R C. destruct (library_path_ok k w K s (reachable_inv k w K s R)) as (r2 & s2 & Q & _ & _ & _ & A & B). cbn [call] in C. rewrite Q in C. cbn in C.
  injection C as -> ->. split; [apply A|exact B].
Qed.

(* ------------------------------------------------------------ C38 *)
Lemma queries s : reachable k w s ->
  (call k w AllLoaded s = Ok (VBool true, s) <-> forall i, i < length (k_names k) -> nth i (s_ptrs s) None <> None) /\
  (call k w NoneLoaded s = Ok (VBool true, s) <-> forall i, i < length (k_names k) -> nth i (s_ptrs s) None = None) /\
  (call k w AnyLoaded s = Ok (VBool true, s) <-> exists i, i < length (k_names k) /\ nth i (s_ptrs s) None <> None).
Proof.
  intros R. assert (I := reachable_inv k w K s R). assert (L := i_len _ _ I). cbn [call]. split; [|split].
  - rewrite <- L. rewrite <- (all_spec s). destruct (all_symbols_loaded s); intuition congruence.
  - transitivity (no_symbols_loaded s = true); [destruct (no_symbols_loaded s); intuition congruence|]. rewrite none_spec. unfold get_ptr. rewrite <- L. split; [auto|].
    intros H i. destruct (lt_dec i (length (s_ptrs s))); [auto|]. apply nth_overflow. lia.
  - transitivity (any_symbol_loaded s = true); [destruct (any_symbol_loaded s); intuition congruence|]. rewrite any_spec. unfold get_ptr. rewrite <- L. split.
    + intros [i H]. exists i. split; [|easy]. destruct (lt_dec i (length (s_ptrs s))); [easy|]. elim H. apply nth_overflow. lia.
    + intros (i & _ & H). now exists i.
Qed.
Lemma load_all_truth s b s' : reachable k w s -> call k w LoadAllSymbols s = Ok (VBool b, s') ->
  (b = true <-> forall i, i < length (k_names k) -> nth i (s_ptrs s') None <> None).
Proof.
  intros R C. destruct (load_all_ok k w K s (reachable_inv k w K s R)) as (b2 & s3 & Q & L & B & _). cbn [call] in C. rewrite Q in C. cbn in C. injection C as -> ->.
  rewrite B, all_spec, (i_len _ _ (proj1 L)). reflexivity.
Qed.

(* ------------------------------------------------------------ C39 *)
Lemma by_name_known s i n : reachable k w s -> nth_error (k_names k) i = Some n ->
  exists b s', call k w (LoadSymbolName (Some n)) s = Ok (VBool b, s') /\
    (forall j, j <> i -> nth j (s_ptrs s') None = nth j (s_ptrs s) None) /\
    (b = true <-> s_handle s <> None /\ nth i (s_ptrs s') None <> None) /\
    (forall p, nth i (s_ptrs s) None = Some p -> nth i (s_ptrs s') None = Some p) /\
    (forall h, s_handle s = Some h -> nth i (s_ptrs s) None = None -> exists m, nth i (s_ptrs s') None = w_sym w (EvError m :: s_trace s) h n).
Proof.
  intros R Hn. assert (I := reachable_inv k w K s R). destruct (load_name_known k w K i n s I Hn) as (b & s' & Q & L & B & O & P).
  destruct (proj1 (Forall_forall _ _) (ok_text _ K) _ (nth_error_In _ _ Hn)) as [E _].
  exists b, s'. cbn [call c_arg option_map]. rewrite E, Q. split; [easy|]. split; [exact O|]. split; [exact B|]. split.
  - intros p G. destruct (s_handle s) as [h|] eqn:H.
    + specialize (P h eq_refl). unfold get_ptr in P. rewrite G in P. exact P.
    + destruct (i_none _ _ I H) as [_ N]. specialize (N i). unfold get_ptr in N. congruence.
  - intros h H G. specialize (P h H). unfold get_ptr in P. rewrite G in P. eexists. exact P.
Qed.
Lemma by_name_unknown s a : reachable k w s -> (forall n, a = Some n -> ~ In (c_str n) (k_names k)) ->
  exists s', call k w (LoadSymbolName a) s = Ok (VBool false, s') /\ s_ptrs s' = s_ptrs s /\ s_errbuf s' <> [] /\
    exists m, s_trace s' = EvError m :: s_trace s.
Proof.
  intros R N. destruct (load_name_unknown k w K (c_arg a) s (reachable_inv k w K s R)) as (s' & Q & _ & _ & _ & P & T & E).
  { intros (n & Hn & Hin). destruct a as [a|]; [|easy]. cbn in Hn. injection Hn as Hn. apply (N a eq_refl). now rewrite Hn. }
  exists s'. cbn [call]. rewrite Q. split; [easy|]. split; [easy|]. split; [easy|]. eexists. exact T.
Qed.
(** by number *)
Lemma by_number s num : reachable k w s ->
  exists b s', call k w (LoadSymbol num) s = Ok (VBool b, s') /\
    match s_handle s, (if (num <? 0)%Z then None else nth_error (k_names k) (Z.to_nat num)) with
    | Some h, Some n =>
        (forall j, j <> Z.to_nat num -> nth j (s_ptrs s') None = nth j (s_ptrs s) None) /\
        (b = true <-> nth (Z.to_nat num) (s_ptrs s') None <> None) /\
        exists m, nth (Z.to_nat num) (s_ptrs s') None = match nth (Z.to_nat num) (s_ptrs s) None with Some p => Some p | None => w_sym w (EvError m :: s_trace s) h n end
    | _, _ => b = false /\ s_ptrs s' = s_ptrs s /\ s_errbuf s' <> []
    end.
Proof.
  intros R. assert (I := reachable_inv k w K s R). cbn [call]. unfold load_symbol. assert (I1 := clear_inv k w K s I).
  unfold lib_is_loaded. destruct (s_handle (clear_error w s)) as [h|] eqn:H; cbn [negb]; pose proof H as H0; cbn in H0; rewrite H0.
  2:{ eexists false, _. split; [reflexivity|]. split; [easy|]. split; [easy|]. now apply print_nonempty. }
  destruct (if (num <? 0)%Z then None else nth_error (k_names k) (Z.to_nat num)) as [n|] eqn:E.
  - assert (Hn : nth_error (k_names k) (Z.to_nat num) = Some n) by now destruct (num <? 0)%Z.
    destruct (load_one_ok k w K _ _ _ _ H Hn I1 eq_refl) as (b & s' & Q & _ & X1 & X2 & X3). exists b, s'. rewrite Q. split; [easy|].
    split; [exact X2|]. split; [exact X1|]. eexists. exact X3.
  - eexists false, _. split; [reflexivity|]. split; [easy|]. split; [easy|]. now apply print_nonempty.
Qed.

(* ------------------------------------------------------------ C40 *)
Lemma wrapped s i n args : reachable k w s -> lib_printable k -> nth_error (k_names k) i = Some n -> s_end s = None ->
  exists s', call k w (Wrapped i args) s = Ok (VNone, s') /\
    ((exists p h l new, s_end s' = None /\ s_trace s' = EvCall p args :: new ++ s_trace s /\ Forall silent new /\
        s_handle s' = Some h /\ session (new ++ s_trace s) = Some (h, l) /\ last_answer h n l = Some p) \/
     (exists head msg pre post, s_end s' <> None /\ Forall silent pre /\ Forall silent post /\
        s_trace s' = post ++ EvPrint (head ++ $": " ++ n ++ $": " ++ msg ++ [nl]) :: pre ++ s_trace s)).
Proof.
  intros R P Hn N. assert (I := reachable_inv k w K s R). cbn [call]. unfold wrapped_call. rewrite Hn.
  assert (W := wrap_facts k w K i n s I Hn). destruct (wrap_check_loaded k w i n s) as [[b s1]| | |]; try easy. cbn [outcome bind] in *.
  destruct W as (I1 & T & F). destruct b.
  - destruct (T eq_refl) as ((E & new & A & S) & G & _ & _). destruct (get_ptr i s1) as [p|] eqn:Gp; [|easy]. cbn [bind snd].
    eexists. split; [reflexivity|]. left.
    destruct (s_handle s1) as [h|] eqn:H; [|destruct (i_none _ _ I1 H) as [_ X]; rewrite (X i) in Gp; easy].
    destruct (i_some _ _ I1 h H) as (_ & l & Se & L & _). unfold added in A.
    exists p, h, l, new. cbn [log s_end s_trace s_handle]. rewrite <- A. repeat split; auto; [congruence|]. rewrite <- Gp. symmetry. now apply L.
  - destruct (F eq_refl) as (_ & E & X). destruct (X P) as (msg & (pre & post & head & Tr & S1 & S2) & _). eexists. split; [reflexivity|]. right.
    exists head, msg, pre, post. cbn [snd]. repeat split; auto. destruct (k_auto k); [congruence| |]; destruct E; congruence.
Qed.
Lemma no_undefined ops : lib_printable k -> exists s, run k w ops = Ok s.
Proof. intros P. assert (F := run_facts k w K ops). destruct (run k w ops) as [s| | |]; try easy. now exists s. Qed.

(* ------------------------------------------------------------ C41 *)
Lemma registered_once s : reachable k w s -> registrations (s_trace s) <= 1.
Proof. intros R. rewrite (i_reg _ _ (reachable_inv k w K s R)). destruct (s_reg s); lia. Qed.
Lemma end_cases ops s c : run k w ops = Ok s -> s_end s = Some (Exited c) -> registrations (s_trace s) = 1 -> s_handle s = None.
Proof.
  revert s. induction ops as [|o ops IH] using rev_ind; intros s R E G.
  - injection R as <-. discriminate.
  - rewrite run_app in R. destruct (run k w ops) as [s0| | |] eqn:R0; try discriminate. cbn [bind] in R.
    assert (I0 : CRuntimeFacts.inv k s0) by (assert (F := run_facts k w K ops); rewrite R0 in F; apply F).
    destruct (s_end s0) as [e|] eqn:E0.
    { rewrite (end_stays k w o s0 e E0) in R. injection R as <-. now apply IH. }
    unfold step in R. rewrite E0 in R. assert (C := call_facts k w K o s0 I0 E0). destruct (call k w o s0) as [[v s1]| | |] eqn:Cl; try discriminate. cbn in R. injection R as <-.
    assert (FN : forall s', frame s0 s' \/ quietly s0 s' -> s_end s' = None) by (intros s' [F|F]; destruct F as [F1 F2]; [destruct F2; congruence|congruence]).
    assert (AF : forall f fl ns, s_end (snd (load_lib_args k w f fl ns s0)) = None).
    { intros f fl ns. apply FN. right. assert (X := load_args_facts k w K f fl ns s0 I0). destruct (load_lib_args k w f fl ns s0). apply X. }
    assert (TS : forall f fl ns, then_symbols k w (load_lib_args k w f fl ns s0) = Ok (v, s1) -> s_end s1 = None).
    { intros f fl ns. assert (X := AF f fl ns). assert (Y := load_args_inv k w K f fl ns s0 I0). unfold then_symbols. destruct (load_lib_args k w f fl ns s0) as [[] s2]; cbn [snd] in *.
      - destruct (load_all_ok k w K s2 Y) as (b & s3 & Q & (_ & L & _) & _). rewrite Q. cbn. intros [= _ <-]. destruct L as (_ & L & _). congruence.
      - now intros [= _ <-]. }
    destruct o; cbn [call] in Cl; try (injection Cl as _ <-; unfold load_lib, load_lib_name in E; rewrite AF in E; discriminate); try (rewrite (TS _ _ _ Cl) in E; discriminate).
    + injection Cl as _ <-. congruence.
    + injection Cl as _ <-. rewrite FN in E; [discriminate|]. right. assert (X := free_facts k w K s0 I0). destruct (free_lib k w s0). apply X.
    + injection Cl as _ <-. rewrite FN in E; [discriminate|]. right. apply (force_facts k w K s0 I0).
    + injection Cl as _ <-. rewrite FN in E; [discriminate|]. left. apply frame_autorelease.
    + destruct (load_all_ok k w K s0 I0) as (b & s3 & Q & (_ & L & _) & _). rewrite Q in Cl. injection Cl as _ <-. rewrite FN in E; [discriminate|now left].
    + destruct (load_symbol_ok k w K num s0 I0) as (b & s3 & Q & (_ & L & _)). rewrite Q in Cl. injection Cl as _ <-. rewrite FN in E; [discriminate|now left].
    + destruct (load_name_ok k w K (c_arg symbol) s0 I0) as (b & s3 & Q & (_ & L & _)). rewrite Q in Cl. injection Cl as _ <-. rewrite FN in E; [discriminate|now left].
    + injection Cl as _ <-. congruence.
    + injection Cl as _ <-. congruence.
    + injection Cl as _ <-. congruence.
    + destruct (last_error_frame k K s0) as (L & _). destruct (last_error k s0). cbn [snd] in L. injection Cl as _ <-. rewrite FN in E; [discriminate|now left].
    + destruct (library_path_ok k w K s0 I0) as (r & s3 & Q & _ & L & _). rewrite Q in Cl. injection Cl as _ <-. rewrite FN in E; [discriminate|now left].
    + unfold wrapped_call in Cl. destruct (nth_error (k_names k) i) as [n|] eqn:Hn; [|injection Cl as _ <-; congruence].
      assert (W := wrap_facts k w K i n s0 I0 Hn). destruct (wrap_check_loaded k w i n s0) as [[b s2]| | |]; try discriminate. cbn [outcome bind] in *.
      destruct W as (I1 & T & F). destruct b.
      * destruct (T eq_refl) as (Q & _). destruct (get_ptr i s2); [|discriminate]. injection Cl as _ <-. cbn in E. rewrite FN in E; [discriminate|now right].
      * injection Cl as _ <-. destruct (F eq_refl) as (_ & X & _). cbn in *. destruct (k_auto k); [congruence| |]; apply X.
    + injection Cl as _ <-. cbn [exit_program with_end s_handle s_trace] in *. destruct (handlers_facts k w K s0 I0) as ((_ & new & A & _) & H & _). rewrite H.
      destruct (s_reg s0) eqn:Rg; [easy|]. rewrite (handlers_once k w s0 I0), Rg in G. rewrite (i_reg _ _ I0), Rg in G. discriminate.
Qed.

(* ------------------------------------------------------------ C42 *)
Lemma buffers s : reachable k w s ->
  length (s_errbuf s) < k_buflen k /\ c_str (s_errbuf s) = s_errbuf s /\ length (s_libpath s) < k_buflen k /\ c_str (s_libpath s) = s_libpath s.
Proof. intros R. assert (I := reachable_inv k w K s R). split; [apply (i_err _ _ I)|]. split; [apply (i_err _ _ I)|]. apply (i_path _ _ I). Qed.

(* ------------------------------------------------------------ C50 *)
Lemma autoload_message s i n args : reachable k w s -> lib_printable k -> 22 <= k_buflen k -> k_auto k <> AutoOff ->
  nth_error (k_names k) i = Some n -> s_end s = None -> s_handle s = None -> (forall t, w_open w t (k_lib k) (k_flags k) false = None) ->
  exists s' head pre post, call k w (Wrapped i args) s = Ok (VNone, s') /\ s_end s' = Some (Exited 1) /\ Forall silent pre /\ Forall silent post /\
    s_trace s' = post ++ EvPrint (head ++ $": " ++ n ++ $": no library was loaded" ++ [nl]) :: pre ++ s_trace s.
Proof.
  intros R P B A Hn N H O. assert (I := reachable_inv k w K s R). cbn [call]. unfold wrapped_call. rewrite Hn.
  assert (W := wrap_facts k w K i n s I Hn).
  assert (G : get_ptr i s = None) by now apply (i_none _ _ I H).
  assert (PR : s_handle (prepare k w s) = None).
  { unfold prepare. assert (F := frame_autorelease k w s). destruct F as (F & _). rewrite H in F. set (s1 := snd (enable_autorelease k w s)) in *.
    unfold lib_is_loaded. rewrite F. unfold load_lib, load_lib_name, load_lib_args, lib_is_loaded. cbn [clear_error call_error snd with_errbuf log s_handle]. rewrite F.
    destruct (k_lib k) as [|c l] eqn:L; [cbn; exact F|]. unfold load_library. rewrite andb_false_r. rewrite O. cbn [with_handle s_handle snd].
    unfold save_error, call_error, save_to_errbuf. now destruct (w_error _ _). }
  destruct (wrap_check_loaded k w i n s) as [[b s1]| | |]; try easy. cbn [outcome bind] in *. destruct W as (I1 & T & F).
  assert (b = false).
  { destruct b; [|easy]. destruct (T eq_refl) as (_ & _ & _ & X). now elim (X A G). }
  subst b. destruct (F eq_refl) as (_ & E & X). destruct (X P) as (msg & (pre & post & head & Tr & S1 & S2) & _ & M). specialize (M A PR B). subst msg.
  exists s1, head, pre, post. split; [reflexivity|]. split; [destruct (k_auto k); [now elim A|apply E|apply E]|]. split; [easy|]. split; [easy|]. exact Tr.
Qed.

(* ------------------------------------------------------------ C54 *)
Lemma name_keeps s a i p s' v : reachable k w s -> call k w (LoadSymbolName a) s = Ok (v, s') -> nth i (s_ptrs s) None = Some p -> nth i (s_ptrs s') None = Some p.
Proof.
  intros R C G. assert (I := reachable_inv k w K s R).
  destruct a as [a|].
  - destruct (in_dec (list_eq_dec ascii_dec) (c_str a) (k_names k)) as [X|X].
    + destruct (In_nth_error _ _ X) as [j Hj]. destruct (by_name_known s j (c_str a) R Hj) as (b & s2 & C' & O & _ & S & _).
      cbn [call c_arg option_map] in C, C'. rewrite c_str_id in C'. rewrite C' in C. injection C as _ <-.
      destruct (Nat.eq_dec i j) as [->|Nij]; [now apply S|]. now rewrite O.
    + destruct (by_name_unknown s (Some a) R) as (s2 & C' & P & _); [intros n [= <-]; easy|]. rewrite C' in C. injection C as _ <-. now rewrite P.
  - destruct (by_name_unknown s None R) as (s2 & C' & P & _); [easy|]. rewrite C' in C. injection C as _ <-. now rewrite P.
Qed.
Lemma number_keeps s num i p s' v : reachable k w s -> call k w (LoadSymbol num) s = Ok (v, s') -> nth i (s_ptrs s) None = Some p -> nth i (s_ptrs s') None = Some p.
Proof.
  intros R C G. destruct (by_number s num R) as (b & s2 & C' & M). rewrite C' in C. injection C as _ <-.
  destruct (s_handle s) as [h|]; [|destruct M as (_ & -> & _); exact G].
  destruct (if (num <? 0)%Z then None else nth_error (k_names k) (Z.to_nat num)) as [n|]; [|destruct M as (_ & -> & _); exact G].
  destruct M as (O & _ & t & E). destruct (Nat.eq_dec i (Z.to_nat num)) as [->|N]; [rewrite E, G; easy|now rewrite O].
Qed.
Lemma pointers_stay s o v s' i p : reachable k w s -> drops k o = false -> call k w o s = Ok (v, s') -> nth i (s_ptrs s) None = Some p ->
  nth i (s_ptrs s') None = Some p.
Proof.
  intros R D C G. assert (I := reachable_inv k w K s R).
  assert (H : s_handle s <> None) by (intros H; destruct (i_none _ _ I H) as [_ N]; specialize (N i); unfold get_ptr in N; congruence).
  destruct o; try discriminate.
  1,2,3,4,5: match type of C with call _ _ ?o _ = _ => destruct (open_when_loaded s o R eq_refl H) as (s2 & C' & _ & P & _) end; rewrite C' in C; injection C as _ <-; now rewrite P.
  - injection C as _ <-. exact G.
  - cbn [call] in C. injection C as _ <-. unfold enable_autorelease. cbn [snd]. destruct (s_reg _); [exact G|]. destruct (w_atexit _ _); exact G.
  - now apply (number_keeps s num i p s' v).
  - now apply (name_keeps s symbol i p s' v).
  - injection C as _ <-. exact G.
  - injection C as _ <-. exact G.
  - injection C as _ <-. exact G.
  - cbn [call] in C. unfold last_error in C. destruct (s_errbuf s); injection C as _ <-; exact G.
  - cbn [call] in C. destruct (library_path_ok k w K s I) as (r & s3 & Q & _ & _ & P & _). rewrite Q in C. injection C as _ <-. now rewrite P.
  - cbn [drops] in D. destruct (k_auto k) eqn:A; try discriminate. cbn [call] in C. unfold wrapped_call in C. destruct (nth_error (k_names k) i0) as [n|]; [|injection C as _ <-; exact G].
    unfold wrap_check_loaded in C. destruct (get_ptr i0 s) as [q|] eqn:Gq.
    + cbn [bind] in C. rewrite Gq in C. injection C as _ <-. exact G.
    + rewrite A in C. unfold print_error in C. destruct (format_s _ _); try discriminate. injection C as _ <-. exact G.
Qed.

(* ------------------------------------------------------------ C52 *)
Lemma path_current s p s' : reachable k w s -> call k w LibraryPath s = Ok (VStr (Some p), s') -> p <> [] ->
  exists h l, s_handle s' = Some h /\ s_handle s = Some h /\ session (s_trace s') = Some (h, l) /\ named_path h p l.
Proof.
  intros R C N. destruct (library_path_ok k w K s (reachable_inv k w K s R)) as (r2 & s2 & Q & I2 & F & _ & A & _). cbn [call] in C. rewrite Q in C. cbn in C.
  injection C as -> ->. destruct A as (_ & E & H); [discriminate|]. injection E as ->. destruct F as (Fh & _).
  destruct (s_handle s') as [h|] eqn:Hh; [|congruence]. destruct (i_some _ _ I2 h Hh) as (_ & l & Se & _ & [X|X]); [easy|]. exists h, l. auto.
Qed.
End K.

(** a configuration, and worlds that make the full claims fail *)
Definition demo (a : autoload) (lib : str) (b : nat) : rconf := mkrconf [$"foo_one"; $"foo_two"] $"foo_" lib 1%Z b true true true true a.
Lemma demo_ok a lib b : 2 <= b -> conf_ok (demo a lib b).
Proof.
  intros H. split; cbn; auto.
  - repeat constructor; cbn; intuition discriminate.
  - repeat constructor; discriminate.
  - repeat constructor; [now exists $"one"|now exists $"two"].
Qed.
Definition count (f : event -> bool) (t : list event) : nat := length (filter f t).
(** everything works; names are answered with 10 *)
Definition good : world := mkworld (fun _ _ _ _ => Some 1) (fun _ _ _ => Some 10) (fun _ _ => true) (fun _ => Some $"reason") (fun _ => true)
  (fun _ _ => Some (Some $"/lib/foo.so")) (fun _ _ => Some (Some $"/lib/foo.so")) (fun _ => None).
Definition refusing : world := mkworld (w_open good) (w_sym good) (fun _ _ => false) (w_error good) (w_atexit good) (w_info good) (w_addr good) (w_maps good).
Definition long_path : world := mkworld (w_open good) (w_sym good) (w_close good) (w_error good) (w_atexit good)
  (fun _ _ => Some (Some $"/lib/x/foo.so")) (fun _ _ => Some (Some $"/lib/x/foo.so")) (w_maps good).
Definition mute : world := mkworld (w_open good) (fun _ _ _ => None) (w_close good) (fun _ => None) (w_atexit good) (w_info good) (w_addr good) (w_maps good).
Definition absent : world := mkworld (fun _ _ _ _ => None) (w_sym good) (w_close good) (fun _ => Some $"foo.so: cannot open shared object file") (w_atexit good) (w_info good) (w_addr good) (w_maps good).
(** the first symbol is not found the second time it is asked for *)
Definition fickle : world := mkworld (w_open good) (fun t _ n => if str_eqb n $"foo_one" then (if existsb (fun e => match e with EvSym _ _ _ => true | _ => false end) t then None else Some 10) else Some 11)
  (w_close good) (w_error good) (w_atexit good) (w_info good) (w_addr good) (w_maps good).

Lemma leak : exists k w ops s, conf_ok k /\ run k w ops = Ok s /\ s_handle s = None /\ opens (s_trace s) = 1 /\ closes (s_trace s) = 0.
Proof.
  exists (demo AutoOff $"foo.so" 100), refusing, [LoadLib; ForceFreeLib]. eexists. split; [apply demo_ok; lia|]. split; [vm_compute; reflexivity|]. repeat split; vm_compute; reflexivity.
Qed.
Lemma long_path_mute : exists k w ops s s', conf_ok k /\ explains w /\ run k w ops = Ok s /\ call k w LibraryPath s = Ok (VStr None, s') /\ s_errbuf s' = [].
Proof.
  exists (demo AutoOff $"foo.so" 12), long_path, [LoadLibAndSymbols]. do 2 eexists. split; [apply demo_ok; lia|]. split.
  { intros e t _. exists $"reason". split; [reflexivity|discriminate]. }
  split; [vm_compute; reflexivity|]. split; vm_compute; reflexivity.
Qed.
Lemma mute_failure : exists k w ops s s', conf_ok k /\ run k w ops = Ok s /\ call k w LoadAllSymbols s = Ok (VBool false, s') /\ s_errbuf s' = [] /\
  exists s2, call k w LastError s' = Ok (VStr (Some $"no error"), s2).
Proof.
  exists (demo AutoOff $"foo.so" 100), mute, [LoadLib]. do 2 eexists. split; [apply demo_ok; lia|]. split; [vm_compute; reflexivity|]. split; [vm_compute; reflexivity|].
  split; [vm_compute; reflexivity|]. eexists. vm_compute. reflexivity.
Qed.
Lemma percent_name : exists k w ops, conf_ok k /\ k_lib k = $"foo%n.so" /\ run k w ops = UB.
Proof. exists (demo AutoAll $"foo%n.so" 100), absent, [Wrapped 0 [1]]. split; [apply demo_ok; lia|]. split; vm_compute; reflexivity. Qed.
Lemma reason_lost : exists k w s', conf_ok k /\ run k w [Wrapped 0 []] = Ok s' /\
  (forall t, w_error w t = Some $"foo.so: cannot open shared object file") /\
  In (EvPrint $"error: foo.so: foo_one: no library was loaded
") (s_trace s').
Proof.
  exists (demo AutoAll $"foo.so" 100), absent. eexists. split; [apply demo_ok; lia|]. split; [vm_compute; reflexivity|]. split; [reflexivity|]. vm_compute. auto 10.
Qed.
Lemma pointer_lost : exists k w ops s s', conf_ok k /\ run k w ops = Ok s /\ nth 0 (s_ptrs s) None = Some 10 /\
  call k w LoadAllSymbols s = Ok (VBool false, s') /\ nth 0 (s_ptrs s') None = None /\ s_handle s' = s_handle s.
Proof.
  exists (demo AutoOff $"foo.so" 100), fickle, [LoadLib; LoadSymbol 0%Z]. do 2 eexists. split; [apply demo_ok; lia|].
  split; [vm_compute; reflexivity|]. split; [vm_compute; reflexivity|]. split; [vm_compute; reflexivity|]. split; vm_compute; reflexivity.
Qed.

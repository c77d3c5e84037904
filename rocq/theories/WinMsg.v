(** Proofs for C81 to C83: messages. *)
From Coq Require Import Ascii String List Bool Arith ZArith NArith Lia ZifyBool ZifyNat ZifyN.
From Verif Require Import Str StrFacts CRuntime SpecCRuntime CRuntimeFacts CRuntimeFacts2 CRuntimeProps CRuntimeProps2 CRuntimeProps3 WinRuntime SpecWin WinSim WinProps.
Import ListNotations.

Section Messages.
Variables (k : wconf) (w : wworld).

Lemma last_error_text s : g_last_error k w s = match g_formatted s with
  | _ :: _ => (g_formatted s, s)
  | [] => let m := in_buffer (x_fbuf k) (about w (g_errbuf s) (g_errno s)) in (m, g_with_error (g_errbuf s) m (g_errno s) s) end.
Proof.
  unfold g_last_error. destruct (g_formatted s); [|easy]. unfold about, system_text, cut, in_buffer. destruct (v_format w (g_errno s)); destruct (g_errbuf s); reflexivity.
Qed.
Definition told (s : wst) : Prop := g_formatted s = [] \/ g_formatted s = in_buffer (x_fbuf k) (about w (g_errbuf s) (g_errno s)).
Lemma told_clear s : told (g_clear_error s).
Proof. now left. Qed.
Lemma told_save m s : told (g_save_to_errbuf k m s).
Proof. now left. Qed.
Lemma told_save_error m s : told (g_save_error k w m s).
Proof. now left. Qed.
Lemma told_last s : told s -> told (snd (g_last_error k w s)) /\ fst (g_last_error k w s) = in_buffer (x_fbuf k) (about w (g_errbuf s) (g_errno s)).
Proof. intros T. rewrite last_error_text. destruct (g_formatted s) eqn:F; [split; [now right|easy]|]. destruct T as [T|T]; [congruence|]. split; [now right|]. cbn [fst]. congruence. Qed.

(** calls that leave no formatted message *)
Definition fresh (s : wst) : Prop := g_formatted s = [].
Lemma fresh_args f fl s : fresh (snd (g_load_lib_args k w f fl s)).
Proof.
  unfold g_load_lib_args. destruct (g_lib_is_loaded (g_clear_error s)); [easy|]. destruct f as [[|c f]|]; try easy. unfold g_load_library, g_load_library_ex.
  destruct (x_convert k && negb (x_wide k) && _); [easy|]. destruct (v_open w _ _ fl); easy.
Qed.
Lemma fresh_force s : fresh (g_force_free_lib k w s).
Proof. unfold g_force_free_lib. now destruct (g_handle (g_clear_error s)). Qed.
Lemma fresh_free s : fresh (snd (g_free_lib k w s)).
Proof. unfold g_free_lib. destruct (g_handle (g_clear_error s)); [|easy]. destruct (g_call_close w p (g_clear_error s)) as [[|] s1] eqn:E; [|easy]. unfold g_call_close in E. injection E as _ <-. easy. Qed.
Lemma fresh_auto s : fresh (snd (g_enable_autorelease k w s)).
Proof. unfold g_enable_autorelease. destruct (g_reg (g_clear_error s)); [easy|]. destruct (v_atexit w _); easy. Qed.
Lemma fresh_sym n s p s' : fresh s -> g_sym k w n s = Ok (p, s') -> fresh s'.
Proof. intros F. unfold g_sym. destruct (g_handle s); [|easy]. destruct (v_sym w _ _ n); intros [= <- <-]; [exact F|easy]. Qed.
Lemma fresh_symbols names : forall i s b s', fresh s -> g_load_symbols k w names i s = Ok (b, s') -> fresh s'.
Proof.
  induction names as [|n names IH]; intros i s b s' F E; [now injection E as _ <-|]. cbn [g_load_symbols] in E. destruct (g_sym k w n s) as [[p s1]| | |] eqn:G; try discriminate. cbn [bind] in E.
  apply fresh_sym in G; [|exact F]. destruct p; [apply (IH _ _ _ _ (G : fresh (g_set_ptr i (Some p) s1)) E)|now injection E as _ <-].
Qed.
Lemma fresh_all s b s' : g_load_all_symbols k w s = Ok (b, s') -> fresh s'.
Proof.
  unfold g_load_all_symbols. destruct (g_all_loaded (g_clear_error s)); [now intros [= _ <-]|]. destruct (g_lib_is_loaded (g_clear_error s)); [|now intros [= _ <-]]. now apply fresh_symbols.
Qed.
Lemma fresh_one i n s b s' : fresh s -> g_load_one k w i n s = Ok (b, s') -> fresh s'.
Proof.
  intros F. unfold g_load_one. destruct (g_get_ptr i s); [now intros [= _ <-]|]. destruct (g_sym k w n s) as [[p s1]| | |] eqn:G; try discriminate. cbn [bind]. intros [= _ <-]. now apply fresh_sym in G.
Qed.
Lemma fresh_number n s b s' : g_load_symbol k w n s = Ok (b, s') -> fresh s'.
Proof.
  unfold g_load_symbol. destruct (negb (g_lib_is_loaded (g_clear_error s))); [now intros [= _ <-]|]. destruct (if (n <? 0)%Z then None else _); [now apply fresh_one|now intros [= _ <-]].
Qed.
Lemma fresh_find names : forall i n s r b s', fresh s -> g_find_symbol k w names i n s = Some r -> r = Ok (b, s') -> fresh s'.
Proof.
  induction names as [|c names IH]; intros i n s r b s' F E1 E2; [easy|]. cbn [g_find_symbol] in E1.
  destruct (Nat.eqb (length n) (length c) && str_eqb (skipn (length (k_prefix k)) n) (skipn (length (k_prefix k)) c)); [injection E1 as <-; now apply fresh_one in E2|exact (IH _ _ _ _ _ _ F E1 E2)].
Qed.
Lemma fresh_name n s b s' : g_load_symbol_name k w n s = Ok (b, s') -> fresh s'.
Proof.
  unfold g_load_symbol_name. destruct (negb (g_lib_is_loaded (g_clear_error s))); [now intros [= _ <-]|]. destruct n as [[|c n]|]; try (now intros [= _ <-]).
  destruct (Nat.eqb (length (k_prefix k)) 0 || starts_with (k_prefix k) (c :: n)); [|now intros [= _ <-]].
  destruct (g_find_symbol k w (k_names k) 0 (c :: n) (g_clear_error s)) eqn:E; [|now intros [= _ <-]]. intros H. now apply (fresh_find _ _ _ _ _ _ _ (eq_refl : fresh (g_clear_error s)) E H).
Qed.
Lemma fresh_path s : fresh (snd (g_library_path k w s)).
Proof.
  unfold g_library_path. destruct (g_handle (g_clear_error s)); [|easy]. destruct (g_libpath (g_clear_error s)); [|easy].
  destruct (Nat.eqb (length _) 0 || Nat.leb (k_buflen k) (length _)); easy.
Qed.
Lemma fresh_then x v s' : fresh (snd x) -> g_then_symbols k w x = Ok (v, s') -> fresh s'.
Proof.
  destruct x as [[|] s]; cbn [g_then_symbols snd]; intros F; [|now intros [= _ <-]]. destruct (g_load_all_symbols k w s) as [[b s1]| | |] eqn:E; try discriminate. intros [= _ <-]. now apply fresh_all in E.
Qed.
Lemma ended_exit c s : g_end (g_exit_program k w c s) <> None.
Proof. discriminate. Qed.
Lemma told_check i n s b s' : told s -> g_check_loaded k w i n s = Ok (b, s') -> g_end s' = None -> told s'.
Proof.
  intros T. unfold g_check_loaded. destruct (g_get_ptr i s); [now intros [= _ <-]|]. destruct (k_auto k).
  - unfold g_print_error. destruct (format_s _ _); try discriminate. cbn [bind]. destruct (x_box k); intros [= _ <-]; discriminate.
  - cbv zeta. set (s2 := if g_lib_is_loaded _ then _ else _). clearbody s2. destruct (g_load_all_symbols k w s2) as [[ok s3]| | |] eqn:E; try discriminate. cbn [bind]. destruct ok; [intros [= _ <-] _; left; now apply fresh_all in E|].
    destruct (g_last_error k w s3) as [m s4]. destruct (find (k_lib k) m); (destruct (g_print_error k _ n m s4); try discriminate; cbn [bind]; intros [= _ <-]; discriminate).
  - cbv zeta. set (s2 := if g_lib_is_loaded _ then _ else _). clearbody s2. destruct (g_load_symbol k w (Z.of_nat i) s2) as [[ok s3]| | |] eqn:E; try discriminate. cbn [bind]. destruct ok; [intros [= _ <-] _; left; now apply fresh_number in E|].
    destruct (g_last_error k w s3) as [m s4]. destruct (find (k_lib k) m); (destruct (g_print_error k _ n m s4); try discriminate; cbn [bind]; intros [= _ <-]; discriminate).
Qed.
Lemma told_call o s v s' : told s -> g_call k w o s = Ok (v, s') -> g_end s' = None -> told s'.
Proof.
  intros T. destruct o as [| |f|f|f fl ns| | | | | |n|n| | | | | |i args|c]; cbn [g_call]; intros E F.
  - injection E as _ <-. left. apply fresh_args.
  - left. apply fresh_then in E; [exact E|apply fresh_args].
  - injection E as _ <-. left. apply fresh_args.
  - left. apply fresh_then in E; [exact E|apply fresh_args].
  - injection E as _ <-. left. apply fresh_args.
  - now injection E as _ <-.
  - injection E as _ <-. left. apply fresh_free.
  - injection E as _ <-. left. apply fresh_force.
  - injection E as _ <-. left. apply fresh_auto.
  - destruct (g_load_all_symbols k w s) as [[b s1]| | |] eqn:G; try discriminate. injection E as _ <-. left. now apply fresh_all in G.
  - destruct (g_load_symbol k w n s) as [[b s1]| | |] eqn:G; try discriminate. injection E as _ <-. left. now apply fresh_number in G.
  - destruct (g_load_symbol_name k w (c_arg n) s) as [[b s1]| | |] eqn:G; try discriminate. injection E as _ <-. left. now apply fresh_name in G.
  - now injection E as _ <-.
  - now injection E as _ <-.
  - now injection E as _ <-.
  - pose proof (proj1 (told_last s T)) as X. destruct (g_last_error k w s). now injection E as _ <-.
  - pose proof (fresh_path s) as X. destruct (g_library_path k w s). injection E as _ <-. now left.
  - unfold g_wrapped in E. destruct (nth_error (k_names k) i) as [n|]; [|now injection E as _ <-]. destruct (g_check_loaded k w i n s) as [[b s1]| | |] eqn:G; try discriminate. cbn [bind] in E. destruct b.
    + destruct (g_get_ptr i s1) eqn:P; try discriminate. injection E as _ <-. exact (told_check _ _ _ _ _ T G F).
    + injection E as _ <-. exact (told_check _ _ _ _ _ T G F).
  - injection E as _ <-. discriminate F.
Qed.
Lemma told_run ops : forall s, g_run k w ops = Ok s -> g_end s = None -> told s.
Proof.
  induction ops as [|o ops IH] using rev_ind; intros s E F; [injection E as <-; now left|]. unfold g_run in *. rewrite fold_left_app in E. cbn [fold_left] in E.
  destruct (fold_left _ ops (Ok (g_init k))) as [s0| | |]; try discriminate. cbn [bind] in E. unfold g_step in E. destruct (g_end s0) eqn:N; [injection E as <-; congruence|].
  destruct (g_call k w o s0) as [[v s1]| | |] eqn:C; try discriminate. injection E as <-. cbn [snd] in F. exact (told_call _ _ _ _ (IH _ eq_refl N) C F).
Qed.
Theorem last_error_says s : wreachable k w s -> g_end s = None ->
  exists s', g_call k w LastError s = Ok (VStr (Some (in_buffer (x_fbuf k) (about w (g_errbuf s) (g_errno s)))), s') /\ same_library s s' /\ g_errbuf s' = g_errbuf s /\ g_errno s' = g_errno s.
Proof.
  intros [ops H] E. pose proof (told_run _ _ H E) as T. destruct (told_last s T) as [_ B]. cbn [g_call]. destruct (g_last_error k w s) as [m s'] eqn:G. cbn [fst] in B. subst m. exists s'. split; [reflexivity|].
  rewrite last_error_text in G. destruct (g_formatted s); [injection G as <-|injection G as _ <-]; repeat split.
Qed.

(* ------------------------------------------------------------ failures *)
Lemma sym_msg n s p s' : g_sym k w n s = Ok (p, s') -> match p with Some _ => g_errbuf s' = g_errbuf s /\ g_errno s' = g_errno s /\ g_formatted s' = g_formatted s | None => system_failed k w s' end.
Proof.
  unfold g_sym. destruct (g_handle s) as [h|]; [|easy]. destruct (v_sym w (g_trace s) h n) as [p0|] eqn:V; intros [= <- <-]; [easy|]. exists (EvSym h n None), n, (g_trace s). repeat split.
Qed.
Lemma symbols_msg names : forall i s b s', quiet s -> g_load_symbols k w names i s = Ok (b, s') -> if b then quiet s' else system_failed k w s'.
Proof.
  induction names as [|n names IH]; intros i s b s' F E; [now injection E as <- <-|]. cbn [g_load_symbols] in E. destruct (g_sym k w n s) as [[p s1]| | |] eqn:G; try discriminate. cbn [bind] in E.
  apply sym_msg in G. destruct p as [p|].
  - destruct G as (A & B & C). destruct F as (F1 & F2 & F3). apply (IH _ _ _ _ (conj (eq_trans A F1) (conj (eq_trans B F2) (eq_trans C F3)) : quiet (g_set_ptr i (Some p) s1)) E).
  - injection E as <- <-. exact G.
Qed.
Lemma all_msg s b s' : g_load_all_symbols k w s = Ok (b, s') ->
  if b then quiet s' else match g_handle s with None => said k s' ($"no library was loaded", 6%N) | Some _ => system_failed k w s' end.
Proof.
  unfold g_load_all_symbols. destruct (g_all_loaded (g_clear_error s)); [now intros [= <- <-]|]. unfold g_lib_is_loaded. change (g_handle (g_clear_error s)) with (g_handle s). destruct (g_handle s).
  - intros E. apply (symbols_msg _ _ _ _ _ (conj eq_refl (conj eq_refl eq_refl) : quiet (g_clear_error s)) E).
  - now intros [= <- <-].
Qed.
Lemma one_msg i n s b s' : quiet s -> g_load_one k w i n s = Ok (b, s') -> if b then quiet s' else system_failed k w s'.
Proof.
  intros F. unfold g_load_one. destruct (g_get_ptr i s); [now intros [= <- <-]|]. destruct (g_sym k w n s) as [[p s1]| | |] eqn:G; try discriminate. cbn [bind]. intros [= <- <-].
  apply sym_msg in G. destruct p; cbn [non_null]; [|exact G]. destruct G as (A & B & C). destruct F as (F1 & F2 & F3). exact (conj (eq_trans A F1) (conj (eq_trans B F2) (eq_trans C F3))).
Qed.
Lemma number_msg n s b s' : g_load_symbol k w n s = Ok (b, s') ->
  if b then quiet s' else match own_failure k w (LoadSymbol n) s with Some m => said k s' m | None => system_failed k w s' end.
Proof.
  unfold g_load_symbol, g_lib_is_loaded, own_failure. change (g_handle (g_clear_error s)) with (g_handle s). destruct (g_handle s); cbn [negb]; [|now intros [= <- <-]].
  destruct (Z.ltb_spec n 0); [now intros [= <- <-]|]. cbn [orb]. destruct (nth_error (k_names k) (Z.to_nat n)) as [c|] eqn:N.
  - assert (L : Z.to_nat n < length (k_names k)) by (apply nth_error_Some; congruence). replace (Z.of_nat (length (k_names k)) <=? n)%Z with false by lia. apply one_msg. easy.
  - apply nth_error_None in N. replace (Z.of_nat (length (k_names k)) <=? n)%Z with true by lia. now intros [= <- <-].
Qed.
Lemma find_msg names : forall i n s r b s', quiet s -> g_find_symbol k w names i n s = Some r -> r = Ok (b, s') -> if b then quiet s' else system_failed k w s'.
Proof.
  induction names as [|c names IH]; intros i n s r b s' F E1 E2; [easy|]. cbn [g_find_symbol] in E1.
  destruct (Nat.eqb (length n) (length c) && str_eqb (skipn (length (k_prefix k)) n) (skipn (length (k_prefix k)) c)); [injection E1 as <-; now apply one_msg in E2|exact (IH _ _ _ _ _ _ F E1 E2)].
Qed.
Lemma find_none names : forall i n s, g_find_symbol k w names i n s = None -> ~ In n names.
Proof.
  induction names as [|c names IH]; intros i n s E; [easy|]. cbn [g_find_symbol] in E. intros [I|I].
  - subst c. rewrite Nat.eqb_refl, str_eqb_refl in E. discriminate E.
  - destruct (Nat.eqb (length n) (length c) && str_eqb (skipn (length (k_prefix k)) n) (skipn (length (k_prefix k)) c)); [discriminate|]. now apply IH in E.
Qed.
Lemma find_some names n : starts_with (k_prefix k) n = true -> Forall (fun n => exists r, n = k_prefix k ++ r) names -> forall i s r, g_find_symbol k w names i n s = Some r -> In n names.
Proof.
  intros P. induction 1 as [|c names Pc _ IH]; intros i s r E; [easy|]. cbn [g_find_symbol] in E.
  destruct (Nat.eqb (length n) (length c) && str_eqb (skipn (length (k_prefix k)) n) (skipn (length (k_prefix k)) c)) eqn:T; [|right; exact (IH _ _ _ E)].
  left. apply andb_true_iff in T. destruct T as [_ T]. apply str_eqb_eq in T. destruct Pc as [r' ->].
  assert (Q : exists q, n = k_prefix k ++ q).
  { clear - P. revert n P. induction (k_prefix k) as [|a p IH]; intros n P; [now exists n|]. destruct n as [|b n]; [discriminate|]. cbn in P. apply andb_true_iff in P. destruct P as [P1 P2]. apply Ascii.eqb_eq in P1. subst b.
    destruct (IH _ P2) as [q ->]. now exists q. }
  destruct Q as [q ->]. rewrite !skipn_app, !skipn_all, !Nat.sub_diag in T. cbn in T. now rewrite T.
Qed.
Lemma name_msg (OK : conf_ok k) n s b s' : g_load_symbol_name k w (c_arg n) s = Ok (b, s') ->
  if b then quiet s' else match own_failure k w (LoadSymbolName n) s with Some m => said k s' m | None => system_failed k w s' end.
Proof.
  unfold g_load_symbol_name, g_lib_is_loaded, own_failure. change (g_handle (g_clear_error s)) with (g_handle s). destruct (g_handle s); cbn [negb]; [|now intros [= <- <-]].
  change (option_map c_str n) with (c_arg n). destruct (c_arg n) as [[|c m]|]; try (now intros [= <- <-]).
  assert (NI : ~ In (c :: m) (k_names k) -> existsb (str_eqb (c :: m)) (k_names k) = false).
  { intros N. apply not_true_is_false. intros X. apply existsb_exists in X. destruct X as (x & I & X). apply str_eqb_eq in X. now subst x. }
  assert (YI : In (c :: m) (k_names k) -> existsb (str_eqb (c :: m)) (k_names k) = true).
  { intros N. apply existsb_exists. exists (c :: m). split; [exact N|apply str_eqb_refl]. }
  destruct (Nat.eqb (length (k_prefix k)) 0 || starts_with (k_prefix k) (c :: m)) eqn:P.
  - assert (P' : starts_with (k_prefix k) (c :: m) = true) by (destruct (k_prefix k); [easy|exact P]).
    destruct (g_find_symbol k w (k_names k) 0 (c :: m) (g_clear_error s)) eqn:E.
    + rewrite YI by exact (find_some _ _ P' (ok_prefix k OK) _ _ _ E). intros H. apply (find_msg _ _ _ _ _ _ _ (conj eq_refl (conj eq_refl eq_refl) : quiet (g_clear_error s)) E H).
    + rewrite NI by exact (find_none _ _ _ _ E). now intros [= <- <-].
  - rewrite NI; [now intros [= <- <-]|]. intros I. pose proof (ok_prefix k OK) as F. rewrite Forall_forall in F. destruct (F _ I) as [r E]. apply orb_false_iff in P. destruct P as [_ P]. rewrite E in P.
    assert (X : forall x y, starts_with x (x ++ y) = true) by (intros x y; induction x as [|a x IHx]; [now destruct y|]; cbn; now rewrite Ascii.eqb_refl, IHx). now rewrite X in P.
Qed.
Definition own_open (f : option str) (s : wst) : option (str * N) :=
  match g_handle s with
  | Some _ => Some ($"library already loaded", 0%N)
  | None =>
      match f with
      | None | Some [] => Some ($"empty filename", 123%N)
      | Some f => if convertible k w f then None else Some (f, v_errno w (g_trace s))
      end
  end.
Lemma args_msg f fl s : let '(b, s') := g_load_lib_args k w f fl s in
  if b then quiet s' /\ g_handle s' <> None /\ own_open f s = None else match own_open f s with Some m => said k s' m | None => system_failed k w s' end.
Proof.
  unfold g_load_lib_args, g_lib_is_loaded, own_open. change (g_handle (g_clear_error s)) with (g_handle s). destruct (g_handle s) eqn:H; [easy|]. destruct f as [[|c f]|]; try easy.
  unfold g_load_library. rewrite name_sent. unfold g_load_library_ex. rewrite convertible_is. destruct (convertible k w (c :: f)); cbn [negb].
  - change (g_trace (g_clear_error s)) with (g_trace s). destruct (v_open w (g_trace s) (to_backslash (c :: f)) fl) as [h|] eqn:V; cbn [g_with_handle g_handle].
    + now repeat split.
    + exists (EvOpen (to_backslash (c :: f)) fl false None), (c :: f), (g_trace s). repeat split.
  - cbn [g_with_handle g_handle]. now split.
Qed.
Lemma then_msg f fl s v s' : g_then_symbols k w (g_load_lib_args k w f fl s) = Ok (VBool v, s') ->
  if v then quiet s' else match own_open f s with Some m => said k s' m | None => system_failed k w s' end.
Proof.
  pose proof (args_msg f fl s) as A. destruct (g_load_lib_args k w f fl s) as [b s1]. cbn [g_then_symbols]. destruct b; [|now intros [= <- <-]]. destruct A as (A & B & C). rewrite C.
  destruct (g_load_all_symbols k w s1) as [[b s2]| | |] eqn:E; try discriminate. cbn [bind fst snd]. intros [= <- <-]. apply all_msg in E. destruct b; [exact E|]. destruct (g_handle s1); [exact E|easy].
Qed.
Lemma plain_msg f fl s b s' : (let x := g_load_lib_args k w f fl s in Ok (VBool (fst x), snd x)) = Ok (VBool b, s') ->
  if b then quiet s' else match own_open f s with Some m => said k s' m | None => system_failed k w s' end.
Proof. pose proof (args_msg f fl s) as A. destruct (g_load_lib_args k w f fl s) as [b0 s1]. intros [= <- <-]. cbn [fst snd] in *. destruct b0; [apply A|exact A]. Qed.
Theorem reports_say (OK : conf_ok k) (proper : one_or_zero w) o s b s' : reports o = true -> g_call k w o s = Ok (VBool b, s') ->
  if b then quiet s' else match own_failure k w o s with Some m => said k s' m | None => system_failed k w s' end.
Proof.
  intros Q E. destruct o as [| |f|f|f fl ns| | | | | |n|n| | | | | |i args|c]; try discriminate Q; cbn [g_call] in E.
  - exact (plain_msg _ _ _ _ _ E).
  - exact (then_msg _ _ _ _ _ E).
  - exact (plain_msg _ _ _ _ _ E).
  - exact (then_msg _ _ _ _ _ E).
  - exact (plain_msg _ _ _ _ _ E).
  - unfold g_free_lib in E. change (g_handle (g_clear_error s)) with (g_handle s) in E. destruct (g_handle s) as [h|] eqn:H; [|injection E as <- <-; easy].
    unfold g_call_close in E. change (g_trace (g_clear_error s)) with (g_trace s) in E. destruct (Z.eqb_spec (v_free w (g_trace s) h) 1) as [V|V]; injection E as <- <-; [easy|].
    cbn [own_failure requested].
    destruct (proper (g_trace s) h) as [V0|V0]; [|congruence]. cbn. rewrite V0.
    exists (EvClose h false), $"FreeLibrary()", (g_trace s). repeat split; cbn; now rewrite V0.
  - unfold g_enable_autorelease in E. change (g_reg (g_clear_error s)) with (g_reg s) in E. destruct (g_reg s) eqn:G; [injection E as <- <-; cbn; now rewrite G|].
    change (g_trace (g_clear_error s)) with (g_trace s) in E. destruct (v_atexit w (g_trace s)); injection E as <- <-; cbn; [easy|]. now rewrite G.
  - destruct (g_load_all_symbols k w s) as [[b0 s1]| | |] eqn:G; try discriminate. injection E as <- <-. apply all_msg in G. destruct b0; [exact G|]. cbn. now destruct (g_handle s).
  - destruct (g_load_symbol k w n s) as [[b0 s1]| | |] eqn:G; try discriminate. injection E as <- <-. now apply number_msg in G.
  - destruct (g_load_symbol_name k w (c_arg n) s) as [[b0 s1]| | |] eqn:G; try discriminate. injection E as <- <-. now apply name_msg in G.
Qed.
End Messages.

(** Every run of the WINAPI loader has the same course as a run of the dlfcn loader in a world that answers alike. *)
From Coq Require Import Ascii String List Bool Arith ZArith NArith Lia.
From Verif Require Import Str StrFacts CRuntime SpecCRuntime WinRuntime.
Import ListNotations.

(** the history without messages and dlerror() *)
Definition heard (e : event) : bool := match e with EvError _ | EvPrint _ => false | _ => true end.
Definition hist (t : list event) : list event := filter heard t.

Section Sim.
Variables (k : wconf) (w : wworld).
(** FreeLibrary() returns FALSE or TRUE *)
Hypothesis proper : forall t h, v_free w t h = 0%Z \/ v_free w t h = 1%Z.

Definition sent (f : str) : str :=
  let f := to_backslash f in if x_convert k && negb (x_wide k) && negb (v_conv w f) then [] else f.
Definition dconf : rconf :=
  mkrconf (k_names k) (k_prefix k) (sent (k_lib k)) (k_flags k) (k_buflen k) false true false false (k_auto k).
Definition dworld : world :=
  mkworld (fun t f fl _ => v_open w (hist t) f fl) (fun t h n => v_sym w (hist t) h n) (fun t h => negb (Z.eqb (v_free w (hist t) h) 0))
    (fun _ => None) (fun t => v_atexit w (hist t)) (fun t h => option_map Some (v_module w (hist t) h)) (fun _ _ => None) (fun _ => None).
Definition dfile (f : option str) : option str := option_map sent (c_arg f).
Definition dop (o : op) : op :=
  match o with
  | LoadLibName f => LoadLibName (dfile f)
  | LoadLibNameAndSymbols f => LoadLibNameAndSymbols (dfile f)
  | LoadLibArgs f fl ns => LoadLibArgs (dfile f) fl ns
  | o => o
  end.

Record R (s : wst) (d : st) : Prop := mkR {
  r_handle : g_handle s = s_handle d; r_reg : g_reg s = s_reg d; r_ptrs : g_ptrs s = s_ptrs d; r_libpath : g_libpath s = s_libpath d;
  r_end : g_end s = s_end d; r_trace : g_trace s = hist (s_trace d)
}.
Definition Rb (x : bool * wst) (y : bool * st) : Prop := fst x = fst y /\ R (snd x) (snd y).
Definition Rr {A} (Q : A * wst -> A * st -> Prop) (x : res (A * wst)) (y : res (A * st)) : Prop :=
  match x, y with Ok a, Ok b => Q a b | UB, UB => True | _, _ => False end.

Lemma R_init : R (g_init k) (init dconf).
Proof. now split. Qed.
Lemma R_log e e' s d : R s d -> heard e = true -> e' = e -> R (g_log e s) (log e' d).
Proof. intros [A B C D E F] H ->. split; cbn; auto. unfold hist in *. cbn [filter]. rewrite H. now f_equal. Qed.
Lemma R_mute e s d : R s d -> heard e = false -> R s (log e d).
Proof. intros [A B C D E F] H. split; cbn; auto. unfold hist in *. cbn [filter]. now rewrite H. Qed.
Lemma R_handle h s d : R s d -> R (g_with_handle h s) (with_handle h d).
Proof. intros [A B C D E F]. now split. Qed.
Lemma R_reg s d : R s d -> R (g_with_reg s) (with_reg d).
Proof. intros [A B C D E F]. now split. Qed.
Lemma R_ptrs p s d : R s d -> R (g_with_ptrs p s) (with_ptrs p d).
Proof. intros [A B C D E F]. now split. Qed.
Lemma R_libpath p s d : R s d -> R (g_with_libpath p s) (with_libpath p d).
Proof. intros [A B C D E F]. now split. Qed.
Lemma R_end e s d : R s d -> R (g_with_end e s) (with_end e d).
Proof. intros [A B C D E F]. now split. Qed.
Lemma R_errl m f e s d : R s d -> R (g_with_error m f e s) d.
Proof. intros [A B C D E F]. now split. Qed.
Lemma R_errr m s d : R s d -> R s (with_errbuf m d).
Proof. intros [A B C D E F]. now split. Qed.
Lemma R_show t s d : R s d -> R (g_show t s) d.
Proof. intros [A B C D E F]. now split. Qed.

Lemma R_save m m' s d : R s d -> R (g_save_to_errbuf k m s) (save_to_errbuf dconf m' d).
Proof. intros H. destruct m'; apply R_errl, R_errr, H. Qed.
Lemma R_print m m' s d : R s d -> R (g_print_errbuf k m s) (print_errbuf dconf m' d).
Proof. intros H. apply R_errl, R_errr, H. Qed.
Lemma R_clear s d : R s d -> R (g_clear_error s) (clear_error dworld d).
Proof. intros H. apply R_errl, R_errr. apply R_mute; [exact H|easy]. Qed.
Lemma R_save_error m s d : R s d -> R (g_save_error k w m s) (save_error dconf dworld d).
Proof. intros H. unfold g_save_error, save_error, call_error. apply R_save, R_errl, R_mute; [exact H|easy]. Qed.
Lemma R_no_library s d : R s d -> R (g_set_no_library k s) (set_no_library dconf d).
Proof. intros H. apply R_save, R_errl, H. Qed.
Lemma R_loaded s d : R s d -> g_lib_is_loaded s = lib_is_loaded d.
Proof. intros H. unfold g_lib_is_loaded, lib_is_loaded. now rewrite (r_handle s d H). Qed.

Lemma no_slash f : existsb (Ascii.eqb slash) f = false -> to_backslash f = f.
Proof.
  unfold to_backslash. induction f as [|c f IH]; [easy|]. cbn [existsb map]. intros H. apply orb_false_iff in H. destruct H as [H1 H2]. rewrite Ascii.eqb_sym in H1. rewrite H1. f_equal. now apply IH.
Qed.
Lemma sent_is f : sent f = [] \/ (sent f = to_backslash f /\ x_convert k && negb (x_wide k) && negb (v_conv w (to_backslash f)) = false).
Proof. unfold sent. destruct (x_convert k && negb (x_wide k) && negb (v_conv w (to_backslash f))); [now left|right; now split]. Qed.
Lemma name_sent f : (if existsb (Ascii.eqb slash) f then to_backslash f else f) = to_backslash f.
Proof. destruct (existsb (Ascii.eqb slash) f) eqn:E; [easy|]. now rewrite no_slash. Qed.

Lemma R_args f fl ns s d : R s d -> Rb (g_load_lib_args k w f fl s) (load_lib_args dconf dworld (option_map sent f) fl ns d).
Proof.
  intros H. apply R_clear in H. unfold g_load_lib_args, load_lib_args. set (s1 := g_clear_error s) in *. set (d1 := clear_error dworld d) in *. clearbody s1 d1.
  rewrite (R_loaded _ _ H). destruct (lib_is_loaded d1) eqn:L; [split; [easy|now apply R_save]|].
  destruct f as [[|c f]|]; cbn [option_map].
  - change (sent []) with (if x_convert k && negb (x_wide k) && negb (v_conv w []) then [] else [] : str).
    destruct (x_convert k && negb (x_wide k) && negb (v_conv w [])); (split; [easy|now apply R_save, R_errl]).
  - unfold g_load_library. rewrite name_sent. unfold sent, g_load_library_ex.
    destruct (x_convert k && negb (x_wide k) && negb (v_conv w (to_backslash (c :: f)))).
    + unfold g_lib_is_loaded. cbn [g_with_handle g_handle]. split; [easy|]. cbn [snd]. apply R_errl, R_errr.
      destruct H as [A B C D E F]. split; auto. unfold lib_is_loaded in L. change (None = s_handle d1). now destruct (s_handle d1).
    + destruct (to_backslash (c :: f)) as [|c' f'] eqn:E; [discriminate|]. unfold load_library. cbn [dconf k_dlmopen andb].
      assert (T : v_open w (g_trace s1) (c' :: f') fl = w_open dworld (s_trace d1) (c' :: f') fl false) by (cbn; now rewrite (r_trace _ _ H)).
      rewrite T. set (r := w_open dworld (s_trace d1) (c' :: f') fl false).
      assert (G : R (g_with_handle r (g_log (EvOpen (c' :: f') fl false r) s1)) (with_handle r (log (EvOpen (c' :: f') fl false r) d1))) by (now apply R_handle, R_log).
      rewrite (R_loaded _ _ G). destruct (lib_is_loaded (with_handle r (log (EvOpen (c' :: f') fl false r) d1))); [now split|].
      split; [easy|]. now apply R_save_error.
  - split; [easy|now apply R_save, R_errl].
Qed.
Lemma R_name f s d : R s d -> Rb (g_load_lib_name k w f s) (load_lib_name dconf dworld (option_map sent f) d).
Proof. apply R_args. Qed.
Lemma R_lib s d : R s d -> Rb (g_load_lib k w s) (load_lib dconf dworld d).
Proof. apply (R_args (Some (k_lib k))). Qed.

Lemma R_reset s d : R s d -> R (g_reset k s) (reset dconf d).
Proof. intros H. now apply R_ptrs, R_handle, R_libpath. Qed.
Lemma R_close h s d : R s d -> Rb (g_call_close w h s) (call_close dworld h d).
Proof.
  intros H. unfold g_call_close, call_close. rewrite (r_trace _ _ H). split; cbn [fst].
  - cbn. destruct (proper (hist (s_trace d)) h) as [-> | ->]; reflexivity.
  - cbn [snd]. now apply R_log.
Qed.
Lemma R_free s d : R s d -> Rb (g_free_lib k w s) (free_lib dconf dworld d).
Proof.
  intros H. apply R_clear in H. unfold g_free_lib, free_lib. rewrite (r_handle _ _ H). destruct (s_handle (clear_error dworld d)) as [h|].
  - destruct (R_close h _ _ H) as [A B]. destruct (g_call_close w h (g_clear_error s)) as [ok s1]. destruct (call_close dworld h (clear_error dworld d)) as [ok' d1].
    cbn [fst snd] in *. subst ok'. destruct ok; (split; [easy|]); [now apply R_reset|now apply R_save_error].
  - split; [easy|now apply R_reset].
Qed.
Lemma R_force s d : R s d -> R (g_force_free_lib k w s) (force_free_lib dconf dworld d).
Proof.
  intros H. apply R_clear in H. unfold g_force_free_lib, force_free_lib. rewrite (r_handle _ _ H). destruct (s_handle (clear_error dworld d)) as [h|].
  - apply R_reset, R_close, H.
  - now apply R_reset.
Qed.
Lemma R_auto s d : R s d -> Rb (g_enable_autorelease k w s) (enable_autorelease dconf dworld d).
Proof.
  intros H. apply R_clear in H. unfold g_enable_autorelease, enable_autorelease. set (s1 := g_clear_error s) in *. set (d1 := clear_error dworld d) in *. clearbody s1 d1.
  rewrite (r_reg _ _ H). destruct (s_reg d1) eqn:G.
  - split; [cbn [fst]; now rewrite (r_reg _ _ H)|exact H].
  - rewrite (r_trace _ _ H). change (w_atexit dworld (s_trace d1)) with (v_atexit w (hist (s_trace d1))). set (r := v_atexit w (hist (s_trace d1))). clearbody r.
    assert (L : R (g_log (EvAtexit r) s1) (log (EvAtexit r) d1)) by (now apply R_log).
    destruct r; [split; [easy|now apply R_reg]|]. split; [|now apply R_save]. cbn [fst]. change (g_reg s1 = s_reg d1). apply H.
Qed.
Lemma R_all s d : R s d -> g_all_loaded s = all_symbols_loaded d.
Proof. intros H. unfold g_all_loaded. now rewrite (r_ptrs _ _ H). Qed.
Lemma R_get i s d : R s d -> g_get_ptr i s = get_ptr i d.
Proof. intros H. unfold g_get_ptr. now rewrite (r_ptrs _ _ H). Qed.
Lemma R_set i p s d : R s d -> R (g_set_ptr i p s) (set_ptr i p d).
Proof. intros H. unfold g_set_ptr, set_ptr. rewrite (r_ptrs _ _ H). now apply R_ptrs. Qed.
Definition Rp (x : option ptr * wst) (y : option ptr * st) : Prop := fst x = fst y /\ R (snd x) (snd y).
Lemma R_sym n s d : R s d -> Rr Rp (g_sym k w n s) (gdo_sym dconf dworld n d).
Proof.
  intros H. unfold g_sym, gdo_sym. rewrite (r_handle _ _ H). destruct (s_handle d) as [h|]; [|easy]. rewrite (r_trace _ _ H).
  change (w_sym dworld (s_trace d) h n) with (v_sym w (hist (s_trace d)) h n). destruct (v_sym w (hist (s_trace d)) h n) as [p|]; cbn; (split; [easy|]); cbn [snd].
  - now apply R_log.
  - apply R_save_error. now apply R_log.
Qed.
Lemma R_symbols names : forall i s d, R s d -> Rr Rb (g_load_symbols k w names i s) (load_symbols dconf dworld names i d).
Proof.
  induction names as [|n names IH]; intros i s d H; [now split|]. cbn [g_load_symbols load_symbols]. pose proof (R_sym n s d H) as X.
  destruct (g_sym k w n s) as [[p s1]| | |]; destruct (gdo_sym dconf dworld n d) as [[p' d1]| | |]; try easy. destruct X as [X1 X2]. cbn [fst snd bind] in *. subst p'.
  apply (R_set i p) in X2. destruct p; [now apply IH|]. now split.
Qed.
Lemma R_load_all s d : R s d -> Rr Rb (g_load_all_symbols k w s) (load_all_symbols dconf dworld d).
Proof.
  intros H. apply R_clear in H. unfold g_load_all_symbols, load_all_symbols. rewrite (R_all _ _ H), (R_loaded _ _ H).
  destruct (all_symbols_loaded _); [now split|]. destruct (lib_is_loaded _); [now apply R_symbols|]. split; [easy|now apply R_no_library].
Qed.
Lemma R_one i n s d : R s d -> Rr Rb (g_load_one k w i n s) (load_one dconf dworld i n d).
Proof.
  intros H. unfold g_load_one, load_one. rewrite (R_get i _ _ H). destruct (get_ptr i d); [now split|]. pose proof (R_sym n s d H) as X.
  destruct (g_sym k w n s) as [[p s1]| | |]; destruct (gdo_sym dconf dworld n d) as [[p' d1]| | |]; try easy. destruct X as [X1 X2]. cbn [fst snd bind] in *. subst p'.
  split; [easy|now apply R_set].
Qed.
Lemma R_number num s d : R s d -> Rr Rb (g_load_symbol k w num s) (load_symbol dconf dworld num d).
Proof.
  intros H. apply R_clear in H. unfold g_load_symbol, load_symbol. rewrite (R_loaded _ _ H). destruct (lib_is_loaded _); cbn [negb]; [|split; [easy|now apply R_no_library]].
  change (k_names dconf) with (k_names k). destruct (if (num <? 0)%Z then None else nth_error (k_names k) (Z.to_nat num)); [now apply R_one|]. split; [easy|now apply R_print, R_errl].
Qed.
Lemma R_find names : forall i n s d, R s d -> match g_find_symbol k w names i n s, find_symbol dconf dworld names i n d with
  | Some x, Some y => Rr Rb x y | None, None => True | _, _ => False end.
Proof.
  induction names as [|c names IH]; intros i n s d H; [easy|]. cbn [g_find_symbol find_symbol]. change (k_prefix dconf) with (k_prefix k).
  destruct (Nat.eqb (length n) (length c) && str_eqb (skipn (length (k_prefix k)) n) (skipn (length (k_prefix k)) c)); [now apply R_one|now apply IH].
Qed.
Lemma R_by_name a s d : R s d -> Rr Rb (g_load_symbol_name k w a s) (load_symbol_name dconf dworld a d).
Proof.
  intros H. apply R_clear in H. unfold g_load_symbol_name, load_symbol_name. rewrite (R_loaded _ _ H). destruct (lib_is_loaded _); cbn [negb]; [|split; [easy|now apply R_no_library]].
  destruct a as [[|c n]|]; try (split; [easy|now apply R_save, R_errl]). change (k_prefix dconf) with (k_prefix k). change (k_names dconf) with (k_names k).
  destruct (Nat.eqb (length (k_prefix k)) 0 || starts_with (k_prefix k) (c :: n)); [|split; [easy|now apply R_print, R_errl]].
  pose proof (R_find (k_names k) 0 (c :: n) _ _ H) as X. destruct (g_find_symbol k w (k_names k) 0 (c :: n) (g_clear_error s)), (find_symbol dconf dworld (k_names k) 0 (c :: n) (clear_error dworld d)); try easy.
  split; [easy|now apply R_print, R_errl].
Qed.
Lemma R_saver m s d : R s d -> R s (save_to_errbuf dconf m d).
Proof. intros H. destruct m; apply R_errr, H. Qed.
Lemma R_last s d : R s d -> R (snd (g_last_error k w s)) (snd (last_error dconf d)).
Proof.
  intros H. unfold g_last_error, last_error. destruct (s_errbuf d); destruct (g_formatted s); cbn [snd]; auto using R_errl, R_saver.
Qed.
Definition Rs (x : option str * wst) (y : option str * st) : Prop := fst x = fst y /\ R (snd x) (snd y).
Lemma length_0 (p : str) : Nat.eqb (length p) 0 = match p with [] => true | _ => false end.
Proof. now destruct p. Qed.
Lemma R_path s d : R s d -> match library_path dconf dworld d with Ok y => Rs (g_library_path k w s) y | _ => False end.
Proof.
  intros H. apply R_clear in H. unfold g_library_path, library_path. cbn [dconf k_dlinfo k_dladdr orb negb]. rewrite (r_handle _ _ H), (r_libpath _ _ H).
  set (s1 := g_clear_error s) in *. set (d1 := clear_error dworld d) in *. clearbody s1 d1.
  destruct (s_handle d1) as [h|] eqn:Hh; [|split; [easy|now apply R_no_library]]. destruct (s_libpath d1) as [|c p] eqn:Hp; [|split; [cbn [fst]; now rewrite ?(r_libpath _ _ H), ?Hp|exact H]].
  unfold libpath_dlinfo. apply (R_mute (EvError (w_error dworld (s_trace d1)))) in H as H2; [|easy]. apply (R_errr []) in H2.
  change (with_errbuf [] (log (EvError (w_error dworld (s_trace d1))) d1)) with (clear_error dworld d1) in H2. set (d2 := clear_error dworld d1) in *. clearbody d2.
  change (w_info dworld (s_trace d2) h) with (option_map Some (v_module w (hist (s_trace d2)) h)). rewrite (r_trace _ _ H2).
  set (r := v_module w (hist (s_trace d2)) h). clearbody r.
  assert (L : R (g_log (EvInfo h (option_map Some r)) s1) (log (EvInfo h (option_map Some r)) d2)) by (now apply R_log).
  destruct r as [n|]; cbn [option_map].
  - rewrite length_0. destruct (c_str n) as [|c p] eqn:E.
    + cbn [orb bind]. split; [easy|]. cbn [snd]. apply R_libpath. repeat apply R_errl. repeat (apply R_errr || apply R_saver). exact L.
    + cbn [orb dconf k_linux andb]. unfold copy_path, store_path. change (k_buflen dconf) with (k_buflen k).
      destruct (Nat.leb (length (c :: p) + 1) (k_buflen k)) eqn:Le.
      * assert (Le2 : Nat.leb (k_buflen k) (length (c :: p)) = false) by (apply Nat.leb_nle; apply Nat.leb_le in Le; lia). rewrite Le2. cbn [bind]. split; [easy|]. now apply R_libpath.
      * assert (Le2 : Nat.leb (k_buflen k) (length (c :: p)) = true) by (apply Nat.leb_le; apply Nat.leb_nle in Le; lia). rewrite Le2. cbn [bind]. split; [easy|]. cbn [snd]. apply R_libpath. repeat apply R_errl. repeat (apply R_errr || apply R_saver). exact L.
  - cbn [length Nat.eqb orb bind]. split; [easy|]. cbn [snd]. apply R_libpath. now apply R_save_error.
Qed.

Lemma registrations_hist t : registrations (hist t) = registrations t.
Proof. unfold registrations, hist. induction t as [|e t IH]; [easy|]. cbn [filter]. destruct e as [| | | |b| | | | |]; cbn; try exact IH. destruct b; cbn; auto. Qed.
Lemma R_iter n : forall s d, R s d -> R (Nat.iter n (g_force_free_lib k w) s) (Nat.iter n (force_free_lib dconf dworld) d).
Proof. induction n as [|n IH]; intros s d H; [exact H|]. cbn. now apply R_force, IH. Qed.
Lemma R_exit c s d : R s d -> R (g_exit_program k w c s) (exit_program dconf dworld c d).
Proof. intros H. unfold g_exit_program, exit_program, run_handlers. rewrite (r_trace _ _ H), registrations_hist. now apply R_end, R_iter. Qed.

(** messages: both formats are fine *)
Lemma format_plain a l : ~ In "%"%char a -> forall b, format_s (a ++ b) l = (t <- format_s b l ;; Ok (a ++ t)).
Proof.
  induction a as [|c a IH]; intros N b; [cbn; now destruct (format_s b l)|]. change ((c :: a) ++ b) with (c :: a ++ b).
  assert (A : format_s (c :: a ++ b) l = (t <- format_s (a ++ b) l ;; Ok (c :: t))).
  { cbn [format_s]. destruct c as [[] [] [] [] [] [] [] []]; try reflexivity. elim N. now left. }
  rewrite A, IH by (intros I; apply N; now right). now destruct (format_s b l).
Qed.
Definition printable (f : str) : Prop := forall a b, exists t, format_s f [a; b] = Ok t.
Lemma printable_1 : printable $"error: %s: %s".
Proof. intros a b. eexists. reflexivity. Qed.
Lemma printable_2 : printable $"fatal error: %s: %s".
Proof. intros a b. eexists. reflexivity. Qed.
Lemma printable_3 l : ~ In "%"%char l -> printable ($"error: " ++ l ++ $": %s: %s").
Proof. intros N a b. rewrite app_assoc, format_plain; [eexists; reflexivity|]. intros I. apply in_app_iff in I. destruct I as [I|I]; [|easy]. repeat (destruct I as [I|I]; [discriminate|]). easy. Qed.
Lemma R_message f f' n m m' s d : R s d -> printable f -> printable f' -> exists s' d', g_print_error k f n m s = Ok s' /\ print_error f' n m' d = Ok d' /\ R s' d'.
Proof.
  intros H P P'. destruct (P n m) as [t Ht]. destruct (P' n m') as [t' Ht']. unfold g_print_error, print_error. rewrite Ht, Ht'. cbn [bind].
  destruct (x_box k); eexists _, _; (split; [reflexivity|]); (split; [reflexivity|]); apply R_mute; auto using R_show, R_errl.
Qed.
Lemma percent_sent f : ~ In "%"%char f -> ~ In "%"%char (sent f).
Proof.
  intros N. destruct (sent_is f) as [-> | [-> _]]; [easy|]. unfold to_backslash. intros I. apply in_map_iff in I. destruct I as (c & E & I). destruct (Ascii.eqb c slash); [discriminate|]. now subst c.
Qed.
Hypothesis printable_lib : lib_printable k.

Lemma R_check i n s d : R s d -> Rr Rb (g_check_loaded k w i n s) (wrap_check_loaded dconf dworld i n d).
Proof.
  intros H. unfold g_check_loaded, wrap_check_loaded. rewrite (R_get i _ _ H). destruct (get_ptr i d); [now split|].
  change (k_auto dconf) with (k_auto k). destruct (k_auto k) eqn:A.
  - destruct (R_message _ _ n (if g_lib_is_loaded s then $"symbol not loaded" else $"library not loaded") (if lib_is_loaded d then $"symbol not loaded" else $"library not loaded") s d H printable_2 printable_2)
      as (s' & d' & -> & -> & H'). split; [easy|now apply R_end].
  - assert (NP : ~ In "%"%char (k_lib k)) by (destruct printable_lib as [Z|Z]; [congruence|exact Z]).
    destruct (R_auto _ _ H) as [_ H1]. set (s1 := snd (g_enable_autorelease k w s)) in *. set (d1 := snd (enable_autorelease dconf dworld d)) in *. clearbody s1 d1.
    assert (H2 : R (if g_lib_is_loaded s1 then s1 else snd (g_load_lib k w s1)) (if lib_is_loaded d1 then d1 else snd (load_lib dconf dworld d1))).
    { rewrite (R_loaded _ _ H1). destruct (lib_is_loaded d1); [exact H1|now apply R_lib]. }
    cbv zeta. set (s2 := if g_lib_is_loaded s1 then s1 else _) in *. set (d2 := if lib_is_loaded d1 then d1 else _) in *. clearbody s2 d2.
    pose proof (R_load_all _ _ H2) as X. destruct (g_load_all_symbols k w s2) as [[b s3]| | |]; destruct (load_all_symbols dconf dworld d2) as [[b' d3]| | |]; try easy. destruct X as [X1 X2]. cbn [fst snd bind] in *. subst b'.
    destruct b; [now split|]. apply R_last in X2. destruct (g_last_error k w s3) as [m s4]. destruct (last_error dconf d3) as [m' d4]. cbn [snd] in X2.
    change (k_lib dconf) with (sent (k_lib k)).
    assert (P : forall A (x : option A), printable (match x with Some _ => $"error: %s: %s" | None => $"error: " ++ k_lib k ++ $": %s: %s" end)) by (intros T [|]; [apply printable_1|now apply printable_3]).
    assert (P' : forall A (x : option A), printable (match x with Some _ => $"error: %s: %s" | None => $"error: " ++ sent (k_lib k) ++ $": %s: %s" end)) by (intros T [|]; [apply printable_1|now apply printable_3, percent_sent]).
    destruct (R_message _ _ n m m' s4 d4 X2 (P _ (find (k_lib k) m)) (P' _ (find (sent (k_lib k)) m'))) as (s5 & d5 & E & E' & H5).
    replace (match find (k_lib k) m with Some _ => g_print_error k $"error: %s: %s" n m s4 | None => g_print_error k ($"error: " ++ k_lib k ++ $": %s: %s") n m s4 end) with (Ok s5) by (rewrite <- E; now destruct (find (k_lib k) m)).
    replace (match find (sent (k_lib k)) m' with Some _ => print_error $"error: %s: %s" n m' d4 | None => print_error ($"error: " ++ sent (k_lib k) ++ $": %s: %s") n m' d4 end) with (Ok d5) by (rewrite <- E'; now destruct (find (sent (k_lib k)) m')).
    split; [easy|]. now apply R_exit, R_force.
  - assert (NP : ~ In "%"%char (k_lib k)) by (destruct printable_lib as [Z|Z]; [congruence|exact Z]).
    destruct (R_auto _ _ H) as [_ H1]. set (s1 := snd (g_enable_autorelease k w s)) in *. set (d1 := snd (enable_autorelease dconf dworld d)) in *. clearbody s1 d1.
    assert (H2 : R (if g_lib_is_loaded s1 then s1 else snd (g_load_lib k w s1)) (if lib_is_loaded d1 then d1 else snd (load_lib dconf dworld d1))).
    { rewrite (R_loaded _ _ H1). destruct (lib_is_loaded d1); [exact H1|now apply R_lib]. }
    cbv zeta. set (s2 := if g_lib_is_loaded s1 then s1 else _) in *. set (d2 := if lib_is_loaded d1 then d1 else _) in *. clearbody s2 d2.
    pose proof (R_number (Z.of_nat i) _ _ H2) as X. destruct (g_load_symbol k w (Z.of_nat i) s2) as [[b s3]| | |]; destruct (load_symbol dconf dworld (Z.of_nat i) d2) as [[b' d3]| | |]; try easy. destruct X as [X1 X2]. cbn [fst snd bind] in *. subst b'.
    destruct b; [now split|]. apply R_last in X2. destruct (g_last_error k w s3) as [m s4]. destruct (last_error dconf d3) as [m' d4]. cbn [snd] in X2.
    change (k_lib dconf) with (sent (k_lib k)).
    assert (P : forall A (x : option A), printable (match x with Some _ => $"error: %s: %s" | None => $"error: " ++ k_lib k ++ $": %s: %s" end)) by (intros T [|]; [apply printable_1|now apply printable_3]).
    assert (P' : forall A (x : option A), printable (match x with Some _ => $"error: %s: %s" | None => $"error: " ++ sent (k_lib k) ++ $": %s: %s" end)) by (intros T [|]; [apply printable_1|now apply printable_3, percent_sent]).
    destruct (R_message _ _ n m m' s4 d4 X2 (P _ (find (k_lib k) m)) (P' _ (find (sent (k_lib k)) m'))) as (s5 & d5 & E & E' & H5).
    replace (match find (k_lib k) m with Some _ => g_print_error k $"error: %s: %s" n m s4 | None => g_print_error k ($"error: " ++ k_lib k ++ $": %s: %s") n m s4 end) with (Ok s5) by (rewrite <- E; now destruct (find (k_lib k) m)).
    replace (match find (sent (k_lib k)) m' with Some _ => print_error $"error: %s: %s" n m' d4 | None => print_error ($"error: " ++ sent (k_lib k) ++ $": %s: %s") n m' d4 end) with (Ok d5) by (rewrite <- E'; now destruct (find (sent (k_lib k)) m')).
    split; [easy|]. now apply R_exit, R_force.
Qed.
Definition Ru (x : res wst) (y : res (bool * st)) : Prop :=
  match x, y with Ok a, Ok b => R a (snd b) | UB, UB => True | _, _ => False end.
Lemma R_wrapped i args s d : R s d -> Ru (g_wrapped k w i args s) (wrapped_call dconf dworld i args d).
Proof.
  intros H. unfold g_wrapped, wrapped_call. change (k_names dconf) with (k_names k). destruct (nth_error (k_names k) i) as [n|]; [|exact H].
  pose proof (R_check i n s d H) as X. destruct (g_check_loaded k w i n s) as [[b s1]| | |]; destruct (wrap_check_loaded dconf dworld i n d) as [[b' d1]| | |]; try easy.
  destruct X as [X1 X2]. cbn [fst snd bind] in *. subst b'. destruct b; [|exact X2]. rewrite (R_get i _ _ X2). destruct (get_ptr i d1); [|easy]. cbn. now apply R_log.
Qed.

(** the same results, but for the texts of messages *)
Definition same_value (o : op) (v v' : value) : Prop := match o with LastError => True | _ => v = v' end.
Definition Rv (o : op) (x : res (value * wst)) (y : res (value * st)) : Prop :=
  match x, y with Ok a, Ok b => same_value o (fst a) (fst b) /\ R (snd a) (snd b) | UB, UB => True | _, _ => False end.
Lemma R_then s d x y : Rb x y -> s = g_then_symbols k w x -> d = then_symbols dconf dworld y ->
  match s, d with Ok a, Ok b => fst a = fst b /\ R (snd a) (snd b) | UB, UB => True | _, _ => False end.
Proof.
  intros [A B] -> ->. destruct x as [b s], y as [b' d]. cbn [fst snd] in *. subst b'. cbn [g_then_symbols then_symbols]. destruct b; [|now split].
  pose proof (R_load_all _ _ B) as X. destruct (g_load_all_symbols k w s) as [[b s1]| | |]; destruct (load_all_symbols dconf dworld d) as [[b' d1]| | |]; try easy.
  destruct X as [X1 X2]. cbn in *. subst b'. now split.
Qed.
Lemma c_str_sent f : c_str (sent (c_str f)) = sent (c_str f).
Proof.
  destruct (sent_is (c_str f)) as [-> | [-> _]]; [easy|]. unfold to_backslash. induction f as [|c f IH]; [easy|]. cbn [c_str]. destruct (Ascii.eqb c nul) eqn:E; [easy|]. cbn [map c_str].
  assert (N : Ascii.eqb (if Ascii.eqb c slash then bslash else c) nul = false) by (now destruct (Ascii.eqb c slash)). rewrite N. now f_equal.
Qed.
Lemma c_arg_dfile f : c_arg (dfile f) = option_map sent (c_arg f).
Proof. destruct f as [f|]; [|easy]. cbn. now rewrite c_str_sent. Qed.
Lemma bool_value o x y : Rr Rb x y -> (forall v v', v = v' -> same_value o v v') ->
  Rv o (r <- x ;; Ok (VBool (fst r), snd r)) (r <- y ;; Ok (VBool (fst r), snd r)).
Proof. intros H S. destruct x as [[]| | |], y as [[]| | |]; try easy. destruct H as [A B]. cbn in *. subst. split; [now apply S|exact B]. Qed.
Theorem R_call o s d : R s d -> Rv o (g_call k w o s) (call dconf dworld (dop o) d).
Proof.
  intros H. destruct o as [| |f|f|f fl ns| | | | | |n|n| | | | | |i args|c]; cbn [g_call dop call]; rewrite ?c_arg_dfile.
  - destruct (R_lib _ _ H) as [A B]. split; [cbn; now f_equal|exact B].
  - eapply (R_then _ _ _ _ (R_lib _ _ H)); reflexivity.
  - destruct (R_name (c_arg f) _ _ H) as [A B]. split; [cbn; now f_equal|exact B].
  - eapply (R_then _ _ _ _ (R_name (c_arg f) _ _ H)); reflexivity.
  - destruct (R_args (c_arg f) fl ns _ _ H) as [A B]. split; [cbn; now f_equal|exact B].
  - split; [cbn; now rewrite (R_loaded _ _ H)|exact H].
  - destruct (R_free _ _ H) as [A B]. split; [cbn; now f_equal|exact B].
  - split; [easy|now apply R_force].
  - destruct (R_auto _ _ H) as [A B]. split; [cbn; now f_equal|exact B].
  - apply bool_value; [now apply R_load_all|easy].
  - apply bool_value; [now apply R_number|easy].
  - apply bool_value; [now apply R_by_name|easy].
  - split; [cbn; now rewrite (R_all _ _ H)|exact H].
  - split; [cbn; unfold g_none_loaded, no_symbols_loaded; now rewrite (r_ptrs _ _ H)|exact H].
  - split; [cbn; unfold g_any_loaded, any_symbol_loaded; now rewrite (r_ptrs _ _ H)|exact H].
  - apply R_last in H. destruct (g_last_error k w s), (last_error dconf d). now split.
  - pose proof (R_path _ _ H) as X. destruct (library_path dconf dworld d) as [[p d1]| | |]; try easy. destruct (g_library_path k w s) as [p' s1]. destruct X as [A B]. cbn in *. subst. now split.
  - pose proof (R_wrapped i args _ _ H) as X. destruct (g_wrapped k w i args s) as [s1| | |], (wrapped_call dconf dworld i args d) as [[b d1]| | |]; try easy.
  - split; [easy|now apply R_exit].
Qed.
Lemma R_step o s d : R s d -> match g_step k w s o, step dconf dworld d (dop o) with Ok a, Ok b => R a b | UB, UB => True | _, _ => False end.
Proof.
  intros H. unfold g_step, step. rewrite (r_end _ _ H). destruct (s_end d); [exact H|]. pose proof (R_call o s d H) as X.
  destruct (g_call k w o s) as [[v s1]| | |], (call dconf dworld (dop o) d) as [[v' d1]| | |]; try easy. apply X.
Qed.
Theorem R_run ops : match g_run k w ops, run dconf dworld (map dop ops) with Ok a, Ok b => R a b | UB, UB => True | _, _ => False end.
Proof.
  induction ops as [|o ops IH] using rev_ind; [exact R_init|]. unfold g_run, run in *. rewrite map_app, !fold_left_app. cbn [map fold_left].
  destruct (fold_left _ ops (Ok (g_init k))) as [s| | |], (fold_left _ (map dop ops) (Ok (init dconf))) as [d| | |]; try easy. cbn [bind]. now apply R_step.
Qed.
End Sim.

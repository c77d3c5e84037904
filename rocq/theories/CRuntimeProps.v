(** The C API: wrappers, program runs and the properties *)
From Coq Require Import Ascii String List Bool Arith ZArith Lia.
From Verif Require Import Str StrFacts SpecFormat CRuntime SpecCRuntime CRuntimeFacts CRuntimeFacts2.
Import ListNotations.

Lemma inert_silent e : inert e -> silent e.
Proof. now destruct e. Qed.
Lemma frame_silent s s' : frame s s' -> exists new, added s s' new /\ Forall silent new.
Proof. intros (_ & _ & new & T & F). exists new. split; [exact T|]. eapply Forall_impl; [|exact F]. apply inert_silent. Qed.
Definition quietly (s s' : st) : Prop := s_end s' = s_end s /\ exists new, added s s' new /\ Forall silent new.
Lemma frame_quietly s s' : frame s s' -> quietly s s'.
Proof. intros F. split; [apply F|now apply frame_silent]. Qed.
Lemma quietly_trans a b c : quietly a b -> quietly b c -> quietly a c.
Proof.
  intros (E1 & n1 & T1 & F1) (E2 & n2 & T2 & F2). split; [congruence|]. exists (n2 ++ n1). unfold added in *.
  rewrite T2, T1, app_assoc. split; [easy|]. now apply Forall_app.
Qed.
Lemma quietly_log e s : silent e -> quietly s (log e s).
Proof. intros I. split; [easy|]. exists [e]. split; [easy|]. now constructor. Qed.

(** the handles that are open are the current one *)
Definition exact_handles (s : st) : Prop := open_handles (s_trace s) = match s_handle s with Some h => [h] | None => [] end.
Lemma frame_exact s s' : frame s s' -> exact_handles s -> exact_handles s'.
Proof. intros F E. unfold exact_handles in *. rewrite (frame_open _ _ F), E. destruct F as (-> & _). reflexivity. Qed.

Section K.
Variables (k : rconf) (w : world).
Hypothesis K : conf_ok k.
#[local] Notation inv := (inv k).

(** opening a library *)
Lemma open_quietly f fl ns s : quietly s (load_library k w f fl ns s).
Proof. split; [easy|]. eexists [_]. split; [reflexivity|]. now constructor. Qed.
Lemma load_args_facts f fl ns s : inv s -> let '(b, s') := load_lib_args k w f fl ns s in
  quietly s s' /\ (b = true <-> s_handle s = None /\ s_handle s' <> None) /\ (b = true -> s_errbuf s' = []) /\
  (b = false -> explains w -> s_errbuf s' <> []) /\
  (b = false -> s_handle s' = s_handle s /\ s_ptrs s' = s_ptrs s /\ s_libpath s' = s_libpath s) /\
  (s_handle s <> None -> b = false /\ s_errbuf s' <> []) /\ (exact_handles s -> exact_handles s').
Proof.
  intros I. unfold load_lib_args. assert (F1 := frame_clear w s). unfold lib_is_loaded.
  destruct (s_handle (clear_error w s)) as [h|] eqn:H; cbn in H.
  { rewrite H. assert (N : s_errbuf (save_to_errbuf k (Some $"library already loaded") (clear_error w s)) <> []) by now apply print_nonempty.
    split; [apply frame_quietly; eapply frame_trans; [exact F1|apply frame_save]|]. split; [easy|]. split; [easy|]. split; [easy|]. split; [easy|].
    split; [easy|]. apply frame_exact. eapply frame_trans; [exact F1|apply frame_save]. }
  rewrite H.
  assert (N : forall m, c_str m <> [] -> let '(b, s') := (false, save_to_errbuf k (Some m) (clear_error w s)) in
    quietly s s' /\ (b = true <-> @None ptr = None /\ s_handle s' <> None) /\ (b = true -> s_errbuf s' = []) /\
  (b = false -> explains w -> s_errbuf s' <> []) /\
  (b = false -> s_handle s' = None /\ s_ptrs s' = s_ptrs s /\ s_libpath s' = s_libpath s) /\
  (@None ptr <> None -> b = false /\ s_errbuf s' <> []) /\ (exact_handles s -> exact_handles s')).
  { intros m Hm. split; [apply frame_quietly; eapply frame_trans; [exact F1|apply frame_save]|]. split; [now cbn; rewrite H|]. split; [easy|].
    split; [intros _ _; now apply print_nonempty|]. split; [now cbn|]. split; [easy|]. apply frame_exact. eapply frame_trans; [exact F1|apply frame_save]. }
  destruct f as [[|c f]|]; [now apply N| |now apply N]. clear N.
  assert (Q : quietly s (load_library k w (c :: f) fl ns (clear_error w s))) by (eapply quietly_trans; [apply frame_quietly, F1|apply open_quietly]).
  assert (X1 := frame_exact _ _ F1). remember (clear_error w s) as s1 eqn:E1.
  assert (Z : s_errbuf s1 = []) by now rewrite E1.
  assert (SP : s_ptrs s1 = s_ptrs s /\ s_libpath s1 = s_libpath s /\ s_handle s1 = None) by now rewrite E1.
  destruct SP as (SP1 & SP2 & SP3).
  set (r := w_open w (s_trace s1) (c :: f) fl (k_dlmopen k && ns)).
  assert (R : load_library k w (c :: f) fl ns s1 = with_handle r (log (EvOpen (c :: f) fl (k_dlmopen k && ns) r) s1)) by reflexivity.
  rewrite R in *. destruct r as [h|] eqn:Er; cbn [s_handle with_handle].
  - do 6 (split; [easy|]). intros X. unfold exact_handles in *. specialize (X1 X). rewrite SP3 in X1. cbn. now rewrite X1.
  - split; [eapply quietly_trans; [exact Q|apply frame_quietly, frame_error]|]. split; [split; [easy|intros [_ A]; elim A]|].
    { unfold save_error, call_error, save_to_errbuf. now destruct (w_error _ _). }
    split; [easy|]. split; [intros _ X; now apply (error_nonempty k w K (EvOpen (c :: f) fl (k_dlmopen k && ns) None) (s_trace s1))|].
    split; [|split; [easy|]].
    + intros _. unfold save_error, call_error, save_to_errbuf. now destruct (w_error _ _).
    + intros X. specialize (X1 X). eapply frame_exact; [apply frame_error|]. unfold exact_handles in *. cbn. now rewrite X1, SP3.
Qed.

(** closing it *)
Lemma reset_facts s : s_end (reset k s) = s_end s /\ s_trace (reset k s) = s_trace s /\ s_handle (reset k s) = None /\ s_errbuf (reset k s) = s_errbuf s.
Proof. easy. Qed.
Lemma free_facts s : inv s -> let '(b, s') := free_lib k w s in
  quietly s s' /\ (b = true -> s_handle s' = None /\ s_errbuf s' = []) /\
  (b = false -> s_handle s' = s_handle s /\ s_ptrs s' = s_ptrs s /\ s_libpath s' = s_libpath s /\ s_handle s <> None) /\
  (b = false -> explains w -> s_errbuf s' <> []) /\ (exact_handles s -> exact_handles s').
Proof.
  intros I. unfold free_lib. assert (F1 := frame_clear w s). assert (X1 := frame_exact _ _ F1). apply (clear_inv k w K) in I.
  assert (SP : s_ptrs (clear_error w s) = s_ptrs s /\ s_libpath (clear_error w s) = s_libpath s /\ s_handle (clear_error w s) = s_handle s /\ s_errbuf (clear_error w s) = []) by easy.
  remember (clear_error w s) as s1 eqn:E1. clear E1. destruct SP as (SP1 & SP2 & SP3 & SP4).
  destruct (s_handle s1) as [h|] eqn:H.
  - unfold call_close. assert (Q : forall r, quietly s (log (EvClose h r) s1)) by (intros; eapply quietly_trans; [apply frame_quietly, F1|now apply quietly_log]).
    destruct (w_close w (s_trace s1) h).
    + split; [apply Q|]. split; [easy|]. split; [easy|]. split; [easy|]. intros X. unfold exact_handles. cbn. unfold exact_handles in X1. rewrite (X1 X), H. cbn. now rewrite Nat.eqb_refl.
    + split; [eapply quietly_trans; [apply Q|apply frame_quietly, frame_error]|]. split; [easy|]. split.
      { intros _. unfold save_error, call_error, save_to_errbuf. destruct (w_error _ _); cbn; repeat split; congruence. }
      split; [intros _ X; now apply (error_nonempty k w K (EvClose h false) (s_trace s1))|].
      intros X. eapply frame_exact; [apply frame_error|]. exact (X1 X).
  - split; [eapply quietly_trans; [apply frame_quietly, F1|]; split; [easy|]; exists []; now split|].
    do 3 (split; [easy|]). intros X. unfold exact_handles in *. cbn. now rewrite (X1 X), H.
Qed.
Lemma force_facts s : inv s -> let s' := force_free_lib k w s in
  quietly s s' /\ s_handle s' = None /\ (never_refuses w -> exact_handles s -> exact_handles s').
Proof.
  intros I. unfold force_free_lib. assert (F1 := frame_clear w s). assert (X1 := frame_exact _ _ F1). apply (clear_inv k w K) in I.
  remember (clear_error w s) as s1 eqn:E1. clear E1.
  destruct (s_handle s1) as [h|] eqn:H; cbn zeta.
  - unfold call_close. cbn [snd]. split; [|split; [easy|]].
    + eapply quietly_trans; [apply frame_quietly, F1|]. exact (quietly_log (EvClose h _) s1 Logic.I).
    + intros R X. rewrite R. unfold exact_handles. cbn. unfold exact_handles in X1. rewrite (X1 X), H. cbn. now rewrite Nat.eqb_refl.
  - split; [|split; [easy|]].
    + eapply quietly_trans; [apply frame_quietly, F1|]. split; [easy|]. exists []. now split.
    + intros _ X. unfold exact_handles in *. cbn. now rewrite (X1 X), H.
Qed.

(** exit handlers *)
Lemma handlers_once s : inv s -> run_handlers k w s = if s_reg s then force_free_lib k w s else s.
Proof. intros I. unfold run_handlers. rewrite (i_reg _ _ I). now destruct (s_reg s). Qed.
Lemma end_inv e s : inv s -> inv (with_end e s).
Proof. intros [A1 A2 A3 A4 A5 A6 A7]. split; auto. Qed.
Lemma handlers_inv s : inv s -> inv (run_handlers k w s).
Proof. intros I. rewrite handlers_once by easy. destruct (s_reg s); [now apply force_inv|easy]. Qed.
Lemma handlers_facts s : inv s -> quietly s (run_handlers k w s) /\ (s_handle (run_handlers k w s) = if s_reg s then None else s_handle s) /\
  (never_refuses w -> exact_handles s -> exact_handles (run_handlers k w s)).
Proof.
  intros I. rewrite handlers_once by easy. destruct (s_reg s); [apply force_facts; easy|]. split; [apply frame_quietly, frame_refl|easy].
Qed.

(** formatted output *)
Lemma format_plain (p f : str) args t : ~ In "%"%char p -> format_s f args = Ok t -> format_s (p ++ f) args = Ok (p ++ t).
Proof.
  intros N E. induction p as [|c p IH]; [easy|]. cbn [app format_s].
  assert (C : c <> "%"%char) by (intros ->; apply N; now left).
  rewrite IH by (intros X; apply N; now right). destruct c as [[] [] [] [] [] [] [] []]; try reflexivity. now elim C.
Qed.
Lemma format_tail a b : format_s $": %s: %s" [a; b] = Ok ($": " ++ a ++ $": " ++ b).
Proof. cbn [lit list_ascii_of_string format_s bind app]. now rewrite app_nil_r. Qed.
Lemma format_short p a b : ~ In "%"%char p -> format_s (p ++ $": %s: %s") [a; b] = Ok (p ++ $": " ++ a ++ $": " ++ b).
Proof. intros N. apply format_plain; [easy|apply format_tail]. Qed.

(** what a wrapper's check does *)
Definition outcome {A} (r : res A) (P : A -> Prop) : Prop := match r with Ok x => P x | UB => ~ lib_printable k | _ => False end.
Lemma outcome_bind {A B} (r : res A) (f : A -> res B) P : outcome r (fun x => outcome (f x) P) -> outcome (bind r f) P.
Proof. now destruct r. Qed.
Lemma no_percent_nil : ~ In "%"%char $"error".
Proof. cbn. intuition discriminate. Qed.
Lemma ok_print p a b s : ~ In "%"%char p -> print_error (p ++ $": %s: %s") a b s = Ok (log (EvPrint (p ++ $": " ++ a ++ $": " ++ b ++ [nl])) s).
Proof. intros N. unfold print_error. rewrite format_short by easy. cbn [bind]. now rewrite <- !app_assoc. Qed.
(** one message, nothing called *)
Definition told (s s' : st) (n msg : str) : Prop :=
  exists pre post head, s_trace s' = post ++ EvPrint (head ++ $": " ++ n ++ $": " ++ msg ++ [nl]) :: pre ++ s_trace s /\ Forall silent pre /\ Forall silent post.
Lemma last_error_frame s : frame s (snd (last_error k s)) /\ (inv s -> inv (snd (last_error k s))) /\
  fst (last_error k s) = match s_errbuf s with [] => firstn (k_buflen k - 1) $"no error" | m => m end.
Proof. unfold last_error. destruct (s_errbuf s) eqn:E; cbn [snd fst]; (split; [|split]); auto; try apply frame_save; try apply frame_refl. intros I. now apply save_inv. Qed.

Lemma load_symbol_index i n s : inv s -> nth_error (k_names k) i = Some n ->
  exists b s', load_symbol k w (Z.of_nat i) s = Ok (b, s') /\ loading k w s s' b /\ (b = true -> get_ptr i s' <> None) /\
    (s_handle s = None -> b = false /\ s_errbuf s' = firstn (k_buflen k - 1) $"no library was loaded").
Proof.
  intros I Hn. unfold load_symbol. assert (I1 := clear_inv k w K s I). assert (F1 := frame_clear w s).
  unfold lib_is_loaded. destruct (s_handle (clear_error w s)) as [h|] eqn:H; cbn [negb].
  2:{ exists false, (set_no_library k (clear_error w s)). split; [easy|]. split; [|easy].
      split; [now apply save_inv|]. split; [eapply frame_trans; [exact F1|apply frame_save]|]. split; [easy|]. split; [easy|]. intros _ _. now apply print_nonempty. }
  replace (Z.of_nat i <? 0)%Z with false by (symmetry; apply Z.ltb_ge; lia). rewrite Nat2Z.id, Hn.
  destruct (load_one_ok k w K _ _ _ _ H Hn I1 eq_refl) as (b & s' & R & (L1 & L2 & L3 & L4 & L5) & X1 & _). exists b, s'. split; [easy|].
  split; [|split; [apply X1|]].
  - split; [easy|]. split; [eapply frame_trans; eassumption|]. easy.
  - cbn in H. congruence.
Qed.
Lemma load_all_nolib s : s_handle s = None -> all_symbols_loaded s = false ->
  exists s', load_all_symbols k w s = Ok (false, s') /\ s_errbuf s' = firstn (k_buflen k - 1) $"no library was loaded".
Proof.
  intros H A. unfold load_all_symbols. change (all_symbols_loaded (clear_error w s)) with (all_symbols_loaded s). rewrite A.
  unfold lib_is_loaded. cbn [clear_error call_error snd with_errbuf log s_handle]. rewrite H. eexists. split; [reflexivity|]. easy.
Qed.

(** the state in which a wrapper asks for its symbols *)
Definition prepare (s : st) : st :=
  let s := snd (enable_autorelease k w s) in if lib_is_loaded s then s else snd (load_lib k w s).
Lemma prepare_facts s : inv s -> inv (prepare s) /\ quietly s (prepare s) /\ (exact_handles s -> exact_handles (prepare s)).
Proof.
  intros I. unfold prepare. assert (I1 := autorelease_inv k w K s I). assert (F1 := frame_autorelease k w s).
  destruct (lib_is_loaded _).
  - split; [easy|]. split; [now apply frame_quietly|now apply frame_exact].
  - assert (A := load_args_facts (Some (k_lib k)) (k_flags k) false _ I1). assert (B := load_args_inv k w K (Some (k_lib k)) (k_flags k) false _ I1).
    unfold load_lib, load_lib_name. destruct (load_lib_args _ _ _ _ _ _) as [b s2]. cbn [snd] in *. destruct A as (A1 & _ & _ & _ & _ & _ & A7).
    split; [easy|]. split; [eapply quietly_trans; [apply frame_quietly, F1|exact A1]|]. intros X. apply A7. now apply (frame_exact _ _ F1).
Qed.
Lemma format_total f : forall args, (exists t, format_s f args = Ok t) \/ format_s f args = UB.
Proof.
  assert (G : forall n f args, length f <= n -> (exists t, format_s f args = Ok t) \/ format_s f args = UB).
  2:{ intros args. now apply (G (length f)). }
  clear f. induction n as [|n IH]; intros f args L; [destruct f; [left; now eexists|cbn in L; lia]|].
  assert (B : forall (g : str -> str) f args, length f <= n -> (exists t, (t <- format_s f args ;; Ok (g t)) = Ok t) \/ (t <- format_s f args ;; Ok (g t)) = UB).
  { intros g f0 args0 L0. destruct (IH f0 args0 L0) as [[t ->]| ->]; [left; now eexists|now right]. }
  destruct f as [|c f]; [left; now eexists|]. cbn [length] in L.
  destruct (ascii_dec c "%"%char) as [->|N].
  - destruct f as [|d f]; [now right|]. cbn [length] in L.
    assert (B' : forall (g : str -> str) args, (exists t, (t <- format_s f args ;; Ok (g t)) = Ok t) \/ (t <- format_s f args ;; Ok (g t)) = UB) by (intros; apply B; lia).
    destruct (ascii_dec d "s"%char) as [->|N1]; [destruct args as [|a args]; [now right|apply B']|].
    destruct (ascii_dec d "%"%char) as [->|N2]; [apply B'|].
    right. destruct d as [[] [] [] [] [] [] [] []]; try reflexivity; [now elim N2|now elim N1].
  - assert (E : format_s (c :: f) args = (t <- format_s f args ;; Ok (c :: t))).
    { destruct c as [[] [] [] [] [] [] [] []]; try reflexivity. now elim N. }
    rewrite E. apply B. lia.
Qed.

(** the end of a wrapper's check when the symbol could not be had *)
Definition give_up (n : str) (s : st) : res (bool * st) :=
  let '(msg, s) := last_error k s in
  s <- (match find (k_lib k) msg with
        | Some _ => print_error $"error: %s: %s" n msg s
        | None => print_error ($"error: " ++ k_lib k ++ $": %s: %s") n msg s
        end) ;;
  Ok (false, exit_program k w 1 (force_free_lib k w s)).
Lemma give_up_facts n s : k_auto k <> AutoOff -> inv s ->
  outcome (give_up n s) (fun r => let '(b, s') := r in b = false /\ inv s' /\ (never_refuses w -> exact_handles s -> exact_handles s') /\
    s_end s' = Some (Exited 1) /\ s_handle s' = None /\ (lib_printable k -> told s s' n (fst (last_error k s)))).
Proof.
  intros A I. unfold give_up. destruct (last_error_frame s) as (Fe & Ie & _). destruct (last_error k s) as [msg s3]. cbn [fst snd] in *. specialize (Ie I).
  set (fmt := match find (k_lib k) msg with Some _ => $"error: %s: %s" | None => $"error: " ++ k_lib k ++ $": %s: %s" end).
  assert (E : (match find (k_lib k) msg with Some _ => print_error $"error: %s: %s" n msg s3 | None => print_error ($"error: " ++ k_lib k ++ $": %s: %s") n msg s3 end) = print_error fmt n msg s3)
    by (unfold fmt; now destruct (find _ _)).
  rewrite E. clear E.
  assert (FM : lib_printable k -> exists h, fmt = h ++ $": %s: %s" /\ ~ In "%"%char h).
  { intros [P|P]; [easy|]. unfold fmt. destruct (find _ _).
    - exists $"error". split; [reflexivity|]. cbn. intuition discriminate.
    - exists ($"error: " ++ k_lib k). split; [now rewrite <- app_assoc|]. intros X. apply in_app_or in X. destruct X as [X|X]; [|easy]. revert X. cbn. intuition discriminate. }
  unfold print_error. destruct (format_total fmt [n; msg]) as [[t T]|T]; rewrite T; cbn [bind outcome].
  2:{ intros P. destruct (FM P) as (h & -> & Hh). now rewrite format_short in T. }
  set (s4 := log (EvPrint (t ++ [nl])) s3). assert (I4 : inv s4) by now apply log_inv. assert (I5 := force_inv k w K _ I4).
  destruct (force_facts s4 I4) as (Q5 & H5 & X5). destruct (handlers_facts _ I5) as (Q6 & H6 & X6). cbn zeta in *.
  split; [easy|]. split; [apply end_inv; now apply handlers_inv|]. split; [|split; [easy|split]].
  - intros NR X. apply (X6 NR), (X5 NR). exact (frame_exact _ _ Fe X).
  - cbn [exit_program with_end s_handle]. rewrite H6, H5. now destruct (s_reg _).
  - intros P. destruct (FM P) as (h & -> & Hh). rewrite format_short in T by easy. assert (Et : t = h ++ $": " ++ n ++ $": " ++ msg) by congruence. subst t.
    destruct (frame_silent _ _ Fe) as (pre & T1 & S1). destruct (quietly_trans _ _ _ Q5 Q6) as (_ & post & T2 & S2).
    exists pre, post, h. split; [|easy]. unfold added in *. cbn [exit_program with_end s_trace].
    rewrite T2. subst s4. cbn [s_trace log]. rewrite T1. now rewrite <- !app_assoc.
Qed.
Lemma told_after s s1 s' n m : quietly s s1 -> told s1 s' n m -> told s s' n m.
Proof.
  intros (_ & new & T & F) (pre & post & head & E & F1 & F2). exists (pre ++ new), post, head. unfold added in T. rewrite E, T, <- app_assoc.
  split; [easy|]. split; [now apply Forall_app|easy].
Qed.
(** what a wrapper asks for *)
Definition fetch (i : nat) (s : st) : res (bool * st) :=
  match k_auto k with AutoLazy => load_symbol k w (Z.of_nat i) s | _ => load_all_symbols k w s end.
Lemma fetch_facts i n s : inv s -> nth_error (k_names k) i = Some n -> exists b s', fetch i s = Ok (b, s') /\ loading k w s s' b /\
  (b = true -> get_ptr i s' <> None) /\ (s_handle s = None -> b = false /\ s_errbuf s' = firstn (k_buflen k - 1) $"no library was loaded").
Proof.
  intros I Hn. unfold fetch.
  assert (L : exists b s', load_all_symbols k w s = Ok (b, s') /\ loading k w s s' b /\
    (b = true -> get_ptr i s' <> None) /\ (s_handle s = None -> b = false /\ s_errbuf s' = firstn (k_buflen k - 1) $"no library was loaded")).
  { destruct (load_all_ok k w K s I) as (b & s2 & R & L & B & _). exists b, s2. split; [easy|]. split; [easy|]. split.
    - intros Hb. apply B in Hb. rewrite all_spec, (i_len _ _ (proj1 L)) in Hb. apply Hb, nth_error_Some. congruence.
    - intros H. assert (NL : all_symbols_loaded s = false).
      { destruct (all_symbols_loaded s) eqn:E; [|easy]. rewrite all_spec, (i_len _ _ I) in E. elim (E i); [apply nth_error_Some; congruence|].
        now apply (i_none _ _ I). }
      destruct (load_all_nolib _ H NL) as (s2' & R' & M). rewrite R in R'. now injection R' as -> ->. }
  destruct (k_auto k); [exact L|exact L|]. exact (load_symbol_index i n s I Hn).
Qed.
Lemma wrap_unfold i n s : k_auto k <> AutoOff -> get_ptr i s = None -> wrap_check_loaded k w i n s =
  (r <- fetch i (prepare s) ;; let '(ok, s) := r in if ok then Ok (true, s) else give_up n s).
Proof. intros A G. unfold wrap_check_loaded, give_up, fetch, prepare. rewrite G. destruct (k_auto k); [easy| |]; reflexivity. Qed.
Definition why (s : st) : str := if lib_is_loaded s then $"symbol not loaded" else $"library not loaded".
Lemma wrap_facts i n s : inv s -> nth_error (k_names k) i = Some n ->
  outcome (wrap_check_loaded k w i n s) (fun r => let '(b, s') := r in inv s' /\
    (b = true -> quietly s s' /\ get_ptr i s' <> None /\ (exact_handles s -> exact_handles s') /\
      (k_auto k <> AutoOff -> get_ptr i s = None -> s_handle (prepare s) <> None)) /\
    (b = false -> (never_refuses w -> exact_handles s -> exact_handles s') /\
      match k_auto k with AutoOff => s_end s' = Some Aborted | _ => s_end s' = Some (Exited 1) /\ s_handle s' = None end /\
      (lib_printable k -> exists msg, told s s' n msg /\
        (k_auto k = AutoOff -> msg = why s) /\
        (k_auto k <> AutoOff -> s_handle (prepare s) = None -> 22 <= k_buflen k -> msg = $"no library was loaded")))).
Proof.
  intros I Hn. destruct (get_ptr i s) as [p|] eqn:G.
  { unfold wrap_check_loaded. rewrite G. cbn. split; [easy|]. split; [|easy]. intros _. split; [apply frame_quietly, frame_refl|]. split; [congruence|]. split; [easy|congruence]. }
  assert (D : k_auto k = AutoOff \/ k_auto k <> AutoOff) by (destruct (k_auto k); auto; now right). destruct D as [A|A].
  { unfold wrap_check_loaded. rewrite G, A.
    assert (D : $"fatal error: %s: %s" = $"fatal error" ++ $": %s: %s") by reflexivity. rewrite D.
    rewrite ok_print by (cbn; intuition discriminate). cbn [bind outcome].
    split; [apply end_inv, log_inv; easy|]. split; [easy|]. intros _. split; [easy|]. split; [easy|]. intros _. exists (why s). split; [|easy].
    exists [], [], $"fatal error". now split. }
  rewrite (wrap_unfold i n s A G). destruct (prepare_facts s I) as (I1 & Q1 & X1).
  destruct (fetch_facts i n (prepare s) I1 Hn) as (b & s2 & R & (L1 & L2 & L3 & L4 & L5) & B & M). rewrite R. cbn [bind]. destruct b.
  - cbn [outcome]. split; [easy|]. split; [|easy]. intros _. split; [eapply quietly_trans; [exact Q1|now apply frame_quietly]|]. split; [now apply B|].
    split; [intros X; now apply (frame_exact _ _ L2), X1|]. intros _ _ H. now destruct (M H).
  - assert (GU := give_up_facts n s2 A L1). destruct (give_up n s2) as [[b s']| | |]; try easy. cbn [outcome] in *.
    destruct GU as (-> & I' & X' & E' & H' & T'). split; [easy|]. split; [easy|]. intros _. split; [|split].
    + intros NR X. now apply (X' NR), (frame_exact _ _ L2), X1.
    + now destruct (k_auto k).
    + intros P. eexists. split; [eapply told_after; [eapply quietly_trans; [exact Q1|apply frame_quietly, L2]|apply (T' P)]|]. split; [easy|].
      intros _ H Hb. destruct (M H) as [_ M']. rewrite (proj2 (proj2 (last_error_frame s2))), M'. rewrite firstn_all2; [reflexivity|cbn; lia].
Qed.

(** calls *)
Definition known_index (i : nat) : Prop := i < length (k_names k).
Definition changes (o : op) (s s' : st) : Prop :=
  inv s' /\ ((never_refuses w \/ (o <> ForceFreeLib /\ s_end s' = None)) -> exact_handles s -> exact_handles s').
Lemma call_facts o s : inv s -> s_end s = None -> outcome (call k w o s) (fun r => changes o s (snd r)).
Proof.
  intros I N.
  assert (AF : forall f fl ns, inv (snd (load_lib_args k w f fl ns s)) /\ (exact_handles s -> exact_handles (snd (load_lib_args k w f fl ns s)))).
  { intros f fl ns. split; [now apply load_args_inv|]. assert (X := load_args_facts f fl ns s I). destruct (load_lib_args k w f fl ns s). apply X. }
  assert (TS : forall f fl ns, outcome (then_symbols k w (load_lib_args k w f fl ns s)) (fun r => changes o s (snd r))).
  { intros f fl ns. destruct (AF f fl ns) as [A B]. unfold then_symbols. destruct (load_lib_args k w f fl ns s) as [[] s1]; cbn [snd] in *.
    - destruct (load_all_ok k w K s1 A) as (b & s2 & R & L & _). rewrite R. cbn. split; [apply L|]. intros _ X. apply (frame_exact s1); [apply L|auto].
    - cbn. split; auto. }
  assert (FR : forall s', inv s' -> frame s s' -> changes o s s').
  { intros s' A B. split; [easy|]. intros _. now apply frame_exact. }
  destruct o; cbn [call bind]; try (apply TS); try (split; [apply AF|intros _; apply AF]).
  - cbn. apply FR; [easy|apply frame_refl].
  - cbn. assert (X := free_facts s I). assert (Y := free_inv k w K s I). destruct (free_lib k w s). split; [easy|]. intros _. apply X.
  - cbn. split; [now apply force_inv|]. intros [NR|[NF _]]; [|easy]. now apply force_facts.
  - cbn. apply FR; [now apply autorelease_inv|apply frame_autorelease].
  - destruct (load_all_ok k w K s I) as (b & s2 & R & L & _). rewrite R. cbn. apply FR; apply L.
  - destruct (load_symbol_ok k w K num s I) as (b & s2 & R & L). rewrite R. cbn. apply FR; apply L.
  - destruct (load_name_ok k w K (c_arg symbol) s I) as (b & s2 & R & L). rewrite R. cbn. apply FR; apply L.
  - cbn. apply FR; [easy|apply frame_refl].
  - cbn. apply FR; [easy|apply frame_refl].
  - cbn. apply FR; [easy|apply frame_refl].
  - destruct (last_error_frame s) as (A & B & _). destruct (last_error k s). cbn in *. apply FR; auto.
  - destruct (library_path_ok k w K s I) as (r & s2 & R & A & B & _). rewrite R. cbn. now apply FR.
  - unfold wrapped_call. destruct (nth_error (k_names k) i) as [n|] eqn:Hn; [|cbn; apply FR; [easy|apply frame_refl]].
    assert (W := wrap_facts i n s I Hn). destruct (wrap_check_loaded k w i n s) as [[b s']| | |]; try easy. cbn [bind outcome] in *.
    destruct W as (I' & T & F). destruct b.
    + destruct (T eq_refl) as (Q & G & X & _). destruct (get_ptr i s') as [p|]; [|easy]. cbn. split; [now apply log_inv|]. intros _ E. exact (X E).
    + destruct (F eq_refl) as (X & E & _). cbn. split; [easy|]. intros [NR|[_ Z]]; [auto|]. destruct (k_auto k); [congruence| |]; destruct E; congruence.
  - cbn. split; [apply end_inv; now apply handlers_inv|]. intros [NR|[_ Z]]; [|easy]. now apply handlers_facts.
Qed.
Lemma step_facts o s : inv s -> outcome (step k w s o) (fun s' => inv s' /\
  ((never_refuses w \/ (o <> ForceFreeLib /\ s_end s' = None)) -> exact_handles s -> exact_handles s')).
Proof.
  intros I. unfold step. destruct (s_end s) eqn:E; [easy|]. assert (C := call_facts o s I E). now destruct (call k w o s).
Qed.
Lemma end_stays o s e : s_end s = Some e -> step k w s o = Ok s.
Proof. intros E. unfold step. now rewrite E. Qed.
Lemma run_app ops o : run k w (ops ++ [o]) = (s <- run k w ops ;; step k w s o).
Proof. unfold run. now rewrite fold_left_app. Qed.
Lemma run_facts ops : outcome (run k w ops) (fun s => inv s /\
  (never_refuses w \/ (~ In ForceFreeLib ops /\ s_end s = None) -> exact_handles s)).
Proof.
  induction ops as [|o ops IH] using rev_ind; [cbn; split; [now apply init_inv|easy]|].
  rewrite run_app. destruct (run k w ops) as [s| | |] eqn:R; try easy. cbn [bind outcome] in *. destruct IH as [I X].
  assert (S := step_facts o s I). destruct (step k w s o) as [s'| | |] eqn:St; try easy. cbn [outcome] in *. destruct S as [I' X']. split; [easy|].
  intros [NR|[NF E]]; [now apply X'; auto|]. assert (E0 : s_end s = None).
  { destruct (s_end s) eqn:Z; [|easy]. rewrite (end_stays o s _ Z) in St. congruence. }
  apply X'.
  - right. split; [|easy]. intros ->. apply NF, in_or_app. right. now left.
  - apply X. right. split; [|easy]. intros Y. apply NF, in_or_app. now left.
Qed.
Lemma reachable_inv s : reachable k w s -> inv s.
Proof. intros [ops R]. assert (F := run_facts ops). rewrite R in F. apply F. Qed.
End K.

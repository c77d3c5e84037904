(** The C API: every call keeps the invariant and is defined *)
From Coq Require Import Ascii String List Bool Arith ZArith Lia.
From Verif Require Import Str StrFacts SpecFormat CRuntime SpecCRuntime CRuntimeFacts.
Import ListNotations.

Ltac conjs := repeat match goal with |- _ /\ _ => split end.
(** events that neither open nor close a library nor reach the user *)
Definition inert (e : event) : Prop :=
  match e with EvSym _ _ _ | EvError _ | EvInfo _ _ | EvAddr _ _ | EvMaps _ | EvAtexit _ => True | _ => False end.
Definition frame (s s' : st) : Prop :=
  s_handle s' = s_handle s /\ s_end s' = s_end s /\ exists new, s_trace s' = new ++ s_trace s /\ Forall inert new.

Lemma frame_refl s : frame s s.
Proof. split; [easy|]. split; [easy|]. exists []. now split. Qed.
Lemma frame_trans a b c : frame a b -> frame b c -> frame a c.
Proof.
  intros (H1 & E1 & n1 & T1 & F1) (H2 & E2 & n2 & T2 & F2). split; [congruence|]. split; [congruence|].
  exists (n2 ++ n1). rewrite T2, T1, app_assoc. split; [easy|]. now apply Forall_app.
Qed.
Lemma frame_log e s : inert e -> frame s (log e s).
Proof. intros I. split; [easy|]. split; [easy|]. exists [e]. split; [easy|]. now constructor. Qed.
Lemma frame_errbuf m s : frame s (with_errbuf m s).
Proof. exact (frame_refl s). Qed.
Lemma frame_libpath m s : frame s (with_libpath m s).
Proof. exact (frame_refl s). Qed.
Lemma frame_ptr i p s : frame s (set_ptr i p s).
Proof. exact (frame_refl s). Qed.
Lemma inert_open new t : Forall inert new -> open_handles (new ++ t) = open_handles t.
Proof. induction 1 as [|e new He _ IH]; [easy|]. cbn [app]. now destruct e. Qed.
Lemma frame_open s s' : frame s s' -> open_handles (s_trace s') = open_handles (s_trace s).
Proof. intros (_ & _ & new & -> & F). now apply inert_open. Qed.

Section K.
Variables (k : rconf) (w : world).
Hypothesis K : conf_ok k.
#[local] Notation inv := (inv k).

Lemma frame_save m s : frame s (save_to_errbuf k m s).
Proof. destruct m; apply frame_errbuf. Qed.
Lemma frame_clear s : frame s (clear_error w s).
Proof. eapply frame_trans; [apply frame_log|apply frame_errbuf]. exact I. Qed.
Lemma frame_error s : frame s (save_error k w s).
Proof. eapply frame_trans; [apply frame_log|apply frame_save]. exact I. Qed.
Lemma frame_autorelease s : frame s (snd (enable_autorelease k w s)).
Proof.
  unfold enable_autorelease. cbn [snd]. eapply frame_trans; [apply frame_clear|].
  destruct (s_reg _); [apply frame_refl|]. destruct (w_atexit _ _).
  - exact (frame_log (EvAtexit true) _ I).
  - eapply frame_trans; [apply frame_log|apply frame_save]. exact I.
Qed.
Lemma same_ptr_clear i s : get_ptr i (clear_error w s) = get_ptr i s.
Proof. easy. Qed.

(** messages *)
Lemma print_nonempty m s : c_str m <> [] -> s_errbuf (print_errbuf k m s) <> [].
Proof. intros H. cbn. assert (B := ok_buf _ K). destruct (c_str m); [easy|]. destruct (k_buflen k) as [|[|b]]; try lia. discriminate. Qed.
Lemma error_nonempty e t s : explains w -> failure e -> s_trace s = e :: t -> s_errbuf (save_error k w s) <> [].
Proof.
  intros X F T. unfold save_error, call_error. rewrite T. destruct (X e t F) as (m & -> & M). now apply print_nonempty.
Qed.

(** the symbol loop *)
Definition from_names (i : nat) (names : list str) : Prop :=
  forall j n, nth_error names j = Some n -> nth_error (k_names k) (i + j) = Some n.
Lemma load_symbols_ok names : forall i s h, from_names i names -> s_handle s = Some h -> inv s ->
  exists b s', load_symbols k w names i s = Ok (b, s') /\ inv s' /\ frame s s' /\
    (forall j, j < i -> get_ptr j s' = get_ptr j s) /\ s_libpath s' = s_libpath s /\
    (b = true -> s_errbuf s' = s_errbuf s /\ forall j, j < length names -> get_ptr (i + j) s' <> None) /\
    (b = false -> (explains w -> s_errbuf s' <> []) /\ exists j, j < length names /\ get_ptr (i + j) s' = None).
Proof.
  induction names as [|n names IH]; intros i s h F H I.
  - exists true, s. conjs; auto; [apply frame_refl|intros _; split; [easy|]|discriminate]. cbn. lia.
  - assert (Hn : nth_error (k_names k) i = Some n) by (rewrite <- (Nat.add_0_r i); now apply F).
    destruct (ask k w K h i n s H Hn I) as (s1 & r & G & Hr & A & I1).
    cbn [load_symbols]. rewrite G. cbn [bind]. fold (set_ptr i r s1).
    destruct A as (A1 & A2 & A3 & A4 & A5 & A6 & A7). rewrite <- Hr in A2, A7.
    destruct r as [p|].
    + assert (F1 : frame s (set_ptr i (Some p) s1)) by (rewrite A7; exact (frame_log (EvSym h n (Some p)) s Logic.I)).
      destruct (IH (S i) (set_ptr i (Some p) s1) h) as (b & s' & R & I' & F' & P & Q & T1 & T2); auto.
      { intros j m Hm. replace (S i + j) with (i + S j) by lia. now apply F. }
      exists b, s'. rewrite R. conjs; auto.
      * eapply frame_trans; eassumption.
      * intros j Hj. rewrite P by lia. apply A3. lia.
      * rewrite Q, A7. reflexivity.
      * intros Hb. destruct (T1 Hb) as [B1 B2]. split; [rewrite B1, A7; reflexivity|]. intros [|j] Hj.
        -- rewrite Nat.add_0_r, P by lia. rewrite A2. discriminate.
        -- replace (i + S j) with (S i + j) by lia. apply B2. cbn in Hj. lia.
      * intros Hb. destruct (T2 Hb) as (B1 & j & Hj & B2). split; [easy|]. exists (S j). split; [cbn; lia|]. now replace (i + S j) with (S i + j) by lia.
    + exists false, (set_ptr i None s1). conjs; auto.
      * rewrite A7. eapply frame_trans; [exact (frame_log (EvSym h n None) s Logic.I)|]. eapply frame_trans; [apply frame_error|apply frame_ptr].
      * intros j Hj. apply A3. lia.
      * rewrite A7. unfold save_error, call_error, save_to_errbuf. now destruct (w_error _ _).
      * discriminate.
      * intros _. split.
        -- intros X. rewrite A7. now apply (error_nonempty (EvSym h n None) (s_trace s)).
        -- exists 0. rewrite Nat.add_0_r. split; [cbn; lia|easy].
Qed.
Lemma from_zero : from_names 0 (k_names k).
Proof. intros j n H. exact H. Qed.

(** the queries *)
Lemma fold_and {A} (f : A -> bool) l b : fold_left (fun b x => b && f x) l b = b && forallb f l.
Proof. revert b. induction l as [|x l IH]; intros b; cbn; [now rewrite andb_true_r|]. now rewrite IH, andb_assoc. Qed.
Lemma fold_or {A} (f : A -> bool) l b : fold_left (fun b x => b || f x) l b = b || existsb f l.
Proof. revert b. induction l as [|x l IH]; intros b; cbn; [now rewrite orb_false_r|]. now rewrite IH, orb_assoc. Qed.
Lemma non_null_spec p : non_null p = true <-> p <> None.
Proof. destruct p; cbn; intuition congruence. Qed.
Lemma all_spec s : all_symbols_loaded s = true <-> forall i, i < length (s_ptrs s) -> get_ptr i s <> None.
Proof.
  unfold all_symbols_loaded. rewrite fold_and. cbn [andb]. rewrite forallb_forall. unfold get_ptr. split.
  - intros H i Hi. apply non_null_spec, H. now apply nth_In.
  - intros H x Hx. apply non_null_spec. destruct (In_nth _ _ None Hx) as (i & Hi & <-). now apply H.
Qed.
Lemma none_spec s : no_symbols_loaded s = true <-> forall i, get_ptr i s = None.
Proof.
  unfold no_symbols_loaded. rewrite (fold_and (fun p => negb (non_null p))). cbn [andb]. rewrite forallb_forall. unfold get_ptr. split.
  - intros H i. destruct (nth_in_or_default i (s_ptrs s) None) as [X| ->]; [|easy]. apply H in X. now destruct (nth i (s_ptrs s) None).
  - intros H x Hx. destruct (In_nth _ _ None Hx) as (i & Hi & <-). now rewrite H.
Qed.
Lemma any_spec s : any_symbol_loaded s = true <-> exists i, get_ptr i s <> None.
Proof.
  unfold any_symbol_loaded. rewrite fold_or. cbn [orb]. rewrite existsb_exists. unfold get_ptr. split.
  - intros (x & Hx & N). destruct (In_nth _ _ None Hx) as (i & Hi & <-). exists i. now apply non_null_spec.
  - intros (i & N). destruct (nth_in_or_default i (s_ptrs s) None) as [X|X]; [|congruence]. eexists. split; [exact X|]. now apply non_null_spec.
Qed.

(** calls that load symbols *)
Definition loading (s s' : st) (b : bool) : Prop :=
  inv s' /\ frame s s' /\ s_libpath s' = s_libpath s /\
  (b = true -> s_errbuf s' = []) /\ (b = false -> explains w -> s_errbuf s' <> []).
Ltac conjs ::= repeat match goal with |- _ /\ _ => split | |- loading _ _ _ => split end.
Lemma load_all_ok s : inv s -> exists b s', load_all_symbols k w s = Ok (b, s') /\ loading s s' b /\
  (b = true <-> all_symbols_loaded s' = true) /\ (s_handle s = None -> s_ptrs s' = s_ptrs s).
Proof.
  intros I. unfold load_all_symbols. assert (I1 := clear_inv k w K s I). assert (F1 := frame_clear s).
  destruct (all_symbols_loaded (clear_error w s)) eqn:A.
  { exists true, (clear_error w s). conjs; auto; try easy. }
  unfold lib_is_loaded. destruct (s_handle (clear_error w s)) as [h|] eqn:H.
  - destruct (load_symbols_ok (k_names k) 0 _ h from_zero H I1) as (b & s' & R & I' & F' & _ & Q & T1 & T2).
    exists b, s'. rewrite R. split; [easy|]. split; [|split].
    + conjs; auto.
      * eapply frame_trans; eassumption.
      * intros B. now destruct (T1 B) as [-> _].
      * intros B. now destruct (T2 B).
    + rewrite all_spec, (i_len _ _ I'). split; [apply T1|]. destruct b; [easy|]. intros X. destruct (T2 eq_refl) as (_ & j & Hj & N). elim (X j Hj N).
    + cbn in H. congruence.
  - exists false, (set_no_library k (clear_error w s)). conjs; try easy.
    + now apply save_inv.
    + intros _ _. apply print_nonempty. discriminate.
    + change (all_symbols_loaded (set_no_library k (clear_error w s))) with (all_symbols_loaded (clear_error w s)). rewrite A. easy.
Qed.
Lemma load_one_ok i n s h : s_handle s = Some h -> nth_error (k_names k) i = Some n -> inv s -> s_errbuf s = [] ->
  exists b s', load_one k w i n s = Ok (b, s') /\ loading s s' b /\ (b = true <-> get_ptr i s' <> None) /\
    (forall j, j <> i -> get_ptr j s' = get_ptr j s) /\
    get_ptr i s' = match get_ptr i s with Some p => Some p | None => w_sym w (s_trace s) h n end.
Proof.
  intros H Hn I Z. unfold load_one. destruct (get_ptr i s) as [p|] eqn:G.
  { exists true, s. conjs; auto; try easy; [apply frame_refl|]. rewrite G. easy. }
  destruct (ask k w K h i n s H Hn I) as (s1 & r & E & Hr & A & I1). rewrite E. cbn [bind].
  destruct A as (A1 & A2 & A3 & A4 & A5 & A6 & A7). rewrite <- Hr in A2, A7.
  exists (non_null r), (set_ptr i r s1). split; [easy|]. split; [|split; [|split]].
  - unfold loading. destruct r as [p|]; rewrite A7 in *.
    + conjs; auto; try easy. exact (frame_log (EvSym h n (Some p)) s Logic.I).
    + conjs; auto; try easy.
      * eapply frame_trans; [exact (frame_log (EvSym h n None) s Logic.I)|]. eapply frame_trans; [apply frame_error|apply frame_ptr].
      * unfold save_error, call_error, save_to_errbuf. now destruct (w_error _ _).
      * intros _ X. now apply (error_nonempty (EvSym h n None) (s_trace s)).
  - rewrite A2. apply non_null_spec.
  - exact A3.
  - now rewrite A2.
Qed.
Lemma load_symbol_ok num s : inv s -> exists b s', load_symbol k w num s = Ok (b, s') /\ loading s s' b.
Proof.
  intros I. unfold load_symbol. assert (I1 := clear_inv k w K s I). assert (F1 := frame_clear s).
  unfold lib_is_loaded. destruct (s_handle (clear_error w s)) as [h|] eqn:H; cbn [negb].
  2:{ exists false, (set_no_library k (clear_error w s)). conjs; try easy; [now apply save_inv|].
      intros _ _. apply print_nonempty. discriminate. }
  destruct (if (num <? 0)%Z then None else nth_error (k_names k) (Z.to_nat num)) as [n|] eqn:E.
  - assert (Hn : nth_error (k_names k) (Z.to_nat num) = Some n) by now destruct (num <? 0)%Z.
    destruct (load_one_ok _ _ _ _ H Hn I1 eq_refl) as (b & s' & R & (L1 & L2 & L3 & L4 & L5) & _). exists b, s'. split; [easy|].
    conjs; auto. eapply frame_trans; eassumption.
  - eexists false, _. split; [reflexivity|]. conjs; try easy; [now apply print_inv|].
    intros _ _. apply print_nonempty. discriminate.
Qed.

(** lookup by name *)
Lemma skip_prefix (p r : str) : skipn (length p) (p ++ r) = r.
Proof. induction p; cbn; auto. Qed.
Lemma find_symbol_none names : forall i symbol s, Forall (fun n => exists r, n = k_prefix k ++ r) names ->
  (exists r, symbol = k_prefix k ++ r) -> ~ In symbol names -> find_symbol k w names i symbol s = None.
Proof.
  induction names as [|n names IH]; intros i symbol s F P N; [easy|]. cbn [find_symbol]. inversion F as [|? ? [r Hr] F']; subst.
  destruct P as [q ->]. rewrite !skip_prefix.
  destruct (str_eqb q r) eqn:E.
  - apply str_eqb_true in E. subst. elim N. now left.
  - rewrite andb_false_r. apply IH; auto; [now exists q|]. intros X. apply N. now right.
Qed.
Lemma find_symbol_some names : forall i symbol s j, Forall (fun n => exists r, n = k_prefix k ++ r) names -> NoDup names ->
  nth_error names j = Some symbol -> find_symbol k w names i symbol s = Some (load_one k w (i + j) symbol s).
Proof.
  induction names as [|n names IH]; intros i symbol s j F D Hj; [now destruct j|].
  inversion F as [|? ? [r Hr] F']; subst. inversion D as [|? ? N D']; subst. cbn [find_symbol].
  destruct j as [|j]; cbn in Hj.
  - injection Hj as <-. now rewrite Nat.eqb_refl, str_eqb_refl, Nat.add_0_r.
  - assert (Hs : In symbol names) by now apply nth_error_In in Hj.
    destruct (proj1 (Forall_forall _ _) F' _ Hs) as [q ->]. rewrite !skip_prefix. destruct (str_eqb q r) eqn:E.
    + apply str_eqb_true in E. now subst.
    + rewrite andb_false_r. rewrite (IH (S i) _ s j F' D' Hj). f_equal. f_equal. lia.
Qed.
Lemma starts_with_app (p s : str) : starts_with p s = true <-> exists r, s = p ++ r.
Proof.
  revert s. induction p as [|c p IH]; intros s; cbn; [split; eauto|]. destruct s as [|d s].
  - split; [easy|]. now intros [r E].
  - rewrite andb_true_iff, Ascii.eqb_eq, IH. split.
    + intros [-> [r ->]]. now exists r.
    + intros [r [= -> ->]]. split; [easy|now exists r].
Qed.
Lemma prefix_test symbol : (Nat.eqb (length (k_prefix k)) 0 || starts_with (k_prefix k) symbol = true) <-> exists r, symbol = k_prefix k ++ r.
Proof.
  rewrite orb_true_iff, starts_with_app, Nat.eqb_eq. split; [|auto]. intros [E|E]; [|easy]. destruct (k_prefix k); [now exists symbol|easy].
Qed.
(** a name that is not known *)
Lemma load_name_unknown symbol s : inv s -> ~ (exists n, symbol = Some n /\ In n (k_names k)) ->
  exists s', load_symbol_name k w symbol s = Ok (false, s') /\ inv s' /\ frame s s' /\ s_libpath s' = s_libpath s /\
    s_ptrs s' = s_ptrs s /\ s_trace s' = EvError (w_error w (s_trace s)) :: s_trace s /\ s_errbuf s' <> [].
Proof.
  intros I N. unfold load_symbol_name. assert (I1 := clear_inv k w K s I). assert (F1 := frame_clear s).
  unfold lib_is_loaded. destruct (s_handle (clear_error w s)) as [h|] eqn:H; cbn [negb].
  2:{ exists (set_no_library k (clear_error w s)). conjs; try easy; [now apply save_inv|].
      apply print_nonempty. discriminate. }
  assert (U : forall m, c_str m <> [] -> exists s', Ok (false, print_errbuf k m (clear_error w s)) = Ok (false, s') /\ inv s' /\ frame s s' /\ s_libpath s' = s_libpath s /\
    s_ptrs s' = s_ptrs s /\ s_trace s' = EvError (w_error w (s_trace s)) :: s_trace s /\ s_errbuf s' <> []).
  { intros m Hm. eexists. split; [reflexivity|]. conjs; try easy; [now apply print_inv|now apply print_nonempty]. }
  destruct symbol as [[|c symbol]|]; [apply U; discriminate| |apply U; discriminate].
  destruct (Nat.eqb (length (k_prefix k)) 0 || starts_with (k_prefix k) (c :: symbol)) eqn:E; [|apply U; discriminate].
  apply prefix_test in E. rewrite find_symbol_none; [apply U; discriminate|apply K|easy|].
  intros X. apply N. eauto.
Qed.
Lemma load_name_known i n s : inv s -> nth_error (k_names k) i = Some n ->
  exists b s', load_symbol_name k w (Some n) s = Ok (b, s') /\ loading s s' b /\ (b = true <-> s_handle s <> None /\ get_ptr i s' <> None) /\
    (forall j, j <> i -> get_ptr j s' = get_ptr j s) /\
    (forall h, s_handle s = Some h -> get_ptr i s' = match get_ptr i s with Some p => Some p | None => w_sym w (s_trace (clear_error w s)) h n end).
Proof.
  intros I Hn. unfold load_symbol_name. assert (I1 := clear_inv k w K s I). assert (F1 := frame_clear s).
  unfold lib_is_loaded. destruct (s_handle (clear_error w s)) as [h|] eqn:H; cbn [negb].
  2:{ exists false, (set_no_library k (clear_error w s)). cbn in H. rewrite H. conjs; try easy.
      - now apply save_inv.
      - intros _ _. apply print_nonempty. discriminate. }
  assert (Hin := nth_error_In _ _ Hn).
  destruct (proj1 (Forall_forall _ _) (ok_text _ K) _ Hin) as [_ NE]. destruct n as [|c n]; [easy|].
  assert (P := proj1 (Forall_forall _ _) (ok_prefix _ K) _ Hin). apply prefix_test in P. rewrite P.
  rewrite (find_symbol_some _ 0 _ _ i (ok_prefix _ K) (ok_nodup _ K) Hn).
  destruct (load_one_ok _ _ _ _ H Hn I1 eq_refl) as (b & s' & R & (L1 & L2 & L3 & L4 & L5) & X1 & X2 & X3).
  exists b, s'. rewrite Nat.add_0_l. cbn in H. split; [easy|]. split; [|split; [|split]].
  - conjs; auto. eapply frame_trans; eassumption.
  - rewrite X1, H. intuition congruence.
  - exact X2.
  - intros h' E. assert (h' = h) by congruence. subst h'. exact X3.
Qed.
Lemma load_name_ok symbol s : inv s -> exists b s', load_symbol_name k w symbol s = Ok (b, s') /\ loading s s' b.
Proof.
  intros I. destruct symbol as [n|].
  - destruct (in_dec (list_eq_dec ascii_dec) n (k_names k)) as [X|X].
    + destruct (In_nth_error _ _ X) as [i Hi]. destruct (load_name_known i n s I Hi) as (b & s' & R & L & _). eauto.
    + destruct (load_name_unknown (Some n) s I) as (s' & R & I' & F & L & _ & _ & E).
      * intros (m & [= <-] & M). easy.
      * exists false, s'. conjs; easy.
  - destruct (load_name_unknown None s I) as (s' & R & I' & F & L & _ & _ & E); [now intros (m & [=] & M)|].
    exists false, s'. conjs; easy.
Qed.

(** the path of the library *)
Lemma path_inv p s h l : s_handle s = Some h -> session (s_trace s) = Some (h, l) -> named_path h p l -> length p < k_buflen k -> c_str p = p ->
  inv s -> inv (with_libpath p s).
Proof.
  intros H Hs N L C [A1 A2 A3 A4 A5 A6 A7]. split; auto.
  - intros X. cbn in X. congruence.
  - cbn [with_libpath s_handle s_trace s_libpath]. intros h' E. destruct (A3 h' E) as (B1 & l' & B2 & B3 & B4).
    assert (h' = h) by congruence. subst h'. assert (l' = l) by congruence. subst l'. split; [easy|]. exists l. repeat split; auto.
Qed.
Lemma path_empty_inv s : inv s -> inv (with_libpath [] s).
Proof.
  intros [A1 A2 A3 A4 A5 A6 A7]. assert (B := ok_buf _ K). split; auto.
  - intros X. split; [easy|]. apply A2. exact X.
  - intros h E. destruct (A3 h E) as (B1 & l' & B2 & B3 & B4). split; [easy|]. exists l'. repeat split; auto.
  - cbn. split; [lia|easy].
Qed.
Definition pathing (s s' : st) (b : bool) : Prop :=
  inv s' /\ frame s s' /\ s_ptrs s' = s_ptrs s /\ (s_errbuf s = [] -> b = true -> s_errbuf s' = []).
Ltac conjs ::= repeat match goal with |- _ /\ _ => split | |- pathing _ _ _ => split end.
Lemma copy_ok p s h l : s_handle s = Some h -> session (s_trace s) = Some (h, l) -> named_path h p l -> c_str p = p -> inv s ->
  exists b s', copy_path k p s = Ok (b, s') /\ pathing s s' b /\ (length p < k_buflen k -> b = true) /\ s_errbuf s' = s_errbuf s.
Proof.
  intros H Hs N C I. unfold copy_path, store_path. destruct (Nat.leb _ _) eqn:E.
  - apply Nat.leb_le in E. exists true, (with_libpath p s). conjs; auto; [eapply path_inv; eauto; lia|apply frame_libpath].
  - apply Nat.leb_gt in E. exists false, s. conjs; auto; try easy; [apply frame_refl|lia].
Qed.
Lemma session_log s e h : inert e -> s_handle s = Some h -> inv s -> exists l, session (s_trace (log e s)) = Some (h, e :: l).
Proof.
  intros Q H I. destruct (i_some _ _ I h H) as (_ & l & A & _). exists l. cbn [log s_trace]. destruct e; try easy; cbn [session]; now rewrite A.
Qed.
Lemma procmap_ok s h : s_handle s = Some h -> inv s ->
  exists b s', fullpath_procmap k w s = Ok (b, s') /\ pathing s s' b /\ s_errbuf s' = s_errbuf s /\
    (exists m, s_trace s' = EvMaps m :: s_trace s).
Proof.
  intros H I. unfold fullpath_procmap. set (r := w_maps w (s_trace s)).
  assert (J : inv (log (EvMaps r) (with_libpath [] s))) by (apply log_inv; [exact Logic.I|now apply path_empty_inv]).
  assert (F : frame s (log (EvMaps r) (with_libpath [] s))) by exact (frame_log (EvMaps r) (with_libpath [] s) Logic.I).
  destruct (session_log (with_libpath [] s) (EvMaps r) h Logic.I H (path_empty_inv _ I)) as [l Hl].
  destruct r as [p|] eqn:R; [|exists false; eexists; split; [reflexivity|]; split; [split; [exact J|split; [exact F|split; easy]]|split; [reflexivity|now eexists]]].
  destruct (Nat.ltb _ _) eqn:E; [|exists false; eexists; split; [reflexivity|]; split; [split; [exact J|split; [exact F|split; easy]]|split; [reflexivity|now eexists]]].
  apply Nat.ltb_lt in E. unfold store_path. replace (Nat.leb _ _) with true by (symmetry; apply Nat.leb_le; lia). cbn [bind].
  exists true; eexists. split; [reflexivity|]. split; [|split; [reflexivity|now eexists]]. split; [|split; [exact F|split; [reflexivity|auto]]].
  apply (path_inv _ _ h (EvMaps (Some p) :: l)); auto; [|apply c_str_id]. exists p. split; [easy|]. right; left. now left.
Qed.
(** the path could be had *)
Definition info_fits : Prop := forall t h n, w_info w t h = Some (Some n) -> length (c_str n) < k_buflen k.
Definition addr_fits : Prop := forall t h n, w_addr w t h = Some (Some n) -> length (c_str n) < k_buflen k.
Lemma dlinfo_ok s h : s_handle s = Some h -> inv s ->
  exists b s', libpath_dlinfo k w h s = Ok (b, s') /\ inv s' /\ frame s s' /\ s_ptrs s' = s_ptrs s /\ (b = true -> s_errbuf s' = []) /\
    (b = false -> explains w -> info_fits -> s_errbuf s' <> []).
Proof.
  intros H I. unfold libpath_dlinfo. apply (clear_inv k w K) in I. assert (F1 := frame_clear s).
  assert (Z : s_errbuf (clear_error w s) = []) by easy. assert (Pt : s_ptrs (clear_error w s) = s_ptrs s) by easy.
  assert (H1 : s_handle (clear_error w s) = Some h) by easy. clear H.
  remember (clear_error w s) as s1 eqn:E1. clear E1. set (r := w_info w (s_trace s1) h).
  assert (J : inv (log (EvInfo h r) s1)) by (apply log_inv; [apply (i_some _ _ I h H1)|easy]).
  destruct (session_log s1 (EvInfo h r) h Logic.I H1 I) as [l Hl].
  assert (F2 : frame s (log (EvInfo h r) s1)) by (eapply frame_trans; [exact F1|now apply frame_log]).
  destruct r as [name|] eqn:R.
  2:{ exists false; eexists. split; [reflexivity|]. split; [now apply error_inv|]. split; [eapply frame_trans; [exact F2|apply frame_error]|]. split.
      - rewrite <- Pt. unfold save_error, call_error, save_to_errbuf. now destruct (w_error _ _).
      - split; [easy|]. intros _ X _. now apply (error_nonempty (EvInfo h None) (s_trace s1)). }
  destruct (match name with Some n => c_str n | None => [] end) as [|c n] eqn:N.
  { exists false; eexists. split; [reflexivity|]. split; [now apply save_inv|]. split; [eapply frame_trans; [exact F2|apply frame_save]|]. split; [easy|].
    split; [easy|]. intros _ _ _. now apply print_nonempty. }
  destruct name as [n0|]; [|easy].
  assert (C : c_str (c :: n) = c :: n) by (rewrite <- N; apply c_str_id).
  assert (NP : named_path h (c :: n) (EvInfo h (Some (Some n0)) :: l)) by (exists n0; split; [easy|]; left; now left).
  assert (Fit : info_fits -> length (c :: n) < k_buflen k) by (intros X; rewrite <- N; now apply (X (s_trace s1) h)).
  destruct (k_linux k && negb (Ascii.eqb c "/")).
  - destruct (procmap_ok (log (EvInfo h (Some (Some n0))) s1) h H1 J) as (b & s2 & Q & (I2 & F3 & P3 & Q3) & E3 & m & T3).
    rewrite Q. cbn [bind]. destruct b.
    + exists true, s2. split; [easy|]. split; [easy|]. split; [eapply frame_trans; eassumption|]. split; [rewrite P3; exact Pt|]. split; [|easy].
      intros _. now rewrite E3.
    + destruct (copy_ok (c :: n) s2 h (EvMaps m :: EvInfo h (Some (Some n0)) :: l)) as (b & s3 & Q' & (I4 & F4 & P4 & Q4) & B4 & E4); auto.
      * destruct F3 as (Hh & _). now rewrite Hh.
      * rewrite T3. cbn [session]. now rewrite Hl.
      * now apply named_more.
      * exists b, s3. split; [easy|]. split; [easy|]. split; [repeat (eapply frame_trans; [eassumption|]); apply frame_refl|]. split; [rewrite P4, P3; exact Pt|].
        split; [intros _; rewrite E4, E3; exact Z|]. intros -> _ X. discriminate (B4 (Fit X)).
  - destruct (copy_ok (c :: n) (log (EvInfo h (Some (Some n0))) s1) h (EvInfo h (Some (Some n0)) :: l)) as (b & s3 & Q' & (I4 & F4 & P4 & Q4) & B4 & E4); auto.
    exists b, s3. split; [easy|]. split; [easy|]. split; [eapply frame_trans; eassumption|]. split; [rewrite P4; exact Pt|].
    split; [intros _; rewrite E4; exact Z|]. intros -> _ X. discriminate (B4 (Fit X)).
Qed.
Lemma dladdr_first_ok ps : forall s h, s_handle s = Some h -> inv s ->
  exists s', snd (dladdr_first w ps s) = s' /\ inv s' /\ frame s s' /\ s_ptrs s' = s_ptrs s /\ s_errbuf s' = s_errbuf s /\
    forall p, fst (dladdr_first w ps s) = Some p -> c_str p = p /\ (exists l, session (s_trace s') = Some (h, l) /\ named_path h p l) /\
      (addr_fits -> length p < k_buflen k).
Proof.
  induction ps as [|[q|] ps IH]; intros s h H I; cbn [dladdr_first].
  - exists s. conjs; auto; [apply frame_refl|easy].
  - set (r := w_addr w (s_trace s) q).
    assert (J : inv (log (EvAddr q r) s)) by (apply log_inv; easy).
    destruct (session_log s (EvAddr q r) h Logic.I H I) as [l Hl].
    destruct (match r with Some (Some n) => c_str n | _ => [] end) as [|c n] eqn:N.
    + destruct (IH (log (EvAddr q r) s) h H J) as (s' & A1 & A2 & A3 & A4 & A5 & A6). exists s'. conjs; auto.
      eapply frame_trans; [exact (frame_log (EvAddr q r) s Logic.I)|exact A3].
    + exists (log (EvAddr q r) s). conjs; auto; [now apply frame_log|]. cbn [fst]. intros p [= <-].
      destruct r as [[m|]|] eqn:R; try easy. split; [rewrite <- N; apply c_str_id|]. split.
      * eexists. split; [exact Hl|]. exists m. split; [easy|]. right; right. exists q. now left.
      * intros X. rewrite <- N. now apply (X (s_trace s) q).
  - now apply IH.
Qed.
Lemma dladdr_ok s h : s_handle s = Some h -> inv s ->
  exists b s', libpath_dladdr k w s = Ok (b, s') /\ inv s' /\ frame s s' /\ s_ptrs s' = s_ptrs s /\ (b = true -> s_errbuf s' = []) /\
    (b = false -> addr_fits -> s_errbuf s' <> []).
Proof.
  intros H I. unfold libpath_dladdr. apply (clear_inv k w K) in I. assert (F1 := frame_clear s).
  assert (Z : s_errbuf (clear_error w s) = []) by easy. assert (Pt : s_ptrs (clear_error w s) = s_ptrs s) by easy.
  assert (H1 : s_handle (clear_error w s) = Some h) by easy. clear H.
  remember (clear_error w s) as s1 eqn:E1. clear E1.
  destruct (no_symbols_loaded s1).
  { exists false; eexists. split; [reflexivity|]. split; [now apply save_inv|]. split; [eapply frame_trans; [exact F1|apply frame_save]|]. split; [easy|].
    split; [easy|]. intros _ _. now apply print_nonempty. }
  destruct (dladdr_first_ok (s_ptrs s1) s1 h H1 I) as (s2 & A1 & A2 & A3 & A4 & A5 & A6).
  destruct (dladdr_first w (s_ptrs s1) s1) as [[p|] s2']; cbn [fst snd] in *; subst s2'.
  - destruct (A6 p eq_refl) as (C & (l & Hl & NP) & Fit).
    destruct (copy_ok p s2 h l) as (b & s3 & Q' & (I4 & F4 & P4 & Q4) & B4 & E4); auto.
    + destruct A3 as (Hh & _). now rewrite Hh.
    + exists b, s3. split; [easy|]. split; [easy|]. split; [repeat (eapply frame_trans; [eassumption|]); apply frame_refl|]. split; [congruence|].
      split; [intros _; congruence|]. intros -> X. discriminate (B4 (Fit X)).
  - exists false; eexists. split; [reflexivity|]. split; [now apply save_inv|]. split; [repeat (eapply frame_trans; [eassumption|]); apply frame_save|].
    split; [cbn; congruence|]. split; [easy|]. intros _ _. now apply print_nonempty.
Qed.
Lemma library_path_ok s : inv s -> exists r s', library_path k w s = Ok (r, s') /\ inv s' /\ frame s s' /\ s_ptrs s' = s_ptrs s /\
  (r <> None -> s_errbuf s' = [] /\ r = Some (s_libpath s') /\ s_handle s <> None) /\
  (r = None -> explains w -> paths_fit k w -> s_errbuf s' <> []).
Proof.
  intros I. unfold library_path. apply (clear_inv k w K) in I. assert (F1 := frame_clear s).
  assert (Z : s_errbuf (clear_error w s) = []) by easy. assert (Pt : s_ptrs (clear_error w s) = s_ptrs s) by easy.
  assert (H1 : s_handle (clear_error w s) = s_handle s) by easy.
  remember (clear_error w s) as s1 eqn:E1. clear E1.
  destruct (k_dlinfo k) eqn:KI, (k_dladdr k) eqn:KA; cbn [orb negb].
  4:{ exists None; eexists. split; [reflexivity|]. split; [now apply save_inv|]. split; [eapply frame_trans; [exact F1|apply frame_save]|]. split; [easy|].
      split; [easy|]. intros _ _ _. now apply print_nonempty. }
  all: destruct (s_handle s1) as [h|] eqn:H; [|exists None; eexists; split; [reflexivity|]; split; [now apply save_inv|]; split; [eapply frame_trans; [exact F1|apply frame_save]|]; split; [easy|];
      split; [easy|]; intros _ _ _; now apply print_nonempty].
  all: destruct (s_libpath s1) as [|c p] eqn:LP; [|exists (Some (c :: p)), s1; split; [easy|]; split; [easy|]; split; [easy|]; split; [easy|]; split; [|easy];
      intros _; split; [easy|]; split; [now rewrite LP|congruence]].
  - destruct (dlinfo_ok s1 h H I) as (b & s2 & Q & I2 & F2 & P2 & B2 & X2). rewrite Q. cbn [bind]. destruct b.
    + eexists _, s2. split; [reflexivity|]. split; [easy|]. split; [eapply frame_trans; eassumption|]. split; [congruence|]. split; [|easy].
      intros _. split; [now apply B2|]. split; [easy|congruence].
    + assert (H2 : s_handle s2 = Some h) by (destruct F2 as (Hh & _); now rewrite Hh).
      destruct (dladdr_ok s2 h H2 I2) as (b & s3 & Q' & I3 & F3 & P3 & B3 & X3). rewrite Q'. cbn [bind]. destruct b.
      * eexists _, s3. split; [reflexivity|]. split; [easy|]. split; [repeat (eapply frame_trans; [eassumption|]); apply frame_refl|]. split; [congruence|]. split; [|easy].
        intros _. split; [now apply B3|]. split; [easy|congruence].
      * eexists None, _. split; [reflexivity|]. split; [now apply path_empty_inv|]. split; [repeat (eapply frame_trans; [eassumption|]); apply frame_libpath|].
        split; [cbn; congruence|]. split; [easy|]. intros _ _ [_ X]. now apply X3.
  - destruct (dlinfo_ok s1 h H I) as (b & s2 & Q & I2 & F2 & P2 & B2 & X2). rewrite Q. cbn [bind]. destruct b.
    + eexists _, s2. split; [reflexivity|]. split; [easy|]. split; [eapply frame_trans; eassumption|]. split; [congruence|]. split; [|easy].
      intros _. split; [now apply B2|]. split; [easy|congruence].
    + eexists None, _. split; [reflexivity|]. split; [now apply path_empty_inv|]. split; [repeat (eapply frame_trans; [eassumption|]); apply frame_libpath|].
      split; [cbn; congruence|]. split; [easy|]. intros _ X [Y _]. now apply X2.
  - cbn [bind]. destruct (dladdr_ok s1 h H I) as (b & s3 & Q' & I3 & F3 & P3 & B3 & X3). rewrite Q'. cbn [bind]. destruct b.
    + eexists _, s3. split; [reflexivity|]. split; [easy|]. split; [eapply frame_trans; eassumption|]. split; [congruence|]. split; [|easy].
      intros _. split; [now apply B3|]. split; [easy|congruence].
    + eexists None, _. split; [reflexivity|]. split; [now apply path_empty_inv|]. split; [repeat (eapply frame_trans; [eassumption|]); apply frame_libpath|].
      split; [cbn; congruence|]. split; [easy|]. intros _ _ [_ X]. now apply X3.
Qed.
End K.

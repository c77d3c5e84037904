(** Proofs about the small generated loaders: C43, C44. *)
From Coq Require Import Ascii String List Bool Arith ZArith Lia Permutation.
From Verif Require Import Str CRuntime SpecCRuntime MinRuntime SpecMinRuntime CRuntimeFacts CRuntimeProps2.
Import ListNotations.

(* ------------------------------------------------------------ minimal *)

Section M.
Variables (names : list str) (fl : Z) (w : world).
Notation nulls := (map (fun _ : str => @None ptr) names).
Notation mload := (m_load names fl w).
Notation mfree := (m_free names w).

Lemma symbols_ok todo : forall i h s, length (m_ptrs s) = i + length todo -> m_handle s = Some h ->
  match m_symbols names w todo i h s with
  | (None, s') => exists ps, length ps = length todo /\ m_handle s' = Some h /\
      m_ptrs s' = firstn i (m_ptrs s) ++ map Some ps /\ m_trace s' = rev (found h todo ps) ++ m_trace s
  | (Some e, s') => exists before n after ps ok, todo = before ++ n :: after /\ e = NotFound n /\ length ps = length before /\
      m_handle s' = None /\ m_ptrs s' = nulls /\
      m_trace s' = EvClose h ok :: EvSym h n None :: rev (found h before ps) ++ m_trace s
  end.
Proof.
  induction todo as [|n todo IH]; intros i h s L H; cbn [m_symbols].
  - exists []. cbn. rewrite app_nil_r, firstn_all2 by (cbn in L; lia). auto.
  - cbn [length] in L. destruct (w_sym w (m_trace s) h n) as [p|] eqn:E.
    + match goal with |- match m_symbols names w todo (S i) h ?x with _ => _ end => set (s1 := x) end.
      specialize (IH (S i) h s1).
      assert (L1 : length (m_ptrs s1) = S i + length todo) by (unfold s1; cbn [m_ptrs]; rewrite set_length; lia).
      specialize (IH L1 H). destruct (m_symbols names w todo (S i) h s1) as [[e|] s'].
      * destruct IH as (before & m & after & ps & ok & -> & -> & Lp & A & B & C).
        exists (n :: before), m, after, (p :: ps), ok. cbn [length app]. repeat split; auto.
        rewrite C. cbn. rewrite <- app_assoc. reflexivity.
      * destruct IH as (ps & Lp & A & B & C). exists (p :: ps). cbn [length map]. repeat split; auto.
        -- rewrite B. unfold s1; cbn [m_ptrs].
           replace (firstn (S i) (firstn i (m_ptrs s) ++ Some p :: skipn (S i) (m_ptrs s))) with (firstn i (m_ptrs s) ++ [Some p]).
           ++ rewrite <- app_assoc. reflexivity.
           ++ rewrite firstn_app, firstn_firstn, firstn_length.
              replace (Nat.min (S i) i) with i by lia. replace (S i - Nat.min i (length (m_ptrs s))) with 1 by lia. reflexivity.
        -- rewrite C. cbn. rewrite <- app_assoc. reflexivity.
    + exists [], n, todo, [], (w_close w (EvSym h n None :: m_trace s) h). cbn. rewrite H. repeat split.
Qed.

(** what loading does *)
Lemma load_cases file s : length (m_ptrs s) = length names ->
  match mload file s with
  | (None, s') => exists f h ps, file = Some f /\ c_str f <> [] /\ length ps = length names /\ m_handle s' = Some h /\ m_ptrs s' = map Some ps /\
      m_trace s' = rev (found h names ps) ++ EvOpen (c_str f) fl false (Some h) :: m_trace s
  | (Some NullName, s') => file = None /\ s' = s
  | (Some EmptyName, s') => (exists f, file = Some f /\ c_str f = []) /\ s' = s
  | (Some (NotOpened g), s') => exists f, file = Some f /\ g = c_str f /\ g <> [] /\ m_handle s' = None /\ m_ptrs s' = m_ptrs s /\
      m_trace s' = EvOpen g fl false None :: m_trace s
  | (Some (NotFound n), s') => exists f h before after ps ok, file = Some f /\ c_str f <> [] /\ names = before ++ n :: after /\ length ps = length before /\
      m_handle s' = None /\ m_ptrs s' = nulls /\
      m_trace s' = EvClose h ok :: EvSym h n None :: rev (found h before ps) ++ EvOpen (c_str f) fl false (Some h) :: m_trace s
  end.
Proof.
  intros L. unfold m_load. destruct file as [f|]; cbn [option_map]; [|auto].
  destruct (c_str f) as [|c g] eqn:F; [eauto|].
  destruct (w_open w (m_trace s) (c :: g) fl false) as [h|] eqn:E.
  - match goal with |- match m_symbols names w names 0 h ?x with _ => _ end => set (s1 := x) end.
    pose proof (symbols_ok names 0 h s1 L eq_refl) as IH.
    destruct (m_symbols names w names 0 h s1) as [[e|] s'].
    + destruct IH as (before & n & after & ps & ok & A & -> & B & C & D & G).
      exists f, h, before, after, ps, ok. rewrite F. repeat split; auto. discriminate.
    + destruct IH as (ps & A & B & C & D). exists f, h, ps. rewrite F. repeat split; auto. discriminate.
  - exists f. rewrite F. repeat split; auto. discriminate.
Qed.

(** honesty *)
Lemma free_honest s : honest w (m_trace s) -> honest w (m_trace (mfree s)).
Proof. intros A. unfold m_free. cbn. destruct (m_handle s); cbn; auto. Qed.
Lemma symbols_honest todo : forall i h s, honest w (m_trace s) -> honest w (m_trace (snd (m_symbols names w todo i h s))).
Proof.
  induction todo as [|n todo IH]; intros i h s A; cbn [m_symbols]; auto.
  destruct (w_sym w (m_trace s) h n) eqn:E.
  - apply IH. cbn. auto.
  - apply free_honest. cbn. auto.
Qed.
Lemma load_honest f s : honest w (m_trace s) -> honest w (m_trace (snd (mload f s))).
Proof.
  intros A. unfold m_load. destruct (option_map c_str f) as [[|c g]|]; auto.
  destruct (w_open w (m_trace s) (c :: g) fl false) eqn:E.
  - apply symbols_honest. cbn. auto.
  - cbn. auto.
Qed.

(** histories of symbol requests *)
Lemma found_open h ns ps t : open_handles (rev (found h ns ps) ++ t) = open_handles t.
Proof.
  unfold found. rewrite <- map_rev. induction (rev (combine ns ps)); cbn; auto.
Qed.
Lemma found_uses h ns ps t : In h (open_handles t) -> uses_open t -> uses_open (rev (found h ns ps) ++ t).
Proof.
  intros I U.
  unfold found. rewrite <- map_rev. induction (rev (combine ns ps)) as [|x l IH]; cbn; auto. split; auto.
  enough (E : open_handles (map (fun np : str * ptr => EvSym h (fst np) (Some (snd np))) l ++ t) = open_handles t) by (rewrite E; exact I).
  clear. induction l; cbn; auto.
Qed.

Definition loaded_now (s : mst) : Prop :=
  match m_handle s with
  | None => True
  | Some h => exists f ps calls older, length ps = length names /\ m_ptrs s = map Some ps /\ Forall is_call calls /\
      m_trace s = calls ++ rev (found h names ps) ++ EvOpen f fl false (Some h) :: older
  end.
Record minv (s : mst) : Prop := {
  mi_len : length (m_ptrs s) = length names;
  mi_uses : uses_open (m_trace s);
  mi_honest : honest w (m_trace s);
  mi_now : loaded_now s
}.
Lemma calls_open calls t : Forall is_call calls -> open_handles (calls ++ t) = open_handles t.
Proof. induction 1 as [|e l E]; cbn; auto. destruct e; try contradiction. auto. Qed.
Lemma calls_uses calls t : Forall is_call calls -> uses_open t -> uses_open (calls ++ t).
Proof. induction 1 as [|e l E]; cbn; auto. destruct e; try contradiction. auto. Qed.
Lemma minv_open s h : minv s -> m_handle s = Some h -> In h (open_handles (m_trace s)).
Proof.
  intros I H. pose proof (mi_now s I) as N. unfold loaded_now in N. rewrite H in N.
  destruct N as (f & ps & calls & older & _ & _ & C & ->). rewrite calls_open, found_open by auto. cbn. auto.
Qed.
Lemma minv_init : minv (m_init names).
Proof. constructor; cbn; auto. rewrite map_length. reflexivity. Qed.
Lemma minv_free s : minv s -> minv (mfree s).
Proof.
  intros I. constructor.
  - cbn. apply map_length.
  - unfold m_free. cbn. destruct (m_handle s) as [h|] eqn:H; cbn; [split|]; try apply I. apply minv_open; auto.
  - apply free_honest, I.
  - exact Logic.I.
Qed.
Lemma minv_load f s : minv s -> minv (snd (mload f s)).
Proof.
  intros I. pose proof (load_cases f s (mi_len s I)) as C. pose proof (load_honest f s (mi_honest s I)) as T.
  destruct (mload f s) as [[[| |g|n]|] s']; cbn [snd] in *.
  - destruct C as [_ ->]. exact I.
  - destruct C as [_ ->]. exact I.
  - destruct C as (f' & _ & _ & _ & H & P & E). constructor; auto.
    + rewrite P. apply I.
    + rewrite E. cbn. split; auto. apply I.
    + unfold loaded_now. rewrite H. exact Logic.I.
  - destruct C as (f' & h & before & after & ps & ok & _ & _ & N & Lp & H & P & E). constructor; auto.
    + rewrite P. apply map_length.
    + rewrite E. cbn. rewrite found_open. cbn. repeat split; auto. apply found_uses; cbn; auto. split; auto. apply I.
    + unfold loaded_now. rewrite H. exact Logic.I.
  - destruct C as (f' & h & ps & _ & _ & Lp & H & P & E). constructor; auto.
    + rewrite P, map_length. exact Lp.
    + rewrite E. apply found_uses; cbn; auto. split; auto. apply I.
    + unfold loaded_now. rewrite H. exists (c_str f'), ps, [], (m_trace s). auto.
Qed.
Lemma minv_step o s s' : minv s -> m_step names fl w s o = Ok s' -> minv s'.
Proof.
  intros I E. destruct o as [f| |i args]; cbn in E.
  - injection E as <-. apply minv_load, I.
  - injection E as <-. apply minv_free, I.
  - destruct (nth i (m_ptrs s) None) as [p|] eqn:P; [|discriminate]. injection E as <-. constructor; cbn; try apply I.
    + split; auto. apply I.
    + split; auto. apply I.
    + pose proof (mi_now s I) as N. unfold loaded_now in *. cbn. destruct (m_handle s); auto.
      destruct N as (f & ps & calls & older & A & B & C & D). exists f, ps, (EvCall p args :: calls), older.
      repeat split; auto; [constructor; cbn; auto|]. rewrite D. reflexivity.
Qed.
Lemma m_run_app ops o : m_run names fl w (ops ++ [o]) = (s <- m_run names fl w ops ;; m_step names fl w s o).
Proof. unfold m_run. rewrite fold_left_app. reflexivity. Qed.
Lemma run_minv ops : forall s, m_run names fl w ops = Ok s -> minv s.
Proof.
  induction ops as [|o ops IH] using rev_ind; intros s E.
  - injection E as <-. apply minv_init.
  - rewrite m_run_app in E. destruct (m_run names fl w ops) as [s0| | | ] eqn:R; try discriminate. cbn in E. eapply minv_step; eauto.
Qed.
Lemma reach_minv s : m_reachable names fl w s -> minv s.
Proof. intros [ops E]. eapply run_minv; eauto. Qed.

(** the theorems *)
Lemma minimal_success s file s' : m_reachable names fl w s -> mload file s = (None, s') ->
  exists f h ps, file = Some f /\ c_str f <> [] /\ length ps = length names /\ m_handle s' = Some h /\ m_ptrs s' = map Some ps /\
    m_trace s' = rev (found h names ps) ++ EvOpen (c_str f) fl false (Some h) :: m_trace s /\ honest w (m_trace s').
Proof.
  intros R E. pose proof (reach_minv s R) as I. pose proof (load_cases file s (mi_len s I)) as C. rewrite E in C.
  destruct C as (f & h & ps & A & B & C & D & F & G). exists f, h, ps. repeat split; auto.
  pose proof (load_honest file s (mi_honest s I)) as T. rewrite E in T. exact T.
Qed.
Lemma minimal_failure s file e s' : m_reachable names fl w s -> nothing_loaded s -> mload file s = (Some e, s') ->
  nothing_loaded s' /\ honest w (m_trace s') /\ exists new, m_trace s' = new ++ m_trace s /\
  match e with
  | NullName => file = None /\ new = []
  | EmptyName => (exists f, file = Some f /\ c_str f = []) /\ new = []
  | NotOpened f => option_map c_str file = Some f /\ f <> [] /\ new = [EvOpen f fl false None]
  | NotFound n => exists f h before after ps ok, option_map c_str file = Some f /\ f <> [] /\ names = before ++ n :: after /\ length ps = length before /\
      new = EvClose h ok :: EvSym h n None :: rev (found h before ps) ++ [EvOpen f fl false (Some h)]
  end.
Proof.
  intros R [N1 N2] E. pose proof (reach_minv s R) as I. pose proof (load_cases file s (mi_len s I)) as C.
  pose proof (load_honest file s (mi_honest s I)) as T. rewrite E in C, T. cbn [snd] in T.
  destruct e as [| |g|n].
  - destruct C as [-> ->]. repeat split; auto. exists []. auto.
  - destruct C as [A ->]. repeat split; auto. exists []. auto.
  - destruct C as (f & -> & -> & D & F & G & H). split; [split; auto; rewrite G; auto|]. split; auto.
    exists [EvOpen (c_str f) fl false None]. repeat split; auto.
  - destruct C as (f & h & before & after & ps & ok & -> & B & C & D & F & G & H).
    split; [split; auto; rewrite G; intros; apply nth_none|]. split; auto.
    eexists. split.
    + rewrite H. instantiate (1 := EvClose h ok :: EvSym h n None :: rev (found h before ps) ++ [EvOpen (c_str f) fl false (Some h)]).
      cbn. rewrite <- app_assoc. reflexivity.
    + exists (c_str f), h, before, after, ps, ok. repeat split; auto.
Qed.
Lemma minimal_always s : m_reachable names fl w s -> uses_open (m_trace s) /\ honest w (m_trace s) /\
  forall h, m_handle s = Some h -> In h (open_handles (m_trace s)) /\
    exists f ps calls older, length ps = length names /\ m_ptrs s = map Some ps /\ Forall is_call calls /\
      m_trace s = calls ++ rev (found h names ps) ++ EvOpen f fl false (Some h) :: older.
Proof.
  intros R. pose proof (reach_minv s R) as I. split; [apply I|]. split; [apply I|]. intros h H. split; [apply minv_open; auto|].
  pose proof (mi_now s I) as N. unfold loaded_now in N. rewrite H in N. exact N.
Qed.

Definition exact_now (s : mst) : Prop :=
  (m_handle s = None -> forall i, nth i (m_ptrs s) None = None) /\
  (never_refuses w -> open_handles (m_trace s) = match m_handle s with Some h => [h] | None => [] end).
Lemma exact_step s o s' : minv s -> exact_now s -> (forall f, o = MLoad f -> m_handle s = None) -> m_step names fl w s o = Ok s' -> exact_now s'.
Proof.
  intros I [X Y] L E. destruct o as [f| |i args]; cbn in E.
  - specialize (L f eq_refl). injection E as <-. pose proof (load_cases f s (mi_len s I)) as C.
    pose proof (load_honest f s (mi_honest s I)) as T.
    destruct (mload f s) as [[[| |g|n]|] s']; cbn [snd] in *.
    + destruct C as [_ ->]. split; auto.
    + destruct C as [_ ->]. split; auto.
    + destruct C as (f' & _ & _ & _ & H & P & E). split.
      * intros _ j. rewrite P. auto.
      * intros W. rewrite E, H. cbn. rewrite Y, L; auto.
    + destruct C as (f' & h & before & after & ps & ok & _ & _ & N & Lp & H & P & E). split.
      * intros _ j. rewrite P. apply nth_none.
      * intros W. rewrite E in T. cbn in T. destruct T as [T _]. rewrite W in T. subst ok.
        rewrite E, H. cbn. rewrite found_open. cbn. rewrite Nat.eqb_refl, Y, L; auto.
    + destruct C as (f' & h & ps & _ & _ & Lp & H & P & E). split.
      * rewrite H. discriminate.
      * intros W. rewrite E, H, found_open. cbn. rewrite Y, L; auto.
  - injection E as <-. split.
    + intros _ j. apply nth_none.
    + intros W. specialize (Y W). unfold m_free. cbn. destruct (m_handle s) as [h|]; cbn; auto.
      rewrite W, Y. cbn. rewrite Nat.eqb_refl. reflexivity.
  - destruct (nth i (m_ptrs s) None) as [p|] eqn:P; [|discriminate]. injection E as <-. split; cbn; auto.
Qed.
Lemma releases_prefix ops o : releases_first names fl w (ops ++ [o]) -> releases_first names fl w ops.
Proof. intros H pre f post s -> R. apply (H pre f (post ++ [o]) s); auto. rewrite <- app_assoc. reflexivity. Qed.
Lemma minimal_exact ops : forall s, releases_first names fl w ops -> m_run names fl w ops = Ok s ->
  (m_handle s = None -> nothing_loaded s) /\
  (never_refuses w -> open_handles (m_trace s) = match m_handle s with Some h => [h] | None => [] end).
Proof.
  enough (X : forall s, releases_first names fl w ops -> m_run names fl w ops = Ok s -> exact_now s).
  { intros s R E. destruct (X s R E) as [A B]. split; auto. intros H. split; auto. }
  induction ops as [|o ops IH] using rev_ind; intros s R E.
  - injection E as <-. split; cbn; auto. intros _ i. apply nth_none.
  - rewrite m_run_app in E. destruct (m_run names fl w ops) as [s0| | | ] eqn:G; try discriminate. cbn in E.
    eapply exact_step; eauto.
    + eapply run_minv; eauto.
    + apply IH; auto. eapply releases_prefix; eauto.
    + intros f ->. apply (R ops f []); auto.
Qed.
Lemma minimal_call s i args : m_reachable names fl w s -> m_handle s <> None -> i < length names ->
  exists p, m_step names fl w s (MCall i args) = Ok (mkmst (m_handle s) (m_ptrs s) (EvCall p args :: m_trace s)) /\ nth i (m_ptrs s) None = Some p.
Proof.
  intros R H L. pose proof (reach_minv s R) as I. pose proof (mi_now s I) as N. unfold loaded_now in N.
  destruct (m_handle s) as [h|] eqn:E; [|congruence].
  destruct N as (f & ps & calls & older & A & B & _). cbn. rewrite B, E.
  assert (X : exists p, nth i (map Some ps) None = Some p).
  { destruct (nth_error ps i) as [p|] eqn:P; [|apply nth_error_None in P; lia].
    exists p. apply nth_error_nth. rewrite nth_error_map, P. reflexivity. }
  destruct X as [p ->]. eauto.
Qed.
End M.

(** counterexamples: a loader with one library, opened twice *)
Definition counting (fail : nat) : world := mkworld
  (fun t _ _ _ => if Nat.eqb (opens t) fail then None else Some (opens t))
  (fun t h _ => Some (10 + h)) (fun _ _ => true) (fun _ => None) (fun _ => true) (fun _ _ => None) (fun _ _ => None) (fun _ => None).
Lemma second_load_leaks : exists names fl w ops s, never_refuses w /\ m_run names fl w ops = Ok s /\ ops = [MLoad (Some $"foo.so"); MLoad (Some $"foo.so"); MFree] /\
  m_handle s = None /\ opens (m_trace s) = 2 /\ closes (m_trace s) = 1.
Proof. exists [$"one"], 1%Z, (counting 9). do 2 eexists. split; [easy|]. split; [|split; [reflexivity|]]; vm_compute; auto. Qed.
Lemma failed_load_keeps_pointers : exists names fl w s s', m_reachable names fl w s /\
  m_load names fl w (Some $"bar.so") s = (Some (NotOpened $"bar.so"), s') /\ m_handle s' = None /\ nth 0 (m_ptrs s') None <> None /\
  opens (m_trace s') = 1 /\ closes (m_trace s') = 0.
Proof.
  exists [$"one"], 1%Z, (counting 1). do 2 eexists. split; [exists [MLoad (Some $"foo.so")]; vm_compute; reflexivity|].
  split; [vm_compute; reflexivity|]. vm_compute. repeat split. discriminate.
Qed.

(* ------------------------------------------------------------ plugins *)

Section P.
Variables (names : list str) (fl : Z) (w : world) (mem : nat -> bool).
Notation asked h ps := (map (fun np => EvSym h (fst np) (snd np)) (combine names ps)).

Lemma p_symbols_ok todo : forall h t, exists ps, length ps = length todo /\
  p_symbols w todo h t = (ps, rev (map (fun np => EvSym h (fst np) (snd np)) (combine todo ps)) ++ t).
Proof.
  induction todo as [|n todo IH]; intros h t; cbn [p_symbols].
  - exists []. auto.
  - destruct (IH h (EvSym h n (w_sym w t h n) :: t)) as (ps & L & E). rewrite E. eexists. split; [|f_equal].
    + cbn. rewrite L. reflexivity.
    + cbn. rewrite <- app_assoc. reflexivity.
Qed.
Lemma p_symbols_honest todo : forall h t, honest w t -> honest w (snd (p_symbols w todo h t)).
Proof.
  induction todo as [|n todo IH]; intros h t A; cbn [p_symbols]; auto.
  specialize (IH h (EvSym h n (w_sym w t h n) :: t)). destruct (p_symbols w todo h (EvSym h n (w_sym w t h n) :: t)). cbn [snd] in *.
  apply IH. cbn. auto.
Qed.
Lemma p_entry_ok f t a : exists e l a', p_entry names fl w mem f t a = (e, rev l ++ t, a') /\ plugin_of names fl f e l.
Proof.
  unfold p_entry. destruct f as [n|]; cbn [option_map].
  - destruct (c_str n) as [|c g] eqn:F.
    + exists (null_entry names), [], a. split; auto. apply no_name. eauto.
    + assert (NE : c_str n <> []) by (rewrite F; discriminate).
      assert (NM : (if mem a then Some (c :: g) else None) = Some (c_str n) \/ (if mem a then Some (c :: g) else None) = None) by (rewrite F; destruct (mem a); auto).
      destruct (w_open w t (c :: g) fl false) as [h|].
      * destruct (p_symbols_ok names h (EvOpen (c :: g) fl false (Some h) :: t)) as (ps & L & E). rewrite E.
        exists (mkentry (if mem a then Some (c :: g) else None) (Some h) ps), (EvOpen (c_str n) fl false (Some h) :: asked h ps), (S a). split; [|apply library; auto].
        cbn. rewrite F, <- app_assoc. reflexivity.
      * exists (mkentry (if mem a then Some (c :: g) else None) None (map (fun _ => None) names)), [EvOpen (c_str n) fl false None], (S a). split; [|apply no_library; auto]. rewrite F. reflexivity.
  - exists (null_entry names), [], a. split; auto. apply no_name. auto.
Qed.
Lemma p_entry_honest f t a : honest w t -> honest w (snd (fst (p_entry names fl w mem f t a))).
Proof.
  intros A. unfold p_entry. destruct (option_map c_str f) as [[|c g]|]; auto.
  destruct (w_open w t (c :: g) fl false) as [h|] eqn:E.
  - pose proof (p_symbols_honest names h (EvOpen (c :: g) fl false (Some h) :: t)) as X.
    destruct (p_symbols w names h (EvOpen (c :: g) fl false (Some h) :: t)). cbn in *. apply X. auto.
  - cbn. auto.
Qed.
Lemma p_entries_ok num : forall files t a, num <= length files -> exists es l a', p_entries names fl w mem num files t a = Ok (es, rev l ++ t, a') /\
  plugins_of names fl (firstn num files) es l.
Proof.
  induction num as [|num IH]; intros files t a L; cbn [p_entries].
  - exists [], [], a. split; auto. constructor.
  - destruct files as [|f files]; [cbn in L; lia|]. cbn in L.
    destruct (p_entry_ok f t a) as (e & l & a1 & -> & P).
    destruct (IH files (rev l ++ t) a1) as (es & ls & a2 & -> & Q); [lia|]. cbn.
    exists (e :: es), (l ++ ls), a2. split; [|constructor; auto]. rewrite rev_app_distr, <- app_assoc. reflexivity.
Qed.
Lemma p_entries_honest num : forall files t a es t' a', p_entries names fl w mem num files t a = Ok (es, t', a') -> honest w t -> honest w t'.
Proof.
  induction num as [|num IH]; intros files t a es t' a' E A; cbn [p_entries] in E.
  - injection E as <- <- <-. exact A.
  - destruct files as [|f files]; [discriminate|]. pose proof (p_entry_honest f t a A) as B.
    destruct (p_entry names fl w mem f t a) as [[e t1] a1]. cbn in B.
    destruct (p_entries names fl w mem num files t1 a1) as [[[es1 t2] a2]| | | ] eqn:G; try discriminate. cbn in E.
    injection E as <- <- <-. eapply IH; eauto.
Qed.
Lemma p_entries_short num : forall files t a es t' a', p_entries names fl w mem num files t a = Ok (es, t', a') -> num <= length files.
Proof.
  induction num as [|num IH]; intros files t a es t' a' E; cbn [p_entries] in E; [lia|].
  destruct files as [|f files]; [discriminate|]. destruct (p_entry names fl w mem f t a) as [[e t1] a1].
  destruct (p_entries names fl w mem num files t1 a1) as [[[es1 t2] a2]| | | ] eqn:G; try discriminate. apply IH in G. cbn. lia.
Qed.
Lemma plugins_length fs es l : plugins_of names fl fs es l -> length es = length fs.
Proof. induction 1; cbn; auto. Qed.

(** closing *)
Lemma p_close_ok es : forall t, exists l, p_close w es t = rev l ++ t /\ closed l = handles_of es /\ Forall is_close l.
Proof.
  induction es as [|e es IH]; intros t; cbn [p_close].
  - exists []. auto.
  - unfold handles_of. cbn. fold (handles_of es). destruct (pl_handle e) as [h|].
    + destruct (IH (EvClose h (w_close w t h) :: t)) as (l & -> & C & D). exists (EvClose h (w_close w t h) :: l). cbn.
      rewrite <- app_assoc. unfold closed in *. cbn. rewrite C. repeat split; auto. constructor; cbn; auto.
    + destruct (IH t) as (l & -> & C & D). exists l. auto.
Qed.
Lemma p_close_honest es : forall t, honest w t -> honest w (p_close w es t).
Proof. induction es as [|e es IH]; intros t A; cbn [p_close]; auto. apply IH. destruct (pl_handle e); cbn; auto. Qed.

Lemma remove_perm h l : In h l -> Permutation l (h :: remove_one h l).
Proof.
  induction l as [|x l IH]; [easy|]. cbn. destruct (Nat.eqb_spec h x) as [->|N]; [auto|]. intros [->|I]; [congruence|].
  eapply perm_trans; [apply perm_skip, IH, I|]. apply perm_swap.
Qed.
Lemma remove_perm2 h l l' : Permutation l (h :: l') -> Permutation (remove_one h l) l'.
Proof.
  intros P. apply (Permutation_cons_inv (a := h)). eapply perm_trans; [|exact P]. symmetry. apply remove_perm.
  apply (Permutation_in h (Permutation_sym P)). left. reflexivity.
Qed.
(** closing what is held; [rest] is what stays open *)
Lemma p_close_open es : forall t rest, never_refuses w -> Permutation (open_handles t) (handles_of es ++ rest) -> Permutation (open_handles (p_close w es t)) rest.
Proof.
  induction es as [|e es IH]; intros t rest W P; cbn [p_close]; auto.
  unfold handles_of in P. cbn in P. fold (handles_of es) in P. apply IH; auto. destruct (pl_handle e) as [h|]; auto.
  rewrite W. cbn in *. apply remove_perm2. exact P.
Qed.
Lemma p_close_uses es : forall t rest, uses_open t -> (forall x, count_occ Nat.eq_dec (handles_of es ++ rest) x <= count_occ Nat.eq_dec (open_handles t) x) ->
  uses_open (p_close w es t) /\ (forall x, count_occ Nat.eq_dec rest x <= count_occ Nat.eq_dec (open_handles (p_close w es t)) x).
Proof.
  induction es as [|e es IH]; intros t rest U S; cbn [p_close]; auto.
  unfold handles_of in S. cbn in S. fold (handles_of es) in S. destruct (pl_handle e) as [h|]; cbn [app] in S; [|apply IH; auto].
  assert (I : In h (open_handles t)).
  { apply (count_occ_In Nat.eq_dec). specialize (S h). cbn in S. destruct (Nat.eq_dec h h); [lia|congruence]. }
  apply IH; cbn; auto. intros x. specialize (S x). cbn in S. destruct (w_close w t h).
  - pose proof (proj1 (Permutation_count_occ Nat.eq_dec _ _) (remove_perm h _ I) x) as C. cbn in C. destruct (Nat.eq_dec h x); lia.
  - destruct (Nat.eq_dec h x); lia.
Qed.

(** opening *)
Lemma asked_open h ns ps t : open_handles (rev (map (fun np : str * option ptr => EvSym h (fst np) (snd np)) (combine ns ps)) ++ t) = open_handles t.
Proof. rewrite <- map_rev. induction (rev (combine ns ps)); cbn; auto. Qed.
Lemma asked_uses h ns ps t : In h (open_handles t) -> uses_open t -> uses_open (rev (map (fun np : str * option ptr => EvSym h (fst np) (snd np)) (combine ns ps)) ++ t).
Proof.
  intros I U. rewrite <- map_rev. induction (rev (combine ns ps)) as [|x l IH]; cbn; auto. split; auto.
  enough (E : open_handles (map (fun np : str * option ptr => EvSym h (fst np) (snd np)) l ++ t) = open_handles t) by (rewrite E; exact I).
  clear. induction l; cbn; auto.
Qed.
Lemma plugin_open f e l : plugin_of names fl f e l -> forall t, uses_open t -> uses_open (rev l ++ t) /\
  open_handles (rev l ++ t) = (match pl_handle e with Some h => [h] | None => [] end) ++ open_handles t.
Proof.
  intros P t U. destruct P as [| |n name h ps NE NM L]; cbn; auto.
  rewrite <- app_assoc. cbn. rewrite asked_open. cbn. split; auto. apply asked_uses; cbn; auto.
Qed.
Lemma plugins_open fs es l : plugins_of names fl fs es l -> forall t, uses_open t -> uses_open (rev l ++ t) /\
  Permutation (open_handles (rev l ++ t)) (handles_of es ++ open_handles t).
Proof.
  induction 1 as [|f fs e es l ls P Q IH]; intros t U; cbn; auto.
  rewrite rev_app_distr, <- app_assoc. destruct (plugin_open f e l P t U) as [A B].
  destruct (IH (rev l ++ t) A) as [C D]. split; auto. eapply perm_trans; [exact D|]. rewrite B.
  unfold handles_of. cbn. fold (handles_of es). rewrite <- app_assoc. rewrite !app_assoc. apply Permutation_app_tail, Permutation_app_comm.
Qed.

Record pinv (s : pst) : Prop := {
  pi_uses : uses_open (p_trace s);
  pi_honest : honest w (p_trace s);
  pi_held : forall x, count_occ Nat.eq_dec (held s) x <= count_occ Nat.eq_dec (open_handles (p_trace s)) x;
  pi_exact : never_refuses w -> Permutation (open_handles (p_trace s)) (held s)
}.
Definition lists_held (ls : list (option (list plugin_entry))) : list ptr := concat (map (fun l => match l with Some es => handles_of es | None => [] end) ls).
Lemma lists_app a b : lists_held (a ++ b) = lists_held a ++ lists_held b.
Proof. unfold lists_held. rewrite map_app, concat_app. reflexivity. Qed.
Lemma held_release ls i es : nth_error ls i = Some (Some es) ->
  Permutation (lists_held ls) (handles_of es ++ lists_held (firstn i ls ++ None :: skipn (S i) ls)).
Proof.
  intros E. apply nth_error_split in E. destruct E as (a & b & -> & <-).
  rewrite firstn_app, Nat.sub_diag, firstn_all. cbn [firstn]. rewrite app_nil_r.
  replace (skipn (S (length a)) (a ++ Some es :: b)) with b.
  2:{ rewrite skipn_app, skipn_all2 by lia. replace (S (length a) - length a) with 1 by lia. reflexivity. }
  rewrite !lists_app. cbn. rewrite !app_assoc. apply Permutation_app_tail, Permutation_app_comm.
Qed.
Lemma pinv_load files num s l s' : pinv s -> load_plugins names fl w mem files num s = Ok (l, s') ->
  pinv (mkpst (p_lists s' ++ match l with Some es => [Some es] | None => [] end) (p_trace s') (p_allocs s')).
Proof.
  intros I E. unfold load_plugins in E. assert (Z : (l, s') = (None, s) -> pinv (mkpst (p_lists s' ++ match l with Some es => [Some es] | None => [] end) (p_trace s') (p_allocs s'))).
  { intros [= -> ->]. rewrite app_nil_r. destruct s. exact I. }
  destruct files as [files|]; [|apply Z; congruence]. destruct num as [|num]; [apply Z; congruence|].
  destruct (mem (p_allocs s) && mem (S (p_allocs s))); [|discriminate].
  destruct (p_entries names fl w mem (S num) files (p_trace s) (S (S (p_allocs s)))) as [[[es t] a]| | | ] eqn:G; try discriminate. cbn [bind] in E.
  injection E as <- <-. cbn [p_lists p_trace p_allocs].
  pose proof (p_entries_honest _ _ _ _ _ _ _ G (pi_honest s I)) as T.
  destruct (p_entries_ok (S num) files (p_trace s) (S (S (p_allocs s))) (p_entries_short _ _ _ _ _ _ _ G)) as (es' & ls & a' & G' & Q).
  rewrite G in G'. injection G' as <- -> <-. destruct (plugins_open _ _ _ Q (p_trace s) (pi_uses s I)) as [A B].
  assert (HE : held (mkpst (p_lists s ++ [Some es]) (rev ls ++ p_trace s) a) = held s ++ handles_of es).
  { unfold held. cbn. rewrite map_app, concat_app. cbn. rewrite app_nil_r. reflexivity. }
  constructor; cbn [p_trace]; auto.
  - intros x. rewrite HE. rewrite (proj1 (Permutation_count_occ Nat.eq_dec _ _) B x). rewrite !count_occ_app.
    pose proof (pi_held s I x). unfold ptr in *. lia.
  - intros W. rewrite HE. eapply perm_trans; [exact B|]. eapply perm_trans; [apply Permutation_app_comm|]. apply Permutation_app_tail, I, W.
Qed.
Lemma pinv_release i s s' : pinv s -> release_plugins w i s = Ok s' -> pinv s'.
Proof.
  intros I E. unfold release_plugins in E. destruct (nth_error (p_lists s) i) as [[es|]|] eqn:N; try discriminate. injection E as <-.
  pose proof (held_release _ _ _ N) as H.
  set (rest := lists_held (firstn i (p_lists s) ++ None :: skipn (S i) (p_lists s))) in *.
  destruct (p_close_uses es (p_trace s) rest (pi_uses s I)) as [A B].
  { intros x. rewrite <- (proj1 (Permutation_count_occ Nat.eq_dec _ _) H x). apply I. }
  constructor; cbn [p_trace p_lists]; auto.
  - apply p_close_honest, I.
  - intros W. apply p_close_open; auto. eapply perm_trans; [apply I, W|]. exact H.
Qed.
Lemma pinv_step o s s' : pinv s -> p_step names fl w mem s o = Ok s' -> pinv s'.
Proof.
  intros I E. destruct o as [files num|[i|]|i j n args]; cbn [p_step] in E.
  - destruct (load_plugins names fl w mem files num s) as [[l s1]| | | ] eqn:G; try discriminate. cbn [bind] in E.
    pose proof (pinv_load _ _ _ _ _ I G) as P. destruct l; injection E as <-; auto.
    rewrite app_nil_r in P. destruct s1. exact P.
  - eapply pinv_release; eauto.
  - injection E as <-. exact I.
  - destruct (nth_error (p_lists s) i) as [[es|]|]; try discriminate. destruct (nth_error es j) as [e|]; try discriminate.
    destruct (nth n (pl_ptrs e) None); try discriminate. injection E as <-. destruct I. constructor; cbn; auto.
Qed.
Lemma p_run_app ops o : p_run names fl w mem (ops ++ [o]) = (s <- p_run names fl w mem ops ;; p_step names fl w mem s o).
Proof. unfold p_run. rewrite fold_left_app. reflexivity. Qed.
Lemma reach_pinv s : p_reachable names fl w mem s -> pinv s.
Proof.
  intros [ops E]. revert s E. induction ops as [|o ops IH] using rev_ind; intros s E.
  - injection E as <-. constructor; cbn; auto.
  - rewrite p_run_app in E. destruct (p_run names fl w mem ops) as [s0| | | ] eqn:R; try discriminate. cbn in E. eapply pinv_step; eauto.
Qed.

(** the theorems *)
Lemma plugins_loaded s files num : p_reachable names fl w mem s -> (forall n, mem n = true) -> 0 < num -> num <= length files ->
  exists es l s', load_plugins names fl w mem (Some files) num s = Ok (Some es, s') /\ length es = num /\
    plugins_of names fl (firstn num files) es l /\ p_trace s' = rev l ++ p_trace s /\ honest w (p_trace s').
Proof.
  intros R M N L. unfold load_plugins. destruct num as [|num]; [lia|]. rewrite !M. cbn [andb].
  destruct (p_entries_ok (S num) files (p_trace s) (S (S (p_allocs s))) L) as (es & l & a & G & Q). rewrite G. cbn [bind].
  exists es, l. eexists. split; [reflexivity|]. cbn [p_trace]. repeat split; auto.
  - rewrite (plugins_length _ _ _ Q), firstn_length. lia.
  - eapply p_entries_honest; eauto. apply reach_pinv, R.
Qed.
Lemma plugins_none s files num : files = None \/ num = 0 -> load_plugins names fl w mem files num s = Ok (None, s).
Proof. unfold load_plugins. intros [->| ->]; auto. destruct files; auto. Qed.
Lemma plugins_released s i es : p_reachable names fl w mem s -> nth_error (p_lists s) i = Some (Some es) ->
  exists l s', release_plugins w i s = Ok s' /\ p_trace s' = rev l ++ p_trace s /\ closed l = handles_of es /\ Forall is_close l /\
    honest w (p_trace s') /\ nth_error (p_lists s') i = Some None /\ (forall j, j <> i -> nth_error (p_lists s') j = nth_error (p_lists s) j).
Proof.
  intros R N. unfold release_plugins. rewrite N. destruct (p_close_ok es (p_trace s)) as (l & E & C & D).
  exists l. eexists. split; [reflexivity|]. cbn [p_trace p_lists]. repeat split; auto.
  - apply p_close_honest, reach_pinv, R.
  - apply nth_error_split in N. destruct N as (a & b & -> & <-). rewrite firstn_app, Nat.sub_diag, firstn_all. cbn [firstn].
    rewrite app_nil_r, nth_error_app2, Nat.sub_diag; auto.
  - intros j J. apply nth_error_split in N. destruct N as (a & b & -> & <-). rewrite firstn_app, Nat.sub_diag, firstn_all. cbn [firstn].
    rewrite app_nil_r. replace (skipn (S (length a)) (a ++ Some es :: b)) with b.
    2:{ rewrite skipn_app, skipn_all2 by lia. replace (S (length a) - length a) with 1 by lia. reflexivity. }
    destruct (Nat.lt_ge_cases j (length a)).
    + rewrite !nth_error_app1; auto.
    + rewrite !nth_error_app2 by lia. destruct (j - length a) as [|m] eqn:M; [lia|]. reflexivity.
Qed.
Lemma plugins_balance s : p_reachable names fl w mem s -> uses_open (p_trace s) /\ honest w (p_trace s) /\
  (never_refuses w -> Permutation (open_handles (p_trace s)) (held s)).
Proof. intros R. pose proof (reach_pinv s R) as I. repeat split; apply I. Qed.
Lemma plugins_defined s o : (forall n, mem n = true) -> careful s o -> exists s', p_step names fl w mem s o = Ok s'.
Proof.
  intros M C. destruct o as [[files|] num|[i|]|i j n args]; cbn [p_step careful] in *.
  - destruct num as [|num]; [cbn; eauto|]. unfold load_plugins. rewrite !M. cbn [andb].
    destruct (p_entries_ok (S num) files (p_trace s) (S (S (p_allocs s))) C) as (es & l & a & G & Q). rewrite G. cbn [bind]. eauto.
  - cbn. eauto.
  - destruct C as [es E]. unfold release_plugins. rewrite E. eauto.
  - eauto.
  - destruct C as (es & e & p & -> & -> & ->). eauto.
Qed.
End P.
Lemma out_of_memory : exists names fl w mem, p_run names fl w mem [PLoad (Some [Some $"foo.so"]) 1] = UB.
Proof. exists [], 1%Z, (counting 9), (fun _ => false). reflexivity. Qed.

(** what the caller is told *)
Lemma minimal_reported names fl w s file e s' : m_reachable names fl w s -> nothing_loaded s -> m_load names fl w file s = (Some e, s') ->
  exists new, m_trace s' = new ++ m_trace s /\
  match cxx_exception e with
  | LibraryError x => option_map c_str file = Some x /\ x <> [] /\ new = [EvOpen x fl false None] /\ c_message e = $"failed to load library" \/
      file = None /\ new = [] /\ x = $"<NULL>" /\ c_message e = $"filename is <NULL>" \/
      option_map c_str file = Some [] /\ new = [] /\ x = $"<EMPTY>" /\ c_message e = $"filename is empty"
  | SymbolError x => In x names /\ (exists h, In (EvSym h x None) new) /\ c_message e = $"failed to load symbol: " ++ x
  end.
Proof.
  intros R N L. destruct (minimal_failure names fl w s file e s' R N L) as (_ & _ & new & T & K). exists new. split; [exact T|].
  destruct e as [| |f|n]; cbn [cxx_exception c_message].
  - right; left. tauto.
  - right; right. destruct K as ((f & -> & K) & ->). cbn [option_map]. rewrite K. auto.
  - left. destruct K as (K1 & K2 & ->). auto.
  - destruct K as (f & h & b & a & ps & ok & _ & _ & -> & _ & ->). split; [apply in_app_iff; right; left; reflexivity|]. split; [|reflexivity].
    exists h. right; left. reflexivity.
Qed.

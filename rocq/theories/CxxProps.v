(** The C++ class: every member function is defined and keeps the invariant *)
From Coq Require Import Ascii String List Bool Arith ZArith Lia.
From Verif Require Import Str StrFacts SpecFormat CRuntime SpecCRuntime MinRuntime SpecMinRuntime CRuntimeFacts CRuntimeFacts2 CxxRuntime SpecCxxRuntime CxxFacts.
Import ListNotations.

Section K.
Variables (k : rconf) (w : world).
Hypothesis K : conf_ok k.
Notation sinv := (sinv k w).
Notation loading := (loading k w).

(** symbols by number *)
Lemma x_load_num_ok num s : sinv (snd s) -> exists b s', x_load_num k w num s = Ok (b, s') /\ loading s s' b /\
  match hndl s, (if (num <? 0)%Z then None else nth_error (k_names k) (Z.to_nat num)) with
  | Some h, Some n =>
      (forall j, j <> Z.to_nat num -> nth j (pointers s') None = nth j (pointers s) None) /\
      (b = true <-> nth (Z.to_nat num) (pointers s') None <> None) /\
      nth (Z.to_nat num) (pointers s') None = match nth (Z.to_nat num) (pointers s) None with Some p => Some p | None => w_sym w (past (x_clear w s)) h n end
  | _, _ => b = false /\ pointers s' = pointers s /\ o_err (fst s') <> []
  end.
Proof.
  intros I. unfold x_load_num. assert (J := clear_sinv k w s I). assert (F := clear_frame w s).
  change (x_loaded (x_clear w s)) with (non_null (hndl s)). destruct (hndl s) as [h|] eqn:H; cbn [negb non_null].
  - destruct (if (num <? 0)%Z then None else nth_error (k_names k) (Z.to_nat num)) as [n|] eqn:N.
    + assert (Hn : nth_error (k_names k) (Z.to_nat num) = Some n) by (destruct (num <? 0)%Z; [discriminate|exact N]).
      destruct (x_one_ok k w K (Z.to_nat num) n (x_clear w s) h H Hn J eq_refl) as (b & s' & R & L & X).
      exists b, s'. split; [exact R|]. split; [exact (loading_after k w _ _ _ _ F eq_refl L)|]. exact X.
    + eexists false, _. split; [reflexivity|]. split; [|repeat split; discriminate].
      split; [exact J|]. split; [eapply xframe_trans; [exact F|apply xframe_err]|]. repeat split; discriminate.
  - eexists false, _. split; [reflexivity|]. split; [|repeat split; discriminate].
    split; [now apply nolib_sinv|]. split; [eapply xframe_trans; [exact F|apply nolib_frame]|]. repeat split; discriminate.
Qed.

(** symbols by name *)
Lemma x_find_none names : forall i symbol s, Forall (fun n => exists r, n = k_prefix k ++ r) names ->
  (exists r, symbol = k_prefix k ++ r) -> ~ In symbol names -> x_find k w names i symbol s = None.
Proof.
  induction names as [|n names IH]; intros i symbol s F P N; [easy|]. cbn [x_find]. inversion F as [|? ? [r Hr] F']; subst.
  destruct P as [q ->]. rewrite !skip_prefix. destruct (str_eqb q r) eqn:E.
  - apply str_eqb_true in E. subst. elim N. now left.
  - rewrite andb_false_r. apply IH; auto; [now exists q|]. intros X. apply N. now right.
Qed.
Lemma x_find_some names : forall i symbol s j, Forall (fun n => exists r, n = k_prefix k ++ r) names -> NoDup names ->
  nth_error names j = Some symbol -> x_find k w names i symbol s = Some (x_one w (i + j) symbol s).
Proof.
  induction names as [|n names IH]; intros i symbol s j F D Hj; [now destruct j|].
  inversion F as [|? ? [r Hr] F']; subst. inversion D as [|? ? N D']; subst. cbn [x_find].
  destruct j as [|j]; cbn in Hj.
  - injection Hj as <-. now rewrite Nat.eqb_refl, str_eqb_refl, Nat.add_0_r.
  - assert (Hs : In symbol names) by now apply nth_error_In in Hj.
    destruct (proj1 (Forall_forall _ _) F' _ Hs) as [q ->]. rewrite !skip_prefix. destruct (str_eqb q r) eqn:E.
    + apply str_eqb_true in E. now subst.
    + rewrite andb_false_r. rewrite (IH (S i) _ s j F' D' Hj). f_equal. f_equal. lia.
Qed.
Lemma x_name_unknown symbol s : sinv (snd s) -> (forall n, symbol = Some n -> ~ In (c_str n) (k_names k)) ->
  exists s', x_load_name k w symbol s = Ok (false, s') /\ loading s s' false /\ pointers s' = pointers s /\ o_err (fst s') <> [] /\
    exists new, past s' = new ++ past s /\ forall e, In e new -> exists m, e = EvError m.
Proof.
  intros I N. unfold x_load_name. assert (J := clear_sinv k w s I). assert (F := clear_frame w s).
  change (x_loaded (x_clear w s)) with (non_null (hndl s)). destruct (hndl s) as [h|] eqn:H; cbn [negb non_null].
  2:{ eexists. split; [reflexivity|]. split; [|split; [easy|split; [easy|]]].
      - split; [now apply nolib_sinv|]. split; [eapply xframe_trans; [exact F|apply nolib_frame]|]. repeat split; discriminate.
      - exists [EvError (w_error w (past (x_clear w s))); EvError (w_error w (past s))]. split; [easy|]. intros e [<-|[<-|[]]]; eauto. }
  assert (U : forall m, m <> [] -> exists s', Ok (false, with_err m (x_clear w s)) = Ok (false, s') /\ loading s s' false /\ pointers s' = pointers s /\ o_err (fst s') <> [] /\
    exists new, past s' = new ++ past s /\ forall e, In e new -> exists m, e = EvError m).
  { intros m Hm. eexists. split; [reflexivity|]. split; [|split; [easy|split; [easy|]]].
    - split; [exact J|]. split; [eapply xframe_trans; [exact F|apply xframe_err]|]. repeat split; easy.
    - exists [EvError (w_error w (past s))]. split; [easy|]. intros e [<-|[]]; eauto. }
  destruct symbol as [n|]; cbn [option_map]; [|apply U; discriminate]. specialize (N n eq_refl).
  destruct (c_str n) as [|c m]; [apply U; discriminate|].
  destruct (Nat.eqb (length (k_prefix k)) 0 || starts_with (k_prefix k) (c :: m)) eqn:E; [|apply U; discriminate].
  apply prefix_test in E. rewrite x_find_none; [apply U; discriminate|apply K|exact E|exact N].
Qed.
Lemma x_name_known i n s : sinv (snd s) -> nth_error (k_names k) i = Some n ->
  exists b s', x_load_name k w (Some n) s = Ok (b, s') /\ loading s s' b /\
    (b = true <-> hndl s <> None /\ nth i (pointers s') None <> None) /\
    (forall j, j <> i -> nth j (pointers s') None = nth j (pointers s) None) /\
    (forall h, hndl s = Some h -> nth i (pointers s') None = match nth i (pointers s) None with Some p => Some p | None => w_sym w (past (x_clear w s)) h n end).
Proof.
  intros I Hn. unfold x_load_name. assert (J := clear_sinv k w s I). assert (F := clear_frame w s).
  change (x_loaded (x_clear w s)) with (non_null (hndl s)). destruct (hndl s) as [h|] eqn:H; cbn [negb non_null].
  2:{ eexists false, _. split; [reflexivity|]. split; [|split; [easy|split; easy]].
      split; [now apply nolib_sinv|]. split; [eapply xframe_trans; [exact F|apply nolib_frame]|]. repeat split; discriminate. }
  assert (Hin := nth_error_In _ _ Hn). destruct (proj1 (Forall_forall _ _) (ok_text _ K) _ Hin) as [CN NE].
  cbn [option_map]. rewrite CN. destruct n as [|c n]; [easy|].
  assert (P := proj1 (Forall_forall _ _) (ok_prefix _ K) _ Hin). apply prefix_test in P. rewrite P.
  rewrite (x_find_some _ 0 _ _ i (ok_prefix _ K) (ok_nodup _ K) Hn).
  destruct (x_one_ok k w K i _ (x_clear w s) h H Hn J eq_refl) as (b & s' & R & L & X1 & X2 & X3).
  exists b, s'. split; [exact R|]. split; [exact (loading_after k w _ _ _ _ F eq_refl L)|]. split; [|split].
  - rewrite X2. intuition congruence.
  - exact X1.
  - intros h' E. assert (h' = h) by congruence. subst h'. exact X3.
Qed.
Lemma x_load_name_ok symbol s : sinv (snd s) -> exists b s', x_load_name k w symbol s = Ok (b, s') /\ loading s s' b.
Proof.
  intros I. destruct symbol as [n|].
  - destruct (in_dec (list_eq_dec ascii_dec) (c_str n) (k_names k)) as [X|X].
    + destruct (In_nth_error _ _ X) as [i Hi]. destruct (x_name_known i (c_str n) s I Hi) as (b & s' & R & L & _).
      exists b, s'. split; [|exact L]. rewrite <- R. unfold x_load_name. cbn [option_map]. now rewrite c_str_id.
    + destruct (x_name_unknown (Some n) s I) as (s' & R & L & _); [now intros m [= <-]|]. eauto.
  - destruct (x_name_unknown None s I) as (s' & R & L & _); [easy|]. eauto.
Qed.

(** opening *)
Lemma x_load_filename_ok f s : sinv (snd s) -> let '(b, s') := x_load_filename k w f s in
  sinv (snd s') /\ okept (fst s) (fst s') /\ pointers s' = pointers s /\ o_libpath (fst s') = o_libpath (fst s) /\
  (b = true -> o_err (fst s') = []) /\ (b = false -> explains w -> o_err (fst s') <> []) /\
  (hndl s <> None -> b = false /\ hndl s' = hndl s /\ o_err (fst s') <> [] /\ past s' = EvError (w_error w (past s)) :: past s) /\
  (hndl s = None -> f = [] -> b = false /\ hndl s' = None /\ o_err (fst s') <> [] /\ past s' = EvError (w_error w (past s)) :: past s) /\
  (hndl s = None -> f <> [] -> exists r pre post,
     past s' = post ++ EvOpen (c_str f) (o_flags (fst s)) (k_dlmopen k && o_newns (fst s)) r :: pre ++ past s /\
     Forall inert pre /\ Forall inert post /\ hndl s' = r /\ b = non_null r).
Proof.
  intros I. unfold x_load_filename. assert (J := clear_sinv k w s I). assert (F := clear_frame w s).
  change (x_loaded (x_clear w s)) with (non_null (hndl s)). destruct (hndl s) as [h|] eqn:H; cbn [non_null].
  - split; [exact J|]. repeat split; try easy.
  - destruct f as [|c f]; [split; [exact J|]; repeat split; easy|].
    set (s1 := x_clear w s) in *. assert (J2 := clear_sinv k w s1 J).
    assert (H2 : hndl (x_clear w s1) = None) by exact H.
    unfold x_load_lib. set (s2 := x_clear w s1) in *. set (f0 := c_str (c :: f)) in *.
    assert (O := sinv_open k w f0 (o_flags (fst s)) (k_dlmopen k && o_newns (fst s)) (snd s2) H2 J2).
    fold (past s2) in O. change (o_flags (fst s2)) with (o_flags (fst s)). change (o_newns (fst s2)) with (o_newns (fst s)).
    set (ns := k_dlmopen k && o_newns (fst s)) in *.
    destruct (w_open w (past s2) f0 (o_flags (fst s)) ns) as [h|] eqn:R.
    + cbn [x_loaded hndl with_hndl snd h_handle non_null]. split; [exact O|]. repeat split; try easy.
      intros _ _. exists (Some h), [EvError (w_error w (past s1)); EvError (w_error w (past s))], []. repeat split; auto; repeat constructor.
    + cbn [x_loaded hndl with_hndl snd h_handle non_null]. split; [apply save_sinv; exact O|]. repeat split; try easy.
      * intros _ X. now apply (save_nonempty w (EvOpen f0 (o_flags (fst s)) ns None) (past s2)).
      * intros _ _. exists None, [EvError (w_error w (past s1)); EvError (w_error w (past s))]. eexists [_]. repeat split; auto; repeat constructor.
Qed.
Definition exact_open (g : shared) : Prop := open_handles (h_trace g) = match h_handle g with Some h => [h] | None => [] end.
Lemma x_load_filename_exact f s : exact_open (snd s) -> sinv (snd s) -> exact_open (snd (snd (x_load_filename k w f s))).
Proof.
  intros E I. pose proof (x_load_filename_ok f s I) as X. destruct (x_load_filename k w f s) as [b s']. cbn [snd].
  destruct X as (_ & _ & _ & _ & _ & _ & A & B & C). unfold exact_open in *. fold (past s) (hndl s) in E. fold (past s') (hndl s').
  destruct (hndl s) as [h|] eqn:H.
  - destruct (A ltac:(easy)) as (_ & -> & _ & ->). cbn. exact E.
  - destruct f as [|c f].
    + destruct (B eq_refl eq_refl) as (_ & -> & _ & ->). cbn. exact E.
    + destruct (C eq_refl ltac:(easy)) as (r & pre & post & -> & P1 & P2 & -> & _). rewrite inert_open by easy. cbn.
      destruct r; rewrite inert_open by easy; rewrite E; easy.
Qed.

(** closing *)
Lemma x_free_ok force s : sinv (snd s) -> let '(b, s') := x_free k w force s in
  sinv (snd s') /\ okept (fst s) (fst s') /\
  (b = true -> hndl s' = None /\ o_err (fst s') = [] /\ o_libpath (fst s') = [] /\ forall i, nth i (pointers s') None = None) /\
  (b = false -> force = false /\ hndl s' = hndl s /\ pointers s' = pointers s /\ o_libpath (fst s') = o_libpath (fst s) /\ (explains w -> o_err (fst s') <> [])) /\
  (exists new, past s' = new ++ past s /\ forall e, In e new -> (exists m, e = EvError m) \/ exists h ok, hndl s = Some h /\ e = EvClose h ok) /\
  (exact_open (snd s) -> never_refuses w \/ force = false -> exact_open (snd s')).
Proof.
  intros I. unfold x_free. assert (J := clear_sinv k w s I). set (s1 := x_clear w s) in *.
  change (hndl s1) with (hndl s). destruct (hndl s) as [h|] eqn:H.
  - assert (H1 : h_handle (snd s1) = Some h) by exact H. assert (C := sinv_close k w h (snd s1) H1 J). fold (past s1) in C.
    set (ok := w_close w (past s1) h) in *. destruct (ok || force) eqn:B; cbn [negb].
    + split; [exact C|]. split; [repeat split|]. split; [|split; [easy|split]].
      * intros _. repeat split. intros i. apply nth_none.
      * exists [EvClose h ok; EvError (w_error w (past s))]. split; [easy|]. intros e [<-|[<-|[]]]; [right; eauto|left; eauto].
      * intros E N. unfold exact_open in *. cbn. fold (hndl s) (past s) in E. rewrite H in E. fold (past s). assert (O : ok = true).
        { destruct N as [N|N]; [apply N|]. subst force. now rewrite orb_false_r in B. }
        rewrite O, E. cbn. now rewrite Nat.eqb_refl.
    + apply orb_false_iff in B. destruct B as [B1 B2]. split.
      { apply save_sinv. apply (sinv_log k w (EvClose h ok) (snd s1)); [rewrite B1; apply (si_some _ _ _ J h H1)| |exact J]. cbn. split; [reflexivity|apply J]. }
      split; [repeat split|]. split; [easy|]. split; [|split].
      * intros _. repeat split; auto. intros X. apply (save_nonempty w (EvClose h ok) (past s1)); [easy|now rewrite B1|reflexivity].
      * eexists [_; EvClose h ok; EvError (w_error w (past s))]. split; [reflexivity|]. intros e [<-|[<-|[<-|[]]]]; [left; eauto|right; eauto|left; eauto].
      * intros E _. unfold exact_open in *. cbn. fold (hndl s) (past s) in *. rewrite B1. exact E.
  - split; [exact (sinv_reset k w (snd s1) J)|]. split; [repeat split|]. split; [|split; [easy|split]].
    + intros _. repeat split. intros i. apply nth_none.
    + exists [EvError (w_error w (past s))]. split; [easy|]. intros e [<-|[]]; eauto.
    + intros E _. unfold exact_open in *. cbn. fold (hndl s) (past s) in *. rewrite H in E. exact E.
Qed.

(** the path of the library *)
Lemma x_dlinfo_ok h s : hndl s = Some h -> sinv (snd s) -> let '(b, s') := x_path_dlinfo k w h s in
  sinv (snd s') /\ xframe s s' /\ pointers s' = pointers s /\
  (b = true -> o_err (fst s') = o_err (fst s) /\ exists new, past s' = new ++ past s /\ forall t, named_path h (o_libpath (fst s')) (new ++ t)) /\
  (b = true -> maps_named w -> o_libpath (fst s') <> []) /\
  (b = false -> o_libpath (fst s') = o_libpath (fst s) /\ (explains w -> o_err (fst s') <> [])).
Proof.
  intros H I. unfold x_path_dlinfo. set (r := w_info w (past s) h).
  assert (J : sinv (snd (record (EvInfo h r) s))).
  { apply (sinv_log k w (EvInfo h r) (snd s)); [apply (si_some _ _ _ I h H)| |exact I]. cbn. split; [easy|apply I]. }
  assert (F : xframe s (record (EvInfo h r) s)) by now apply xframe_record.
  destruct r as [name|] eqn:R.
  2:{ split; [now apply save_sinv|]. split; [eapply xframe_trans; [exact F|apply save_frame]|]. split; [easy|]. split; [easy|]. split; [easy|].
      intros _. split; [easy|]. intros X. now apply (save_nonempty w (EvInfo h None) (past s)). }
  destruct (match name with Some n => c_str n | None => [] end) as [|c n] eqn:E.
  { split; [exact J|]. split; [eapply xframe_trans; [exact F|apply xframe_err]|]. split; [easy|]. split; [easy|]. split; [easy|].
    intros _. split; [easy|]. intros _. discriminate. }
  destruct name as [nm|]; [|discriminate].
  assert (Z : forall new t, named_path h (c :: n) ((new ++ [EvInfo h (Some (Some nm))]) ++ t)).
  { intros new t. exists nm. split; [exact E|]. left. rewrite <- app_assoc. apply in_or_app. right. now left. }
  destruct (k_linux k && negb (Ascii.eqb c "/"%char)).
  - set (s1 := record (EvInfo h (Some (Some nm))) s) in *. set (m := w_maps w (past s1)).
    assert (J2 : sinv (snd (record (EvMaps m) s1))).
    { apply (sinv_log k w (EvMaps m) (snd s1)); [exact Logic.I| |exact J]. cbn. split; [easy|]. exact (si_honest _ _ _ J). }
    assert (F2 : xframe s (record (EvMaps m) s1)) by (eapply xframe_trans; [exact F|now apply xframe_record]).
    assert (W : forall p, (forall t, named_path h p ([EvMaps m; EvInfo h (Some (Some nm))] ++ t)) -> (maps_named w -> p <> []) ->
      let s' := with_path p (record (EvMaps m) s1) in
      sinv (snd s') /\ xframe s s' /\ pointers s' = pointers s /\
      (true = true -> o_err (fst s') = o_err (fst s) /\ exists new, past s' = new ++ past s /\ forall t, named_path h (o_libpath (fst s')) (new ++ t)) /\
      (true = true -> maps_named w -> o_libpath (fst s') <> []) /\
      (true = false -> o_libpath (fst s') = o_libpath (fst s) /\ (explains w -> o_err (fst s') <> []))).
    { intros p P Q s'. split; [exact J2|]. split; [eapply xframe_trans; [exact F2|apply xframe_path]|]. split; [easy|]. split; [|split; [|easy]].
      - intros _. split; [easy|]. exists [EvMaps m; EvInfo h (Some (Some nm))]. split; [easy|]. exact P.
      - intros _ M. exact (Q M). }
    destruct m as [p|] eqn:M.
    + destruct (Nat.ltb (length (c_str p)) (k_buflen k)).
      * apply W; [|intros X; exact (X _ _ M)]. intros t. exists p. split; [easy|]. right. left. now left.
      * apply W; [|discriminate]. intros t. apply (Z [EvMaps (Some p)]).
    + apply W; [|discriminate]. intros t. apply (Z [EvMaps None]).
  - split; [exact J|]. split; [eapply xframe_trans; [exact F|apply xframe_path]|]. split; [easy|]. split; [|split; [|easy]].
    + intros _. split; [easy|]. exists [EvInfo h (Some (Some nm))]. split; [easy|]. intros t. apply (Z [] t).
    + intros _ _. discriminate.
Qed.
Lemma x_addr_ok ps : forall s, sinv (snd s) -> let '(r, s') := x_addr_first w ps s in
  sinv (snd s') /\ xframe s s' /\ fst s' = fst s /\ pointers s' = pointers s /\
  (forall p, r = Some p -> p <> [] /\ exists new, past s' = new ++ past s /\ forall h t, named_path h p (new ++ t)).
Proof.
  induction ps as [|[p|] ps IH]; intros s I; cbn [x_addr_first].
  - split; [exact I|]. split; [apply xframe_refl|]. easy.
  - set (r := w_addr w (past s) p).
    assert (J : sinv (snd (record (EvAddr p r) s))).
    { apply (sinv_log k w (EvAddr p r) (snd s)); [exact Logic.I| |exact I]. cbn. split; [easy|apply I]. }
    assert (F : xframe s (record (EvAddr p r) s)) by now apply xframe_record.
    destruct (match r with Some (Some n) => c_str n | _ => [] end) as [|c n] eqn:E.
    + specialize (IH (record (EvAddr p r) s) J). destruct (x_addr_first w ps (record (EvAddr p r) s)) as [q s'].
      destruct IH as (A & B & C & D & G). split; [exact A|]. split; [eapply xframe_trans; eassumption|]. split; [exact C|]. split; [exact D|].
      intros x Hx. destruct (G x Hx) as (N & new & T & P). split; [exact N|]. exists (new ++ [EvAddr p r]). rewrite T, <- app_assoc. split; [easy|].
      intros h t. rewrite <- app_assoc. apply P.
    + destruct r as [[nm|]|] eqn:R; try discriminate. split; [exact J|]. split; [exact F|]. split; [easy|]. split; [easy|].
      intros x [= <-]. split; [easy|]. exists [EvAddr p (Some (Some nm))]. split; [easy|]. intros h t. exists nm. split; [exact E|].
      right. right. exists p. now left.
  - now apply IH.
Qed.
Lemma x_dladdr_ok s : sinv (snd s) -> let '(b, s') := x_path_dladdr w s in
  sinv (snd s') /\ xframe s s' /\ pointers s' = pointers s /\
  (b = true -> o_err (fst s') = o_err (fst s) /\ o_libpath (fst s') <> [] /\ exists new, past s' = new ++ past s /\ forall h t, named_path h (o_libpath (fst s')) (new ++ t)) /\
  (b = false -> o_libpath (fst s') = o_libpath (fst s) /\ o_err (fst s') <> []).
Proof.
  intros I. unfold x_path_dladdr. destruct (x_none s).
  - split; [exact I|]. split; [apply xframe_err|]. split; [easy|]. split; [easy|]. intros _. split; [easy|]. discriminate.
  - pose proof (x_addr_ok (pointers s) s I) as X. destruct (x_addr_first w (pointers s) s) as [[p|] s']; destruct X as (A & B & C & D & G).
    + destruct (G p eq_refl) as (N & new & T & P). split; [exact A|]. split; [eapply xframe_trans; [exact B|apply xframe_path]|]. split; [exact D|]. split; [|easy].
      intros _. cbn. rewrite C. split; [easy|]. split; [easy|]. exists new. now split.
    + split; [exact A|]. split; [eapply xframe_trans; [exact B|apply xframe_err]|]. split; [exact D|]. split; [easy|].
      intros _. cbn. rewrite C. split; [easy|]. discriminate.
Qed.
Lemma x_library_path_ok s : sinv (snd s) -> let '(p, s') := x_library_path k w s in
  sinv (snd s') /\ xframe s s' /\ pointers s' = pointers s /\
  (p <> [] -> exists h, hndl s = Some h /\ o_libpath (fst s') = p /\
     (o_libpath (fst s) = p \/ o_libpath (fst s) = [] /\ exists new, past s' = new ++ past s /\ forall t, named_path h p (new ++ t))) /\
  (p = [] -> maps_named w -> explains w -> o_err (fst s') <> []) /\
  (o_libpath (fst s') = o_libpath (fst s) \/ o_libpath (fst s') = p /\ hndl s <> None /\ o_libpath (fst s) = []) /\
  (p <> [] -> k_dlinfo k = false \/ k_dladdr k = false \/ o_libpath (fst s) <> [] -> o_err (fst s') = []).
Proof.
  intros I. unfold x_library_path. assert (J := clear_sinv k w s I). assert (F := clear_frame w s). set (s1 := x_clear w s) in *.
  destruct (k_dlinfo k || k_dladdr k) eqn:D; cbn [negb].
  2:{ split; [exact J|]. split; [eapply xframe_trans; [exact F|apply xframe_err]|]. repeat split; try easy. now left. }
  change (hndl s1) with (hndl s). destruct (hndl s) as [h|] eqn:H.
  2:{ split; [now apply nolib_sinv|]. split; [eapply xframe_trans; [exact F|apply nolib_frame]|]. repeat split; try easy. now left. }
  change (o_libpath (fst s1)) with (o_libpath (fst s)). destruct (o_libpath (fst s)) as [|c q] eqn:Q.
  2:{ split; [exact J|]. split; [exact F|]. split; [easy|]. split; [|split; [easy|split; [now left|easy]]].
      intros _. exists h. split; [easy|]. split; [exact Q|]. now left. }
  assert (H1 : hndl s1 = Some h) by exact H.
  assert (A : let '(b, s2) := if k_dlinfo k then x_path_dlinfo k w h s1 else (false, s1) in
    sinv (snd s2) /\ xframe s1 s2 /\ pointers s2 = pointers s1 /\
    (b = true -> o_err (fst s2) = [] /\ exists new, past s2 = new ++ past s1 /\ forall t, named_path h (o_libpath (fst s2)) (new ++ t)) /\
    (b = true -> maps_named w -> o_libpath (fst s2) <> []) /\
    (b = false -> o_libpath (fst s2) = [] /\ (k_dlinfo k = true -> explains w -> o_err (fst s2) <> []) /\ (k_dlinfo k = false -> o_err (fst s2) = []))).
  { destruct (k_dlinfo k).
    - pose proof (x_dlinfo_ok h s1 H1 J) as X. destruct (x_path_dlinfo k w h s1) as [b s2]. destruct X as (A & B & C & E & G & L).
      split; [exact A|]. split; [exact B|]. split; [exact C|]. split; [exact E|]. split; [exact G|]. intros Hb. destruct (L Hb) as [L1 L2].
      split; [now rewrite L1|]. split; [auto|easy].
    - split; [exact J|]. split; [apply xframe_refl|]. repeat split; easy. }
  destruct (if k_dlinfo k then x_path_dlinfo k w h s1 else (false, s1)) as [[|] s2]; destruct A as (A & B & C & E & G & L).
  { destruct (E eq_refl) as (E1 & new & T & P). split; [exact A|]. split; [eapply xframe_trans; [exact F|exact B]|]. split; [exact C|]. split; [|split; [|split]].
    - intros _. exists h. split; [easy|]. split; [easy|]. right. split; [easy|]. exists (new ++ [EvError (w_error w (past s))]). split; [rewrite T, <- app_assoc; easy|].
      intros t. rewrite <- app_assoc. apply P.
    - intros Z M. now elim (G eq_refl M).
    - right. repeat split; easy.
    - intros _ _. exact E1. }
  destruct (L eq_refl) as (L1 & L2 & L3).
  assert (B2 : exists new, past s2 = new ++ past s1) by (destruct B as (_ & _ & new & T & _); eauto). destruct B2 as [new2 T2].
  destruct (k_dladdr k) eqn:DA.
  - pose proof (x_dladdr_ok s2 A) as X. destruct (x_path_dladdr w s2) as [[|] s3]; destruct X as (A' & B' & C' & E' & G').
    + destruct (E' eq_refl) as (E1 & E2 & new & T & P). split; [exact A'|]. split; [eapply xframe_trans; [exact F|eapply xframe_trans; eassumption]|]. split; [rewrite C'; exact C|].
      split; [|split; [|split]].
      * intros _. exists h. split; [easy|]. split; [easy|]. right. split; [easy|]. exists (new ++ new2 ++ [EvError (w_error w (past s))]).
        split; [rewrite T, T2, <- !app_assoc; easy|]. intros t. rewrite <- app_assoc. apply P.
      * intros Z. now elim E2.
      * right. repeat split; easy.
      * intros _ [Z|[Z|Z]]; [|discriminate|now elim Z]. rewrite E1. now apply L3.
    + destruct (G' eq_refl) as (G1 & G2). split; [exact A'|]. split; [eapply xframe_trans; [exact F|eapply xframe_trans; eassumption]|]. split; [rewrite C'; exact C|].
      split; [easy|]. split; [easy|]. split; [left; now rewrite G1|easy].
  - assert (k_dlinfo k = true) by (rewrite orb_false_r in D; exact D).
    split; [exact A|]. split; [eapply xframe_trans; [exact F|exact B]|]. split; [exact C|].
    split; [easy|]. split; [auto|]. split; [left; exact L1|easy].
Qed.
End K.

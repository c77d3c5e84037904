(** The C++ class: what every member function keeps *)
From Coq Require Import Ascii String List Bool Arith ZArith Lia.
From Verif Require Import Str StrFacts SpecFormat CRuntime SpecCRuntime MinRuntime SpecMinRuntime CRuntimeFacts CRuntimeFacts2 CxxRuntime SpecCxxRuntime.
Import ListNotations.

(** the event tells what the loader said *)
Definition told_true (w : world) (t : list event) (e : event) : Prop := honest w (e :: t) <-> honest w t.

Section K.
Variables (k : rconf) (w : world).
Hypothesis K : conf_ok k.

Record sinv (g : shared) : Prop := {
  si_len : length (h_ptrs g) = length (k_names k);
  si_none : h_handle g = None -> forall i, nth i (h_ptrs g) None = None;
  si_some : forall h, h_handle g = Some h -> In h (open_handles (h_trace g)) /\
    exists l, session (h_trace g) = Some (h, l) /\ forall i n, nth_error (k_names k) i = Some n -> nth i (h_ptrs g) None = last_answer h n l;
  si_uses : uses_open (h_trace g);
  si_honest : honest w (h_trace g)
}.
Definition logged (e : event) (g : shared) : shared := mkshared (h_handle g) (h_ptrs g) (e :: h_trace g).

Lemma sinv_init : sinv (c_sh (c_init k)).
Proof. split; cbn; try easy; [now rewrite map_length|]. intros _ i. apply nth_none. Qed.
Lemma sinv_log e g : quiet (h_trace g) e -> honest w (e :: h_trace g) -> sinv g -> sinv (logged e g).
Proof.
  intros Q T [L N S U H]. split; auto.
  - intros h Hh. cbn [h_handle logged] in Hh. destruct (S h Hh) as (O & l & A & B). cbn [h_trace logged].
    rewrite (quiet_open _ _ Q), (quiet_session _ _ Q), A. split; [easy|]. exists (e :: l). split; [easy|].
    intros i n I. rewrite (quiet_answer _ _ _ _ _ Q). now apply B.
  - cbn [h_trace logged]. now apply quiet_uses.
Qed.
Lemma sinv_open f fl ns g : h_handle g = None -> sinv g ->
  sinv (mkshared (w_open w (h_trace g) f fl ns) (h_ptrs g) (EvOpen f fl ns (w_open w (h_trace g) f fl ns) :: h_trace g)).
Proof.
  intros H [L N S U T]. specialize (N H). destruct (w_open w (h_trace g) f fl ns) as [h|] eqn:E; split; cbn; auto; try easy.
  intros h' [= <-]. split; [now left|]. exists []. split; [easy|]. intros i n _. apply N.
Qed.
Lemma sinv_reset g : sinv g -> sinv (mkshared None (map (fun _ => None) (k_names k)) (h_trace g)).
Proof. intros [L N S U T]. split; cbn; auto; try easy; [now rewrite map_length|]. intros _ i. apply nth_none. Qed.
Lemma sinv_close h g : h_handle g = Some h -> sinv g ->
  sinv (mkshared None (map (fun _ => None) (k_names k)) (EvClose h (w_close w (h_trace g) h) :: h_trace g)).
Proof.
  intros H I. assert (O := proj1 (si_some g I h H)). destruct I as [L N S U T]. split; cbn; auto; try easy; [now rewrite map_length|].
  intros _ i. apply nth_none.
Qed.
Lemma sinv_ask h i n g : h_handle g = Some h -> nth_error (k_names k) i = Some n -> sinv g ->
  let r := w_sym w (h_trace g) h n in
  sinv (mkshared (h_handle g) (firstn i (h_ptrs g) ++ r :: skipn (S i) (h_ptrs g)) (EvSym h n r :: h_trace g)).
Proof.
  intros H Hn I r. assert (Hi : i < length (h_ptrs g)) by (rewrite (si_len _ I); apply nth_error_Some; congruence).
  destruct (si_some _ I h H) as (O & l & A & B). assert (Dn := ok_nodup _ K). split; cbn [h_handle h_ptrs h_trace].
  - rewrite set_length by lia. apply I.
  - rewrite H. discriminate.
  - rewrite H. intros h' [= <-]. split; [exact O|]. exists (EvSym h n r :: l). split; [cbn; now rewrite A|].
    intros j m Hm. rewrite nth_set by lia. cbn. rewrite Nat.eqb_refl. cbn. destruct (Nat.eqb_spec j i) as [->|N].
    + assert (m = n) by congruence. subst. now rewrite str_eqb_refl.
    + destruct (str_eqb m n) eqn:E; [|now apply B]. apply str_eqb_true in E. subst m. elim N.
      apply (proj1 (NoDup_nth_error _) Dn); [apply nth_error_Some; congruence|congruence].
  - cbn. split; [exact O|apply I].
  - cbn. split; [reflexivity|apply I].
Qed.

(** what member functions leave alone *)
Definition okeeps (a b : obj) : Prop := o_free b = o_free a /\ o_static b = o_static a.
Definition okept (a b : obj) : Prop := okeeps a b /\ o_file b = o_file a /\ o_flags b = o_flags a /\ o_newns b = o_newns a.
Definition xframe (s s' : focus) : Prop :=
  hndl s' = hndl s /\ okept (fst s) (fst s') /\ exists new, past s' = new ++ past s /\ Forall inert new.
Lemma okept_refl o : okept o o.
Proof. repeat split. Qed.
Lemma xframe_refl s : xframe s s.
Proof. split; [easy|]. split; [apply okept_refl|]. exists []. now split. Qed.
Lemma xframe_trans a b c : xframe a b -> xframe b c -> xframe a c.
Proof.
  intros (H1 & ((X1 & X2) & X3 & X4 & X5) & n1 & T1 & F1) (H2 & ((Y1 & Y2) & Y3 & Y4 & Y5) & n2 & T2 & F2). split; [congruence|].
  split; [repeat split; congruence|]. exists (n2 ++ n1). rewrite T2, T1, app_assoc. split; [easy|]. now apply Forall_app.
Qed.
Lemma xframe_open s s' : xframe s s' -> open_handles (past s') = open_handles (past s).
Proof. intros (_ & _ & new & -> & F). now apply inert_open. Qed.
Lemma xframe_record e s : inert e -> xframe s (record e s).
Proof. intros I. split; [easy|]. split; [apply okept_refl|]. exists [e]. split; [easy|]. now constructor. Qed.
Lemma xframe_err m s : xframe s (with_err m s).
Proof. split; [easy|]. split; [repeat split|]. exists []. now split. Qed.
Lemma xframe_path m s : xframe s (with_path m s).
Proof. split; [easy|]. split; [repeat split|]. exists []. now split. Qed.
Lemma xframe_set i p s : xframe s (x_set i p s).
Proof. split; [easy|]. split; [apply okept_refl|]. exists []. now split. Qed.

Lemma err_sinv m s : sinv (snd s) -> sinv (snd (with_err m s)).
Proof. easy. Qed.
Lemma clear_sinv s : sinv (snd s) -> sinv (snd (x_clear w s)).
Proof. intros I. apply (sinv_log (EvError (w_error w (past s))) (snd s)); [exact Logic.I| |exact I]. cbn. split; [easy|apply I]. Qed.
Lemma clear_frame s : xframe s (x_clear w s).
Proof. eapply xframe_trans; [apply (xframe_err [])|]. now apply xframe_record. Qed.
Lemma save_sinv s : sinv (snd s) -> sinv (snd (x_save w s)).
Proof. intros I. apply (sinv_log (EvError (w_error w (past s))) (snd s)); [exact Logic.I| |exact I]. cbn. split; [easy|apply I]. Qed.
Lemma save_frame s : xframe s (x_save w s).
Proof. eapply xframe_trans; [|apply xframe_err]. now apply xframe_record. Qed.
Lemma save_nonempty e t s : explains w -> failure e -> past s = e :: t -> o_err (fst (x_save w s)) <> [].
Proof. intros X F E. unfold x_save. rewrite E. destruct (X e t F) as (m & -> & N). exact N. Qed.
Lemma nolib_sinv s : sinv (snd s) -> sinv (snd (x_no_library w s)).
Proof. apply clear_sinv. Qed.
Lemma nolib_frame s : xframe s (x_no_library w s).
Proof. eapply xframe_trans; [apply clear_frame|apply xframe_err]. Qed.

(** asking for symbols *)
Definition loading (s s' : focus) (b : bool) : Prop :=
  sinv (snd s') /\ xframe s s' /\ o_libpath (fst s') = o_libpath (fst s) /\
  (b = true -> o_err (fst s') = []) /\ (b = false -> explains w -> o_err (fst s') <> []).
Lemma loading_refl s : sinv (snd s) -> o_err (fst s) = [] -> loading s s true.
Proof. intros I E. split; [exact I|]. split; [apply xframe_refl|]. easy. Qed.
Lemma loading_after a b c r : xframe a b -> o_libpath (fst b) = o_libpath (fst a) -> loading b c r -> loading a c r.
Proof. intros F L (A & B & C & D). split; [exact A|]. split; [eapply xframe_trans; eassumption|]. split; [congruence|exact D]. Qed.
(** one symbol asked for and its pointer set *)
Lemma x_ask h i n s : hndl s = Some h -> nth_error (k_names k) i = Some n -> sinv (snd s) ->
  let r := w_sym w (past s) h n in
  exists s1, x_sym w n s = Ok (r, s1) /\ sinv (snd (x_set i r s1)) /\ xframe s (x_set i r s1) /\
    pointers (x_set i r s1) = firstn i (pointers s) ++ r :: skipn (S i) (pointers s) /\ o_libpath (fst s1) = o_libpath (fst s) /\
    (r <> None -> o_err (fst s1) = o_err (fst s)) /\ (r = None -> explains w -> o_err (fst s1) <> []).
Proof.
  intros H Hn I r. unfold x_sym. rewrite H. fold r.
  pose proof (sinv_ask h i n (snd s) H Hn I) as J. fold (past s) in J. fold r in J. cbv zeta in J.
  destruct r as [p|] eqn:R.
  - eexists. split; [reflexivity|]. split; [exact J|]. split; [eapply xframe_trans; [now apply (xframe_record (EvSym h n (Some p)))|apply xframe_set]|]. easy.
  - eexists. split; [reflexivity|]. split; [|split; [|split; [|split; [|split]]]].
    + match type of J with sinv ?x => apply (sinv_log (EvError (w_error w (EvSym h n None :: past s))) x); [exact Logic.I| |exact J] end.
      cbn. split; [easy|]. exact (si_honest _ J).
    + eapply xframe_trans; [|apply xframe_set]. eapply xframe_trans; [now apply (xframe_record (EvSym h n None))|apply save_frame].
    + reflexivity.
    + reflexivity.
    + congruence.
    + intros _ X. now apply (save_nonempty (EvSym h n None) (past s)).
Qed.
Lemma x_symbols_ok names : forall i s h, from_names k i names -> hndl s = Some h -> sinv (snd s) -> o_err (fst s) = [] ->
  exists b s', x_symbols w names i s = Ok (b, s') /\ loading s s' b /\
    (forall j, j < i -> nth j (pointers s') None = nth j (pointers s) None) /\
    (b = true -> forall j, j < length names -> nth (i + j) (pointers s') None <> None) /\
    (b = false -> exists j, j < length names /\ nth (i + j) (pointers s') None = None).
Proof.
  induction names as [|n names IH]; intros i s h F H I E.
  - exists true, s. split; [easy|]. split; [now apply loading_refl|]. split; [easy|]. split; [cbn; lia|easy].
  - assert (Hn : nth_error (k_names k) i = Some n) by (rewrite <- (Nat.add_0_r i); now apply F).
    assert (Hi : i < length (pointers s)) by (unfold pointers; rewrite (si_len _ I); apply nth_error_Some; congruence).
    destruct (x_ask h i n s H Hn I) as (s1 & G & I1 & F1 & P1 & L1 & E1 & E2). set (r := w_sym w (past s) h n) in *.
    cbn [x_symbols]. rewrite G. cbn [bind]. destruct r as [p|].
    + destruct (IH (S i) (x_set i (Some p) s1) h) as (b & s' & R & (A1 & A2 & A3 & A4 & A5) & B & C & D); auto.
      { intros j m Hm. replace (S i + j) with (i + S j) by lia. now apply F. }
      { destruct F1 as [Q _]. congruence. }
      { cbn. rewrite E1; [exact E|discriminate]. }
      exists b, s'. split; [exact R|]. split; [split; [exact A1|split; [eapply xframe_trans; eassumption|split; [cbn in A3; congruence|auto]]]|]. split; [|split].
      * intros j Hj. rewrite B by lia. rewrite P1, nth_set by lia. destruct (Nat.eqb_spec j i); [lia|easy].
      * intros Hb [|j] Hj.
        -- rewrite Nat.add_0_r, B by lia. rewrite P1, nth_set, Nat.eqb_refl by lia. discriminate.
        -- replace (i + S j) with (S i + j) by lia. apply C; [easy|]. cbn in Hj. lia.
      * intros Hb. destruct (D Hb) as (j & Hj & Q). exists (S j). split; [cbn; lia|]. now replace (i + S j) with (S i + j) by lia.
    + exists false, (x_set i None s1). split; [easy|]. split; [split; [exact I1|split; [exact F1|split; [exact L1|split; [easy|]]]]|].
      { intros _ X. now apply E2. }
      split; [|split; [easy|]].
      * intros j Hj. rewrite P1, nth_set by lia. destruct (Nat.eqb_spec j i); [lia|easy].
      * intros _. exists 0. rewrite Nat.add_0_r, P1, nth_set, Nat.eqb_refl by lia. split; [cbn; lia|easy].
Qed.

(** the queries *)
Lemma x_all_spec s : x_all s = true <-> forall i, i < length (pointers s) -> nth i (pointers s) None <> None.
Proof.
  unfold x_all. rewrite fold_and. cbn [andb]. rewrite forallb_forall. split.
  - intros H i Hi. apply non_null_spec, H, nth_In, Hi.
  - intros H p Hp. apply (In_nth _ _ None) in Hp. destruct Hp as (i & Hi & <-). apply non_null_spec. auto.
Qed.
Lemma x_none_spec s : x_none s = true <-> forall i, nth i (pointers s) None = None.
Proof.
  unfold x_none. rewrite fold_and. cbn [andb]. rewrite forallb_forall. split.
  - intros H i. destruct (lt_dec i (length (pointers s))) as [L|L]; [|apply nth_overflow; lia].
    specialize (H _ (nth_In _ None L)). now destruct (nth i (pointers s) None).
  - intros H p Hp. apply (In_nth _ _ None) in Hp. destruct Hp as (i & Hi & <-). now rewrite H.
Qed.
Lemma x_any_spec s : x_any s = true <-> exists i, nth i (pointers s) None <> None.
Proof.
  unfold x_any. rewrite fold_or. cbn [orb]. rewrite existsb_exists. split.
  - intros (p & Hp & N). apply (In_nth _ _ None) in Hp. destruct Hp as (i & Hi & <-). exists i. now apply non_null_spec.
  - intros (i & N). exists (nth i (pointers s) None). split; [|now apply non_null_spec].
    destruct (lt_dec i (length (pointers s))) as [L|L]; [now apply nth_In|]. now rewrite nth_overflow in N by lia.
Qed.

Lemma loaded_some s : x_loaded s = true -> exists h, hndl s = Some h.
Proof. unfold x_loaded. destruct (hndl s); [eauto|discriminate]. Qed.
Lemma loaded_none s : x_loaded s = false -> hndl s = None.
Proof. unfold x_loaded. now destruct (hndl s). Qed.

Lemma x_load_all_ok s : sinv (snd s) -> exists b s', x_load_all k w s = Ok (b, s') /\ loading s s' b /\
  (b = true <-> forall i, i < length (k_names k) -> nth i (pointers s') None <> None).
Proof.
  intros I. unfold x_load_all. assert (J := clear_sinv s I). assert (F := clear_frame s).
  destruct (x_all (x_clear w s)) eqn:A.
  - exists true, (x_clear w s). split; [easy|]. split; [apply (loading_after _ _ _ _ F eq_refl), loading_refl; easy|]. split; [|easy].
    intros _. rewrite <- (si_len _ J). exact (proj1 (x_all_spec _) A).
  - destruct (x_loaded (x_clear w s)) eqn:L; cbn [negb].
    + destruct (loaded_some _ L) as [h H].
      destruct (x_symbols_ok (k_names k) 0 (x_clear w s) h (from_zero k) H J eq_refl) as (b & s' & R & (B1 & B2 & B3 & B4 & B5) & P & T1 & T2).
      exists b, s'. split; [exact R|]. split.
      * apply (loading_after _ _ _ _ F eq_refl). repeat (split; [assumption|]). assumption.
      * split; [exact T1|]. intros Q. destruct b; [easy|]. destruct (T2 eq_refl) as (j & Hj & N). now elim (Q j Hj).
    + exists false, (x_no_library w (x_clear w s)). split; [easy|]. split.
      * split; [now apply nolib_sinv|]. split; [eapply xframe_trans; [exact F|apply nolib_frame]|]. easy.
      * split; [easy|]. intros Q. exfalso. apply Bool.not_true_iff_false in A. apply A. apply x_all_spec.
        intros i Hi. unfold pointers in Hi. rewrite (si_len _ J) in Hi. now apply Q.
Qed.
Lemma x_one_ok i n s h : hndl s = Some h -> nth_error (k_names k) i = Some n -> sinv (snd s) -> o_err (fst s) = [] ->
  exists b s', x_one w i n s = Ok (b, s') /\ loading s s' b /\
    (forall j, j <> i -> nth j (pointers s') None = nth j (pointers s) None) /\
    (b = true <-> nth i (pointers s') None <> None) /\
    nth i (pointers s') None = match nth i (pointers s) None with Some p => Some p | None => w_sym w (past s) h n end.
Proof.
  intros H Hn I E. unfold x_one. destruct (nth i (pointers s) None) as [p|] eqn:P.
  - exists true, s. split; [easy|]. split; [now apply loading_refl|]. split; [easy|]. rewrite P. easy.
  - assert (Hi : i < length (pointers s)) by (unfold pointers; rewrite (si_len _ I); apply nth_error_Some; congruence).
    destruct (x_ask h i n s H Hn I) as (s1 & G & I1 & F1 & P1 & L1 & E1 & E2). set (r := w_sym w (past s) h n) in *.
    rewrite G. cbn [bind]. exists (non_null r), (x_set i r s1). split; [easy|]. split; [|split; [|split]].
    + split; [exact I1|]. split; [exact F1|]. split; [exact L1|]. destruct r; (split; [|easy]) || (split; [easy|]).
      * intros _. cbn. rewrite E1; [easy|discriminate].
      * intros _ X. now apply E2.
    + intros j Hj. rewrite P1, nth_set by lia. now destruct (Nat.eqb_spec j i).
    + rewrite P1, nth_set, Nat.eqb_refl by lia. apply non_null_spec.
    + now rewrite P1, nth_set, Nat.eqb_refl by lia.
Qed.
End K.

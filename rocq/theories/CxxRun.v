(** The C++ class: every operation of a program keeps the invariant *)
From Coq Require Import Ascii String List Bool Arith ZArith Lia.
From Verif Require Import Str StrFacts SpecFormat CRuntime SpecCRuntime MinRuntime SpecMinRuntime CRuntimeFacts CRuntimeFacts2 CRuntimeProps CxxRuntime SpecCxxRuntime CxxFacts CxxProps.
Import ListNotations.

(** what a member function does to the shared part: it keeps the library, or opens one, or releases it *)
Definition stays (g g' : shared) : Prop := h_handle g' = h_handle g /\ exists new, h_trace g' = new ++ h_trace g /\ Forall inert new.
Definition opened (g g' : shared) : Prop := h_handle g = None /\ exists f fl ns pre post,
  h_trace g' = post ++ EvOpen f fl ns (h_handle g') :: pre ++ h_trace g /\ Forall inert pre /\ Forall inert post.
Lemma stays_refl g : stays g g.
Proof. split; [easy|]. exists []. now split. Qed.
Lemma frame_stays s s' : xframe s s' -> stays (snd s) (snd s').
Proof. intros (H & _ & T). now split. Qed.
Lemma stays_trans a b c : stays a b -> stays b c -> stays a c.
Proof.
  intros (H1 & n1 & T1 & F1) (H2 & n2 & T2 & F2). split; [congruence|]. exists (n2 ++ n1). rewrite T2, T1, app_assoc. split; [easy|]. now apply Forall_app.
Qed.
Lemma opened_stays a b c : opened a b -> stays b c -> opened a c.
Proof.
  intros (H1 & f & fl & ns & pre & post & T1 & F1 & F2) (H2 & n2 & T2 & F3). split; [easy|]. exists f, fl, ns, pre, (n2 ++ post).
  rewrite T2, T1, H2, <- app_assoc. split; [easy|]. split; [easy|]. now apply Forall_app.
Qed.
Lemma stays_opened a b c : stays a b -> opened b c -> opened a c.
Proof.
  intros (H2 & n2 & T2 & F3) (H1 & f & fl & ns & pre & post & T1 & F1 & F2). split; [congruence|]. exists f, fl, ns, (pre ++ n2), post.
  rewrite T1, T2, <- app_assoc. split; [easy|]. split; [now apply Forall_app|easy].
Qed.
Lemma stays_exact a b : stays a b -> exact_open a -> exact_open b.
Proof. intros (H & new & T & F) E. unfold exact_open in *. rewrite T, H, inert_open; easy. Qed.
Lemma opened_exact a b : opened a b -> exact_open a -> exact_open b.
Proof.
  intros (H & f & fl & ns & pre & post & T & F1 & F2) E. unfold exact_open in *. rewrite H in E. rewrite T, inert_open by easy.
  cbn [open_handles]. destruct (h_handle b); rewrite inert_open, E by easy; easy.
Qed.
Definition quiet_run (g g' : shared) : Prop := exists new, h_trace g' = new ++ h_trace g /\ Forall silent new.
Lemma quiet_run_refl g : quiet_run g g.
Proof. exists []. now split. Qed.
Lemma quiet_run_trans a b c : quiet_run a b -> quiet_run b c -> quiet_run a c.
Proof. intros (n1 & T1 & F1) (n2 & T2 & F2). exists (n2 ++ n1). rewrite T2, T1, app_assoc. split; [easy|]. now apply Forall_app. Qed.
Lemma inert_all l : Forall inert l -> Forall silent l.
Proof. intros F. eapply Forall_impl; [|exact F]. apply inert_silent. Qed.
Lemma stays_quiet a b : stays a b -> quiet_run a b.
Proof. intros (H & new & T & F). exists new. split; [exact T|]. now apply inert_all. Qed.
Lemma opened_quiet a b : opened a b -> quiet_run a b.
Proof.
  intros (H & f & fl & ns & pre & post & T & F1 & F2). exists (post ++ EvOpen f fl ns (h_handle b) :: pre). rewrite T, <- app_assoc. split; [easy|].
  apply Forall_app. split; [now apply inert_all|]. constructor; [exact I|now apply inert_all].
Qed.

Section K.
Variables (k : rconf) (w : world).
Hypothesis K : conf_ok k.
Notation sinv := (sinv k w).

Lemma free_quiet force s : sinv (snd s) -> quiet_run (snd s) (snd (snd (x_free k w force s))).
Proof.
  intros I. pose proof (x_free_ok k w force s I) as X. destruct (x_free k w force s) as [b s']. destruct X as (_ & _ & _ & _ & (new & T & F) & _).
  exists new. split; [exact T|]. apply Forall_forall. intros e He. destruct (F e He) as [[m ->]|(h & ok & _ & ->)]; exact Logic.I.
Qed.

Lemma filename_cases f s : sinv (snd s) -> let '(b, s') := x_load_filename k w f s in
  sinv (snd s') /\ okept (fst s) (fst s') /\ pointers s' = pointers s /\ o_libpath (fst s') = o_libpath (fst s) /\
  (b = true -> o_err (fst s') = []) /\ (b = false -> explains w -> o_err (fst s') <> []) /\
  (b = true -> hndl s' <> None) /\ (stays (snd s) (snd s') \/ opened (snd s) (snd s')).
Proof.
  intros I. pose proof (x_load_filename_ok k w f s I) as X. destruct (x_load_filename k w f s) as [b s'].
  destruct X as (A & B & C & D & E & F & G1 & G2 & G3). repeat (split; [assumption|]).
  destruct (hndl s) as [h|] eqn:H.
  - destruct (G1 ltac:(easy)) as (-> & Hh & _ & T). split; [easy|]. left. split; [unfold hndl in *; congruence|].
    exists [EvError (w_error w (past s))]. split; [exact T|]. repeat constructor.
  - destruct f as [|c f].
    + destruct (G2 eq_refl eq_refl) as (-> & Hh & _ & T). split; [easy|]. left. split; [unfold hndl in *; congruence|].
      exists [EvError (w_error w (past s))]. split; [exact T|]. repeat constructor.
    + destruct (G3 eq_refl ltac:(easy)) as (r & pre & post & T & P1 & P2 & Hr & Hb). split; [intros ->; rewrite Hr; now destruct r|].
      right. split; [exact H|]. exists (c_str (c :: f)), (o_flags (fst s)), (k_dlmopen k && o_newns (fst s)), pre, post. split; [|easy].
      unfold past, hndl in *. now rewrite Hr.
Qed.
Lemma both_cases s : sinv (snd s) -> exists b s', x_load_both k w s = Ok (b, s') /\
  sinv (snd s') /\ okept (fst s) (fst s') /\ o_libpath (fst s') = o_libpath (fst s) /\
  (b = true -> o_err (fst s') = []) /\ (b = false -> explains w -> o_err (fst s') <> []) /\
  (b = true -> forall i, i < length (k_names k) -> nth i (pointers s') None <> None) /\ (hndl s <> None -> b = false) /\
  (stays (snd s) (snd s') \/ opened (snd s) (snd s')) /\
  (fst (x_load k w s) = false /\ b = false /\ s' = snd (x_load k w s) \/
   exists b1, fst (x_load k w s) = true /\ x_load_all k w (snd (x_load k w s)) = Ok (b1, s') /\ b = b1).
Proof.
  intros I. unfold x_load_both. pose proof (filename_cases (o_file (fst s)) s I) as X. fold (x_load k w s) in X.
  pose proof (x_load_filename_ok k w (o_file (fst s)) s I) as Y. fold (x_load k w s) in Y.
  destruct (x_load k w s) as [ok s1]. destruct X as (A & B & C & D & E & F & G & H). destruct ok.
  - destruct (x_load_all_ok k w K s1 A) as (b & s2 & R & (L1 & L2 & L3 & L4 & L5) & L6).
    exists b, s2. split; [exact R|]. split; [exact L1|]. split.
    { destruct B as [[? ?] (? & ? & ?)]. destruct L2 as (_ & [[? ?] (? & ? & ?)] & _). repeat split; congruence. }
    split; [congruence|]. split; [exact L4|]. split; [exact L5|]. split; [apply L6|]. split.
    { intros N. destruct Y as (_ & _ & _ & _ & _ & _ & Y & _). now destruct (Y N). }
    split; [|right; exists b; now split].
    apply frame_stays in L2. destruct H as [H|H]; [left; eapply stays_trans; eassumption|right; eapply opened_stays; eassumption].
  - exists false, s1. split; [reflexivity|]. repeat (split; [easy|]). left. now split.
Qed.

Lemma method_facts m s : sinv (snd s) -> exists v s', x_method k w m s = Ok (v, s') /\ sinv (snd s') /\ o_static (fst s') = o_static (fst s) /\
  o_free (fst s') = match m with XSetFree b => b | _ => o_free (fst s) end /\
  (o_file (fst s'), o_flags (fst s'), o_newns (fst s')) = match m with XLoadArgs f fl ns => (f, fl, ns) | _ => (o_file (fst s), o_flags (fst s), o_newns (fst s)) end /\
  match m with
  | XFree force => (v, s') = (XBool (fst (x_free k w force s)), snd (x_free k w force s))
  | _ => stays (snd s) (snd s') \/ opened (snd s) (snd s')
  end /\
  match m with XFree _ | XPath => True | _ => o_libpath (fst s') = o_libpath (fst s) end /\
  (x_reports m = true -> exists b, v = XBool b /\ (b = true -> o_err (fst s') = []) /\ (b = false -> explains w -> o_err (fst s') <> [])).
Proof.
  intros I.
  assert (N : exists v s', Ok (v, s) = Ok (v, s') /\ sinv (snd s') /\ o_static (fst s') = o_static (fst s) /\ o_free (fst s') = o_free (fst s) /\
    (o_file (fst s'), o_flags (fst s'), o_newns (fst s')) = (o_file (fst s), o_flags (fst s), o_newns (fst s)) /\ (stays (snd s) (snd s') \/ opened (snd s) (snd s')) /\
    o_libpath (fst s') = o_libpath (fst s)) by (eexists XVoid, s; repeat (split; [easy|]); split; [left; apply stays_refl|easy]).
  assert (L : forall r, (exists b s', r = Ok (b, s') /\ loading k w s s' b) -> exists v s', (p <- r ;; Ok (XBool (fst p), snd p)) = Ok (v, s') /\
    sinv (snd s') /\ o_static (fst s') = o_static (fst s) /\ o_free (fst s') = o_free (fst s) /\
    (o_file (fst s'), o_flags (fst s'), o_newns (fst s')) = (o_file (fst s), o_flags (fst s), o_newns (fst s)) /\ (stays (snd s) (snd s') \/ opened (snd s) (snd s')) /\
    o_libpath (fst s') = o_libpath (fst s) /\
    (true = true -> exists b, v = XBool b /\ (b = true -> o_err (fst s') = []) /\ (b = false -> explains w -> o_err (fst s') <> []))).
  { intros r (b & s' & -> & L1 & L2 & L3 & L4). exists (XBool b), s'. split; [easy|]. split; [easy|]. destruct (frame_stays _ _ L2) as [H1 H2].
    destruct L2 as (_ & [[? ?] (? & ? & ?)] & _). repeat (split; [congruence|]). split; [left; now split|]. split; [congruence|]. intros _. now exists b. }
  destruct m; cbn [x_method x_reports];
    try (eexists _, s; split; [reflexivity|]; split; [exact I|]; repeat (split; [reflexivity|]); split; [left; apply stays_refl|]; split; [reflexivity|discriminate]).
  - pose proof (filename_cases file (with_request file flags newns s) I) as X. unfold x_load_args.
    change (o_file (fst (with_request file flags newns s))) with file. destruct (x_load_filename k w file (with_request file flags newns s)) as [b s'].
    destruct X as (A & B & C & D & E & F & G & H). destruct B as [[B1 B2] (B3 & B4 & B5)]. exists (XBool b), s'. split; [easy|]. split; [exact A|].
    split; [exact B2|]. split; [exact B1|]. split; [rewrite B3, B4, B5; reflexivity|]. split; [exact H|]. split; [exact D|]. intros _. now exists b.
  - unfold x_load. pose proof (filename_cases (o_file (fst s)) s I) as X. destruct (x_load_filename k w (o_file (fst s)) s) as [b s'].
    destruct X as (A & B & C & D & E & F & G & H). destruct B as [[B1 B2] (B3 & B4 & B5)]. exists (XBool b), s'. split; [easy|]. split; [exact A|].
    split; [exact B2|]. split; [exact B1|]. split; [rewrite B3, B4, B5; reflexivity|]. split; [exact H|]. split; [exact D|]. intros _. now exists b.
  - destruct (both_cases s I) as (b & s' & R & A & B & D & E & F & _ & _ & H & _). rewrite R. destruct B as [[B1 B2] (B3 & B4 & B5)]. exists (XBool b), s'. split; [easy|]. split; [exact A|].
    split; [exact B2|]. split; [exact B1|]. split; [rewrite B3, B4, B5; reflexivity|]. split; [exact H|]. split; [exact D|]. intros _. now exists b.
  - pose proof (x_free_ok k w force s I) as X. destruct (x_free k w force s) as [b s']. destruct X as (A & B & C & D & _). destruct B as [[B1 B2] (B3 & B4 & B5)].
    exists (XBool b), s'. split; [easy|]. split; [exact A|]. split; [exact B2|]. split; [exact B1|]. split; [rewrite B3, B4, B5; reflexivity|]. split; [reflexivity|]. split; [exact Logic.I|].
    intros _. exists b. split; [easy|]. split; [apply C|apply D].
  - apply L. destruct (x_load_all_ok k w K s I) as (b & s' & R & X & _). eauto.
  - apply L. destruct (x_load_num_ok k w K num s I) as (b & s' & R & X & _). eauto.
  - apply L. destruct (x_load_name_ok k w K symbol s I) as (b & s' & R & X). eauto.
  - pose proof (x_library_path_ok k w s I) as X. destruct (x_library_path k w s) as [p s']. destruct X as (A & B & _). exists (XStr p), s'. split; [easy|]. split; [exact A|].
    destruct (frame_stays _ _ B) as [H1 H2]. destruct B as (_ & [[? ?] (? & ? & ?)] & _). split; [congruence|]. split; [congruence|]. split; [congruence|]. split; [left; now split|].
    split; [exact Logic.I|discriminate].
  - eexists XVoid, _. split; [reflexivity|]. split; [exact I|]. repeat (split; [reflexivity|]). split; [left; apply stays_refl|]. split; [reflexivity|discriminate].
Qed.
Lemma method_exact m s v s' : sinv (snd s) -> x_method k w m s = Ok (v, s') -> exact_open (snd s) -> never_refuses w \/ m <> XFree true -> exact_open (snd s').
Proof.
  intros I R E N. destruct (method_facts m s I) as (v' & s2 & R' & _ & _ & _ & _ & H & _). rewrite R in R'. injection R' as <- <-.
  assert (G : stays (snd s) (snd s') \/ opened (snd s) (snd s') -> exact_open (snd s')) by (intros [X|X]; [eapply stays_exact|eapply opened_exact]; eassumption).
  destruct m; try (now apply G). clear G. pose proof (x_free_ok k w force s I) as X. destruct (x_free k w force s) as [b s2]. injection H as -> ->.
  destruct X as (_ & _ & _ & _ & _ & X). apply X; [exact E|]. destruct N as [N|N]; [now left|right]. destruct force; congruence.
Qed.
Lemma method_quiet m s v s' : sinv (snd s) -> x_method k w m s = Ok (v, s') -> quiet_run (snd s) (snd s').
Proof.
  intros I R. destruct (method_facts m s I) as (v' & s2 & R' & _ & _ & _ & _ & H & _). rewrite R in R'. injection R' as <- <-.
  assert (G : stays (snd s) (snd s') \/ opened (snd s) (snd s') -> quiet_run (snd s) (snd s')) by (intros [X|X]; [now apply stays_quiet|now apply opened_quiet]).
  destruct m; try (now apply G). injection H as -> ->. now apply free_quiet.
Qed.

(** destructors *)
Lemma destroy_ok o g : sinv g -> let g' := snd (x_destroy k w (o, g)) in sinv g' /\ quiet_run g g' /\ (exact_open g -> never_refuses w -> exact_open g') /\
  (o_free o = true -> h_handle g' = None /\ forall i, nth i (h_ptrs g') None = None) /\ (o_free o = false -> g' = g).
Proof.
  intros I. unfold x_destroy. cbn [fst]. destruct (o_free o) eqn:F.
  - pose proof (x_free_ok k w true (o, g) I) as X. pose proof (free_quiet true (o, g) I) as Q. destruct (x_free k w true (o, g)) as [b s']. destruct X as (A & _ & C & D & _ & E).
    cbn [snd] in *. split; [exact A|]. split; [exact Q|]. split; [intros; apply E; auto|]. split; [|discriminate]. intros _.
    destruct b; [|now destruct (D eq_refl)]. destruct (C eq_refl) as (C1 & _ & _ & C2). split; [exact C1|exact C2].
  - cbn. split; [exact I|]. split; [apply quiet_run_refl|]. easy.
Qed.
Lemma destroy_static_ok o g : sinv g -> let g' := destroy_static k w o g in sinv g' /\ quiet_run g g' /\ (exact_open g -> never_refuses w -> exact_open g') /\
  (h_handle g = None -> h_handle g' = None) /\
  ((exists x, o = Some x /\ o_static x = true /\ o_free x = true) -> h_handle g' = None).
Proof.
  intros I. unfold destroy_static. destruct o as [o|].
  2:{ split; [exact I|]. split; [apply quiet_run_refl|]. split; [easy|]. split; [easy|]. intros (x & X & _). discriminate. }
  destruct (o_static o) eqn:St.
  2:{ split; [exact I|]. split; [apply quiet_run_refl|]. split; [easy|]. split; [easy|]. intros (x & [= <-] & X & _). congruence. }
  destruct (destroy_ok o g I) as (A & B & C & D & E). split; [exact A|]. split; [exact B|]. split; [exact C|]. split.
  - intros H. destruct (o_free o) eqn:F; [now apply D|]. now rewrite E.
  - intros (x & [= <-] & _ & F). now apply D.
Qed.
Lemma destroy_all_ok l : forall g, sinv g -> let g' := fold_left (fun g o => destroy_static k w o g) l g in
  sinv g' /\ quiet_run g g' /\ (exact_open g -> never_refuses w -> exact_open g') /\ (h_handle g = None -> h_handle g' = None) /\
  ((exists x, In (Some x) l /\ o_static x = true /\ o_free x = true) -> h_handle g' = None).
Proof.
  induction l as [|o l IH]; intros g I; cbn [fold_left].
  - split; [exact I|]. split; [apply quiet_run_refl|]. split; [easy|]. split; [easy|]. intros (x & [] & _).
  - destruct (destroy_static_ok o g I) as (A & B & C & D & E). destruct (IH _ A) as (A' & B' & C' & D' & E').
    split; [exact A'|]. split; [eapply quiet_run_trans; eassumption|]. split; [auto|]. split; [auto|].
    intros (x & [->|X] & Y); [apply D', E; now exists x|]. apply E'. now exists x.
Qed.
Lemma exit_ok c s : sinv (c_sh s) -> let s' := x_exit k w c s in sinv (c_sh s') /\ quiet_run (c_sh s) (c_sh s') /\ (exact_open (c_sh s) -> never_refuses w -> exact_open (c_sh s')) /\
  c_end s' = Some (Exited c) /\
  ((exists x, (In (Some x) (c_objs s) \/ c_loader s = Some x) /\ o_static x = true /\ o_free x = true) -> h_handle (c_sh s') = None).
Proof.
  intros I. unfold x_exit. cbn [c_sh c_end]. destruct (destroy_all_ok (rev (c_objs s)) (c_sh s) I) as (A & B & C & D & E).
  destruct (destroy_static_ok (c_loader s) _ A) as (A' & B' & C' & D' & E').
  split; [exact A'|]. split; [eapply quiet_run_trans; eassumption|]. split; [auto|]. split; [easy|].
  intros (x & [X|X] & Y); [apply D', E; exists x; split; [now apply in_rev in X|exact Y]|]. apply E'. now exists x.
Qed.

(** programs *)
Record pinv (s : cst) : Prop := {
  pi_sh : sinv (c_sh s);
  pi_off : k_auto k = AutoOff -> c_loader s = None;
  pi_loader : k_auto k <> AutoOff -> c_end s = None -> exists l, c_loader s = Some l /\ o_static l = true /\ o_free l = true /\
    o_file l = k_lib k /\ o_flags l = k_flags k /\ o_newns l = false
}.
Lemma pinv_init : pinv (c_init k).
Proof.
  split; [apply sinv_init|unfold c_init; cbn; now intros ->|]. intros A _. unfold c_init. cbn. destruct (k_auto k); [easy| |]; now eexists.
Qed.
Lemma pinv_same s s' : pinv s -> sinv (c_sh s') -> c_loader s' = c_loader s -> c_end s' = c_end s -> pinv s'.
Proof. intros [A B C] S L E. split; [exact S|rewrite L; exact B|rewrite L, E; exact C]. Qed.
Lemma c_str_app a b : c_str a = a -> c_str (a ++ b) = a ++ c_str b.
Proof.
  induction a as [|c a IH]; [easy|]. cbn. destruct (Ascii.eqb c nul); [discriminate|]. intros [= E]. now rewrite IH.
Qed.
Lemma c_str_app2 a b : c_str a = a -> c_str b = b -> c_str (a ++ b) = a ++ b.
Proof. intros A B. now rewrite c_str_app, B. Qed.
Lemma message_sinv m g : sinv g -> sinv (x_message m g).
Proof. intros I. apply (sinv_log k w (EvPrint (c_str m ++ [nl])) g); [exact Logic.I| |exact I]. cbn. split; [easy|apply I]. Qed.

(** one message, in terms of the symbol's name *)
Definition reported (n msg : str) (g g' : shared) : Prop := exists head pre post, Forall silent pre /\ Forall silent post /\
  (head = $"fatal error" \/ head = $"error" \/ head = $"error: " ++ k_lib k) /\
  h_trace g' = post ++ EvPrint (head ++ $": " ++ n ++ $": " ++ msg ++ [nl]) :: pre ++ h_trace g.
Lemma reported_intro n msg m g g1 g2 : quiet_run g g1 -> quiet_run (x_message m g1) g2 ->
  (exists head, (head = $"fatal error" \/ head = $"error" \/ head = $"error: " ++ k_lib k) /\ c_str m = head ++ $": " ++ n ++ $": " ++ msg) -> reported n msg g g2.
Proof.
  intros (pre & T1 & S1) (post & T2 & S2) (head & H & E). exists head, pre, post. split; [exact S1|]. split; [exact S2|]. split; [exact H|].
  rewrite T2. unfold x_message. cbn [h_trace]. rewrite T1, E. now rewrite <- !app_assoc.
Qed.

(** loading on demand, cxx.cpp:1020-1041 *)
Definition demand (i : nat) (f : focus) : res (bool * focus) :=
  let f := if x_loaded f then f else snd (x_load k w f) in
  match k_auto k with AutoLazy => x_load_num k w (Z.of_nat i) f | _ => x_load_all k w f end.
Lemma demand_ok i n l g : nth_error (k_names k) i = Some n -> sinv g -> exists b f, demand i (l, g) = Ok (b, f) /\ sinv (snd f) /\ okept l (fst f) /\
  (stays g (snd f) \/ opened g (snd f)) /\ (b = true -> nth i (pointers f) None <> None).
Proof.
  intros Hn I. unfold demand.
  assert (A : let f := if x_loaded (l, g) then (l, g) else snd (x_load k w (l, g)) in sinv (snd f) /\ okept l (fst f) /\ (stays g (snd f) \/ opened g (snd f))).
  { destruct (x_loaded (l, g)); cbv zeta.
    - split; [exact I|]. split; [apply okept_refl|]. left. apply stays_refl.
    - unfold x_load. pose proof (filename_cases (o_file l) (l, g) I) as X. cbn [fst]. destruct (x_load_filename k w (o_file l) (l, g)) as [b s'].
      destruct X as (X1 & X2 & _ & _ & _ & _ & _ & X3). now split. }
  cbv zeta in A. set (f := if x_loaded (l, g) then (l, g) else snd (x_load k w (l, g))) in *. destruct A as (A1 & A2 & A3).
  assert (F : forall b f', loading k w f f' b -> sinv (snd f') /\ okept l (fst f') /\ (stays g (snd f') \/ opened g (snd f'))).
  { intros b f' (L1 & L2 & _). split; [exact L1|]. split.
    - destruct A2 as [[? ?] (? & ? & ?)]. destruct L2 as (_ & [[? ?] (? & ? & ?)] & _). repeat split; congruence.
    - apply frame_stays in L2. destruct A3 as [H|H]; [left; eapply stays_trans; eassumption|right; eapply opened_stays; eassumption]. }
  assert (All : exists b f', x_load_all k w f = Ok (b, f') /\ sinv (snd f') /\ okept l (fst f') /\ (stays g (snd f') \/ opened g (snd f')) /\ (b = true -> nth i (pointers f') None <> None)).
  { destruct (x_load_all_ok k w K f A1) as (b & f' & R & L & T). exists b, f'. split; [exact R|]. destruct (F b f' L) as (F1 & F2 & F3). repeat (split; [assumption|]).
    intros Hb. apply T; [easy|]. apply nth_error_Some. congruence. }
  destruct (k_auto k); auto.
  destruct (x_load_num_ok k w K (Z.of_nat i) f A1) as (b & f' & R & L & T). exists b, f'. split; [exact R|]. destruct (F b f' L) as (F1 & F2 & F3). repeat (split; [assumption|]).
  assert (Z : (Z.of_nat i <? 0)%Z = false) by (apply Z.ltb_ge; lia). rewrite Z, Nat2Z.id, Hn in T. destruct (hndl f).
  - intros Hb. now apply T.
  - destruct T as [-> _]. discriminate.
Qed.
Lemma not_loaded_ok i n s : pinv s -> c_end s = None -> nth_error (k_names k) i = Some n ->
  exists b s', x_not_loaded k w i n s = Ok (b, s') /\ pinv s' /\ (exact_open (c_sh s) -> never_refuses w -> exact_open (c_sh s')) /\
    (b = true -> c_end s' = None /\ c_objs s' = c_objs s /\ x_ptr i s' <> None /\ (stays (c_sh s) (c_sh s') \/ opened (c_sh s) (c_sh s')) /\ k_auto k <> AutoOff) /\
    (b = false -> c_end s' = Some (match k_auto k with AutoOff => Aborted | _ => Exited 1 end) /\
       (k_auto k <> AutoOff -> x_handle s' = None) /\
       (c_str (k_lib k) = k_lib k -> exists msg, reported n msg (c_sh s) (c_sh s') /\
          match k_auto k with
          | AutoOff => msg = (match x_handle s with Some _ => $"symbol not loaded" | None => $"library not loaded" end)
          | _ => exists l f, c_loader s = Some l /\ demand i (l, c_sh s) = Ok (false, f) /\ msg = c_str (x_error f)
          end)).
Proof.
  intros P E Hn. assert (CN : c_str n = n) by (apply (proj1 (Forall_forall _ _) (ok_text _ K) n), (nth_error_In _ _ Hn)).
  unfold x_not_loaded. destruct (k_auto k) eqn:A.
  - eexists false, _. split; [reflexivity|]. split.
    { split; cbn [c_sh c_loader c_end]; [apply message_sinv, P|intros _; now apply (pi_off _ P)|congruence]. }
    split; [intros X _; exact X|]. split; [discriminate|]. intros _. split; [easy|]. split; [congruence|]. intros _. eexists. split; [|reflexivity].
    eapply reported_intro; [apply quiet_run_refl|apply quiet_run_refl|]. exists $"fatal error". split; [now left|]. unfold x_handle.
    rewrite c_str_app by reflexivity. rewrite c_str_app by exact CN. destruct (h_handle (c_sh s)); reflexivity.
  - destruct (pi_loader _ P ltac:(congruence) E) as (l & L & L1 & L2 & L3 & L4 & L5). rewrite L.
    destruct (demand_ok i n l (c_sh s) Hn (pi_sh _ P)) as (b & f & R & D1 & D2 & D3 & D4). unfold demand in R. rewrite A in R. cbv zeta in *.
    match type of R with ?x = _ => match goal with |- context [bind ?y _] => change y with x end end. rewrite R. cbn [bind].
    assert (P' : pinv (mkcst (snd f) (Some (fst f)) (c_objs s) (c_end s))).
    { split; [exact D1|congruence|]. intros _ _. exists (fst f). destruct D2 as [[? ?] (? & ? & ?)]. split; [easy|]. repeat split; congruence. }
    assert (X : exact_open (c_sh s) -> exact_open (snd f)) by (destruct D3; [eapply stays_exact|eapply opened_exact]; eassumption).
    assert (Q : quiet_run (c_sh s) (snd f)) by (destruct D3; [now apply stays_quiet|now apply opened_quiet]).
    destruct b.
    + eexists true, _. split; [reflexivity|]. split; [exact P'|]. split; [auto|]. split; [|discriminate]. intros _. cbn [c_end c_objs c_sh]. split; [exact E|]. split; [easy|].
      split; [now apply D4|]. split; [exact D3|congruence].
    + eexists false, _. split; [reflexivity|]. set (m := match find (k_lib k) (x_error f) with Some _ => _ | None => _ end).
      set (s1 := c_with_sh (x_message m (snd f)) (mkcst (snd f) (Some (fst f)) (c_objs s) (c_end s))).
      assert (S1 : sinv (c_sh s1)) by (apply message_sinv, D1).
      destruct (exit_ok 1 s1 S1) as (E1 & E2 & E3 & E4 & E5).
      split; [split; [exact E1|congruence|intros _ Y; discriminate Y]|]. split; [intros Y Z; apply E3; [exact (X Y)|exact Z]|]. split; [discriminate|]. intros _.
      split; [exact E4|]. split.
      { intros _. apply E5. exists (fst f). destruct D2 as [[? ?] _]. split; [now right|]. split; congruence. }
      intros CL. exists (c_str (x_error f)). split; [|exists l, f; unfold demand; rewrite A; now repeat split].
      eapply reported_intro; [exact Q|exact E2|]. unfold m. destruct (find (k_lib k) (x_error f)).
      * exists $"error". split; [auto|]. rewrite c_str_app by reflexivity. rewrite c_str_app by exact CN. reflexivity.
      * exists ($"error: " ++ k_lib k). split; [auto|]. rewrite c_str_app by reflexivity. rewrite c_str_app by exact CL. rewrite c_str_app by reflexivity.
        rewrite c_str_app by exact CN. rewrite c_str_app by reflexivity. now rewrite <- !app_assoc.
  - destruct (pi_loader _ P ltac:(congruence) E) as (l & L & L1 & L2 & L3 & L4 & L5). rewrite L.
    destruct (demand_ok i n l (c_sh s) Hn (pi_sh _ P)) as (b & f & R & D1 & D2 & D3 & D4). unfold demand in R. rewrite A in R. cbv zeta in *.
    match type of R with ?x = _ => match goal with |- context [bind ?y _] => change y with x end end. rewrite R. cbn [bind].
    assert (P' : pinv (mkcst (snd f) (Some (fst f)) (c_objs s) (c_end s))).
    { split; [exact D1|congruence|]. intros _ _. exists (fst f). destruct D2 as [[? ?] (? & ? & ?)]. split; [easy|]. repeat split; congruence. }
    assert (X : exact_open (c_sh s) -> exact_open (snd f)) by (destruct D3; [eapply stays_exact|eapply opened_exact]; eassumption).
    assert (Q : quiet_run (c_sh s) (snd f)) by (destruct D3; [now apply stays_quiet|now apply opened_quiet]).
    destruct b.
    + eexists true, _. split; [reflexivity|]. split; [exact P'|]. split; [auto|]. split; [|discriminate]. intros _. cbn [c_end c_objs c_sh]. split; [exact E|]. split; [easy|].
      split; [now apply D4|]. split; [exact D3|congruence].
    + eexists false, _. split; [reflexivity|]. set (m := match find (k_lib k) (x_error f) with Some _ => _ | None => _ end).
      set (s1 := c_with_sh (x_message m (snd f)) (mkcst (snd f) (Some (fst f)) (c_objs s) (c_end s))).
      assert (S1 : sinv (c_sh s1)) by (apply message_sinv, D1).
      destruct (exit_ok 1 s1 S1) as (E1 & E2 & E3 & E4 & E5).
      split; [split; [exact E1|congruence|intros _ Y; discriminate Y]|]. split; [intros Y Z; apply E3; [exact (X Y)|exact Z]|]. split; [discriminate|]. intros _.
      split; [exact E4|]. split.
      { intros _. apply E5. exists (fst f). destruct D2 as [[? ?] _]. split; [now right|]. split; congruence. }
      intros CL. exists (c_str (x_error f)). split; [|exists l, f; unfold demand; rewrite A; now repeat split].
      eapply reported_intro; [exact Q|exact E2|]. unfold m. destruct (find (k_lib k) (x_error f)).
      * exists $"error". split; [auto|]. rewrite c_str_app by reflexivity. rewrite c_str_app by exact CN. reflexivity.
      * exists ($"error: " ++ k_lib k). split; [auto|]. rewrite c_str_app by reflexivity. rewrite c_str_app by exact CL. rewrite c_str_app by reflexivity.
        rewrite c_str_app by exact CN. rewrite c_str_app by reflexivity. now rewrite <- !app_assoc.
Qed.
End K.

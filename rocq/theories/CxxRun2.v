(** The C++ class: programs and their properties *)
From Coq Require Import Ascii String List Bool Arith ZArith Lia.
From Verif Require Import Str StrFacts SpecFormat CRuntime SpecCRuntime MinRuntime SpecMinRuntime CRuntimeFacts CRuntimeFacts2 CRuntimeProps CRuntimeProps2 CxxRuntime SpecCxxRuntime CxxFacts CxxProps CxxRun.
Import ListNotations.

Lemma nth_error_firstn' {A} (l : list A) i j : j < i -> nth_error (firstn i l) j = nth_error l j.
Proof.
  revert i j. induction l as [|x l IH]; intros [|i] j L; try lia; [now destruct j|]. destruct j as [|j]; [easy|]. cbn. apply IH. lia.
Qed.
Lemma nth_error_skipn' {A} (l : list A) i j : nth_error (skipn i l) j = nth_error l (i + j).
Proof. revert i. induction l as [|x l IH]; intros [|i]; cbn [skipn plus nth_error]; auto. now destruct j. Qed.

Section K.
Variables (k : rconf) (w : world).
Hypothesis K : conf_ok k.
Notation sinv := (sinv k w).
Notation pinv := (pinv k w).

Definition called (n : str) (args : list nat) (s s' : cst) : Prop := exists p h l new,
  c_end s' = None /\ c_objs s' = c_objs s /\ x_past s' = EvCall p args :: new ++ x_past s /\ Forall silent new /\
  x_handle s' = Some h /\ session (new ++ x_past s) = Some (h, l) /\ last_answer h n l = Some p.
Lemma do_call i n args s : pinv s -> c_end s = None -> nth_error (k_names k) i = Some n -> x_ptr i s <> None ->
  exists p, nth i (h_ptrs (c_sh s)) None = Some p /\
  let s' := c_with_sh (mkshared (h_handle (c_sh s)) (h_ptrs (c_sh s)) (EvCall p args :: h_trace (c_sh s))) s in
  pinv s' /\ (exact_open (c_sh s) -> exact_open (c_sh s')) /\ x_past s' = EvCall p args :: x_past s /\ x_handle s' = x_handle s /\
  exists h l, x_handle s = Some h /\ session (x_past s) = Some (h, l) /\ last_answer h n l = Some p.
Proof.
  intros P E Hn N. unfold x_ptr in N. destruct (nth i (h_ptrs (c_sh s)) None) as [p|] eqn:Hp; [|easy]. exists p. split; [easy|].
  assert (I := pi_sh _ _ _ P). split; [|split; [|split; [easy|split; [easy|]]]].
  - apply (pinv_same k w s); try easy. apply (sinv_log k w (EvCall p args) (c_sh s)); [exact Logic.I| |exact I]. cbn. split; [easy|apply I].
  - easy.
  - destruct (h_handle (c_sh s)) as [h|] eqn:H; [|rewrite (si_none _ _ _ I H) in Hp; discriminate].
    destruct (si_some _ _ _ I h H) as (_ & l & A & B). exists h, l. split; [exact H|]. split; [exact A|]. rewrite <- Hp. symmetry. now apply B.
Qed.
Lemma wrapped_ok i n args s : pinv s -> c_end s = None -> nth_error (k_names k) i = Some n ->
  exists s', x_wrapped k w i args s = Ok s' /\ pinv s' /\ (exact_open (c_sh s) -> never_refuses w \/ c_end s' = None -> exact_open (c_sh s')) /\
    (called n args s s' /\ (forall h, x_handle s = Some h -> x_handle s' = Some h) \/
     x_ptr i s = None /\ x_not_loaded k w i n s = Ok (false, s')).
Proof.
  intros P E Hn. unfold x_wrapped. rewrite Hn. destruct (nth i (h_ptrs (c_sh s)) None) as [q|] eqn:Hq.
  - destruct (do_call i n args s P E Hn) as (p & Hp & D1 & D2 & D3 & D4 & h & l & D5 & D6 & D7); [unfold x_ptr; congruence|].
    cbn [bind]. rewrite Hp. eexists. split; [reflexivity|]. split; [exact D1|]. split; [auto|]. left. split; [|rewrite D4; easy].
    exists p, h, l, []. repeat split; easy.
  - destruct (not_loaded_ok k w K i n s P E Hn) as (b & s1 & R & P1 & X1 & T & F). rewrite R. cbn [bind]. destruct b.
    + destruct (T eq_refl) as (T1 & T2 & T3 & T4 & _). destruct (do_call i n args s1 P1 T1 Hn T3) as (p & Hp & D1 & D2 & D3 & D4 & h & l & D5 & D6 & D7).
      rewrite Hp. eexists. split; [reflexivity|]. split; [exact D1|].
      assert (Q : quiet_run (c_sh s) (c_sh s1)) by (destruct T4; [now apply stays_quiet|now apply opened_quiet]). destruct Q as (new & Tn & Sn).
      split.
      { intros X _. apply D2. destruct T4; [eapply stays_exact|eapply opened_exact]; eassumption. }
      left. split.
      * exists p, h, l, new. rewrite D3, D4. unfold x_past in *. rewrite Tn in *. repeat split; easy.
      * intros h' H'. rewrite D4. destruct T4 as [[Y _]|[Y _]]; unfold x_handle in *; congruence.
    + destruct (F eq_refl) as (F1 & _). exists s1. split; [easy|]. split; [exact P1|]. split.
      * intros X [N|N]; [now apply X1|]. rewrite F1 in N. discriminate.
      * right. now split.
Qed.

Lemma live_object i s o : live i s = Some o <-> x_object i s o.
Proof. unfold live, x_object. destruct (nth_error (c_objs s) i) as [[x|]|]; split; congruence. Qed.
Lemma put_same i o g s : i < length (c_objs s) -> nth_error (c_objs (put i o g s)) i = Some o.
Proof.
  intros L. unfold put. cbn [c_objs]. rewrite nth_error_app2 by (rewrite firstn_length; lia). rewrite firstn_length, Nat.min_l by lia. now rewrite Nat.sub_diag.
Qed.
Lemma put_other i j o g s : j <> i -> i < length (c_objs s) -> nth_error (c_objs (put i o g s)) j = nth_error (c_objs s) j.
Proof.
  intros N L. unfold put. cbn [c_objs]. destruct (lt_dec j i).
  - rewrite nth_error_app1 by (rewrite firstn_length; lia). now apply nth_error_firstn'.
  - rewrite nth_error_app2 by (rewrite firstn_length; lia). rewrite firstn_length, Nat.min_l by lia.
    destruct (j - i) as [|d] eqn:D; [lia|]. cbn [nth_error]. rewrite nth_error_skipn'. f_equal. lia.
Qed.
Lemma object_lt i s o : x_object i s o -> i < length (c_objs s).
Proof. unfold x_object. intros H. apply nth_error_Some. congruence. Qed.

Lemma on_object i m s o v s' : x_object i s o -> x_call k w (XOn i m) s = Ok (v, s') ->
  exists f, x_method k w m (o, c_sh s) = Ok (v, f) /\ s' = put i (Some (fst f)) (snd f) s.
Proof.
  intros O R. cbn [x_call] in R. rewrite (proj2 (live_object i s o) O) in R. destruct (x_method k w m (o, c_sh s)) as [[v' f]| | |]; try discriminate.
  injection R as <- <-. now exists f.
Qed.
Lemma call_facts o s : pinv s -> c_end s = None -> x_valid s o -> exists v s', x_call k w o s = Ok (v, s') /\ pinv s' /\
  (exact_open (c_sh s) -> never_refuses w \/ x_forces o = false /\ c_end s' = None -> exact_open (c_sh s')).
Proof.
  intros P E V. assert (I := pi_sh _ _ _ P). destruct o as [[f|] fl ns st|i st|i j|i|i m|i args|c]; cbn [x_call x_valid] in *.
  - eexists _, _. split; [reflexivity|]. split; [now apply (pinv_same k w s)|easy].
  - eexists _, _. split; [reflexivity|]. split; [now apply (pinv_same k w s)|easy].
  - destruct V as [o V]. rewrite (proj2 (live_object _ _ _) V). eexists _, _. split; [reflexivity|]. split; [now apply (pinv_same k w s)|easy].
  - destruct V as [[a V1] [b V2]]. rewrite (proj2 (live_object _ _ _) V1), (proj2 (live_object _ _ _) V2). eexists _, _. split; [reflexivity|]. split; [now apply (pinv_same k w s)|easy].
  - destruct V as [o V]. rewrite (proj2 (live_object _ _ _) V). destruct (destroy_ok k w o (c_sh s) I) as (A & B & C & _).
    eexists _, _. split; [reflexivity|]. split; [now apply (pinv_same k w s)|]. intros X [N|[N _]]; [now apply C|discriminate].
  - destruct V as [o V]. rewrite (proj2 (live_object _ _ _) V). destruct (method_facts k w K m (o, c_sh s) I) as (v & f & R & A & _).
    rewrite R. cbn [bind]. eexists _, _. split; [reflexivity|]. split; [now apply (pinv_same k w s)|]. intros X N. cbn [c_sh put].
    eapply (method_exact k w K m (o, c_sh s)); try eassumption. destruct N as [N|[N _]]; [now left|right]. intros ->. discriminate.
  - destruct (nth_error (k_names k) i) as [n|] eqn:Hn.
    + destruct (wrapped_ok i n args s P E Hn) as (s' & R & P' & X & _). rewrite R. cbn [bind]. eexists _, _. split; [reflexivity|]. split; [exact P'|].
      intros Y [N|[_ N]]; auto.
    + unfold x_wrapped. rewrite Hn. cbn [bind]. eexists _, _. split; [reflexivity|]. split; [exact P|]. easy.
  - eexists _, _. split; [reflexivity|]. destruct (exit_ok k w c s I) as (A & _ & B & C & _). split.
    + split; [exact A| |]; [|intros _ Y; rewrite C in Y; discriminate]. reflexivity.
    + intros X [N|[_ N]]; [now apply B|]. rewrite C in N. discriminate.
Qed.
Lemma call_valid o s r : x_call k w o s = Ok r -> x_valid s o.
Proof.
  assert (G : forall i (x : obj), live i s = Some x -> exists o, x_object i s o) by (intros i x H; exists x; now apply live_object).
  destruct o as [[f|] fl ns st|i st|i j|i|i m|i args|c]; cbn [x_call x_valid]; try easy.
  - destruct (live i s) eqn:L; [intros _; eauto|discriminate].
  - destruct (live i s) eqn:L; [|discriminate]. destruct (live j s) eqn:M; [intros _; eauto|discriminate].
  - destruct (live i s) eqn:L; [intros _; eauto|discriminate].
  - destruct (live i s) eqn:L; [intros _; eauto|discriminate].
Qed.
Lemma x_run_app ops o : x_run k w (ops ++ [o]) = (s <- x_run k w ops ;; x_step k w s o).
Proof. unfold x_run. now rewrite fold_left_app. Qed.
Lemma run_facts ops : forall s, x_run k w ops = Ok s -> pinv s /\
  (never_refuses w \/ forallb (fun o => negb (x_forces o)) ops = true /\ c_end s = None -> exact_open (c_sh s)).
Proof.
  induction ops as [|o ops IH] using rev_ind; intros s R.
  - injection R as <-. split; [apply pinv_init|]. intros _. reflexivity.
  - rewrite x_run_app in R. destruct (x_run k w ops) as [s0| | |] eqn:R0; try discriminate. destruct (IH s0 eq_refl) as [P X]. cbn [bind] in R.
    unfold x_step in R. destruct (c_end s0) as [e|] eqn:E.
    + injection R as <-. split; [exact P|]. intros [N|[_ N]]; [auto|congruence].
    + destruct (x_call k w o s0) as [[v s1]| | |] eqn:C; try discriminate. cbn in R. injection R as <-.
      destruct (call_facts o s0 P E (call_valid _ _ _ C)) as (v' & s' & C' & P' & Y). rewrite C in C'. injection C' as <- <-. split; [exact P'|].
      intros N. apply Y; [|destruct N as [N|[N1 N2]]; [now left|right; split; [|exact N2]]].
      * apply X. destruct N as [N|[N1 N2]]; [now left|right]. rewrite forallb_app in N1. apply andb_true_iff in N1. now split.
      * rewrite forallb_app in N1. apply andb_true_iff in N1. destruct N1 as [_ N1]. cbn in N1. rewrite andb_true_r in N1. now apply negb_true_iff in N1.
Qed.
Lemma x_reach s : x_reachable k w s -> pinv s.
Proof. intros [ops R]. now destruct (run_facts ops s R). Qed.

(* ------------------------------------------------------------ C45 *)
Lemma x_pointers_current s : x_reachable k w s ->
  match x_handle s with
  | None => forall i, x_ptr i s = None
  | Some h => exists l, session (x_past s) = Some (h, l) /\ forall i n, nth_error (k_names k) i = Some n -> x_ptr i s = last_answer h n l
  end.
Proof.
  intros R. assert (I := pi_sh _ _ _ (x_reach s R)). unfold x_handle. destruct (h_handle (c_sh s)) as [h|] eqn:H.
  - destruct (si_some _ _ _ I h H) as (_ & l & A & B). now exists l.
  - now apply (si_none _ _ _ I).
Qed.
Lemma x_balance s : x_reachable k w s -> uses_open (x_past s) /\ honest w (x_past s) /\ opens (x_past s) = closes (x_past s) + length (open_handles (x_past s)) /\
  forall h, x_handle s = Some h -> In h (open_handles (x_past s)).
Proof.
  intros R. assert (I := pi_sh _ _ _ (x_reach s R)). split; [apply I|]. split; [apply I|]. split; [apply opens_closes; apply I|].
  intros h H. apply (si_some _ _ _ I h H).
Qed.
Lemma x_exact ops s : x_run k w ops = Ok s -> never_refuses w \/ forallb (fun o => negb (x_forces o)) ops = true /\ c_end s = None ->
  open_handles (x_past s) = match x_handle s with Some h => [h] | None => [] end.
Proof. intros R N. now apply (run_facts ops s R). Qed.
Lemma x_defined s o : x_reachable k w s -> c_end s = None -> x_valid s o -> exists v s', x_call k w o s = Ok (v, s').
Proof. intros R E V. destruct (call_facts o s (x_reach s R) E V) as (v & s' & C & _). eauto. Qed.

(* ------------------------------------------------------------ C68 *)
Lemma put_object i o a g s : x_object i s o -> x_object i (put i (Some a) g s) a.
Proof. intros O. apply put_same. now apply object_lt with o. Qed.
Lemma x_messages s i o m v s' : x_reachable k w s -> x_object i s o -> x_reports m = true -> x_call k w (XOn i m) s = Ok (v, s') ->
  exists b o', v = XBool b /\ x_object i s' o' /\ (b = true -> o_err o' = []) /\ (b = false -> explains w -> o_err o' <> []).
Proof.
  intros R O M C. destruct (on_object i m s o v s' O C) as (f & X & ->). destruct (method_facts k w K m (o, c_sh s) (pi_sh _ _ _ (x_reach s R))) as (v' & f' & X' & _ & _ & _ & _ & _ & _ & Y).
  rewrite X in X'. injection X' as <- <-. destruct (Y M) as (b & -> & Y1 & Y2). exists b, (fst f). split; [easy|]. split; [now apply put_object with o|easy].
Qed.
Lemma x_load_twice s i o m : x_reachable k w s -> x_object i s o -> x_opens m = true -> x_handle s <> None ->
  exists s' o', x_call k w (XOn i m) s = Ok (XBool false, s') /\ x_object i s' o' /\ o_err o' <> [] /\
    x_handle s' = x_handle s /\ (forall j, x_ptr j s' = x_ptr j s) /\ o_libpath o' = o_libpath o.
Proof.
  intros R O M H. assert (I := pi_sh _ _ _ (x_reach s R)). cbn [x_call]. rewrite (proj2 (live_object _ _ _) O).
  assert (G : forall a f, let '(b, s') := x_load_filename k w f (a, c_sh s) in b = false /\ hndl s' = x_handle s /\ pointers s' = h_ptrs (c_sh s) /\ o_err (fst s') <> [] /\ o_libpath (fst s') = o_libpath a).
  { intros a f. pose proof (x_load_filename_ok k w f (a, c_sh s) I) as X. destruct (x_load_filename k w f (a, c_sh s)) as [b s'].
    destruct X as (_ & _ & X1 & X2 & _ & _ & X3 & _). destruct (X3 H) as (-> & X4 & X5 & _). now repeat split. }
  destruct m; try discriminate; cbn [x_method]; unfold x_load_args, x_load_both, x_load.
  - change (o_file (fst (with_request file flags newns (o, c_sh s)))) with file. pose proof (G (fst (with_request file flags newns (o, c_sh s))) file) as X.
    change (fst (with_request file flags newns (o, c_sh s)), c_sh s) with (with_request file flags newns (o, c_sh s)) in X.
    destruct (x_load_filename k w file (with_request file flags newns (o, c_sh s))) as [b s']. destruct X as (-> & X1 & X2 & X3 & X4). cbn [bind fst snd].
    eexists _, _. split; [reflexivity|]. split; [now apply put_object with o|]. split; [exact X3|]. split; [exact X1|]. split; [intros j; unfold x_ptr; cbn [c_sh put]; unfold pointers in X2; now rewrite X2|exact X4].
  - pose proof (G o (o_file (fst (o, c_sh s)))) as X. destruct (x_load_filename k w (o_file (fst (o, c_sh s))) (o, c_sh s)) as [b s']. destruct X as (-> & X1 & X2 & X3 & X4). cbn [bind fst snd].
    eexists _, _. split; [reflexivity|]. split; [now apply put_object with o|]. split; [exact X3|]. split; [exact X1|]. split; [intros j; unfold x_ptr; cbn [c_sh put]; unfold pointers in X2; now rewrite X2|exact X4].
  - pose proof (G o (o_file (fst (o, c_sh s)))) as X. destruct (x_load_filename k w (o_file (fst (o, c_sh s))) (o, c_sh s)) as [b s']. destruct X as (-> & X1 & X2 & X3 & X4). cbn [bind fst snd].
    eexists _, _. split; [reflexivity|]. split; [now apply put_object with o|]. split; [exact X3|]. split; [exact X1|]. split; [intros j; unfold x_ptr; cbn [c_sh put]; unfold pointers in X2; now rewrite X2|exact X4].
Qed.
Lemma x_failed_load s i o m s' : x_reachable k w s -> x_object i s o -> x_opens m = true -> x_call k w (XOn i m) s = Ok (XBool false, s') -> x_handle s' = None ->
  x_handle s = None /\ forall j, x_ptr j s' = x_ptr j s.
Proof.
  intros R O M C H. assert (I := pi_sh _ _ _ (x_reach s R)).
  assert (H0 : x_handle s = None).
  { destruct (x_handle s) eqn:E; [|easy]. destruct (x_load_twice s i o m R O M) as (s2 & o' & C2 & _ & _ & H2 & _); [congruence|]. rewrite C in C2. injection C2 as <-. congruence. }
  split; [exact H0|]. intros j. assert (P' : pinv s').
  { destruct R as [ops R]. destruct (on_object i m s o _ s' O C) as (f & X & ->). destruct (method_facts k w K m (o, c_sh s) I) as (v' & f' & X' & Y & _).
    rewrite X in X'. injection X' as <- <-. apply (pinv_same k w s); try easy. now apply x_reach; exists ops. }
  unfold x_ptr. now rewrite (si_none _ _ _ (pi_sh _ _ _ P') H), (si_none _ _ _ I H0).
Qed.
Lemma x_freed s i o force : x_reachable k w s -> x_object i s o ->
  exists b s' o', x_call k w (XOn i (XFree force)) s = Ok (XBool b, s') /\ x_object i s' o' /\
    (x_handle s = None \/ force = true -> b = true) /\
    (b = true -> x_handle s' = None /\ (forall j, x_ptr j s' = None) /\ o_libpath o' = []) /\
    (b = false -> x_handle s' = x_handle s /\ (forall j, x_ptr j s' = x_ptr j s) /\ o_libpath o' = o_libpath o).
Proof.
  intros R O. assert (I := pi_sh _ _ _ (x_reach s R)). cbn [x_call x_method]. rewrite (proj2 (live_object _ _ _) O).
  pose proof (x_free_ok k w force (o, c_sh s) I) as X. 
  assert (N : x_handle s = None -> fst (x_free k w force (o, c_sh s)) = true).
  { unfold x_handle, x_free. intros H. change (hndl (x_clear w (o, c_sh s))) with (h_handle (c_sh s)). now rewrite H. }
  destruct (x_free k w force (o, c_sh s)) as [b s']. destruct X as (_ & _ & X1 & X2 & _). cbn [bind fst snd] in *.
  eexists b, _, _. split; [reflexivity|]. split; [now apply put_object with o|]. split; [|split].
  - intros [H|H]; [auto|]. destruct b; [easy|]. destruct (X2 eq_refl) as [X3 _]. congruence.
  - intros Hb. destruct (X1 Hb) as (A & B & C & D). split; [exact A|]. split; [exact D|exact C].
  - intros Hb. destruct (X2 Hb) as (A & B & C & D & _). split; [exact B|]. split; [|exact D]. intros j. unfold x_ptr. cbn [c_sh put]. unfold pointers in C. now rewrite C.
Qed.
Lemma x_path_messages s i o v s' : x_reachable k w s -> x_object i s o -> x_call k w (XOn i XPath) s = Ok (v, s') ->
  exists p o', v = XStr p /\ x_object i s' o' /\ (x_handle s = None -> p = []) /\ (p = [] -> maps_named w -> explains w -> o_err o' <> []) /\
    (p <> [] -> k_dlinfo k = false \/ k_dladdr k = false -> o_err o' = []).
Proof.
  intros R O C. destruct (on_object i XPath s o v s' O C) as (f & X & ->). cbn [x_method] in X. pose proof (x_library_path_ok k w (o, c_sh s) (pi_sh _ _ _ (x_reach s R))) as Y.
  destruct (x_library_path k w (o, c_sh s)) as [p f']. injection X as <- <-. destruct Y as (_ & _ & _ & Y1 & Y2 & _ & Y3). exists p, (fst f'). split; [easy|]. split; [now apply put_object with o|].
  split; [|split; [exact Y2|]].
  - intros H. destruct p as [|c p]; [easy|]. destruct Y1 as (h & Y1 & _); [easy|]. unfold hndl in Y1. cbn in Y1. unfold x_handle in H. congruence.
  - intros N [D|D]; apply Y3; auto.
Qed.
Lemma x_isolated s i j m v s' : x_call k w (XOn i m) s = Ok (v, s') -> j <> i -> nth_error (c_objs s') j = nth_error (c_objs s) j.
Proof.
  intros C N. destruct (call_valid _ _ _ C) as [o O]. destruct (on_object i m s o v s' O C) as (f & X & ->). apply put_other; [exact N|now apply object_lt with o].
Qed.

(* ------------------------------------------------------------ C69 *)
Lemma x_queries s i o : x_reachable k w s -> x_object i s o ->
  (exists b s', x_call k w (XOn i XLoaded) s = Ok (XBool b, s') /\ (b = true <-> x_handle s <> None)) /\
  (exists b s', x_call k w (XOn i XAll) s = Ok (XBool b, s') /\ (b = true <-> forall j, j < length (k_names k) -> x_ptr j s <> None)) /\
  (exists b s', x_call k w (XOn i XNone) s = Ok (XBool b, s') /\ (b = true <-> forall j, j < length (k_names k) -> x_ptr j s = None)) /\
  (exists b s', x_call k w (XOn i XAny) s = Ok (XBool b, s') /\ (b = true <-> exists j, j < length (k_names k) /\ x_ptr j s <> None)) /\
  (exists s', x_call k w (XOn i XError) s = Ok (XStr (match o_err o with [] => $"no error" | m => m end), s')).
Proof.
  intros R O. assert (I := pi_sh _ _ _ (x_reach s R)). cbn [x_call x_method]. rewrite (proj2 (live_object _ _ _) O). cbn [bind].
  assert (L := si_len _ _ _ I).
  split; [|split; [|split; [|split]]]; eexists; try eexists; try (split; [reflexivity|]).
  - unfold x_loaded, x_handle, hndl. cbn. destruct (h_handle (c_sh s)); cbn; split; congruence.
  - rewrite x_all_spec. unfold pointers. cbn [snd]. rewrite L. reflexivity.
  - rewrite x_none_spec. unfold pointers, x_ptr. cbn [snd]. split; [auto|]. intros H j. destruct (lt_dec j (length (k_names k))); [auto|]. apply nth_overflow. unfold ptr in *. lia.
  - rewrite x_any_spec. unfold pointers, x_ptr. cbn [snd]. split.
    + intros [j H]. exists j. split; [|exact H]. destruct (lt_dec j (length (k_names k))); [easy|]. elim H. apply nth_overflow. unfold ptr in *. lia.
    + intros (j & _ & H). now exists j.
Qed.
Lemma x_load_all_truth s i o v s' : x_reachable k w s -> x_object i s o -> x_call k w (XOn i XLoadAll) s = Ok (v, s') ->
  exists b, v = XBool b /\ (b = true <-> forall j, j < length (k_names k) -> x_ptr j s' <> None) /\ x_handle s' = x_handle s.
Proof.
  intros R O C. destruct (on_object _ _ s o v s' O C) as (f & X & ->). cbn [x_method] in X.
  destruct (x_load_all_ok k w K (o, c_sh s) (pi_sh _ _ _ (x_reach s R))) as (b & f' & Q & (_ & (F & _) & _) & T). rewrite Q in X. injection X as <- <-. exists b. split; [easy|]. split; [exact T|exact F].
Qed.
Lemma x_by_number s i o num : x_reachable k w s -> x_object i s o ->
  exists b s' o', x_call k w (XOn i (XLoadNum num)) s = Ok (XBool b, s') /\ x_object i s' o' /\ x_handle s' = x_handle s /\
    match x_handle s, (if (num <? 0)%Z then None else nth_error (k_names k) (Z.to_nat num)) with
    | Some h, Some n =>
        (forall j, j <> Z.to_nat num -> x_ptr j s' = x_ptr j s) /\ (b = true <-> x_ptr (Z.to_nat num) s' <> None) /\
        exists m, x_ptr (Z.to_nat num) s' = match x_ptr (Z.to_nat num) s with Some p => Some p | None => w_sym w (EvError m :: x_past s) h n end
    | _, _ => b = false /\ (forall j, x_ptr j s' = x_ptr j s) /\ o_err o' <> []
    end.
Proof.
  intros R O. cbn [x_call x_method]. rewrite (proj2 (live_object _ _ _) O).
  destruct (x_load_num_ok k w K num (o, c_sh s) (pi_sh _ _ _ (x_reach s R))) as (b & f & Q & (_ & (F & _) & _) & T). rewrite Q. cbn [bind fst snd].
  exists b. eexists _, (fst f). split; [reflexivity|]. split; [now apply put_object with o|]. split; [exact F|]. unfold x_handle. unfold hndl in T. cbn [snd] in T.
  destruct (h_handle (c_sh s)).
  - destruct (if (num <? 0)%Z then None else nth_error (k_names k) (Z.to_nat num)).
    + destruct T as (T1 & T2 & T3). split; [exact T1|]. split; [exact T2|]. eexists. exact T3.
    + destruct T as (T1 & T2 & T3). split; [exact T1|]. split; [|exact T3]. intros j. unfold x_ptr. cbn [put c_sh]. unfold pointers in T2. now rewrite T2.
  - destruct T as (T1 & T2 & T3). split; [exact T1|]. split; [|exact T3]. intros j. unfold x_ptr. cbn [put c_sh]. unfold pointers in T2. now rewrite T2.
Qed.
Lemma x_by_name s i o a n : x_reachable k w s -> x_object i s o -> nth_error (k_names k) a = Some n ->
  exists b s' o', x_call k w (XOn i (XLoadName (Some n))) s = Ok (XBool b, s') /\ x_object i s' o' /\ x_handle s' = x_handle s /\
    (forall j, j <> a -> x_ptr j s' = x_ptr j s) /\ (b = true <-> x_handle s <> None /\ x_ptr a s' <> None) /\
    forall h, x_handle s = Some h -> exists m, x_ptr a s' = match x_ptr a s with Some p => Some p | None => w_sym w (EvError m :: x_past s) h n end.
Proof.
  intros R O Hn. cbn [x_call x_method]. rewrite (proj2 (live_object _ _ _) O).
  destruct (x_name_known k w K a n (o, c_sh s) (pi_sh _ _ _ (x_reach s R)) Hn) as (b & f & Q & (_ & (F & _) & _) & T1 & T2 & T3). rewrite Q. cbn [bind fst snd].
  exists b. eexists _, (fst f). split; [reflexivity|]. split; [now apply put_object with o|]. split; [exact F|]. split; [exact T2|]. split; [exact T1|]. intros h H. eexists. apply T3. exact H.
Qed.
Lemma x_by_unknown_name s i o a : x_reachable k w s -> x_object i s o -> (forall n, a = Some n -> ~ In (c_str n) (k_names k)) ->
  exists s' o', x_call k w (XOn i (XLoadName a)) s = Ok (XBool false, s') /\ x_object i s' o' /\ x_handle s' = x_handle s /\ (forall j, x_ptr j s' = x_ptr j s) /\ o_err o' <> [] /\
    exists new, x_past s' = new ++ x_past s /\ forall e, In e new -> exists m, e = EvError m.
Proof.
  intros R O N. cbn [x_call x_method]. rewrite (proj2 (live_object _ _ _) O).
  destruct (x_name_unknown k w K a (o, c_sh s) (pi_sh _ _ _ (x_reach s R)) N) as (f & Q & (_ & (F & _) & _) & T1 & T2 & T3). rewrite Q. cbn [bind fst snd].
  eexists _, (fst f). split; [reflexivity|]. split; [now apply put_object with o|]. split; [exact F|]. split; [|split; [exact T2|exact T3]].
  intros j. unfold x_ptr. cbn [put c_sh]. unfold pointers in T1. now rewrite T1.
Qed.
End K.

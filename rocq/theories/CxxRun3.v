(** The C++ class: wrappers, the library's path, lifetime, requests; counterexamples *)
From Coq Require Import Ascii String List Bool Arith ZArith Lia.
From Verif Require Import Str StrFacts SpecFormat CRuntime SpecCRuntime MinRuntime SpecMinRuntime CRuntimeFacts CRuntimeFacts2 CRuntimeProps CRuntimeProps2 CxxRuntime SpecCxxRuntime CxxFacts CxxProps CxxRun CxxRun2.
Import ListNotations.

Lemma ok_inj {A B} (a a' : A) (b b' : B) : Ok (a, b) = Ok (a', b') -> b = b'.
Proof. now intros [= _ E]. Qed.

Section K.
Variables (k : rconf) (w : world).
Hypothesis K : conf_ok k.
Notation sinv := (sinv k w).
Notation pinv := (pinv k w).

(* ------------------------------------------------------------ C70 *)
Lemma wrapped_call s i n args : x_reachable k w s -> c_end s = None -> nth_error (k_names k) i = Some n -> c_str (k_lib k) = k_lib k ->
  exists s', x_call k w (XWrapped i args) s = Ok (XVoid, s') /\
    ((exists p h l new, c_end s' = None /\ x_past s' = EvCall p args :: new ++ x_past s /\ Forall silent new /\
        x_handle s' = Some h /\ session (new ++ x_past s) = Some (h, l) /\ last_answer h n l = Some p) \/
     (exists head msg pre post, x_ptr i s = None /\ c_end s' = Some (match k_auto k with AutoOff => Aborted | _ => Exited 1 end) /\ Forall silent pre /\ Forall silent post /\
        x_past s' = post ++ EvPrint (head ++ $": " ++ n ++ $": " ++ msg ++ [nl]) :: pre ++ x_past s /\
        (head = $"fatal error" \/ head = $"error" \/ head = $"error: " ++ k_lib k) /\
        (k_auto k = AutoOff -> msg = match x_handle s with Some _ => $"symbol not loaded" | None => $"library not loaded" end) /\
        (k_auto k <> AutoOff -> x_handle s' = None))).
Proof.
  intros R E Hn CL. assert (P := x_reach k w K s R). destruct (wrapped_ok k w K i n args s P E Hn) as (s' & Q & _ & _ & X). cbn [x_call]. rewrite Q. cbn [bind].
  exists s'. split; [easy|]. destruct X as [((p & h & l & new & A & _ & B) & _)|[N C]]; [left; exists p, h, l, new; now split|]. right.
  destruct (not_loaded_ok k w K i n s P E Hn) as (b & s2 & Q2 & _ & _ & _ & F). rewrite C in Q2. injection Q2 as <- <-. destruct (F eq_refl) as (F1 & F2 & F3).
  destruct (F3 CL) as (msg & (head & pre & post & S1 & S2 & H & T) & M). exists head, msg, pre, post. repeat (split; [easy|]). split; [|exact F2].
  intros A. now rewrite A in M.
Qed.
(** the reason when a symbol of a loaded library is missing *)
Lemma lazy_reason s i n args h : x_reachable k w s -> c_end s = None -> nth_error (k_names k) i = Some n -> c_str (k_lib k) = k_lib k ->
  k_auto k = AutoLazy -> x_handle s = Some h -> x_ptr i s = None -> (forall t, w_sym w t h n = None) -> explains w ->
  exists s' head pre post r m, x_call k w (XWrapped i args) s = Ok (XVoid, s') /\ Forall silent post /\
    x_past s' = post ++ EvPrint (head ++ $": " ++ n ++ $": " ++ c_str r ++ [nl]) :: pre ++ x_past s /\ pre = [EvError (Some r); EvSym h n None; EvError m].
Proof.
  intros R E Hn CL A H N W X. assert (P := x_reach k w K s R). destruct (wrapped_ok k w K i n args s P E Hn) as (s' & Q & _ & _ & Y). cbn [x_call]. rewrite Q. cbn [bind].
  destruct (pi_loader _ _ _ P ltac:(congruence) E) as (l & L & _).
  assert (D : forall r, w_error w (EvSym h n None :: EvError (w_error w (x_past s)) :: x_past s) = Some r ->
    x_not_loaded k w i n s = Ok (false, x_exit k w 1 (c_with_sh (x_message (match find (k_lib k) (match c_str r with [] => $"no error" | e => e end) with
      | Some _ => $"error: " ++ n ++ $": " ++ (match c_str r with [] => $"no error" | e => e end)
      | None => $"error: " ++ k_lib k ++ $": " ++ n ++ $": " ++ (match c_str r with [] => $"no error" | e => e end) end)
      (mkshared (Some h) (firstn i (h_ptrs (c_sh s)) ++ None :: skipn (S i) (h_ptrs (c_sh s))) (EvError (Some r) :: EvSym h n None :: EvError (w_error w (x_past s)) :: x_past s)))
      (mkcst (mkshared (Some h) (firstn i (h_ptrs (c_sh s)) ++ None :: skipn (S i) (h_ptrs (c_sh s))) (EvError (Some r) :: EvSym h n None :: EvError (w_error w (x_past s)) :: x_past s))
         (Some (mkobj (o_file l) (o_flags l) (o_newns l) (o_free l) (o_libpath l) (c_str r) (o_static l))) (c_objs s) (c_end s))))).
  { intros r Er. unfold x_not_loaded. rewrite A, L. cbv zeta. unfold x_loaded at 1. unfold hndl. cbn [snd]. unfold x_handle in H. rewrite H. cbn [non_null].
    unfold x_load_num. unfold x_loaded. change (hndl (x_clear w (l, c_sh s))) with (h_handle (c_sh s)). rewrite H. cbn [non_null negb].
    assert (Z : (Z.of_nat i <? 0)%Z = false) by (apply Z.ltb_ge; lia). rewrite Z, Nat2Z.id, Hn. unfold x_one.
    change (pointers (x_clear w (l, c_sh s))) with (h_ptrs (c_sh s)). unfold x_ptr in N. rewrite N. unfold x_sym. change (hndl (x_clear w (l, c_sh s))) with (h_handle (c_sh s)). rewrite H, W.
    cbn [bind non_null]. unfold x_save. change (past (record (EvSym h n None) (x_clear w (l, c_sh s)))) with (EvSym h n None :: EvError (w_error w (x_past s)) :: x_past s). rewrite Er.
    unfold x_error, x_set, x_clear, pointers, past. cbn [record with_err with_pointers fst snd o_file o_flags o_newns o_free o_libpath o_static o_err h_handle h_ptrs h_trace c_sh]. rewrite H. reflexivity. }
  destruct Y as [((p & h' & l' & new & B1 & _ & B2 & B3 & B4 & B5 & B6) & _)|[_ C]].
  - exfalso. unfold x_wrapped in Q. rewrite Hn in Q. unfold x_ptr in N. rewrite N in Q.
    destruct (X (EvSym h n None) (EvError (w_error w (x_past s)) :: x_past s) Logic.I) as (r & Er & _). rewrite (D r Er) in Q. cbn [bind] in Q. injection Q as <-. discriminate B1.
  - destruct (X (EvSym h n None) (EvError (w_error w (x_past s)) :: x_past s) Logic.I) as (r & Er & Nr). rewrite (D r Er) in C. apply ok_inj in C.
    set (m := match find _ _ with Some _ => _ | None => _ end) in C.
    set (g := mkshared (Some h) _ _) in C. set (s1 := c_with_sh _ _) in C.
    assert (Sg : sinv g).
    { assert (I := pi_sh _ _ _ P). pose proof (clear_sinv k w (l, c_sh s) I) as J.
      pose proof (sinv_ask k w K h i n (snd (x_clear w (l, c_sh s))) H Hn J) as J2. cbv zeta in J2. rewrite W in J2.
      match type of J2 with CxxFacts.sinv _ _ ?x => assert (J3 : sinv (logged (EvError (Some r)) x)) by (apply sinv_log; [exact Logic.I|cbn [honest h_trace]; split; [first [exact Er|exact (eq_sym Er)]|exact (si_honest _ _ _ J2)]|exact J2]) end.
      unfold logged in J3. cbn in J3. unfold x_handle in H. rewrite H in J3. exact J3. }
    assert (S1 : sinv (c_sh s1)) by (apply message_sinv, Sg). destruct (exit_ok k w 1 s1 S1) as (_ & (post & T & Sp) & _). rewrite C in T.
    assert (CN : c_str n = n) by (apply (proj1 (Forall_forall _ _) (ok_text _ K) n), (nth_error_In _ _ Hn)).
    assert (EM : exists head, c_str m = head ++ $": " ++ n ++ $": " ++ c_str r).
    { unfold m. clear m s1 S1 C T. assert (Cc := c_str_id r). destruct (c_str r) as [|c q]; [easy|]. destruct (find (k_lib k) (c :: q)).
      - exists $"error". rewrite c_str_app by reflexivity. rewrite c_str_app by exact CN. rewrite c_str_app by reflexivity. now rewrite Cc.
      - exists ($"error: " ++ k_lib k). rewrite c_str_app by reflexivity. rewrite c_str_app by exact CL. rewrite c_str_app by reflexivity.
        rewrite c_str_app by exact CN. rewrite c_str_app by reflexivity. rewrite Cc. now rewrite <- !app_assoc. }
    destruct EM as [head EM]. exists s', head, [EvError (Some r); EvSym h n None; EvError (w_error w (x_past s))], post, r, (w_error w (x_past s)).
    split; [easy|]. split; [exact Sp|]. split; [|easy]. unfold x_past at 1. rewrite T. unfold s1, c_with_sh, x_message. cbn [c_sh h_trace]. rewrite EM. unfold g. cbn [h_trace].
    now rewrite <- !app_assoc.
Qed.
(** the reason why the library could not be opened is lost *)
Lemma open_reason_lost s i n args : x_reachable k w s -> c_end s = None -> nth_error (k_names k) i = Some n -> c_str (k_lib k) = k_lib k ->
  k_auto k <> AutoOff -> x_handle s = None -> (forall t f fl ns, w_open w t f fl ns = None) ->
  exists s' head pre post, x_call k w (XWrapped i args) s = Ok (XVoid, s') /\ c_end s' = Some (Exited 1) /\ Forall silent pre /\ Forall silent post /\
    x_past s' = post ++ EvPrint (head ++ $": " ++ n ++ $": no library was loaded" ++ [nl]) :: pre ++ x_past s.
Proof.
  intros R E Hn CL A H W. assert (P := x_reach k w K s R). assert (I := pi_sh _ _ _ P). destruct (wrapped_ok k w K i n args s P E Hn) as (s' & Q & _ & _ & Y). cbn [x_call]. rewrite Q. cbn [bind].
  assert (Pn : x_ptr i s = None) by now apply (si_none _ _ _ I).
  destruct (not_loaded_ok k w K i n s P E Hn) as (b & s2 & Q2 & _ & _ & T & F).
  assert (D : forall l b f, demand k w i (l, c_sh s) = Ok (b, f) -> b = false /\ x_error f = $"no library was loaded").
  { intros l b' f D. unfold demand in D. cbv zeta in D. unfold x_handle in H.
    assert (NL : x_loaded (l, c_sh s) = false) by (unfold x_loaded, hndl; cbn [snd]; now rewrite H). rewrite NL in D.
    pose proof (filename_cases k w (o_file l) (l, c_sh s) I) as X. pose proof (x_load_filename_ok k w (o_file l) (l, c_sh s) I) as X2. change (x_load k w (l, c_sh s)) with (x_load_filename k w (o_file l) (l, c_sh s)) in D.
    assert (Hf : hndl (snd (x_load_filename k w (o_file l) (l, c_sh s))) = None).
    { unfold x_load_filename. unfold x_loaded at 1. change (hndl (x_clear w (l, c_sh s))) with (h_handle (c_sh s)). rewrite H. cbn [non_null]. destruct (o_file l); [exact H|].
      unfold x_load_lib. rewrite W. reflexivity. }
    destruct (x_load_filename k w (o_file l) (l, c_sh s)) as [b1 f1]. cbn [snd] in *. destruct X as (X1 & _).
    assert (G : x_load_num k w (Z.of_nat i) f1 = Ok (b', f) \/ x_load_all k w f1 = Ok (b', f)) by (destruct (k_auto k); [right|right|left]; exact D). clear D. destruct G as [D|D].
    - unfold x_load_num in D. unfold x_loaded in D. change (hndl (x_clear w f1)) with (hndl f1) in D. rewrite Hf in D. cbn [non_null negb] in D. injection D as <- <-. now split.
    - unfold x_load_all in D. assert (NA : x_all (x_clear w f1) = false).
      { apply Bool.not_true_iff_false. rewrite x_all_spec. intros Z. assert (L : i < length (pointers (x_clear w f1))).
        { change (pointers (x_clear w f1)) with (h_ptrs (snd f1)). rewrite (si_len _ _ _ X1). apply nth_error_Some. congruence. }
        apply (Z i L). change (pointers (x_clear w f1)) with (h_ptrs (snd f1)). now apply (si_none _ _ _ X1). }
      rewrite NA in D. unfold x_loaded in D. change (hndl (x_clear w f1)) with (hndl f1) in D. rewrite Hf in D. cbn [non_null negb] in D. injection D as <- <-. now split. }
  assert (B : b = false).
  { destruct b; [|easy]. exfalso. destruct (T eq_refl) as (T1 & _). destruct (pi_loader _ _ _ P A E) as (l & L & _).
    assert (G : exists f, demand k w i (l, c_sh s) = Ok (true, f)).
    { unfold x_not_loaded in Q2. rewrite L in Q2. unfold demand. cbv zeta in *. destruct (k_auto k) eqn:EA; [easy| |].
      - match type of Q2 with context [bind ?x _] => destruct x as [[b f]| | |] eqn:EX end; try discriminate. cbn [bind] in Q2. destruct b; [|discriminate]. exists f. exact EX.
      - match type of Q2 with context [bind ?x _] => destruct x as [[b f]| | |] eqn:EX end; try discriminate. cbn [bind] in Q2. destruct b; [|discriminate]. exists f. exact EX. }
    destruct G as [f G]. now destruct (D l true f G). }
  subst b. unfold x_wrapped in Q. rewrite Hn in Q. unfold x_ptr in Pn. rewrite Pn, Q2 in Q. cbn [bind] in Q. injection Q as <-.
  destruct (F eq_refl) as (F1 & _ & F3). destruct (F3 CL) as (msg & (head & pre & post & S1 & S2 & _ & Tr) & M). exists s2, head, pre, post. split; [easy|]. split; [rewrite F1; now destruct (k_auto k)|].
  split; [exact S1|]. split; [exact S2|]. assert (Em : msg = $"no library was loaded").
  { destruct (k_auto k); [easy| |]; destruct M as (l & f & _ & M & ->); destruct (D l false f M) as [_ ->]; reflexivity. }
  rewrite Em in Tr. exact Tr.
Qed.

(* ------------------------------------------------------------ C71 *)
Definition path_right (g : shared) (o : obj) : Prop := o_libpath o <> [] ->
  exists h l, h_handle g = Some h /\ session (h_trace g) = Some (h, l) /\ named_path h (o_libpath o) l.
Lemma inert_session new t h l : Forall inert new -> session t = Some (h, l) -> session (new ++ t) = Some (h, new ++ l).
Proof. intros F S. induction F as [|e new He _ IH]; [easy|]. cbn [app session]. rewrite IH. now destruct e. Qed.
Lemma named_app h p new l : named_path h p l -> named_path h p (new ++ l).
Proof. intros N. induction new as [|e new IH]; [easy|]. cbn [app]. now apply named_more. Qed.
Lemma stays_right g g' o : stays g g' -> path_right g o -> path_right g' o.
Proof.
  intros (H & new & T & F) P N. destruct (P N) as (h & l & A & B & C). exists h, (new ++ l). split; [congruence|]. split; [rewrite T; now apply inert_session|now apply named_app].
Qed.
Lemma opened_right g g' o : opened g g' -> path_right g o -> path_right g' o.
Proof. intros (H & _) P N. destruct (P N) as (h & l & A & _). congruence. Qed.
Lemma right_path g o o' : o_libpath o' = o_libpath o -> path_right g o -> path_right g o'.
Proof. unfold path_right. now intros ->. Qed.
Lemma free_refused force s s' : x_free k w force s = (false, s') -> exists h r r', hndl s = Some h /\ hndl s' = Some h /\
  past s' = EvError r :: EvClose h false :: EvError r' :: past s.
Proof.
  unfold x_free. change (hndl (x_clear w s)) with (hndl s). destruct (hndl s) as [h|] eqn:H; [|discriminate].
  destruct (w_close w (past (x_clear w s)) h || force) eqn:B; cbn [negb]; [discriminate|]. apply orb_false_iff in B. destruct B as [B _].
  intros [= <-]. eexists h, _, _. split; [easy|]. split; [exact H|]. unfold x_save. rewrite B. reflexivity.
Qed.
Lemma method_right m s v s' : sinv (snd s) -> x_method k w m s = Ok (v, s') -> path_right (snd s) (fst s) -> path_right (snd s') (fst s').
Proof.
  intros I R P. destruct (method_facts k w K m s I) as (v' & s2 & R' & I' & _ & _ & _ & H & L & _). rewrite R in R'. injection R' as <- <-.
  assert (G : stays (snd s) (snd s') \/ opened (snd s) (snd s') -> o_libpath (fst s') = o_libpath (fst s) -> path_right (snd s') (fst s')).
  { intros X Y. apply (right_path _ (fst s)); [exact Y|]. destruct X as [X|X]; [eapply stays_right|eapply opened_right]; eassumption. }
  destruct m; try (now apply G).
  - injection H as _ ->. pose proof (x_free_ok k w force s I) as X. destruct (x_free k w force s) as [b s'] eqn:Fr. cbn [snd]. destruct X as (_ & _ & X1 & X2 & _). destruct b.
    + intros N. now destruct (X1 eq_refl) as (_ & _ & X & _).
    + destruct (X2 eq_refl) as (_ & _ & _ & X & _). destruct (free_refused force s s' Fr) as (h & r & r' & F1 & F2 & F3).
      intros N. rewrite X in *. destruct (P N) as (h' & l & A & B & C). unfold hndl in *. assert (h' = h) by congruence. subst h'.
      exists h, ([EvError r; EvClose h false; EvError r'] ++ l). split; [exact F2|]. split; [|now apply named_app]. unfold past in F3. rewrite F3. cbn [session app]. now rewrite B.
  - cbn [x_method] in R. pose proof (x_library_path_ok k w s I) as X. destruct (x_library_path k w s) as [p s2]. injection R as <- <-. destruct X as (_ & X1 & _ & X2 & _ & X3 & _).
    destruct X3 as [X3|(X3 & X4 & X5)]; [now apply G|]. intros N. rewrite X3 in *. destruct (X2 N) as (h & Y1 & _ & Y2). rewrite X5 in Y2. destruct Y2 as [Y2|(_ & new & Y2 & Y3)]; [congruence|].
    destruct (si_some _ _ _ I' h) as (_ & l & Z & _); [destruct X1 as [X1 _]; unfold hndl in *; congruence|].
    destruct (si_some _ _ _ I h Y1) as (_ & l0 & Z0 & _). destruct X1 as (X1 & _ & new' & Tn & Fn). assert (new' = new) by (rewrite Y2 in Tn; now apply app_inv_tail in Tn). subst new'.
    exists h, (new ++ l0). split; [unfold hndl in *; congruence|]. split; [unfold past in Y2; rewrite Y2; now apply inert_session|apply Y3].
Qed.
Lemma lone_right s : lone_releases k w s -> pinv s /\ c_end s = None /\ forall i o, x_object i s o -> path_right (c_sh s) o.
Proof.
  induction 1 as [|s o v s' _ (P & E & IH) C E' L].
  - split; [apply pinv_init|]. split; [easy|]. intros i o O. destruct i; discriminate.
  - assert (V := call_valid k w _ _ _ C). destruct (call_facts k w K o s P E V) as (v' & s2 & C' & P' & _). rewrite C in C'. injection C' as <- <-.
    split; [exact P'|]. split; [exact E'|]. assert (I := pi_sh _ _ _ P).
    assert (Add : forall a, path_right (c_sh s) a -> forall i x, x_object i (add a s) x -> path_right (c_sh s) x).
    { intros a Pa i x. unfold x_object, add. cbn [c_objs]. intros H. destruct (lt_dec i (length (c_objs s))).
      - rewrite nth_error_app1 in H by easy. now apply (IH i).
      - rewrite nth_error_app2 in H by lia. destruct (i - length (c_objs s)) as [|d]; [|destruct d; discriminate]. injection H as <-. exact Pa. }
    destruct o as [[f|] fl ns st|i st|i j|i|i m|i args|c]; cbn [x_call x_valid] in *.
    + injection C as _ <-. apply Add. easy.
    + injection C as _ <-. apply Add. easy.
    + destruct V as [a V]. rewrite (proj2 (live_object _ _ _) V) in C. injection C as _ <-. apply Add. apply (right_path _ a); [easy|]. now apply (IH i).
    + destruct V as [[a V1] [b V2]]. rewrite (proj2 (live_object _ _ _) V1), (proj2 (live_object _ _ _) V2) in C. injection C as _ <-. cbn [c_sh put].
      intros n x O. destruct (Nat.eq_dec n i) as [->|N].
      * unfold x_object in O. rewrite put_same in O by (now apply object_lt with a). injection O as <-. apply (right_path _ b); [easy|]. now apply (IH j).
      * unfold x_object in O. rewrite put_other in O; [|exact N|now apply object_lt with a]. now apply (IH n).
    + destruct V as [a V]. rewrite (proj2 (live_object _ _ _) V) in C. injection C as _ <-. cbn [c_sh put].
      intros n x O. destruct (Nat.eq_dec n i) as [->|N].
      * unfold x_object in O. rewrite put_same in O by (now apply object_lt with a). discriminate.
      * unfold x_object in O. rewrite put_other in O; [|exact N|now apply object_lt with a]. destruct (destroy_ok k w a (c_sh s) I) as (_ & _ & _ & _ & D).
        destruct (o_free a) eqn:Fa; [|rewrite D by easy; now apply (IH n)]. elim N. apply (L i false (or_intror eq_refl)) with x; [cbn; now exists a|exact O].
    + destruct V as [a V]. destruct (on_object k w i m s a v s' V C) as (f & X & ->). cbn [c_sh put].
      assert (Pa := IH i a V). assert (Own := method_right m (a, c_sh s) v f I X Pa).
      intros n x O. destruct (Nat.eq_dec n i) as [->|N].
      * unfold x_object in O. rewrite put_same in O by (now apply object_lt with a). injection O as <-. exact Own.
      * unfold x_object in O. rewrite put_other in O; [|exact N|now apply object_lt with a]. assert (Px := IH n x O).
        destruct (method_facts k w K m (a, c_sh s) I) as (v' & f' & R' & _ & _ & _ & _ & H & _). rewrite X in R'. injection R' as <- <-.
        assert (G : stays (c_sh s) (snd f) \/ opened (c_sh s) (snd f) -> path_right (snd f) x) by (intros [Y|Y]; [eapply stays_right|eapply opened_right]; eassumption).
        destruct m; try (now apply G). elim N. now apply (L i force (or_introl eq_refl) Logic.I n x).
    + destruct (nth_error (k_names k) i) as [nm|] eqn:Hn.
      * destruct (wrapped_ok k w K i nm args s P E Hn) as (s2 & Q & _ & _ & Y). rewrite Q in C. cbn [bind] in C. injection C as _ <-.
        unfold x_wrapped in Q. rewrite Hn in Q. destruct (nth i (h_ptrs (c_sh s)) None) as [q|] eqn:Hq.
        -- cbn [bind] in Q. rewrite Hq in Q. injection Q as <-. cbn [c_with_sh c_objs c_sh]. intros j x O N. destruct (IH j x O N) as (h & l & A & B & D).
           exists h, (EvCall q args :: l). split; [exact A|]. split; [cbn; now rewrite B|now apply named_more].
        -- destruct (not_loaded_ok k w K i nm s P E Hn) as (b & s3 & Q3 & _ & _ & T & F). rewrite Q3 in Q. cbn [bind] in Q. destruct b.
           ++ destruct (T eq_refl) as (_ & T2 & T3 & T4 & _). unfold x_ptr in T3. destruct (nth i (h_ptrs (c_sh s3)) None) as [q|] eqn:Hq3; [|easy]. injection Q as <-.
              cbn [c_with_sh c_objs c_sh]. intros j x O N. unfold x_object in O. cbn in O. rewrite T2 in O.
              assert (G : path_right (c_sh s3) x) by (destruct T4 as [Y4|Y4]; [eapply stays_right|eapply opened_right]; try eassumption; now apply (IH j)).
              destruct (G N) as (h & l & A & B & D). exists h, (EvCall q args :: l). split; [exact A|]. split; [cbn; now rewrite B|now apply named_more].
           ++ injection Q as <-. destruct (F eq_refl) as (F1 & _). rewrite F1 in E'. discriminate.
      * unfold x_wrapped in C. rewrite Hn in C. injection C as _ <-. exact IH.
    + injection C as _ <-. discriminate E'.
Qed.
Lemma path_of_current s i o p s' : lone_releases k w s -> x_object i s o -> x_call k w (XOn i XPath) s = Ok (XStr p, s') -> p <> [] ->
  exists h l, x_handle s = Some h /\ x_handle s' = Some h /\ session (x_past s') = Some (h, l) /\ named_path h p l.
Proof.
  intros L O C N. destruct (lone_right s L) as (P & E & G). assert (I := pi_sh _ _ _ P). destruct (on_object k w i XPath s o _ s' O C) as (f & X & ->).
  assert (Own := method_right XPath (o, c_sh s) _ f I X (G i o O)). cbn [x_method] in X. pose proof (x_library_path_ok k w (o, c_sh s) I) as Y.
  destruct (x_library_path k w (o, c_sh s)) as [q f']. injection X as -> ->. destruct Y as (_ & (Y0 & _) & _ & Y1 & _). destruct (Y1 N) as (h & Y2 & Y3 & _).
  rewrite <- Y3 in N. destruct (Own N) as (h' & l & A & B & D). rewrite Y3 in D. unfold hndl in *. cbn [snd] in *. assert (h' = h) by congruence. subst h'.
  exists h, l. unfold x_handle, x_past. cbn [c_sh put]. now repeat split.
Qed.

(* ------------------------------------------------------------ C72 *)
Lemma deleted s i o : x_reachable k w s -> x_object i s o -> exists s', x_call k w (XDelete i) s = Ok (XVoid, s') /\
  (o_free o = true -> x_handle s' = None /\ forall j, x_ptr j s' = None) /\ (o_free o = false -> c_sh s' = c_sh s) /\
  (forall x, ~ x_object i s' x) /\ forall j, j <> i -> nth_error (c_objs s') j = nth_error (c_objs s) j.
Proof.
  intros R O. cbn [x_call]. rewrite (proj2 (live_object _ _ _) O). destruct (destroy_ok k w o (c_sh s) (pi_sh _ _ _ (x_reach k w K s R))) as (_ & _ & _ & A & B).
  eexists. split; [reflexivity|]. split; [exact A|]. split; [exact B|]. split.
  - intros x H. unfold x_object in H. rewrite put_same in H by (now apply object_lt with o). discriminate.
  - intros j N. apply put_other; [exact N|now apply object_lt with o].
Qed.
Lemma library_stays s o v s' h : x_reachable k w s -> c_end s = None -> x_call k w o s = Ok (v, s') -> ~ x_releases s o -> x_handle s = Some h ->
  x_handle s' = Some h \/ c_end s' <> None.
Proof.
  intros R E C N H. assert (P := x_reach k w K s R). assert (I := pi_sh _ _ _ P). assert (V := call_valid k w _ _ _ C).
  destruct o as [[f|] fl ns st|i st|i j|i|i m|i args|c]; cbn [x_call x_valid x_releases] in *.
  - injection C as _ <-. now left.
  - injection C as _ <-. now left.
  - destruct V as [a V]. rewrite (proj2 (live_object _ _ _) V) in C. injection C as _ <-. now left.
  - destruct V as [[a V1] [b V2]]. rewrite (proj2 (live_object _ _ _) V1), (proj2 (live_object _ _ _) V2) in C. injection C as _ <-. now left.
  - destruct V as [a V]. rewrite (proj2 (live_object _ _ _) V) in C. injection C as _ <-. left. destruct (destroy_ok k w a (c_sh s) I) as (_ & _ & _ & _ & D).
    unfold x_handle. cbn [c_sh put]. rewrite D; [exact H|]. destruct (o_free a) eqn:Fa; [|easy]. elim N. now exists a.
  - destruct V as [a V]. destruct (on_object k w i m s a v s' V C) as (f & X & ->). left. unfold x_handle. cbn [c_sh put].
    destruct (method_facts k w K m (a, c_sh s) I) as (v' & f' & R' & _ & _ & _ & _ & Y & _). rewrite X in R'. injection R' as <- <-.
    assert (G : stays (c_sh s) (snd f) \/ opened (c_sh s) (snd f) -> h_handle (snd f) = Some h) by (unfold x_handle in H; intros [[Z _]|[Z _]]; congruence).
    destruct m; try (now apply G); now elim N.
  - destruct (nth_error (k_names k) i) as [nm|] eqn:Hn.
    + destruct (wrapped_ok k w K i nm args s P E Hn) as (s2 & Q & _ & _ & [[_ Y]|[_ Y]]); rewrite Q in C; cbn [bind] in C; injection C as _ <-; [left; now apply Y|].
      right. destruct (not_loaded_ok k w K i nm s P E Hn) as (b & s3 & Q3 & _ & _ & _ & F). rewrite Y in Q3. injection Q3 as <- <-. destruct (F eq_refl) as (F1 & _). rewrite F1. discriminate.
    + unfold x_wrapped in C. rewrite Hn in C. injection C as _ <-. now left.
  - now elim N.
Qed.
Lemma exit_releases s c : x_reachable k w s -> c_end s = None -> k_auto k <> AutoOff \/ (exists i o, x_object i s o /\ o_static o = true /\ o_free o = true) ->
  exists s', x_call k w (XExit c) s = Ok (XVoid, s') /\ c_end s' = Some (Exited c) /\ x_handle s' = None.
Proof.
  intros R E G. assert (P := x_reach k w K s R). cbn [x_call]. eexists. split; [reflexivity|]. destruct (exit_ok k w c s (pi_sh _ _ _ P)) as (_ & _ & _ & A & B). split; [exact A|]. apply B.
  destruct G as [G|(i & o & O & S & F)].
  - destruct (pi_loader _ _ _ P G E) as (l & L & L1 & L2 & _). exists l. auto.
  - exists o. split; [|auto]. left. unfold x_object in O. now apply nth_error_In in O.
Qed.

(* ------------------------------------------------------------ C73 *)
Definition request (o : obj) : str * Z * bool := (o_file o, o_flags o, o_newns o).
Lemma request_kept i o s v s' a : x_reachable k w s -> c_end s = None -> x_requests i o = false -> x_call k w o s = Ok (v, s') -> x_object i s a ->
  c_end s' <> None \/ exists a', x_object i s' a' /\ request a' = request a.
Proof.
  intros R E N C O. assert (P := x_reach k w K s R). assert (I := pi_sh _ _ _ P). assert (V := call_valid k w _ _ _ C). assert (Li := object_lt i s a O).
  assert (Add : forall b, exists a', x_object i (add b s) a' /\ request a' = request a).
  { intros b. exists a. split; [|easy]. unfold x_object, add. cbn [c_objs]. rewrite nth_error_app1 by exact Li. exact O. }
  assert (Put : forall j b g, j <> i -> j < length (c_objs s) -> exists a', x_object i (put j b g s) a' /\ request a' = request a).
  { intros j b g Nj Lj. exists a. split; [|easy]. unfold x_object. rewrite put_other by auto. exact O. }
  destruct o as [[f|] fl ns st|n st|n j|n|n m|n args|c]; cbn [x_call x_valid x_requests] in *.
  - injection C as _ <-. right. apply Add.
  - injection C as _ <-. right. apply Add.
  - destruct V as [b V]. rewrite (proj2 (live_object _ _ _) V) in C. injection C as _ <-. right. apply Add.
  - destruct V as [[b V1] [d V2]]. rewrite (proj2 (live_object _ _ _) V1), (proj2 (live_object _ _ _) V2) in C. injection C as _ <-. right. apply Nat.eqb_neq in N. apply Put; [auto|now apply object_lt with b].
  - destruct V as [b V]. rewrite (proj2 (live_object _ _ _) V) in C. injection C as _ <-. right. apply Nat.eqb_neq in N. apply Put; [auto|now apply object_lt with b].
  - right. destruct (Nat.eq_dec n i) as [->|Nn].
    + destruct (on_object k w i m s a v s' O C) as (f & X & ->). destruct (method_facts k w K m (a, c_sh s) I) as (v' & f' & R' & _ & _ & _ & Y & _). rewrite X in R'. injection R' as <- <-.
      exists (fst f). split; [now apply put_object with a|]. unfold request. rewrite Y. destruct m; try easy. now rewrite Nat.eqb_refl in N.
    + destruct V as [b V]. destruct (on_object k w n m s b v s' V C) as (f & X & ->). apply Put; [exact Nn|now apply object_lt with b].
  - destruct (nth_error (k_names k) n) as [nm|] eqn:Hn.
    + destruct (wrapped_ok k w K n nm args s P E Hn) as (s2 & Q & _ & _ & [[(p & h & l & new & _ & Y & _) _]|[_ Y]]); rewrite Q in C; cbn [bind] in C; injection C as _ <-.
      * right. exists a. split; [|easy]. unfold x_object. rewrite Y. exact O.
      * left. destruct (not_loaded_ok k w K n nm s P E Hn) as (b & s3 & Q3 & _ & _ & _ & F). rewrite Y in Q3. injection Q3 as <- <-. destruct (F eq_refl) as (F1 & _). rewrite F1. discriminate.
    + unfold x_wrapped in C. rewrite Hn in C. injection C as _ <-. right. now exists a.
  - injection C as _ <-. left. discriminate.
Qed.
Lemma reach_step s o v s' : x_reachable k w s -> c_end s = None -> x_call k w o s = Ok (v, s') -> x_reachable k w s'.
Proof. intros [ops R] E C. exists (ops ++ [o]). rewrite x_run_app, R. cbn [bind]. unfold x_step. rewrite E, C. reflexivity. Qed.
Lemma last_request ops : forall s i o f fl ns v s1 s2, x_reachable k w s -> c_end s = None -> x_object i s o ->
  x_call k w (XOn i (XLoadArgs f fl ns)) s = Ok (v, s1) ->
  fold_left (fun r o => s <- r ;; x_step k w s o) ops (Ok s1) = Ok s2 -> forallb (fun o => negb (x_requests i o)) ops = true -> c_end s2 = None ->
  x_reachable k w s2 /\ exists o2, x_object i s2 o2 /\ request o2 = (f, fl, ns).
Proof.
  induction ops as [|x ops IH] using rev_ind; intros s i o f fl ns v s1 s2 R E O C L N E2.
  - cbn in L. injection L as <-. split; [eapply reach_step; eassumption|]. destruct (on_object k w i _ s o v s1 O C) as (g & X & ->).
    destruct (method_facts k w K (XLoadArgs f fl ns) (o, c_sh s) (pi_sh _ _ _ (x_reach k w K s R))) as (v' & f' & R' & _ & _ & _ & Y & _). rewrite X in R'. injection R' as <- <-.
    exists (fst g). split; [now apply put_object with o|exact Y].
  - rewrite fold_left_app in L. cbn [fold_left] in L. destruct (fold_left _ ops (Ok s1)) as [s3| | |] eqn:L3; try discriminate. cbn [bind] in L.
    rewrite forallb_app in N. apply andb_true_iff in N. destruct N as [N1 N2]. cbn in N2. rewrite andb_true_r in N2. apply negb_true_iff in N2.
    unfold x_step in L. destruct (c_end s3) as [e|] eqn:E3; [injection L as <-; congruence|].
    destruct (IH s i o f fl ns v s1 s3 R E O C L3 N1 E3) as (R3 & a & Oa & Qa). destruct (x_call k w x s3) as [[v4 s4]| | |] eqn:C4; try discriminate. cbn in L. injection L as <-.
    split; [eapply reach_step; eassumption|]. destruct (request_kept i x s3 v4 s4 a R3 E3 N2 C4 Oa) as [Z|(a' & Oa' & Qa')]; [congruence|]. exists a'. split; [exact Oa'|congruence].
Qed.
Lemma map_put {A B} (g : A -> B) i x l : map g (firstn i l ++ x :: skipn (S i) l) = firstn i (map g l) ++ g x :: skipn (S i) (map g l).
Proof. rewrite map_app. cbn [map]. now rewrite firstn_map, skipn_map. Qed.
Lemma put_same {A} i (x : A) l : nth_error l i = Some x -> firstn i l ++ x :: skipn (S i) l = l.
Proof. revert l. induction i as [|i IH]; intros [|y l] H; cbn in *; try discriminate; [now injection H as ->|]. now rewrite IH. Qed.
Lemma told_all ops : forall s, x_run k w ops = Ok s -> c_end s = None -> map (option_map x_settings) (c_objs s) = fold_left (x_told k) ops [].
Proof.
  induction ops as [|o ops IH] using rev_ind; intros s R E.
  - cbn in R. injection R as <-. unfold c_init. cbn. reflexivity.
  - rewrite x_run_app in R. destruct (x_run k w ops) as [s1| | |] eqn:R1; try discriminate. cbn [bind] in R.
    unfold x_step in R. destruct (c_end s1) as [e|] eqn:E1; [injection R as <-; congruence|]. specialize (IH s1 eq_refl E1).
    rewrite fold_left_app. cbn [fold_left]. rewrite <- IH. clear IH.
    assert (P := x_reach k w K s1 (ex_intro _ ops R1)). assert (I := pi_sh _ _ _ P).
    destruct (x_call k w o s1) as [[v s2]| | |] eqn:C; try discriminate. cbn [bind snd] in R. injection R as <-.
    assert (Nth : forall i a, live i s1 = Some a -> nth i (map (option_map x_settings) (c_objs s1)) None = Some (x_settings a)).
    { intros i a L. apply live_object in L. change None with (option_map x_settings None) at 1. rewrite map_nth.
      unfold x_object in L. now rewrite (nth_error_nth _ _ _ L). }
    destruct o as [[f|] fl ns st|n st|n j|n|n m|n args|c]; cbn [x_call x_told] in *.
    + injection C as _ <-. cbn [add c_objs]. now rewrite map_app.
    + injection C as _ <-. cbn [add c_objs]. now rewrite map_app.
    + destruct (live n s1) as [a|] eqn:L; [|discriminate]. injection C as _ <-. cbn [add c_objs]. rewrite map_app. now rewrite (Nth _ _ L).
    + destruct (live n s1) as [a|] eqn:L; [|discriminate]. destruct (live j s1) as [b|] eqn:L2; [|discriminate]. injection C as _ <-. cbn [put c_objs].
      rewrite map_put, (Nth _ _ L2). reflexivity.
    + destruct (live n s1) as [a|] eqn:L; [|discriminate]. injection C as _ <-. cbn [put c_objs]. now rewrite map_put.
    + destruct (live n s1) as [a|] eqn:L; [|discriminate].
      destruct (method_facts k w K m (a, c_sh s1) I) as (v' & f' & R' & _ & _ & Y1 & Y2 & _). rewrite R' in C. cbn [bind] in C. injection C as _ <-.
      cbn [put c_objs]. rewrite map_put. cbn [option_map]. unfold x_settings at 2. rewrite Y1.
      assert (Y : (o_file (fst f'), o_flags (fst f'), o_newns (fst f')) = match m with XLoadArgs f fl ns => (f, fl, ns) | _ => (o_file a, o_flags a, o_newns a) end) by (rewrite Y2; destruct m; reflexivity).
      rewrite Y. specialize (Nth _ _ L).
      assert (S : nth_error (map (option_map x_settings) (c_objs s1)) n = Some (Some (x_settings a))).
      { apply live_object in L. unfold x_object in L. erewrite map_nth_error by exact L. reflexivity. }
      destruct m; cbn [fst snd]; unfold told_set; try rewrite Nth; try reflexivity; now apply put_same.
    + destruct (nth_error (k_names k) n) as [nm|] eqn:Hn.
      * destruct (wrapped_ok k w K n nm args s1 P E1 Hn) as (s3 & Q & _ & _ & [[(p & h & l & new & _ & Y & _) _]|[_ Y]]); rewrite Q in C; cbn [bind] in C; injection C as _ <-.
        -- now rewrite Y.
        -- destruct (not_loaded_ok k w K n nm s1 P E1 Hn) as (b & s4 & Q3 & _ & _ & _ & F). rewrite Y in Q3. injection Q3 as <- <-. destruct (F eq_refl) as (F1 & _). congruence.
      * unfold x_wrapped in C. rewrite Hn in C. cbn [bind] in C. now injection C as _ <-.
    + injection C as _ <-. discriminate.
Qed.
Lemma tells_request s i o : x_object i s o -> (exists s', x_call k w (XOn i XFilename) s = Ok (XStr (o_file o), s')) /\ (exists s', x_call k w (XOn i XFlags) s = Ok (XInt (o_flags o), s')).
Proof. intros O. cbn [x_call x_method]. rewrite (proj2 (live_object _ _ _) O). cbn [bind]. split; eexists; reflexivity. Qed.
(** what is opened *)
Definition asked (o : obj) (m : method) : str * Z * bool := match m with XLoadArgs f fl ns => (f, fl, ns) | _ => request o end.
Lemma inert_closed l : Forall inert l -> Forall not_open l.
Proof. intros F. eapply Forall_impl; [|exact F]. now intros []. Qed.
Lemma opens_asked s i o m f fl ns : x_reachable k w s -> x_object i s o -> x_opens m = true -> x_handle s = None -> asked o m = (f, fl, ns) ->
  exists b s', x_call k w (XOn i m) s = Ok (XBool b, s') /\
  match f with
  | [] => b = false /\ x_handle s' = None /\ exists new, x_past s' = new ++ x_past s /\ Forall not_open new
  | _ => exists r pre post, x_past s' = post ++ EvOpen (c_str f) fl (k_dlmopen k && ns) r :: pre ++ x_past s /\
      Forall not_open pre /\ Forall not_open post /\ x_handle s' = r /\ (r = None -> b = false) /\ (m <> XLoadBoth -> r <> None -> b = true)
  end.
Proof.
  intros R O M H A. assert (I := pi_sh _ _ _ (x_reach k w K s R)). cbn [x_call]. rewrite (proj2 (live_object _ _ _) O).
  assert (G : forall a, o_file a = f -> o_flags a = fl -> o_newns a = ns -> let '(b, s') := x_load_filename k w f (a, c_sh s) in
    sinv (snd s') /\ match f with
    | [] => b = false /\ hndl s' = None /\ exists new, past s' = new ++ x_past s /\ Forall not_open new
    | _ => exists r pre post, past s' = post ++ EvOpen (c_str f) fl (k_dlmopen k && ns) r :: pre ++ x_past s /\
        Forall not_open pre /\ Forall not_open post /\ hndl s' = r /\ (r = None -> b = false) /\ (r <> None -> b = true) end).
  { intros a A1 A2 A3. pose proof (x_load_filename_ok k w f (a, c_sh s) I) as X. destruct (x_load_filename k w f (a, c_sh s)) as [b s']. destruct X as (X0 & _ & _ & _ & _ & _ & _ & X1 & X2).
    split; [exact X0|]. destruct f as [|c f].
    - destruct (X1 H eq_refl) as (B1 & B2 & _ & B3). split; [exact B1|]. split; [exact B2|]. exists [EvError (w_error w (x_past s))]. split; [exact B3|repeat constructor].
    - destruct (X2 H ltac:(easy)) as (r & pre & post & T & F1 & F2 & B1 & B2). exists r, pre, post. cbn [fst] in T. rewrite A2, A3 in T. split; [exact T|]. split; [now apply inert_closed|]. split; [now apply inert_closed|].
      split; [exact B1|]. rewrite B2. destruct r; split; easy. }
  destruct m; try discriminate; cbn [x_method]; unfold x_load_args, x_load_both, x_load; cbn [asked] in A.
  - injection A as <- <- <-. change (o_file (fst (with_request file flags newns (o, c_sh s)))) with file. specialize (G (fst (with_request file flags newns (o, c_sh s))) eq_refl eq_refl eq_refl).
    change (fst (with_request file flags newns (o, c_sh s)), c_sh s) with (with_request file flags newns (o, c_sh s)) in G.
    destruct (x_load_filename k w file (with_request file flags newns (o, c_sh s))) as [b s']. cbn [bind fst snd]. eexists b, _. split; [reflexivity|]. destruct G as [_ G].
    destruct file; [exact G|]. destruct G as (r & pre & post & G1 & G2 & G3 & G4 & G5 & G6). exists r, pre, post. repeat (split; [assumption|]). auto.
  - unfold request in A. injection A as A1 A2 A3. specialize (G o A1 A2 A3). change (o_file (fst (o, c_sh s))) with (o_file o). rewrite A1.
    destruct (x_load_filename k w f (o, c_sh s)) as [b s']. cbn [bind fst snd]. eexists b, _. split; [reflexivity|]. destruct G as [_ G].
    destruct f; [exact G|]. destruct G as (r & pre & post & G1 & G2 & G3 & G4 & G5 & G6). exists r, pre, post. repeat (split; [assumption|]). auto.
  - unfold request in A. injection A as A1 A2 A3. specialize (G o A1 A2 A3). change (o_file (fst (o, c_sh s))) with (o_file o). rewrite A1.
    destruct (x_load_filename k w f (o, c_sh s)) as [b s']. destruct G as [J G]. destruct b.
    + destruct (x_load_all_ok k w K s' J) as (b & s2 & Q & (_ & (F1 & _ & new & F2 & F3) & _) & _). rewrite Q. cbn [bind fst snd]. eexists b, _. split; [reflexivity|].
      destruct f; [now destruct G|]. destruct G as (r & pre & post & G1 & G2 & G3 & G4 & G5 & G6). exists r, pre, (new ++ post). split; [unfold x_past; cbn [c_sh put]; unfold past in *; rewrite F2, G1; now rewrite <- app_assoc|].
      split; [exact G2|]. split; [apply Forall_app; split; [now apply inert_closed|exact G3]|]. split; [unfold x_handle; cbn [c_sh put]; unfold hndl in *; congruence|]. split; [intros Z; now specialize (G5 Z)|easy].
    + cbn [bind fst snd]. eexists false, _. split; [reflexivity|]. destruct f; [exact G|]. destruct G as (r & pre & post & G1 & G2 & G3 & G4 & G5 & G6). exists r, pre, post. repeat (split; [assumption|]). easy.
Qed.
End K.

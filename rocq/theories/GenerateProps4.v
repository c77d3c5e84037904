(** Proofs about templates read from a directory, about failing runs and about the include guard. *)
From Coq Require Import Ascii String List Bool Arith NArith Lia.
From Verif Require Import Str StrFacts NumFacts Parse ParamNames Prefix Substitute SpecSubstitute Data Options Generate SpecGenerate GenerateFacts GenerateProps GenerateProps2 GenerateProps3.
Import ListNotations.

(* ------------------------------------------------------------ templates read from a directory *)

Definition yields {A} (P : world -> Prop) (m : M A) (Q : A -> world -> Prop) : Prop :=
  forall w w' a, P w -> m w = (w', Ret a) -> Q a w'.
Lemma yields_seq {A B} P (m : M A) (k : A -> M B) R Q : yields P m R -> (forall a, yields (R a) (k a) Q) -> yields P (seq m k) Q.
Proof.
  intros H K w w' b Pw E. unfold seq in E. destruct (m w) as [w1 [a|x| | |]] eqn:D; try discriminate E. eapply K; [|exact E]. eapply H; eauto.
Qed.
Lemma yields_keeps {A} P (m : M A) : keeps P m -> yields P m (fun _ => P).
Proof. intros K w w' a Pw E. specialize (K w Pw). now rewrite E in K. Qed.
Lemma yields_weaken {A} P (m : M A) Q (R : A -> world -> Prop) : yields P m Q -> (forall a w, Q a w -> R a w) -> yields P m R.
Proof. intros H K w w' a Pw E. eapply K, H; eauto. Qed.
Lemma yields_strengthen {A} (P P' : world -> Prop) (m : M A) Q : (forall w, P w -> P' w) -> yields P' m Q -> yields P m Q.
Proof. intros K H w w' a Pw E. eapply H; eauto. Qed.

(** the pointer to the license is that of the [g]th reading *)
Definition read_times (g : nat) (w : world) : Prop := w_gen w TLicense = g /\ w_ptr w TLicense = PData TLicense g.
Definition was_read (w : world) : Prop := exists g, read_times g w.

Lemma tname_eqb_refl t : tname_eqb t t = true.
Proof. destruct t; reflexivity. Qed.
Lemma load_other e s t : tname_eqb TLicense t = false -> keeps was_read (load_template e s t).
Proof.
  intros N w [g [A B]]. unfold load_template. destruct (o_tpath s) as [|c d]; [now exists g|]. unfold seq, read_file.
  destruct (if e_readable e ((c :: d) ++ tfile t) then _ else _) as [text|]; [|now exists g].
  destruct (load_from_file _ _ _ _); cbn [fst]; try (now exists g). exists g. unfold read_times. cbn. unfold updt. now rewrite N.
Qed.
Lemma load_license e s : o_tpath s <> [] -> yields (fun _ => True) (load_template e s TLicense) (fun _ => was_read).
Proof.
  intros N w w' a _ E. unfold load_template in E. destruct (o_tpath s) as [|c d]; [easy|]. unfold seq, read_file in E.
  destruct (if e_readable e ((c :: d) ++ tfile TLicense) then _ else _) as [text|]; [|discriminate E].
  destruct (load_from_file _ _ _ _); try discriminate E. injection E as <- _. exists (w_gen w TLicense + 1). split; reflexivity.
Qed.
Lemma read_put t : keeps was_read (put t).
Proof. intros w [g H]. unfold put. destruct (w_cur w); now exists g. Qed.
Lemma read_close : keeps was_read close.
Proof. intros w [g H]. now exists g. Qed.
Lemma read_deref e p : keeps was_read (deref e p).
Proof. apply keeps_deref. Qed.

Lemma read_save e s t p : tname_eqb TLicense t = false -> keeps was_read (save_data e s t p).
Proof.
  intros N. unfold save_data. apply keeps_seq; [now apply load_other|intros _]. apply keeps_seq; [apply keeps_deref|intros l].
  apply keeps_seq; [apply keeps_lift|intros x]. apply keeps_put_count, read_put.
Qed.
Lemma save_license e s p : o_tpath s <> [] -> yields (fun _ => True) (save_data e s TLicense p) (fun _ => was_read).
Proof.
  intros N. unfold save_data. eapply yields_seq; [apply load_license, N|intros ?; cbv beta]. apply yields_keeps.
  apply keeps_seq; [apply keeps_deref|intros l]. apply keeps_seq; [apply keeps_lift|intros x]. unfold put_count.
  apply keeps_seq; [apply read_put|intros _; apply keeps_ret].
Qed.
Lemma always {A} (m : M A) P : yields P m (fun _ _ => True).
Proof. easy. Qed.
Lemma read_count t : keeps was_read (put_count t).
Proof. apply keeps_put_count, read_put. Qed.
Lemma read_line s n : keeps was_read (put_line s n).
Proof. unfold put_line. destruct (o_line s); [|apply keeps_ret]. apply keeps_seq; [apply read_put|intros _; apply keeps_ret]. Qed.
Lemma read_subst e s f o ps : keeps was_read (m_substitute e s f o ps).
Proof.
  unfold m_substitute. apply keeps_seq; [apply keeps_deref_all|intros ls]. apply keeps_seq; [apply keeps_lift|intros r].
  apply keeps_seq; [apply read_put|intros _; apply keeps_ret].
Qed.

Lemma header_reads e s f o tdefs defs h : o_tpath s <> [] -> yields (fun _ => True) (write_header e s f o tdefs defs h) (fun _ => was_read).
Proof.
  intros N. unfold write_header. cbv zeta.
  eapply yields_seq; [apply always|intros ?; cbv beta]. eapply yields_seq; [apply always|intros n1; cbv beta]. eapply yields_seq; [apply always|intros pl; cbv beta].
  eapply yields_seq; [apply save_license, N|intros n2; cbv beta]. apply yields_keeps.
  apply keeps_seq; [apply read_line|intros n3]. apply keeps_seq; [apply read_count|intros n4]. apply keeps_seq; [apply keeps_get|intros pf].
  apply keeps_seq; [now apply read_save|intros n5]. apply keeps_seq; [apply read_count|intros n6]. apply keeps_seq; [apply read_count|intros n7].
  apply keeps_seq; [apply read_count|intros n8]. apply keeps_seq; [apply read_subst|intros n9]. apply keeps_seq; [apply read_line|intros ?].
  apply keeps_seq; [apply read_put|intros _]. apply read_close.
Qed.
Lemma open_reads e p b : keeps was_read (open_ofstream e p b).
Proof.
  unfold open_ofstream. destruct (str_eqb p [] || str_eqb p $"-"); [apply read_close|].
  apply keeps_seq; [|intros _; apply keeps_seq; [intros w H; exact H|intros [|]; [apply keeps_throw|]]].
  - destruct b; [|apply keeps_ret]. intros w [g H]. unfold remove_path. destruct (w_fs w p) as [[c|t|[]]|]; try destruct (e_removable e p); now exists g.
  - apply keeps_seq; [|intros [|]; [apply keeps_ret|apply keeps_throw]]. intros w [g H]. unfold open_path.
    set (q := match w_fs w p with Some (Link t) => t | _ => p end). destruct (e_writable e q); [|now exists g].
    cbn [w_fs set_cur]. destruct (w_fs w q) as [[c|t|d]|]; now exists g.
Qed.
Lemma lists_separate e s w w' h b : separate s = true -> create_template_lists e s (separate s) w = (w', Ret (h, b)) -> b <> [].
Proof.
  intros S H. assert (forall h0 b0 w1 w2 r, two_sources e s (separate s) h0 b0 w1 = (w2, Ret r) -> snd r <> []) as T.
  { intros h0 b0 w1 w2 r0 E. unfold two_sources, concat_sources, seq, ret in E. rewrite S in E.
    repeat match type of E with context [match ?m with pair _ _ => _ end] => destruct m as [? [?|?| | |]]; try discriminate E end.
    injection E as _ <-. discriminate. }
  unfold create_template_lists in H. unfold separate in S. destruct (o_format s); try (now apply T in H); now rewrite andb_false_r in S.
Qed.
(** the license cannot be saved a second time *)
Lemma license_twice e s p g w : o_tpath s <> [] -> read_times g w -> w_ptr w TLicense = p -> forall w' n, save_data e s TLicense p w <> (w', Ret n).
Proof.
  intros N [G P] <- w' n E. rewrite P in E. unfold save_data in E. unfold seq at 1 in E. unfold load_template in E.
  destruct (o_tpath s) as [|c d]; [easy|]. unfold seq at 1, read_file in E.
  destruct (if e_readable e ((c :: d) ++ tfile TLicense) then _ else _) as [text|]; [|discriminate E].
  destruct (load_from_file _ _ _ _); try discriminate E. unfold seq at 1, deref in E. cbn [w_gen] in E. unfold updt in E at 1.
  rewrite tname_eqb_refl, G in E. destruct (Nat.eqb_spec g (g + 1)); [lia|discriminate E].
Qed.

Theorem separate_never_completes e s f o tdefs i w : o_print s = false -> o_template s = [] -> o_tpath s <> [] -> separate s = true ->
  forall w', run e s f o tdefs i w <> (w', Ret tt).
Proof.
  intros P T N S w' E. unfold run in E. rewrite P, T in E. unfold generate in E. unfold seq at 1 in E.
  destruct (lift (all_defines s f o) w) as [w1 [defs|x| | |]] eqn:E1; try discriminate E. unfold seq at 1 in E.
  destruct (create_template_lists e s (separate s) w1) as [w2 [[h b]|x| | |]] eqn:E2; try discriminate E. cbn [fst snd] in E.
  unfold seq at 1 in E. destruct (write_header e s f o tdefs defs h w2) as [w3 [[]|x| | |]] eqn:E3; try discriminate E.
  pose proof (header_reads e s f o tdefs defs h N w2 w3 tt I E3) as R3.
  pose proof (lists_separate e s w1 w2 h b S E2) as B. destruct b as [|p b]; [easy|].
  rewrite body_regroup in E. unfold seq at 1 in E.
  destruct (open_ofstream e (body_path s) (o_force s) w3) as [w4 [[]|x| | |]] eqn:E4; try discriminate E.
  assert (was_read w4) as R4 by (apply (yields_keeps was_read _ (open_reads e (body_path s) (o_force s)) w3 w4 tt R3 E4)).
  unfold body_rest in E. unfold seq at 1 in E. destruct (put (note_text (date_of e s)) w4) as [w5 [[]|x| | |]] eqn:E5; try discriminate E.
  assert (was_read w5) as [g R5] by (apply (yields_keeps was_read _ (read_put _) w4 w5 tt R4 E5)).
  unfold seq at 1, get_ptr in E. unfold seq at 1 in E.
  destruct (save_data e s TLicense (w_ptr w5 TLicense) w5) as [w6 [n|x| | |]] eqn:E6; try discriminate E.
  now apply (license_twice e s _ g w5 N R5 eq_refl) in E6.
Qed.

(* ------------------------------------------------------------ where the two files are *)

Lemma split_inv p : forall d f, split_path p = (d, f) -> p = d ++ f /\ dir_part d /\ ~ In "/"%char f.
Proof.
  induction p as [|c p IH]; intros d f E; cbn [split_path] in E.
  - injection E as <- <-. split; [reflexivity|]. split; [now left|easy].
  - destruct (split_path p) as [d0 f0]. specialize (IH d0 f0 eq_refl). destruct IH as (-> & D & N). destruct d0 as [|x d0].
    + destruct (Ascii.eqb c "/") eqn:C; injection E as <- <-.
      * apply Ascii.eqb_eq in C. subst c. split; [reflexivity|]. split; [right; now exists []|exact N].
      * split; [reflexivity|]. split; [now left|]. intros [K|K]; [subst c; discriminate C|now apply N].
    + injection E as <- <-. split; [reflexivity|]. split; [|exact N]. destruct D as [D|[d' D]]; [discriminate D|].
      right. exists (c :: d'). now rewrite D.
Qed.
Lemma stem_in f c : In c (stem f) -> In c f.
Proof.
  unfold stem. destruct (str_eqb f $".."); [easy|]. destruct (last_dot f) as [[|k]|]; try easy. intros K.
  rewrite <- (firstn_skipn (S k) f). apply in_app_iff. now left.
Qed.
Theorem same_directory s : separate s = true -> exists d name ext,
  dir_part d /\ ~ In "/"%char name /\ header_name s = name ++ $"." ++ (if is_cxx s then $"hpp" else $"h") /\
  header_path s = d ++ header_name s /\ body_path s = d ++ name ++ $"." ++ ext /\ ext = (if is_cxx s then $"cpp" else $"c").
Proof.
  intros S. assert (to_stdout s = false) as O by (unfold separate in S; destruct (to_stdout s); [now rewrite andb_false_r in S|reflexivity]).
  unfold header_name, header_path, body_path. rewrite S, O. cbv iota. unfold replace_extension.
  destruct (split_path (o_output s)) as [d f] eqn:E.
  assert (parent (o_output s) = d) as -> by (unfold parent; now rewrite E).
  assert (filename (o_output s) = f) as -> by (unfold filename; now rewrite E). destruct (split_inv _ _ _ E) as (_ & D & N).
  exists d, (stem f), (if is_cxx s then $"cpp" else $"c"). split; [exact D|]. split; [intros K; now apply N, stem_in|].
  assert (filename (d ++ stem f ++ $"." ++ (if is_cxx s then $"hpp" else $"h")) = stem f ++ $"." ++ (if is_cxx s then $"hpp" else $"h")) as H.
  { unfold filename. rewrite split_ok; [reflexivity|exact D|]. intros K. apply in_app_iff in K as [K|K]; [now apply N, stem_in|].
    destruct (is_cxx s); cbn in K; repeat (destruct K as [K|K]; [discriminate K|]); exact K. }
  split; [exact H|]. split; [apply f_equal; symmetry; exact H|]. now split.
Qed.
(** a run that cannot begin *)
Theorem unreadable_template e s f o t i fs out : o_print s = false -> o_template s <> [] -> o_template s <> $"-" -> e_readable e (o_template s) = false ->
  run e s f o t i (started fs out) = (started fs out, Throw ($"failed to open file for reading: " ++ o_template s)).
Proof.
  intros P T M R. unfold run. rewrite P. destruct (o_template s) as [|c l] eqn:E; [easy|]. unfold custom_template. rewrite E.
  rewrite (proj2 (str_eqb_neq _ _) M). unfold seq, read_file. rewrite R. reflexivity.
Qed.

(** Proofs about the files a run writes. *)
From Coq Require Import Ascii String List Bool Arith Lia.
From Verif Require Import Str StrFacts Parse ParamNames Prefix Substitute SpecSubstitute Data Options Generate SpecGenerate GenerateFacts.
Import ListNotations.

Lemma upd_same {A} (f : str -> A) p a : upd f p a p = a.
Proof. unfold upd. now rewrite str_eqb_refl. Qed.
Lemma upd_other {A} (f : str -> A) p a q : q <> p -> upd f p a q = f q.
Proof. intros H. unfold upd. now rewrite (proj2 (str_eqb_neq q p) H). Qed.

Lemma opens_absent e p w : w_fs w p = None ->
  open_path e p w = if e_writable e p
                    then (set_cur (Some p) (set_fs (upd (w_fs w) p (Some (Regular []))) (set_cur None w)), Ret true)
                    else (set_cur None w, Ret false).
Proof. intros H. unfold open_path. rewrite H. cbn [w_fs set_cur]. rewrite H. destruct (e_writable e p); reflexivity. Qed.

(** what open_ofstream leaves *)
Lemma open_ofstream_world e p force w : str_eqb p [] || str_eqb p $"-" = false ->
  (forall q, q <> p -> w_fs (fst (open_ofstream e p force w)) q = w_fs w q) /\
  (force = false -> w_fs w p <> None -> open_ofstream e p force w = (w, Throw ($"file already exists: " ++ p))) /\
  ((w_cur (fst (open_ofstream e p force w)) = w_cur w) \/ (w_cur (fst (open_ofstream e p force w)) = None) \/
   (w_cur (fst (open_ofstream e p force w)) = Some p)).
Proof.
  intros H. unfold open_ofstream. rewrite H. unfold seq.
  assert (forall w1, (forall q, q <> p -> w_fs w1 q = w_fs w q) -> w_cur w1 = w_cur w ->
    let r := match w_fs w1 p with
             | Some _ => (w1, Throw ($"file already exists: " ++ p))
             | None => match open_path e p w1 with
                       | (w2, Ret true) => (w2, Ret tt)
                       | (w2, _) => (w2, Throw ($"failed to open file for writing: " ++ p))
                       end
             end in
    (forall q, q <> p -> w_fs (fst r) q = w_fs w q) /\ (w_cur (fst r) = w_cur w \/ w_cur (fst r) = None \/ w_cur (fst r) = Some p)) as K.
  { intros w1 F C. cbv zeta. destruct (w_fs w1 p) eqn:E; [split; [exact F|now left]|]. rewrite (opens_absent e p w1 E).
    destruct (e_writable e p); (split; [|cbn; auto]); intros q Q; cbn; [now rewrite upd_other, F|now apply F]. }
  assert (forall w1, match (w1, @Ret bool match w_fs w1 p with Some _ => true | None => false end) with
                     | (w', Ret a) => (if a then throw ($"file already exists: " ++ p)
                           else fun w => match open_path e p w with
                                         | (w'0, Ret a0) => (if a0 then ret tt else throw ($"failed to open file for writing: " ++ p)) w'0
                                         | (w'0, Throw e0) => (w'0, Throw e0)
                                         | (w'0, Abort) => (w'0, Abort)
                                         | (w'0, Undef) => (w'0, Undef)
                                         | (w'0, Stuck) => (w'0, Stuck)
                                         end) w'
                     | (w', Throw e0) => (w', Throw e0) | (w', Abort) => (w', Abort) | (w', Undef) => (w', Undef) | (w', Stuck) => (w', Stuck)
                     end = match w_fs w1 p with
             | Some _ => (w1, Throw ($"file already exists: " ++ p))
             | None => match open_path e p w1 with
                       | (w2, Ret true) => (w2, Ret tt)
                       | (w2, _) => (w2, Throw ($"failed to open file for writing: " ++ p))
                       end
             end) as N.
  { intros w1. destruct (w_fs w1 p) eqn:E; [reflexivity|]. rewrite (opens_absent e p w1 E). destruct (e_writable e p); reflexivity. }
  destruct force.
  - unfold remove_path. destruct (w_fs w p) as [n|] eqn:E.
    + assert (let r := (let '(w1, o) := if e_removable e p then (set_fs (upd (w_fs w) p None) w, @Ret unit tt) else (w, Abort) in
                match o with Ret _ => match w_fs w1 p with
                   | Some _ => (w1, Throw ($"file already exists: " ++ p))
                   | None => match open_path e p w1 with
                       | (w2, Ret true) => (w2, Ret tt)
                       | (w2, _) => (w2, Throw ($"failed to open file for writing: " ++ p))
                       end
                   end | Throw m => (w1, Throw m) | Abort => (w1, Abort) | Undef => (w1, Undef) | Stuck => (w1, Stuck) end) in
              (forall q, q <> p -> w_fs (fst r) q = w_fs w q) /\ (w_cur (fst r) = w_cur w \/ w_cur (fst r) = None \/ w_cur (fst r) = Some p)) as G.
      { cbv zeta. destruct (e_removable e p).
        - apply K; [intros q Q; cbn; now rewrite upd_other|reflexivity].
        - split; [reflexivity|now left]. }
      cbv zeta in G. destruct n as [t|t|[]].
      1-3: (destruct (e_removable e p); cbv beta iota; [rewrite N; destruct G as [G1 G2]; split; [exact G1|split; [discriminate|exact G2]]
           |split; [reflexivity|split; [discriminate|now left]]]).
      split; [reflexivity|split; [discriminate|now left]].
    + rewrite N. destruct (K w (fun _ _ => eq_refl) eq_refl) as [G1 G2]. split; [exact G1|split; [discriminate|exact G2]].
  - cbn [ret]. rewrite N. destruct (K w (fun _ _ => eq_refl) eq_refl) as [G1 G2]. split; [exact G1|]. split; [|exact G2].
    intros _ X. destruct (w_fs w p); [reflexivity|easy].
Qed.

Section Keep.
Variable I : world -> Prop.
Definition keeps {A} (m : M A) : Prop := forall w, I w -> I (fst (m w)).
Hypothesis I_ext : forall w w', w_fs w' = w_fs w -> w_cur w' = w_cur w -> I w -> I w'.
Hypothesis I_put : forall s, keeps (put s).
Hypothesis I_close : keeps close.

Lemma keeps_seq {A B} (m : M A) (k : A -> M B) : keeps m -> (forall a, keeps (k a)) -> keeps (seq m k).
Proof.
  intros Hm Hk w Hw. unfold seq. specialize (Hm w Hw). destruct (m w) as [w' [a|msg| | |]]; cbn in *; auto. now apply Hk.
Qed.
Lemma keeps_ret {A} (a : A) : keeps (ret a).
Proof. intros w H. exact H. Qed.
Lemma keeps_throw {A} m : keeps (@throw A m).
Proof. intros w H. exact H. Qed.
Lemma keeps_lift {A} (r : res A) : keeps (lift r).
Proof. intros w H. exact H. Qed.
Lemma keeps_read e p : keeps (read_file e p).
Proof. intros w H. exact H. Qed.
Lemma keeps_get t : keeps (get_ptr t).
Proof. intros w H. exact H. Qed.
Lemma keeps_deref e p : keeps (deref e p).
Proof. intros w H. unfold deref. destruct p as [t|t g]; [exact H|]. destruct (Nat.eqb g (w_gen w t)); exact H. Qed.
Lemma keeps_print t : keeps (print_out t).
Proof. intros w H. eapply I_ext; [| |exact H]; reflexivity. Qed.
Lemma keeps_put_count s : keeps (put_count s).
Proof. apply keeps_seq; [apply I_put|intros; apply keeps_ret]. Qed.
Lemma keeps_load e s t : keeps (load_template e s t).
Proof.
  unfold load_template. destruct (o_tpath s) as [|c d]; [apply keeps_ret|]. apply keeps_seq; [apply keeps_read|].
  intros [text|]; [|apply keeps_throw]. intros w H. destruct (load_from_file _ _ _ _); try exact H.
  eapply I_ext; [| |exact H]; reflexivity.
Qed.
Lemma keeps_save e s t p : keeps (save_data e s t p).
Proof.
  apply keeps_seq; [apply keeps_load|intros _]. apply keeps_seq; [apply keeps_deref|intros l].
  apply keeps_seq; [apply keeps_lift|intros x]. apply keeps_put_count.
Qed.
Lemma keeps_deref_all e ps : keeps (deref_all e ps).
Proof.
  induction ps as [|p ps IH]; [apply keeps_ret|]. apply keeps_seq; [apply keeps_deref|intros l].
  apply keeps_seq; [exact IH|intros ls; apply keeps_ret].
Qed.
Lemma keeps_subst e s f o ps : keeps (m_substitute e s f o ps).
Proof.
  apply keeps_seq; [apply keeps_deref_all|intros ls]. apply keeps_seq; [apply keeps_lift|intros r].
  apply keeps_seq; [apply I_put|intros _; apply keeps_ret].
Qed.
Lemma keeps_put_line s n : keeps (put_line s n).
Proof. unfold put_line. destruct (o_line s); [|apply keeps_ret]. apply keeps_seq; [apply I_put|intros _; apply keeps_ret]. Qed.
Lemma keeps_lists e s sep : keeps (create_template_lists e s sep).
Proof.
  assert (forall h b, keeps (two_sources e s sep h b)) as T.
  { intros h b. repeat (apply keeps_seq; [apply keeps_load || apply keeps_get|intros ?]). apply keeps_ret. }
  assert (forall h, keeps (one_source e s h)) as O.
  { intros h. repeat (apply keeps_seq; [apply keeps_load || apply keeps_get|intros ?]). apply keeps_ret. }
  unfold create_template_lists. destruct (o_format s); auto.
Qed.

Variable e : env.
Variable s : settings.
Definition open_kept (p : str) : Prop := keeps (open_ofstream e p (o_force s)).

Lemma keeps_header f o t d h : open_kept (header_path s) -> keeps (write_header e s f o t d h).
Proof.
  intros K. unfold write_header. cbv zeta. apply keeps_seq; [exact K|intros _].
  repeat (apply keeps_seq; [apply keeps_put_count || apply keeps_get || apply keeps_save || apply keeps_put_line
                            || apply keeps_subst || apply I_put|intros ?]). exact I_close.
Qed.
Lemma keeps_body f o b : open_kept (body_path s) -> keeps (write_body e s f o b).
Proof.
  intros K. unfold write_body. destruct b; [apply keeps_ret|]. apply keeps_seq; [exact K|intros _].
  repeat (apply keeps_seq; [apply keeps_get || apply keeps_save || apply keeps_subst || apply I_put|intros ?]). apply keeps_ret.
Qed.
End Keep.

Definition body_empty (s : settings) (r : list tptr * list tptr) : Prop := separate s = false -> snd r = [].
Lemma lists_body e s w w' r : create_template_lists e s (separate s) w = (w', Ret r) -> body_empty s r.
Proof.
  intros H N. assert (forall h b w1 w2 r, two_sources e s (separate s) h b w1 = (w2, Ret r) -> snd r = []) as T.
  { intros h b w1 w2 r0 E. unfold two_sources, concat_sources, seq, ret in E. rewrite N in E.
    repeat match type of E with context [match ?m with pair _ _ => _ end] => destruct m as [? [?|?| | |]]; try discriminate E end.
    injection E as _ <-. reflexivity. }
  assert (forall h w1 w2 r, one_source e s h w1 = (w2, Ret r) -> snd r = []) as O.
  { intros h w1 w2 r0 E. unfold one_source, seq, ret in E.
    repeat match type of E with context [match ?m with pair _ _ => _ end] => destruct m as [? [?|?| | |]]; try discriminate E end.
    injection E as _ <-. reflexivity. }
  unfold create_template_lists in H. destruct (o_format s); eauto.
Qed.

Lemma keeps_generate (I : world -> Prop) e s :
  (forall w w', w_fs w' = w_fs w -> w_cur w' = w_cur w -> I w -> I w') -> (forall t, keeps I (put t)) -> keeps I close ->
  open_kept I e s (header_path s) -> (separate s = true -> open_kept I e s (body_path s)) ->
  forall f o t, keeps I (generate e s f o t).
Proof.
  intros X P C H B f o t w Hw. unfold generate. apply keeps_seq; [apply keeps_lift| |exact Hw]. intros defs w1 H1.
  unfold seq. pose proof (keeps_lists I X e s (separate s) w1 H1) as K.
  destruct (create_template_lists e s (separate s) w1) as [w2 [r|m| | |]] eqn:E; cbn in K |- *; auto.
  pose proof (keeps_header I X P C e s f o t defs (fst r) H w2 K) as K2.
  destruct (write_header e s f o t defs (fst r) w2) as [w3 [[]|m| | |]] eqn:E2; cbn in K2 |- *; auto.
  destruct (separate s) eqn:S.
  - apply (keeps_body I X P e s f o (snd r)); auto.
  - assert (snd r = []) as -> by (eapply lists_body; [rewrite S; exact E|exact S]). exact K2.
Qed.

Lemma keeps_run (I : world -> Prop) e s :
  (forall w w', w_fs w' = w_fs w -> w_cur w' = w_cur w -> I w -> I w') -> (forall t, keeps I (put t)) -> keeps I close ->
  (forall p, str_eqb p [] || str_eqb p $"-" = true \/ In p (output_files s) -> open_kept I e s p) ->
  forall f o t i, keeps I (run e s f o t i).
Proof.
  intros X P C K f o t i. unfold run. unfold output_files in K. destruct (o_print s); [apply keeps_print, X|].
  unfold header_path, body_path, to_stdout in *. destruct (o_template s) as [|c m] eqn:T.
  - apply keeps_generate; auto.
    + apply K. unfold header_path, to_stdout. destruct (str_eqb (o_output s) $"-"); [now left|right].
      destruct (separate s) eqn:S; cbn; auto.
    + intros S. apply K. unfold body_path, to_stdout. destruct (str_eqb (o_output s) $"-") eqn:E; [now left|right].
      rewrite S. cbn; auto.
  - unfold custom_template. apply keeps_seq; [destruct (str_eqb (o_template s) $"-"); [apply keeps_ret|apply keeps_read]|].
    intros [text|]; [|apply keeps_throw]. apply keeps_seq.
    + apply K. destruct (str_eqb (o_output s) $"-") eqn:E; [left; apply orb_true_r|right; now left].
    + intros _. apply keeps_seq; [apply keeps_lift|intros l]. apply keeps_seq; [apply keeps_lift|intros ws; apply P].
Qed.

(* ------------------------------------------------------------ the two invariants *)

Definition kept (fs0 : str -> option node) (w : world) : Prop :=
  still_there fs0 (w_fs w) /\ (forall p, w_cur w = Some p -> fs0 p = None).
Definition scoped (paths : list str) (fs0 : str -> option node) (w : world) : Prop :=
  same_except paths fs0 (w_fs w) /\ (forall p, w_cur w = Some p -> In p paths).

Lemma add_text_other fs p t q : q <> p -> add_text fs p t q = fs q.
Proof. intros H. unfold add_text. destruct (fs p) as [[c|l|b]|]; try reflexivity. now apply upd_other. Qed.

Lemma kept_put fs0 t : keeps (kept fs0) (put t).
Proof.
  intros w [A B]. unfold put. cbn [fst]. destruct (w_cur w) as [p|] eqn:E; [|split; [exact A|discriminate]].
  split; [|cbn; rewrite E; intros q Q; injection Q as <-; now apply B].
  intros q n Q. cbn. rewrite add_text_other; [now apply A|]. intros ->. rewrite (B p eq_refl) in Q. discriminate Q.
Qed.
Lemma scoped_put l fs0 t : keeps (scoped l fs0) (put t).
Proof.
  intros w [A B]. unfold put. cbn [fst]. destruct (w_cur w) as [p|] eqn:E; [|split; [exact A|discriminate]].
  split; [|cbn; rewrite E; intros q Q; injection Q as <-; now apply B].
  intros q Q. cbn. rewrite add_text_other; [now apply A|]. intros ->. now apply Q, B.
Qed.

Theorem nothing_overwritten e s f o t i fs out : o_force s = false -> 
  forall w' r, run e s f o t i (mkworld fs out None (fun _ => []) (fun _ => 0) PBuiltin) = (w', r) -> still_there fs (w_fs w').
Proof.
  intros F w' r E. apply (f_equal fst) in E. cbn [fst] in E. subst w'.
  apply (keeps_run (kept fs) e s).
  - intros w w' A B [C D]. unfold kept. rewrite A, B. now split.
  - apply kept_put.
  - intros w [A B]. split; [exact A|discriminate].
  - intros p _ w [A B]. rewrite F. destruct (str_eqb p [] || str_eqb p $"-") eqn:E.
    + unfold open_ofstream. rewrite E. split; [exact A|discriminate].
    + destruct (open_ofstream_world e p false w E) as (O & X & C). destruct (w_fs w p) as [n|] eqn:W.
      * rewrite X by congruence. split; [exact A|exact B].
      * split.
        -- intros q m Q. rewrite O; [now apply A|]. intros ->. rewrite (A p m Q) in W. discriminate W.
        -- intros q Q. destruct C as [C|[C|C]]; rewrite C in Q; [now apply B|discriminate|]. injection Q as <-.
           destruct (fs p) as [m|] eqn:Z; [|reflexivity]. rewrite (A p m Z) in W. discriminate W.
  - split; [intros p n H; exact H|discriminate].
Qed.
Theorem only_outputs e s f o t i fs out : 
  forall w' r, run e s f o t i (mkworld fs out None (fun _ => []) (fun _ => 0) PBuiltin) = (w', r) -> same_except (output_files s) fs (w_fs w').
Proof.
  intros w' r E. apply (f_equal fst) in E. cbn [fst] in E. subst w'.
  apply (keeps_run (scoped (output_files s) fs) e s).
  - intros w w' A B [C D]. unfold scoped. rewrite A, B. now split.
  - apply scoped_put.
  - intros w [A B]. split; [exact A|discriminate].
  - intros p P w [A B]. destruct (str_eqb p [] || str_eqb p $"-") eqn:E.
    + unfold open_ofstream. rewrite E. split; [exact A|discriminate].
    + destruct P as [P|P]; [congruence|]. destruct (open_ofstream_world e p (o_force s) w E) as (O & _ & C). split.
      * intros q Q. rewrite O; [now apply A|]. intros ->. contradiction.
      * intros q Q. destruct C as [C|[C|C]]; rewrite C in Q; [now apply B|discriminate|]. injection Q as <-. exact P.
  - split; [intros p H; reflexivity|discriminate].
Qed.

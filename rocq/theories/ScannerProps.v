(** The compiled scanner gives the tokens of lex.l.  Proofs for C79. *)
From Coq Require Import Ascii String List Bool Arith NArith Lia.
From Verif Require Import Str StrFacts Regex RegexFacts Lex LexFacts LexTables Scanner ScannerDfa ScannerFacts.
Import ListNotations.

(* ------------------------------------------------------------ numbers of rules *)

Lemma longest_pos r c s n : nullable r = false -> longest r (c :: s) = Some n -> exists m, n = S m.
Proof. intros N. rewrite longest_cons, N. destruct (longest (deriv c r) s); [|discriminate]. intros E. injection E as <-. eauto. Qed.

Lemma best_numbered_spec rs : forall i k bol c s, (forall r, In r rs -> active k bol r = true -> nullable (r_re r) = false) ->
  match best_numbered i rs k bol (c :: s) with
  | Some (n, j) => exists r, (i <= j)%N /\ nth_error rs (N.to_nat (j - i)) = Some r /\ best (filter (active k bol) rs) (c :: s) = Some (n, r_act r) /\
      longest (r_re r) (c :: s) = Some n
  | None => best (filter (active k bol) rs) (c :: s) = None
  end.
Proof.
  induction rs as [|r rs IH]; intros i k bol c s H; [reflexivity|]. cbn [best_numbered filter].
  assert (H' : forall r0, In r0 rs -> active k bol r0 = true -> nullable (r_re r0) = false) by (intros r0 I; apply H; right; exact I).
  specialize (IH (N.succ i) k bol c s H').
  assert (Up : forall j, (N.succ i <= j)%N -> (i <= j)%N /\ N.to_nat (j - i) = S (N.to_nat (j - N.succ i))) by (intros; lia).
  destruct (active k bol r) eqn:A.
  - assert (Nr : nullable (r_re r) = false) by (apply H; [left; reflexivity|exact A]). cbn [best].
    assert (Here : nth_error (r :: rs) (N.to_nat (i - i)) = Some r) by (rewrite N.sub_diag; reflexivity).
    destruct (longest (r_re r) (c :: s)) as [n|] eqn:L.
    + destruct (longest_pos _ _ _ _ Nr L) as (n' & ->). destruct (best_numbered (N.succ i) rs k bol (c :: s)) as [[m j]|].
      * destruct IH as (q & I1 & I2 & I3 & I4). rewrite I3. destruct (Nat.leb m (S n')).
        -- exists r. split; [lia|]. auto.
        -- exists q. destruct (Up j I1) as (U1 & U2). rewrite U2. auto.
      * rewrite IH. exists r. split; [lia|]. auto.
    + destruct (best_numbered (N.succ i) rs k bol (c :: s)) as [[m j]|]; [|exact IH].
      destruct IH as (q & I1 & I2 & I3 & I4). exists q. destruct (Up j I1) as (U1 & U2). rewrite U2. auto.
  - destruct (best_numbered (N.succ i) rs k bol (c :: s)) as [[m j]|]; [|exact IH].
    destruct IH as (q & I1 & I2 & I3 & I4). exists q. destruct (Up j I1) as (U1 & U2). rewrite U2. auto.
Qed.

Lemma rules_not_nullable : Forall (fun r => nullable (r_re r) = false) rules.
Proof. apply Forall_forall. intros r I. assert (K : forallb (fun r => negb (nullable (r_re r))) rules = true) by (vm_compute; reflexivity).
  rewrite forallb_forall in K. specialize (K r I). now apply negb_true_iff in K. Qed.

(** expressions that match no line end *)
Fixpoint no_nl (r : sre) : bool :=
  match r with
  | SEmp | SEps => true
  | SChr c => negb (Ascii.eqb c nl)
  | SSet k => negb (set_of k nl)
  | SCat a b | SAlt a b => no_nl a && no_nl b
  | SStar a => no_nl a
  end.
Lemma star_forall a (P : ascii -> Prop) : (forall s, matches a s -> Forall P s) -> forall s, matches (Star a) s -> Forall P s.
Proof.
  intros H s M. remember (Star a) as r eqn:E. revert E. induction M; intros E; try discriminate; [constructor|]. injection E as ->.
  apply Forall_app. auto.
Qed.
Lemma no_nl_spec r : no_nl r = true -> forall s, matches (den r) s -> Forall (fun c => c <> nl) s.
Proof.
  induction r as [| |d|j|a IHa b IHb|a IHa b IHb|a IHa]; cbn [no_nl den]; intros H s M.
  - now apply inv_emp in M.
  - apply inv_eps in M. subst. constructor.
  - apply inv_cls in M as (c & -> & M). apply Ascii.eqb_eq in M. subst. constructor; [|constructor]. intros ->. now rewrite Ascii.eqb_refl in H.
  - apply inv_cls in M as (c & -> & M). constructor; [|constructor]. intros ->. now rewrite M in H.
  - apply andb_prop in H as [H1 H2]. apply inv_cat in M as (u & v & -> & M1 & M2). apply Forall_app. auto.
  - apply andb_prop in H as [H1 H2]. apply inv_alt in M as [M|M]; auto.
  - apply (star_forall (den a)); [|exact M]. auto.
Qed.
Lemma newlines_none s : Forall (fun c => c <> nl) s -> newlines s = 0%N.
Proof.
  intros H. unfold newlines, count_linefeed. replace (filter (Ascii.eqb nl) s) with (@nil ascii); [reflexivity|]. symmetry.
  induction H as [|c s H _ IH]; [reflexivity|]. cbn [filter]. destruct (Ascii.eqb_spec nl c); [congruence|exact IH].
Qed.

(** each number stands for its rule: the action, and whether lines are counted *)
Definition number_okb (p : nat * (rule * sre)) : bool :=
  let '(n, (r, q)) := p in
  (match switch (N.of_nat (S n)) with
   | Some a => match a, r_act r with
       | Begin c, Begin d => cond_eqb c d
       | Skip, Skip | AstBegin, AstBegin | TokFuncVar, TokFuncVar | TokParmVar, TokParmVar | TokOption, TokOption | TokStruct, TokStruct | TokUnion, TokUnion
       | TokEnum, TokEnum | TokTypedef, TokTypedef | TokId, TokId | TokOther, TokOther | TokCurlyOpen, TokCurlyOpen | TokCurlyClose, TokCurlyClose
       | TokEqual, TokEqual | TokSemicolon, TokSemicolon | TokIllegal, TokIllegal | Echo, Echo => true
       | _, _ => false end
   | None => false end) &&
  (match at_ yy_rule_can_match_eol (N.of_nat (S n)) with Ok e => negb (N.eqb e 0) || no_nl q | _ => false end).
Lemma numbers_ok : forallb number_okb (combine (seq 0 48) (combine rules srules)) = true.
Proof. vm_compute. reflexivity. Qed.
Lemma nth_error_combine {A B} (l : list A) (m : list B) n a b : nth_error l n = Some a -> nth_error m n = Some b -> nth_error (combine l m) n = Some (a, b).
Proof. revert m n. induction l as [|x l IH]; intros [|y m] [|n] H1 H2; try discriminate; cbn in *; [congruence|auto]. Qed.
Lemma number_spec n r : nth_error rules n = Some r ->
  switch (N.of_nat (S n)) = Some (r_act r) /\ exists e, at_ yy_rule_can_match_eol (N.of_nat (S n)) = Ok e /\
  (e = 0%N -> forall s, matches (r_re r) s -> newlines s = 0%N).
Proof.
  intros H. assert (L : n < 48) by (change 48 with (length rules); apply nth_error_Some; congruence).
  assert (Q : exists q, nth_error srules n = Some q /\ r_re r = den q).
  { assert (X : nth_error (map r_re rules) n = nth_error (map den srules) n) by now rewrite srules_ok. rewrite !nth_error_map, H in X. cbn [option_map] in X.
    destruct (nth_error srules n) as [q|]; [|discriminate]. exists q. split; [reflexivity|]. now injection X. }
  destruct Q as (q & Q1 & Q2).
  assert (S0 : nth_error (seq 0 48) n = Some n).
  { rewrite (nth_error_nth' (seq 0 48) 0) by (rewrite seq_length; exact L). now rewrite seq_nth. }
  assert (I : In (n, (r, q)) (combine (seq 0 48) (combine rules srules))) by (eapply nth_error_In, nth_error_combine; [exact S0|apply nth_error_combine; eassumption]).
  pose proof numbers_ok as K. rewrite forallb_forall in K. specialize (K _ I). unfold number_okb in K. apply andb_prop in K as [K1 K2]. split.
  - destruct (switch (N.of_nat (S n))) as [a|]; [|discriminate]. f_equal.
    destruct a as [|c| | | | | | | | | | | | | | | |], (r_act r) as [|d| | | | | | | | | | | | | | | |]; try discriminate; try reflexivity. f_equal. now destruct c, d.
  - destruct (at_ yy_rule_can_match_eol (N.of_nat (S n))) as [e| | |]; try discriminate. exists e. split; [reflexivity|]. intros -> s M. cbn [N.eqb negb orb] in K2.
    apply newlines_none. rewrite Q2 in M. exact (no_nl_spec q K2 s M).
Qed.

(* ------------------------------------------------------------ one turn *)

Definition lstate_of (y : ystate) : lstate := mkl (y_cond y) (y_bol y) (y_line y).
Definition input_of (y : ystate) : str := y_text y ++ y_more y.

Lemma turn_end chunk y : input_of y = [] -> exists y', turn chunk y = Ok (None, y').
Proof.
  destruct y as [k b l text more reads]. unfold input_of. cbn [y_text y_more]. intros E. apply app_eq_nil in E as [-> ->]. unfold turn. cbn [y_cond y_bol y_text y_more y_line y_reads].
  destruct (scan_eof chunk k b (4 * (length (@nil ascii) + length (@nil ascii)) + 10) reads) as (m & E); [cbn [length]; lia|]. rewrite E. cbn [bind]. eauto.
Qed.
Lemma turn_spec chunk y c s : input_of y = c :: s ->
  exists y', turn chunk y = Ok (Some (lex_step (lstate_of y) (c :: s)), y') /\ lstate_of y' = s_state (lex_step (lstate_of y) (c :: s)) /\
    input_of y' = s_rest (lex_step (lstate_of y) (c :: s)).
Proof.
  destruct y as [k b l text more reads]. unfold input_of, lstate_of. cbn [y_text y_more y_cond y_bol y_line]. intros E. unfold turn. cbn [y_cond y_bol y_text y_more y_line y_reads].
  destruct (scan_spec chunk k b (length text - 0 + 2 * length more) text more 0 (start_state k b) None reads (4 * (length text + length more) + 10))
    as (i & n & text' & more' & reads' & R & V & T & L & P); [lia|lia|lia|rewrite E; discriminate|reflexivity|left; lia|].
  rewrite R. cbn [bind]. rewrite E in V, T. rewrite start_best in V.
  pose proof (best_numbered_spec rules 1 k b c s (fun r I _ => proj1 (Forall_forall _ _) rules_not_nullable r I)) as K. rewrite V in K.
  destruct K as (r & K1 & K2 & K3 & K4). destruct (number_spec _ r K2) as (S1 & e & S2 & S3). replace (N.of_nat (S (N.to_nat (i - 1)))) with i in S1, S2 by lia.
  rewrite S2. cbn [bind]. rewrite S1.
  assert (Pk : pick k b (c :: s) = (n, r_act r)) by (unfold pick; rewrite K3; reflexivity).
  assert (Ft : firstn n text' = firstn n (c :: s)) by (rewrite <- T; symmetry; apply firstn_text, L).
  assert (Ls : lex_step (mkl k b l) (c :: s) = mkstep (firstn n (c :: s)) (r_act r) (act_token (r_act r) (firstn n (c :: s)) (l + newlines (firstn n (c :: s)))%N)
     (skipn n (c :: s)) (mkl (act_cond (r_act r) (l + newlines (firstn n (c :: s)))%N k) (ends_nl (firstn n (c :: s))) (l + newlines (firstn n (c :: s)))%N)).
  { unfold lex_step. cbn [l_cond l_bol l_line]. rewrite Pk. reflexivity. }
  rewrite Ls, Ft. cbn [s_state s_rest].
  assert (Ln : (if N.eqb e 0 then l else (l + newlines (firstn n (c :: s)))%N) = (l + newlines (firstn n (c :: s)))%N).
  { destruct (N.eqb_spec e 0) as [->|]; [|reflexivity]. rewrite (S3 eq_refl); [now rewrite N.add_0_r|]. now apply longest_matches. }
  assert (Sk : skipn n text' ++ more' = skipn n (c :: s)).
  { rewrite <- T, skipn_app. replace (n - length text') with 0 by lia. reflexivity. }
  assert (Bl : (match firstn n (c :: s) with [] => b | _ => ends_nl (firstn n (c :: s)) end) = ends_nl (firstn n (c :: s))) by (destruct n; [lia|reflexivity]).
  rewrite Ln, Bl, Sk. eexists. split; [reflexivity|]. cbn [y_cond y_bol y_line y_text y_more]. split; [reflexivity|exact Sk].
Qed.

(* ------------------------------------------------------------ the whole file *)

Lemma turns_spec chunk f : forall y, length (input_of y) < f -> turns chunk f y = Ok (lex_run (lstate_of y) (input_of y)).
Proof.
  induction f as [|f IH]; intros y L; [lia|]. cbn [turns]. destruct (input_of y) as [|c s] eqn:E.
  - destruct (turn_end chunk y E) as (y' & ->). reflexivity.
  - destruct (turn_spec chunk y c s E) as (y' & -> & Y1 & Y2). cbn [bind]. rewrite lex_run_cons. cbn zeta. set (x := lex_step (lstate_of y) (c :: s)) in *.
    assert (Lt : length (input_of y') < f).
    { rewrite Y2. destruct (lex_step_progress (lstate_of y) c s) as (_ & _ & _ & P). fold x in P. cbn [length] in *. lia. }
    rewrite (IH y' Lt), Y1, Y2. clearbody x. destruct (s_tok x) as [[]|]; cbn [is_error bind]; reflexivity.
Qed.
Lemma compiled_scanner chunk file : scan_file chunk file = Ok (lex_all file).
Proof. unfold scan_file. rewrite turns_spec by (cbn; lia). reflexivity. Qed.
(** and the single matches, with text, action, line number and start condition *)
Lemma compiled_matches chunk file : turns chunk (S (length file)) (y_init file) = Ok (lex_run lex_init file).
Proof. rewrite turns_spec by (cbn; lia). reflexivity. Qed.
Lemma reads_alike chunk chunk' file : scan_file chunk file = scan_file chunk' file.
Proof. now rewrite !compiled_scanner. Qed.

(** The compiled scanner finds the longest match, however the file is read.  Proofs for C79. *)
From Coq Require Import Ascii String List Bool Arith NArith Lia.
From Verif Require Import Str StrFacts Regex RegexFacts Lex LexFacts LexTables Scanner ScannerDfa.
Import ListNotations.

(* ------------------------------------------------------------ walking over a text *)

Fixpoint walk (st : N) (u : str) {struct u} : option N :=
  match u with
  | [] => Some st
  | c :: u' => match dstep st c with Ok st' => if N.eqb st' jam then None else walk st' u' | _ => None end
  end.
Definition vrun (v : vec) (u : str) : vec := fold_left (fun v c => vder c v) u v.
Lemma vrun_dead u : vrun [] u = [].
Proof. induction u; [reflexivity|exact IHu]. Qed.
Lemma walk_app u : forall st w, walk st (u ++ w) = match walk st u with Some st' => walk st' w | None => None end.
Proof.
  induction u as [|c u IH]; intros st w; [reflexivity|]. cbn [app walk]. destruct (dstep st c) as [st'| | |]; try reflexivity.
  destruct (N.eqb st' jam); [reflexivity|apply IH].
Qed.
Lemma dstep_of st c cl : byte_class c = Ok cl -> dstep st c = next_state st cl.
Proof. intros H. unfold dstep. now rewrite H. Qed.
Lemma walk_stands u : forall st v, stands st v -> match walk st u with Some st' => stands st' (vrun v u) | None => vrun v u = [] end.
Proof.
  induction u as [|c u IH]; intros st v H; [exact H|]. destruct (stands_spec st v H) as (_ & _ & K). destruct (K c) as (cl & st' & B & X & Y).
  cbn [walk]. rewrite (dstep_of st c cl B), X. change (vrun v (c :: u)) with (vrun (vder c v) u). destruct Y as [(-> & Y)|(Y1 & Y2)].
  - change (N.eqb jam jam) with true. cbv iota. rewrite Y. apply vrun_dead.
  - rewrite (proj2 (N.eqb_neq st' jam) Y1). apply IH, Y2.
Qed.
Definition acc (st : N) : N := match at_ yy_accept st with Ok a => a | _ => 0%N end.
Lemma stands_acc st v : stands st v -> at_ yy_accept st = Ok (acc st) /\ acc st = match vnull v with Some i => i | None => 0%N end.
Proof. intros H. destruct (stands_spec st v H) as (A & _). unfold acc. rewrite A. split; reflexivity. Qed.

(** [vbest]: the longest prefix that a rule matches completely *)
Lemma vbest_spec s : forall v,
  match vbest v s with
  | Some (n, i) => n <= length s /\ vnull (vrun v (firstn n s)) = Some i /\ forall m, n < m <= length s -> vnull (vrun v (firstn m s)) = None
  | None => forall m, m <= length s -> vnull (vrun v (firstn m s)) = None
  end.
Proof.
  induction s as [|c s IH]; intros v.
  - rewrite vbest_nil. unfold empty_match. destruct (vnull v) as [i|] eqn:E; cbn [length firstn vrun fold_left].
    + split; [lia|]. split; [exact E|]. intros; lia.
    + intros m Hm. replace m with 0 by lia. exact E.
  - rewrite vbest_cons. specialize (IH (vder c v)). destruct (vbest (vder c v) s) as [[n i]|]; cbn [length].
    + destruct IH as (H1 & H2 & H3). split; [lia|]. split; [exact H2|]. intros [|m] Hm; [lia|]. apply H3. lia.
    + unfold empty_match. destruct (vnull v) as [i|] eqn:E.
      * split; [lia|]. split; [exact E|]. intros [|m] Hm; [lia|]. apply IH. lia.
      * intros [|m] Hm; [exact E|]. apply IH. lia.
Qed.
Lemma vbest_is v s n i : n <= length s -> vnull (vrun v (firstn n s)) = Some i -> (forall m, n < m <= length s -> vnull (vrun v (firstn m s)) = None) ->
  vbest v s = Some (n, i).
Proof.
  intros H1 H2 H3. pose proof (vbest_spec s v) as K. destruct (vbest v s) as [[m j]|].
  - destruct K as (K1 & K2 & K3). destruct (lt_eq_lt_dec n m) as [[L|L]|L].
    + rewrite H3 in K2 by lia. discriminate.
    + subst m. congruence.
    + rewrite K3 in H2 by lia. discriminate.
  - rewrite K in H2 by exact H1. discriminate.
Qed.

(* ------------------------------------------------------------ facts found by looking at the tables *)

Lemma eob_class : at_ yy_ec (code nul) = Ok 0%N.
Proof. reflexivity. Qed.
Lemma eob_accept : at_ yy_accept 15 = Ok end_of_buffer.
Proof. reflexivity. Qed.
Lemma ec_ok c : exists cl, at_ yy_ec (code c) = Ok cl /\ next_state 15 cl = Ok jam.
Proof.
  assert (H : (match at_ yy_ec (code c) with Ok cl => match next_state 15 cl with Ok s => N.eqb s jam | _ => false end | _ => false end) = true).
  { revert c. apply by_enum. vm_compute. reflexivity. }
  destruct (at_ yy_ec (code c)) as [cl| | |]; try discriminate. exists cl. split; [reflexivity|]. destruct (next_state 15 cl) as [s| | |]; try discriminate.
  apply N.eqb_eq in H. now subst.
Qed.
(** in every start condition each single byte matches a rule *)
Definition first_okb (k : cond) (bol : bool) (c : ascii) : bool :=
  match dstep (start_state k bol) c with Ok st => negb (N.eqb st jam) && negb (N.eqb (acc st) 0) | _ => false end.
Lemma first_ok k bol c : exists st, dstep (start_state k bol) c = Ok st /\ st <> jam /\ acc st <> 0%N.
Proof.
  assert (H : forallb (fun k => forallb (fun b => first_okb k b c) [false; true]) conds = true).
  { revert c. apply by_enum. vm_compute. reflexivity. }
  rewrite forallb_forall in H. assert (I : In k conds) by (unfold conds; destruct k; cbn [In]; tauto). specialize (H k I). cbv beta in H. rewrite forallb_forall in H.
  assert (J : In bol [false; true]) by (destruct bol; cbn [In]; tauto). specialize (H bol J). unfold first_okb in H.
  destruct (dstep (start_state k bol) c) as [st| | |]; try discriminate. apply andb_prop in H as [H1 H2]. exists st. split; [reflexivity|].
  apply negb_true_iff in H1, H2. split; [now apply N.eqb_neq|now apply N.eqb_neq].
Qed.
(** no rule has the number of the end of the buffer *)
Definition small (v : vec) : bool := forallb (fun p => negb (N.eqb (fst p) 0) && N.ltb (fst p) 50) v.
Lemma small_vder c v : small v = true -> small (vder c v) = true.
Proof.
  unfold small. induction v as [|[i r] v IH]; [reflexivity|]. cbn [forallb vder fst]. intros H. apply andb_prop in H as [H1 H2]. specialize (IH H2).
  destruct (dead (sder c r)); [exact IH|]. cbn [forallb fst]. now rewrite H1, IH.
Qed.
Lemma small_vrun u : forall v, small v = true -> small (vrun v u) = true.
Proof. induction u as [|c u IH]; intros v H; [exact H|]. apply IH, small_vder, H. Qed.
Lemma small_vnull v i : small v = true -> vnull v = Some i -> i <> 0%N /\ (i < 50)%N.
Proof.
  unfold small. induction v as [|[j r] v IH]; [discriminate|]. cbn [forallb vnull fst]. intros H. apply andb_prop in H as [H1 H2]. destruct (snull r); [|auto].
  intros E. injection E as <-. apply andb_prop in H1 as [H1 H3]. apply negb_true_iff in H1. apply N.eqb_neq in H1. apply N.ltb_lt in H3. auto.
Qed.
Lemma small_start k bol : small (start_vec k bol) = true.
Proof. destruct k, bol; vm_compute; reflexivity. Qed.

(* ------------------------------------------------------------ one token *)

Lemma firstn_text (text more : str) m : m <= length text -> firstn m (text ++ more) = firstn m text.
Proof. intros H. rewrite firstn_app. replace (m - length text) with 0 by lia. cbn [firstn]. apply app_nil_r. Qed.

Section Token.
Variables (chunk : nat -> nat) (k : cond) (bol : bool).
Let start := start_state k bol.
Let v0 := start_vec k bol.

(** [last] is the last position before [n] where a rule matches; of no interest before a second byte was seen *)
Definition good (text : str) (n : nat) (last : last_accepting) : Prop :=
  n <= 1 \/ exists st j, last = Some (st, j) /\ 1 <= j < n /\ walk start (firstn j text) = Some st /\ acc st <> 0%N /\
    forall m st', j < m < n -> walk start (firstn m text) = Some st' -> acc st' = 0%N.

Lemma walk_good text n st : walk start (firstn n text) = Some st -> stands st (vrun v0 (firstn n text)).
Proof. intros H. pose proof (walk_stands (firstn n text) start v0 (proj1 (starts_spec k bol))) as W. now rewrite H in W. Qed.
Lemma walk_acc text n st : walk start (firstn n text) = Some st -> at_ yy_accept st = Ok (acc st) /\ acc st <> end_of_buffer.
Proof.
  intros H. apply walk_good in H. destruct (stands_acc _ _ H) as (A & E). split; [exact A|]. rewrite E.
  destruct (vnull (vrun v0 (firstn n text))) as [i|] eqn:V; [|discriminate].
  apply small_vnull in V as [_ V]; [|apply small_vrun, small_start]. unfold end_of_buffer. lia.
Qed.
Lemma walk_one text st : 1 <= length text -> walk start (firstn 1 text) = Some st -> acc st <> 0%N.
Proof.
  destruct text as [|c text]; cbn [length]; [lia|]. intros _. cbn [firstn walk]. destruct (first_ok k bol c) as (st' & D & J & A). fold start in D. rewrite D.
  rewrite (proj2 (N.eqb_neq st' jam) J). intros H. injection H as <-. exact A.
Qed.
Lemma firstn_snoc (text : str) n c : nth_error text n = Some c -> firstn (S n) text = firstn n text ++ [c].
Proof.
  revert n. induction text as [|d text IH]; intros [|n] H; try discriminate; cbn [nth_error] in H; [now injection H as ->|]. cbn [firstn app]. now rewrite <- (IH n H).
Qed.
Lemma walk_step text n c st : nth_error text n = Some c -> walk start (firstn n text) = Some st ->
  exists cl st', byte_class c = Ok cl /\ next_state st cl = Ok st' /\
    (st' = jam /\ walk start (firstn (S n) text) = None \/ st' <> jam /\ walk start (firstn (S n) text) = Some st').
Proof.
  intros N W. pose proof (walk_good _ _ _ W) as G. destruct (stands_spec _ _ G) as (_ & _ & K). destruct (K c) as (cl & st' & B & X & Y). exists cl, st'.
  split; [exact B|]. split; [exact X|]. rewrite (firstn_snoc _ _ _ N), walk_app, W. cbn [walk]. rewrite (dstep_of st c cl B), X. destruct Y as [(-> & _)|(Y & _)].
  - left. split; reflexivity.
  - right. rewrite (proj2 (N.eqb_neq st' jam) Y). auto.
Qed.
Lemma first_not_dead text : 1 <= length text -> walk start (firstn 1 text) <> None.
Proof.
  destruct text as [|c text]; cbn [length]; [lia|]. intros _. cbn [firstn walk]. destruct (first_ok k bol c) as (st' & D & J & A). fold start in D. rewrite D.
  rewrite (proj2 (N.eqb_neq st' jam) J). discriminate.
Qed.

Lemma note_good text n st last : n <= length text -> walk start (firstn n text) = Some st -> good text n last ->
  exists last', note_accept st n last = Ok last' /\ good text (S n) last'.
Proof.
  intros L W G. destruct (walk_acc _ _ _ W) as (A & _). unfold note_accept. rewrite A. cbn [bind]. eexists. split; [reflexivity|].
  destruct n as [|n]; [left; lia|]. destruct (N.eqb_spec (acc st) 0) as [E|E].
  - destruct G as [G|(s & j & -> & J & Wj & Aj & Q)].
    + assert (n = 0) by lia. subst n. exfalso. exact (walk_one text st L W E).
    + right. exists s, j. split; [reflexivity|]. split; [lia|]. split; [exact Wj|]. split; [exact Aj|]. intros m st' M Wm.
      destruct (Nat.eq_dec m (S n)) as [->|]; [congruence|]. apply (Q m st'); [lia|exact Wm].
  - right. exists st, (S n). split; [reflexivity|]. split; [lia|]. split; [exact W|]. split; [exact E|]. intros m st' M. lia.
Qed.

Lemma firstn_len {A} (a b : list A) : firstn (length a) (a ++ b) = a.
Proof. rewrite firstn_app, Nat.sub_diag, firstn_all. apply app_nil_r. Qed.
Lemma previous_good todo : forall text pre post st last stf, text = pre ++ todo ++ post ->
  walk start pre = Some st -> good text (length pre) last -> walk start (pre ++ todo) = Some stf ->
  exists last', previous_state st (length pre) todo last = Ok (stf, last') /\ good text (length pre + length todo) last'.
Proof.
  induction todo as [|c todo IH]; intros text pre post st last stf T W G F; cbn [length] in *.
  - rewrite Nat.add_0_r, app_nil_r in *. rewrite W in F. injection F as ->. exists last. split; [reflexivity|exact G].
  - assert (F1 : firstn (length pre) text = pre) by (rewrite T; apply firstn_len).
    assert (N : nth_error text (length pre) = Some c) by (rewrite T, nth_error_app2, Nat.sub_diag by lia; reflexivity).
    assert (L : length pre <= length text) by (rewrite T, app_length; lia). rewrite <- F1 in W.
    destruct (note_good text (length pre) st last L W G) as (last' & E & G'). destruct (walk_step text (length pre) c st N W) as (cl & st' & B & X & Y).
    cbn [previous_state]. unfold byte_class in B. rewrite B. cbn [bind]. rewrite E. cbn [bind]. rewrite X. cbn [bind].
    assert (F2 : firstn (S (length pre)) text = pre ++ [c]) by (rewrite (firstn_snoc _ _ _ N), F1; reflexivity). rewrite F2 in Y.
    replace (pre ++ c :: todo) with ((pre ++ [c]) ++ todo) in F by (rewrite <- app_assoc; reflexivity).
    destruct Y as [(-> & Y)|(Y1 & Y2)]; [rewrite walk_app, Y in F; discriminate|].
    destruct (IH text (pre ++ [c]) post st' last' stf) as (last2 & R1 & R2).
    + rewrite T, <- app_assoc. reflexivity.
    + exact Y2.
    + rewrite app_length. cbn [length]. now rewrite Nat.add_1_r.
    + exact F.
    + rewrite app_length in R1, R2. cbn [length] in R1, R2. rewrite Nat.add_1_r in R1, R2. exists last2. split; [exact R1|]. now rewrite Nat.add_succ_r.
Qed.
(** from the begin of the token *)
Lemma previous_all text j stf last : j <= length text -> walk start (firstn j text) = Some stf ->
  exists last', previous_state start 0 (firstn j text) last = Ok (stf, last') /\ good text j last'.
Proof.
  intros L W. destruct (previous_good (firstn j text) text [] (skipn j text) start last stf) as (last' & E & G).
  - symmetry. apply firstn_skipn.
  - reflexivity.
  - left. cbn. lia.
  - exact W.
  - exists last'. split; [exact E|]. cbn [length Nat.add] in G. now rewrite firstn_length_le in G by exact L.
Qed.

(** the loop ends where no rule can match any more, or at a NUL *)
Lemma match_loop_spec n : forall text st cp last fuel, length text - cp <= n -> cp <= length text -> n + 2 <= fuel ->
  walk start (firstn cp text) = Some st -> good text cp last ->
  exists last' j, match_loop fuel text st cp last = Ok last' /\ cp <= j <= length text /\ (exists st', walk start (firstn j text) = Some st') /\
    ((1 <= j /\ j < length text /\ walk start (firstn (S j) text) = None /\ good text (S j) last') \/
     (last' = Some (15%N, S j) /\ (j = length text \/ nth_error text j = Some nul))).
Proof.
  induction n as [|n IH]; intros text st cp last fuel Hn L F W G.
  all: destruct fuel as [|fuel]; [lia|]; cbn [match_loop].
  all: assert (Eob : (cp = length text \/ nth_error text cp = Some nul) -> exists last', 
        (c <- byte_at text cp ;; cl <- at_ yy_ec (code c) ;; last <- note_accept st cp last ;; st' <- next_state st cl ;;
         if N.eqb st' jam then Ok last else match_loop fuel text st' (S cp) last) = Ok last' /\ last' = Some (15%N, S cp)).
  1,3: intros K; assert (B : byte_at text cp = Ok nul) by
        (unfold byte_at; destruct K as [-> | ->]; [rewrite (proj2 (nth_error_None text (length text))) by lia; rewrite (proj2 (Nat.leb_le _ _)) by lia|]; reflexivity);
       rewrite B; cbn [bind]; rewrite eob_class; cbn [bind]; destruct (note_good text cp st last L W G) as (last1 & N1 & _); rewrite N1; cbn [bind];
       destruct (stands_spec _ _ (walk_good _ _ _ W)) as (_ & X & _); rewrite X; cbn [bind]; change (N.eqb 15 jam) with false; cbv iota;
       destruct fuel as [|fuel]; [lia|]; cbn [match_loop];
       assert (B2 : exists d, byte_at text (S cp) = Ok d) by
         (unfold byte_at; destruct (nth_error text (S cp)) as [d|]; [eauto|]; rewrite (proj2 (Nat.leb_le _ _)) by lia; eauto);
       destruct B2 as (d & B2); rewrite B2; cbn [bind]; destruct (ec_ok d) as (cl & D1 & D2); rewrite D1; cbn [bind]; unfold note_accept; rewrite eob_accept; cbn [bind];
       change (N.eqb end_of_buffer 0) with false; cbv iota; rewrite D2; cbn [bind]; change (N.eqb jam jam) with true; cbv iota; eauto.
  - assert (cp = length text) by lia. destruct Eob as (last' & E1 & E2); [auto|]. exists last', cp. split; [exact E1|]. split; [lia|]. split; [eauto|]. right. auto.
  - destruct (nth_error text cp) as [c|] eqn:N.
    2:{ apply nth_error_None in N. assert (cp = length text) by lia. destruct Eob as (last' & E1 & E2); [auto|]. exists last', cp. split; [exact E1|]. split; [lia|].
        split; [eauto|]. right. auto. }
    destruct (Ascii.eqb_spec c nul) as [->|Nn].
    { destruct Eob as (last' & E1 & E2); [auto|]. exists last', cp. split; [exact E1|]. split; [lia|]. split; [eauto|]. right. auto. }
    clear Eob. assert (Lt : cp < length text) by (apply nth_error_Some; congruence).
    unfold byte_at. rewrite N. cbn [bind]. destruct (walk_step text cp c st N W) as (cl & st' & B & X & Y). unfold byte_class in B.
    rewrite (proj2 (Ascii.eqb_neq c nul) Nn) in B. rewrite B. cbn [bind]. destruct (note_good text cp st last L W G) as (last1 & N1 & G1). rewrite N1. cbn [bind]. rewrite X.
    cbn [bind]. destruct Y as [(-> & Y)|(Y1 & Y2)].
    + change (N.eqb jam jam) with true. cbv iota. exists last1, cp. split; [reflexivity|]. split; [lia|]. split; [eauto|]. left.
      split; [|auto]. destruct cp; [|lia]. exfalso. apply (first_not_dead text); [lia|exact Y].
    + rewrite (proj2 (N.eqb_neq st' jam) Y1). destruct (IH text st' (S cp) last1 fuel) as (last' & j & R1 & R2 & R3 & R4); [lia|lia|lia|exact Y2|exact G1|].
      exists last', j. split; [exact R1|]. split; [lia|]. split; [exact R3|exact R4].
Qed.

(** the answer: the longest match *)
Definition answer (T : str) (r : res (found * str * str * nat)) : Prop :=
  exists i n text more reads, r = Ok (Rule i n, text, more, reads) /\ vbest v0 T = Some (n, i) /\ text ++ more = T /\ n <= length text /\ 1 <= n.

Lemma dead_after T j m : walk start (firstn j T) = None -> j <= m -> vnull (vrun v0 (firstn m T)) = None.
Proof.
  intros W L. pose proof (walk_stands (firstn m T) start v0 (proj1 (starts_spec k bol))) as K.
  assert (D : walk start (firstn m T) = None).
  { replace (firstn m T) with (firstn j T ++ firstn (m - j) (skipn j T)); [rewrite walk_app, W; reflexivity|].
    rewrite <- (firstn_skipn j T) at 3. rewrite firstn_app. rewrite firstn_firstn. replace (Nat.min m j) with j by lia. f_equal.
    rewrite firstn_length. destruct (le_lt_dec j (length T)); [replace (Nat.min j (length T)) with j by lia; reflexivity|].
    rewrite (skipn_all2 T) by lia. now rewrite !firstn_nil. }
  rewrite D in K. now rewrite K.
Qed.
Lemma quiet_at T m : (forall st, walk start (firstn m T) = Some st -> acc st = 0%N) -> vnull (vrun v0 (firstn m T)) = None.
Proof.
  intros H. pose proof (walk_stands (firstn m T) start v0 (proj1 (starts_spec k bol))) as K. destruct (walk start (firstn m T)) as [st|].
  - specialize (H st eq_refl). apply stands_acc in K as [_ K]. rewrite K in H. destruct (vnull (vrun v0 (firstn m T))) as [i|] eqn:V; [|reflexivity].
    exfalso. apply small_vnull in V as [V _]; [|apply small_vrun, small_start]. contradiction.
  - now rewrite K.
Qed.


(** going back to the last match is right when nothing longer matches *)
Lemma back_up f start' n last text more reads : 2 <= n -> n <= S (length text) -> good text n last ->
  (forall m, n <= m <= length (text ++ more) -> vnull (vrun v0 (firstn m (text ++ more))) = None) ->
  exists st j, last = Some (st, j) /\ answer (text ++ more) (scan chunk (S f) start' (YyFindAction st j) last text more reads).
Proof.
  intros H1 H2 G Q. destruct G as [G|(st & j & -> & J & W & A & R)]; [lia|]. exists st, j. split; [reflexivity|]. cbn [scan].
  destruct (walk_acc _ _ _ W) as (E & Eb). rewrite E. cbn [bind]. rewrite (proj2 (N.eqb_neq _ _) A), (proj2 (N.eqb_neq _ _) Eb).
  exists (acc st), j, text, more, reads. split; [reflexivity|]. split; [|split; [reflexivity|split; lia]].
  apply vbest_is.
  - rewrite app_length. lia.
  - rewrite firstn_text by lia. pose proof (stands_acc _ _ (walk_good _ _ _ W)) as (_ & V). destruct (vnull (vrun v0 (firstn j text))) as [i|]; congruence.
  - intros m M. destruct (le_lt_dec n m) as [L|L]; [apply Q; lia|]. apply quiet_at. intros st' Wm. rewrite firstn_text in Wm by lia. apply (R m st'); [lia|exact Wm].
Qed.

Lemma find_nul f last text more reads j : scan chunk (S f) start (YyFindAction 15 (S j)) last text more reads =
  if Nat.leb (S j) (length text) then
    bind (previous_state start 0 (firstn j text) last) (fun p => let '(st, last) := p in
    last <- note_accept st j last ;; st' <- next_state st 1 ;;
    if N.eqb st' jam then match last with Some (st, cp) => scan chunk f start (YyFindAction st cp) last text more reads | None => UB end
    else scan chunk f start (YyMatch st' (S j)) last text more reads)
  else if Nat.ltb (length text + 1) (S j) then UB
  else let '(got, more') := read chunk reads more in
    match got with
    | [] => if Nat.eqb j 0 then Ok (EndOfFile, firstn j text, more', S reads)
            else bind (previous_state start 0 (firstn j text) last) (fun p => let '(st, last) := p in
                 scan chunk f start (YyFindAction st (length (firstn j text))) last (firstn j text) more' (S reads))
    | _ => bind (previous_state start 0 (firstn j text) last) (fun p => let '(st, last) := p in
           scan chunk f start (YyMatch st j) last (firstn j text ++ got) more' (S reads))
    end.
Proof. cbn [scan]. rewrite eob_accept. cbn [bind]. change (N.eqb end_of_buffer 0) with false. change (N.eqb end_of_buffer end_of_buffer) with true. cbv iota.
  replace (S j - 1) with j by lia. reflexivity. Qed.

Lemma scan_spec n : forall text more cp st last reads fuel, length text - cp + 2 * length more <= n -> 2 * n + 4 <= fuel -> cp <= length text -> text ++ more <> [] ->
  walk start (firstn cp text) = Some st -> good text cp last ->
  answer (text ++ more) (scan chunk fuel start (YyMatch st cp) last text more reads).
Proof.
  induction n as [n IH] using (well_founded_induction lt_wf). intros text more cp st last reads fuel Hn F L Ne W G.
  destruct fuel as [|[|[|[|fuel]]]]; try lia.
  destruct (match_loop_spec (length text - cp) text st cp last (length text + 3)) as (last' & j & E & J & (stj & Wj) & Y); [lia|exact L|lia|exact W|exact G|].
  change (scan chunk (S (S (S (S fuel)))) start (YyMatch st cp) last text more reads) with
    (last <- match_loop (length text + 3) text st cp last ;; match last with Some (st, cp) => scan chunk (S (S (S fuel))) start (YyFindAction st cp) last text more reads | None => UB end).
  rewrite E. cbn [bind]. destruct Y as [(J1 & J2 & D & G')|(-> & Y)].
  - destruct (back_up (S (S fuel)) start (S j) last' text more reads) as (sb & jb & -> & A); [lia|lia|exact G'| |exact A].
    intros m M. apply dead_after with (j := S j); [|lia]. rewrite firstn_text by lia. exact D.
  - rewrite find_nul. destruct Y as [->|Nul].
    + rewrite (proj2 (Nat.leb_gt _ _)) by lia. rewrite (proj2 (Nat.ltb_ge _ _)) by lia. rewrite firstn_all in *. unfold read.
      destruct more as [|c more].
      * rewrite firstn_nil, skipn_nil. rewrite app_nil_r in *. destruct (Nat.eqb_spec (length text) 0) as [Z|Z]; [destruct text; [congruence|discriminate Z]|].
        destruct (previous_all text (length text) stj (Some (15%N, S (length text)))) as (lp & P & Gp); [lia|rewrite firstn_all; exact Wj|]. rewrite firstn_all in P. rewrite P. cbn [bind].
        assert (Wf : walk start (firstn (length text) text) = Some stj) by (rewrite firstn_all; exact Wj).
        destruct (walk_acc _ _ _ Wf) as (Ea & Eb). cbn [scan]. rewrite Ea. cbn [bind]. destruct (N.eqb_spec (acc stj) 0) as [Ez|Ez].
        -- assert (2 <= length text). { destruct (le_lt_dec 2 (length text)); [assumption|]. exfalso. assert (O : length text = 1) by lia. rewrite O in Wf. apply (walk_one text stj); [lia|exact Wf|exact Ez]. }
           destruct (back_up fuel start (length text) lp text [] (S reads)) as (sb & jb & -> & A); [lia|lia|exact Gp| |].
           ++ rewrite app_nil_r. intros m M. assert (m = length text) by lia. subst m. apply quiet_at. intros s' Ws. rewrite Wf in Ws. now injection Ws as <-.
           ++ rewrite app_nil_r in A. exact A.
        -- rewrite (proj2 (N.eqb_neq _ _) Eb). exists (acc stj), (length text), text, [], (S reads). split; [reflexivity|]. split; [|split; [apply app_nil_r|lia]].
           apply vbest_is; [lia| |intros; lia]. pose proof (stands_acc _ _ (walk_good _ _ _ Wf)) as (_ & V). destruct (vnull (vrun v0 (firstn (length text) text))); congruence.
      * destruct (Nat.max 1 (chunk reads)) as [|q] eqn:Q; [lia|]. set (got := firstn (S q) (c :: more)). set (rest := skipn (S q) (c :: more)).
        assert (Eq : c :: more = got ++ rest) by (symmetry; apply firstn_skipn). destruct got as [|g gs] eqn:Eg; [discriminate Eg|].
        destruct (previous_all text (length text) stj (Some (15%N, S (length text)))) as (lp & P & Gp); [lia|rewrite firstn_all; exact Wj|]. rewrite firstn_all in P. rewrite P. cbn [bind].
        replace (text ++ c :: more) with ((text ++ g :: gs) ++ rest) by (rewrite Eq, <- app_assoc; reflexivity).
        assert (Len : length more = length gs + length rest) by (apply (f_equal (@length ascii)) in Eq; rewrite app_length in Eq; cbn [length] in Eq; lia).
        apply (IH (length (text ++ g :: gs) - length text + 2 * length rest)).
        -- rewrite app_length. cbn [length] in *. lia.
        -- lia.
        -- rewrite app_length. cbn [length] in *. lia.
        -- rewrite app_length. lia.
        -- intros K. apply app_eq_nil in K as [K _]. apply app_eq_nil in K as [_ K]. discriminate.
        -- rewrite firstn_text, firstn_all by lia. exact Wj.
        -- destruct Gp as [Gp|(s & i & -> & I1 & I2 & I3 & I4)]; [left; exact Gp|]. right. exists s, i. split; [reflexivity|]. split; [exact I1|].
           split; [rewrite firstn_text by lia; exact I2|]. split; [exact I3|]. intros m s' M Wm. rewrite firstn_text in Wm by lia. exact (I4 m s' M Wm).
    + assert (Lt : j < length text) by (apply nth_error_Some; congruence). rewrite (proj2 (Nat.leb_le _ _)) by lia.
      destruct (previous_all text j stj (Some (15%N, S j))) as (lp & P & Gp); [lia|exact Wj|]. rewrite P. cbn [bind].
      destruct (note_good text j stj lp ltac:(lia) Wj Gp) as (ln & N1 & Gn). rewrite N1. cbn [bind].
      destruct (walk_step text j nul stj Nul Wj) as (cl & st' & B & X & Y). change (byte_class nul) with (Ok 1%N) in B. injection B as <-. rewrite X. cbn [bind].
      destruct Y as [(-> & Y)|(Y1 & Y2)].
      * change (N.eqb jam jam) with true. cbv iota.
        assert (1 <= j). { destruct j; [|lia]. exfalso. apply (first_not_dead text); [lia|exact Y]. }
        destruct (back_up (S fuel) start (S j) ln text more reads) as (sb & jb & -> & A); [lia|lia|exact Gn| |exact A].
        intros m M. apply dead_after with (j := S j); [|lia]. rewrite firstn_text by lia. exact Y.
      * rewrite (proj2 (N.eqb_neq st' jam) Y1). apply (IH (length text - S j + 2 * length more)); try lia; auto.
Qed.
(** at the end of the file *)
Lemma scan_eof fuel reads : 2 <= fuel -> exists m', scan chunk fuel start (YyMatch start 0) None [] [] reads = Ok (EndOfFile, [], [], m').
Proof.
  intros F. destruct fuel as [|[|fuel]]; try lia.
  destruct (match_loop_spec 0 [] start 0 None 3 (Nat.le_0_l 0) (Nat.le_0_l 0) (le_S 2 2 (le_n 2)) eq_refl (or_introl (Nat.le_0_l 1))) as (last' & j & E & J & _ & Y).
  change (scan chunk (S (S fuel)) start (YyMatch start 0) None [] [] reads) with
    (last <- match_loop 3 [] start 0 None ;; match last with Some (st, cp) => scan chunk (S fuel) start (YyFindAction st cp) last [] [] reads | None => UB end).
  rewrite E. cbn [bind]. cbn [length] in J. assert (j = 0) by lia. subst j. destruct Y as [(Y & _)|(-> & _)]; [lia|]. rewrite find_nul. cbn [length Nat.leb Nat.ltb Nat.add].
  unfold read. rewrite !firstn_nil, skipn_nil. cbn [Nat.eqb]. eexists. reflexivity.
Qed.
End Token.

(** From printed declarations back to tokens: lemmas for C86. *)
From Coq Require Import Ascii String List Bool Arith NArith ZArith Lia.
From Verif Require Import Str StrFacts Lex SpecLex SpecTokenize Parse SpecParse SpecFormat FormatFacts TypedefFacts.
Import ListNotations.

(* ------------------------------------------------------------ places of pieces *)

Definition sort (p : piece) : nat := match p with PWord _ => 1 | PGap _ => 2 | PDirective _ _ => 3 | _ => 0 end.
Definition clash (k l : nat) : bool := Nat.eqb l 3 || (Nat.eqb k l && negb (Nat.eqb k 0)).
Fixpoint chain (k : nat) (ps : list piece) : bool :=
  match ps with [] => true | p :: ps' => negb (clash k (sort p)) && chain (sort p) ps' end.
Definition last_sort (k : nat) (ps : list piece) : nat := fold_left (fun _ p => sort p) ps k.
Lemma chain_app k a b : chain k (a ++ b) = chain k a && chain (last_sort k a) b.
Proof. revert k. induction a as [|p a IH]; intros k; [reflexivity|]. cbn [app chain]. rewrite IH. unfold last_sort. cbn [fold_left]. now rewrite andb_assoc. Qed.
Lemma last_sort_app k a b : last_sort k (a ++ b) = last_sort (last_sort k a) b.
Proof. apply fold_left_app. Qed.
Lemma chain_placed ps : forall k b, chain k ps = true -> well_placed b ps.
Proof.
  induction ps as [|p ps IH]; intros k b H; [exact Logic.I|]. cbn [chain] in H. apply andb_true_iff in H as (H1 & H2). cbn [well_placed]. split; [|exact (IH _ _ H2)].
  destruct p; try exact Logic.I; try (destruct ps as [|[] ps]; try exact Logic.I; discriminate H2).
  unfold clash in H1. cbn in H1. discriminate.
Qed.
Lemma chain_weaken k ps : chain k ps = true -> chain 0 ps = true.
Proof.
  destruct ps as [|p ps]; [reflexivity|]. cbn [chain]. rewrite !andb_true_iff. intros (H & ->). split; [|reflexivity]. unfold clash in *. rewrite negb_true_iff in *. apply orb_false_iff in H as (H & _). rewrite H.
  destruct (sort p); reflexivity.
Qed.

(* ------------------------------------------------------------ tokens *)

Definition piece_of (x : str) : piece :=
  if str_eqb x $"..." then PDots
  else match x with
       | [c] => if is_ident c then PWord x else PPunct c
       | _ => PWord x
       end.
Definition tok_of (x : str) : token :=
  if str_eqb x $"struct" then T_STRUCT else if str_eqb x $"union" then T_UNION
  else if str_eqb x $"enum" then T_ENUM else if str_eqb x $"typedef" then T_TYPEDEF
  else match piece_of x with PWord _ => T_ID x | _ => T_OTHER x end.
(** tokens that mean themselves *)
Definition good_tok (x : str) : Prop := lexeme x /\ x <> $"extern" /\ x <> $"TranslationUnitDecl".

Lemma word_piece x : ident_word x -> piece_of x = PWord x.
Proof.
  intros (N & W). unfold piece_of. destruct (str_eqb x $"...") eqn:E; [apply str_eqb_eq in E; subst; now inversion W|]. destruct x as [|c [|]]; [now elim N| |reflexivity].
  inversion W; subst. cbn beta in *. now rewrite H1.
Qed.
Lemma good_piece x : good_tok x -> piece_ok (piece_of x) /\ piece_text (piece_of x) = x /\ (forall n, piece_token n (piece_of x) = [tok_of x]).
Proof.
  intros ([W|P] & E1 & E2).
  - unfold tok_of. rewrite (word_piece x W). split; [destruct W; split; auto|]. split; [reflexivity|]. intros n. cbn [piece_token].
    destruct (str_eqb x $"extern") eqn:E; [apply str_eqb_eq in E; contradiction|].
    destruct (str_eqb x $"struct"); [reflexivity|]. destruct (str_eqb x $"union"); [reflexivity|]. destruct (str_eqb x $"enum"); [reflexivity|]. destruct (str_eqb x $"typedef"); reflexivity.
  - unfold punct in P. cbn [In] in P. repeat (destruct P as [<- |P]; [split; [cbn; tauto|split; [reflexivity|intros n; reflexivity]]|]). destruct P.
Qed.
Lemma tok_plain x : plain_text (tok_of x) = Some x.
Proof.
  unfold tok_of. destruct (str_eqb x $"struct") eqn:E; [apply str_eqb_eq in E; now subst|]. destruct (str_eqb x $"union") eqn:E1; [apply str_eqb_eq in E1; now subst|].
  destruct (str_eqb x $"enum") eqn:E2; [apply str_eqb_eq in E2; now subst|]. destruct (str_eqb x $"typedef") eqn:E3; [apply str_eqb_eq in E3; now subst|].
  destruct (piece_of x); reflexivity.
Qed.
Lemma texts_toks l : texts (map tok_of l) = l.
Proof. induction l as [|x l IH]; [reflexivity|]. unfold texts in *. cbn [map flat_map]. rewrite tok_plain, IH. reflexivity. Qed.
Lemma plain_toks l : Forall (fun t => plain_text t <> None) (map tok_of l).
Proof. apply Forall_map. apply Forall_forall. intros x _. rewrite tok_plain. discriminate. Qed.
Lemma tok_block x : block_token (tok_of x) = true /\ brace (tok_of x) = 0%Z /\ tok_of x <> T_SEMICOLON.
Proof. pose proof (tok_plain x) as P. destruct (tok_of x); try discriminate P; repeat split; discriminate. Qed.
Lemma block_toks l : block_inner (map tok_of l).
Proof.
  split; [|split].
  - apply forallb_forall. intros t I. apply in_map_iff in I as (x & <- & _). apply tok_block.
  - intros a b E. exfalso. assert (I : In T_SEMICOLON (map tok_of l)) by (rewrite E; apply in_elt). apply in_map_iff in I as (x & I & _). now apply tok_block in I.
  - induction l as [|x l IH]; [cbn; lia|]. unfold depth in *. cbn [map fold_right]. destruct (tok_block x) as (_ & -> & _). exact IH.
Qed.
Lemma keyword_tok x : ~ In x [$"struct"; $"union"; $"enum"; $"typedef"] -> is_keyword (tok_of x) = false.
Proof.
  intros H. unfold tok_of. destruct (str_eqb x $"struct") eqn:E; [apply str_eqb_eq in E; subst; elim H; cbn; tauto|]. destruct (str_eqb x $"union") eqn:E1; [apply str_eqb_eq in E1; subst; elim H; cbn; tauto|].
  destruct (str_eqb x $"enum") eqn:E2; [apply str_eqb_eq in E2; subst; elim H; cbn; tauto|]. destruct (str_eqb x $"typedef") eqn:E3; [apply str_eqb_eq in E3; subst; elim H; cbn; tauto|].
  destruct (piece_of x); reflexivity.
Qed.

(* ------------------------------------------------------------ a laid out token list *)

Definition laid (ts : list str) (t : str) : Prop := unblank (spaced ts) t /\ tokens t = flat_map split_dots ts.

Lemma lexeme_solid x : lexeme x -> Forall (fun c => isspace c = false) x.
Proof.
  intros [(_ & W)|P].
  - eapply Forall_impl; [|exact W]. intros c C. cbn beta in *. destruct (isspace c) eqn:E; [|reflexivity]. apply space_not_ident in E. congruence.
  - unfold punct in P. cbn [In] in P. repeat (destruct P as [<- |P]; [repeat constructor|]). destruct P.
Qed.
Lemma unblank_solid x : Forall (fun c => isspace c = false) x -> forall s t, unblank (x ++ s) t -> exists t', t = x ++ t' /\ unblank s t'.
Proof.
  induction 1 as [|c x C _ IH]; intros s t U; [exists t; auto|]. cbn [app] in U. inversion U as [|c0 s0 s1 U1|c0 s0 s1 C1 U1]; subst; [|congruence].
  destruct (IH _ _ U1) as (t' & -> & U'). exists t'. auto.
Qed.
Lemma unblank_sp s t : unblank (sp :: s) t -> exists g t', t = g ++ t' /\ (g = [] \/ g = [sp]) /\ unblank s t'.
Proof. intros U. inversion U; subst; [exists [sp], s'; auto|exists [], t; auto]. Qed.
Lemma tokens_long cur s : cur <> [] -> exists x r, tokens_from cur s = (cur ++ x) :: r.
Proof.
  revert cur. induction s as [|c s IH]; intros cur N; cbn [tokens_from].
  - exists [], []. rewrite app_nil_r. now destruct cur.
  - destruct (is_ident c).
    + destruct (IH (cur ++ [c])) as (x & r & E); [now destruct cur|]. exists (c :: x), r. rewrite E, <- app_assoc. reflexivity.
    + exists [], (if isspace c then tokens_from [] s else [c] :: tokens_from [] s). rewrite app_nil_r. now destruct cur.
Qed.
Lemma tokens_glued x y s : ident_word x -> ident_word y -> hd [] (tokens (x ++ y ++ s)) <> x.
Proof.
  intros (Nx & Wx) (Ny & Wy) E. unfold tokens in E. rewrite (tokens_word x Wx), (tokens_word y Wy) in E. cbn [app] in E.
  destruct (tokens_long (x ++ y) s) as (z & r & E'); [destruct x; [now elim Nx|discriminate]|]. rewrite E' in E. cbn [hd] in E.
  assert (L : length ((x ++ y) ++ z) = length x) by now rewrite E. rewrite !app_length in L. destruct y; [now elim Ny|cbn in L; lia].
Qed.
Lemma tokens_loose x g t : lexeme x -> (g = [sp] \/ (g = [] /\ (punct x \/ match t with c :: _ => is_ident c = false | [] => True end))) ->
  tokens (x ++ g ++ t) = split_dots x ++ tokens t.
Proof.
  intros L [-> |(-> & [P|N])].
  - now apply tokens_lexeme.
  - unfold punct in P. cbn [In] in P. repeat (destruct P as [<- |P]; [reflexivity|]). destruct P.
  - cbn [app]. destruct L as [W|P]; [|unfold punct in P; cbn [In] in P; repeat (destruct P as [<- |P]; [reflexivity|]); destruct P].
    assert (E : split_dots x = [x]).
    { unfold split_dots. destruct (str_eqb x $"...") eqn:E; [|easy]. apply str_eqb_eq in E. subst x. destruct W as (_ & W). now inversion W. }
    destruct W as (Nx & W). rewrite E. unfold tokens. rewrite (tokens_word x W). cbn [app]. destruct t as [|c t]; cbn [tokens_from]; [now destruct x|]. rewrite N. destruct x; [now elim Nx|]. reflexivity.
Qed.
Lemma dots_word x : ident_word x -> split_dots x = [x].
Proof. intros (_ & W). unfold split_dots. destruct (str_eqb x $"...") eqn:E; [|easy]. apply str_eqb_eq in E. subst x. now inversion W. Qed.
Lemma laid_first y ts t : lexeme y -> unblank (spaced (y :: ts)) t -> exists r, t = y ++ r.
Proof. intros L U. rewrite spaced_cons in U. destruct (unblank_solid y (lexeme_solid y L) _ _ U) as (r & E & _). eauto. Qed.
(** one token more *)
Lemma laid_inv x ts t : lexeme x -> Forall lexeme ts -> laid (x :: ts) t ->
  exists g t', t = x ++ g ++ t' /\ laid ts t' /\ (g = [sp] \/ (g = [] /\ (punct x \/ match ts with y :: _ => punct y | [] => t' = [] end))).
Proof.
  intros L Ls (U & T). rewrite spaced_cons in U. destruct (unblank_solid x (lexeme_solid x L) _ _ U) as (t1 & -> & U1).
  destruct (unblank_sp _ _ U1) as (g & t' & -> & G & U2). exists g, t'. split; [reflexivity|].
  assert (C : g = [sp] \/ (g = [] /\ (punct x \/ match ts with y :: _ => punct y | [] => t' = [] end))).
  { destruct G as [-> | ->]; [right|left; reflexivity]. split; [reflexivity|]. destruct L as [W|P]; [right|left; exact P]. destruct ts as [|y ts].
    - cbn in U2. now inversion U2.
    - inversion Ls as [|? ? Ly Ly']; subst. destruct Ly as [Wy|Py]; [exfalso|exact Py]. destruct (laid_first y ts t' (or_introl Wy) U2) as (r & ->).
      apply (tokens_glued x y r W Wy). cbn [app] in T. rewrite T. cbn [flat_map]. rewrite (dots_word x W). reflexivity. }
  split; [|exact C]. split; [exact U2|].
  assert (E : tokens (x ++ g ++ t') = split_dots x ++ tokens t').
  { apply tokens_loose; [exact L|]. destruct C as [-> |(-> & [P|P])]; [left; reflexivity|right; split; [reflexivity|left; exact P]|right; split; [reflexivity|right]].
    destruct ts as [|y ts]; [now subst t'|]. destruct (laid_first y ts t' (or_intror P) U2) as (r & ->). unfold punct in P. cbn [In] in P. repeat (destruct P as [<- |P]; [reflexivity|]). destruct P. }
  rewrite E in T. cbn [flat_map] in T. now apply app_inv_head in T.
Qed.
(** its pieces *)
Lemma laid_pieces ts : forall t, Forall good_tok ts -> laid ts t ->
  exists ps, Forall piece_ok ps /\ text_of ps = t /\ (forall n, pieces_tokens n ps = map tok_of ts) /\ chain 0 ps = true /\
    match ts with y :: _ => exists r, ps = piece_of y :: r | [] => ps = [] end.
Proof.
  induction ts as [|x ts IH]; intros t G L.
  - destruct L as (U & _). cbn in U. inversion U; subst. exists []. repeat split; constructor.
  - inversion G as [|? ? Gx Gs]; subst. pose proof Gx as (Lx & _). assert (Ls : Forall lexeme ts) by (eapply Forall_impl; [|exact Gs]; intros y (H & _); exact H).
    destruct (laid_inv x ts t Lx Ls L) as (g & t' & -> & L' & C). destruct (IH t' Gs L') as (ps & P1 & <- & P3 & P4 & P5).
    destruct (good_piece x Gx) as (X1 & X2 & X3).
    assert (Hx : sort (piece_of x) <> 2 /\ sort (piece_of x) <> 3 /\ (punct x -> sort (piece_of x) = 0)).
    { destruct Lx as [W|P]; [rewrite (word_piece x W)|]; [split; [discriminate|split; [discriminate|]]; intros P; destruct W as (_ & W)|];
      unfold punct in P; cbn [In] in P; repeat (destruct P as [<- |P]; [first [now inversion W|split; [discriminate|split; [discriminate|reflexivity]]]|]); destruct P. }
    destruct Hx as (Hx2 & Hx3 & Hx0).
    assert (F : forall p r, ps = p :: r -> sort p <> 2 /\ sort p <> 3).
    { intros p r E. destruct ts as [|y ts]; [congruence|]. destruct P5 as (r' & P5). rewrite E in P5. injection P5 as -> _. inversion Ls as [|? ? Ly Ly']; subst.
      destruct Ly as [W|P]; [rewrite (word_piece y W); split; discriminate|]. unfold punct in P. cbn [In] in P. repeat (destruct P as [<- |P]; [split; discriminate|]). destruct P. }
    assert (W : forall k, k = 0 \/ k = 1 -> negb (clash k (sort (piece_of x))) = true \/ (k = 1 /\ sort (piece_of x) = 1)).
    { intros k K. unfold clash. destruct (sort (piece_of x)) as [|[|[|[|n]]]]; destruct K as [-> | ->]; cbn; auto; lia. }
    assert (W0 : negb (clash 0 (sort (piece_of x))) = true) by (destruct (W 0 (or_introl eq_refl)) as [H|(H & _)]; [exact H|discriminate]).
    destruct C as [-> |(-> & C)].
    + exists (piece_of x :: PGap [sp] :: ps). split; [constructor; [exact X1|]; constructor; [|exact P1]; split; [discriminate|repeat constructor]|].
      split; [unfold text_of; cbn [map concat piece_text]; rewrite X2; reflexivity|].
      split; [intros n; cbn [pieces_tokens]; rewrite X3, P3; reflexivity|]. split; [|eauto]. cbn [chain]. rewrite W0. cbn [andb]. apply andb_true_iff. split.
      * unfold clash. cbn. destruct (sort (piece_of x)) as [|[|[|n]]]; try reflexivity. now elim Hx2.
      * destruct ps as [|p ps]; [reflexivity|]. destruct (F p ps eq_refl) as (F2 & F3). cbn [chain] in *. apply andb_true_iff in P4 as (_ & P4). rewrite P4, andb_true_r.
        unfold clash. destruct (sort p) as [|[|[|[|n]]]]; try reflexivity; [now elim F2|now elim F3].
    + exists (piece_of x :: ps). split; [constructor; [exact X1|exact P1]|]. split; [unfold text_of; cbn [map concat]; rewrite X2; reflexivity|].
      split; [intros n; cbn [pieces_tokens]; rewrite X3, P3; reflexivity|]. split; [|eauto]. cbn [chain]. rewrite W0. cbn [andb].
      destruct C as [P|P]; [rewrite (Hx0 P); exact P4|]. destruct ts as [|y ts]; [subst ps; reflexivity|]. destruct P5 as (r & ->).
      assert (Sy : sort (piece_of y) = 0) by (unfold punct in P; cbn [In] in P; repeat (destruct P as [<- |P]; [reflexivity|]); destruct P).
      cbn [chain] in *. rewrite Sy in *. apply andb_true_iff in P4 as (_ & P4). rewrite P4. unfold clash. cbn. destruct (sort (piece_of x)); reflexivity.
Qed.

(** comments without backslash and slash *)
Lemma plain_comment body : ~ In "/"%char body -> ~ In bslash body -> piece_ok (PComment $"/*" body $"*/").
Proof.
  intros S B. split; [exists []; split; [now left|reflexivity]|]. split; [exists []; split; [now left|reflexivity]|].
  intros a c b E (x & X & ->). assert (E' : (body ++ $"*") ++ "/"%char :: [] = (a ++ $"*" ++ x) ++ "/"%char :: b) by (rewrite <- !app_assoc; rewrite <- !app_assoc in E; exact E).
  assert (N : ~ In "/"%char (body ++ $"*")) by (rewrite in_app_iff; intros [H|[H|[]]]; [contradiction|discriminate]).
  assert (Q : forall (p q r s : str), ~ In "/"%char p -> p ++ "/"%char :: [] = q ++ "/"%char :: s -> p = q /\ s = []).
  { clear. intros p q r s. revert q. induction p as [|c p IH]; intros q H E.
    - destruct q as [|d q]; [injection E as <-; auto|]. injection E as _ E. now destruct q.
    - destruct q as [|d q]; [injection E as -> _; elim H; now left|]. injection E as -> E. destruct (IH q) as (-> & ->); auto. intros I. apply H. now right. }
  destruct (Q _ _ [] _ N E') as (Q1 & _). destruct X as [-> |(ws & _ & ->)].
  - rewrite app_nil_r in Q1. apply app_inv_tail in Q1. subst. apply le_n.
  - exfalso. assert (I : In bslash (body ++ $"*")) by (rewrite Q1; rewrite !in_app_iff; right; right; left; now left). apply in_app_iff in I as [I|[I|[]]]; [contradiction|discriminate].
Qed.

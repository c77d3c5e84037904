(** Clang AST: the recorded texts declare the declared types. *)
From Coq Require Import Ascii String List Bool Arith Lia.
From Verif Require Import Str StrFacts FormatFacts TypedefFacts Parse Format ClangAst
  SpecParse SpecFormat SpecClangAst SpecClangType ClangAstFacts ClangAstFacts2 ClangAstProps ClangAstSelect.
Import ListNotations.

(* ------------------------------------------------------------ ends of texts *)

(** not empty, no blank at the ends *)
Definition snug (s : str) : Prop := (exists c r, s = c :: r /\ isspace c = false) /\ (exists c r, s = r ++ [c] /\ isspace c = false).

Lemma snug_app a b : snug a -> snug b -> snug (a ++ b).
Proof.
  intros [(c & r & -> & Hc) _] [_ (d & q & -> & Hd)]. split; [exists c, (r ++ q ++ [d]); auto|].
  exists d, ((c :: r) ++ q). rewrite <- app_assoc. auto.
Qed.
Lemma snug_mid a m b : snug a -> snug b -> snug (a ++ m ++ b).
Proof.
  intros [(c & r & -> & Hc) _] [_ (d & q & -> & Hd)]. split; [exists c, (r ++ m ++ q ++ [d]); auto|].
  exists d, ((c :: r) ++ m ++ q). rewrite <- !app_assoc. auto.
Qed.
Lemma ident_not_space c : is_ident c = true -> isspace c = false.
Proof. destruct c as [[] [] [] [] [] [] [] []]; vm_compute; congruence. Qed.
Lemma words_snug s : words s -> snug s.
Proof.
  intros (Hn & Ha & Hf & Hl). split.
  - destruct s as [|c r]; [congruence|]. exists c, r. split; [reflexivity|]. inversion Ha as [|x y [K|K] _]; subst; [apply ident_not_space, K|].
    exfalso. apply (Hf sp r eq_refl eq_refl).
  - destruct (exists_last Hn) as (r & c & E). exists c, r. split; [exact E|]. rewrite E in Ha. apply Forall_app in Ha. destruct Ha as [_ Ha].
    inversion Ha as [|x y [K|K] _]; subst; [apply ident_not_space, K|]. exfalso. apply (Hl sp r eq_refl eq_refl).
Qed.
Lemma words_not c s : words s -> is_ident c = false -> c <> sp -> ~ In c s.
Proof. intros (_ & Ha & _) H1 H2 K. apply (proj1 (Forall_forall _ _) Ha) in K. destruct K; congruence. Qed.
Lemma words_last s : words s -> exists r c, s = r ++ [c] /\ is_ident c = true.
Proof.
  intros (Hn & Ha & _ & Hl). destruct (exists_last Hn) as (r & c & E). exists r, c. split; [exact E|]. rewrite E in Ha. apply Forall_app in Ha.
  destruct Ha as [_ Ha]. inversion Ha as [|x y [K|K] _]; subst; [exact K|]. exfalso. apply (Hl sp r eq_refl eq_refl).
Qed.

(** a snug text inside blanks is what trimming leaves *)
Lemma snug_in l s r a X b : blank l -> blank r -> snug X -> l ++ s ++ r = a ++ X ++ b -> exists a' b', a = l ++ a' /\ s = a' ++ X ++ b' /\ b = b' ++ r.
Proof.
  intros Hl Hr [(c & x & Ec & Hc) (d & y & Ed & Hd)] E.
  assert (H1 : exists a', a = l ++ a').
  { destruct (app_eq_app _ _ _ _ E) as (z & [[E1 E2]|[E1 E2]]); [|exists z; exact E1].
    destruct z as [|e z]; [exists []; rewrite app_nil_r in *; congruence|]. rewrite Ec in E2. cbn [app] in E2. injection E2 as <- _.
    rewrite E1 in Hl. apply Forall_app in Hl. destruct Hl as [_ Hl]. inversion Hl. congruence. }
  destruct H1 as (a' & ->). rewrite <- !app_assoc in E. apply app_inv_head in E.
  assert (E' : s ++ r = (a' ++ X) ++ b) by (rewrite <- app_assoc; exact E).
  destruct (app_eq_app _ _ _ _ E') as (z & [[E1 E2]|[E1 E2]]).
  - exists a', z. split; [reflexivity|]. split; [rewrite E1, <- app_assoc; reflexivity|exact E2].
  - destruct z as [|e z] using rev_ind.
    + exists a', []. rewrite app_nil_r in *. cbn [app] in E2. split; [reflexivity|]. split; [rewrite <- E1; reflexivity|]. rewrite E2. reflexivity.
    + rewrite E2 in Hr. apply Forall_app in Hr. destruct Hr as [Hr _]. apply Forall_app in Hr. destruct Hr as [_ Hr]. inversion Hr; subst.
      rewrite Ed in E1. rewrite !app_assoc in E1. apply app_inj_tail in E1. destruct E1 as [_ E1]. congruence.
Qed.
Lemma trim_unique a T w b : snug T -> blank w -> a = T ++ w -> trim_of a b -> b = T.
Proof.
  intros HT Hw Ea (l & r & E & Hl & Hr & Hb).
  assert (E' : l ++ b ++ r = [] ++ T ++ w) by (rewrite <- E; exact Ea).
  destruct (snug_in l b r [] T w Hl Hr HT E') as (a' & b' & E1 & E2 & E3). symmetry in E1. apply app_eq_nil in E1. destruct E1 as [-> ->]. cbn [app] in E2.
  destruct b' as [|c b' _] using rev_ind; [rewrite app_nil_r in E2; exact E2|]. exfalso.
  assert (Hc : isspace c = true).
  { rewrite E3 in Hw. apply Forall_app in Hw. destruct Hw as [Hw _]. apply Forall_app in Hw. destruct Hw as [_ Hw]. inversion Hw; assumption. }
  destruct b as [|d b]; [destruct HT as [(? & ? & -> & _) _]; discriminate|]. destruct Hb as [_ Hb]. rewrite E2, !app_assoc, last_last in Hb. congruence.
Qed.

(* ------------------------------------------------------------ the place of the name *)

(** a type text and a declarator *)
Definition glue (T d : str) : str := if ends_with $"*" T then T ++ d else T ++ $" " ++ d.

Lemma star_nil d : star [] d = "*"%char :: d.
Proof. reflexivity. Qed.
Lemma star_words q c d : words q -> c <> "["%char -> star q (c :: d) = "*"%char :: q ++ sp :: c :: d.
Proof.
  intros H Hc. unfold star, after_base. destruct q as [|x q]; [destruct H; congruence|]. destruct (Ascii.eqb_spec c "["); [congruence|]. reflexivity.
Qed.
Lemma star_words_nil q : words q -> star q [] = "*"%char :: q.
Proof. intros H. unfold star, after_base. destruct q; reflexivity. Qed.
Lemma star_words_br q d : words q -> star q ("["%char :: d) = "*"%char :: q ++ "["%char :: d.
Proof. intros H. unfold star, after_base. destruct q; reflexivity. Qed.

Lemma ends_star_words a q : words q -> ends_with $"*" (a ++ q) = false.
Proof.
  intros H. destruct (words_last q H) as (r & c & -> & Hc). apply not_true_is_false. intros K. apply ends_with_spec in K. destruct K as (z & K).
  rewrite app_assoc in K. apply app_inj_tail in K. destruct K as [_ K]. subst c. discriminate.
Qed.
Lemma ends_star (a : str) : ends_with $"*" (a ++ ["*"%char]) = true.
Proof. apply ends_with_spec. exists a. reflexivity. Qed.
Lemma simple_declare t : simple t -> forall c d, c <> "["%char -> declare t (c :: d) = glue (type_text t) (c :: d).
Proof.
  unfold type_text. induction t as [b|q t IH|n t IH|r ps v]; cbn [simple]; intros H c d Hc; try contradiction.
  - cbn [declare]. unfold glue. assert (K := ends_star_words [] b H). cbn [app] in K. cbn [after_base]. rewrite K.
    destruct (Ascii.eqb_spec c "["); [congruence|reflexivity].
  - destruct H as [Hq H]. cbn [declare]. assert (Ec : composite t = false) by (destruct t; try reflexivity; contradiction). rewrite Ec.
    destruct Hq as [->|Hq].
    + rewrite !star_nil, !(IH H) by discriminate. unfold glue at 1 3. destruct (ends_with $"*" (declare t [])); unfold glue.
      * rewrite ends_star, <- app_assoc. reflexivity.
      * rewrite (app_assoc (declare t []) $" " ["*"%char]), ends_star, <- !app_assoc. reflexivity.
    + rewrite star_words, star_words_nil, !(IH H) by (assumption || discriminate). unfold glue at 1 3. destruct (ends_with $"*" (declare t [])).
      * unfold glue. change ("*"%char :: q) with (["*"%char] ++ q). rewrite app_assoc, ends_star_words by exact Hq. rewrite <- !app_assoc. reflexivity.
      * unfold glue. change ("*"%char :: q) with (["*"%char] ++ q). rewrite !app_assoc, ends_star_words by exact Hq. rewrite <- !app_assoc. reflexivity.
Qed.

Lemma glue_snug T d : snug T -> snug d -> snug (glue T d).
Proof. intros H1 H2. unfold glue. destruct (ends_with _ _); [apply snug_app|apply snug_mid]; assumption. Qed.
Lemma simple_snug t : simple t -> snug (type_text t).
Proof.
  unfold type_text. induction t as [b|q t IH|n t IH|r ps v]; cbn [simple]; intros H; try contradiction.
  - apply words_snug, H.
  - destruct H as [Hq H]. cbn [declare]. assert (Ec : composite t = false) by (destruct t; try reflexivity; contradiction). rewrite Ec.
    assert (K : exists x, star q [] = "*"%char :: x /\ snug (star q [])).
    { destruct Hq as [->|Hq]; [exists []; split; [reflexivity|split; [exists "*"%char, []|exists "*"%char, []]; auto]|].
      rewrite star_words_nil by exact Hq. exists q. split; [reflexivity|]. destruct (words_snug q Hq) as [_ (c & r & -> & Hc)].
      split; [exists "*"%char, (r ++ [c]); auto|exists c, ("*"%char :: r); auto]. }
    destruct K as (x & K1 & K2). rewrite K1 in *. rewrite (simple_declare t H) by discriminate. apply glue_snug; [apply IH, H|exact K2].
Qed.
Lemma simple_not t e : simple t -> is_ident e = false -> e <> sp -> e <> "*"%char -> ~ In e (type_text t).
Proof.
  intros H H1 H2 H3. revert H. unfold type_text. induction t as [b|q t IH|n t IH|r ps v]; cbn [simple]; intros H; try contradiction.
  - cbn [declare after_base]. apply words_not; assumption.
  - destruct H as [Hq H]. cbn [declare]. assert (Ec : composite t = false) by (destruct t; try reflexivity; contradiction). rewrite Ec.
    assert (K : exists x, star q [] = "*"%char :: x /\ ~ In e ("*"%char :: x)).
    { destruct Hq as [->|Hq]; [exists []; split; [reflexivity|intros [K|[]]; congruence]|].
      rewrite star_words_nil by exact Hq. exists q. split; [reflexivity|]. intros [K|K]; [congruence|]. revert K. apply words_not; assumption. }
    destruct K as (x & -> & K). rewrite (simple_declare t H) by discriminate. unfold glue. specialize (IH H).
    destruct (ends_with _ _); rewrite !in_app_iff; [tauto|]. intros [N|[[N|[]]|N]]; [tauto|apply H2; symmetry; exact N|tauto].
Qed.

(** what stands before and after the name; [pre']: the same when a bracket follows *)
Lemma hole t : spine_ok t -> exists pre' gap post,
  (gap = [] \/ gap = $" ") /\ (gap = [] -> exists a, pre' = a ++ ["*"%char]) /\
  snug pre' /\ ~ In ")"%char pre' /\ ~ In "["%char pre' /\
  (post = [] \/ exists a c, post = a ++ [c] /\ isspace c = false) /\
  (forall c d, c <> "["%char -> declare t (c :: d) = pre' ++ gap ++ c :: d ++ post) /\
  (forall d, declare t ("["%char :: d) = pre' ++ "["%char :: d ++ post).
Proof.
  induction t as [b|q t IH|n t IH|r IH ps v]; cbn [spine_ok]; intros H.
  - exists b, $" ", []. split; [right; reflexivity|]. split; [discriminate|]. split; [apply words_snug, H|].
    split; [apply words_not; [exact H|reflexivity|discriminate]|]. split; [apply words_not; [exact H|reflexivity|discriminate]|].
    split; [left; reflexivity|]. split; [|intros d; cbn [declare after_base]; rewrite app_nil_r; reflexivity].
    intros c d Hc. cbn [declare after_base]. destruct (Ascii.eqb_spec c "["); [congruence|]. rewrite app_nil_r. reflexivity.
  - destruct H as [Hq H]. destruct (IH H) as (pre & gap & post & G1 & G2 & S & N1 & N2 & P & D1 & D2). clear IH. cbn [declare].
    set (o := if composite t then $"(" else []). set (c' := if composite t then $")" else []).
    assert (O : forall x, (if composite t then $"(" ++ x ++ $")" else x) = o ++ x ++ c').
    { intros x. unfold o, c'. destruct (composite t); [reflexivity|]. rewrite app_nil_r. reflexivity. }
    assert (Ho : o = [] \/ o = ["("%char]) by (unfold o; destruct (composite t); auto).
    assert (D3 : forall x, declare t (o ++ "*"%char :: x ++ c') = (pre ++ gap ++ o ++ ["*"%char]) ++ x ++ c' ++ post).
    { intros x. destruct Ho as [->| ->]; cbn [app]; rewrite D1 by discriminate; cbn [app]; rewrite <- !app_assoc; reflexivity. }
    assert (S' : snug (pre ++ gap ++ o ++ ["*"%char])).
    { destruct S as [(c & r & -> & Hc) _]. split; [exists c, (r ++ gap ++ o ++ ["*"%char]); auto|].
      exists "*"%char, ((c :: r) ++ gap ++ o). rewrite <- !app_assoc. auto. }
    assert (N' : forall e, In e [")"; "["]%char -> ~ In e (pre ++ gap ++ o ++ ["*"%char])).
    { intros e He. rewrite !in_app_iff. assert (Ee : e = ")"%char \/ e = "["%char) by (destruct He as [E|[E|[]]]; auto). clear He.
      intros [K|[K|[K|K]]].
      - destruct Ee; subst e; contradiction.
      - destruct G1 as [->| ->]; [destruct K|destruct K as [K|[]]; destruct Ee; subst e; discriminate].
      - destruct Ho as [Ho|Ho]; rewrite Ho in K; [destruct K|destruct K as [K|[]]; destruct Ee; subst e; discriminate].
      - destruct K as [K|[]]; destruct Ee; subst e; discriminate. }
    assert (P' : c' ++ post = [] \/ exists a c, c' ++ post = a ++ [c] /\ isspace c = false).
    { destruct P as [->|(a & c & -> & Hc)].
      - rewrite app_nil_r. unfold c'. destruct (composite t); [right; exists [], ")"%char; auto|left; reflexivity].
      - right. exists (c' ++ a), c. rewrite app_assoc. auto. }
    destruct Hq as [->|Hq].
    + exists (pre ++ gap ++ o ++ ["*"%char]), [], (c' ++ post). split; [left; reflexivity|].
      split; [intros _; exists (pre ++ gap ++ o); rewrite <- !app_assoc; reflexivity|].
      split; [exact S'|]. split; [apply N'; left; reflexivity|]. split; [apply N'; right; left; reflexivity|]. split; [exact P'|]. split.
      * intros c d _. rewrite O, star_nil. change (("*"%char :: c :: d) ++ c') with ("*"%char :: (c :: d) ++ c'). rewrite D3. reflexivity.
      * intros d. rewrite O, star_nil. change (("*"%char :: "["%char :: d) ++ c') with ("*"%char :: ("["%char :: d) ++ c'). rewrite D3. reflexivity.
    + exists ((pre ++ gap ++ o ++ ["*"%char]) ++ q), $" ", (c' ++ post). split; [right; reflexivity|]. split; [discriminate|].
      split; [apply snug_app; [exact S'|apply words_snug, Hq]|].
      split; [rewrite in_app_iff; intros [K|K]; [revert K; apply N'; left; reflexivity|revert K; apply words_not; [exact Hq|reflexivity|discriminate]]|].
      split; [rewrite in_app_iff; intros [K|K]; [revert K; apply N'; right; left; reflexivity|revert K; apply words_not; [exact Hq|reflexivity|discriminate]]|].
      split; [exact P'|]. split.
      * intros c d Hc. rewrite O, star_words by assumption.
        change (("*"%char :: q ++ sp :: c :: d) ++ c') with ("*"%char :: (q ++ sp :: c :: d) ++ c'). rewrite D3, <- !app_assoc. reflexivity.
      * intros d. rewrite O, star_words_br by assumption.
        change (("*"%char :: q ++ "["%char :: d) ++ c') with ("*"%char :: (q ++ "["%char :: d) ++ c'). rewrite D3, <- !app_assoc. reflexivity.
  - destruct (IH H) as (pre & gap & post & G1 & G2 & S & N1 & N2 & P & D1 & D2). exists pre, gap, ($"[" ++ n ++ $"]" ++ post).
    split; [exact G1|]. split; [exact G2|]. split; [exact S|]. split; [exact N1|]. split; [exact N2|]. split.
    { right. destruct P as [->|(a & c & -> & Hc)]; [exists ($"[" ++ n), "]"%char; rewrite <- app_assoc; auto|].
      exists ($"[" ++ n ++ $"]" ++ a), c. rewrite <- !app_assoc. auto. }
    split.
    + intros c d Hc. cbn [declare]. change ((c :: d) ++ $"[" ++ n ++ $"]") with (c :: d ++ $"[" ++ n ++ $"]"). rewrite (D1 _ _ Hc), <- !app_assoc. reflexivity.
    + intros d. cbn [declare]. change (("["%char :: d) ++ $"[" ++ n ++ $"]") with ("["%char :: d ++ $"[" ++ n ++ $"]"). rewrite D2, <- !app_assoc. reflexivity.
  - destruct (IH H) as (pre & gap & post & G1 & G2 & S & N1 & N2 & P & D1 & D2).
    set (x := param_list (map (fun p => declare p []) ps) v). exists pre, gap, ($"(" ++ x ++ $")" ++ post).
    split; [exact G1|]. split; [exact G2|]. split; [exact S|]. split; [exact N1|]. split; [exact N2|]. split.
    { right. destruct P as [->|(a & c & -> & Hc)]; [exists ($"(" ++ x), ")"%char; rewrite <- app_assoc; auto|].
      exists ($"(" ++ x ++ $")" ++ a), c. rewrite <- !app_assoc. auto. }
    split.
    + intros c d Hc. cbn [declare]. fold x. change ((c :: d) ++ $"(" ++ x ++ $")") with (c :: d ++ $"(" ++ x ++ $")"). rewrite (D1 _ _ Hc), <- !app_assoc. reflexivity.
    + intros d. cbn [declare]. fold x. change (("["%char :: d) ++ $"(" ++ x ++ $")") with ("["%char :: d ++ $"(" ++ x ++ $")"). rewrite D2, <- !app_assoc. reflexivity.
Qed.

(* ------------------------------------------------------------ parameters *)

Lemma first_fptr a b x y : ~ occurs $"(*)" (a ++ $"(*") -> ~ In ")"%char x -> a ++ $"(*)" ++ b = x ++ $"(*)" ++ y -> a = x /\ b = y.
Proof.
  intros Ha Hx E. assert (E' : (a ++ $"(*)") ++ b = (x ++ $"(*)") ++ y) by (rewrite <- !app_assoc; exact E).
  assert (F : forall s z e, (s ++ $"(*)") = z ++ [e] -> s ++ $"(*" = z).
  { intros s z e K. change $"(*)" with ($"(*" ++ [")"%char]) in K. rewrite app_assoc in K. apply app_inj_tail in K. tauto. }
  destruct (app_eq_app _ _ _ _ E') as (z & [[E1 E2]|[E1 E2]]); (destruct z as [|e z _] using rev_ind;
    [rewrite app_nil_r in E1; apply app_inv_tail in E1; cbn [app] in E2; auto|exfalso]).
  - rewrite app_assoc in E1. apply F in E1. apply Ha. exists x, z. rewrite E1, <- app_assoc. reflexivity.
  - rewrite app_assoc in E1. apply F in E1. assert (K : In ")"%char (x ++ $"(*")).
    { rewrite E1. rewrite !in_app_iff. left. right. right. right. left. reflexivity. }
    apply in_app_or in K. destruct K as [K|[K|[K|[]]]]; [contradiction|discriminate|discriminate].
Qed.

Lemma put_name_declare t n d c r : param_type t -> n = c :: r -> c <> "["%char -> put_name n (type_text t) d -> d = declare t n.
Proof.
  intros [H|[Ho H]] -> Hc K.
  - rewrite (simple_declare t H c r Hc). assert (N := simple_not t "(" H eq_refl ltac:(discriminate) ltac:(discriminate)).
    unfold glue. remember (type_text t) as T eqn:ET. destruct K as [a b _|a _|a _ L].
    + exfalso. apply N. rewrite in_app_iff. right. left. reflexivity.
    + change $"*" with ["*"%char] at 2. rewrite ends_star, <- app_assoc. reflexivity.
    + destruct (ends_with $"*" a) eqn:E; [|reflexivity]. apply ends_with_spec in E. destruct E as (z & ->). exfalso. apply L. apply last_last.
  - destruct t as [|[|] t| |]; try contradiction. cbn [pointer_to_composite] in H. cbn [spine_ok] in Ho. destruct Ho as [_ Ho].
    destruct (hole t Ho) as (pre & gap & post & G1 & _ & _ & N & _ & _ & D & _). unfold type_text in K. cbn [declare] in K |- *. rewrite H in *.
    rewrite !star_nil in *. cbn [app] in K |- *. change (lit "(") with ["("%char] in *. change (lit ")") with [")"%char] in *. cbn [app] in *.
    rewrite D in K |- * by discriminate. 
    assert (N' : ~ In ")"%char (pre ++ gap)).
    { rewrite in_app_iff. intros [X|X]; [contradiction|]. destruct G1 as [->| ->]; [destruct X|destruct X as [X|[]]; discriminate]. }
    assert (Q : forall x, pre ++ gap ++ "("%char :: x ++ post = (pre ++ gap) ++ ("("%char :: x) ++ post) by (intros x; rewrite <- app_assoc; reflexivity).
    rewrite Q in K |- *. change ("("%char :: ["*"%char; ")"%char]) with $"(*)" in K.
    remember ((pre ++ gap) ++ $"(*)" ++ post) as T eqn:ET. destruct K as [a b X|a X|a X L].
    + destruct (first_fptr _ _ _ _ X N' ET) as [-> ->]. cbn [app lit list_ascii_of_string]. rewrite <- !app_assoc. reflexivity.
    + exfalso. apply X. exists (pre ++ gap), post. exact ET.
    + exfalso. apply X. exists (pre ++ gap), post. exact ET.
Qed.

Lemma arg_name_head k : exists r, arg_name k = "a"%char :: r.
Proof. eexists. reflexivity. Qed.
Lemma zip_declare ps : Forall param_type ps -> forall k ds, zip3 put_name (arg_names k ps) (map type_text ps) ds -> ds = declare_all ps (arg_names k ps).
Proof.
  induction 1 as [|t ps Ht _ IH]; intros k ds K; cbn [map arg_names] in K; inversion K as [|a b c la lb lc K1 K2]; subst; [reflexivity|].
  cbn [declare_all arg_names]. f_equal; [|apply IH, K2]. eapply put_name_declare; [exact Ht|reflexivity| |exact K1]. discriminate.
Qed.
Lemma arg_names_map k {A B} (f : A -> B) l : arg_names k (map f l) = arg_names k l.
Proof. revert k. induction l as [|x l IH]; intros k; [reflexivity|]. cbn [map arg_names]. rewrite IH. reflexivity. Qed.

Lemma func_type r x : simple r -> exists w, blank w /\ declare r ("("%char :: x) = (type_text r ++ w) ++ $"(" ++ x /\ ~ In "("%char (type_text r ++ w).
Proof.
  intros H. rewrite (simple_declare r H) by discriminate. assert (N := simple_not r "(" H eq_refl ltac:(discriminate) ltac:(discriminate)).
  unfold glue. destruct (ends_with $"*" (type_text r)).
  - exists []. split; [constructor|]. rewrite app_nil_r. split; [reflexivity|exact N].
  - exists $" ". split; [constructor; [reflexivity|constructor]|]. split; [rewrite <- app_assoc; reflexivity|].
    rewrite in_app_iff. intros [K|[K|[]]]; [contradiction|discriminate].
Qed.
Lemma first_of (c : ascii) a b x y : ~ In c a -> ~ In c x -> a ++ [c] ++ b = x ++ [c] ++ y -> a = x /\ b = y.
Proof.
  revert x. induction a as [|d a IH]; intros [|e x] Ha Hx E; cbn [app] in E.
  - injection E as E. auto.
  - injection E as E _. exfalso. apply Hx. left. auto.
  - injection E as E _. exfalso. apply Ha. left. auto.
  - injection E as E1 E2. destruct (IH x (fun K => Ha (or_intror K)) (fun K => Hx (or_intror K)) E2) as [-> ->]. subst d. auto.
Qed.

Lemma function_declared n r ps p : simple r -> ps <> [] -> Forall param_type ps ->
  recorded (IFunc n (type_text (CFun r ps false)) (map type_text ps)) p ->
  p_symbol p = n /\ p_kind p = KFunction /\ p_type p = type_text r /\ p_args p = param_list (declare_all ps (arg_names 1 ps)) false /\
  p_param_names p = join $", " (arg_names 1 ps).
Proof.
  intros Hr Hn Hp (H1 & H2 & (ret & rest & E & N & T) & H4 & ds & H5 & H6).
  split; [exact H1|]. split; [exact H2|]. split; [|split].
  - unfold type_text at 1 in E. cbn [declare] in E. change ([] ++ $"(" ++ param_list (map (fun p => declare p []) ps) false ++ $")") with
      ("("%char :: param_list (map (fun p => declare p []) ps) false ++ $")") in E.
    destruct (func_type r (param_list (map (fun p => declare p []) ps) false ++ $")") Hr) as (w & Hw & Ew & Nw). rewrite Ew in E.
    change $"(" with ["("%char] in E. destruct (first_of "(" _ _ _ _ Nw N E) as [E1 _]. 
    eapply trim_unique; [apply simple_snug, Hr|exact Hw| |exact T]. symmetry. exact E1.
  - rewrite arg_names_map in H5. apply (zip_declare ps Hp) in H5. subst ds. rewrite H6. destruct ps; [congruence|reflexivity].
  - rewrite arg_names_map in H4. exact H4.
Qed.

(* ------------------------------------------------------------ variables *)

Lemma variable_simple n t p : simple t -> recorded (IVar n (type_text t)) p -> p_symbol p = n /\ p_kind p = KObject /\ p_type p = type_text t.
Proof.
  intros H (H1 & T & K & _). split; [exact H1|]. split.
  - destruct K as [[(a & b & E) _]|[(_ & I' & _)|(_ & _ & K)]]; [exfalso|exfalso|exact K].
    + assert (N := simple_not t "(" H eq_refl ltac:(discriminate) ltac:(discriminate)). apply N. rewrite E, in_app_iff. right. left. reflexivity.
    + assert (N := simple_not t "[" H eq_refl ltac:(discriminate) ltac:(discriminate)). contradiction.
  - eapply trim_unique; [apply simple_snug, H|apply Forall_nil| |exact T]. symmetry. apply app_nil_r.
Qed.

Lemma flat_declare t : flat t -> exists s post, simple s /\ forall c d, c <> "["%char -> declare t (c :: d) = glue (type_text s) (c :: d ++ post).
Proof.
  induction t as [b|q t IH|m t IH|r IH ps v]; cbn [flat]; intros H.
  - exists (CBase b), []. split; [exact H|]. intros c d Hc. rewrite app_nil_r. apply simple_declare; assumption.
  - exists (CPtr q t), []. split; [exact H|]. intros c d Hc. rewrite app_nil_r. apply simple_declare; assumption.
  - destruct (IH H) as (s & post & Hs & D). exists s, ($"[" ++ m ++ $"]" ++ post). split; [exact Hs|]. intros c d Hc. cbn [declare].
    change ((c :: d) ++ $"[" ++ m ++ $"]") with (c :: d ++ $"[" ++ m ++ $"]"). rewrite (D _ _ Hc), <- !app_assoc. reflexivity.
  - destruct (IH H) as (s & post & Hs & D). cbn [declare]. set (x := param_list (map (fun p => declare p []) ps) v).
    exists s, ($"(" ++ x ++ $")" ++ post). split; [exact Hs|]. intros c d Hc.
    change ((c :: d) ++ $"(" ++ x ++ $")") with (c :: d ++ $"(" ++ x ++ $")"). rewrite (D _ _ Hc), <- !app_assoc. reflexivity.
Qed.

Lemma declare_snug t d : spine_ok t -> snug d -> snug (declare t d).
Proof.
  intros H Hd. destruct (hole t H) as (pre & gap & post & _ & _ & S & _ & _ & P & D1 & D2).
  assert (S' : snug (d ++ post)).
  { destruct Hd as [(c & r & E1 & Hc) (e & q & E2 & He)]. split; [exists c, (r ++ post); rewrite E1; auto|].
    destruct P as [->|(a & c' & -> & Hc')]; [exists e, q; rewrite app_nil_r; auto|exists c', (d ++ a); rewrite <- app_assoc; auto]. }
  destruct Hd as [(c & r & -> & Hc) _]. destruct (ascii_dec c "[").
  - subst c. rewrite D2. apply snug_app; [exact S|exact S'].
  - rewrite (D1 _ _ n). apply snug_mid; [exact S|exact S'].
Qed.
Lemma star_snug q : quals_ok q -> snug (star q []).
Proof.
  intros [->|H]; [split; [exists "*"%char, []|exists "*"%char, []]; auto|]. rewrite star_words_nil by exact H.
  destruct (words_snug q H) as [_ (c & r & -> & Hc)]. split; [exists "*"%char, (r ++ [c]); auto|exists c, ("*"%char :: r); auto].
Qed.
Lemma snug_between c x d : isspace c = false -> isspace d = false -> snug (c :: x ++ [d]).
Proof. intros H1 H2. split; [exists c, (x ++ [d]); auto|exists d, (c :: x); auto]. Qed.
Lemma spine_snug t : spine_ok t -> snug (type_text t).
Proof.
  unfold type_text. destruct t as [b|q t|m t|r ps v]; cbn [spine_ok declare]; intros H.
  - apply words_snug, H.
  - destruct H as [Hq H]. apply declare_snug; [exact H|]. destruct (composite t); [|apply star_snug, Hq].
    apply snug_between; reflexivity.
  - apply declare_snug; [exact H|]. apply (snug_between "[" m "]"); reflexivity.
  - apply declare_snug; [exact H|]. apply (snug_between "(" _ ")"); reflexivity.
Qed.
Lemma simple_spine t : simple t -> spine_ok t.
Proof. induction t as [b|q t IH|m t IH|r IH ps v]; cbn [simple spine_ok]; try contradiction; [auto|]. intros [H1 H2]. auto. Qed.
Lemma flat_spine t : flat t -> spine_ok t.
Proof. induction t as [b|q t IH|m t IH|r IH ps v]; cbn [flat spine_ok]; auto. intros H. apply (simple_spine (CPtr q t)), H. Qed.
Lemma type_trim t p : spine_ok t -> trim_of (type_text t) p -> p = type_text t.
Proof. intros H T. eapply trim_unique; [apply spine_snug, H|apply Forall_nil| |exact T]. symmetry. apply app_nil_r. Qed.

Lemma fptr_typedef_at a b name : ~ In "("%char a -> fptr_typedef (a ++ $"(*)" ++ b) name = a ++ $"(*" ++ name ++ $")" ++ b.
Proof.
  intros C. unfold fptr_typedef. cbn [lit list_ascii_of_string]. rewrite (find_clean "(" ["*"; ")"]%char a b C).
  change (a ++ ["("; "*"; ")"]%char ++ b) with (a ++ ["("]%char ++ ["*"; ")"]%char ++ b).
  rewrite (find_clean "(" [] a (["*"; ")"]%char ++ b) C), Nat.eqb_refl.
  replace (a ++ ["("]%char ++ ["*"; ")"]%char ++ b) with ((a ++ ["("; "*"]%char) ++ [")"]%char ++ b) by (rewrite <- app_assoc; reflexivity).
  replace (length a + 2) with (length (a ++ ["("; "*"]%char)) by (rewrite app_length; reflexivity).
  rewrite insert_at_split, <- app_assoc. reflexivity.
Qed.
Lemma array_typedef_at a b name : ~ In "["%char a -> snug a -> array_typedef (a ++ $"[" ++ b) name = a ++ $" " ++ name ++ $"[" ++ b.
Proof.
  intros C [_ (c & r & E & Hc)]. unfold array_typedef. change $"[" with ["["%char]. rewrite (find_clean "[" [] a b C).
  assert (L : Nat.ltb 0 (length a) = true) by (apply Nat.ltb_lt; rewrite E, app_length; cbn; lia). rewrite L.
  assert (A : str_at (a ++ ["["%char] ++ b) (length a - 1) = c).
  { rewrite E, app_length. cbn [length]. replace (length r + 1 - 1) with (length r) by lia. unfold str_at. rewrite <- app_assoc. rewrite app_nth2 by lia.
    rewrite Nat.sub_diag. reflexivity. }
  rewrite A. destruct (Ascii.eqb_spec c " ") as [->|_]; [discriminate|]. cbn [andb negb]. rewrite insert_at_split.
  replace (a ++ $" " ++ ["["%char] ++ b) with ((a ++ $" ") ++ ["["%char] ++ b) by (rewrite <- app_assoc; reflexivity).
  replace (length a + 1) with (length (a ++ $" ")) by (rewrite app_length; reflexivity). rewrite insert_at_split, <- app_assoc. reflexivity.
Qed.

Lemma one_typedef pl p def : def <> [] ->
  match p_kind p with
  | KFunctionPointer => fptr_typedef (p_type p) (typedef_name pl (p_symbol p)) = def
  | KObjectArray => array_typedef (p_type p) (typedef_name pl (p_symbol p)) = def
  | _ => False
  end -> create_typedefs pl [p] = Ok ([def], [with_typedef pl p]).
Proof.
  intros Hd H. cbn [create_typedefs]. unfold with_typedef, retyped. destruct (p_kind p) eqn:K; try contradiction; rewrite H;
    (destruct def as [|c def]; [congruence|reflexivity]).
Qed.

Lemma variable_pointer n t p pl : composite t = true -> flat t -> recorded (IVar n (type_text (CPtr [] t))) p ->
  create_typedefs pl [p] = Ok ([declare (CPtr [] t) (td_name pl n)], [with_typedef pl p]).
Proof.
  intros Hc Hf (H1 & T & K & _).
  assert (So : spine_ok (CPtr [] t)) by (split; [left; reflexivity|apply flat_spine, Hf]).
  apply (type_trim _ _ So) in T. destruct (flat_declare t Hf) as (s & post & Hs & D).
  assert (Ed : forall x, declare (CPtr [] t) x = glue (type_text s) ("("%char :: "*"%char :: x ++ $")" ++ post)).
  { intros x. cbn [declare]. rewrite Hc, star_nil. change ($"(" ++ ("*"%char :: x) ++ $")") with ("("%char :: "*"%char :: x ++ $")").
    rewrite D by discriminate. cbn [app]. rewrite <- app_assoc. reflexivity. }
  assert (G : exists a, (forall x, glue (type_text s) ("("%char :: x) = a ++ "("%char :: x) /\ ~ In "("%char a).
  { assert (N := simple_not s "(" Hs eq_refl ltac:(discriminate) ltac:(discriminate)). unfold glue. destruct (ends_with $"*" (type_text s)).
    - exists (type_text s). auto.
    - exists (type_text s ++ $" "). split; [intros x; rewrite <- app_assoc; reflexivity|]. rewrite in_app_iff. intros [X|[X|[]]]; [contradiction|discriminate]. }
  destruct G as (a & G & N). assert (Et : type_text (CPtr [] t) = a ++ $"(*)" ++ post).
  { unfold type_text. rewrite Ed, G. reflexivity. }
  assert (En : declare (CPtr [] t) (td_name pl n) = a ++ $"(*" ++ td_name pl n ++ $")" ++ post).
  { rewrite Ed, G. reflexivity. }
  apply one_typedef; [rewrite En; destruct a; discriminate|]. rewrite T, H1.
  assert (Hk : p_kind p = KFunctionPointer).
  { destruct K as [[_ K]|[[X _]|[X _]]]; [exact K| |]; exfalso; apply X; exists a, post; exact Et. }
  rewrite Hk, Et, En. apply fptr_typedef_at, N.
Qed.

Lemma variable_array n m e p pl : spine_ok e -> ~ occurs $"(*)" (type_text (CArr m e)) -> (forall r, pl <> "["%char :: r) ->
  recorded (IVar n (type_text (CArr m e))) p ->
  exists def, create_typedefs pl [p] = Ok ([def], [with_typedef pl p]) /\ tokens def = tokens (declare (CArr m e) (td_name pl n)).
Proof.
  intros So No Hp (H1 & T & K & _). apply (type_trim (CArr m e) _ So) in T.
  destruct (hole e So) as (pre & gap & post & G1 & G2 & S & _ & N & _ & D1 & D2).
  assert (Et : type_text (CArr m e) = pre ++ $"[" ++ m ++ $"]" ++ post).
  { unfold type_text. cbn [declare app]. change ($"[" ++ m ++ $"]") with ("["%char :: m ++ $"]"). rewrite D2, <- app_assoc. reflexivity. }
  assert (Hk : p_kind p = KObjectArray).
  { destruct K as [[X _]|[(_ & _ & K)|(_ & X & _)]]; [contradiction|exact K|]. exfalso. apply X. rewrite Et, in_app_iff. right. left. reflexivity. }
  set (def := pre ++ $" " ++ td_name pl n ++ $"[" ++ m ++ $"]" ++ post). exists def. split.
  - apply one_typedef; [unfold def; destruct pre; discriminate|]. rewrite Hk, T, H1, Et. apply (array_typedef_at pre _ _ N S).
  - assert (En : exists c d, td_name pl n = c :: d /\ c <> "["%char).
    { unfold td_name. destruct pl as [|c pl]; [exists "_"%char; eexists; split; [reflexivity|discriminate]|].
      exists c. eexists. split; [reflexivity|]. intros ->. apply (Hp pl eq_refl). }
    destruct En as (c & d & En & Hc). cbn [declare]. unfold def. rewrite En.
    change ((c :: d) ++ $"[" ++ m ++ $"]") with (c :: d ++ $"[" ++ m ++ $"]"). rewrite (D1 _ _ Hc).
    destruct G1 as [->| ->].
    + destruct (G2 eq_refl) as (a & ->). cbn [app lit list_ascii_of_string]. rewrite <- !app_assoc. cbn [app].
      change " "%char with sp. rewrite tokens_drop_next by reflexivity. rewrite <- app_assoc. reflexivity.
    + do 3 f_equal. cbn [app]. rewrite <- !app_assoc. reflexivity.
Qed.

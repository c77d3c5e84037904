(** The shipped templates are fit for the substitution, with any prefix. *)
From Coq Require Import Ascii String List Bool Arith Lia.
From Verif Require Import Str StrFacts Parse ParamNames Prefix Substitute SpecFormat SpecPrefix SpecSubstitute Options Generate SpecGenerate PrefixFacts SubstFacts SubstProps
  SpecTemplates TemplateFacts Templates.
Import ListNotations.

(* ------------------------------------------------------------ prefixes *)

Lemma same_renaming w : renamed_word $"GDO" $"gdo" w = w.
Proof.
  unfold renamed_word.
  destruct (after $"GDO_" w) as [r|] eqn:E1; [apply after_Some in E1; now rewrite E1|].
  destruct (after $"_GDO_" w) as [r|] eqn:E2; [apply after_Some in E2; now rewrite E2|].
  destruct (after $"gdo_" w) as [r|] eqn:E3; [apply after_Some in E3; now rewrite E3|].
  destruct (after $"_gdo_" w) as [r|] eqn:E4; [apply after_Some in E4; now rewrite E4|].
  destruct (str_eqb w $"gdo") eqn:E; [|reflexivity]. now apply str_eqb_eq in E.
Qed.
Lemma rename_same s : rename $"GDO" $"gdo" s = s.
Proof.
  unfold rename. rewrite <- (words_text s) at 2. f_equal. destruct (words s) as (w, r). unfold map_words. cbn [fst snd]. rewrite same_renaming. f_equal.
  induction r as [|(c, v) r IH]; [reflexivity|]. cbn [map fst snd]. now rewrite IH, same_renaming.
Qed.
Lemma upper_char c d : to_upper true [c] = [d] -> In d ["G"; "D"; "O"]%char -> to_lower true [c] = to_lower true [d].
Proof.
  intros E [<-|[<-|[<-|[]]]]; revert E; destruct c as [[] [] [] [] [] [] [] []]; vm_compute; intros E; (reflexivity || discriminate E).
Qed.
Lemma upper_GDO s : to_upper true s = $"GDO" -> to_lower true s = $"gdo".
Proof.
  intros E. destruct s as [|a [|b [|c [|]]]]; try discriminate E.
  assert (A : to_upper true [a] = ["G"%char] /\ to_upper true [b] = ["D"%char] /\ to_upper true [c] = ["O"%char]).
  { unfold to_upper in *. cbn [map] in *. injection E as -> -> ->. auto. }
  destruct A as (A & B & C). apply upper_char in A; [|cbn; auto]. apply upper_char in B; [|cbn; auto]. apply upper_char in C; [|cbn; auto].
  unfold to_lower in *. cbn [map] in *. injection A as ->. injection B as ->. injection C as ->. reflexivity.
Qed.

(** what holds for the two names of a usable prefix *)
Lemma usable p : usable_prefix p -> ident_text (m_pfx_upper p) /\ ident_text (m_pfx_lower p) /\ m_pfx_upper p <> [] /\ m_pfx_lower p <> [] /\
  forall s, ~ adjacent_gdo (cut_words (words s)) ->
    (if str_eqb (m_pfx_upper p) $"GDO" then s else replace_prefixes p s) = rename (m_pfx_upper p) (m_pfx_lower p) s.
Proof.
  intros [->|(s & S & D & ->)].
  - repeat split; try discriminate; try (repeat constructor). intros s _. change (s = rename $"GDO" $"gdo" s). now rewrite rename_same.
  - unfold set_prefix at 1 2 3 4. cbn [m_pfx_upper m_pfx_lower]. repeat split.
    + apply to_upper_ident.
    + apply to_lower_ident.
    + destruct s; [now elim S|discriminate].
    + destruct s; [now elim S|discriminate].
    + intros x A. change (m_pfx_upper (set_prefix s)) with (to_upper true s). change (m_pfx_lower (set_prefix s)) with (to_lower true s).
      destruct (str_eqb (to_upper true s) $"GDO") eqn:E.
      * apply str_eqb_eq in E. rewrite E, (upper_GDO s E). now rewrite rename_same.
      * rewrite <- (words_text x) at 1. rewrite rename_spec; [reflexivity|exact S|exact D|apply words_ok|exact A].
Qed.

(* ------------------------------------------------------------ checking a line *)

Fixpoint adjacent_b (l : list str) : bool :=
  match l with
  | a :: ((b :: _) as r) => (str_eqb a $"gdo" && str_eqb b $"gdo") || adjacent_b r
  | _ => false
  end.
Lemma adjacent_spec l : adjacent_gdo l -> adjacent_b l = true.
Proof.
  intros (a & b & ->). induction a as [|x a IH]; [reflexivity|]. change ((x :: a) ++ [$"gdo"; $"gdo"] ++ b) with (x :: (a ++ [$"gdo"; $"gdo"] ++ b)). remember (a ++ [$"gdo"; $"gdo"] ++ b) as q. destruct q; [destruct a; discriminate|].
  change (adjacent_b (x :: s :: q)) with ((str_eqb x $"gdo" && str_eqb s $"gdo") || adjacent_b (s :: q)). apply orb_true_iff. right. exact IH.
Qed.
Fixpoint line_okb (t : bool) (l : list part) : bool :=
  match l with
  | [] => true
  | Lit s :: r => forallb (fun c => negb (Ascii.eqb c "%")) s && line_okb (t && forallb is_ident s) r
  | Hole _ :: r => negb t && line_okb true r
  end.
Lemma line_okb_spec l : forall t, line_okb t l = true -> line_ok t l.
Proof.
  induction l as [|[s|h] l IH]; intros t; cbn [line_okb line_ok]; [auto| |]; intros E; apply andb_true_iff in E as (E1 & E2).
  - split; [|now apply IH]. intros I. rewrite forallb_forall in E1. specialize (E1 _ I). discriminate E1.
  - split; [now destruct t|now apply IH].
Qed.
Definition class_eqb (a b : class) : bool :=
  match a, b with CFunction, CFunction | CObject, CObject | CSymbol, CSymbol => true | _, _ => false end.
Definition not_marker (s : str) : bool := negb (existsb (fun m => str_eqb (c_str s) (marker_text m)) [RemoveBegin; UseBegin; SectionEnd]).
Lemma not_marker_spec s : not_marker s = true -> ~ is_marker s.
Proof.
  intros E (m & M). unfold not_marker in E. apply negb_true_iff in E. cbn [existsb] in E. rewrite M in E.
  destruct m; rewrite str_eqb_refl in E; rewrite ?orb_true_r in E; discriminate E.
Qed.
Definition check_entry (e : entry) : bool :=
  not_marker (e_data e) && negb (adjacent_b (cut_words (words (e_data e)))) &&
  let p := parts 0 (e_data e) in
  match holes p with
  | [] => negb (twice (e_data e))
  | h :: _ => e_kw e && str_eqb (line_text p) (e_data e) && spaced p && line_okb false p && forallb (fun g => class_eqb (hole_class g) (hole_class h)) (holes p)
  end.

Lemma longest_width names : width names (longest names).
Proof.
  unfold width, longest. induction names as [|x l (IH1 & IH2)]; [split; [intros s []|now intros N; elim N]|]. cbn [fold_right]. split.
  - intros s [<-|I]; [lia|]. specialize (IH1 s I). lia.
  - intros _. destruct l as [|y l].
    + exists x. split; [now left|]. cbn. lia.
    + destruct IH2 as (s & I & E); [discriminate|]. set (n := fold_right _ _ _) in *. destruct (Nat.max_spec (length x) n) as [(_ & M)|(_ & M)]; rewrite M.
      * exists s. split; [now right|exact E].
      * exists x. split; [now left|reflexivity].
Qed.

Lemma checked_expands c e : usable_prefix (c_pfx c) -> check_entry e = true -> expands c e (expansion c (e_data e)).
Proof.
  intros P E. destruct (usable _ P) as (U & L & U1 & L1 & R). unfold check_entry in E. apply andb_true_iff in E as (E & E3). apply andb_true_iff in E as (E1 & E2).
  apply not_marker_spec in E1. assert (A : ~ adjacent_gdo (cut_words (words (e_data e)))) by (intros A; apply adjacent_spec in A; rewrite A in E2; discriminate E2).
  assert (D : line_data c e = rename (m_pfx_upper (c_pfx c)) (m_pfx_lower (c_pfx c)) (e_data e)) by exact (R _ A).
  unfold expansion. destruct (holes (parts 0 (e_data e))) as [|h hs] eqn:H.
  - rewrite <- D. apply ExpandsPlain; [exact E1|]. intros h O. apply hole_occurs_twice in O. rewrite D, rename_twice in O by assumption. rewrite O in E3. discriminate E3.
  - repeat rewrite andb_true_iff in E3. destruct E3 as ((((K & T) & S) & O) & C). apply str_eqb_eq in T.
    apply ExpandsCopies.
    + exact E1.
    + exact K.
    + rewrite D. rewrite <- T at 1. now apply rename_line.
    + apply rename_line_ok; try assumption. now apply line_okb_spec.
    + rewrite rename_holes, H. discriminate.
    + rewrite rename_holes, H. intros g G. rewrite forallb_forall in C. specialize (C g G). destruct (hole_class g), (hole_class h); try reflexivity; discriminate C.
    + apply longest_width.
Qed.

(* ------------------------------------------------------------ the files *)

Definition to_item (e : entry) : item :=
  match List.find (fun m => str_eqb (e_data e) (marker_text m)) [RemoveBegin; UseBegin; SectionEnd] with Some m => Mark m | None => Line e end.
Definition shipped_template (t : tname) : template :=
  match shipped t with
  | d :: r => (d, map to_item (removelast r))
  | [] => (terminator, [])
  end.
Definition check_template (t : tname) : bool :=
  let '(d, items) := shipped_template t in
  starts_with $"#line" (c_str (e_data d)) && check_entry d && negb (Nat.eqb (e_count d) 0) &&
  forallb (fun i => match i with Line e => check_entry e && negb (Nat.eqb (e_count e) 0) | Mark _ => true end) items.
Definition source_templates : list tname := [TCommonH; TCommonC; TCH; TCC; TCxxH; TCxxC; TMinH; TMinCxx; TPluginH; TPluginC].
Lemma shipped_checked : forallb check_template source_templates = true.
Proof. vm_compute. reflexivity. Qed.
Lemma shipped_entries t : In t source_templates -> shipped t = template_entries (shipped_template t).
Proof. intros I. repeat (destruct I as [<-|I]; [vm_compute; reflexivity|]). destruct I. Qed.

Lemma shipped_ok t : In t source_templates -> template_ok (shipped_template t) /\ check_entry (fst (shipped_template t)) = true /\
  Forall (fun i => match i with Line e => check_entry e = true | Mark _ => True end) (snd (shipped_template t)).
Proof.
  intros I. pose proof shipped_checked as S. rewrite forallb_forall in S. specialize (S t I). unfold check_template in S.
  destruct (shipped_template t) as (d, items). cbn [fst snd]. repeat rewrite andb_true_iff in S. destruct S as (((S1 & S2) & S3) & S4).
  assert (K : forall e, check_entry e = true -> ~ is_marker (e_data e)).
  { intros e E. unfold check_entry in E. apply andb_true_iff in E as (E & _). apply andb_true_iff in E as (E & _). now apply not_marker_spec. }
  assert (Z : forall n, negb (Nat.eqb n 0) = true -> n <> 0) by (intros n N ->; discriminate N).
  rewrite forallb_forall in S4. split; [|split; [exact S2|]].
  - split; cbn [fst snd]; [auto|]. apply Forall_forall. intros i J. specialize (S4 i J). destruct i as [e|m]; [|trivial].
    apply andb_true_iff in S4 as (S5 & S6). auto.
  - apply Forall_forall. intros i J. specialize (S4 i J). destruct i; [now apply andb_true_iff in S4 as (? & _)|trivial].
Qed.

(** Proofs for C85: the reader of C text. *)
From Coq Require Import Ascii String List Bool Arith Lia.
From Verif Require Import Str StrFacts SpecCText SpecSubstitute SpecTemplates.
Import ListNotations.

Lemma read_app cxx a b s : read_text cxx s (a ++ b) = match read_text cxx s a with Some s' => read_text cxx s' b | None => None end.
Proof. revert s. induction a as [|c a IH]; intros s; [reflexivity|]. cbn [app read_text]. destruct (read cxx s c); [apply IH|reflexivity]. Qed.
Lemma closed_nil cxx : closed cxx [].
Proof. reflexivity. Qed.
Lemma closed_app cxx a b : closed cxx a -> closed cxx b -> closed cxx (a ++ b).
Proof. unfold closed. intros A B. now rewrite read_app, A. Qed.
Lemma closed_concat cxx l : Forall (closed cxx) l -> closed cxx (concat l).
Proof. induction 1; [reflexivity|]. cbn [concat]. now apply closed_app. Qed.

(* ------------------------------------------------------------ inside other conditionals and brackets *)

Definition under_cond (kb : str) (k : cond) : cond :=
  mkcond (k_else k) (k_before k ++ kb) (match k_after k with Some a => Some (a ++ kb) | None => None end) (k_live k) (k_taken k).
Definition under_lead (kb : str) (l : lead) : lead := match l with Directive o => Directive (o ++ kb) | l => l end.
(** whether brackets count inside these conditionals *)
Definition counts (kc : list cond) : bool := match kc with k :: _ => k_live k | [] => true end.
Definition under (kc : list cond) (kb : str) (s : state) : state :=
  mkstate (t_place s) (under_lead kb (t_lead s)) (map (under_cond kb) (t_conds s) ++ kc) (t_open s ++ kb).

Lemma eqb_app a b k : str_eqb (a ++ k) (b ++ k) = str_eqb a b.
Proof.
  destruct (str_eqb a b) eqn:E; [apply str_eqb_eq in E as ->; now apply str_eqb_eq|].
  apply str_eqb_neq. apply str_eqb_neq in E. intros H. now apply app_inv_tail in H.
Qed.
Lemma end_group_under kb k o k' : end_group k o = Some k' -> end_group (under_cond kb k) (o ++ kb) = Some (under_cond kb k').
Proof.
  unfold end_group. destruct k as [e b a l t]. cbn. destruct l; [|now intros [= <-]].
  destruct a as [a|]; [|now intros [= <-]]. rewrite eqb_app. destruct (str_eqb a o); [now intros [= <-]|discriminate].
Qed.
Lemma next_group_under kb e k o k' : next_group e k o = Some k' -> next_group e (under_cond kb k) (o ++ kb) = Some (under_cond kb k').
Proof.
  unfold next_group. change (k_else (under_cond kb k)) with (k_else k). destruct (k_else k); [discriminate|].
  destruct (end_group k o) as [k1|] eqn:E; [|discriminate]. rewrite (end_group_under _ _ _ _ E). now intros [= <-].
Qed.
Lemma end_cond_under kb k o r : end_cond k o = Some r -> end_cond (under_cond kb k) (o ++ kb) = Some (r ++ kb).
Proof.
  unfold end_cond. destruct (end_group k o) as [k1|] eqn:E; [|discriminate]. rewrite (end_group_under _ _ _ _ E).
  change (k_else (under_cond kb k1)) with (k_else k1). change (k_taken (under_cond kb k1)) with (k_taken k1).
  destruct (k_else k1 || k_taken k1); [unfold under_cond; cbn; now intros ->|].
  destruct (end_group (mkcond (k_else k1) (k_before k1) (k_after k1) true false) (k_before k1)) as [k2|] eqn:F; [|discriminate].
  pose proof (end_group_under kb _ _ _ F) as G. unfold under_cond in G at 1. cbn [k_else k_before k_after k_live k_taken] in G.
  cbn [under_cond k_else k_before k_after k_live k_taken]. rewrite G. cbn [under_cond k_after]. now intros ->.
Qed.
Lemma directive_under kc kb w s s' : directive_read w s = Some s' -> directive_read w (under kc kb s) = Some (under kc kb s').
Proof.
  unfold directive_read. destruct s as [p l cs o]. cbn [under t_place t_lead t_conds t_open].
  destruct (str_eqb w $"if"); [now intros [= <-]|]. destruct (str_eqb w $"ifdef"); [now intros [= <-]|]. destruct (str_eqb w $"ifndef"); [now intros [= <-]|].
  destruct (str_eqb w $"elif" || str_eqb w $"else").
  - destruct cs as [|k r]; [discriminate|]. cbn [map app]. destruct (next_group _ k o) as [k'|] eqn:E; [|discriminate].
    rewrite (next_group_under _ _ _ _ _ E). now intros [= <-].
  - destruct (str_eqb w $"endif"); [|now intros [= <-]].
    destruct cs as [|k r]; [discriminate|]. cbn [map app]. destruct (end_cond k o) as [o'|] eqn:E; [|discriminate].
    rewrite (end_cond_under _ _ _ _ E). now intros [= <-].
Qed.
Lemma asked_under cxx kc kb n w s s' : asked cxx n w s = Some s' -> asked cxx n w (under kc kb s) = Some (under kc kb s').
Proof. unfold asked. destruct w; [discriminate|]. now intros [= <-]. Qed.
Lemma end_word_under cxx kc kb s s' : end_word cxx s = Some s' -> end_word cxx (under kc kb s) = Some (under kc kb s').
Proof.
  unfold end_word. change (t_lead (under kc kb s)) with (under_lead kb (t_lead s)).
  destruct (t_lead s) as [| |w|n [|c w]| |o]; cbn [under_lead]; try (now intros [= <-]); try apply directive_under; apply asked_under.
Qed.
Lemma into_code_under kb l l' : into_code l = Some l' -> into_code (under_lead kb l) = Some (under_lead kb l').
Proof. destruct l; cbn; try discriminate; now intros [= <-]. Qed.
Lemma bracket_under kb c o o' : bracket c o = Some o' -> bracket c (o ++ kb) = Some (o' ++ kb).
Proof.
  unfold bracket. destruct (opening c); [now intros [= <-]|]. destruct (matching c); [|now intros [= <-]].
  destruct o as [|x r]; [discriminate|]. cbn [app]. destruct (Ascii.eqb x a); [now intros [= <-]|discriminate].
Qed.
Lemma end_line_under kc kb s s' : end_line s = Some s' -> end_line (under kc kb s) = Some (under kc kb s').
Proof.
  unfold end_line. destruct s as [p l cs o]. cbn [under t_place t_lead t_conds t_open].
  destruct l; cbn [under_lead]; try discriminate; try (now intros [= <-]).
  rewrite eqb_app. destruct (str_eqb open o); [now intros [= <-]|discriminate].
Qed.
Lemma with_lead_under kc kb l s s' : with_lead l s = Some s' ->
  with_lead (match l with Some l => Some (under_lead kb l) | None => None end) (under kc kb s) = Some (under kc kb s').
Proof. destruct l; [|discriminate]. cbn. now intros [= <-]. Qed.
Lemma counted_under kc kb s : counts kc = true -> counting (under kc kb s) = counting s.
Proof. intros K. unfold counting, under. cbn [t_conds]. destruct (t_conds s) as [|k r]; [|reflexivity]. exact K. Qed.
Lemma read_code_under cxx kc kb c s s' : counts kc = true -> read_code cxx c s = Some s' -> read_code cxx c (under kc kb s) = Some (under kc kb s').
Proof.
  intros K. unfold read_code. destruct (is_ident c).
  - destruct s as [p l cs o]. cbn [under t_place t_lead t_conds t_open]. destruct l; cbn; now intros [= <-].
  - destruct (end_word cxx s) as [s1|] eqn:E; [|discriminate]. rewrite (end_word_under _ kc kb _ _ E). clear E s.
    destruct (Ascii.eqb c nl); [apply end_line_under|]. destruct (is_space c); [now intros [= <-]|].
    destruct (Ascii.eqb c "#").
    { change (t_lead (under kc kb s1)) with (under_lead kb (t_lead s1)). destruct (t_lead s1); cbn; try discriminate; now intros [= <-]. }
    destruct (Ascii.eqb c "/"); [now intros [= <-]|].
    destruct (into_code (t_lead s1)) as [l|] eqn:L; [|discriminate].
    change (t_lead (under kc kb s1)) with (under_lead kb (t_lead s1)). rewrite (into_code_under _ _ _ L).
    destruct (Ascii.eqb c dquote || Ascii.eqb c apostrophe); [now intros [= <-]|].
    change (t_open (under kc kb s1)) with (t_open s1 ++ kb). rewrite (counted_under kc kb s1 K). destruct (counting s1); [|now intros [= <-]].
    destruct (bracket c (t_open s1)) as [o|] eqn:B; [|discriminate]. rewrite (bracket_under _ _ _ _ B). now intros [= <-].
Qed.
Lemma read_char_under cxx p kc kb c s s' : counts kc = true -> read_char cxx p c s = Some s' -> read_char cxx p c (under kc kb s) = Some (under kc kb s').
Proof.
  intros K. destruct p; cbn [read_char]; try discriminate.
  - now apply read_code_under.
  - destruct (Ascii.eqb c "*"); [now intros [= <-]|]. destruct (Ascii.eqb c "/"); [now intros [= <-]|].
    destruct (with_lead (into_code (t_lead s)) s) as [s1|] eqn:E; [|discriminate]. intros H.
    change (t_lead (under kc kb s)) with (under_lead kb (t_lead s)). destruct (into_code (t_lead s)) as [l|] eqn:L; [|discriminate].
    rewrite (into_code_under _ _ _ L). pose proof (with_lead_under kc kb _ _ _ E) as W. cbn iota in W. rewrite W. now apply read_code_under.
  - destruct (Ascii.eqb c nl); [apply end_line_under|now intros [= <-]].
  - now intros [= <-].
  - now intros [= <-].
  - destruct (Ascii.eqb c q); [now intros [= <-]|]. destruct (Ascii.eqb c nl); [discriminate|now intros [= <-]].
Qed.
Lemma read_under cxx kc kb c s s' : counts kc = true -> read cxx s c = Some s' -> read cxx (under kc kb s) c = Some (under kc kb s').
Proof.
  intros K. unfold read. change (t_place (under kc kb s)) with (t_place s). destruct (t_place s);
    try (destruct (Ascii.eqb c backslash); [now intros [= <-]|now apply read_char_under]).
  destruct (Ascii.eqb c nl); [now intros [= <-]|]. destruct p; try discriminate; try (now apply read_char_under). now intros [= <-].
Qed.
Lemma read_text_under cxx kc kb t s s' : counts kc = true -> read_text cxx s t = Some s' -> read_text cxx (under kc kb s) t = Some (under kc kb s').
Proof.
  intros K. revert s. induction t as [|c t IH]; intros s; cbn [read_text]; [now intros [= <-]|].
  destruct (read cxx s c) as [s1|] eqn:E; [|discriminate]. rewrite (read_under _ kc kb _ _ _ K E). apply IH.
Qed.
(** inside open conditionals and brackets *)
Definition within (kc : list cond) (kb : str) : state := mkstate Text Start kc kb.
Lemma closed_within cxx t kc kb : counts kc = true -> closed cxx t -> read_text cxx (within kc kb) t = Some (within kc kb).
Proof. intros K H. exact (read_text_under cxx kc kb t fresh fresh K H). Qed.

(* ------------------------------------------------------------ names that are not known *)

(** a text that has a character not in [__cplusplus] *)
Definition odd (w : str) : bool := existsb (fun c => negb (existsb (Ascii.eqb c) $"__cplusplus")) w.
Lemma odd_app a b : odd (a ++ b) = odd a || odd b.
Proof. apply existsb_app. Qed.
Lemma odd_not w : odd w = true -> str_eqb w $"__cplusplus" = false.
Proof. intros H. apply str_eqb_neq. intros ->. discriminate. Qed.
Lemma odd_some w : odd w = true -> w <> [].
Proof. intros H ->. discriminate. Qed.
(** the same state up to the name asked for *)
Definition sim_lead (a b : lead) : Prop := a = b \/ exists n v w, a = Asking n v /\ b = Asking n w /\ odd v = true /\ odd w = true.
Definition sim (a b : state) : Prop := t_place a = t_place b /\ sim_lead (t_lead a) (t_lead b) /\ t_conds a = t_conds b /\ t_open a = t_open b.
Lemma sim_refl a : sim a a.
Proof. repeat split. now left. Qed.
Lemma sim_cases a b : sim a b -> a = b \/ exists p n v w cs o, a = mkstate p (Asking n v) cs o /\ b = mkstate p (Asking n w) cs o /\ odd v = true /\ odd w = true.
Proof.
  intros (P & L & C & O). destruct a as [p l cs o], b as [p' l' cs' o']. cbn in *. subst p' cs' o'.
  destruct L as [-> | (n & v & w & -> & -> & V & W)]; [now left|]. right. now exists p, n, v, w, cs, o.
Qed.
Lemma sim_asking p n v w cs o : odd v = true -> odd w = true -> sim (mkstate p (Asking n v) cs o) (mkstate p (Asking n w) cs o).
Proof. intros V W. repeat split. right. now exists n, v, w. Qed.
Lemma sim_lead_eq a b l : sim a b -> t_lead a = l -> (forall n v, l <> Asking n v) -> a = b.
Proof. intros S L N. destruct (sim_cases a b S) as [E|(p & n & v & w & cs & o & -> & _)]; [exact E|]. cbn in L. now destruct (N n v). Qed.

Lemma read_sim cxx a b c a' : sim a b -> read cxx a c = Some a' -> exists b', read cxx b c = Some b' /\ sim a' b'.
Proof.
  intros S. destruct (sim_cases a b S) as [<- |(p & n & v & w & cs & o & -> & -> & V & W)].
  { intros H. exists a'. split; [exact H|apply sim_refl]. }
  unfold read. cbn [t_place]. unfold read_char.
  assert (CODE : forall a1, read_code cxx c (mkstate p (Asking n v) cs o) = Some a1 -> exists b1, read_code cxx c (mkstate p (Asking n w) cs o) = Some b1 /\ sim a1 b1).
  { intros a1. unfold read_code. destruct (is_ident c); cbn [t_lead t_conds t_open].
    - intros [= <-]. eexists. split; [reflexivity|]. apply sim_asking; rewrite odd_app; [now rewrite V|now rewrite W].
    - unfold end_word. cbn [t_lead]. destruct v as [|x v]; [discriminate|]. destruct w as [|y w]; [discriminate|].
      unfold asked. rewrite (odd_not _ V), (odd_not _ W). cbn [t_conds t_open]. intros H. exists a1. split; [exact H|apply sim_refl]. }
  assert (PLACE : forall q a1, Some (at_place q (mkstate p (Asking n v) cs o)) = Some a1 -> exists b1, Some (at_place q (mkstate p (Asking n w) cs o)) = Some b1 /\ sim a1 b1).
  { intros q a1 [= <-]. eexists. split; [reflexivity|]. now apply sim_asking. }
  destruct p; try (destruct (Ascii.eqb c backslash); [apply PLACE|]).
  - apply CODE.
  - destruct (Ascii.eqb c "*"); [apply PLACE|]. destruct (Ascii.eqb c "/"); [apply PLACE|]. discriminate.
  - destruct (Ascii.eqb c nl); [discriminate|apply PLACE].
  - apply PLACE.
  - apply PLACE.
  - destruct (Ascii.eqb c q); [apply PLACE|]. destruct (Ascii.eqb c nl); [discriminate|apply PLACE].
  - destruct (Ascii.eqb c nl); [apply PLACE|]. destruct p; try discriminate; try apply PLACE.
Qed.
Lemma read_text_sim cxx t a b a' : sim a b -> read_text cxx a t = Some a' -> exists b', read_text cxx b t = Some b' /\ sim a' b'.
Proof.
  revert a b. induction t as [|c t IH]; intros a b S; cbn [read_text]; [intros [= <-]; now exists b|].
  destruct (read cxx a c) as [a1|] eqn:E; [|discriminate]. destruct (read_sim _ _ _ _ _ S E) as (b1 & -> & S1). now apply IH.
Qed.

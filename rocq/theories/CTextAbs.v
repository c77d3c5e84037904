(** Proofs for C85: reading texts with unknown names and types. *)
From Coq Require Import Ascii String List Bool Arith Lia.
From Verif Require Import Str StrFacts Parse ParamNames Prefix Substitute SpecPrefix SpecSubstitute SpecTemplates SpecCText CTextProps.
Import ListNotations.

(* ------------------------------------------------------------ sets of states *)

Definition place_dec : forall a b : place, {a = b} + {a <> b}.
Proof. decide equality. apply ascii_dec. Defined.
Definition str_dec : forall a b : str, {a = b} + {a <> b} := list_eq_dec ascii_dec.
Definition lead_dec : forall a b : lead, {a = b} + {a <> b}.
Proof. decide equality; try apply str_dec; apply bool_dec. Defined.
Definition cond_dec : forall a b : cond, {a = b} + {a <> b}.
Proof. decide equality; try apply bool_dec; try apply str_dec. decide equality. apply str_dec. Defined.
Definition state_dec : forall a b : state, {a = b} + {a <> b}.
Proof. decide equality; [apply str_dec|apply list_eq_dec; exact cond_dec|apply lead_dec|apply place_dec]. Defined.

Fixpoint collect (f : state -> option (list state)) (l : list state) : option (list state) :=
  match l with
  | [] => Some []
  | a :: r => match f a, collect f r with Some x, Some y => Some (x ++ y) | _, _ => None end
  end.
Definition tidy (l : list state) : list state := match l with [] | [_] => l | _ => nodup state_dec l end.
Definition each (f : state -> option (list state)) (l : list state) : option (list state) :=
  match collect f l with Some r => Some (tidy r) | None => None end.
Definition covers (l : list state) (s : state) : Prop := exists a, In a l /\ sim a s.
(** [f] tells what can come of reading the text *)
Definition good (cxx : bool) (f : state -> option (list state)) (t : str) : Prop :=
  forall a l b, f a = Some l -> sim a b -> exists b', read_text cxx b t = Some b' /\ covers l b'.

Lemma collect_in f l a r : collect f l = Some r -> In a l -> exists x, f a = Some x /\ forall y, In y x -> In y r.
Proof.
  revert r. induction l as [|c l IH]; intros r; cbn [collect]; [intros _ []|].
  destruct (f c) as [x|] eqn:F; [|discriminate]. destruct (collect f l) as [y|]; [|discriminate]. intros [= <-] [-> |H].
  - exists x. split; [exact F|]. intros z Z. apply in_or_app. now left.
  - destruct (IH _ eq_refl H) as (x' & F' & I). exists x'. split; [exact F'|]. intros z Z. apply in_or_app. right. now apply I.
Qed.
Lemma tidy_in l a : In a l -> In a (tidy l).
Proof. destruct l as [|x [|y l]]; cbn [tidy]; try exact (fun H => H). apply nodup_In. Qed.
Lemma each_good cxx f t l r b : good cxx f t -> each f l = Some r -> covers l b -> exists b', read_text cxx b t = Some b' /\ covers r b'.
Proof.
  intros G E (a & I & S). unfold each in E. destruct (collect f l) as [x|] eqn:C; [|discriminate]. injection E as <-.
  destruct (collect_in _ _ _ _ C I) as (y & F & Y). destruct (G a y b F S) as (b' & R & (a' & I' & S')).
  exists b'. split; [exact R|]. exists a'. split; [apply tidy_in; now apply Y|exact S'].
Qed.

(* ------------------------------------------------------------ what can come of reading *)

Definition by_text (cxx : bool) (t : str) (a : state) : option (list state) := match read_text cxx a t with Some s => Some [s] | None => None end.
Definition set_lead (l : lead) (a : state) : state := mkstate (t_place a) l (t_conds a) (t_open a).
Definition quote (q : ascii) : bool := Ascii.eqb q dquote || Ascii.eqb q apostrophe.
(** a name *)
Definition by_name (a : state) : option (list state) :=
  match t_place a with
  | Text => match t_lead a with
            | Asking n w => if odd w then Some [a] else None
            | l => match into_code l with Some l' => Some [set_lead l' a] | None => None end
            end
  | LineComment | BlockComment => Some [a]
  | Literal q => if quote q then Some [a] else None
  | BlockStar => Some [at_place BlockComment a]
  | _ => None
  end.
(** a name ending in [r] *)
Definition by_suffix (r : str) (a : state) : option (list state) :=
  match t_place a, t_lead a with
  | Text, Asking n w => if odd r then Some [set_lead (Asking n r) a] else None
  | _, _ => by_name a
  end.
(** a declaration or type *)
Definition by_decl (a : state) : option (list state) :=
  match t_place a with
  | Text => match t_lead a with
            | Start => Some [a; set_lead Code a]
            | Code | Directive _ => Some [a]
            | _ => None
            end
  | LineComment => Some [a]
  | Literal q => if quote q then Some [a] else None
  | _ => None
  end.

Lemma by_text_good cxx t : good cxx (by_text cxx t) t.
Proof.
  intros a l b H S. unfold by_text in H. destruct (read_text cxx a t) as [a'|] eqn:E; [|discriminate]. injection H as <-.
  destruct (read_text_sim _ _ _ _ _ S E) as (b' & R & S'). exists b'. split; [exact R|]. exists a'. split; [now left|exact S'].
Qed.

Lemma ident_not c d : is_ident c = true -> is_ident d = false -> Ascii.eqb c d = false.
Proof. intros C D. apply Ascii.eqb_neq. intros ->. congruence. Qed.
(** places that stay the same whatever is read *)
Lemma stays_line cxx t l cs o : Forall (fun c => c <> nl /\ c <> backslash) t ->
  read_text cxx (mkstate LineComment l cs o) t = Some (mkstate LineComment l cs o).
Proof.
  induction 1 as [|c t (N & B) _ IH]; [reflexivity|]. cbn [read_text read t_place]. rewrite (proj2 (Ascii.eqb_neq _ _) B).
  cbn [read_char]. rewrite (proj2 (Ascii.eqb_neq _ _) N). exact IH.
Qed.
Lemma stays_block cxx t l cs o : Forall (fun c => c <> "*"%char /\ c <> backslash) t ->
  read_text cxx (mkstate BlockComment l cs o) t = Some (mkstate BlockComment l cs o).
Proof.
  induction 1 as [|c t (N & B) _ IH]; [reflexivity|]. cbn [read_text read t_place]. rewrite (proj2 (Ascii.eqb_neq _ _) B).
  cbn [read_char]. rewrite (proj2 (Ascii.eqb_neq _ _) N). exact IH.
Qed.
Lemma stays_literal cxx q t l cs o : Forall (fun c => c <> nl /\ c <> backslash /\ c <> q) t ->
  read_text cxx (mkstate (Literal q) l cs o) t = Some (mkstate (Literal q) l cs o).
Proof.
  induction 1 as [|c t (N & B & Q) _ IH]; [reflexivity|]. cbn [read_text read t_place]. rewrite (proj2 (Ascii.eqb_neq _ _) B).
  cbn [read_char]. rewrite (proj2 (Ascii.eqb_neq _ _) Q), (proj2 (Ascii.eqb_neq _ _) N). exact IH.
Qed.

Lemma ident_plain c : is_ident c = true -> c <> nl /\ c <> backslash /\ c <> "*"%char /\ c <> dquote /\ c <> apostrophe /\ c <> "/"%char.
Proof. intros H. repeat split; intros ->; discriminate. Qed.
Lemma decl_plain c : declaration_char c = true -> c <> nl /\ c <> backslash /\ c <> dquote /\ c <> apostrophe.
Proof. intros H. repeat split; intros ->; discriminate. Qed.

(** reading a name in code *)
Lemma name_in_code cxx t l l' cs o : ident_text t -> t <> [] -> into_code l = Some l' ->
  read_text cxx (mkstate Text l cs o) t = Some (mkstate Text l' cs o).
Proof.
  intros H N I. assert (K : forall l, (l = Code \/ exists d, l = Directive d) -> forall t, ident_text t -> read_text cxx (mkstate Text l cs o) t = Some (mkstate Text l cs o)).
  { clear. intros l L. induction 1 as [|c t C _ IH]; [reflexivity|]. cbn [read_text read t_place].
    rewrite (ident_not c backslash C eq_refl). cbn [read_char]. unfold read_code. rewrite C. cbn [t_lead].
    destruct L as [-> | (d & ->)]; exact IH. }
  destruct H as [|c t C H]; [now destruct N|]. cbn [read_text read t_place]. rewrite (ident_not c backslash C eq_refl). cbn [read_char]. unfold read_code. rewrite C.
  cbn [t_lead]. assert (L : l' = Code \/ exists d, l' = Directive d) by (destruct l; try discriminate; injection I as <-; eauto).
  destruct l; try discriminate; cbn in *; injection I as <-; now apply K.
Qed.
Lemma name_asked cxx t n w cs o : ident_text t -> read_text cxx (mkstate Text (Asking n w) cs o) t = Some (mkstate Text (Asking n (w ++ t)) cs o).
Proof.
  intros H. revert w. induction H as [|c t C _ IH]; intros w; [now rewrite app_nil_r|]. cbn [read_text read t_place].
  rewrite (ident_not c backslash C eq_refl). cbn [read_char]. unfold read_code. rewrite C. cbn [t_lead t_conds t_open]. rewrite IH, <- app_assoc. reflexivity.
Qed.

Lemma quotes q : quote q = true -> q = dquote \/ q = apostrophe.
Proof. unfold quote. intros H. apply orb_true_iff in H as [H|H]; apply Ascii.eqb_eq in H; auto. Qed.
Lemma covers_one a : covers [a] a.
Proof. exists a. split; [now left|apply sim_refl]. Qed.
Lemma covers_sim a b : sim a b -> covers [a] b.
Proof. intros S. exists a. split; [now left|exact S]. Qed.

(** texts in comments and literals *)
Lemma name_good cxx t : ident_text t -> t <> [] -> good cxx by_name t.
Proof.
  intros H N a l b E S. assert (IP : Forall (fun c => c <> nl /\ c <> backslash /\ c <> "*"%char /\ c <> dquote /\ c <> apostrophe /\ c <> "/"%char) t)
    by (revert H; apply Forall_impl; exact ident_plain).
  destruct b as [p' l' cs' o']. destruct a as [p ld cs o]. destruct S as (P & L & C & O). cbn in P, L, C, O. subst p' cs' o'. unfold by_name in E. cbn [t_place t_lead] in E.
  destruct p; try discriminate.
  - destruct ld as [| |w|n w| |d]; cbn [into_code] in E; try discriminate.
    + injection E as <-. destruct L as [<- |(n & v & w & Q & _)]; [|discriminate]. eexists. split; [apply (name_in_code cxx t _ Code); auto|apply covers_one].
    + destruct (odd w) eqn:OW; [|discriminate]. injection E as <-.
      assert (exists w', l' = Asking n w' /\ odd w' = true) as (w' & -> & OW') by (destruct L as [<- |(n1 & v & w' & [= <- <-] & -> & _ & W)]; eauto).
      eexists. split; [now apply name_asked|]. apply covers_sim, sim_asking; [exact OW|]. now rewrite odd_app, OW'.
    + injection E as <-. destruct L as [<- |(n & v & w & Q & _)]; [|discriminate]. eexists. split; [apply (name_in_code cxx t _ Code); auto|apply covers_one].
    + injection E as <-. destruct L as [<- |(n & v & w & Q & _)]; [|discriminate]. eexists. split; [apply (name_in_code cxx t _ (Directive d)); auto|apply covers_one].
  - injection E as <-. eexists. split; [apply stays_line; revert IP; apply Forall_impl; tauto|]. apply covers_sim. split; [reflexivity|]. split; [exact L|now split].
  - injection E as <-. eexists. split; [apply stays_block; revert IP; apply Forall_impl; tauto|]. apply covers_sim. split; [reflexivity|]. split; [exact L|now split].
  - injection E as <-. destruct IP as [|c t IC IP]; [now destruct N|]. cbn [read_text read t_place].
    assert (NB : Ascii.eqb c backslash = false) by (apply Ascii.eqb_neq; tauto). assert (NS : Ascii.eqb c "/" = false) by (apply Ascii.eqb_neq; tauto).
    assert (NA : Ascii.eqb c "*" = false) by (apply Ascii.eqb_neq; tauto). rewrite NB. cbn [read_char]. rewrite NS, NA.
    eexists. split; [apply stays_block; revert IP; apply Forall_impl; tauto|]. apply covers_sim. split; [reflexivity|]. split; [exact L|now split].
  - destruct (quote q) eqn:Q; [|discriminate]. injection E as <-. apply quotes in Q.
    eexists. split; [apply stays_literal; revert IP; apply Forall_impl; intros x X; destruct Q as [-> | ->]; tauto|].
    apply covers_sim. split; [reflexivity|]. split; [exact L|now split].
Qed.
Lemma suffix_good cxx p r : ident_text (p ++ r) -> p ++ r <> [] -> good cxx (by_suffix r) (p ++ r).
Proof.
  intros H N a l b E S. unfold by_suffix in E.
  assert (K : by_name a = Some l -> exists b', read_text cxx b (p ++ r) = Some b' /\ covers l b') by (intros K; exact (name_good cxx _ H N a l b K S)).
  destruct (t_place a) eqn:P; auto. destruct (t_lead a) as [| |w|n w| |d] eqn:L; auto.
  destruct (odd r) eqn:R; [|discriminate]. injection E as <-.
  destruct a as [pa la cs o], b as [pb lb cs' o']. destruct S as (P' & L' & C' & O'). cbn in P, L, P', L', C', O'. subst pa la pb cs' o'.
  assert (exists w', lb = Asking n w') as (w' & ->) by (destruct L' as [<- |(n1 & v & w' & [= <- <-] & -> & _)]; eauto).
  eexists. split; [now apply name_asked|]. apply covers_sim. cbn [set_lead t_place t_conds t_open]. apply sim_asking; [exact R|]. now rewrite !odd_app, R, !orb_true_r.
Qed.

(** declarations *)
Lemma ident_bracket c o : is_ident c = true -> bracket c o = Some o.
Proof. destruct c as [[] [] [] [] [] [] [] []]; try reflexivity; discriminate. Qed.
Definition read_lead (t : str) (l : lead) : lead := match l with Start => if forallb (Ascii.eqb sp) t then Start else Code | l => l end.
(** brackets, if they count *)
Definition bracket_if (b : bool) (c : ascii) (o : str) : option str := if b then bracket c o else Some o.
Fixpoint brackets_if (b : bool) (t : str) (o : str) : option str :=
  match t with
  | [] => Some o
  | c :: r => match bracket_if b c o with Some o' => brackets_if b r o' | None => None end
  end.
Lemma ident_bracket_if b c o : is_ident c = true -> bracket_if b c o = Some o.
Proof. intros H. destruct b; [now apply ident_bracket|reflexivity]. Qed.
Lemma brackets_if_true t o : brackets_if true t o = brackets t o.
Proof. revert o. induction t as [|c t IH]; intros o; [reflexivity|]. cbn [brackets_if brackets]. unfold bracket_if. destruct (bracket c o); [apply IH|reflexivity]. Qed.
Lemma brackets_if_false t o : brackets_if false t o = Some o.
Proof. induction t as [|c t IH]; [reflexivity|]. exact IH. Qed.
Lemma decl_in_code cxx t l cs o o' : declaration_text t -> brackets_if (counts cs) t o = Some o' -> (l = Start \/ l = Code \/ exists d, l = Directive d) ->
  read_text cxx (mkstate Text l cs o) t = Some (mkstate Text (read_lead t l) cs o').
Proof.
  intros H. revert l o. induction H as [|c t C _ IH]; intros l o B L.
  { injection B as <-. cbn [read_text]. f_equal. destruct l; reflexivity. }
  cbn [brackets_if] in B. destruct (bracket_if (counts cs) c o) as [o1|] eqn:O; [|discriminate].
  destruct (decl_plain c C) as (N1 & N2 & N3 & N4). cbn [read_text read t_place]. rewrite (proj2 (Ascii.eqb_neq _ _) N2). cbn [read_char].
  assert (NS : (l = Code \/ exists d, l = Directive d) -> forall u, read_lead u l = l) by (intros [-> | (d & ->)] u; reflexivity).
  unfold read_code. cbn [t_lead t_conds t_open]. destruct (is_ident c) eqn:ID.
  - rewrite (ident_bracket_if _ c o ID) in O. injection O as <-.
    assert (SP : Ascii.eqb sp c = false) by (rewrite Ascii.eqb_sym; now apply ident_not).
    destruct L as [-> |[-> | (d & ->)]]; cbn [with_lead into_code t_conds t_open].
    + rewrite (IH Code o B) by auto. cbn [read_lead forallb]. now rewrite SP.
    + exact (IH Code o B (or_intror (or_introl eq_refl))).
    + exact (IH (Directive d) o B (or_intror (or_intror (ex_intro _ d eq_refl)))).
  - unfold end_word. cbn [t_lead]. replace (match l with Word w => directive_read w (mkstate Text l cs o) | Asking n (x :: w) => asked cxx n (x :: w) (mkstate Text l cs o) | _ => Some (mkstate Text l cs o) end) with (Some (mkstate Text l cs o)) by (destruct L as [-> |[-> | (d & ->)]]; reflexivity).
    rewrite (proj2 (Ascii.eqb_neq _ _) N1). destruct (is_space c) eqn:SPC.
    + assert (c = sp) as ->. { unfold is_space in SPC. apply orb_true_iff in SPC as [E|E]; apply Ascii.eqb_eq in E; [exact E|]. subst c. discriminate. }
      assert (o1 = o) as -> by (unfold bracket_if in O; destruct (counts cs); now injection O as <-). unfold at_place; cbn [t_lead t_conds t_open]. rewrite (IH l o B L). reflexivity.
    + assert (E1 : Ascii.eqb c "#" = false) by (apply Ascii.eqb_neq; intros ->; discriminate). assert (E2 : Ascii.eqb c "/" = false) by (apply Ascii.eqb_neq; intros ->; discriminate).
      assert (SP : Ascii.eqb sp c = false). { apply Ascii.eqb_neq. intros <-. discriminate. }
      rewrite E1, E2. rewrite (proj2 (Ascii.eqb_neq _ _) N3), (proj2 (Ascii.eqb_neq _ _) N4). cbn [orb t_lead t_conds t_open].
      destruct L as [-> |[-> | (d & ->)]]; cbn [into_code]; match goal with |- context[counting ?x] => change (if counting x then bracket c o else Some o) with (bracket_if (counts cs) c o) end; rewrite O.
      * rewrite (IH Code o1 B) by auto. cbn [read_lead forallb]. now rewrite SP.
      * exact (IH Code o1 B (or_intror (or_introl eq_refl))).
      * exact (IH (Directive d) o1 B (or_intror (or_intror (ex_intro _ d eq_refl)))).
Qed.
Lemma brackets_under t kb o o' : brackets t o = Some o' -> brackets t (o ++ kb) = Some (o' ++ kb).
Proof.
  revert o. induction t as [|c t IH]; intros o; cbn [brackets]; [now intros [= <-]|]. destruct (bracket c o) as [o1|] eqn:E; [|discriminate].
  rewrite (bracket_under _ _ _ _ E). apply IH.
Qed.
Lemma matched_any b t o : matched t -> brackets_if b t o = Some o.
Proof. intros H. destruct b; [rewrite brackets_if_true; exact (brackets_under t o [] [] H)|apply brackets_if_false]. Qed.
Lemma decl_good cxx t : declaration_text t -> matched t -> good cxx by_decl t.
Proof.
  intros H M a l b E S. assert (DP : Forall (fun c => c <> nl /\ c <> backslash /\ c <> dquote /\ c <> apostrophe) t)
    by (revert H; apply Forall_impl; exact decl_plain).
  destruct b as [p' l' cs' o']. destruct a as [p ld cs o]. destruct S as (P & L & C & O). cbn in P, L, C, O. subst p' cs' o'. unfold by_decl in E. cbn [t_place t_lead] in E.
  destruct p; try discriminate.
  - assert (l' = ld) as ->. { destruct L as [<- |(n & v & w & -> & _)]; [reflexivity|discriminate]. }
    assert (ld = Start \/ ld = Code \/ exists d, ld = Directive d) as L3 by (destruct ld; try discriminate; eauto).
    eexists. split; [apply decl_in_code; [exact H|now apply matched_any|exact L3]|].
    destruct L3 as [-> |[-> | (d & ->)]]; injection E as <-; [|apply covers_one|apply covers_one].
    cbn [read_lead]. destruct (forallb (Ascii.eqb sp) t); eexists; (split; [|apply sim_refl]); [now left|right; now left].
  - injection E as <-. eexists. split; [apply stays_line; revert DP; apply Forall_impl; tauto|]. apply covers_sim. split; [reflexivity|]. split; [exact L|now split].
  - destruct (quote q) eqn:Q; [|discriminate]. injection E as <-. apply quotes in Q.
    eexists. split; [apply stays_literal; revert DP; apply Forall_impl; intros x X; destruct Q as [-> | ->]; tauto|].
    apply covers_sim. split; [reflexivity|]. split; [exact L|now split].
Qed.

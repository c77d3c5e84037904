(** Facts about filling placeholders. *)
From Coq Require Import Ascii String List Bool Arith Lia.
From Verif Require Import Str StrFacts SpecFormat FormatFacts Parse ParamNames Substitute SpecSubstitute.
Import ListNotations.

Definition pct : ascii := "%".

Lemma hole_name_ident h : Forall (fun c => is_ident c = true) (hole_name h) /\ hole_name h <> [].
Proof. destruct h; (split; [repeat constructor|discriminate]). Qed.
Lemma hole_name_pct h : ~ In pct (hole_name h).
Proof. intro H. destruct (hole_name_ident h) as [F _]. rewrite Forall_forall in F. apply F in H. discriminate. Qed.
Lemma hole_name_inj h g : hole_name h = hole_name g -> h = g.
Proof. destruct h, g; (reflexivity || discriminate). Qed.

(** cutting at the first percent sign *)
Lemma pct_cut a b x y : ~ In pct a -> ~ In pct b -> a ++ pct :: x = b ++ pct :: y -> a = b /\ x = y.
Proof.
  intros Ha. revert b. induction a as [|c a IH]; intros b Hb E; destruct b as [|d b]; cbn [app] in E.
  - now injection E.
  - injection E as <- _. exfalso. apply Hb. now left.
  - injection E as -> _. exfalso. apply Ha. now left.
  - injection E as -> E. destruct (IH (fun X => Ha (or_intror X)) b (fun X => Hb (or_intror X)) E) as [-> ->]. easy.
Qed.

Lemma line_ok_loose l : line_ok true l -> line_ok false l.
Proof.
  destruct l as [|[s|h] r]; cbn [line_ok]; auto; [|easy]. intros [H1 H2]. split; [easy|]. cbn [andb] in *.
  destruct (forallb is_ident s); [|easy]. revert H2. clear. induction r as [|[s|h] r IH]; cbn [line_ok]; auto; [|easy].
  intros [H1 H2]. split; [easy|]. cbn [andb] in *. destruct (forallb is_ident s); [now apply IH|easy].
Qed.
Lemma line_ok_any b l : line_ok b l -> line_ok false l.
Proof. destruct b; [apply line_ok_loose|easy]. Qed.

(** behind a placeholder no word is followed by a percent sign *)
Lemma tight_no_pct l : line_ok true l -> forall k b, Forall (fun c => is_ident c = true) k -> line_text l <> k ++ pct :: b.
Proof.
  induction l as [|[s|h] r IH]; cbn [line_ok]; intros H k b Hk E.
  - destruct k; discriminate.
  - destruct H as [Hs H]. cbn [line_text map concat part_text] in E. fold (line_text r) in E.
    assert (P : exists k', k = s ++ k' /\ line_text r = k' ++ pct :: b).
    { clear - Hs E. revert k E. induction s as [|c s IHs]; intros k E; [now exists k|]. destruct k as [|d k]; cbn [app] in E.
      - injection E as -> _. exfalso. apply Hs. now left.
      - injection E as -> E. destruct (IHs (fun X => Hs (or_intror X)) k E) as (k' & -> & E'). now exists k'. }
    destruct P as (k' & -> & E'). apply Forall_app in Hk as [Hk1 Hk2].
    assert (F : forallb is_ident s = true) by (apply forallb_forall; now rewrite Forall_forall in Hk1).
    rewrite F in H. now apply (IH H k' b Hk2).
  - easy.
Qed.

(** where the text of a placeholder can be found *)
Lemma hole_occurrence g b : forall l t a, line_ok t l -> line_text l = a ++ hole_text g ++ b ->
  exists pre post, l = pre ++ Hole g :: post /\ a = line_text pre /\ b = line_text post.
Proof.
  induction l as [|p r IH]; intros t a H E.
  - exfalso. cbn in E. destruct a; discriminate.
  - destruct p as [s|h]; cbn [line_ok line_text map concat part_text] in *; fold (line_text r) in E.
    + destruct H as [Hs H].
      assert (P : exists a', a = s ++ a' /\ line_text r = a' ++ hole_text g ++ b).
      { clear - Hs E. revert a E. induction s as [|c s IHs]; intros a E; [now exists a|]. destruct a as [|d a]; cbn [app] in E.
        - unfold hole_text in E. cbn [lit list_ascii_of_string app] in E. injection E as -> _. exfalso. apply Hs. now left.
        - injection E as -> E. destruct (IHs (fun X => Hs (or_intror X)) a E) as (a' & -> & E'). now exists a'. }
      destruct P as (a' & -> & E'). destruct (IH _ a' H E') as (pre & post & -> & -> & ->).
      exists (Lit s :: pre), post. repeat split; easy.
    + destruct H as [_ H]. unfold hole_text in E. cbn [lit list_ascii_of_string] in E. rewrite <- !app_assoc in E. cbn [app] in E.
      destruct (hole_name_ident h) as [Hh Nh]. destruct (hole_name_ident g) as [Hg Ng].
      pose proof (hole_name_pct h) as Ph. pose proof (hole_name_pct g) as Pg.
      destruct a as [|x a]; cbn [app] in E.
      * injection E as E. apply pct_cut in E as [E1 E2]; auto. injection E2 as E2. apply hole_name_inj in E1. subst h.
        exists [], r. repeat split; auto.
      * injection E as <- E. destruct a as [|x a]; cbn [app] in E.
        { exfalso. injection E as E. destruct (hole_name h) as [|c n]; [easy|]. cbn [app] in E. injection E as E _.
          apply Ph. left. easy. }
        injection E as <- E.
        (* a' against the name *)
        assert (P : exists a', a = hole_name h ++ a' /\ pct :: pct :: line_text r = a' ++ pct :: pct :: hole_name g ++ pct :: pct :: b).
        { clear - E Ph. revert a E. induction (hole_name h) as [|c n IHn]; intros a E; [now exists a|]. destruct a as [|d a]; cbn [app] in E.
          - injection E as -> _. exfalso. apply Ph. now left.
          - injection E as -> E. destruct (IHn (fun X => Ph (or_intror X)) a E) as (a' & -> & E'). now exists a'. }
        destruct P as (a' & -> & E'). clear E. destruct a' as [|x a']; cbn [app] in E'.
        { exfalso. injection E' as E'. now apply (tight_no_pct r H) in E'. }
        injection E' as <- E'. destruct a' as [|x a']; cbn [app] in E'.
        { exfalso. injection E' as E'. now apply (tight_no_pct r H [] _ (Forall_nil _)) in E'. }
        injection E' as <- E'.
        destruct (IH true a' H) as (pre & post & -> & -> & ->).
        { rewrite E'. unfold hole_text. cbn [lit list_ascii_of_string app]. now rewrite <- !app_assoc. }
        exists (Hole h :: pre), post. split; [easy|]. split; [|easy].
        cbn [line_text map concat part_text]. unfold hole_text. cbn [lit list_ascii_of_string app]. now rewrite <- !app_assoc.
Qed.

Lemma line_text_app a b : line_text (a ++ b) = line_text a ++ line_text b.
Proof. unfold line_text. now rewrite map_app, concat_app. Qed.
Lemma line_text_cons p l : line_text (p :: l) = part_text p ++ line_text l.
Proof. reflexivity. Qed.

(* ---------------------------------------------------------------- one replacement step *)

Definition hole_dec (h g : hole) : {h = g} + {h <> g}.
Proof. decide equality. Defined.
Definition is_hole (g : hole) (p : part) : bool := match p with Hole h => if hole_dec h g then true else false | Lit _ => false end.

(** [v] in all places of [g] *)
Definition put (g : hole) (v : str) (l : list part) : list part := map (fun p => if is_hole g p then Lit v else p) l.

(** drop one blank at the start of the text of [l] if it begins with a literal blank *)
Fixpoint unspace (l : list part) : option (list part) :=
  match l with
  | Lit [] :: r => match unspace r with Some r' => Some (Lit [] :: r') | None => None end
  | Lit (c :: s) :: r => if Ascii.eqb c sp then Some (Lit s :: r) else None
  | _ => None
  end.
Lemma unspace_text l r : unspace l = Some r -> line_text l = sp :: line_text r.
Proof.
  revert r. induction l as [|[s|h] l IH]; intros r H; cbn [unspace] in H; try discriminate. destruct s as [|c s].
  - destruct (unspace l) as [r'|]; [|discriminate]. injection H as <-. rewrite !line_text_cons. cbn [part_text app]. now apply IH.
  - destruct (Ascii.eqb_spec c sp) as [->|]; [|discriminate]. injection H as <-. reflexivity.
Qed.
Lemma unspace_None l b : line_ok true l -> unspace l = None -> line_text l <> sp :: b.
Proof.
  revert b. induction l as [|[s|h] l IH]; intros b H E; cbn [unspace line_ok] in *; try easy. destruct s as [|c s].
  - destruct H as [_ H]. cbn [forallb andb] in H. rewrite line_text_cons. cbn [part_text app].
    destruct (unspace l); [discriminate|]. now apply IH.
  - destruct (Ascii.eqb_spec c sp) as [->|N]; [discriminate|]. rewrite line_text_cons. cbn [part_text app]. intro X. injection X as X _. congruence.
Qed.
Lemma unspace_ok l r : line_ok true l -> unspace l = Some r -> line_ok false r.
Proof.
  revert r. induction l as [|[s|h] l IH]; intros r H E; cbn [unspace line_ok] in *; try discriminate. destruct s as [|c s].
  - destruct H as [_ H]. cbn [forallb andb] in H. destruct (unspace l) as [r'|]; [|discriminate]. injection E as <-.
    cbn [line_ok andb]. split; [easy|]. now apply IH.
  - destruct (Ascii.eqb_spec c sp) as [->|]; [|discriminate]. injection E as <-. destruct H as [Hs H]. cbn [line_ok andb].
    split; [intro X; apply Hs; now right|]. cbn [forallb andb] in H. exact H.
Qed.

(** first part of a list that satisfies a test on the part and its rest *)
Lemma first_split {A} (P : A -> list A -> Prop) (dec : forall a r, {P a r} + {~ P a r}) : forall l,
  (exists pre a post, l = pre ++ a :: post /\ P a post /\ forall p1 x p2, pre = p1 ++ x :: p2 -> ~ P x (p2 ++ a :: post)) \/
  (forall pre a post, l = pre ++ a :: post -> ~ P a post).
Proof.
  induction l as [|x l IH].
  - right. intros [|y pre] a post E; discriminate.
  - destruct (dec x l) as [H|H].
    + left. exists [], x, l. split; [easy|]. split; [easy|]. intros [|y p1] z p2 E; discriminate.
    + destruct IH as [(pre & a & post & -> & Ha & Hm)|Hn].
      * left. exists (x :: pre), a, post. split; [easy|]. split; [easy|]. intros [|y p1] z p2 E; cbn [app] in E; injection E as <- E.
        -- now subst p2.
        -- now apply (Hm p1 z p2).
      * right. intros [|y pre] a post E; cbn [app] in E; injection E as <- E; [now subst l|]. now apply (Hn pre a post).
Qed.

Lemma line_ok_split t pre h post : line_ok t (pre ++ Hole h :: post) -> line_ok true post /\
  forall x, (forall b, line_ok true post -> b = false -> line_ok b x) -> line_ok t (pre ++ x).
Proof.
  revert t. induction pre as [|[s|g] pre IH]; intros t H; cbn [app line_ok] in *.
  - destruct H as [-> H]. split; [easy|]. intros x Hx. now apply Hx.
  - destruct H as [Hs H]. destruct (IH _ H) as [I1 I2]. split; [easy|]. intros x Hx. split; [easy|]. now apply I2.
  - destruct H as [-> H]. destruct (IH _ H) as [I1 I2]. split; [easy|]. intros x Hx. split; [easy|]. now apply I2.
Qed.

Lemma find_first from s a : (exists b, s = a ++ from ++ b) -> (forall x y, s = x ++ from ++ y -> length a <= length x) ->
  find from s = Some (length a).
Proof.
  intros (b & ->) H. pose proof (find_spec from (a ++ from ++ b)) as K. destruct (find from (a ++ from ++ b)) as [k|].
  - destruct K as [(x & y & E & <-) M]. specialize (M a b eq_refl). specialize (H x y E). f_equal. lia.
  - now specialize (K a b).
Qed.

(** number of places of [g] *)
Definition places (g : hole) (l : list part) : nat := length (filter (is_hole g) l).
Lemma places_app g a b : places g (a ++ b) = places g a + places g b.
Proof. unfold places. now rewrite filter_app, app_length. Qed.
Lemma is_hole_self g : is_hole g (Hole g) = true.
Proof. unfold is_hole. now destruct (hole_dec g g). Qed.
Lemma is_hole_true g p : is_hole g p = true -> p = Hole g.
Proof. destruct p as [s|h]; [discriminate|]. cbn [is_hole]. destruct (hole_dec h g); [congruence|discriminate]. Qed.

Lemma put_none g v l : places g l = 0 -> put g v l = l.
Proof.
  unfold places, put. induction l as [|p l IH]; [easy|]. cbn [filter map]. destruct (is_hole g p); [discriminate|]. intro H. now rewrite IH.
Qed.
Lemma put_app g v a b : put g v (a ++ b) = put g v a ++ put g v b.
Proof. apply map_app. Qed.

Lemma line_ok_put g v t l : ~ In pct v -> line_ok t l -> line_ok t (put g v l).
Proof.
  intro Hv. revert t. induction l as [|p l IH]; intros t H; [easy|]. cbn [put map]. fold (put g v l).
  destruct (is_hole g p) eqn:E.
  - apply is_hole_true in E. subst p. cbn [line_ok] in *. destruct H as [-> H]. split; [easy|]. apply IH. cbn [andb]. now apply line_ok_loose.
  - destruct p as [s|h]; cbn [line_ok] in *; (split; [easy|]); now apply IH.
Qed.

Lemma occurrence_split g l t : line_ok t l -> forall a b, line_text l = a ++ hole_text g ++ b ->
  exists pre post, l = pre ++ Hole g :: post /\ a = line_text pre /\ b = line_text post.
Proof. intros H a b. now apply (hole_occurrence g b l t a). Qed.

Lemma part_text_len pre (p : part) post q : pre ++ p :: post = q -> length (line_text pre) <= length (line_text q).
Proof. intros <-. rewrite line_text_app, app_length. lia. Qed.

Lemma split_order {A} (l : list A) p1 x p2 q1 y q2 : l = p1 ++ x :: p2 -> l = q1 ++ y :: q2 -> length p1 < length q1 ->
  exists z, q1 = p1 ++ x :: z /\ p2 = z ++ y :: q2.
Proof.
  intros ->. revert q1. induction p1 as [|a p1 IH]; intros [|b q1] E H; cbn [length app] in *; try lia.
  - injection E as <- E. now exists q1.
  - injection E as <- E. destruct (IH q1 E) as (z & -> & ->); [lia|]. now exists z.
Qed.
Lemma split_le {A} (l : list A) p1 x p2 q1 y q2 : l = p1 ++ x :: p2 -> l = q1 ++ y :: q2 -> length q1 <= length p1 ->
  (exists z, p1 = q1 ++ z).
Proof.
  intros ->. revert q1. induction p1 as [|a p1 IH]; intros [|b q1] E H; cbn [length app] in *; try lia.
  - now exists [].
  - now exists (a :: p1).
  - injection E as <- E. destruct (IH q1 E) as (z & ->); [lia|]. now exists z.
Qed.

(** a general round: the pattern is [hole_text g] followed by [suf]; a place of [g] fits if its rest passes [next] *)
Section Rounds.
  Variables (g : hole) (v suf : str) (next : list part -> option (list part)).
  Hypothesis Hv : ~ In pct v.
  Hypothesis next_text : forall l r, next l = Some r -> line_text l = suf ++ line_text r.
  Hypothesis next_None : forall l b, line_ok true l -> next l = None -> line_text l <> suf ++ b.
  Hypothesis next_ok : forall l r, line_ok true l -> next l = Some r -> line_ok false r.
  Hypothesis next_places : forall l r, next l = Some r -> places g r = places g l.

  Definition fits (p : part) (r : list part) : Prop := is_hole g p = true /\ next r <> None.
  Lemma fits_dec p r : {fits p r} + {~ fits p r}.
  Proof.
    unfold fits. destruct (is_hole g p); [|right; intros [H _]; discriminate]. destruct (next r); [now left|].
    right. intros [_ H]. now apply H.
  Qed.

  Lemma find_round t l pre post r' : line_ok t l -> l = pre ++ Hole g :: post -> next post = Some r' ->
    (forall p1 x p2, pre = p1 ++ x :: p2 -> ~ fits x (p2 ++ Hole g :: post)) ->
    find (hole_text g ++ suf) (line_text l) = Some (length (line_text pre)).
  Proof.
    intros Ht El Hn Hm. apply find_first.
    - exists (line_text r'). subst l. rewrite line_text_app, line_text_cons. cbn [part_text]. rewrite (next_text _ _ Hn).
      now rewrite <- !app_assoc.
    - intros x y E. rewrite <- app_assoc in E. destruct (occurrence_split g l t Ht _ _ E) as (q1 & q2 & El' & -> & E2).
      destruct (le_lt_dec (length pre) (length q1)) as [L|L].
      + destruct (split_le l q1 (Hole g) q2 pre (Hole g) post El' El L) as (z & ->). rewrite line_text_app, app_length. lia.
      + exfalso. destruct (split_order l q1 (Hole g) q2 pre (Hole g) post El' El L) as (z & -> & ->).
        apply (Hm q1 (Hole g) z eq_refl). split; [apply is_hole_self|]. intro N.
        assert (O : line_ok true (z ++ Hole g :: post)). { rewrite El' in Ht. now apply line_ok_split in Ht as [Ht _]. }
        now apply (next_None _ y O N).
  Qed.
  Lemma find_no_round t l : line_ok t l -> (forall pre a post, l = pre ++ a :: post -> ~ fits a post) ->
    find (hole_text g ++ suf) (line_text l) = None.
  Proof.
    intros Ht Hm. apply find_None. intros x y E. rewrite <- app_assoc in E.
    destruct (occurrence_split g l t Ht _ _ E) as (q1 & q2 & El & -> & E2).
    apply (Hm q1 (Hole g) q2 El). split; [apply is_hole_self|]. intro N.
    assert (O : line_ok true q2). { rewrite El in Ht. now apply line_ok_split in Ht as [Ht _]. }
    now apply (next_None _ y O N).
  Qed.
  Lemma round_ok t l pre post r' : line_ok t l -> l = pre ++ Hole g :: post -> next post = Some r' -> line_ok t (pre ++ Lit v :: r').
  Proof.
    intros Ht -> Hn. apply line_ok_split in Ht as [Hp Hx]. apply Hx. intros b Hb ->. cbn [line_ok andb]. split; [easy|]. now apply (next_ok post).
  Qed.

  (** the replacement loop ends in a line in which no place fits, reached by replacing fitting places *)
  Inductive step : list part -> list part -> Prop :=
  | Step pre post r' : next post = Some r' -> step (pre ++ Hole g :: post) (pre ++ Lit v :: r').
  Inductive steps : list part -> list part -> Prop :=
  | StepsDone l : (forall pre a post, l = pre ++ a :: post -> ~ fits a post) -> steps l l
  | StepsMore l m n : step l m -> steps m n -> steps l n.

  Lemma replace_steps f : forall t l, line_ok t l -> places g l <= f ->
    exists l', replace_fuel f (hole_text g ++ suf) v (line_text l) = Some (line_text l') /\ steps l l' /\ line_ok t l'.
  Proof.
    induction f as [|f IH]; intros t l Ht Hp; cbn [replace_fuel].
    - assert (N : forall pre a post, l = pre ++ a :: post -> ~ fits a post).
      { intros pre a post -> [H _]. apply is_hole_true in H. subst a. rewrite places_app in Hp. unfold places at 2 in Hp.
        cbn [filter] in Hp. rewrite is_hole_self in Hp. cbn [length] in Hp. lia. }
      rewrite (find_no_round t l Ht N). exists l. split; [easy|]. split; [now constructor|easy].
    - destruct (first_split fits fits_dec l) as [(pre & a & post & El & Ha & Hm)|N].
      + pose proof Ha as [H1 H2]. apply is_hole_true in H1. subst a. destruct (next post) as [r'|] eqn:Hn; [|easy].
        rewrite (find_round t l pre post r' Ht El Hn Hm).
        assert (E : replace_at (length (line_text pre)) (length (hole_text g ++ suf)) v (line_text l) = line_text (pre ++ Lit v :: r')).
        { subst l. rewrite !line_text_app, !line_text_cons. cbn [part_text]. rewrite (next_text _ _ Hn), (app_assoc (hole_text g)). apply replace_at_split. }
        rewrite E. pose proof (round_ok t l pre post r' Ht El Hn) as Ht'. destruct (IH t _ Ht') as (l' & R1 & R2 & R3).
        { subst l. rewrite !places_app in *. change (Hole g :: post) with ([Hole g] ++ post) in Hp. change (Lit v :: r') with ([Lit v] ++ r').
          rewrite places_app in Hp. rewrite places_app. rewrite (next_places _ _ Hn). unfold places in Hp at 2. cbn [filter] in Hp. rewrite is_hole_self in Hp.
          cbn [length] in Hp. unfold places at 2. cbn [filter is_hole length]. lia. }
        exists l'. split; [easy|]. split; [|easy]. subst l. exact (StepsMore _ _ _ (Step pre post r' Hn) R2).
      + rewrite (find_no_round t l Ht N). exists l. split; [easy|]. split; [now constructor|easy].
  Qed.
End Rounds.

Lemma places_le g l : places g l <= length (line_text l).
Proof.
  unfold places. induction l as [|p l IH]; [easy|]. cbn [filter]. rewrite line_text_cons, app_length. destruct (is_hole g p) eqn:E; cbn [length]; [|lia].
  apply is_hole_true in E. subst p. cbn [part_text]. unfold hole_text. rewrite app_length. cbn [length lit list_ascii_of_string]. lia.
Qed.

(* ---------------------------------------------------------------- what a replacement does to the filled line *)

Lemma fill_context V E g post x : forall pre t e, line_ok t (pre ++ Hole g :: post) -> (e = true -> t = true) ->
  fill V E false (Hole g :: post) = fill V E false x -> fill V E e (pre ++ Hole g :: post) = fill V E e (pre ++ x).
Proof.
  induction pre as [|[s|h] pre IH]; intros t e Ht He Hx; cbn [app line_ok] in *.
  - destruct Ht as [-> _]. destruct e; [now specialize (He eq_refl)|]. exact Hx.
  - destruct Ht as [_ Ht]. destruct s as [|c s]; cbn [fill].
    + apply (IH t e); auto. now rewrite andb_true_r in Ht.
    + f_equal. eapply IH; eauto. discriminate.
  - destruct Ht as [-> Ht]. cbn [fill]. f_equal. eapply IH; eauto.
Qed.

Lemma fill_unspace V E l r : unspace l = Some r -> fill V E true l = fill V E false r.
Proof.
  revert r. induction l as [|[s|h] l IH]; intros r H; cbn [unspace] in H; try discriminate. destruct s as [|c s].
  - destruct (unspace l) as [r'|]; [|discriminate]. injection H as <-. cbn [fill]. now apply IH.
  - destruct (Ascii.eqb_spec c sp) as [->|]; [|discriminate]. injection H as <-. cbn [fill andb]. rewrite Ascii.eqb_refl.
    destruct s; reflexivity.
Qed.
Lemma fill_no_space V E l : unspace l = None -> fill V E true l = fill V E false l.
Proof.
  induction l as [|[s|h] l IH]; cbn [unspace fill]; auto. destruct s as [|c s].
  - destruct (unspace l); [discriminate|]. auto.
  - destruct (Ascii.eqb c sp); [discriminate|]. reflexivity.
Qed.
Lemma fill_lit V E v r : fill V E false (Lit v :: r) = v ++ fill V E false r.
Proof. now destruct v. Qed.

Lemma unspace_app pre h post x : line_ok true (pre ++ Hole h :: post) -> unspace (pre ++ Hole h :: post) = None -> unspace (pre ++ x) = None.
Proof.
  induction pre as [|[s|g] pre IH]; cbn [app line_ok unspace]; try easy. destruct s as [|c s].
  - intros [_ H] N. cbn [forallb andb] in H. destruct (unspace (pre ++ Hole h :: post)); [discriminate|]. now rewrite IH.
  - intros _ N. destruct (Ascii.eqb c sp); [discriminate|easy].
Qed.

Lemma unspace_places g l r : unspace l = Some r -> places g r = places g l.
Proof.
  revert r. induction l as [|[s|h] l IH]; intros r H; cbn [unspace] in H; try discriminate. destruct s as [|c s].
  - destruct (unspace l) as [r'|]; [|discriminate]. injection H as <-. unfold places in *. cbn [filter is_hole]. now apply IH.
  - destruct (Ascii.eqb c sp); [|discriminate]. now injection H as <-.
Qed.
Lemma unspace_holes l r : unspace l = Some r -> holes r = holes l.
Proof.
  revert r. induction l as [|[s|h] l IH]; intros r H; cbn [unspace] in H; try discriminate. destruct s as [|c s].
  - destruct (unspace l) as [r'|]; [|discriminate]. injection H as <-. unfold holes in *. cbn [flat_map app]. now apply IH.
  - destruct (Ascii.eqb c sp); [|discriminate]. now injection H as <-.
Qed.
Lemma holes_app a b : holes (a ++ b) = holes a ++ holes b.
Proof. unfold holes. apply flat_map_app. Qed.
Lemma holes_in h l : In h (holes l) <-> exists pre post, l = pre ++ Hole h :: post.
Proof.
  split.
  - intro H. unfold holes in H. apply in_flat_map in H as (p & Hp & H). destruct p as [s|g]; [easy|]. destruct H as [->|[]].
    apply in_split in Hp as (pre & post & ->). eauto.
  - intros (pre & post & ->). rewrite holes_app. apply in_or_app. right. now left.
Qed.

(** no place of [g] with a blank behind it *)
Definition no_space (g : hole) (l : list part) : Prop := forall pre post, l = pre ++ Hole g :: post -> unspace post = None.

(** first pass: places with a blank behind them *)
Lemma pass_space g v V E t l : ~ In pct v -> v = V g -> E g = true -> line_ok t l ->
  exists l', replace (hole_text g ++ [sp]) v (line_text l) = Ok (line_text l') /\ line_ok t l' /\ no_space g l' /\ fill V E false l' = fill V E false l /\ incl (holes l') (holes l).
Proof.
  intros Hv -> Hg Ht. unfold replace.
  destruct (replace_steps g (V g) [sp] unspace Hv) with (f := S (length (line_text l))) (t := t) (l := l) as (l' & R1 & R2 & R3); auto.
  - intros m r Hm. now apply unspace_text.
  - intros m b Hm N. now apply unspace_None.
  - intros m r Hm. now apply unspace_ok.
  - intros m r Hm. now apply unspace_places.
  - pose proof (places_le g l). lia.
  - rewrite R1. exists l'. split; [easy|]. split; [easy|].
    clear R1 R3. revert Ht. induction R2 as [l N|l m n S1 S2 IH]; intro Ht.
    + split; [|split; [easy|apply incl_refl]]. intros pre post -> . destruct (unspace post) as [r|] eqn:U; [|easy].
      exfalso. eapply N; [reflexivity|]. split; [apply is_hole_self|now rewrite U].
    + destruct S1 as [pre post r' Hn].
      assert (Hm : line_ok t (pre ++ Lit (V g) :: r')).
      { pose proof Ht as Ht2. apply line_ok_split in Ht as [Hp Hx]. apply Hx. intros b Hb ->. cbn [line_ok andb]. split; [easy|]. now apply (unspace_ok post). }
      destruct (IH Hm) as (I1 & I2 & I3). split; [easy|]. split.
      * rewrite I2. symmetry. apply (fill_context V E g post (Lit (V g) :: r') pre t false); auto; [discriminate|].
        rewrite fill_lit. cbn [fill]. rewrite Hg. now rewrite (fill_unspace V E post r').
      * eapply incl_tran; [exact I3|]. rewrite !holes_app. cbn [holes flat_map app]. fold (holes r') (holes post).
        rewrite (unspace_holes _ _ Hn). intros x Hx. apply in_app_or in Hx as [Hx|Hx]; apply in_or_app; [now left|right; now right].
Qed.

Lemma app_eq_len {A} (a b x y : list A) : a ++ x = b ++ y -> length a = length b -> a = b /\ x = y.
Proof.
  revert b. induction a as [|c a IH]; intros [|d b] H L; try discriminate; [easy|]. injection H as -> H. injection L as L.
  destruct (IH b H L) as [-> ->]. easy.
Qed.
(** second pass: all places *)
Lemma pass_all g v V E t l : ~ In pct v -> v = V g -> (E g = true -> no_space g l) -> line_ok t l ->
  exists l', replace (hole_text g) v (line_text l) = Ok (line_text l') /\ line_ok t l' /\ fill V E false l' = fill V E false l /\ incl (holes l') (holes l) /\ ~ In g (holes l').
Proof.
  intros Hv -> Hg Ht. unfold replace.
  destruct (replace_steps g (V g) [] Some Hv) with (f := S (length (line_text l))) (t := t) (l := l) as (l' & R1 & R2 & R3); auto.
  - intros m r H. now injection H as ->.
  - discriminate.
  - intros m r Hm H. injection H as <-. now apply line_ok_loose.
  - intros m r H. now injection H as ->.
  - pose proof (places_le g l). lia.
  - rewrite app_nil_r in R1. rewrite R1. exists l'. split; [easy|]. split; [easy|].
    clear R1 R3. revert Ht Hg. induction R2 as [l N|l m n S1 S2 IH]; intros Ht Hg.
    + split; [easy|]. split; [apply incl_refl|]. rewrite holes_in. intros (pre & post & ->). eapply N; [reflexivity|].
      split; [apply is_hole_self|discriminate].
    + destruct S1 as [pre post r' Hn]. injection Hn as <-.
      assert (Hm : line_ok t (pre ++ Lit (V g) :: post)).
      { pose proof Ht as Ht2. apply line_ok_split in Ht as [Hp Hx]. apply Hx. intros b Hb ->. cbn [line_ok andb]. split; [easy|]. now apply line_ok_loose. }
      destruct IH as (I1 & I2 & I3); auto.
      { intros Eg q1 q2 Q. destruct (le_lt_dec (length q1) (length pre)) as [L|L].
        - destruct (Nat.eq_dec (length q1) (length pre)) as [Lq|Lq].
          + exfalso. destruct (app_eq_len pre q1 _ _ Q (eq_sym Lq)) as [_ X]. discriminate.
          + destruct (split_order _ q1 (Hole g) q2 pre (Lit (V g)) post Q eq_refl) as (z & Z1 & ->); [lia|]. subst pre.
            specialize (Hg Eg q1 (z ++ Hole g :: post)). rewrite <- app_assoc in Hg. specialize (Hg eq_refl).
            apply (unspace_app z g post); [|easy]. rewrite <- app_assoc in Ht. cbn [app] in Ht. now apply line_ok_split in Ht as [Ht _].
        - destruct (split_order _ pre (Lit (V g)) post q1 (Hole g) q2 eq_refl Q L) as (z & -> & ->).
          apply (Hg Eg (pre ++ Hole g :: z) q2). now rewrite <- app_assoc. }
      split; [|split; [|easy]].
      * rewrite I1. symmetry. apply (fill_context V E g post (Lit (V g) :: post) pre t false); auto; [discriminate|].
        rewrite fill_lit. cbn [fill]. f_equal. destruct (E g) eqn:Eg; [|easy]. apply fill_no_space. now apply (Hg eq_refl pre).
      * eapply incl_tran; [exact I2|]. rewrite !holes_app. cbn [holes flat_map app]. fold (holes post).
        intros x Hx. apply in_app_or in Hx as [Hx|Hx]; apply in_or_app; [now left|right; now right].
Qed.

(** a line without placeholders stands for itself *)
Lemma fill_literal V E l : holes l = [] -> fill V E false l = line_text l.
Proof.
  induction l as [|[s|h] l IH]; intro H; [easy| |discriminate]. rewrite fill_lit, line_text_cons. cbn [part_text]. now rewrite IH.
Qed.
Lemma literal_no_pct t l : line_ok t l -> holes l = [] -> ~ In pct (line_text l).
Proof.
  revert t. induction l as [|[s|h] l IH]; intros t Ht H; [easy| |discriminate]. rewrite line_text_cons. cbn [part_text line_ok] in *.
  destruct Ht as [Hs Ht]. intro X. apply in_app_or in X as [X|X]; [now apply Hs|]. now apply (IH _ Ht H).
Qed.

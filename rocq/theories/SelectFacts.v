(** Facts about duplicate detection, selection (-P/-S) and sorting (Parse.v). *)
From Coq Require Import Ascii String List Bool Arith NArith ZArith Lia Sorting.Sorted Permutation.
From Coq Require Import ZifyBool ZifyNat ZifyN.
From Verif Require Import Str StrFacts CheckPattern Parse SpecParse SpecTables.
Import ListNotations.

(* ---------------------------------------------------------------- order on strings *)

Lemma code_inj a b : code a = code b -> a = b.
Proof. unfold code. intro H. rewrite <- (ascii_N_embedding a), <- (ascii_N_embedding b). now rewrite H. Qed.

Definition str_lt (a b : str) : Prop := str_ltb a b = true.

Lemma str_ltb_irrefl a : str_ltb a a = false.
Proof. induction a as [|c a IH]; [easy|]. cbn. rewrite N.ltb_irrefl, N.eqb_refl. exact IH. Qed.
Lemma str_lt_trans a b c : str_lt a b -> str_lt b c -> str_lt a c.
Proof.
  unfold str_lt. revert b c; induction a as [|x a IH]; intros [|y b] [|z c]; cbn; try easy.
  rewrite !orb_true_iff, !andb_true_iff, !N.ltb_lt, !N.eqb_eq.
  intros [H1|[H1 H2]] [H3|[H3 H4]].
  - left. lia.
  - left. lia.
  - left. lia.
  - right. split; [lia|]. eapply IH; eauto.
Qed.
Lemma str_lt_total a b : str_ltb a b = false -> str_ltb b a = false -> a = b.
Proof.
  revert b; induction a as [|x a IH]; intros [|y b]; cbn; try easy.
  rewrite !orb_false_iff, !andb_false_iff, !N.ltb_ge, !N.eqb_neq.
  intros [H1 H2] [H3 H4]. assert (E : code x = code y) by lia.
  f_equal; [now apply code_inj|]. apply IH; [destruct H2 | destruct H4]; try easy; congruence.
Qed.
Lemma str_ltb_asym a b : str_lt a b -> str_ltb b a = false.
Proof.
  intro H. destruct (str_ltb b a) eqn:E; [|easy]. pose proof (str_lt_trans _ _ _ H E) as X.
  unfold str_lt in X. now rewrite str_ltb_irrefl in X.
Qed.

Definition str_le (a b : str) : Prop := str_ltb b a = false.

Lemma insert_sorted_In x l y : In y (insert_sorted x l) <-> y = x \/ In y l.
Proof.
  induction l as [|z l IH]; cbn.
  - intuition.
  - destruct (str_ltb z x); cbn; [rewrite IH|]; intuition.
Qed.
Lemma sort_strs_In l y : In y (sort_strs l) <-> In y l.
Proof.
  induction l as [|x l IH]; cbn; [easy|]. rewrite insert_sorted_In, IH. intuition.
Qed.
Lemma str_le_trans a b c : str_le a b -> str_le b c -> str_le a c.
Proof.
  unfold str_le. intros H1 H2. destruct (str_ltb c a) eqn:E; [|easy].
  destruct (str_ltb a b) eqn:F.
  - pose proof (str_lt_trans _ _ _ E F) as X. unfold str_lt in X. congruence.
  - assert (a = b) by (apply str_lt_total; auto). subst. congruence.
Qed.
Lemma insert_sorted_sorted x l : StronglySorted str_le l -> StronglySorted str_le (insert_sorted x l).
Proof.
  induction 1 as [|y l Hs IH Hf]; cbn.
  - repeat constructor.
  - destruct (str_ltb y x) eqn:E.
    + constructor; auto. rewrite Forall_forall in *. intros z Hz. apply insert_sorted_In in Hz as [->|Hz]; auto.
      unfold str_le. now apply str_ltb_asym.
    + constructor; [now constructor|]. constructor; [exact E|].
      rewrite Forall_forall in *. intros z Hz. eapply str_le_trans; [exact E|]. auto.
Qed.
Lemma sort_strs_sorted l : StronglySorted str_le (sort_strs l).
Proof. induction l; cbn; [constructor|]. now apply insert_sorted_sorted. Qed.

Lemma unique_strs_In l y : In y (unique_strs l) <-> In y l.
Proof.
  induction l as [|x l IH]; [easy|]. cbn [unique_strs].
  destruct (unique_strs l) as [|z r] eqn:E.
  - cbn in *. intuition.
  - destruct (str_eqb x z) eqn:F.
    + apply str_eqb_eq in F. subst. cbn in *. intuition.
    + cbn in *. intuition.
Qed.
Lemma unique_strs_sorted l : StronglySorted str_le l -> StronglySorted str_lt (unique_strs l).
Proof.
  induction 1 as [|x l Hs IH Hf]; [constructor|]. cbn [unique_strs].
  destruct (unique_strs l) as [|z r] eqn:E; [repeat constructor|].
  destruct (str_eqb x z) eqn:F; [exact IH|].
  constructor; auto.
  assert (Hz : In z l) by (apply unique_strs_In; rewrite E; now left).
  assert (Hxz : str_lt x z).
  { rewrite Forall_forall in Hf. specialize (Hf z Hz). unfold str_le in Hf. unfold str_lt.
    destruct (str_ltb x z) eqn:G; [easy|]. assert (x = z) by now apply str_lt_total.
    apply str_eqb_neq in F. easy. }
  constructor; auto. inversion IH as [|? ? _ Hr]; subst. rewrite Forall_forall in *.
  intros w Hw. eapply str_lt_trans; eauto.
Qed.

(** sort_dedup: strictly increasing (hence without repetition), same elements *)
Lemma sort_dedup_sorted l : StronglySorted str_lt (sort_dedup l).
Proof. apply unique_strs_sorted, sort_strs_sorted. Qed.
Lemma sort_dedup_In l y : In y (sort_dedup l) <-> In y l.
Proof. unfold sort_dedup. rewrite unique_strs_In. apply sort_strs_In. Qed.

(* ---------------------------------------------------------------- duplicates *)

Lemma multiple_definitions_from_spec l : forall seen,
  match multiple_definitions_from seen l with
  | None => NoDup (map p_symbol l) /\ (forall s, In s (map p_symbol l) -> ~ In s seen)
  | Some s => exists l1 p l2, l = l1 ++ p :: l2 /\ p_symbol p = s /\ (In s seen \/ In s (map p_symbol l1))
  end.
Proof.
  induction l as [|p l IH]; intro seen; cbn [multiple_definitions_from].
  - cbn. split; [constructor|easy].
  - destruct (existsb (str_eqb (p_symbol p)) seen) eqn:E.
    + apply existsb_str_In in E. exists [], p, l. auto.
    + apply existsb_str_notIn in E. specialize (IH (p_symbol p :: seen)).
      destruct (multiple_definitions_from (p_symbol p :: seen) l) as [s|].
      * destruct IH as (l1 & q & l2 & -> & Hq & H). exists (p :: l1), q, l2. repeat split; auto.
        cbn in *. intuition.
      * destruct IH as [H1 H2]. cbn [map]. split.
        -- constructor; auto. intro Hin. apply H2 in Hin. apply Hin. now left.
        -- intros s [<-|Hs] Hin; [easy|]. apply H2 in Hs. apply Hs. now right.
Qed.

Lemma multiple_definitions_None l : multiple_definitions l = None -> NoDup (map p_symbol l).
Proof.
  intro H. pose proof (multiple_definitions_from_spec l []) as X. unfold multiple_definitions in H. rewrite H in X. tauto.
Qed.
Lemma multiple_definitions_Some l s : multiple_definitions l = Some s ->
  exists l1 p l2 q l3, l = l1 ++ p :: l2 ++ q :: l3 /\ p_symbol p = s /\ p_symbol q = s.
Proof.
  intro H. pose proof (multiple_definitions_from_spec l []) as X. unfold multiple_definitions in H. rewrite H in X.
  destruct X as (l1 & q & l3 & -> & Hq & [[]|Hin]). apply in_map_iff in Hin as (p & Hp & Hin).
  apply in_split in Hin as (u & w & ->). exists u, p, w, q, l3. rewrite <- app_assoc. auto.
Qed.
Lemma multiple_definitions_NoDup l : NoDup (map p_symbol l) -> multiple_definitions l = None.
Proof.
  intro H. destruct (multiple_definitions l) as [s|] eqn:E; [|easy]. exfalso.
  apply multiple_definitions_Some in E as (l1 & p & l2 & q & l3 & -> & Hp & Hq).
  rewrite map_app in H. cbn in H. rewrite map_app in H. cbn in H. apply NoDup_remove_2 in H. apply H.
  rewrite in_app_iff. right. rewrite in_app_iff. right. left. congruence.
Qed.

(* ---------------------------------------------------------------- selection *)

Lemma filter_filter {A} (f g : A -> bool) l : filter g (filter f l) = filter (fun x => f x && g x) l.
Proof.
  induction l as [|a l IH]; [easy|]. cbn [filter]. destruct (f a); cbn [filter andb]; [|exact IH].
  destruct (g a); now rewrite IH.
Qed.
Lemma filter_true {A} (f : A -> bool) l : (forall x, f x = true) -> filter f l = l.
Proof. intro H. induction l as [|a l IH]; cbn; [easy|]. now rewrite H, IH. Qed.


Definition isf := is_function_kind.
Definition isn (p : proto) := negb (is_function_kind p).

Lemma save_all l : forall t, fold_left save_symbol l t = mktab (t_funcs t ++ filter isf l) (t_objs t ++ filter isn l).
Proof.
  unfold isf, isn. induction l as [|p l IH]; intro t; cbn [fold_left filter].
  - rewrite !app_nil_r. now destruct t.
  - rewrite IH. unfold save_symbol. destruct (is_function_kind p); cbn [negb t_funcs t_objs];
      now rewrite <- app_assoc.
Qed.

Lemma save_all_table l : fold_left save_symbol l no_tables = mktab (filter isf l) (filter isn l).
Proof. now rewrite save_all. Qed.

Lemma select_prefix_spec pfx l : forall t,
  select_prefix pfx t (map (fun p => (p, false)) l) =
   (fold_left save_symbol (filter (fun p => is_prefixed (p_symbol p) pfx) l) t,
    map (fun p => (p, is_prefixed (p_symbol p) pfx)) l).
Proof.
  induction l as [|p l IH]; intro t; cbn [map select_prefix filter]; [easy|].
  destruct (is_prefixed (p_symbol p) pfx) eqn:E.
  - rewrite IH. easy.
  - rewrite IH. easy.
Qed.

Lemma select_list_spec (sv : proto -> bool) l : NoDup (map p_symbol l) -> forall syms t,
  select_list syms t (map (fun p => (p, sv p)) l) =
   (fold_left save_symbol (filter (fun p => existsb (str_eqb (p_symbol p)) syms && negb (sv p)) l) t,
    filter (fun s => negb (existsb (str_eqb s) (map p_symbol l))) syms).
Proof.
  induction l as [|p l IH]; intros Hnd syms t; cbn [map select_list filter].
  - f_equal. symmetry. now apply filter_true.
  - cbn [map] in Hnd. inversion Hnd as [|? ? Hni Hnd']; subst.
    destruct (existsb (str_eqb (p_symbol p)) syms) eqn:E.
    + rewrite IH by auto. f_equal.
      * assert (HF : filter (fun q => existsb (str_eqb (p_symbol q)) (filter (fun x => negb (str_eqb (p_symbol p) x)) syms) && negb (sv q)) l
                   = filter (fun q => existsb (str_eqb (p_symbol q)) syms && negb (sv q)) l).
        { apply filter_ext_in. intros q Hq. f_equal.
          assert (Hne : p_symbol q <> p_symbol p) by (intro X; apply Hni; rewrite <- X; now apply in_map).
          destruct (existsb (str_eqb (p_symbol q)) syms) eqn:F.
          - apply existsb_str_In in F. apply existsb_str_In. apply filter_In. split; auto.
            apply negb_true_iff, str_eqb_neq. congruence.
          - apply existsb_str_notIn in F. apply existsb_str_notIn. intro X. apply filter_In in X. tauto. }
        rewrite HF. destruct (sv p); cbn [andb negb]; easy.
      * rewrite filter_filter. apply filter_ext. intro s. cbn [existsb]. rewrite negb_orb. f_equal.
        now rewrite str_eqb_sym.
    + cbn [andb]. rewrite IH by auto. f_equal.
      apply filter_ext_in. intros s Hs. cbn [existsb]. f_equal.
      destruct (str_eqb s (p_symbol p)) eqn:F; [|easy]. apply str_eqb_eq in F. subst s.
      apply existsb_str_notIn in E. easy.
Qed.

(** the two passes, as one declarative result *)


Definition selected (pfx syms : list str) (l : list proto) : list proto :=
  match pfx, syms with
  | [], [] => l
  | _, _ => filter (by_prefix pfx) l ++ filter (fun p => by_list syms p && negb (by_prefix pfx p)) l
  end.
Definition missing (syms : list str) (l : list proto) : list str :=
  filter (fun s => negb (existsb (str_eqb s) (map p_symbol l))) syms.
Definition tables_of (l : list proto) : tables := mktab (filter isf l) (filter isn l).

Lemma is_prefixed_nil s : is_prefixed s [] = false.
Proof. now destruct s. Qed.

Lemma filter_false {A} (f : A -> bool) l : (forall x, f x = false) -> filter f l = [].
Proof. intro H. induction l as [|a l IH]; cbn; [easy|]. now rewrite H. Qed.

Lemma tables_empty l : (match t_funcs (tables_of l), t_objs (tables_of l) with [], [] => true | _, _ => false end)
   = match l with [] => true | _ => false end.
Proof.
  destruct l as [|p l]; [easy|]. unfold tables_of, isf, isn. cbn [t_funcs t_objs filter].
  destruct (is_function_kind p); cbn [negb]; [easy|]. now destruct (filter _ l).
Qed.

Lemma select_spec pfx syms name l : NoDup (map p_symbol l) ->
  select pfx syms name l =
    match missing syms l with
    | [] => match selected pfx syms l with
            | [] => Err ($"no function or object prototypes found in " ++ name)
            | s => Ok (tables_of s)
            end
    | m => Err (not_found_msg m)
    end.
Proof.
  intro Hnd. unfold select.
  assert (Hfin : forall s, match t_funcs (tables_of s), t_objs (tables_of s) with
     | [], [] => Err ($"no function or object prototypes found in " ++ name)
     | _, _ => Ok (tables_of s) end =
     match s with [] => Err ($"no function or object prototypes found in " ++ name) | s' => Ok (tables_of s') end).
  { intro s. pose proof (tables_empty s) as X.
    destruct (t_funcs (tables_of s)), (t_objs (tables_of s)), s; try easy. }
  destruct pfx as [|x pfx], syms as [|y syms]; cbn [get_filter_mode mode_prefix mode_list].
  - cbn [missing filter selected bind]. rewrite save_all_table. fold (tables_of l). rewrite Hfin. now destruct l.
  - rewrite (select_list_spec (fun _ => false)) by auto. fold (missing (y :: syms) l).
    destruct (missing (y :: syms) l); [|easy]. cbn [bind]. rewrite save_all_table.
    set (s := filter _ l). fold (tables_of s).
    replace (selected [] (y :: syms) l) with s; [rewrite Hfin; clearbody s; now destruct s|].
    unfold selected, s. rewrite (filter_false (by_prefix [])) by (intro; apply is_prefixed_nil). cbn [app].
    apply filter_ext. intro p. unfold by_prefix. now rewrite is_prefixed_nil.
  - rewrite select_prefix_spec. cbn [missing filter bind]. rewrite save_all_table.
    set (s := filter _ l). fold (tables_of s).
    replace (selected (x :: pfx) [] l) with s; [rewrite Hfin; clearbody s; now destruct s|].
    unfold selected, s. rewrite (filter_false (fun p => by_list [] p && _)) by easy. now rewrite app_nil_r.
  - rewrite select_prefix_spec.
    rewrite (select_list_spec (fun p => is_prefixed (p_symbol p) (x :: pfx))) by auto.
    fold (missing (y :: syms) l). destruct (missing (y :: syms) l); [|easy]. cbn [bind].
    rewrite <- fold_left_app, save_all_table.
    set (s := _ ++ _). fold (tables_of s). rewrite Hfin.
    change (selected (x :: pfx) (y :: syms) l) with s. clearbody s. now destruct s.
Qed.

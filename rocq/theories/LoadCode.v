(** The loading code of the shipped templates (for C47 and C77). *)
From Coq Require Import Ascii String List Bool Arith NArith Lia.
From Verif Require Import Str Parse ParamNames Prefix Substitute SpecSubstitute Options Generate SpecGenerate SpecTemplates Templates SpecEndToEnd SpecPrefix StrFacts.
Import ListNotations.

Definition can_separate (fmt : out_format) : bool := match fmt with FmtMinimal | FmtMinimalCxx => false | _ => true end.
Definition lines_for (fmt : out_format) (sep : bool) : list tname :=
  match format_sources fmt with
  | [a; b; c; d] => if sep then [b; d] else [a; b; c; d]
  | l => if sep then [] else l
  end.
Lemma loader_templates_are s : loader_templates s = lines_for (o_format s) (separate s).
Proof. unfold loader_templates, body_templates, header_templates, lines_for, separate. destruct (o_format s); cbn [format_sources]; rewrite ?andb_false_r; try reflexivity; destruct (o_separate s && negb (to_stdout s) && true); reflexivity. Qed.

(** the lines of a template that name a symbol are shown in every mode *)
Fixpoint same_lines (a b : list str) : bool :=
  match a, b with [] , [] => true | x :: a', y :: b' => str_eqb x y && same_lines a' b' | _, _ => false end.
Lemma same_lines_eq a : forall b, same_lines a b = true -> a = b.
Proof. induction a as [|x a IH]; intros [|y b] H; try discriminate; [reflexivity|]. cbn [same_lines] in H. apply andb_true_iff in H as [H1 H2]. apply str_eqb_eq in H1. subst. f_equal. auto. Qed.
Definition named (t : tname) : list str := filter names_symbol (inner_lines (shipped t)).
Fixpoint hidden_lines (m : param_mode) (shown : bool) (l : list str) : list str :=
  match l with
  | [] => []
  | x :: r => match marker_of x with Some k => x :: hidden_lines m (opens k m) r | None => if shown then hidden_lines m shown r else x :: hidden_lines m shown r end
  end.
Lemma hidden_create l : forall b, hidden_lines PCreate b l = hidden_lines PRead b l.
Proof. induction l as [|x l IH]; intro b; [reflexivity|]. cbn [hidden_lines]. destruct (marker_of x) as [[]|]; cbn [opens]; now rewrite !IH. Qed.
Lemma hidden_none m l : forall b, forallb (fun x => negb (names_symbol x)) (hidden_lines m b l) = true -> filter names_symbol (shown_lines m b l) = filter names_symbol l.
Proof.
  induction l as [|x l IH]; intros b; [reflexivity|]. cbn [hidden_lines shown_lines]. destruct (marker_of x) as [k|]; [|rewrite filter_app].
  - cbn [forallb filter]. intro H. apply andb_true_iff in H as [H1 H2]. apply negb_true_iff in H1. rewrite H1. now apply IH.
  - destruct b; cbn [forallb filter].
    + intro H. rewrite (IH true H). now destruct (names_symbol x).
    + intro H. apply andb_true_iff in H as [H1 H2]. apply negb_true_iff in H1. rewrite H1. now apply IH.
Qed.
Definition named_checked (t : tname) : bool :=
  forallb (fun x => negb (names_symbol x)) (first_line (shipped t)) && forallb (fun m => forallb (fun x => negb (names_symbol x)) (hidden_lines m true (inner_lines (shipped t)))) [PSkip; PRead].
Definition sources : list tname := [TCommonH; TCommonC; TCH; TCC; TCxxH; TCxxC; TPluginH; TPluginC; TMinH; TMinCxx].
Lemma all_named : forallb named_checked sources = true.
Proof. vm_compute. reflexivity. Qed.
Definition named_texts : list (list str) := Eval vm_compute in map named sources.
Lemma named_are : map named sources = named_texts.
Proof. vm_compute. reflexivity. Qed.
Definition place (t : tname) : nat :=
  match t with TCommonH => 0 | TCommonC => 1 | TCH => 2 | TCC => 3 | TCxxH => 4 | TCxxC => 5 | TPluginH => 6 | TPluginC => 7 | TMinH => 8 | _ => 9 end.
Lemma named_text t : In t sources -> named t = nth (place t) named_texts [].
Proof.
  intro I. rewrite <- named_are. replace (named t) with (nth (place t) (map named sources) (named t)).
  - apply nth_indep. rewrite map_length. unfold sources in *. cbn [In] in I. decompose [or] I; subst; try contradiction; cbn [place length]; lia.
  - unfold sources in *. cbn [In] in I. decompose [or] I; subst; try contradiction; reflexivity.
Qed.
Lemma lines_sources fmt sep : Forall (fun t => In t sources) (lines_for fmt sep).
Proof. unfold lines_for. destruct fmt, sep; cbn [format_sources]; repeat (apply Forall_cons; [repeat (first [left; reflexivity|right])|]); apply Forall_nil. Qed.
Definition code_lines (fmt : out_format) : list str := flat_map named (lines_for fmt false).
Lemma code_texts fmt sep : flat_map named (lines_for fmt sep) = flat_map (fun t => nth (place t) named_texts []) (lines_for fmt sep).
Proof. rewrite !flat_map_concat_map. f_equal. apply map_ext_in. intros t I. apply named_text. pose proof (lines_sources fmt sep) as S. rewrite Forall_forall in S. auto. Qed.
Lemma code_at fmt k u l v : k < site_count fmt ->
  fill v (fun _ => false) false (map (rename_part u l) (parts 0 (nth k (code_lines fmt) []))) ++ [nl] = nth k (load_sites fmt u l (v HSymType) (v HSym)) [].
Proof.
  intros H. unfold code_lines. rewrite code_texts. destruct fmt; cbn [site_count] in H; (destruct k as [|[|[|k]]]; [..|exfalso; lia]); try (exfalso; lia).
  all: vm_compute; fold (@app ascii); repeat (rewrite <- app_assoc; cbn [app]); reflexivity.
Qed.

Lemma code_symbol fmt k : k < site_count fmt -> exists h r, holes (parts 0 (nth k (code_lines fmt) [])) = h :: r /\ hole_class h = CSymbol.
Proof.
  intros H. assert (C : match holes (parts 0 (nth k (code_lines fmt) [])) with h :: _ => match hole_class h with CSymbol => true | _ => false end | [] => false end = true).
  { unfold code_lines. rewrite code_texts. destruct fmt; cbn [site_count] in H; (destruct k as [|[|[|k]]]; [..|exfalso; lia]); try (exfalso; lia); vm_compute; reflexivity. }
  destruct (holes _) as [|h r]; [discriminate|]. exists h, r. split; [reflexivity|]. now destruct (hole_class h).
Qed.
Lemma code_count fmt : length (code_lines fmt) = site_count fmt.
Proof. unfold code_lines. rewrite code_texts. destruct fmt; vm_compute; reflexivity. Qed.

Lemma code_expansion s k f o : k < site_count (o_format s) ->
  map (fun t => t ++ [nl]) (expansion (config_of s f o) (nth k (code_lines (o_format s)) [])) = load_table s k f o.
Proof.
  intros H. destruct (code_symbol _ _ H) as (h & r & E & K). unfold expansion. rewrite E, K. cbn [copies]. rewrite map_app, !map_map.
  unfold load_table. f_equal; apply map_ext; intros e; exact (code_at _ _ _ _ _ H).
Qed.

Lemma none_named l : forallb (fun x => negb (names_symbol x)) l = true -> filter names_symbol l = [].
Proof. induction l as [|x l IH]; [reflexivity|]. cbn [forallb filter]. intro H. apply andb_true_iff in H as [H1 H2]. apply negb_true_iff in H1. rewrite H1. auto. Qed.
Lemma named_shown t (line : bool) m : In t sources -> filter names_symbol ((if line then first_line (shipped t) else []) ++ shown_lines m true (inner_lines (shipped t))) = named t.
Proof.
  intros I. pose proof all_named as A. rewrite forallb_forall in A. specialize (A t I). unfold named_checked in A. apply andb_true_iff in A as [A1 A2].
  unfold named. generalize dependent (inner_lines (shipped t)). generalize dependent (first_line (shipped t)). intros fl A1 il A2.
  apply none_named in A1. rewrite filter_app. replace (filter names_symbol (if line then fl else [])) with (@nil str) by (destruct line; [now rewrite A1|reflexivity]).
  cbn [app]. apply hidden_none. rewrite forallb_forall in A2. destruct m; [apply A2; cbn; tauto|rewrite hidden_create; apply (A2 PRead); cbn; tauto|apply A2; cbn; tauto].
Qed.
Lemma filter_flat {A B} (p : B -> bool) (f : A -> list B) l : filter p (flat_map f l) = flat_map (fun x => filter p (f x)) l.
Proof. induction l; cbn [flat_map]; [reflexivity|]. now rewrite filter_app, IHl. Qed.
Lemma lines_separate fmt sep : can_separate fmt = true \/ sep = false -> flat_map named (lines_for fmt sep) = code_lines fmt.
Proof.
  intros H. unfold code_lines. rewrite !code_texts. destruct sep; [|reflexivity]. destruct H as [H|H]; [|discriminate]. destruct fmt; try discriminate H; vm_compute; reflexivity.
Qed.
Lemma loading_lines_are s : loading_lines s = code_lines (o_format s).
Proof.
  unfold loading_lines. rewrite filter_flat, loader_templates_are. cbn [config_of]. rewrite flat_map_concat_map, map_map, <- flat_map_concat_map.
  rewrite <- (lines_separate (o_format s) (separate s)).
  - assert (G : forall l, Forall (fun t => In t sources) l -> flat_map (fun x => filter names_symbol (lines_shown (mkcfg (o_line s) (o_param s) (o_pfxs s) [] []) (shipped x))) l = flat_map named l).
    { induction 1 as [|t l I F IH]; [reflexivity|]. cbn [flat_map]. rewrite IH. f_equal. now apply named_shown. }
    apply G, lines_sources.
  - unfold separate. destruct (o_format s); auto; right; now rewrite andb_false_r.
Qed.

Lemma weave_filter {A} (p : A -> bool) l : exists gaps, length gaps = S (length (filter p l)) /\ Forall (Forall (fun x => p x = false)) gaps /\
  l = weave gaps (map (fun x => [x]) (filter p l)).
Proof.
  induction l as [|x l (gaps & L & F & E)]; [exists [[]]; repeat constructor|]. cbn [filter]. destruct (p x) eqn:P.
  - exists ([] :: gaps). cbn [length map weave app]. split; [now rewrite L|]. split; [now repeat constructor|]. now rewrite <- E.
  - destruct gaps as [|g gs]; [discriminate|]. exists ((x :: g) :: gs). split; [assumption|]. inversion F; subst. split; [repeat constructor; auto|].
    destruct (filter p l) as [|y ys]; cbn [map weave app] in *; now rewrite E at 1.
Qed.
Lemma weave_map {A B} (f : list A -> list B) : f [] = [] -> (forall a b, f (a ++ b) = f a ++ f b) -> forall gaps ts, f (weave gaps ts) = weave (map f gaps) (map f ts).
Proof.
  intros N D. induction gaps as [|g gs IH]; intros [|t ts]; cbn [weave map]; auto. now rewrite !D, IH.
Qed.

Lemma shipped_loader s f o : loader_code s f o (filled_texts (config_of s f o) (map shipped (loader_templates s))).
Proof.
  set (c := config_of s f o). set (all := flat_map (lines_shown c) (map shipped (loader_templates s))).
  destruct (weave_filter names_symbol all) as (gaps & L & F & E).
  assert (K : filter names_symbol all = code_lines (o_format s)) by exact (loading_lines_are s).
  rewrite K in L, E. rewrite code_count in L. set (g := fun l => map (fun t => t ++ [nl]) (flat_map (expansion c) l)).
  exists (map g gaps). rewrite map_length. split; [exact L|]. split.
  - apply Forall_map. eapply Forall_impl; [|exact F]. intros a Ha. exists a. split; [exact Ha|reflexivity].
  - unfold filled_texts. fold all. change (g all = weave (map g gaps) (map (fun k => load_table s k f o) (List.seq 0 (site_count (o_format s))))).
    rewrite E at 1. rewrite (weave_map g); [|reflexivity|intros a b; unfold g; now rewrite flat_map_app, map_app]. f_equal. rewrite map_map.
    rewrite <- code_count. apply nth_ext with (d := []) (d' := []); [now rewrite !map_length, seq_length|]. intros k Hk. rewrite map_length in Hk.
    rewrite (nth_indep _ [] (g [[]])) by now rewrite map_length. rewrite (map_nth (fun x => g [x]) _ [] k).
    rewrite (nth_indep _ [] (load_table s 0 f o)) by now rewrite map_length, seq_length. rewrite (map_nth (fun j => load_table s j f o)), seq_nth by assumption. cbn [Nat.add].
    rewrite <- code_expansion by now rewrite <- code_count. unfold g. cbn [flat_map]. now rewrite app_nil_r.
Qed.

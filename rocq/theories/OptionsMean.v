(** The settings an accepted command line leaves. *)
From Coq Require Import Ascii String List Bool Arith.
From Verif Require Import Str Prefix ParamNames Options SpecOptions OptionsFacts OptionsProps.
Import ListNotations.

Lemma last_cons {A} (v d : A) l : last (v :: l) d = last l v.
Proof.
  revert v. induction l as [|a l IH]; intros v; [reflexivity|].
  change (last (v :: a :: l) d) with (last (a :: l) d). rewrite (IH a). destruct l as [|b l]; [reflexivity|].
  change (last (a :: b :: l) v) with (last (b :: l) v). clear. revert b a v. induction l as [|c l IH]; intros; [reflexivity|]. apply (IH c).
Qed.

Lemma value_argument l o e v : Forall argument (spell (IValue l o e v)) -> argument v.
Proof.
  destruct e; cbn [spell]; intros H.
  - pose proof (Forall_inv H) as A. intros X. apply A. apply in_or_app. right. apply in_or_app. right. apply in_or_app. now right.
  - exact (Forall_inv (Forall_inv_tail H)).
Qed.
Lemma separator_added v : v <> [] -> append_missing_separator v = as_directory v.
Proof. now destruct v. Qed.

Lemma nothing s : settings_of s [] s.
Proof. split; cbn; rewrite ?orb_false_r, ?andb_true_r, ?app_nil_r; reflexivity. Qed.

Lemma more i is g g1 t : item_ok i -> Forall argument (spell i) -> effect i g = Ok (Done g1) ->
  settings_of (g_set g1) is t -> settings_of (g_set g) (i :: is) t.
Proof.
  intros K A E [].
  destruct i as [f|l o|l o e v|o e v].
  - assert (X : g_set g1 = g_set g) by (cbn [effect] in E; destruct (g_input g); injection E as <-; reflexivity). rewrite X in *.
    split; assumption.
  - destruct o; cbn [effect flag_effect] in E; try discriminate E; injection E as <-; cbn [g_set] in *;
      (split; [..]);
      cbn in *; rewrite ?last_cons in *; rewrite ?orb_true_r, ?andb_false_r in *; assumption.
  - pose proof (value_argument _ _ _ _ A) as A1.
    destruct o; cbn [effect value_effect bind] in E; try discriminate E.
    + destruct (read_format v) as [f| | |] eqn:F; try discriminate E. apply format_accepted in F. injection E as <-. cbn [g_set] in *.
      (split; [..]); cbn -[format_words last] in *; try assumption.
      change (In (map tolower (last (values OFormat is) v)) (format_words (o_format t))).
      destruct (values OFormat is) as [|v1 vs]; [|rewrite last_cons; exact format_is]. cbn [last]. rewrite format_is. exact F.
    + injection E as <-. cbn [g_set] in *. (split; [..]); cbn in *; rewrite <- ?app_assoc in *; assumption.
    + injection E as <-. cbn [g_set] in *. (split; [..]); cbn -[last] in *; rewrite ?last_cons; assumption.
    + injection E as <-. cbn [g_set] in *. (split; [..]); cbn -[last] in *; rewrite ?last_cons; assumption.
    + injection E as <-. cbn [g_set] in *. (split; [..]); cbn -[last set_prefix] in *; rewrite ?last_cons; assumption.
    + destruct (read_param v) as [f| | |] eqn:F; try discriminate E. apply param_accepted in F; [|exact A1]. injection E as <-. cbn [g_set] in *.
      (split; [..]); cbn -[param_word last] in *; try assumption.
      change (map tolower (last (values OParam is) v) = param_word (o_param t)).
      destruct (values OParam is) as [|v1 vs]; [|rewrite last_cons; exact param_is]. cbn [last]. rewrite param_is. exact F.
    + injection E as <-. cbn [g_set] in *. (split; [..]); cbn -[last] in *; rewrite ?last_cons; assumption.
    + injection E as <-. cbn [g_set] in *. cbn [item_ok] in K.
      (split; [..]); cbn -[last append_missing_separator as_directory] in *; rewrite ?last_cons, <- ?separator_added by exact K; assumption.
  - destruct o; cbn [effect letter_effect] in E; injection E as <-; cbn [g_set] in *; (split; [..]); cbn -[define_text] in *; rewrite <- ?app_assoc in *; assumption.
Qed.

Lemma interpret_settings is : Forall item_ok is -> Forall argument (concat (map spell is)) -> forall g g1, interpret is g = Ok (Done g1) ->
  settings_of (g_set g) is (g_set g1) /\
  match g_input g with
  | Some f => g_input g1 = Some f /\ g_ignored g1 = g_ignored g ++ files is
  | None => g_input g1 = hd_error (files is) /\ g_ignored g1 = g_ignored g ++ tl (files is)
  end.
Proof.
  induction is as [|i is IH]; intros K A g g1 E.
  - injection E as <-. split; [apply nothing|]. cbn. rewrite app_nil_r. now destruct (g_input g).
  - cbn [map concat] in A. apply Forall_app in A as (A1 & A2). pose proof (Forall_inv K) as K1. cbn [interpret] in E.
    destruct (effect i g) as [[g2|e]| | |] eqn:F; try discriminate E. cbn [bind] in E.
    destruct (IH (Forall_inv_tail K) A2 g2 g1 E) as (J1 & J2). split; [exact (more i is g g2 _ K1 A1 F J1)|].
    destruct i as [f|l o|l o e v|o e v].
    + cbn [effect] in F. destruct (g_input g) eqn:G; injection F as <-; cbn [g_input g_ignored] in J2; destruct J2 as (J2 & J3); cbn [files flat_map app]; rewrite ?G in *.
      * split; [exact J2|]. rewrite J3, <- app_assoc. reflexivity.
      * split; [exact J2|]. exact J3.
    + assert (X : g_input g2 = g_input g /\ g_ignored g2 = g_ignored g) by (destruct o; try discriminate F; injection F as <-; now split).
      destruct X as (X1 & X2). rewrite X1, X2 in J2. exact J2.
    + assert (X : g_input g2 = g_input g /\ g_ignored g2 = g_ignored g).
      { cbn [effect] in F. destruct (value_effect o v (g_set g)) as [[s|x]| | |]; try discriminate F. injection F as <-. now split. }
      destruct X as (X1 & X2). rewrite X1, X2 in J2. exact J2.
    + assert (X : g_input g2 = g_input g /\ g_ignored g2 = g_ignored g) by (destruct o; injection F as <-; now split).
      destruct X as (X1 & X2). rewrite X1, X2 in J2. exact J2.
Qed.

Lemma meaning prog is s g : Forall item_ok is -> Forall argument (concat (map spell is)) ->
  parse_cmdline (prog :: concat (map spell is)) s = Ok (Done g) ->
  settings_of s is (g_set g) /\ exists f, f <> [] /\ g_input g = Some f /\ files is = f :: g_ignored g.
Proof.
  intros K A E. rewrite readable in E by assumption. unfold finish in E.
  destruct (interpret is (start s)) as [[g1|x]| | |] eqn:I; try discriminate E. cbn [bind] in E.
  destruct (interpret_settings is K A _ _ I) as (J1 & J2). cbn [start g_set g_input g_ignored app] in J1, J2. destruct J2 as (J2 & J3).
  unfold need_input in E. destruct (g_input g1) as [[|c f]|] eqn:G; try discriminate E. injection E as <-.
  split; [exact J1|]. exists (c :: f). split; [discriminate|]. split; [exact G|].
  destruct (files is) as [|f1 fs]; cbn in J2, J3; [discriminate J2|]. injection J2 as ->. now rewrite J3.
Qed.

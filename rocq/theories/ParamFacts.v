(** Facts about parameter names (ParamNames.v). *)
From Coq Require Import Ascii String List Bool Arith NArith ZArith Lia.
From Coq Require Import ZifyBool ZifyNat ZifyN.
From Verif Require Import Str StrFacts CheckPattern Parse SpecParse ParseFacts ParseFacts2 ParamNames SpecTables.
Import ListNotations.
Local Open Scope Z_scope.



(* ---------------------------------------------------------------- patterns at the first punctuation *)

Definition end_closed (q : seq) : Prop :=
  exists c, last (sq_end q) PType = PChar c /\ c <> "*"%char /\ is_ident c = false.

Lemma pattern_total v q : good_front q -> good_end q -> end_closed q ->
  exists r, check_pattern v (find_first_not_pointer_or_ident v) q = Ok r /\
   (r = true -> exists a m c e, v = a ++ m ++ c ++ e /\ find_first_not_pointer_or_ident v = vsize a /\
       Forall (fun s => tyish s = true) a /\ front_fits q a /\
       Forall2 fits (sq_middle q) m /\ Forall2 fits (sq_end q) e).
Proof.
  intros GF GE EC. destruct (first_not_split v) as (a & b & -> & Hit & Ha & Hb). rewrite Hit.
  destruct b as [|x b].
  - rewrite app_nil_r. exists false. split; [|discriminate]. now apply check_pattern_end_false.
  - destruct (check_pattern_spec q a (x :: b)) as (r & -> & Hr); [exact GF|exact GE|easy|].
    exists r. split; [easy|]. intro E. apply Hr in E as (HF & m & c & e & He & H1 & H2).
    exists a, m, c, e. rewrite <- He. auto 10.
Qed.

Lemma is_object_total v :
  exists r, is_object v (find_first_not_pointer_or_ident v) = Ok r /\
   (r = true -> exists v' s, v = v' ++ [s] /\ v' <> [] /\ is_ident (str_front s) = true).
Proof.
  destruct (first_not_split v) as (a & b & -> & Hit & Ha & Hb). rewrite Hit.
  destruct b as [|x b].
  - rewrite app_nil_r. destruct (is_object_end a) as (r & -> & Hr). exists r. split; [easy|]. apply Hr.
  - destruct (check_pattern_spec q_object a (x :: b)) as (r & Hc & Hr); [gf|ge|easy|].
    unfold is_object. rewrite Hc. exists r. split; [easy|]. intro E. apply Hr in E as (HF & m & c & e & He & H1 & H2).
    cbn in H2. inversion H2 as [|? s ? ? Fs H2']; subst. inversion H2'; subst.
    exists (a ++ m ++ c), s. rewrite He, <- !app_assoc. split; [easy|]. split; [|exact Fs].
    unfold front_fits in HF. cbn in HF. destruct a; easy.
Qed.

Ltac ec := eexists; repeat split; discriminate.
Lemma ec_fp : end_closed q_function_pointer. Proof. ec. Qed.
Lemma ec_fpn : end_closed q_function_pointer_no_name. Proof. ec. Qed.
Lemma ec_ar : end_closed q_array. Proof. ec. Qed.
Lemma ec_arn : end_closed q_array_no_name. Proof. ec. Qed.

Lemma vsize_two (v : list str) x y l : v = x :: y :: l -> 2 <= vsize v.
Proof. intros ->. rewrite !vsize_cons. pose proof (vsize_nonneg l). lia. Qed.

(* ---------------------------------------------------------------- -param=read *)



Definition terminated (l : list str) : str := concat (map (fun n => n ++ $", ") l).

Lemma read_names_sound vs : forall sym names,
  match read_names_loop sym names vs with
  | Ok s => exists ns, Forall2 own_name vs ns /\ s = delete_suffix (names ++ terminated (somes ns)) $", "
  | Err _ => True
  | _ => False
  end.
Proof.
  induction vs as [|v vs IH]; intros sym names; cbn [read_names_loop].
  - exists []. split; [constructor|]. unfold terminated. cbn. now rewrite app_nil_r.
  - assert (Hcont : forall n, In n v -> is_ident (str_front n) = true ->
      match read_names_loop sym (names ++ n ++ $", ") vs with
      | Ok s => exists ns, Forall2 own_name (v :: vs) ns /\ s = delete_suffix (names ++ terminated (somes ns)) $", "
      | Err _ => True | _ => False end).
    { intros n H1 H2. specialize (IH sym (names ++ n ++ $", ")).
      destruct (read_names_loop sym (names ++ n ++ $", ") vs); auto.
      destruct IH as (ns & HF & ->). exists (Some n :: ns). split; [constructor; auto; now split|].
      unfold terminated. cbn [somes map concat]. now rewrite <- !app_assoc. }
    destruct v as [|t [|t2 v2]] eqn:Ev.
    + easy.
    + destruct (str_eqb t $"...") eqn:E; [|easy]. apply str_eqb_eq in E. subst.
      specialize (IH sym names). destruct (read_names_loop sym names vs); auto.
      destruct IH as (ns & HF & ->). exists (None :: ns). split; [constructor; auto; easy|easy].
    + rewrite <- Ev in *. pose proof (vsize_two v t t2 v2 Ev) as Hv2.
      rewrite (deref_in v 0) by lia. rewrite (deref_in v (vsize v - 1)) by lia. cbn [bind].
      destruct (starts_with $"*" _); [easy|]. destruct (ends_with $"*" _); [easy|].
      destruct (is_object_total v) as (ro & -> & Hro). cbn [bind]. destruct ro.
      { destruct (Hro eq_refl) as (v' & s & Hv & Hne & Hs).
        assert (Hnth : nth (Z.to_nat (vsize v - 1)) v [] = s).
        { rewrite Hv, vsize_app, vsize_cons, vsize_nil.
          replace (Z.to_nat (vsize v' + (1 + 0) - 1)) with (length v') by (unfold vsize; lia).
          rewrite app_nth2, Nat.sub_diag by lia. easy. }
        rewrite Hnth. apply Hcont; auto. rewrite Hv, in_app_iff. right. now left. }
      unfold is_function_pointer.
      destruct (pattern_total v q_function_pointer) as (rf & -> & Hrf); [gf|ge|apply ec_fp|]. cbn [bind]. destruct rf.
      { destruct (Hrf eq_refl) as (a & m & c & e & Hv & Hit & Ha & HF & Hm & He). cbn in Hm.
        rewrite Hit. clear Ev Hit. revert He; inv_fits; intro He.
        rename y1 into s.
        assert (Hd : deref (a ++ [y; y0; s; y2; y3] ++ c ++ e) (vsize a + 2) = Ok s).
        { replace (a ++ [y; y0; s; y2; y3] ++ c ++ e) with ((a ++ [y; y0]) ++ s :: ([y2; y3] ++ c ++ e))
            by (rewrite <- app_assoc; easy).
          apply deref_mid. szs. }
        rewrite Hd. cbn [bind].
        apply Hcont; auto. rewrite in_app_iff. right. cbn. auto. }
      unfold is_array.
      destruct (pattern_total v q_array) as (ra & -> & Hra); [gf|ge|apply ec_ar|]. cbn [bind]. destruct ra; [|easy].
      destruct (Hra eq_refl) as (a & m & c & e & Hv & Hit & Ha & HF & Hm & He). rewrite Hit.
      unfold front_fits in HF. change (front_has_symbol q_array) with true in HF. destruct HF as (a' & s & -> & Hne & Hs).
      clear Ev Hit. subst v.
      assert (Hd : deref ((a' ++ [s]) ++ m ++ c ++ e) (vsize (a' ++ [s]) - 1) = Ok s).
      { rewrite <- app_assoc. cbn [app]. apply deref_mid. szs. }
      rewrite Hd. cbn [bind]. apply Hcont; auto.
      rewrite <- app_assoc, in_app_iff. right. cbn. auto.
Qed.

Lemma terminated_join l : l <> [] -> terminated l = join $", " l ++ $", ".
Proof.
  induction l as [|x [|y l] IH]; intro H; [easy|cbn; now rewrite app_nil_r|].
  unfold terminated in *. cbn [map concat] in *. change (join $", " (x :: y :: l)) with (x ++ $", " ++ join $", " (y :: l)).
  rewrite IH by easy. now rewrite <- !app_assoc.
Qed.
Lemma delete_terminated l : delete_suffix (terminated l) $", " = join $", " l.
Proof.
  destruct l as [|x l]; [easy|]. rewrite terminated_join by easy. apply delete_suffix_app.
Qed.

(** step on a written declaration *)


Lemma not_star_start t : is_ident (str_front t) = true -> starts_with $"*" t = false.
Proof.
  destruct t as [|c t]; [easy|]. cbn [str_front starts_with lit list_ascii_of_string]. intro H.
  destruct (Ascii.eqb "*" c) eqn:E; [|easy]. apply Ascii.eqb_eq in E. subst. vm_compute in H. easy.
Qed.
Lemma ident_not_star_end t : ident_word t -> ends_with $"*" t = false.
Proof.
  intros [Hn Hf]. destruct (ends_with $"*" t) eqn:E; [|easy]. apply ends_with_spec in E as [r ->].
  apply Forall_app in Hf as [_ Hf]. inversion Hf as [|? ? X _]; subst. vm_compute in X. easy.
Qed.

Lemma nth_last_vsize (v' : list str) s : nth (Z.to_nat (vsize (v' ++ [s]) - 1)) (v' ++ [s]) [] = s.
Proof.
  rewrite vsize_app, vsize_cons, vsize_nil.
  replace (Z.to_nat (vsize v' + (1 + 0) - 1)) with (length v') by (unfold vsize; lia).
  rewrite app_nth2, Nat.sub_diag by lia. easy.
Qed.

Lemma read_names_step d sym names vs : decl_ok d -> param_form d ->
  read_names_loop sym names (written d :: vs) = read_names_loop sym (names ++ decl_name d ++ $", ") vs.
Proof.
  intros [Hty Hn] Hpf.
  assert (Hty2 : exists t r, decl_type_tokens d = t :: r /\ ident_word t).
  { destruct (decl_type_tokens d) as [|t r]; [easy|]. destruct Hty. eauto. }
  destruct Hty2 as (t0 & r0 & Ht0 & Hid0).
  pose proof (type_tokens_tyish _ Hty) as Htt.
  pose proof (ident_front _ Hn) as Hni.
  assert (Hw : exists y l, written d = t0 :: y :: l).
  { destruct d; cbn [written decl_type_tokens] in *; try easy; rewrite Ht0; cbn [app];
      destruct r0; cbn [app]; eauto. }
  destruct Hw as (y & l & Hw). cbn [read_names_loop]. rewrite Hw. rewrite <- Hw.
  pose proof (vsize_two _ _ _ _ Hw) as H2.
  rewrite (deref_in _ 0) by lia. rewrite (deref_in _ (vsize _ - 1)) by lia. cbn [bind].
  replace (nth (Z.to_nat 0) (written d) []) with t0 by (rewrite Hw; easy).
  rewrite (not_star_start t0) by now apply ident_front.
  destruct d as [ty n|ty n i|ty n ps|ty n ps|two ty n ps|ty n ps]; try easy; cbn [written decl_type_tokens decl_name] in *.
  - rewrite nth_last_vsize, (ident_not_star_end n Hn).
    assert (Hf : find_first_not_pointer_or_ident (ty ++ [n]) = vsize (ty ++ [n])).
    { rewrite <- (app_nil_r (ty ++ [n])) at 1. apply find_first_app; auto. apply Forall_app. split; auto.
      constructor; auto. apply type_tok_tyish. now left. }
    rewrite Hf. destruct (is_object_end (ty ++ [n])) as (r & -> & Hr). cbn [bind].
    replace r with true; [easy|]. symmetry. apply Hr. exists ty, n. repeat split; auto. congruence.
  - replace (ty ++ [n] ++ [$"["] ++ i ++ [$"]"]) with ((ty ++ [n] ++ [$"["] ++ i) ++ [$"]"]) at 1 2
      by (rewrite <- !app_assoc; easy).
    rewrite nth_last_vsize. change (ends_with $"*" $"]") with false. cbv iota.
    assert (Hf : find_first_not_pointer_or_ident (ty ++ [n] ++ [$"["] ++ i ++ [$"]"]) = vsize (ty ++ [n])).
    { rewrite app_assoc. apply find_first_app; [|easy]. apply Forall_app. split; auto.
      constructor; auto. apply type_tok_tyish. now left. }
    rewrite Hf. rewrite app_assoc. set (b := [$"["] ++ i ++ [$"]"]). assert (Hb : b <> []) by easy.
    unfold is_object. destruct (check_pattern_spec q_object (ty ++ [n]) b) as (r & -> & Hr); [gf|ge|easy|]. cbn [bind].
    destruct r.
    { exfalso. destruct (proj1 Hr eq_refl) as (_ & m & c & e & He & Hm & HE). cbn in Hm, HE. inversion Hm; subst.
      inversion HE as [|? s ? ? Fs HE']; subst. inversion HE'; subst. unfold b in He. cbn [app] in He.
      change ($"[" :: i ++ [$"]"]) with (($"[" :: i) ++ [$"]"]) in He.
      apply snoc_inv in He as [_ <-]. vm_compute in Fs. easy. }
    unfold is_function_pointer. destruct (check_pattern_spec q_function_pointer (ty ++ [n]) b) as (r & -> & Hr'); [gf|ge|easy|].
    cbn [bind]. destruct r.
    { exfalso. destruct (proj1 Hr' eq_refl) as (_ & m & c & e & He & Hm & HE). cbn in Hm.
      inversion Hm as [|? s ? ? Fs Hm']; subst. unfold b in He. injection He as <- _. vm_compute in Fs. easy. }
    unfold is_array. destruct (check_pattern_spec q_array (ty ++ [n]) b) as (r & -> & Hr''); [gf|ge|easy|].
    cbn [bind]. replace r with true.
    2:{ symmetry. apply Hr''. split.
        - unfold front_fits. change (front_has_symbol q_array) with true. exists ty, n. repeat split; auto. congruence.
        - exists [$"["], i, [$"]"]. cbn. repeat split; repeat constructor. }
    rewrite <- app_assoc. cbn [app]. rewrite deref_mid by szs. easy.
  - replace (ty ++ [$"("; $"*"; n; $")"; $"("] ++ ps ++ [$")"]) with ((ty ++ [$"("; $"*"; n; $")"; $"("] ++ ps) ++ [$")"]) at 1 2
      by (rewrite <- !app_assoc; easy).
    rewrite nth_last_vsize. change (ends_with $"*" $")") with false. cbv iota.
    assert (Hf : find_first_not_pointer_or_ident (ty ++ [$"("; $"*"; n; $")"; $"("] ++ ps ++ [$")"]) = vsize ty)
      by now apply find_first_app.
    rewrite Hf. set (b := [$"("; $"*"; n; $")"; $"("] ++ ps ++ [$")"]). assert (Hb : b <> []) by easy.
    unfold is_object. destruct (check_pattern_spec q_object ty b) as (r & -> & Hr); [gf|ge|easy|]. cbn [bind].
    destruct r.
    { exfalso. destruct (proj1 Hr eq_refl) as (_ & m & c & e & He & Hm & HE). cbn in Hm, HE. inversion Hm; subst.
      inversion HE as [|? s ? ? Fs HE']; subst. inversion HE'; subst. unfold b in He. cbn [app] in He.
      change ($"(" :: $"*" :: n :: $")" :: $"(" :: ps ++ [$")"])
        with (($"(" :: $"*" :: n :: $")" :: $"(" :: ps) ++ [$")"]) in He.
      apply snoc_inv in He as [_ <-]. vm_compute in Fs. easy. }
    unfold is_function_pointer. destruct (check_pattern_spec q_function_pointer ty b) as (r & -> & Hr'); [gf|ge|easy|].
    cbn [bind]. replace r with true.
    2:{ symmetry. apply Hr'. split.
        - unfold front_fits. change (front_has_symbol q_function_pointer) with false. cbv iota. congruence.
        - exists [$"("; $"*"; n; $")"; $"("], ps, [$")"]. cbn. repeat split; repeat constructor. exact Hni. }
    unfold b. cbn [app].
    replace (ty ++ $"(" :: $"*" :: n :: $")" :: $"(" :: ps ++ [$")"]) with
      ((ty ++ [$"("; $"*"]) ++ n :: ($")" :: $"(" :: ps ++ [$")"])) by (rewrite <- app_assoc; easy).
    rewrite deref_mid by szs. easy.
Qed.

(* ---------------------------------------------------------------- parameter text (read and skip) *)

Lemma spaced_unwords l : l <> [] -> spaced l = unwords l ++ $" ".
Proof.
  unfold spaced, unwords. induction l as [|x [|y l] IH]; intro H; [easy|cbn; now rewrite app_nil_r|].
  cbn [map concat] in *. change (join $" " (x :: y :: l)) with (x ++ $" " ++ join $" " (y :: l)).
  rewrite IH by easy. now rewrite <- !app_assoc.
Qed.

Lemma spaced_one t : spaced [t] = t ++ $" ".
Proof. unfold spaced. cbn. now rewrite app_nil_r. Qed.

Lemma fold_params vs : forall a, fold_left (fun a v => append_strings a v ++ $", ") vs a =
  a ++ concat (map (fun v => spaced v ++ $", ") vs).
Proof.
  induction vs as [|v vs IH]; intro a; cbn [fold_left map concat]; [now rewrite app_nil_r|].
  rewrite IH, append_strings_spaced. now rewrite <- !app_assoc.
Qed.
Lemma params_joined vs : vs <> [] -> concat (map (fun v => spaced v ++ $", ") vs) = spaced (comma_join vs) ++ $", ".
Proof.
  induction vs as [|v [|w vs] IH]; intro H; [easy|cbn; now rewrite app_nil_r|].
  rewrite comma_join_cons, !spaced_app. cbn [map concat] in *. rewrite IH by easy.
  change (spaced [$","]) with $", ". now rewrite <- !app_assoc.
Qed.

Definition solid (t : str) : Prop := t <> [] /\ isspace (str_front t) = false /\ isspace (last t nul) = false.
Lemma ident_not_space c : is_ident c = true -> isspace c = false.
Proof.
  unfold is_ident, isalnum, isalpha, isupper, islower, isdigit, isspace, between.
  destruct (Ascii.eqb c "_") eqn:E.
  - apply Ascii.eqb_eq in E. subst. easy.
  - destruct (Ascii.eqb c " ") eqn:E2.
    + apply Ascii.eqb_eq in E2. subst. vm_compute. easy.
    + lia.
Qed.
Lemma lexeme_solid t : lexeme t -> solid t.
Proof.
  intros [[Hn Hf]|Hp].
  - split; [easy|]. split.
    + destruct t; [easy|]. inversion Hf; subst. now apply ident_not_space.
    + destruct (exists_last Hn) as (t' & c & ->). rewrite last_last. apply Forall_app in Hf as [_ Hf].
      inversion Hf; subst. now apply ident_not_space.
  - unfold punct in Hp. cbn in Hp. repeat destruct Hp as [<-|Hp]; try easy; repeat split; discriminate.
Qed.

Lemma strip_solid t : solid t -> strip_spaces (t ++ $" ") = t.
Proof.
  intros (Hn & Hf & Hl). unfold strip_spaces, strip_back.
  destruct (exists_last Hn) as (t' & c & E). rewrite E in *. rewrite last_last in Hl.
  rewrite !rev_app_distr. cbn [rev app lit list_ascii_of_string]. cbn [drop_while].
  change (isspace " ") with true. cbv iota. rewrite Hl. cbn [rev]. rewrite rev_involutive.
  destruct (t' ++ [c]) as [|x r] eqn:E2; [now destruct t'|]. cbn in Hf. cbn [drop_while]. now rewrite Hf.
Qed.
Lemma unwords_solid l : l <> [] -> Forall solid l -> solid (unwords l).
Proof.
  unfold unwords. intros Hn Hs. induction Hs as [|x l Hx Hl IH]; [easy|].
  destruct l as [|y l]; [exact Hx|]. specialize (IH ltac:(easy)).
  change (join $" " (x :: y :: l)) with (x ++ $" " ++ join $" " (y :: l)).
  destruct Hx as (H1 & H2 & H3), IH as (I1 & I2 & I3).
  split; [|split].
  - destruct x; easy.
  - destruct x; [easy|]. exact H2.
  - rewrite app_assoc. destruct (exists_last I1) as (r & c & E). rewrite E in *.
    rewrite app_assoc, last_last. now rewrite last_last in I3.
Qed.

Lemma Forall_comma_join (P : str -> Prop) vs : P $"," -> Forall (Forall P) vs -> Forall P (comma_join vs).
Proof.
  intros Hc H. induction H as [|v [|w vs] Hv Hvs IH]; [constructor|exact Hv|].
  rewrite comma_join_cons. apply Forall_app. split; auto. constructor; auto.
Qed.
Lemma lexeme_comma : lexeme $",".
Proof. right. cbn. auto. Qed.

Lemma copied_args_text vs : Forall (Forall lexeme) vs -> copied_args [] vs = unwords (comma_join vs).
Proof.
  intro H. unfold copied_args. rewrite fold_params. cbn [app].
  destruct vs as [|v vs]; [easy|]. rewrite params_joined by easy. rewrite delete_suffix_app.
  destruct (comma_join (v :: vs)) as [|t l] eqn:E; [easy|].
  assert (Hl : Forall lexeme (t :: l)) by (rewrite <- E; apply Forall_comma_join; auto; apply lexeme_comma).
  rewrite spaced_unwords by easy. apply strip_solid, unwords_solid; [easy|].
  eapply Forall_impl; [|exact Hl]. apply lexeme_solid.
Qed.

(* ---------------------------------------------------------------- -param=create *)



Lemma front_fits_type q a : good_front q -> front_fits q a -> a <> [].
Proof.
  intros GF. unfold front_fits. destruct (front_has_symbol q); [|easy].
  intros (a' & s & -> & _). now destruct a'.
Qed.

Lemma create_sound vs : Forall (Forall lexeme) vs -> forall sym k args names,
  match create_loop sym k args names vs with
  | Ok (A, N) => exists ts ns, created k vs ts ns /\
       A = delete_suffix (args ++ terminated ts) $", " /\ N = delete_suffix (names ++ terminated ns) $", "
  | Err _ => True
  | _ => False
  end.
Proof.
  intro HL. induction HL as [|v vs Hv HL IH]; intros sym k args names; cbn [create_loop].
  - exists [], []. split; [constructor|]. unfold terminated. cbn. now rewrite !app_nil_r.
  - destruct v as [|f v0] eqn:Ev; [easy|]. rewrite <- Ev in *.
    destruct (starts_with $"*" f) eqn:Es; [easy|].
    destruct ((vsize v =? 1) && str_eqb f $"...") eqn:Ed.
    { apply andb_prop in Ed as [E1 E2]. apply str_eqb_eq in E2. subst f.
      assert (v0 = []). { rewrite Ev, vsize_cons in E1. destruct v0; [easy|]. rewrite vsize_cons in E1.
        pose proof (vsize_nonneg v0). lia. }
      subst v0. specialize (IH sym k (args ++ $"... , ") (names ++ $"... , ")).
      destruct (create_loop sym k (args ++ $"... , ") (names ++ $"... , ") vs) as [[A N]| | |]; auto.
      destruct IH as (ts & ns & Hc & -> & ->). exists ($"... " :: ts), ($"... " :: ns).
      split; [rewrite Ev; now constructor|]. unfold terminated. cbn [map concat]. split; f_equal; now rewrite <- !app_assoc. }
    set (name := gen_name k). set (names' := names ++ name ++ $", ").
    assert (Hcont : forall w t, insert_name name v w -> (t = unwords w \/ t = unwords w ++ $" ") ->
      match create_loop sym (S k) (args ++ t ++ $", ") names' vs with
      | Ok (A, N) => exists ts ns, created k (v :: vs) ts ns /\
           A = delete_suffix (args ++ terminated ts) $", " /\ N = delete_suffix (names ++ terminated ns) $", "
      | Err _ => True | _ => False end).
    { intros w t Hi Ht. specialize (IH sym (S k) (args ++ t ++ $", ") names').
      destruct (create_loop sym (S k) (args ++ t ++ $", ") names' vs) as [[A N]| | |]; auto.
      destruct IH as (ts & ns & Hc & -> & ->). exists (t :: ts), (name :: ns).
      split; [now apply (cr_param k v w)|]. unfold terminated, names'. cbn [map concat].
      split; f_equal; now rewrite <- !app_assoc. }
    assert (Hfirst : is_ident (str_front f) = true -> forall a b, v = a ++ b -> a <> [] ->
              Forall (fun s => tyish s = true) a -> type_tokens a).
    { intros Hi a b Hab Hne Ha. assert (Hla : Forall lexeme a) by (rewrite Hab in Hv; now apply Forall_app in Hv).
      apply Forall_lexeme_type; auto. rewrite Ev in Hab. destruct a; [easy|]. injection Hab as <- _. exact Hi. }
    assert (Hstarfirst : tyish f = true -> is_ident (str_front f) = true).
    { unfold tyish. rewrite orb_true_iff. intros [X|X]; [|exact X]. exfalso.
      apply Ascii.eqb_eq in X. destruct f as [|c f]; cbn in X; [easy|]. subst c. vm_compute in Es. easy. }
    assert (Hty : forall a b, v = a ++ b -> a <> [] -> Forall (fun s => tyish s = true) a -> type_tokens a).
    { intros a b Hab Hne Ha. apply (Hfirst) with b; auto. apply Hstarfirst. rewrite Ev in Hab.
      destruct a; [easy|]. injection Hab as <- _. now inversion Ha. }
    destruct (find_first_not_pointer_or_ident v =? vsize v) eqn:Eit.
    { destruct (first_not_split v) as (a & b & Hab & Hit & Ha & Hb).
      assert (b = []).
      { rewrite Hit in Eit. rewrite Hab, vsize_app in Eit. destruct b; [easy|]. rewrite vsize_cons in Eit.
        pose proof (vsize_nonneg b). lia. }
      subst b. rewrite app_nil_r in Hab.
      replace (append_strings args v ++ name ++ $", ") with (args ++ unwords (v ++ [name]) ++ $", ").
      - apply (Hcont (v ++ [name])); auto. apply ins_plain. apply (Hty v []); auto.
        + now rewrite app_nil_r.
        + now rewrite Ev.
        + now rewrite Hab.
      - rewrite append_strings_spaced, <- !app_assoc. f_equal. rewrite app_assoc. f_equal.
        assert (Hx : unwords (v ++ [name]) ++ $" " = (spaced v ++ name) ++ $" ").
        { rewrite <- spaced_unwords by now destruct v. rewrite spaced_app, <- app_assoc. unfold spaced at 2. cbn. now rewrite app_nil_r. }
        now apply app_inv_tail in Hx. }
    unfold is_function_pointer, is_function_pointer_no_name.
    destruct (pattern_total v q_function_pointer) as (rf & -> & Hrf); [gf|ge|apply ec_fp|]. cbn [bind].
    destruct (pattern_total v q_function_pointer_no_name) as (rn & Ern & Hrn); [gf|ge|apply ec_fpn|].
    assert (Hsp : forall x y, append_strings (append_strings args x ++ name ++ $" ") y ++ $", " =
              args ++ (unwords (x ++ [name] ++ y) ++ $" ") ++ $", ").
    { intros x y. rewrite <- spaced_unwords by now destruct x. rewrite !append_strings_spaced, !spaced_app, <- !app_assoc.
      now rewrite spaced_one, <- !app_assoc. }
    destruct rf.
    { cbn [bind orb].
      destruct (Hrf eq_refl) as (a & m & c & e & Hvs & Hit & Ha & HF & Hm & He). cbn in Hm, He.
      apply front_fits_type in HF; [|gf]. rewrite Hit.
      pose proof (Hty a _ Hvs HF Ha) as Hta.
      assert (Hlv : Forall lexeme (a ++ m ++ c ++ e)) by now rewrite <- Hvs.
      apply Forall_app in Hlv as [_ Hlv]. apply Forall_app in Hlv as [Hlm Hlv]. apply Forall_app in Hlv as [_ Hle].
      inversion Hm as [|? l ? ? F1 Hm1]; subst m. inversion Hm1 as [|? t ? ? F2 Hm2]; subst.
      inversion Hm2 as [|? s ? ? F3 Hm3]; subst. inversion Hm3 as [|? m1 ? ? F4 Hm4]; subst.
      inversion Hm4 as [|? m2 ? ? F5 Hm5]; subst. inversion Hm5; subst.
      inversion He as [|? r0 ? ? F6 He1]; subst. inversion He1; subst.
      inversion Hlm as [|? ? L1 Hlm1]; subst. inversion Hlm1 as [|? ? L2 Hlm2]; subst.
      inversion Hlm2 as [|? ? L3 Hlm3]; subst. inversion Hlm3 as [|? ? L4 Hlm4]; subst.
      inversion Hlm4 as [|? ? L5 _]; subst. inversion Hle as [|? ? L6 _]; subst.
      apply lexeme_lp in F1, F5; auto. apply lexeme_rp in F4, F6; auto. apply lexeme_st in F2; auto. subst l t m1 m2 r0.
      apply lexeme_ident in F3; auto. rewrite Hvs.
      assert (Hs1 : slice (a ++ [$"("; $"*"; s; $")"; $"("] ++ c ++ [$")"]) 0 (vsize a + 2) = Ok (a ++ [$"("; $"*"])).
      { replace (a ++ [$"("; $"*"; s; $")"; $"("] ++ c ++ [$")"]) with ((a ++ [$"("; $"*"]) ++ s :: $")" :: $"(" :: c ++ [$")"])
          by (rewrite <- app_assoc; easy). apply slice_front. szs. }
      assert (Hs2 : slice (a ++ [$"("; $"*"; s; $")"; $"("] ++ c ++ [$")"]) (vsize a + 3)
                      (vsize (a ++ [$"("; $"*"; s; $")"; $"("] ++ c ++ [$")"])) = Ok ($")" :: $"(" :: c ++ [$")"])).
      { replace (a ++ [$"("; $"*"; s; $")"; $"("] ++ c ++ [$")"]) with ((a ++ [$"("; $"*"; s]) ++ $")" :: $"(" :: c ++ [$")"])
          by (rewrite <- app_assoc; easy). apply slice_back; szs. }
      rewrite Hs1. cbn [bind]. rewrite Hs2. cbn [bind]. rewrite Hsp. rewrite <- Hvs.
      eapply Hcont; [|right; reflexivity]. rewrite Hvs, <- app_assoc. cbn [app].
      apply (ins_fptr_named name a s c); auto. }
    rewrite Ern. cbn [bind orb]. destruct rn.
    { destruct (Hrn eq_refl) as (a & m & c & e & Hvs & Hit & Ha & HF & Hm & He). cbn in Hm, He.
      apply front_fits_type in HF; [|gf]. rewrite Hit.
      pose proof (Hty a _ Hvs HF Ha) as Hta.
      assert (Hlv : Forall lexeme (a ++ m ++ c ++ e)) by now rewrite <- Hvs.
      apply Forall_app in Hlv as [_ Hlv]. apply Forall_app in Hlv as [Hlm Hlv]. apply Forall_app in Hlv as [_ Hle].
      inversion Hm as [|? l ? ? F1 Hm1]; subst m. inversion Hm1 as [|? t ? ? F2 Hm2]; subst.
      inversion Hm2 as [|? m1 ? ? F4 Hm4]; subst.
      inversion Hm4 as [|? m2 ? ? F5 Hm5]; subst. inversion Hm5; subst.
      inversion He as [|? r0 ? ? F6 He1]; subst. inversion He1; subst.
      inversion Hlm as [|? ? L1 Hlm1]; subst. inversion Hlm1 as [|? ? L2 Hlm2]; subst.
      inversion Hlm2 as [|? ? L4 Hlm4]; subst.
      inversion Hlm4 as [|? ? L5 _]; subst. inversion Hle as [|? ? L6 _]; subst.
      apply lexeme_lp in F1, F5; auto. apply lexeme_rp in F4, F6; auto. apply lexeme_st in F2; auto. subst l t m1 m2 r0.
      rewrite Hvs.
      assert (Hs1 : slice (a ++ [$"("; $"*"; $")"; $"("] ++ c ++ [$")"]) 0 (vsize a + 2) = Ok (a ++ [$"("; $"*"])).
      { replace (a ++ [$"("; $"*"; $")"; $"("] ++ c ++ [$")"]) with ((a ++ [$"("; $"*"]) ++ $")" :: $"(" :: c ++ [$")"])
          by (rewrite <- app_assoc; easy). apply slice_front. szs. }
      assert (Hs2 : slice (a ++ [$"("; $"*"; $")"; $"("] ++ c ++ [$")"]) (vsize a + 2)
                      (vsize (a ++ [$"("; $"*"; $")"; $"("] ++ c ++ [$")"])) = Ok ($")" :: $"(" :: c ++ [$")"])).
      { replace (a ++ [$"("; $"*"; $")"; $"("] ++ c ++ [$")"]) with ((a ++ [$"("; $"*"]) ++ $")" :: $"(" :: c ++ [$")"])
          by (rewrite <- app_assoc; easy). apply slice_back; szs. }
      rewrite Hs1. cbn [bind]. rewrite Hs2. cbn [bind]. rewrite Hsp. rewrite <- Hvs.
      eapply Hcont; [|right; reflexivity]. rewrite Hvs, <- app_assoc. cbn [app].
      apply (ins_fptr_anon name a c); auto. }
    unfold is_array_no_name.
    destruct (pattern_total v q_array_no_name) as (ra & -> & Hra); [gf|ge|apply ec_arn|]. cbn [bind].
    destruct ra; [|easy].
    destruct (Hra eq_refl) as (a & m & c & e & Hvs & Hit & Ha & HF & Hm & He). cbn in Hm, He.
    apply front_fits_type in HF; [|gf]. rewrite Hit.
    pose proof (Hty a _ Hvs HF Ha) as Hta.
    assert (Hlv : Forall lexeme (a ++ m ++ c ++ e)) by now rewrite <- Hvs.
    apply Forall_app in Hlv as [_ Hlv]. apply Forall_app in Hlv as [Hlm Hlv]. apply Forall_app in Hlv as [_ Hle].
    inversion Hm as [|? l ? ? F1 Hm1]; subst m. inversion Hm1; subst.
    inversion He as [|? r0 ? ? F6 He1]; subst. inversion He1; subst.
    inversion Hlm as [|? ? L1 _]; subst. inversion Hle as [|? ? L6 _]; subst.
    apply lexeme_lb in F1; auto. apply lexeme_rb in F6; auto. subst l r0. rewrite Hvs.
    rewrite slice_front by easy. cbn [bind]. rewrite slice_back by szs. cbn [bind]. rewrite Hsp, <- Hvs.
    eapply Hcont; [|right; reflexivity]. rewrite Hvs.
    apply (ins_array name a c); auto.
Qed.

(** check_prototype against the declaration grammar, and parameter splitting. *)
From Coq Require Import Ascii String List Bool Arith NArith ZArith Lia.
From Coq Require Import ZifyBool ZifyNat ZifyN.
From Verif Require Import Str StrFacts CheckPattern Parse SpecParse ParseFacts SpecTables.
Import ListNotations.
Local Open Scope Z_scope.

Lemma append_strings_spaced b l : append_strings b l = b ++ spaced l.
Proof. easy. Qed.
Lemma spaced_app a b : spaced (a ++ b) = spaced a ++ spaced b.
Proof. unfold spaced. now rewrite map_app, concat_app. Qed.

(* ---------------------------------------------------------------- tokens *)

Lemma ident_front t : ident_word t -> is_ident (str_front t) = true.
Proof. intros [Hn Hf]. destruct t; [easy|]. now inversion Hf. Qed.
Lemma lexeme_fits_char t c :
  lexeme t -> str_front t = c -> In c ["*"; ","; "("; ")"; "["; "]"]%char -> t = [c].
Proof.
  intros [Hi|Hp] Hc Hin.
  - apply ident_front in Hi. rewrite Hc in Hi. cbn in Hin.
    repeat destruct Hin as [<-|Hin]; try (vm_compute in Hi; discriminate Hi). easy.
  - subst c. unfold punct in Hp. cbn in Hp.
    repeat destruct Hp as [<-|Hp]; try easy; cbn in Hin; exfalso;
    repeat destruct Hin as [Hin|Hin]; try discriminate Hin; easy.
Qed.
Lemma fits_char t c : fits (PChar c) t <-> str_front t = c.
Proof. unfold fits. cbn. apply Ascii.eqb_eq. Qed.
Lemma lexeme_lp t : lexeme t -> fits lp t -> t = $"(".
Proof. intros H F. apply fits_char in F. apply (lexeme_fits_char t "("); cbn; auto. Qed.
Lemma lexeme_rp t : lexeme t -> fits rp t -> t = $")".
Proof. intros H F. apply fits_char in F. apply (lexeme_fits_char t ")"); cbn; auto. Qed.
Lemma lexeme_lb t : lexeme t -> fits lb t -> t = $"[".
Proof. intros H F. apply fits_char in F. apply (lexeme_fits_char t "["); cbn; auto 10. Qed.
Lemma lexeme_rb t : lexeme t -> fits rb t -> t = $"]".
Proof. intros H F. apply fits_char in F. apply (lexeme_fits_char t "]"); cbn; auto 10. Qed.
Lemma lexeme_st t : lexeme t -> fits st t -> t = $"*".
Proof. intros H F. apply fits_char in F. apply (lexeme_fits_char t "*"); cbn; auto 10. Qed.
Lemma lexeme_ident t : lexeme t -> is_ident (str_front t) = true -> ident_word t.
Proof.
  intros [H|H] F; [easy|]. exfalso. unfold punct in H. cbn in H.
  repeat destruct H as [<-|H]; try (vm_compute in F; discriminate F). easy.
Qed.
Lemma lexeme_tyish t : lexeme t -> tyish t = true -> type_tok t.
Proof.
  intros H F. unfold tyish in F. apply orb_true_iff in F as [F|F].
  - right. apply Ascii.eqb_eq in F. apply (lexeme_fits_char t "*"); cbn; auto.
  - left. now apply lexeme_ident.
Qed.
Lemma type_tok_tyish t : type_tok t -> tyish t = true.
Proof. intros [H| ->]; [|easy]. unfold tyish. rewrite (ident_front t H). apply orb_true_r. Qed.
Lemma type_tokens_tyish ty : type_tokens ty -> Forall (fun s => tyish s = true) ty.
Proof.
  destruct ty as [|t r]; [easy|]. intros [H1 H2]. constructor.
  - apply type_tok_tyish. now left.
  - eapply Forall_impl; [|exact H2]. intros. now apply type_tok_tyish.
Qed.

(* ---------------------------------------------------------------- accepted statements *)


Definition proto_of (d : decl) : proto :=
  mkproto (decl_kind d) (decl_type d) (decl_name d) []
          (match decl_kind d with KFunction => copy_parameters (decl_params d) | _ => [] end) [].



Lemma Forall_lexeme_type a :
  Forall lexeme a -> Forall (fun s => tyish s = true) a -> a <> [] ->
  is_ident (str_front (hd [] a)) = true -> type_tokens a.
Proof.
  intros Hl Ht Hn Hi. destruct a as [|t r]; [easy|]. inversion Hl; subst. inversion Ht; subst. cbn in Hi.
  split; [now apply lexeme_ident|].
  rewrite Forall_forall in *. intros x Hx. apply lexeme_tyish; auto.
Qed.

Lemma check_prototype_total v :
  exists r, check_prototype v = Ok r /\
    (Forall lexeme v -> forall p, r = Some p -> exists d, decl_ok d /\ written d = v /\ p = proto_of d).
Proof.
  unfold check_prototype.
  destruct (vsize v <? 2) eqn:E0; [exists None; split; [easy|discriminate]|].
  destruct v as [|f v0]; [cbn in E0; lia|].
  replace (deref (f :: v0) 0) with (Ok f) by (symmetry; apply (deref_mid [] f v0 0); easy). cbn [bind].
  destruct (is_ident (str_front f)) eqn:Ef; cbn [negb]; [|exists None; split; [easy|discriminate]].
  destruct (first_not_split (f :: v0)) as (a & b & Hv & Hit & Ha & Hb). rewrite Hit, Hv.
  assert (Hhd : is_ident (str_front (hd [] a)) = true /\ a <> []).
  { destruct a as [|x a].
    - cbn in Hv. subst b. unfold tyish in Hb. rewrite Ef, orb_true_r in Hb. easy.
    - cbn in Hv. injection Hv as <- _. easy. }
  destruct Hhd as [Hhd Hane].
  destruct b as [|x b].
  - rewrite app_nil_r, Z.eqb_refl.
    destruct (check_object_spec a) as (r & -> & Hr). exists r. split; [easy|].
    intros Hl p Hp. apply Hr in Hp as (a' & s & -> & Ha' & Hs & ->).
    apply Forall_app in Hl as [Hl1 Hl2]. apply Forall_app in Ha as [Ht1 Ht2]. inversion Hl2; subst.
    exists (DObject a' s). split; [|split; [easy|]].
    + split; [|now apply lexeme_ident]. apply Forall_lexeme_type; auto.
      destruct a'; [easy|]. exact Hhd.
    + unfold proto_of. reflexivity.
  - assert (Hne : (vsize a =? vsize (a ++ x :: b)) = false).
    { rewrite vsize_app, vsize_cons. pose proof (vsize_nonneg b). lia. }
    rewrite Hne. rewrite deref_mid by easy. cbn [bind].
    assert (Hbn : x :: b <> []) by easy.
    destruct (Ascii.eqb (str_front x) "(") eqn:Ex.
    + unfold or_else.
      destruct (check_function_spec a (x :: b) Hbn) as (r1 & -> & Hr1). cbn [bind].
      destruct r1 as [p1|].
      { exists (Some p1). split; [easy|]. intros Hl p Hp. injection Hp as <-.
        pose proof (proj1 (Hr1 p1) eq_refl) as Hr.
        destruct Hr as (a' & s & l & c & e & -> & Ha' & Hs & Hbe & F1 & F2 & ->).
        rewrite Hbe in Hl. apply Forall_app in Hl as [Hl1 Hl2]. apply Forall_app in Hl1 as [Hl1 Hls].
        apply Forall_app in Hl2 as [Hll Hl2]. apply Forall_app in Hl2 as [Hlc Hle].
        inversion Hls; inversion Hll; inversion Hle; subst.
        apply lexeme_lp in F1; auto. apply lexeme_rp in F2; auto. subst.
        apply Forall_app in Ha as [Ht1 _].
        exists (DFunction a' s c). split; [|split].
        - split; [|now apply lexeme_ident]. apply Forall_lexeme_type; auto.
          destruct a'; [easy|]. exact Hhd.
        - rewrite Hbe. cbn. now rewrite <- app_assoc.
        - unfold proto_of, mk_fn. reflexivity. }
      destruct (check_function_pointer_spec a (x :: b) Hbn) as (r2 & -> & Hr2). cbn [bind].
      destruct r2 as [p1|].
      { exists (Some p1). split; [easy|]. intros Hl p Hp. injection Hp as <-.
        pose proof (proj1 (Hr2 p1) eq_refl) as Hr.
        destruct Hr as (l & t & s & m1 & m2 & c & e & Ha' & Hbe & F1 & F2 & Hs & F3 & F4 & F5 & ->).
        rewrite Hbe in Hl. apply Forall_app in Hl as [Hl1 Hl2].
        apply Forall_app in Hl2 as [Hll Hl2]. apply Forall_app in Hl2 as [Hlc Hle].
        inversion Hle; subst.
        repeat match goal with H : Forall lexeme (_ :: _) |- _ => inversion H; clear H; subst end.
        apply lexeme_lp in F1, F4; auto. apply lexeme_rp in F3, F5; auto. apply lexeme_st in F2; auto. subst.
        exists (DFunctionPointer a s c). split; [|split].
        - split; [|now apply lexeme_ident]. apply Forall_lexeme_type; auto.
        - now rewrite Hbe.
        - unfold proto_of. cbn [decl_kind decl_type decl_name]. rewrite !append_strings_spaced. rewrite <- app_assoc. easy. }
      destruct (check_function_paren_spec a (x :: b) Hbn) as (r3 & -> & Hr3). cbn [bind].
      destruct r3 as [p1|].
      { exists (Some p1). split; [easy|]. intros Hl p Hp. injection Hp as <-.
        pose proof (proj1 (Hr3 p1) eq_refl) as Hr.
        destruct Hr as (l & s & m1 & m2 & c & e & Ha' & Hbe & F1 & Hs & F3 & F4 & F5 & ->).
        rewrite Hbe in Hl. apply Forall_app in Hl as [Hl1 Hl2].
        apply Forall_app in Hl2 as [Hll Hl2]. apply Forall_app in Hl2 as [Hlc Hle].
        inversion Hle; subst.
        repeat match goal with H : Forall lexeme (_ :: _) |- _ => inversion H; clear H; subst end.
        apply lexeme_lp in F1, F4; auto. apply lexeme_rp in F3, F5; auto. subst.
        exists (DFunctionParen a s c). split; [|split].
        - split; [|now apply lexeme_ident]. apply Forall_lexeme_type; auto.
        - now rewrite Hbe.
        - unfold proto_of, mk_fn. reflexivity. }
      destruct (check_function_paren_pointer_spec a (x :: b) Hbn) as (r4 & -> & Hr4).
      exists r4. split; [easy|]. intros Hl p Hp. apply Hr4 in Hp.
      destruct Hp as (l & ts & s & m & c & e1 & e2 & Ha' & Hbe & L & F0 & F1 & Hs & F4 & F5 & F6 & ->).
      rewrite Hbe in Hl. apply Forall_app in Hl as [Hl1 Hl2].
      apply Forall_app in Hl2 as [Hll Hl2]. apply Forall_app in Hl2 as [Hlts Hl2].
      apply Forall_app in Hl2 as [Hlsm Hl2]. apply Forall_app in Hl2 as [Hlc Hle].
      assert (Hts : ts = stars (Nat.eqb (length ts) 2)).
      { destruct L as [L|L]; rewrite L.
        - destruct ts as [|t [|]]; try easy. inversion F0; inversion Hlts; subst.
          cbn. f_equal. now apply lexeme_st.
        - destruct ts as [|t [|u [|]]]; try easy. inversion F0 as [|? ? Ft F0']; inversion Hlts as [|? ? Lt Lts]; subst.
          inversion F0'; inversion Lts; subst. cbn. f_equal; [|f_equal]; now apply lexeme_st. }
      repeat match goal with H : Forall lexeme (_ :: _) |- _ => inversion H; clear H; subst end.
      apply lexeme_lp in F1, F4; auto. apply lexeme_rp in F5, F6; auto. subst.
      exists (DFunctionParenPtr (Nat.eqb (length ts) 2) a s c). split; [|split].
      * split; [|now apply lexeme_ident]. apply Forall_lexeme_type; auto.
      * cbn [written]. rewrite <- Hts, Hbe. easy.
      * unfold proto_of, mk_fn. cbn [decl_type decl_kind decl_name decl_params]. rewrite <- Hts.
        rewrite !append_strings_spaced, spaced_app. easy.
    + destruct (Ascii.eqb (str_front x) "[") eqn:Ex2; [|exists None; split; [easy|discriminate]].
      destruct (check_array_spec a (x :: b) Hbn) as (r1 & -> & Hr1).
      exists r1. split; [easy|]. intros Hl p Hp. apply Hr1 in Hp.
      destruct Hp as (a' & s & l & c & e & -> & Ha' & Hs & Hbe & F1 & F2 & ->).
      rewrite Hbe in Hl. apply Forall_app in Hl as [Hl1 Hl2]. apply Forall_app in Hl1 as [Hl1 Hls].
      apply Forall_app in Hl2 as [Hll Hl2]. apply Forall_app in Hl2 as [Hlc Hle].
      inversion Hls; inversion Hll; inversion Hle; subst.
      apply lexeme_lb in F1; auto. apply lexeme_rb in F2; auto. subst.
      apply Forall_app in Ha as [Ht1 _].
      exists (DArray a' s c). split; [|split].
      * split; [|now apply lexeme_ident]. apply Forall_lexeme_type; auto.
        destruct a'; [easy|]. exact Hhd.
      * rewrite Hbe. cbn. now rewrite <- app_assoc.
      * unfold proto_of. cbn [decl_kind decl_type decl_name]. rewrite !append_strings_spaced, !spaced_app. easy.
Qed.

(* ---------------------------------------------------------------- well-formed statements are accepted *)

(** the declarator is in parentheses *)



Lemma fits_lp : fits lp $"(". Proof. easy. Qed.
Lemma fits_rp : fits rp $")". Proof. easy. Qed.
Lemma fits_lb : fits lb $"[". Proof. easy. Qed.
Lemma fits_rb : fits rb $"]". Proof. easy. Qed.
Lemma fits_st : fits st $"*". Proof. easy. Qed.
#[local] Hint Resolve fits_lp fits_rp fits_lb fits_rb fits_st : fits.

Lemma no_function_match ty b p : single_or_pointer ty ->
  ~ exists a' s l c e, ty = a' ++ [s] /\ a' <> [] /\ is_ident (str_front s) = true /\
        b = [l] ++ c ++ [e] /\ fits lp l /\ fits rp e /\
        p = mk_fn (append_strings [] a') s (copy_parameters c).
Proof.
  intros [H|[ty' H]] (a' & s & l & c & e & Hty & Ha & Hs & _); subst ty.
  - rewrite app_length in H. destruct a'; [easy|]. cbn in H. lia.
  - apply snoc_inv in Hty as [_ <-]. vm_compute in Hs. easy.
Qed.

(** entry part of check_prototype for a statement [ty ++ x :: b] *)
Lemma check_prototype_enter ty b :
  type_tokens ty -> (2 <= length (ty ++ b))%nat ->
  match b with [] => True | x :: _ => tyish x = false end ->
  check_prototype (ty ++ b) =
    match b with
    | [] => check_object ty
    | x :: _ =>
        if Ascii.eqb (str_front x) "(" then
          or_else (check_function (ty ++ b) (vsize ty))
         (or_else (check_function_pointer (ty ++ b) (vsize ty))
         (or_else (check_function_paren (ty ++ b) (vsize ty))
                  (check_function_paren_pointer (ty ++ b) (vsize ty))))
        else if Ascii.eqb (str_front x) "[" then check_array (ty ++ b) (vsize ty)
        else Ok None
    end.
Proof.
  intros Hty Hlen Hb. unfold check_prototype.
  replace (vsize (ty ++ b) <? 2) with false by (unfold vsize; lia).
  pose proof (type_tokens_tyish ty Hty) as Ht.
  destruct ty as [|t r]; [easy|]. destruct Hty as [Hi _].
  replace (deref ((t :: r) ++ b) 0) with (Ok t) by (symmetry; apply (deref_mid [] t (r ++ b) 0); easy).
  cbn [bind]. rewrite (ident_front t Hi). cbn [negb].
  rewrite find_first_app by auto.
  destruct b as [|x b].
  - rewrite app_nil_r, Z.eqb_refl. easy.
  - replace (vsize (t :: r) =? vsize ((t :: r) ++ x :: b)) with false
      by (rewrite vsize_app, (vsize_cons x); pose proof (vsize_nonneg b); lia).
    rewrite deref_mid by easy. cbn [bind]. easy.
Qed.

Lemma is_object_some ty n : ty <> [] -> ident_word n ->
  check_object (ty ++ [n]) = Ok (Some (proto_of (DObject ty n))).
Proof.
  intros H1 H2. destruct (check_object_spec (ty ++ [n])) as (r & -> & Hr).
  f_equal. apply Hr. exists ty, n. repeat split; auto. now apply ident_front.
Qed.

Lemma type_tokens_snoc ty n : type_tokens ty -> ident_word n -> type_tokens (ty ++ [n]).
Proof.
  destruct ty as [|t r]; [easy|]. intros [H1 H2] H. split; [easy|].
  apply Forall_app. split; auto. constructor; auto. now left.
Qed.

Lemma check_prototype_accepts d :
  decl_ok d -> (paren_form d -> single_or_pointer (decl_type_tokens d)) ->
  check_prototype (written d) = Ok (Some (proto_of d)).
Proof.
  intros [Hty Hn] Hpf.
  assert (Htl : (1 <= length (decl_type_tokens d))%nat) by (destruct (decl_type_tokens d); [easy|cbn; lia]).
  assert (Hne : decl_type_tokens d <> []) by (intro Z0; rewrite Z0 in Htl; cbn in Htl; lia).
  pose proof (ident_front _ Hn) as Hni.
  assert (Hst : fits st (decl_name d) -> False).
  { intro F. apply fits_char in F. rewrite F in Hni. vm_compute in Hni. easy. }
  destruct d as [ty n|ty n i|ty n ps|ty n ps|two ty n ps|ty n ps]; cbn [decl_type_tokens decl_name written paren_form] in *.
  - (* object *)
    rewrite <- (app_nil_r (ty ++ [n])). rewrite check_prototype_enter; auto.
    + now apply is_object_some.
    + now apply type_tokens_snoc.
    + rewrite !app_length. cbn. lia.
  - (* array *)
    rewrite app_assoc. rewrite check_prototype_enter; auto.
    + cbn [app]. change (Ascii.eqb (str_front $"[") "(") with false. change (Ascii.eqb (str_front $"[") "[") with true. cbv iota.
      destruct (check_array_spec (ty ++ [n]) ($"[" :: i ++ [$"]"])) as (r & -> & Hr); [easy|].
      f_equal. apply Hr. exists ty, n, $"[", i, $"]". repeat split; auto with fits.
      unfold proto_of. cbn [decl_kind decl_type decl_name]. rewrite !append_strings_spaced, !spaced_app. easy.
    + now apply type_tokens_snoc.
    + rewrite !app_length. cbn. lia.
    + easy.
  - (* function *)
    rewrite app_assoc. rewrite check_prototype_enter; auto.
    + cbn [app]. change (Ascii.eqb (str_front $"(") "(") with true. cbv iota.
      destruct (check_function_spec (ty ++ [n]) ($"(" :: ps ++ [$")"])) as (r & -> & Hr); [easy|].
      replace r with (Some (proto_of (DFunction ty n ps))); [easy|].
      symmetry. apply Hr. exists ty, n, $"(", ps, $")". repeat split; auto with fits.
    + now apply type_tokens_snoc.
    + rewrite !app_length. cbn. lia.
    + easy.
  - (* ( name ) *)
    specialize (Hpf I). rewrite check_prototype_enter; auto.
    2:{ rewrite !app_length. cbn. lia. }
    2:{ easy. }
    cbn [app]. change (Ascii.eqb (str_front $"(") "(") with true. cbv iota.
    set (b := $"(" :: _). assert (Hb : b <> []) by easy.
    destruct (check_function_spec ty b Hb) as (r1 & -> & Hr1). cbn [or_else bind].
    destruct r1 as [p|]; [exfalso; apply (no_function_match ty b p); auto; now apply Hr1|].
    destruct (check_function_pointer_spec ty b Hb) as (r2 & -> & Hr2). cbn [or_else bind].
    destruct r2 as [p|].
    { exfalso. pose proof (proj1 (Hr2 p) eq_refl) as (l & t & s & m1 & m2 & c & e & _ & Hbe & _ & F2 & _).
      unfold b in Hbe. injection Hbe as _ Hbe _. subst. auto. }
    destruct (check_function_paren_spec ty b Hb) as (r3 & -> & Hr3). cbn [or_else bind].
    replace r3 with (Some (proto_of (DFunctionParen ty n ps))); [easy|].
    symmetry. apply Hr3. exists $"(", n, $")", $"(", ps, $")". repeat split; auto with fits.
  - (* ( * name ( ) ) *)
    specialize (Hpf I). rewrite check_prototype_enter; auto.
    2:{ rewrite !app_length. cbn. lia. }
    2:{ easy. }
    cbn [app]. change (Ascii.eqb (str_front $"(") "(") with true. cbv iota.
    set (b := $"(" :: _). assert (Hb : b <> []) by easy.
    destruct (check_function_spec ty b Hb) as (r1 & -> & Hr1). cbn [or_else bind].
    destruct r1 as [p|]; [exfalso; apply (no_function_match ty b p); auto; now apply Hr1|].
    destruct (check_function_pointer_spec ty b Hb) as (r2 & -> & Hr2). cbn [or_else bind].
    destruct r2 as [p|].
    { exfalso. pose proof (proj1 (Hr2 p) eq_refl) as (l & t & s & m1 & m2 & c & e & _ & Hbe & _ & F2 & Hs & F3 & _).
      unfold b in Hbe. destruct two; cbn [stars app] in Hbe.
      - injection Hbe as _ _ Hbe _. subst s. vm_compute in Hs. easy.
      - injection Hbe as _ _ _ Hbe _. subst m1. vm_compute in F3. easy. }
    destruct (check_function_paren_spec ty b Hb) as (r3 & -> & Hr3). cbn [or_else bind].
    destruct r3 as [p|].
    { exfalso. pose proof (proj1 (Hr3 p) eq_refl) as (l & s & m1 & m2 & c & e & _ & Hbe & _ & Hs & _).
      unfold b in Hbe. destruct two; cbn [stars app] in Hbe; injection Hbe as _ Hbe _; subst s; vm_compute in Hs; easy. }
    destruct (check_function_paren_pointer_spec ty b Hb) as (r4 & -> & Hr4).
    f_equal. apply Hr4. exists $"(", (stars two), n, $"(", ps, $")", $")".
    repeat split; auto with fits.
    + destruct two; cbn; auto.
    + destruct two; cbn [stars]; repeat constructor.
    + unfold proto_of, mk_fn. cbn [decl_kind decl_type decl_name decl_params].
      rewrite !append_strings_spaced, !spaced_app. easy.
  - (* ( * name ) ( ) *)
    specialize (Hpf I). rewrite check_prototype_enter; auto.
    2:{ rewrite !app_length. cbn. lia. }
    2:{ easy. }
    cbn [app]. change (Ascii.eqb (str_front $"(") "(") with true. cbv iota.
    set (b := $"(" :: _). assert (Hb : b <> []) by easy.
    destruct (check_function_spec ty b Hb) as (r1 & -> & Hr1). cbn [or_else bind].
    destruct r1 as [p|]; [exfalso; apply (no_function_match ty b p); auto; now apply Hr1|].
    destruct (check_function_pointer_spec ty b Hb) as (r2 & -> & Hr2). cbn [or_else bind].
    replace r2 with (Some (proto_of (DFunctionPointer ty n ps))); [easy|].
    symmetry. apply Hr2. exists $"(", $"*", n, $")", $"(", ps, $")". repeat split; auto with fits.
    unfold proto_of. cbn [decl_kind decl_type decl_name]. rewrite !append_strings_spaced, <- app_assoc. easy.
Qed.

(* ---------------------------------------------------------------- parameter splitting *)

Lemma net_nil : net [] = 0. Proof. easy. Qed.
Lemma net_app a b : net (a ++ b) = net a + net b.
Proof. unfold net. rewrite !count_occ_app. lia. Qed.
Lemma net_cons t l :
  net (t :: l) = (if str_eqb t $"(" then 1 else if str_eqb t $")" then -1 else 0) + net l.
Proof.
  unfold net. cbn [count_occ].
  destruct (str_dec t $"(") as [->|N1].
  - destruct (str_dec $"(" $")") as [E|_]; [discriminate E|]. rewrite str_eqb_refl. cbv iota. lia.
  - apply str_eqb_neq in N1. rewrite N1. destruct (str_dec t $")") as [->|N2].
    + rewrite str_eqb_refl. cbv iota. lia.
    + apply str_eqb_neq in N2. rewrite N2. cbv iota. lia.
Qed.

Lemma net_comma l : net ($"," :: l) = net l.
Proof. rewrite net_cons. reflexivity. Qed.
Lemma net_comma' l : net ([","%char] :: l) = net l.
Proof. exact (net_comma l). Qed.

Lemma lex_front_eqb t c : lexeme t -> In c ["*"; ","; "("; ")"; "["; "]"]%char ->
  Ascii.eqb (str_front t) c = str_eqb t [c].
Proof.
  intros Hl Hc. destruct (Ascii.eqb (str_front t) c) eqn:E.
  - apply Ascii.eqb_eq in E. rewrite (lexeme_fits_char t c Hl E Hc). now rewrite str_eqb_refl.
  - symmetry. apply str_eqb_neq. intros ->. cbn in E. now rewrite Ascii.eqb_refl in E.
Qed.

Lemma copy_loop_acc l : forall n cur acc, copy_loop n cur acc l = acc ++ copy_loop n cur [] l.
Proof.
  induction l as [|t l IH]; intros n cur acc; cbn [copy_loop].
  - destruct cur; [now rewrite app_nil_r|easy].
  - destruct (Ascii.eqb (str_front t) "("); [apply IH|].
    destruct (Ascii.eqb (str_front t) ")"); [apply IH|].
    destruct (Ascii.eqb (str_front t) "," && (n =? 0)); [|apply IH].
    rewrite IH, (IH n [] ([] ++ [cur])). now rewrite app_assoc.
Qed.

(** a stretch without a comma at depth zero is collected into the current group *)
Lemma copy_loop_group g : forall n cur acc rest, Forall lexeme g ->
  (forall a b, g = a ++ [$","] ++ b -> n + net a <> 0) ->
  copy_loop n cur acc (g ++ rest) = copy_loop (n + net g) (cur ++ g) acc rest.
Proof.
  induction g as [|t g IH]; intros n cur acc rest Hl Hc.
  - cbn [app]. rewrite net_nil, Z.add_0_r, app_nil_r. easy.
  - inversion Hl as [|? ? Ht Hl']; subst. cbn [app copy_loop]. rewrite net_cons.
    assert (Hstep : forall k, (if str_eqb t $"(" then 1 else if str_eqb t $")" then -1 else 0) = k ->
      copy_loop (n + k) (cur ++ [t]) acc (g ++ rest) = copy_loop (n + (k + net g)) (cur ++ t :: g) acc rest).
    { intros k Hk. rewrite IH; auto.
      - rewrite <- app_assoc. f_equal. lia.
      - intros a b Hab. specialize (Hc (t :: a) b). rewrite Hab in Hc. specialize (Hc eq_refl).
        rewrite net_cons, Hk in Hc. lia. }
    rewrite (lex_front_eqb t "(" Ht), (lex_front_eqb t ")" Ht), (lex_front_eqb t "," Ht) by (cbn; auto 10).
    change ["("%char] with $"(". change [")"%char] with $")". change [","%char] with $",".
    destruct (str_eqb t $"(") eqn:E1; [now apply Hstep|].
    destruct (str_eqb t $")") eqn:E2; [now apply Hstep|].
    destruct (str_eqb t $",") eqn:E3.
    + apply str_eqb_eq in E3. subst t. specialize (Hc [] g eq_refl). rewrite net_nil in Hc.
      replace (n =? 0) with false by lia. cbn [andb].
      rewrite <- (Hstep 0) by easy. now rewrite Z.add_0_r.
    + cbn [andb]. rewrite <- (Hstep 0) by easy. now rewrite Z.add_0_r.
Qed.

Lemma first_top_comma l : forall n,
  (forall a b, l = a ++ [$","] ++ b -> n + net a <> 0) \/
  exists g r, l = g ++ [$","] ++ r /\ n + net g = 0 /\ (forall a b, g = a ++ [$","] ++ b -> n + net a <> 0).
Proof.
  induction l as [|t l IH]; intro n.
  - left. intros a b H. destruct a; easy.
  - destruct (str_eq_dec t $",") as [->|Ht].
    + destruct (Z.eq_dec n 0) as [->|Hn].
      * right. exists [], l. repeat split; auto. intros a b H. destruct a; easy.
      * destruct (IH n) as [H|(g & r & -> & H2 & H3)].
        -- left. intros a b Hab. destruct a as [|x a]; [rewrite net_nil; lia|].
           injection Hab as <- Hab. first [rewrite net_comma | rewrite net_comma']. apply H in Hab. lia.
        -- right. exists ($"," :: g), r. split; [easy|]. split.
           ++ first [rewrite net_comma | rewrite net_comma']. lia.
           ++ intros a b Hab. destruct a as [|x a]; [rewrite net_nil; lia|].
              injection Hab as <- Hab. first [rewrite net_comma | rewrite net_comma']. apply H3 in Hab. lia.
    + set (k := if str_eqb t $"(" then 1 else if str_eqb t $")" then -1 else 0).
      destruct (IH (n + k)) as [H|(g & r & -> & H2 & H3)].
      * left. intros a b Hab. destruct a as [|x a]; [exfalso; apply Ht; now inversion Hab|].
        injection Hab as <- Hab. rewrite net_cons. fold k. apply H in Hab. lia.
      * right. exists (t :: g), r. split; [easy|]. split.
        -- rewrite net_cons. fold k. lia.
        -- intros a b Hab. destruct a as [|x a]; [exfalso; apply Ht; now inversion Hab|].
           injection Hab as <- Hab. rewrite net_cons. fold k. apply H3 in Hab. lia.
Qed.

Lemma no_top_comma_0 l : no_top_comma l <-> (forall a b, l = a ++ [$","] ++ b -> 0 + net a <> 0).
Proof. unfold no_top_comma. split; intros H a b E; apply H in E; lia. Qed.

Lemma copy_parameters_comma g r : Forall lexeme g -> no_top_comma g -> net g = 0 ->
  copy_parameters (g ++ [$","] ++ r) = g :: copy_parameters r.
Proof.
  intros Hl Hc Hn. unfold copy_parameters. rewrite copy_loop_group; auto.
  rewrite Hn. cbn [app Z.add copy_loop]. change (Ascii.eqb (str_front $",") "(") with false.
  change (Ascii.eqb (str_front $",") ")") with false. change (Ascii.eqb (str_front $",") "," && (0 =? 0)) with true.
  cbv iota. rewrite copy_loop_acc. easy.
Qed.
Lemma copy_parameters_last g : Forall lexeme g -> no_top_comma g ->
  copy_parameters g = match g with [] => [] | _ => [g] end.
Proof.
  intros Hl Hc. unfold copy_parameters. rewrite <- (app_nil_r g) at 1. rewrite copy_loop_group; auto.
Qed.



Lemma copy_parameters_spec_aux k : forall l, (length l <= k)%nat -> Forall lexeme l ->
  exists gs, copy_parameters l = gs /\ Forall no_top_comma gs /\ closed_groups gs /\
    ((l = comma_join gs /\ (gs = [] \/ last gs [] <> [])) \/
     (gs <> [] /\ closed_groups (gs ++ [[]]) /\ l = comma_join gs ++ [$","])).
Proof.
  induction k as [|k IH]; intros l Hk Hl.
  - destruct l; [|cbn in Hk; lia]. exists [].
    repeat (split; [first [reflexivity | constructor]|]). left. auto.
  - destruct (first_top_comma l 0) as [H|(g & r & -> & Hg & Hc)].
    + apply no_top_comma_0 in H. rewrite copy_parameters_last by auto. eexists. split; [reflexivity|].
      destruct l as [|t l]; [repeat (split; [constructor|]); left; auto|].
      split; [repeat constructor; auto|]. split; [constructor|].
      left. split; [easy|]. right. cbn. easy.
    + apply no_top_comma_0 in Hc. rewrite Z.add_0_l in Hg.
      apply Forall_app in Hl as [Hlg Hl]. apply Forall_app in Hl as [_ Hlr].
      rewrite copy_parameters_comma by auto.
      destruct (IH r) as (gs & Hgs & F1 & F2 & F3); auto.
      { rewrite !app_length in Hk. cbn in Hk. lia. }
      rewrite Hgs. eexists. split; [reflexivity|].
      split; [constructor; auto|].
      destruct gs as [|g1 gs].
      * split; [constructor|].
        right. split; [easy|]. split.
        -- cbn. constructor; auto.
        -- destruct F3 as [[-> _]|[X _]]; [|easy]. cbn. easy.
      * split.
        { unfold closed_groups in *. change (removelast (g :: g1 :: gs)) with (g :: removelast (g1 :: gs)).
          constructor; auto. }
        destruct F3 as [[-> X]|(X & Y & ->)].
        -- left. split; [easy|]. right. destruct X as [X|X]; [easy|]. exact X.
        -- right. split; [easy|]. split.
           ++ unfold closed_groups in *.
              change (removelast ((g :: g1 :: gs) ++ [[]])) with (g :: removelast ((g1 :: gs) ++ [[]])).
              constructor; auto.
           ++ change (comma_join (g :: g1 :: gs)) with (g ++ [$","] ++ comma_join (g1 :: gs)).
              now rewrite <- !app_assoc.
Qed.

Lemma comma_join_cons g g1 gs : comma_join (g :: g1 :: gs) = g ++ [$","] ++ comma_join (g1 :: gs).
Proof. easy. Qed.

(** splitting is the inverse of writing a list of groups with commas *)
Lemma copy_parameters_join gs :
  Forall (Forall lexeme) gs -> Forall no_top_comma gs -> closed_groups gs -> (gs = [] \/ last gs [] <> []) ->
  copy_parameters (comma_join gs) = gs.
Proof.
  induction gs as [|g [|g1 gs] IH]; intros H1 H2 H3 H4; [easy| |].
  - inversion H1; inversion H2; subst. cbn [comma_join]. rewrite copy_parameters_last by auto.
    destruct H4 as [H4|H4]; [easy|]. cbn in H4. now destruct g.
  - inversion H1; inversion H2; subst. rewrite comma_join_cons.
    unfold closed_groups in H3. change (removelast (g :: g1 :: gs)) with (g :: removelast (g1 :: gs)) in H3.
    inversion H3; subst. rewrite copy_parameters_comma by auto. f_equal. apply IH; auto.
    right. destruct H4 as [H4|H4]; [easy|]. exact H4.
Qed.

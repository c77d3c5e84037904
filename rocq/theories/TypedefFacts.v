(** Facts about typedefs for function pointers and arrays. *)
From Coq Require Import Ascii String List Bool Arith Lia.
From Verif Require Import Str StrFacts Parse SpecParse SpecTables ParseFacts2 Format SpecFormat FormatFacts.
Import ListNotations.

(* ---------------------------------------------------------------- tokens of printed token lists *)

Lemma tokens_word w : Forall (fun c => is_ident c = true) w -> forall cur s, tokens_from cur (w ++ s) = tokens_from (cur ++ w) s.
Proof.
  intro H. induction H as [|c w Hc H IH]; intros cur s; [now rewrite app_nil_r|].
  cbn [app tokens_from]. rewrite Hc, IH. now rewrite <- app_assoc.
Qed.
Lemma tokens_lexeme t s : lexeme t -> tokens (t ++ sp :: s) = split_dots t ++ tokens s.
Proof.
  unfold tokens. intros [[Hn Hw]|H].
  - rewrite tokens_word by easy. cbn [app]. cbn [tokens_from]. replace (is_ident sp) with false by easy. replace (isspace sp) with true by easy.
    assert (E : split_dots t = [t]).
    { unfold split_dots. destruct (str_eqb t $"...") eqn:E; [|easy]. apply str_eqb_eq in E. subst t. now inversion Hw. }
    rewrite E. destruct t; easy.
  - cbn in H. destruct H as [<-|[<-|[<-|[<-|[<-|[<-|[<-|[]]]]]]]]; reflexivity.
Qed.
Lemma spaced_cons t ts : spaced (t :: ts) = t ++ sp :: spaced ts.
Proof. unfold spaced. cbn [map concat]. now rewrite <- app_assoc. Qed.
Lemma spaced_app a b : spaced (a ++ b) = spaced a ++ spaced b.
Proof. unfold spaced. now rewrite map_app, concat_app. Qed.
Lemma tokens_spaced_app ts s : Forall lexeme ts -> tokens (spaced ts ++ s) = flat_map split_dots ts ++ tokens s.
Proof.
  intro H. induction H as [|t ts Ht H IH]; [easy|]. rewrite spaced_cons, <- app_assoc. cbn [app flat_map].
  rewrite tokens_lexeme by easy. rewrite IH. now rewrite <- app_assoc.
Qed.
Lemma tokens_spaced ts : Forall lexeme ts -> tokens (spaced ts) = flat_map split_dots ts.
Proof. intro H. pose proof (tokens_spaced_app ts [] H) as E. now rewrite !app_nil_r in E. Qed.

(* ---------------------------------------------------------------- no '(' or '[' in a type *)

Lemma type_tok_clean c t : type_tok t -> is_ident c = false -> c <> "*"%char -> ~ In c t.
Proof.
  intros [[_ H]| ->] Hc Hs Hi.
  - rewrite Forall_forall in H. apply H in Hi. congruence.
  - destruct Hi as [E|[]]. congruence.
Qed.
Lemma type_tokens_all ty : type_tokens ty -> Forall type_tok ty.
Proof. destruct ty as [|t ty]; [easy|]. intros [H1 H2]. constructor; [now left|easy]. Qed.
Lemma spaced_clean c ty : type_tokens ty -> is_ident c = false -> c <> "*"%char -> c <> sp -> ~ In c (spaced ty).
Proof.
  intros H Hc Hs Hb. apply type_tokens_all in H. induction H as [|t ty Ht H IH]; [easy|].
  rewrite spaced_cons. intro X. apply in_app_or in X as [X|[X|X]]; [|congruence|now apply IH].
  now apply (type_tok_clean c t).
Qed.
Lemma find_at a b n : (forall x y, a ++ n ++ b = x ++ n ++ y -> length a <= length x) -> find n (a ++ n ++ b) = Some (length a).
Proof.
  intro H. pose proof (find_spec n (a ++ n ++ b)) as K. destruct (find n (a ++ n ++ b)) as [k|].
  - destruct K as [(x & y & E & <-) M]. specialize (M a b eq_refl). specialize (H x y E). f_equal. lia.
  - now specialize (K a b).
Qed.
Lemma find_clean c n a b : ~ In c a -> find (c :: n) (a ++ (c :: n) ++ b) = Some (length a).
Proof.
  intro H. apply find_at. intros x y E. revert x E. induction a as [|d a IH]; intros x E; cbn [length]; [lia|].
  destruct x as [|e x]; cbn [app] in E; injection E as <- E.
  - exfalso. apply H. now left.
  - cbn [length]. apply le_n_S, IH; [|easy]. intro X. apply H. now right.
Qed.

Lemma insert_at_split (a b t : str) : insert_at (length a) t (a ++ b) = a ++ t ++ b.
Proof. unfold insert_at. apply (replace_at_split a b [] t). Qed.

Lemma fptr_typedef_spec ty rest name : type_tokens ty ->
  fptr_typedef (spaced ty ++ $"(*)" ++ rest) name = spaced ty ++ $"(*" ++ name ++ $")" ++ rest.
Proof.
  intro H. assert (C : ~ In "("%char (spaced ty)) by (apply spaced_clean; easy).
  unfold fptr_typedef. cbn [lit list_ascii_of_string].
  rewrite (find_clean "(" ["*"; ")"]%char (spaced ty) rest C).
  replace (spaced ty ++ ["("; "*"; ")"]%char ++ rest) with (spaced ty ++ ["("]%char ++ ["*"; ")"]%char ++ rest) by easy.
  rewrite (find_clean "(" [] (spaced ty) (["*"; ")"]%char ++ rest) C), Nat.eqb_refl.
  replace (spaced ty ++ ["("]%char ++ ["*"; ")"]%char ++ rest) with ((spaced ty ++ ["("; "*"]%char) ++ [")"]%char ++ rest) by now rewrite <- app_assoc.
  replace (length (spaced ty) + 2) with (length (spaced ty ++ ["("; "*"]%char)) by (rewrite app_length; reflexivity).
  rewrite insert_at_split. now rewrite <- app_assoc.
Qed.
Lemma spaced_last ty : ty <> [] -> exists a, spaced ty = a ++ [sp].
Proof.
  intro H. destruct (exists_last H) as (l & t & ->). exists (spaced l ++ t). rewrite spaced_app, spaced_cons. cbn [spaced map concat].
  now rewrite <- app_assoc.
Qed.
Lemma array_typedef_spec ty rest name : type_tokens ty ->
  array_typedef (spaced ty ++ $"[" ++ rest) name = spaced ty ++ name ++ $"[" ++ rest.
Proof.
  intro H. assert (C : ~ In "["%char (spaced ty)) by (apply spaced_clean; easy).
  unfold array_typedef. cbn [lit list_ascii_of_string]. rewrite (find_clean "[" [] (spaced ty) rest C).
  destruct (spaced_last ty) as (a & E); [intros ->; easy|]. 
  assert (S : str_at (spaced ty ++ ["["]%char ++ rest) (length (spaced ty) - 1) = sp).
  { rewrite E, app_length. cbn [length]. replace (length a + 1 - 1) with (length a) by lia. unfold str_at.
    rewrite <- app_assoc. rewrite nth_error_app2 || rewrite app_nth2; [|lia]. rewrite Nat.sub_diag. reflexivity. }
  rewrite S. replace (Ascii.eqb sp " ") with true by easy. rewrite andb_false_r. apply insert_at_split.
Qed.

(* ---------------------------------------------------------------- create_typedefs *)

Lemma typedef_name_eq pfx s : typedef_name pfx s = td_name pfx s.
Proof. reflexivity. Qed.
Lemma create_typedefs_decls pfx ds objs : Forall2 describes ds objs -> Forall decl_ok ds ->
  create_typedefs pfx objs =
  Ok (flat_map (fun d => typedef_text d (td_name pfx (decl_name d))) ds,
      map (with_typedef pfx) objs).
Proof.
  intros H. induction H as [|d p ds objs (H1 & H2 & H3) H IH]; intro K; [easy|].
  apply Forall_cons_iff in K as [[Kt Kn] K]. cbn [create_typedefs flat_map map]. unfold with_typedef at 1. rewrite !typedef_name_eq, (IH K), H1, H2, H3.
  destruct d as [ty n|ty n i|ty n ps|ty n ps|two ty n ps|ty n ps]; cbn [decl_kind decl_type decl_name decl_type_tokens typedef_text app] in *;
    try reflexivity.
  - clear H3. rewrite spaced_app. rewrite spaced_cons. change ($"[" ++ sp :: spaced (i ++ [$"]"])) with ($"[" ++ (sp :: spaced (i ++ [$"]"]))).
    rewrite array_typedef_spec by easy.
    remember (spaced ty ++ _) as D eqn:ED. destruct D as [|c D].
    + symmetry in ED. apply app_eq_nil in ED as [ED _]. destruct (spaced_last ty) as (a & E); [intros ->; easy|]. rewrite ED in E. now destruct a.
    + cbn [bind fst snd]. unfold retyped. now rewrite H1, H2.
  - clear H3. rewrite fptr_typedef_spec by easy.
    remember (spaced ty ++ _) as D eqn:ED. destruct D as [|c D].
    + symmetry in ED. apply app_eq_nil in ED as [ED _]. destruct (spaced_last ty) as (a & E); [intros ->; easy|]. rewrite ED in E. now destruct a.
    + cbn [bind fst snd]. unfold retyped. now rewrite H1, H2.
Qed.

Lemma split_dots_ident t : ident_word t -> split_dots t = [t].
Proof.
  intros [_ H]. unfold split_dots. destruct (str_eqb t $"...") eqn:E; [|easy]. apply str_eqb_eq in E. subst. now inversion H.
Qed.
Lemma type_tok_lexeme t : type_tok t -> lexeme t.
Proof. intros [H| ->]; [now left|right; cbn; tauto]. Qed.
Lemma type_tokens_lexeme ty : type_tokens ty -> Forall lexeme ty.
Proof. intro H. apply type_tokens_all in H. eapply Forall_impl; [|exact H]. apply type_tok_lexeme. Qed.
Lemma tokens_name n c s : ident_word n -> is_ident c = false -> tokens (n ++ c :: s) = n :: tokens (c :: s).
Proof.
  intros [Hn Hw] Hc. unfold tokens. rewrite tokens_word by easy. cbn [app tokens_from]. rewrite Hc. destruct n; easy.
Qed.
Lemma tokens_mark c s : is_ident c = false -> isspace c = false -> tokens (c :: s) = [c] :: tokens s.
Proof. intros H1 H2. unfold tokens. cbn [tokens_from]. now rewrite H1, H2. Qed.

(** the typedef text is, token by token, the declaration with its new name *)
Lemma typedef_text_tokens d n t : decl_ok d -> Forall lexeme (written d) -> ident_word n ->
  In t (typedef_text d n) -> tokens t = flat_map split_dots (written (renamed d n)).
Proof.
  intros [Ht Hd] Hl Hn Hi. destruct d as [ty m|ty m i|ty m ps|ty m ps|two ty m ps|ty m ps];
    cbn [typedef_text] in Hi; try easy; destruct Hi as [<-|[]]; cbn [decl_type_tokens written renamed] in *.
  - rewrite !Forall_app in Hl. rewrite tokens_spaced_app by now apply type_tokens_lexeme.
    rewrite flat_map_app. f_equal. cbn [app flat_map]. rewrite split_dots_ident by easy. cbn [app].
    rewrite spaced_cons. cbn [lit list_ascii_of_string app]. rewrite tokens_name by easy. f_equal.
    rewrite tokens_mark by easy. unfold split_dots at 1. cbn. f_equal.
    unfold tokens. cbn [tokens_from]. replace (is_ident sp) with false by easy. replace (isspace sp) with true by easy.
    apply tokens_spaced. apply Forall_app. split; [tauto|]. constructor; [right; cbn; tauto|constructor].
  - rewrite !Forall_app in Hl. rewrite tokens_spaced_app by now apply type_tokens_lexeme.
    rewrite flat_map_app. f_equal. cbn [app lit list_ascii_of_string]. rewrite tokens_mark by easy. rewrite tokens_mark by easy.
    rewrite tokens_name by easy. rewrite tokens_mark by easy.
    rewrite tokens_spaced.
    + cbn [flat_map]. rewrite (split_dots_ident n) by easy. reflexivity.
    + constructor; [right; cbn; tauto|]. apply Forall_app. split; [tauto|]. constructor; [right; cbn; tauto|constructor].
Qed.

(* ---------------------------------------------------------------- the whole end of tokenize *)

Lemma mapR_all {A B} (f : A -> res B) (R : A -> B -> Prop) l : (forall a, In a l -> exists b, f a = Ok b /\ R a b) ->
  exists bs, mapR f l = Ok bs /\ Forall2 R l bs.
Proof.
  induction l as [|a l IH]; intro H; cbn [mapR]; [exists []; split; [easy|constructor]|].
  destruct (H a (or_introl eq_refl)) as (b & -> & Hb). destruct IH as (bs & -> & Hbs); [intros x Hx; apply H; now right|].
  exists (b :: bs). split; [easy|now constructor].
Qed.
Lemma format_proto_spec p : exists q, format_proto p = Ok q /\ formatted_proto p q.
Proof.
  unfold format_proto. destruct (format_spec (p_type p)) as (t & Et & _). destruct (format_spec (p_args p)) as (a & Ea & _).
  rewrite Et. cbn [bind]. rewrite Ea. cbn [bind]. eexists. split; [reflexivity|]. repeat split; easy.
Qed.
Lemma finish_spec pfx t ds : Forall2 describes ds (t_objs t) -> Forall decl_ok ds ->
  exists s, finish_tables pfx t = Ok s /\
    Forall2 formatted_proto (t_funcs t) (s_funcs s) /\
    Forall2 formatted_proto (map (with_typedef pfx) (t_objs t)) (s_objs s) /\
    Forall2 formatted (flat_map (fun d => typedef_text d (td_name pfx (decl_name d))) ds) (s_typedefs s).
Proof.
  intros H1 H2. unfold finish_tables. rewrite (create_typedefs_decls pfx ds _ H1 H2). cbn [bind fst snd].
  destruct (mapR_all format_proto formatted_proto (t_funcs t)) as (f & -> & Hf); [intros; apply format_proto_spec|]. cbn [bind].
  destruct (mapR_all format_proto formatted_proto (map (with_typedef pfx) (t_objs t))) as (o & -> & Ho); [intros; apply format_proto_spec|]. cbn [bind].
  destruct (mapR_all format_prototype formatted (flat_map (fun d => typedef_text d (td_name pfx (decl_name d))) ds)) as (d & -> & Hd).
  { intros a _. destruct (format_spec a) as (x & E & _). exists x. now split. }
  cbn [bind]. eexists. split; [reflexivity|]. cbn [s_funcs s_objs s_typedefs]. auto.
Qed.

(* ---------------------------------------------------------------- any object list (the AST mode has other types) *)

Lemma create_typedefs_any pfx objs : forall defs objs', create_typedefs pfx objs = Ok (defs, objs') ->
  objs' = map (with_typedef pfx) objs /\
  Forall2 (fun p def => exists a b, p_type p = a ++ b /\
                         (def = a ++ td_name pfx (p_symbol p) ++ b \/ def = a ++ $" " ++ td_name pfx (p_symbol p) ++ b) /\
                         (p_kind p = KFunctionPointer -> ends_with $"(*" a = true /\ starts_with $")" b = true) /\
                         (p_kind p = KObjectArray -> starts_with $"[" b = true /\ ~ In "["%char a))
          (filter (fun p => match p_kind p with KFunctionPointer | KObjectArray => true | _ => false end) objs) defs.
Proof.
  induction objs as [|p objs IH]; intros defs objs' E; cbn [create_typedefs] in E; try rewrite !typedef_name_eq in E.
  - injection E as <- <-. split; [easy|constructor].
  - destruct (p_kind p) eqn:K.
    + destruct (create_typedefs pfx objs) as [[d o]| | |]; try discriminate. cbn [bind fst snd] in E. injection E as <- <-.
      destruct (IH d o eq_refl) as [-> H]. cbn [map filter]. unfold with_typedef at 2. rewrite K. easy.
    + set (name := td_name pfx (p_symbol p)) in *. unfold fptr_typedef in E.
      destruct (find $"(*)" (p_type p)) as [pos|] eqn:F; [|discriminate]. destruct (match find $"(" (p_type p) with Some _ => _ | None => _ end); [|discriminate].
      apply find_split in F as (a & b & F & <-).
      assert (X : insert_at (length a + 2) name (p_type p) = (a ++ $"(*") ++ name ++ $")" ++ b).
      { rewrite F. change ($"(*)") with ($"(*" ++ $")"). rewrite <- (app_assoc ($"(*")), (app_assoc a). 
        replace (length a + 2) with (length (a ++ $"(*")) by (rewrite app_length; reflexivity). apply insert_at_split. }
      rewrite X in E. destruct ((a ++ $"(*") ++ name ++ $")" ++ b) as [|c r] eqn:Q; [discriminate|]. rewrite <- Q in E.
      destruct (create_typedefs pfx objs) as [[d o]| | |]; try discriminate. cbn [bind fst snd] in E. injection E as <- <-.
      destruct (IH d o eq_refl) as [-> H]. cbn [map filter]. rewrite K. split; [f_equal; unfold with_typedef, retyped; now rewrite K|].
      constructor; [|easy]. exists (a ++ $"(*"), ($")" ++ b). split; [rewrite F; now rewrite <- !app_assoc|].
      split; [now left|]. split; [|congruence]. intros _. split; [apply ends_with_app|apply starts_with_app].
    + destruct (create_typedefs pfx objs) as [[d o]| | |]; try discriminate. cbn [bind fst snd] in E. injection E as <- <-.
      destruct (IH d o eq_refl) as [-> H]. cbn [map filter]. unfold with_typedef at 2. rewrite K. easy.
    + set (name := td_name pfx (p_symbol p)) in *. unfold array_typedef in E.
      destruct (find $"[" (p_type p)) as [pos|] eqn:F; [|discriminate].
      assert (Hc : exists a b, p_type p = a ++ $"[" ++ b /\ length a = pos /\ ~ In "["%char a).
      { pose proof (find_spec $"[" (p_type p)) as S. rewrite F in S. destruct S as [(a & b & S & L) M]. exists a, b. split; [easy|]. split; [easy|].
        intro I. apply in_split in I as (x & y & ->). specialize (M x (y ++ $"[" ++ b)). rewrite S in M. rewrite <- L, app_length in M. cbn [length] in M.
        assert (length x + (1 + length y) <= length x); [|lia]. apply M. now rewrite <- app_assoc. }
      destruct Hc as (a & b & S & <- & Hc).
      destruct (Nat.ltb 0 (length a) && negb (Ascii.eqb (str_at (p_type p) (length a - 1)) " ")).
      * assert (X : insert_at (length a + 1) name (insert_at (length a) $" " (p_type p)) = a ++ $" " ++ name ++ $"[" ++ b).
        { rewrite S, insert_at_split, (app_assoc a). replace (length a + 1) with (length (a ++ $" ")) by (rewrite app_length; reflexivity).
          rewrite insert_at_split. now rewrite <- app_assoc. }
        rewrite X in E. destruct (a ++ $" " ++ name ++ $"[" ++ b) as [|c r] eqn:Q; [discriminate|]. rewrite <- Q in E.
        destruct (create_typedefs pfx objs) as [[d o]| | |]; try discriminate. cbn [bind fst snd] in E. injection E as <- <-.
        destruct (IH d o eq_refl) as [-> H]. cbn [map filter]. rewrite K. split; [f_equal; unfold with_typedef, retyped; now rewrite K|].
        constructor; [|easy]. exists a, ($"[" ++ b). split; [easy|]. split; [now right|]. split; [congruence|]. intros _. split; [apply starts_with_app|easy].
      * rewrite S, insert_at_split in E. destruct (a ++ name ++ $"[" ++ b) as [|c r] eqn:Q; [discriminate|]. rewrite <- Q in E.
        destruct (create_typedefs pfx objs) as [[d o]| | |]; try discriminate. cbn [bind fst snd] in E. injection E as <- <-.
        destruct (IH d o eq_refl) as [-> H]. cbn [map filter]. rewrite K. split; [f_equal; unfold with_typedef, retyped; now rewrite K|].
        constructor; [|easy]. exists a, ($"[" ++ b). split; [easy|]. split; [now left|]. split; [congruence|]. intros _. split; [apply starts_with_app|easy].
Qed.

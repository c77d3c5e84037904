(** Proofs for C97: statements and functions are read back as they are. *)
From Coq Require Import Ascii String List Bool Arith Lia.
From Verif Require Import Str StrFacts SpecCLang SpecCProg SpecCRun SpecBody SpecCRead CRead.
Import ListNotations.

Section Read.
Variable tw : str -> bool.
Hypothesis no_keyword : forallb (fun w => negb (tw w)) keywords = true.
Notation read_at := (read_at tw). Notation read_s := (read_s tw). Notation read_ss := (read_ss tw).
Lemma read_s_S n l : read_s (S n) l =
      let value := semicolon SExpr (read_at n 9 l) in
      (* a condition in brackets, and statements in braces *)
      let block r := match r with
                     | t :: u :: r1 =>
                         if is_op $"(" t then
                           match read_at n 9 (u :: r1) with
                           | Some (c, t1 :: t2 :: r2) =>
                               if is_op $")" t1 && is_op $"{" t2 then match read_ss n r2 with Some (b, r3) => Some (c, b, r3) | None => None end else None
                           | _ => None
                           end
                         else None
                     | _ => None
                     end in
      match l with
      | TWord w :: r =>
          if tw w then
            match declarator l with
            | (d, r1) =>
                match last_word d with
                | Some (ty, x) =>
                    let (arr, r2) := match r1 with a :: b :: r2 => if is_op $"[" a && is_op $"]" b then (true, r2) else (false, r1) | _ => (false, r1) end in
                    match r2 with
                    | t :: r3 => if is_op $";" t then Some (SDecl ty x arr None, r3)
                                 else if is_op $"=" t then semicolon (fun e => SDecl ty x arr (Some e)) (read_at n 9 r3)
                                 else None
                    | [] => None
                    end
                | None => None
                end
            end
          else if str_eqb w $"if" then
            match block r with
            | Some (c, yes, t1 :: t2 :: r1) =>
                match t1 with
                | TWord e => if str_eqb e $"else" then
                               if is_op $"{" t2 then match read_ss n r1 with Some (no, r2) => Some (SIf c yes (Some no), r2) | None => None end
                               else None
                             else Some (SIf c yes None, t1 :: t2 :: r1)
                | _ => Some (SIf c yes None, t1 :: t2 :: r1)
                end
            | Some (c, yes, r1) => Some (SIf c yes None, r1)
            | None => None
            end
          else if str_eqb w $"return" then
            match r with
            | t :: r1 => if is_op $";" t then Some (SReturn None, r1) else semicolon (fun e => SReturn (Some e)) (read_at n 9 r)
            | [] => None
            end
          else if str_eqb w $"switch" then match block r with Some (c, b, r1) => Some (SSwitch c b, r1) | None => None end
          else if str_eqb w $"case" then
            match read_at n 9 r with Some (e, t :: r1) => if is_op $":" t then Some (SCase e, r1) else None | _ => None end
          else if str_eqb w $"default" then match r with t :: r1 => if is_op $":" t then Some (SDefault, r1) else None | [] => None end
          else if str_eqb w $"break" then match r with t :: r1 => if is_op $";" t then Some (SBreak, r1) else None | [] => None end
          else value
      | t :: r => if is_op $";" t then Some (SExpr ENone, r) else value
      | [] => None
      end.
Proof. reflexivity. Qed.
Lemma read_ss_S n l : read_ss (S n) l =
      match l with
      | t :: r => if is_op $"}" t then Some ([], r)
                  else match read_s n l with
                       | Some (s, r1) => match read_ss n r1 with Some (b, r2) => Some (s :: b, r2) | None => None end
                       | None => None
                       end
      | [] => None
      end.
Proof. reflexivity. Qed.

Lemma keyword_free w : is_keyword w = true -> tw w = false.
Proof.
  intro H. apply existsb_exists in H as (x & X & E). apply str_eqb_eq in E. subst x. rewrite forallb_forall in no_keyword. apply negb_true_iff. now apply no_keyword.
Qed.

Definition decl_tok (t : tok) : bool := match t with TWord _ => true | TOp o => str_eqb o $"*" | _ => false end.
Fixpoint named_s (s : stmt) : bool :=
  match s with
  | SExpr e => named tw e
  | SDecl ty _ _ init => starts_type tw ty && forallb decl_tok ty && match init with Some e => named tw e | None => true end
  | SIf c yes no => named tw c && forallb named_s yes && match no with Some l => forallb named_s l | None => true end
  | SReturn (Some e) | SCase e => named tw e
  | SReturn None | SDefault | SBreak => true
  | SSwitch e l => named tw e && forallb named_s l
  end.

Lemma value_read {A} (f : expr -> A) e r : fine_e e = true -> named tw e = true ->
  ev (fun n => semicolon f (read_at n 9 (print_e e ++ pn ";" :: r)) = Some (f e, r)).
Proof.
  intros F N. pose proof (expr_read tw e 9 F N ltac:(lia) ltac:(apply levels; auto) (pn ";" :: r) eq_refl) as H.
  eapply ev_imp; [|exact H]. intros n Q. cbn beta in *. rewrite Q. reflexivity.
Qed.
Lemma declarator_app l : forall r, forallb decl_tok l = true -> declarator (l ++ r) = let (a, b) := declarator r in (l ++ a, b).
Proof.
  induction l as [|t l IH]; intros r H; cbn [app]. { now destruct (declarator r). }
  cbn [forallb] in H. apply andb_true_iff in H as [H1 H2]. specialize (IH r H2). cbn [declarator]. destruct t; cbn [decl_tok] in H1; try discriminate.
  - rewrite IH. now destruct (declarator r).
  - rewrite H1, IH. now destruct (declarator r).
Qed.
Lemma last_word_app l x : last_word (l ++ [TWord x]) = Some (l, x).
Proof. unfold last_word. rewrite rev_app_distr. cbn [rev app]. now rewrite rev_involutive. Qed.

Definition not_else (r : list tok) : Prop := match r with TWord w :: _ => str_eqb w $"else" = false | _ => True end.
Definition reads_s (s : stmt) : Prop := forall r, not_else r -> ev (fun n => read_s n (print_s s ++ r) = Some (s, r)).
(** the first token of a statement *)
Lemma first_s s : fine_s s = true -> named_s s = true -> exists t r, print_s s = t :: r /\ is_op $"}" t = false /\ not_else [t].
Proof.
  destruct s; cbn [fine_s named_s print_s]; intros F N.
  - destruct e; try (eexists; eexists; split; [reflexivity|split; reflexivity]).
    all: cbn [fine_x] in F; destruct (first_tok tw _ F N) as (t & r & -> & O); eexists; eexists; (split; [reflexivity|]).
    all: destruct t; cbn [opener] in O; try contradiction; try (split; [reflexivity|exact Logic.I]).
    all: try (cbn [In] in O; destruct O as [<-|[<-|[<-|[<-|[<-|[]]]]]]; split; reflexivity || exact Logic.I).
    all: split; [reflexivity|]; cbn [not_else]; destruct O as [_ O]; destruct (str_eqb s $"else") eqn:E; [|reflexivity]; apply str_eqb_eq in E; subst s; discriminate (O eq_refl).
  - rewrite !andb_true_iff in N. destruct N as [[N1 N2] _]. destruct ty as [|[w| | | | | |] ty]; try discriminate. eexists; eexists; split; [reflexivity|]. split; [reflexivity|].
    cbn [not_else]. destruct (str_eqb w $"else") eqn:E; [|reflexivity]. apply str_eqb_eq in E; subst w. cbn [starts_type] in N1. rewrite (keyword_free $"else" eq_refl) in N1. discriminate.
  - eexists; eexists; split; [reflexivity|split; reflexivity].
  - eexists; eexists; split; [reflexivity|split; reflexivity].
  - eexists; eexists; split; [reflexivity|split; reflexivity].
  - eexists; eexists; split; [reflexivity|split; reflexivity].
  - eexists; eexists; split; [reflexivity|split; reflexivity].
  - eexists; eexists; split; [reflexivity|split; reflexivity].
Qed.
Lemma block_read l : Forall reads_s l -> forallb fine_s l = true -> forallb named_s l = true ->
  forall r, ev (fun n => read_ss n (flat_map print_s l ++ pn "}" :: r) = Some (l, r)).
Proof.
  induction l as [|s l IH]; intros H F N r; cbn [flat_map app].
  - apply ev_S, ev_all. intro n. rewrite read_ss_S. reflexivity.
  - inversion H as [|? ? H1 H2]; subst. cbn [forallb] in F, N. apply andb_true_iff in F as [F1 F2]. apply andb_true_iff in N as [N1 N2].
    rewrite <- app_assoc. destruct (first_s s F1 N1) as (t & q & P & O & E).
    assert (NE : not_else (flat_map print_s l ++ pn "}" :: r)).
    { destruct l as [|s' l]; [exact Logic.I|]. cbn [forallb flat_map] in *. apply andb_true_iff in F2 as [F2 _]. apply andb_true_iff in N2 as [N2 _].
      destruct (first_s s' F2 N2) as (t' & q' & P' & _ & E'). rewrite P'. cbn [app]. destruct t'; exact E' || exact Logic.I. }
    apply ev_S. eapply ev_imp; [|exact (ev_and _ _ (H1 _ NE) (IH H2 F2 N2 r))]. intros n [A B]. cbn beta in *. rewrite read_ss_S. rewrite P in A |- *. cbn [app] in *. rewrite O, A, B. reflexivity.
Qed.

Lemma stmt_sized N : forall s, length (print_s s) < N -> fine_s s = true -> named_s s = true -> reads_s s.
Proof.
  induction N as [|N IH]; [lia|]. intros s LE F NM.
  assert (inner : forall l, length (flat_map print_s l) < N -> forallb fine_s l = true -> forallb named_s l = true -> Forall reads_s l).
  { intros l L F' N'. apply Forall_forall. intros s' S'. rewrite forallb_forall in F', N'. apply IH; auto.
    clear -L S'. induction l as [|x l IHl]; [destruct S'|]. cbn [flat_map] in L. rewrite app_length in L. destruct S' as [->|S']; [lia|]. apply IHl; auto. lia. }
  assert (cond : forall c r, fine_e c = true -> named tw c = true -> ev (fun n => read_at n 9 (print_e c ++ pn ")" :: r) = Some (c, pn ")" :: r))).
  { intros c r Fc Nc. apply (expr_read tw c 9 Fc Nc); auto; [lia|apply levels; auto|reflexivity]. }
  intros r R. destruct s; cbn [fine_s named_s print_s] in *.
  - (* expressions *)
    assert (ne : forall q, fine_e e = true -> q = print_e e ++ pn ";" :: r -> ev (fun n => read_s n q = Some (SExpr e, r))).
    { intros q Fe ->. apply ev_S. eapply ev_imp; [|exact (value_read SExpr e r Fe NM)]. intros n A. cbn beta in *. rewrite read_s_S. cbv zeta.
      destruct (first_tok tw _ Fe NM) as (t & q & P & O). rewrite P in A |- *. cbn [app] in *. destruct t as [w| | |o| | |]; cbn [opener] in O; try contradiction; try exact A.
      - destruct O as [O1 O2]. rewrite O1.
        assert (K : forall k, In k ["if"; "return"; "switch"; "case"; "default"; "break"]%string -> str_eqb w $k = false).
        { intros k K. destruct (str_eqb w $k) eqn:E; [|reflexivity]. apply str_eqb_eq in E. subst w. cbn [In] in K. repeat (destruct K as [<-|K]; [discriminate (O2 eq_refl)|]). destruct K. }
        rewrite !K by (cbn; tauto). exact A.
      - cbn [In] in O. destruct O as [<-|[<-|[<-|[<-|[<-|[]]]]]]; exact A. }
    rewrite <- app_assoc. cbn [app]. destruct e; try (apply ne; [exact F|reflexivity]). apply ev_S, ev_all. intro n. rewrite read_s_S. reflexivity.
  - (* declarations *)
    rewrite !andb_true_iff in NM. destruct NM as [[N1 N2] N3].
    assert (D : forall q, declarator ((ty ++ [TWord x]) ++ q) = let (a, b) := declarator q in ((ty ++ [TWord x]) ++ a, b)).
    { intro q. apply declarator_app. rewrite forallb_app, N2. reflexivity. }
    destruct ty as [|[w| | | | | |] ty]; try discriminate. cbn [starts_type] in N1. cbn [app].
    assert (S1 : forall n q, (match q with TOp o :: _ => str_eqb o $"*" = false | _ => False end) -> read_s (S n) (TWord w :: ty ++ TWord x :: q) =
      let (arr, r2) := match q with a :: b :: r2 => if is_op $"[" a && is_op $"]" b then (true, r2) else (false, q) | _ => (false, q) end in
      match r2 with
      | t :: r3 => if is_op $";" t then Some (SDecl (TWord w :: ty) x arr None, r3)
                   else if is_op $"=" t then semicolon (fun e => SDecl (TWord w :: ty) x arr (Some e)) (read_at n 9 r3) else None
      | [] => None
      end).
    { intros n q Q. rewrite read_s_S. cbv zeta. rewrite N1. specialize (D q). rewrite <- app_assoc in D. cbn [app] in D. rewrite D.
      assert (Z : declarator q = ([], q)). { destruct q as [|[| | |o| | |] q]; try contradiction. cbn [declarator]. now rewrite Q. }
      rewrite Z, app_nil_r. change (TWord w :: ty ++ [TWord x]) with ((TWord w :: ty) ++ [TWord x]). rewrite last_word_app. reflexivity. }
    repeat rewrite <- app_assoc. cbn [app]. apply ev_S. destruct init as [e|].
    + apply andb_true_iff in F as [F1 F2]. eapply ev_imp; [|exact (value_read (fun e => SDecl (TWord w :: ty) x array (Some e)) e r F1 N3)]. intros n A. cbn beta in *.
      destruct array; cbn [app]; repeat rewrite <- app_assoc; cbn [app]; rewrite S1 by reflexivity; [exact A|destruct (print_e e ++ pn ";" :: r); exact A].
    + apply ev_all. intro n. destruct array; cbn [app]; rewrite S1 by reflexivity; destruct r; reflexivity.
  - (* if *)
    rewrite !andb_true_iff in F. rewrite !andb_true_iff in NM. destruct F as [[F1 F2] F3], NM as [[N1 N2] N3].
    pose proof (keyword_free $"if" eq_refl) as K1.
    assert (L1 : length (flat_map print_s yes) < N). { repeat (progress (cbn [length] in LE; rewrite ?app_length in LE)); lia. }
    cbn [app]. rewrite <- !app_assoc. cbn [app]. rewrite <- !app_assoc. cbn [app].
    set (rest := (match no with Some l => _ | None => [] end) ++ r).
    assert (S1 : forall n q, read_s (S n) (wd "if" :: pn "(" :: q) = match q with u :: r1 =>
        match match read_at n 9 (u :: r1) with
              | Some (c, t1 :: t2 :: r2) => if is_op $")" t1 && is_op $"{" t2 then match read_ss n r2 with Some (b, r3) => Some (c, b, r3) | None => None end else None
              | _ => None end with
        | Some (c, yes, t1 :: t2 :: r1) =>
                match t1 with
                | TWord e => if str_eqb e $"else" then
                               if is_op $"{" t2 then match read_ss n r1 with Some (no, r2) => Some (SIf c yes (Some no), r2) | None => None end
                               else None
                             else Some (SIf c yes None, t1 :: t2 :: r1)
                | _ => Some (SIf c yes None, t1 :: t2 :: r1)
                end
            | Some (c, yes, r1) => Some (SIf c yes None, r1)
            | None => None
            end | [] => None end).
    { intros n q. rewrite read_s_S. unfold wd. cbv beta iota zeta. rewrite K1. destruct q; reflexivity. }
    pose proof (cond c (pn "{" :: flat_map print_s yes ++ pn "}" :: rest) F1 N1) as C1.
    pose proof (block_read yes (inner yes L1 F2 N2) F2 N2 rest) as B1.
    destruct (first_tok tw c F1 N1) as (t & q & P & O). rewrite P in C1 |- *. cbn [app] in *. apply ev_S. destruct no as [no|].
    + assert (L2 : length (flat_map print_s no) < N). { repeat (progress (cbn [length] in LE; rewrite ?app_length in LE)); lia. }
      pose proof (block_read no (inner no L2 F3 N3) F3 N3 r) as B2. subst rest. cbn [app] in *. rewrite <- app_assoc in *. cbn [app] in *.
      eapply ev_imp; [|exact (ev_and _ _ C1 (ev_and _ _ B1 B2))]. intros n (A & B & C). cbn beta in *. rewrite S1, A. cbn [is_op pn]. rewrite !(proj2 (str_eqb_eq _ _) eq_refl). cbn [andb]. cbn [pn] in B. rewrite B. cbn [is_op wd pn]. rewrite !(proj2 (str_eqb_eq _ _) eq_refl). cbn [pn] in C. now rewrite C.
    + subst rest. cbn [app] in *. eapply ev_imp; [|exact (ev_and _ _ C1 B1)]. intros n (A & B). cbn beta in *. rewrite S1, A. cbn [is_op pn]. rewrite !(proj2 (str_eqb_eq _ _) eq_refl). cbn [andb]. cbn [pn] in B. rewrite B.
      destruct r as [|t1 [|t2 r]]; try reflexivity. destruct t1; try reflexivity. cbn [not_else] in R. now rewrite R.
  - (* return *)
    pose proof (keyword_free $"return" eq_refl) as K1. destruct e as [e|].
    + cbn [app]. rewrite <- app_assoc. cbn [app]. apply ev_S. eapply ev_imp; [|exact (value_read (fun e => SReturn (Some e)) e r F NM)]. intros n A. cbn beta in *. rewrite read_s_S. unfold wd. cbv beta iota zeta. rewrite K1.
      destruct (first_tok tw e F NM) as (t & q & P & O). rewrite P in A |- *. cbn [app] in *.
      change (str_eqb $"return" $"if") with false. change (str_eqb $"return" $"return") with true. cbv iota.
      assert (Z : is_op $";" t = false). { destruct t; cbn [opener] in O; try contradiction; try reflexivity. cbn [In] in O. destruct O as [<-|[<-|[<-|[<-|[<-|[]]]]]]; reflexivity. }
      rewrite Z. exact A.
    + apply ev_S, ev_all. intro n. rewrite read_s_S. unfold wd. cbn [app]. cbv beta iota zeta. rewrite K1. reflexivity.
  - (* switch *)
    rewrite !andb_true_iff in F. rewrite !andb_true_iff in NM. destruct F as [F1 F2], NM as [N1 N2]. pose proof (keyword_free $"switch" eq_refl) as K1.
    assert (L1 : length (flat_map print_s body) < N). { repeat (progress (cbn [length] in LE; rewrite ?app_length in LE)); lia. }
    cbn [app]. rewrite <- !app_assoc. cbn [app]. rewrite <- !app_assoc. cbn [app].
    pose proof (cond e (pn "{" :: flat_map print_s body ++ pn "}" :: r) F1 N1) as C1. pose proof (block_read body (inner body L1 F2 N2) F2 N2 r) as B1.
    destruct (first_tok tw e F1 N1) as (t & q & P & O). rewrite P in C1 |- *. cbn [app] in *. apply ev_S. eapply ev_imp; [|exact (ev_and _ _ C1 B1)]. intros n (A & B). cbn beta in *.
    rewrite read_s_S. unfold wd. cbv beta iota zeta. rewrite K1. change (str_eqb $"switch" $"if") with false. change (str_eqb $"switch" $"return") with false. change (str_eqb $"switch" $"switch") with true. cbv iota.
    change (is_op $"(" (pn "(")) with true. cbv iota. rewrite A. change (is_op $")" (pn ")") && is_op $"{" (pn "{")) with true. cbv iota. rewrite B. reflexivity.
  - (* case *)
    pose proof (keyword_free $"case" eq_refl) as K1. cbn [app]. rewrite <- app_assoc. cbn [app].
    pose proof (expr_read tw e 9 F NM ltac:(lia) ltac:(apply levels; auto) (pn ":" :: r) eq_refl) as H.
    apply ev_S. eapply ev_imp; [|exact H]. intros n A. cbn beta in *. rewrite read_s_S. unfold wd. cbv beta iota zeta. rewrite K1.
    change (str_eqb $"case" $"if") with false. change (str_eqb $"case" $"return") with false. change (str_eqb $"case" $"switch") with false. change (str_eqb $"case" $"case") with true. cbv iota. rewrite A. reflexivity.
  - apply ev_S, ev_all. intro n. rewrite read_s_S. unfold wd. cbn [app]. cbv beta iota zeta. rewrite (keyword_free $"default" eq_refl). reflexivity.
  - apply ev_S, ev_all. intro n. rewrite read_s_S. unfold wd. cbn [app]. cbv beta iota zeta. rewrite (keyword_free $"break" eq_refl). reflexivity.
Qed.

(* ---------------------------------------------------------------- functions *)

Definition plain_tok (t : tok) : bool := negb (is_op $"(" t) && negb (is_op $")" t) && negb (is_op $"," t).
Definition named_f (f : func) : bool :=
  forallb (fun t => negb (is_op $"(" t)) (f_head f) && forallb (fun p => forallb plain_tok (fst p) && negb (match fst p with [] => true | _ => false end)) (f_params f) && forallb named_s (f_body f).
Lemma before_app h r : forallb (fun t => negb (is_op $"(" t)) h = true -> before_bracket (h ++ pn "(" :: r) = (h, r).
Proof.
  induction h as [|t h IH]; cbn [forallb app]; intro H; [reflexivity|]. apply andb_true_iff in H as [H1 H2]. rewrite negb_true_iff in H1. cbn [before_bracket]. now rewrite H1, IH.
Qed.
Lemma plain_level l : forallb plain_tok l = true -> forall d r, level_at d (l ++ r) = level_at d r.
Proof.
  induction l as [|t l IH]; cbn [forallb app]; intros H d r; [reflexivity|]. apply andb_true_iff in H as [H1 H2]. unfold plain_tok in H1. rewrite !andb_true_iff, !negb_true_iff in H1. destruct H1 as [[A B] C].
  cbn [level_at]. now rewrite A, B, IH.
Qed.
Lemma commas_plain l : forallb (fun x => negb (is_op $"," x)) l = true -> at_commas l = [l].
Proof. induction l as [|t l IH]; cbn [forallb]; intro H; [reflexivity|]. apply andb_true_iff in H as [H1 H2]. rewrite negb_true_iff in H1. cbn [at_commas]. now rewrite IH, H1. Qed.
Lemma commas_app l : forallb (fun x => negb (is_op $"," x)) l = true -> forall r, at_commas (l ++ pn "," :: r) = l :: at_commas r.
Proof.
  induction l as [|t l IH]; cbn [forallb app]; intros H r. { cbn [at_commas]. destruct (at_commas r) eqn:E; [|reflexivity]. destruct r; cbn in E; [discriminate|]. destruct (at_commas r); [discriminate|]. destruct (is_op _ t); discriminate. }
  apply andb_true_iff in H as [H1 H2]. rewrite negb_true_iff in H1. cbn [at_commas]. now rewrite IH, H1.
Qed.
Lemma params_read l : l <> [] -> forallb (fun p : list tok * str => forallb plain_tok (fst p)) l = true ->
  every last_word (at_commas (with_commas (map (fun p => fst p ++ [TWord (snd p)]) l))) = Some l.
Proof.
  induction l as [|[a x] l IH]; intros N H; [contradiction|]. cbn [forallb fst] in H. apply andb_true_iff in H as [H1 H2].
  assert (P : forallb (fun x => negb (is_op $"," x)) (a ++ [TWord x]) = true).
  { rewrite forallb_app. cbn [forallb is_op negb]. rewrite andb_true_r. rewrite forallb_forall in *. intros t T. specialize (H1 t T). unfold plain_tok in H1. rewrite !andb_true_iff in H1. apply H1. }
  destruct l as [|y l].
  - cbn [map with_commas fst snd]. rewrite commas_plain by exact P. cbn [every]. now rewrite last_word_app.
  - change (with_commas _) with ((a ++ [TWord x]) ++ pn "," :: with_commas (map (fun p => fst p ++ [TWord (snd p)]) (y :: l))).
    rewrite commas_app by exact P. cbn [every]. rewrite last_word_app, IH; [reflexivity|discriminate|exact H2].
Qed.
Lemma params_plain l : forallb (fun p : list tok * str => forallb plain_tok (fst p)) l = true -> level_at 0 (with_commas (map (fun p => fst p ++ [TWord (snd p)]) l)) = Some 0.
Proof.
  induction l as [|[a x] l IH]; intro H; [reflexivity|]. cbn [forallb fst] in H. apply andb_true_iff in H as [H1 H2].
  destruct l as [|y l].
  - cbn [map with_commas fst snd]. rewrite plain_level by exact H1. reflexivity.
  - change (with_commas _) with ((a ++ [TWord x]) ++ pn "," :: with_commas (map (fun p => fst p ++ [TWord (snd p)]) (y :: l))).
    rewrite <- app_assoc, plain_level by exact H1. cbn [app level_at is_op pn]. change (str_eqb $"," $")") with false. change (str_eqb $"," $"(") with false. cbv iota. now apply IH.
Qed.
Lemma function_read f : fine_f f = true -> named_f f = true -> reads_function tw (print_f f) f.
Proof.
  destruct f as [head x ps body]. unfold fine_f, named_f, print_f. cbn [f_head f_name f_params f_body]. intros F N. rewrite !andb_true_iff in N. destruct N as [[N1 N2] N3].
  assert (ST : Forall reads_s body). { apply Forall_forall. intros s IN. rewrite forallb_forall in F, N3. apply (stmt_sized (S (length (print_s s)))); auto. }
  pose proof (block_read body ST F N3 []) as B.
  assert (P1 : forallb (fun p : list tok * str => forallb plain_tok (fst p)) ps = true).
  { rewrite forallb_forall in *. intros p P. specialize (N2 p P). rewrite andb_true_iff in N2. apply N2. }
  assert (P2 : level_at 0 (print_params ps) = Some 0 /\ read_params (print_params ps) = Some ps).
  { destruct ps as [|p ps]; [split; reflexivity|]. unfold print_params. split; [now apply params_plain|].
    pose proof (params_read (p :: ps) ltac:(discriminate) P1) as Q. unfold read_params. destruct p as [a y]. cbn [forallb fst] in N2. rewrite !andb_true_iff in N2. destruct N2 as [[_ N2] _].
    destruct a as [|t a]; [discriminate|]. revert Q. destruct ps as [|p ps]; cbn [map with_commas fst snd app]; [|destruct a; cbn [app]]; destruct t; auto; destruct a; auto. }
  destruct P2 as [P2 P3].
  eapply ev_imp; [|exact B]. intros n A. cbn beta in *. unfold read_function.
  change (TWord x :: pn "(" :: print_params ps ++ pn ")" :: pn "{" :: flat_map print_s body ++ [pn "}"]) with ([TWord x] ++ pn "(" :: print_params ps ++ pn ")" :: pn "{" :: flat_map print_s body ++ [pn "}"]).
  rewrite app_assoc, before_app by (rewrite forallb_app, N1; reflexivity). rewrite last_word_app, closing_type by exact P2. cbn [is_op pn]. rewrite !(proj2 (str_eqb_eq _ _) eq_refl), P3. cbn [pn] in A. now rewrite A.
Qed.
End Read.

(** The tables of the compiled scanner against the rules of lex.l, by a bisimulation between the states of the tables and the
    derivatives of the rules.  Proofs for C79. *)
From Coq Require Import Ascii String List Bool Arith NArith Lia.
From Verif Require Import Str Regex RegexFacts Lex LexFacts LexTables Scanner.
Import ListNotations.

(* ------------------------------------------------------------ expressions that can be compared *)

Inductive sre := SEmp | SEps | SChr (c : ascii) | SSet (k : nat) | SCat (a b : sre) | SAlt (a b : sre) | SStar (a : sre).
Definition sets : list (ascii -> bool) :=
  [ (fun c => isdigit c || Ascii.eqb c ";"); isspace; (fun c => negb (Ascii.eqb c nl));
    (fun c => Ascii.eqb c "|" || Ascii.eqb c "`"); (fun c => Ascii.eqb c "|" || Ascii.eqb c " ");
    (fun c => negb (isspace c)); is_ident; is_other ].
Definition set_of (k : nat) : ascii -> bool := nth k sets (fun _ => false).
Fixpoint den (r : sre) : re :=
  match r with
  | SEmp => Emp | SEps => Eps | SChr c => chr c | SSet k => Cls (set_of k)
  | SCat a b => Cat (den a) (den b) | SAlt a b => Alt (den a) (den b) | SStar a => Star (den a)
  end.

Fixpoint sword (s : str) : sre := match s with [] => SEps | c :: s' => SCat (SChr c) (sword s') end.
Definition sopt (a : sre) : sre := SAlt a SEps.
Definition splus (a : sre) : sre := SCat a (SStar a).
Definition sany : sre := SSet 2.
Definition sbom := sword bom_s.
Definition scol : sre := SCat (SChr esc) (SCat (SChr "[") (SCat (SStar (SSet 0)) (SChr "m"))).
Definition ssplit : sre := SCat (SChr bslash) (SCat (sopt (SStar (SSet 1))) (SChr nl)).
Definition sast_begin : sre :=
  SCat (sopt sbom) (SCat (sopt scol) (SCat (sword $"TranslationUnitDecl") (SCat (sopt scol) (SCat (sopt scol) (SCat (sword $" 0x") (SStar sany)))))).
Definition sfuncvar : sre :=
  SCat (sopt scol) (SCat (SSet 3) (SCat (SChr "-") (SCat (sopt scol) (SCat (sopt scol)
  (SCat (SAlt (sword $"Function") (sword $"Var")) (SCat (sword $"Decl") (SCat (sopt scol) (SCat (sopt scol) (SCat (sword $" 0x") (SStar sany)))))))))).
Definition sparmvar : sre :=
  SCat (sopt scol) (SCat (SSet 4) (SCat (SChr " ") (SCat (SSet 3) (SCat (SChr "-") (SCat (sopt scol) (SCat (sopt scol)
  (SCat (sword $"ParmVarDecl") (SCat (sopt scol) (SCat (sopt scol) (SCat (sword $" 0x") (SStar sany))))))))))).
Definition srules : list sre :=
  [ sast_begin; sfuncvar; sparmvar; SChr nl; sany;
    SCat (sopt sbom) (SCat (sword $"%option") (SSet 1)); ssplit; splus (SSet 5); SChr nl; sany;
    sword $"//"; SCat (SChr "/") (SCat ssplit (SChr "/")); ssplit; SChr nl; sany;
    sword $"/*"; SCat (SChr "/") (SCat ssplit (SChr "*")); sword $"*/"; SCat (SChr "*") (SCat ssplit (SChr "/")); SChr nl; sany;
    SCat (sopt sbom) (SCat (sopt (SStar (SSet 1))) (SChr "#")); sword $"/*"; SCat (SChr "/") (SCat ssplit (SChr "*"));
    sword $"//"; SCat (SChr "/") (SCat ssplit (SChr "/")); ssplit; SChr nl; sany;
    sword $"*/"; SCat (SChr "*") (SCat ssplit (SChr "/")); SChr nl; sany;
    sbom; SSet 1; sword $"extern"; sword $"struct"; sword $"union"; sword $"enum"; sword $"typedef";
    splus (SSet 6); SSet 7; sword $"..."; sword $"{"; sword $"}"; sword $"="; sword $";"; sany ].
Lemma srules_ok : map r_re rules = map den srules.
Proof. reflexivity. Qed.

Fixpoint snull (r : sre) : bool :=
  match r with
  | SEmp => false | SEps => true | SChr _ => false | SSet _ => false
  | SCat a b => snull a && snull b | SAlt a b => snull a || snull b | SStar _ => true
  end.
Definition scat (a b : sre) : sre := match a, b with SEmp, _ => SEmp | _, SEmp => SEmp | SEps, _ => b | _, _ => SCat a b end.
Definition salt (a b : sre) : sre := match a, b with SEmp, _ => b | _, SEmp => a | _, _ => SAlt a b end.
Fixpoint sder (c : ascii) (r : sre) : sre :=
  match r with
  | SEmp => SEmp | SEps => SEmp
  | SChr d => if Ascii.eqb d c then SEps else SEmp
  | SSet k => if set_of k c then SEps else SEmp
  | SCat a b => if snull a then salt (scat (sder c a) b) (sder c b) else scat (sder c a) b
  | SAlt a b => salt (sder c a) (sder c b)
  | SStar a => scat (sder c a) (SStar a)
  end.
Fixpoint sre_eqb (a b : sre) : bool :=
  match a, b with
  | SEmp, SEmp | SEps, SEps => true
  | SChr c, SChr d => Ascii.eqb c d
  | SSet k, SSet l => Nat.eqb k l
  | SCat a b, SCat c d => sre_eqb a c && sre_eqb b d
  | SAlt a b, SAlt c d => sre_eqb a c && sre_eqb b d
  | SStar a, SStar b => sre_eqb a b
  | _, _ => false
  end.

(* ------------------------------------------------------------ the rules that are still possible *)

Definition vec := list (N * sre).
Fixpoint vec_eqb (a b : vec) : bool :=
  match a, b with
  | [], [] => true
  | (i, r) :: a, (j, q) :: b => N.eqb i j && sre_eqb r q && vec_eqb a b
  | _, _ => false
  end.
Definition dead (r : sre) : bool := match r with SEmp => true | _ => false end.
Fixpoint vder (c : ascii) (v : vec) : vec :=
  match v with
  | [] => []
  | (i, r) :: v' => let r' := sder c r in if dead r' then vder c v' else (i, r') :: vder c v'
  end.
Fixpoint vnull (v : vec) : option N :=
  match v with [] => None | (i, r) :: v' => if snull r then Some i else vnull v' end.

(** a byte's transition *)
Definition byte_class (c : ascii) : res N := if Ascii.eqb c nul then Ok 1%N else at_ yy_ec (code c).
Definition dstep (st : N) (c : ascii) : res N := cl <- byte_class c ;; next_state st cl.

(* ------------------------------------------------------------ exploring *)

Definition buckets := list (list vec).
Definition member (B : buckets) (st : N) (v : vec) : bool := existsb (vec_eqb v) (nth (N.to_nat st) B []).
Fixpoint insert (B : buckets) (n : nat) (v : vec) : buckets :=
  match B, n with
  | [], _ => []
  | b :: B', O => (v :: b) :: B'
  | b :: B', S n' => b :: insert B' n' v
  end.
Definition succs (st : N) (v : vec) : list (N * vec) :=
  let row := map (fun cl => next_state st (N.of_nat cl)) (seq 0 50) in
  concat (map (fun c => match byte_class c with
     | Ok cl => match nth (N.to_nat cl) row UB with Ok st' => if N.eqb st' jam then [] else [(st', vder c v)] | _ => [] end
     | _ => [] end) all_chars).
Fixpoint explore (fuel : nat) (todo : list (N * vec)) (B : buckets) : buckets :=
  match fuel, todo with
  | S f, (st, v) :: todo' => if member B st v then explore f todo' B else explore f (succs st v ++ todo') (insert B (N.to_nat st) v)
  | _, _ => B
  end.
Fixpoint numbered (i : N) (l : list (rule * sre)) (k : cond) (bol : bool) : vec :=
  match l with
  | [] => []
  | (r, q) :: l' => if active k bol r then (i, q) :: numbered (N.succ i) l' k bol else numbered (N.succ i) l' k bol
  end.
Definition start_vec (k : cond) (bol : bool) : vec := numbered 1 (combine rules srules) k bol.
Definition conds : list cond := [INITIAL; AST; OPTION; COMMENT; C_COMMENT; PRE; PRE_COMMENT].
Definition starts : list (N * vec) := concat (map (fun k => map (fun b => (start_state k b, start_vec k b)) [false; true]) conds).
Definition space : buckets := explore (N.to_nat 200000) starts (repeat [] 262).

(** what must hold of a state and the rules it stands for *)
Definition okb (B : buckets) (st : N) (v : vec) : bool :=
  (match at_ yy_accept st with Ok a => N.eqb a (match vnull v with Some i => i | None => 0 end) | _ => false end) &&
  (match next_state st 0 with Ok e => N.eqb e 15 | _ => false end) &&
  (let row := map (fun cl => next_state st (N.of_nat cl)) (seq 0 50) in
   forallb (fun c => match byte_class c with
     | Ok cl => match nth (N.to_nat cl) row UB with
                | Ok st' => if N.eqb st' jam then match vder c v with [] => true | _ => false end else member B st' (vder c v)
                | _ => false end
     | _ => false end) all_chars).
Definition space_okb (B : buckets) : bool := Nat.eqb (length B) 262 && forallb (fun n => forallb (okb B (N.of_nat n)) (nth n B [])) (seq 0 262).
Definition all_ok (B : buckets) : bool :=
  space_okb B && forallb (fun p => member B (fst p) (snd p) && match vnull (snd p) with None => true | _ => false end) starts.
Lemma space_ok : exists B, all_ok B = true.
Proof. exists space. vm_cast_no_check (eq_refl true). Qed.

(* ------------------------------------------------------------ what the check means *)

Lemma sre_eqb_eq a : forall b, sre_eqb a b = true -> a = b.
Proof.
  induction a; intros [| | | | | |]; cbn [sre_eqb]; intros H; try discriminate; try reflexivity.
  - apply Ascii.eqb_eq in H. now subst.
  - apply Nat.eqb_eq in H. now subst.
  - apply andb_true_iff in H as [H1 H2]. f_equal; auto.
  - apply andb_true_iff in H as [H1 H2]. f_equal; auto.
  - f_equal; auto.
Qed.
Lemma vec_eqb_eq a : forall b, vec_eqb a b = true -> a = b.
Proof.
  induction a as [|[i r] a IH]; intros [|[j q] b]; cbn [vec_eqb]; intros H; try discriminate; [reflexivity|].
  apply andb_true_iff in H as [H H3]. apply andb_true_iff in H as [H1 H2]. apply N.eqb_eq in H1. apply sre_eqb_eq in H2. apply IH in H3. now subst.
Qed.

Lemma snull_den r : nullable (den r) = snull r.
Proof. induction r; cbn [den nullable snull chr]; try reflexivity; congruence. Qed.
Lemma den_emp r : den r = Emp -> r = SEmp.
Proof. now destruct r. Qed.
Lemma den_eps r : den r = Eps -> r = SEps.
Proof. now destruct r. Qed.
Lemma scat_den a b : cat (den a) (den b) = den (scat a b).
Proof. destruct a, b; reflexivity. Qed.
Lemma salt_den a b : alt (den a) (den b) = den (salt a b).
Proof. destruct a, b; reflexivity. Qed.
Lemma sder_den c r : deriv c (den r) = den (sder c r).
Proof.
  induction r as [| |d|k|a IHa b IHb|a IHa b IHb|a IHa]; cbn [den deriv sder]; try reflexivity.
  - unfold chr. cbn [deriv]. now destruct (Ascii.eqb d c).
  - now destruct (set_of k c).
  - rewrite IHa, IHb, snull_den, scat_den, salt_den. now destruct (snull a).
  - now rewrite IHa, IHb, salt_den.
  - rewrite IHa. change (Star (den a)) with (den (SStar a)). now rewrite scat_den.
Qed.

Lemma longest_cons r c s : longest r (c :: s) = match longest (deriv c r) s with Some n => Some (S n) | None => if nullable r then Some 0 else None end.
Proof. destruct r; try reflexivity. cbn. now destruct s. Qed.
Lemma longest_nil r : longest r [] = if nullable r then Some 0 else None.
Proof. now destruct r. Qed.
Lemma longest_emp s : longest Emp s = None.
Proof. now destruct s. Qed.

(** longest match, earliest rule *)
Fixpoint vbest (v : vec) (s : str) : option (nat * N) :=
  match v with
  | [] => None
  | (i, r) :: v' =>
      match longest (den r) s, vbest v' s with
      | Some n, Some (m, a) => if Nat.leb m n then Some (n, i) else Some (m, a)
      | Some n, None => Some (n, i)
      | None, b => b
      end
  end.
Definition empty_match (v : vec) : option (nat * N) := match vnull v with Some i => Some (0, i) | None => None end.
Lemma vbest_nil v : vbest v [] = empty_match v.
Proof.
  unfold empty_match. induction v as [|[i r] v IH]; [reflexivity|]. cbn [vbest vnull]. rewrite longest_nil, snull_den, IH. destruct (snull r); [|reflexivity].
  destruct (vnull v); reflexivity.
Qed.
Lemma vbest_cons v c s : vbest v (c :: s) = match vbest (vder c v) s with Some (n, i) => Some (S n, i) | None => empty_match v end.
Proof.
  unfold empty_match. induction v as [|[i r] v IH]; [reflexivity|]. cbn [vbest vnull vder]. rewrite longest_cons, snull_den, IH, sder_den.
  destruct (dead (sder c r)) eqn:D.
  - destruct (sder c r); try discriminate D. cbn [den]. rewrite longest_emp. destruct (snull r); [|reflexivity].
    destruct (vbest (vder c v) s) as [[n j]|]; [reflexivity|]. now destruct (vnull v).
  - cbn [vbest]. destruct (longest (den (sder c r)) s) as [n|].
    + destruct (vbest (vder c v) s) as [[m j]|]; [cbn [Nat.leb]; now destruct (Nat.leb m n)|]. now destruct (vnull v).
    + destruct (snull r); [|reflexivity]. destruct (vbest (vder c v) s) as [[m j]|]; [reflexivity|]. now destruct (vnull v).
Qed.

(** the state [st] stands for the rules [v] *)
Definition stands (st : N) (v : vec) : Prop := exists B, all_ok B = true /\ member B st v = true.
Lemma classes : forall c, match byte_class c with Ok cl => N.to_nat cl < 50 | _ => False end.
Proof.
  intros c. assert (H : (match byte_class c with Ok cl => Nat.ltb (N.to_nat cl) 50 | _ => false end) = true).
  { revert c. apply by_enum. vm_compute. reflexivity. }
  destruct (byte_class c); try discriminate. now apply Nat.ltb_lt in H.
Qed.
Lemma all_ok_spec B : all_ok B = true -> length B = 262 /\ (forall n v, n < 262 -> In v (nth n B []) -> okb B (N.of_nat n) v = true) /\
  (forall p, In p starts -> member B (fst p) (snd p) = true /\ vnull (snd p) = None).
Proof.
  unfold all_ok, space_okb. intros K. apply andb_prop in K as [K K3]. apply andb_prop in K as [K1 K2]. apply Nat.eqb_eq in K1. split; [exact K1|].
  rewrite forallb_forall in K2, K3. split.
  - intros n v H1 H2. assert (I : In n (seq 0 262)) by (apply in_seq; lia). specialize (K2 n I). rewrite forallb_forall in K2. exact (K2 v H2).
  - intros p H. specialize (K3 p H). apply andb_prop in K3 as [K3 K4]. split; [exact K3|]. destruct (vnull (snd p)); [discriminate|reflexivity].
Qed.
Lemma member_okb B st v : all_ok B = true -> member B st v = true -> okb B st v = true.
Proof.
  intros K H. apply all_ok_spec in K as (K1 & K2 & _). unfold member in H. apply existsb_exists in H as (u & H1 & H2). apply vec_eqb_eq in H2. subst u.
  rewrite <- (N2Nat.id st). apply K2; [|exact H1]. destruct (le_lt_dec 262 (N.to_nat st)) as [L|L]; [|exact L]. rewrite nth_overflow in H1 by (rewrite K1; exact L). destruct H1.
Qed.
Lemma nth_row (f : nat -> res N) n k d : k < n -> nth k (map f (seq 0 n)) d = f k.
Proof. intros H. rewrite nth_indep with (d' := f 0) by (rewrite map_length, seq_length; exact H). now rewrite map_nth, seq_nth. Qed.
Lemma stands_spec st v : stands st v ->
  at_ yy_accept st = Ok (match vnull v with Some i => i | None => 0%N end) /\ next_state st 0 = Ok 15%N /\
  forall c, exists cl st', byte_class c = Ok cl /\ next_state st cl = Ok st' /\ (st' = jam /\ vder c v = [] \/ st' <> jam /\ stands st' (vder c v)).
Proof.
  intros (B & K & H). pose proof (member_okb B st v K H) as O. clear H. rename O into H. unfold okb in H. apply andb_true_iff in H as [H H3]. apply andb_true_iff in H as [H1 H2]. split; [|split].
  - destruct (at_ yy_accept st); try discriminate. apply N.eqb_eq in H1. now subst.
  - destruct (next_state st 0); try discriminate. apply N.eqb_eq in H2. now subst.
  - intros c. rewrite forallb_forall in H3. specialize (H3 c (all_chars_In c)). pose proof (classes c) as L. destruct (byte_class c) as [cl| | |]; try easy. exists cl.
    rewrite nth_row in H3 by exact L. rewrite N2Nat.id in H3. destruct (next_state st cl) as [st'| | |]; try discriminate. exists st'. split; [reflexivity|]. split; [reflexivity|].
    destruct (N.eqb_spec st' jam) as [E|E]; [left|right]; (split; [exact E|]); [destruct (vder c v); [reflexivity|discriminate]|exists B; exact (conj K H3)].
Qed.
Lemma in_starts k bol : In (start_state k bol, start_vec k bol) starts.
Proof.
  unfold starts. apply in_concat. exists (map (fun b => (start_state k b, start_vec k b)) [false; true]). split.
  - apply (in_map (fun k => map (fun b => (start_state k b, start_vec k b)) [false; true])). unfold conds. destruct k; cbn [In]; tauto.
  - apply (in_map (fun b => (start_state k b, start_vec k b))). destruct bol; cbn [In]; tauto.
Qed.
Lemma starts_spec k bol : stands (start_state k bol) (start_vec k bol) /\ vnull (start_vec k bol) = None.
Proof.
  destruct space_ok as (B & K). pose proof (all_ok_spec B K) as (_ & _ & S). specialize (S _ (in_starts k bol)). cbn [fst snd] in S. destruct S as (S1 & S2).
  split; [exists B; exact (conj K S1)|exact S2].
Qed.

(* ------------------------------------------------------------ the rules of lex.l and their numbers *)

Fixpoint best_numbered (i : N) (rs : list rule) (k : cond) (bol : bool) (s : str) : option (nat * N) :=
  match rs with
  | [] => None
  | r :: rs' =>
      if active k bol r then
        match longest (r_re r) s, best_numbered (N.succ i) rs' k bol s with
        | Some n, Some (m, a) => if Nat.leb m n then Some (n, i) else Some (m, a)
        | Some n, None => Some (n, i)
        | None, b => b
        end
      else best_numbered (N.succ i) rs' k bol s
  end.
Lemma numbered_best rs : forall qs i k bol s, map r_re rs = map den qs -> vbest (numbered i (combine rs qs) k bol) s = best_numbered i rs k bol s.
Proof.
  induction rs as [|r rs IH]; intros [|q qs] i k bol s E; try discriminate; [reflexivity|]. injection E as E1 E2. cbn [combine numbered best_numbered].
  destruct (active k bol r); [|now apply IH]. cbn [vbest]. now rewrite <- E1, IH.
Qed.
Lemma start_best k bol s : vbest (start_vec k bol) s = best_numbered 1 rules k bol s.
Proof. apply numbered_best, srules_ok. Qed.

(** Facts about the scanner (Lex.v). *)
From Coq Require Import Ascii String List Bool Arith NArith Lia.
From Verif Require Import Str StrFacts Regex RegexFacts Lex.
Import ListNotations.

(* ---------------------------------------------------------------- characters by enumeration *)

Definition all_chars : list ascii := map ascii_of_nat (seq 0 256).
Lemma all_chars_In c : In c all_chars.
Proof.
  unfold all_chars. rewrite <- (ascii_nat_embedding c). apply in_map. apply in_seq.
  pose proof (nat_ascii_bounded c). lia.
Qed.
Lemma by_enum (P : ascii -> bool) : forallb P all_chars = true -> forall c, P c = true.
Proof. intros H c. rewrite forallb_forall in H. apply H, all_chars_In. Qed.

(* ---------------------------------------------------------------- best *)

Definition shorter (o : option nat) (n : nat) : Prop := match o with Some m => m < n | None => True end.
Definition not_longer (o : option nat) (n : nat) : Prop := match o with Some m => m <= n | None => True end.

Lemma best_bound rs s n : Forall (fun r => not_longer (longest (r_re r) s) n) rs ->
  match best rs s with Some (m, _) => 0 < m <= n | None => True end.
Proof.
  induction 1 as [|r rs Hr H IH]; cbn [best]; [easy|].
  destruct (longest (r_re r) s) as [[|k]|]; auto. unfold not_longer in Hr.
  destruct (best rs s) as [[m a]|]; [|lia]. destruct (Nat.leb_spec m (S k)); lia.
Qed.

Lemma best_max rs1 r rs2 s n : longest (r_re r) s = Some (S n) ->
  Forall (fun r' => shorter (longest (r_re r') s) (S n)) rs1 ->
  Forall (fun r' => not_longer (longest (r_re r') s) (S n)) rs2 ->
  best (rs1 ++ r :: rs2) s = Some (S n, r_act r).
Proof.
  intros Hr H1 H2. induction H1 as [|r' rs1 Hr' H1 IH]; cbn [app best].
  - rewrite Hr. pose proof (best_bound rs2 s (S n) H2) as X. destruct (best rs2 s) as [[m a]|]; [|easy].
    destruct (Nat.leb_spec m (S n)); [easy|lia].
  - rewrite IH. destruct (longest (r_re r') s) as [[|k]|]; auto. unfold shorter in Hr'.
    destruct (Nat.leb_spec (S n) (S k)); [lia|easy].
Qed.

Lemma best_sound rs s n a : best rs s = Some (n, a) ->
  exists rs1 r rs2, rs = rs1 ++ r :: rs2 /\ r_act r = a /\ longest (r_re r) s = Some n /\ 0 < n /\
    Forall (fun r' => shorter (longest (r_re r') s) n) rs1 /\
    Forall (fun r' => not_longer (longest (r_re r') s) n) rs2.
Proof.
  revert n a; induction rs as [|r rs IH]; intros n a H; cbn [best] in H; [easy|].
  assert (Hskip : forall m b, best rs s = Some (m, b) -> shorter (longest (r_re r) s) m ->
     exists rs1 r0 rs2, r :: rs = rs1 ++ r0 :: rs2 /\ r_act r0 = b /\ longest (r_re r0) s = Some m /\ 0 < m /\
    Forall (fun r' => shorter (longest (r_re r') s) m) rs1 /\
    Forall (fun r' => not_longer (longest (r_re r') s) m) rs2).
  { intros m b Hb Hs. destruct (IH m b Hb) as (rs1 & r0 & rs2 & -> & H1 & H2 & H3 & H4 & H5).
    exists (r :: rs1), r0, rs2. repeat split; auto. }
  destruct (longest (r_re r) s) as [[|k]|] eqn:E.
  - apply Hskip; auto. destruct (IH n a H) as (? & ? & ? & ? & ? & ? & ? & _). unfold shorter. lia.
  - assert (Htake : match best rs s with Some (x, _) => x <= S k | None => True end -> Some (S k, r_act r) = Some (n, a) ->
       exists rs1 r0 rs2, r :: rs = rs1 ++ r0 :: rs2 /\ r_act r0 = a /\ longest (r_re r0) s = Some n /\ 0 < n /\
    Forall (fun r' => shorter (longest (r_re r') s) n) rs1 /\ Forall (fun r' => not_longer (longest (r_re r') s) n) rs2).
    { intros Hb [= <- <-]. exists [], r, rs. repeat split; auto; [lia|]. clear - Hb.
      revert Hb. induction rs as [|r' rs IH]; cbn [best]; [constructor|].
      destruct (longest (r_re r') s) as [[|j]|] eqn:E'; intro Hb.
      - constructor; [rewrite E'; cbn; lia|auto].
      - constructor.
        + rewrite E'. cbn. destruct (best rs s) as [[x b]|]; [|lia]. destruct (Nat.leb_spec x (S j)); lia.
        + apply IH. destruct (best rs s) as [[x b]|]; [|easy]. destruct (Nat.leb_spec x (S j)); lia.
      - constructor; [rewrite E'; easy|auto]. }
    destruct (best rs s) as [[m b]|] eqn:Eb.
    + destruct (Nat.leb_spec m (S k)); [apply Htake; auto|]. injection H as -> ->. apply Hskip; auto.
    + apply Htake; auto.
  - apply Hskip; auto. easy.
Qed.

Lemma best_none rs s : best rs s = None -> Forall (fun r => not_longer (longest (r_re r) s) 0) rs.
Proof.
  induction rs as [|r rs IH]; cbn [best]; [constructor|].
  destruct (longest (r_re r) s) as [[|k]|] eqn:E; intro H.
  - constructor; [rewrite E; cbn; lia|auto].
  - destruct (best rs s) as [[m b]|]; [destruct (Nat.leb m (S k))|]; easy.
  - constructor; [now rewrite E|auto].
Qed.

(* ---------------------------------------------------------------- every byte is matched by a rule *)

Definition one_byte (c : ascii) (r : rule) : bool :=
  match deriv c (r_re r) with Emp => false | r' => nullable r' end.
Lemma one_byte_spec c r s : one_byte c r = true -> exists n, longest (r_re r) (c :: s) = Some (S n).
Proof.
  unfold one_byte. intro H.
  destruct (longest_ge (r_re r) (c :: s) 1) as (n & Hn & Hle).
  - cbn. lia.
  - cbn [firstn]. apply deriv_spec, nullable_spec. destruct (deriv c (r_re r)); easy.
  - destruct n; [lia|]. eauto.
Qed.

Lemma every_byte_matched : forall c, forallb (fun k => existsb (one_byte c) (filter (active k false) rules))
  [INITIAL; AST; OPTION; COMMENT; C_COMMENT; PRE; PRE_COMMENT] = true.
Proof. apply by_enum. vm_compute. reflexivity. Qed.

Lemma no_echo_rule : Forall (fun r => r_act r <> Echo) rules.
Proof. unfold rules. repeat constructor; discriminate. Qed.
#[local] Opaque rules.

Lemma active_mono k bol r : active k false r = true -> active k bol r = true.
Proof. unfold active. destruct (cond_eqb (r_cond r) k), (r_bol r), bol; easy. Qed.

Lemma best_total k bol c s : exists n a, best (filter (active k bol) rules) (c :: s) = Some (n, a).
Proof.
  destruct (best (filter (active k bol) rules) (c :: s)) as [[n a]|] eqn:E; [eauto|]. exfalso.
  apply best_none in E. pose proof (every_byte_matched c) as H. rewrite forallb_forall in H.
  assert (Hk : In k [INITIAL; AST; OPTION; COMMENT; C_COMMENT; PRE; PRE_COMMENT]) by (destruct k; cbn; tauto).
  specialize (H k Hk). apply existsb_exists in H as (r & Hr & Ho).
  apply filter_In in Hr as [Hr Ha]. apply one_byte_spec with (s := s) in Ho as (n & Hn).
  rewrite Forall_forall in E. specialize (E r). rewrite Hn in E. unfold not_longer in E.
  enough (S n <= 0) by lia. apply E. apply filter_In. split; [easy|]. now apply active_mono.
Qed.


(** what one scanner step does, in terms of the patterns' meaning: it takes a longest match, by the first
    rule having one *)
Lemma pick_spec k bol c s : exists n a rs1 r rs2, pick k bol (c :: s) = (n, a) /\ a <> Echo /\
  1 <= n <= length (c :: s) /\
  filter (active k bol) rules = rs1 ++ r :: rs2 /\ r_act r = a /\ matches (r_re r) (firstn n (c :: s)) /\
  (forall r' m, In r' (rs1 ++ r :: rs2) -> n < m <= length (c :: s) -> ~ matches (r_re r') (firstn m (c :: s))) /\
  (forall r', In r' rs1 -> ~ matches (r_re r') (firstn n (c :: s))).
Proof.
  unfold pick. destruct (best_total k bol c s) as (n & a & E). rewrite E. exists n, a.
  apply best_sound in E as (rs1 & r & rs2 & Hrs & Ha & Hl & Hn & H1 & H2). exists rs1, r, rs2.
  assert (Hin : In r rules).
  { assert (X : In r (filter (active k bol) rules)) by (rewrite Hrs; apply in_or_app; right; now left).
    now apply filter_In in X. }
  split; [easy|]. split.
  { pose proof no_echo_rule as X. rewrite Forall_forall in X. rewrite <- Ha. auto. }
  split; [split; [lia|now apply longest_le in Hl]|]. split; [easy|]. split; [easy|]. split; [now apply longest_matches|].
  split.
  - intros r' m Hr' Hm Hmt. assert (Hnl : not_longer (longest (r_re r') (c :: s)) n).
    { rewrite Forall_forall in H1, H2. apply in_app_or in Hr' as [X|[<-|X]].
      - specialize (H1 r' X). destruct (longest (r_re r') (c :: s)); cbn in *; lia.
      - rewrite Hl. cbn. lia.
      - auto. }
    destruct (longest_ge (r_re r') (c :: s) m) as (x & Hx & Hle); [lia|easy|]. rewrite Hx in Hnl. cbn in Hnl. lia.
  - intros r' Hr' Hmt. rewrite Forall_forall in H1. specialize (H1 r' Hr').
    destruct (longest_ge (r_re r') (c :: s) n) as (x & Hx & Hle); [now apply longest_le in Hl|easy|].
    rewrite Hx in H1. cbn in H1. lia.
Qed.

Lemma lex_step_progress st c s : let x := lex_step st (c :: s) in
  s_text x <> [] /\ s_text x ++ s_rest x = c :: s /\ s_act x <> Echo /\ length (s_rest x) < length (c :: s).
Proof.
  unfold lex_step. destruct (pick_spec (l_cond st) (l_bol st) c s) as (n & a & _ & _ & _ & -> & He & Hn & _).
  cbn [s_text s_rest s_act]. split; [|split; [apply firstn_skipn|split; [easy|]]].
  - destruct n; [lia|]. easy.
  - rewrite skipn_length. lia.
Qed.

(* ---------------------------------------------------------------- the run *)

Definition is_error (o : option token) : bool := match o with Some (T_ERROR _) => true | _ => false end.

Lemma lex_fuel_S f st c s : lex_fuel (S f) st (c :: s) =
  let x := lex_step st (c :: s) in
  if is_error (s_tok x) then Some [x]
  else match lex_fuel f (s_state x) (s_rest x) with Some xs => Some (x :: xs) | None => None end.
Proof. cbn [lex_fuel]. destruct (s_tok (lex_step st (c :: s))) as [[]|]; reflexivity. Qed.

Lemma lex_fuel_enough f : forall g st s, length s <= f -> length s <= g -> lex_fuel f st s = lex_fuel g st s.
Proof.
  induction f as [|f IH]; intros g st s Hf Hg; destruct s as [|c s]; try (destruct g; reflexivity); [cbn in Hf; lia|].
  destruct g as [|g]; [cbn in Hg; lia|]. rewrite !lex_fuel_S. cbn zeta.
  destruct (lex_step_progress st c s) as (_ & _ & _ & Hl).
  destruct (is_error _); [easy|]. rewrite (IH g) by lia. easy.
Qed.
Lemma lex_fuel_some f : forall st s, length s <= f -> exists xs, lex_fuel f st s = Some xs.
Proof.
  induction f as [|f IH]; intros st s Hf; destruct s as [|c s]; try (eexists; reflexivity); [cbn in Hf; lia|].
  rewrite lex_fuel_S. cbn zeta. destruct (is_error _); [eauto|].
  destruct (lex_step_progress st c s) as (_ & _ & _ & Hl).
  destruct (IH (s_state (lex_step st (c :: s))) (s_rest (lex_step st (c :: s)))) as (xs & ->); [lia|eauto].
Qed.

Lemma lex_run_nil st : lex_run st [] = [].
Proof. reflexivity. Qed.
Lemma lex_run_cons st c s : lex_run st (c :: s) =
  let x := lex_step st (c :: s) in
  x :: (if is_error (s_tok x) then [] else lex_run (s_state x) (s_rest x)).
Proof.
  unfold lex_run. cbn [length]. rewrite lex_fuel_S. cbn zeta.
  destruct (is_error _); [easy|]. set (x := lex_step st (c :: s)).
  destruct (lex_step_progress st c s) as (_ & _ & _ & Hl). fold x in Hl. cbn [length] in Hl.
  rewrite (lex_fuel_enough (length s) (length (s_rest x)) (s_state x) (s_rest x)) by lia.
  destruct (lex_fuel_some (length (s_rest x)) (s_state x) (s_rest x)) as (xs & ->); [lia|]. easy.
Qed.

Definition run_failed (xs : list lstep) : bool := existsb (fun x => is_error (s_tok x)) xs.

Lemma lex_run_covers n : forall st s, length s <= n ->
  (exists rest, s = concat (map s_text (lex_run st s)) ++ rest /\ (run_failed (lex_run st s) = false -> rest = [])) /\
  Forall (fun x => s_text x <> [] /\ s_act x <> Echo) (lex_run st s).
Proof.
  induction n as [|n IH]; intros st s Hn; destruct s as [|c s]; try (cbn in Hn; lia);
    try (rewrite lex_run_nil; split; [exists []; now split|constructor]).
  rewrite lex_run_cons. cbn zeta. set (x := lex_step st (c :: s)).
  destruct (lex_step_progress st c s) as (H1 & H2 & H3 & H4). fold x in H1, H2, H3, H4.
  destruct (is_error (s_tok x)) eqn:E.
  - split; [|repeat constructor; auto]. exists (s_rest x). cbn [map concat run_failed existsb]. rewrite app_nil_r, E.
    split; [now symmetry|easy].
  - destruct (IH (s_state x) (s_rest x)) as ((rest & Hr & Hf) & HA); [cbn [length] in *; lia|].
    split; [|constructor; auto]. exists rest. cbn [map concat run_failed existsb]. rewrite E. cbn [orb].
    split; [|exact Hf]. rewrite <- app_assoc, <- Hr. now symmetry.
Qed.

(* ---------------------------------------------------------------- only rules that can start with the next byte *)

Definition is_emp (r : re) : bool := match r with Emp => true | _ => false end.
Definition can_start (c : ascii) (r : rule) : bool := negb (is_emp (deriv c (r_re r))).
Lemma best_can_start rs c s : best rs (c :: s) = best (filter (can_start c) rs) (c :: s).
Proof.
  induction rs as [|r rs IH]; [easy|]. cbn [best filter]. unfold can_start at 1.
  destruct (deriv c (r_re r)) eqn:E; cbn [is_emp negb]; try (cbn [best]; now rewrite <- IH).
  rewrite (longest_cons_emp _ _ _ E). destruct (nullable (r_re r)); exact IH.
Qed.

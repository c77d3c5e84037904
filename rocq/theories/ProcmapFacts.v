(** Proofs for C78. *)
From Coq Require Import Ascii String List Bool Arith NArith Lia.
From Coq Require Import ZifyBool ZifyNat ZifyN.
From Verif Require Import Str StrFacts NumFacts Procmap SpecProcmap.
Import ListNotations.

Local Open Scope N_scope.

Definition hexc (c : ascii) : Prop := isdigit c = true \/ between 97 102 c = true.

Lemma all_ascii (P : ascii -> bool) : forallb P (map ascii_of_nat (List.seq 0 256)) = true -> forall c, P c = true.
Proof.
  intros H c. rewrite forallb_forall in H. apply H. rewrite <- (ascii_nat_embedding c). apply in_map, in_seq.
  pose proof (nat_ascii_bounded c). lia.
Qed.

Lemma hex_digit_value v : v < 16 -> hex_value (hex_digit v) = Some v /\ hexc (hex_digit v).
Proof.
  intros H.
  assert (K : forall n, (n < 16)%nat -> hex_value (hex_digit (N.of_nat n)) = Some (N.of_nat n) /\ hexc (hex_digit (N.of_nat n))).
  { intros n L. do 16 (destruct n as [|n]; [split; [reflexivity|unfold hexc; vm_compute; tauto]|]). lia. }
  specialize (K (N.to_nat v)). rewrite N2Nat.id in K. apply K. lia.
Qed.

Lemma hex_fuel_run f : forall n acc, n < 2 ^ N.of_nat f -> (0 < f)%nat ->
  exists ds, hex_fuel f n acc = ds ++ acc /\ ds <> [] /\ Forall hexc ds /\
    forall r v, hex_run (ds ++ r) v = hex_run r (16 ^ N.of_nat (length ds) * v + n).
Proof.
  induction f as [|f IH]; intros n acc L P; [lia|]. cbn [hex_fuel].
  assert (M : n mod 16 < 16) by (apply N.mod_lt; lia).
  destruct (hex_digit_value (n mod 16) M) as [V X].
  pose proof (N.div_mod n 16 ltac:(lia)) as D.
  destruct (N.eqb_spec (n / 16) 0) as [E|E].
  - exists [hex_digit (n mod 16)]. split; [reflexivity|]. split; [discriminate|]. split; [constructor; [exact X|constructor]|].
    intros r v. cbn [app hex_run length]. rewrite V. f_equal. change (16 ^ N.of_nat 1) with 16. lia.
  - assert (F : (0 < f)%nat). { destruct f; [|lia]. change (2 ^ N.of_nat 1) with 2 in L. exfalso. apply E. apply N.div_small. lia. }
    assert (L' : n / 16 < 2 ^ N.of_nat f).
    { apply N.div_lt_upper_bound; [lia|]. rewrite Nat2N.inj_succ, N.pow_succ_r' in L. lia. }
    destruct (IH (n / 16) (hex_digit (n mod 16) :: acc) L' F) as (ds & Q & NE & FA & R).
    exists (ds ++ [hex_digit (n mod 16)]). split; [rewrite Q, <- app_assoc; reflexivity|]. split; [destruct ds; discriminate|].
    split; [apply Forall_app; split; [exact FA|constructor; [exact X|constructor]]|].
    intros r v. rewrite <- app_assoc, R. cbn [app hex_run]. rewrite V. f_equal.
    rewrite app_length. cbn [length]. replace (N.of_nat (length ds + 1)) with (N.succ (N.of_nat (length ds))) by lia.
    rewrite N.pow_succ_r'. lia.
Qed.
Lemma hex_run_hex n : hex n <> [] /\ Forall hexc (hex n) /\
  forall r v, hex_run (hex n ++ r) v = hex_run r (16 ^ N.of_nat (length (hex n)) * v + n).
Proof.
  unfold hex. assert (L : n < 2 ^ N.of_nat (S (N.to_nat (N.size n)))).
  { pose proof (N.size_gt n). rewrite Nat2N.inj_succ, N2Nat.id, N.pow_succ_r'. lia. }
  destruct (hex_fuel_run _ n [] L ltac:(lia)) as (ds & Q & NE & FA & R). rewrite app_nil_r in Q. rewrite Q. auto.
Qed.
Lemma hex_run_zeros k r : hex_run (repeat "0"%char k ++ r) 0 = hex_run r 0.
Proof. induction k; [reflexivity|]. cbn [repeat app hex_run]. change (hex_value "0") with (Some 0). exact IHk. Qed.
Lemma hex_wide_ok w n : hex_wide w n <> [] /\ Forall hexc (hex_wide w n) /\ forall r, hex_run (hex_wide w n ++ r) 0 = hex_run r n.
Proof.
  destruct (hex_run_hex n) as (NE & FA & R). unfold hex_wide. split; [|split].
  - intros E. apply app_eq_nil in E. tauto.
  - apply Forall_app. split; [|exact FA]. apply Forall_forall. intros c I. apply repeat_spec in I. subst. left. reflexivity.
  - intros r. rewrite <- app_assoc, hex_run_zeros, R. f_equal. lia.
Qed.

Lemma hexc_facts c : hexc c -> isspace c = false /\ Ascii.eqb c "-" = false /\ Ascii.eqb c "+" = false /\ Ascii.eqb c "x" = false /\ Ascii.eqb c "X" = false /\
  hex_value c <> None /\ Ascii.eqb c nl = false /\ Ascii.eqb c nul = false /\ Ascii.eqb c ":" = false.
Proof.
  intros H. assert (B : (isdigit c || between 97 102 c)%bool = true) by (destruct H as [-> | ->]; [reflexivity|apply orb_true_r]).
  pose proof (all_ascii (fun c => implb (isdigit c || between 97 102 c) (negb (isspace c) && negb (Ascii.eqb c "-") && negb (Ascii.eqb c "+") && negb (Ascii.eqb c "x") && negb (Ascii.eqb c "X")
     && match hex_value c with None => false | _ => true end && negb (Ascii.eqb c nl) && negb (Ascii.eqb c nul) && negb (Ascii.eqb c ":"))) ltac:(vm_compute; reflexivity) c) as K. cbv beta in K.
  rewrite B in K. cbn [implb] in K. rewrite !andb_true_iff, !negb_true_iff in K.
  destruct K as ((((((((? & ?) & ?) & ?) & ?) & ?) & ?) & ?) & ?). repeat split; try assumption. destruct (hex_value c); [discriminate|congruence].
Qed.

(** reading a hexadecimal number printed with leading zeros *)
Lemma scan_hex_wide w n r : n <= uintmax -> match r with c :: _ => hex_value c = None /\ Ascii.eqb c "x" = false /\ Ascii.eqb c "X" = false | [] => True end ->
  scan_hex (hex_wide w n ++ r) = Some (n, r).
Proof.
  intros L H. destruct (hex_wide_ok w n) as (NE & FA & R). destruct (hex_wide w n) as [|c t] eqn:E; [contradiction|].
  pose proof (Forall_inv FA) as HC. destruct (hexc_facts c HC) as (S1 & S2 & S3 & S4 & S5 & S6 & _).
  assert (Z : no_0x ((c :: t) ++ r) = (c :: t) ++ r).
  { cbn [app no_0x]. destruct (t ++ r) as [|x u] eqn:Q; [reflexivity|].
    assert (X : Ascii.eqb x "x" = false /\ Ascii.eqb x "X" = false).
    { destruct t as [|y t']; cbn [app] in Q.
      - subst r. tauto.
      - injection Q as <- _. apply Forall_inv_tail, Forall_inv, hexc_facts in FA. tauto. }
    destruct X as [-> ->]. now rewrite andb_false_r. }
  unfold scan_hex. assert (D : drop_while isspace ((c :: t) ++ r) = (c :: t) ++ r) by (cbn [app drop_while]; now rewrite S1).
  rewrite D. assert (G : sign ((c :: t) ++ r) = (false, (c :: t) ++ r)) by (cbn [app sign]; now rewrite S2, S3).
  rewrite G, Z, R. cbn [app]. destruct (hex_value c) eqn:V; [|contradiction].
  assert (Y : hex_run r n = (n, r)) by (destruct r as [|d r']; [reflexivity|cbn [hex_run]; destruct H as [-> _]; reflexivity]).
  rewrite Y. unfold in_range. destruct (N.ltb_spec uintmax n); [lia|reflexivity].
Qed.

(** skipping a field *)
Lemma drop_digits a r : forallb isdigit a = true -> match r with c :: _ => isdigit c = false | [] => True end -> drop_while isdigit (a ++ r) = r.
Proof.
  induction a as [|c a IH]; cbn [forallb app drop_while]; intros H K.
  - destruct r as [|c r]; [reflexivity|]. cbn. now rewrite K.
  - apply andb_prop in H as [-> H]. auto.
Qed.
Lemma digit_plain c : isdigit c = true -> isspace c = false /\ Ascii.eqb c "-" = false /\ Ascii.eqb c "+" = false.
Proof. intros H. destruct (hexc_facts c (or_introl H)) as (? & ? & ? & _). auto. Qed.
Lemma scan_dec_ok a r : a <> [] -> forallb isdigit a = true -> match r with c :: _ => isdigit c = false | [] => True end -> scan_dec (a ++ r) = Some r.
Proof.
  intros NE H K. destruct a as [|c a]; [contradiction|]. pose proof H as H'. cbn [forallb] in H. apply andb_prop in H as [H _].
  destruct (digit_plain c H) as (S1 & S2 & S3). unfold scan_dec.
  assert (D : drop_while isspace ((c :: a) ++ r) = (c :: a) ++ r) by (cbn [app drop_while]; now rewrite S1).
  rewrite D. assert (G : sign ((c :: a) ++ r) = (false, (c :: a) ++ r)) by (cbn [app sign]; now rewrite S2, S3).
  rewrite G. cbn [app]. rewrite H. f_equal. exact (drop_digits (c :: a) r H' K).
Qed.
(** with a letter among the digits the scan stops at the first letter *)
Lemma first_letter a : forallb isdigit a = false -> Forall hexc a -> exists d c u, a = d ++ c :: u /\ forallb isdigit d = true /\ isdigit c = false /\ between 97 102 c = true.
Proof.
  induction a as [|c a IH]; cbn [forallb]; [discriminate|]. intros H F. destruct (isdigit c) eqn:E.
  - destruct (IH H (Forall_inv_tail F)) as (d & c' & u & -> & ? & ? & ?). exists (c :: d), c', u. cbn. rewrite E. auto.
  - exists [], c, a. repeat split; auto. destruct (Forall_inv F); [congruence|assumption].
Qed.
(** what is left after a field with letters begins with a letter or nothing was read *)
Lemma scan_dec_letters a r : forallb isdigit a = false -> Forall hexc a ->
  scan_dec (a ++ r) = None \/ exists c u, scan_dec (a ++ r) = Some (c :: u) /\ between 97 102 c = true.
Proof.
  intros H F. destruct (first_letter a H F) as (d & c & u & -> & D & C & B). destruct d as [|x d].
  - left. cbn [app]. destruct (hexc_facts c (or_intror B)) as (S1 & S2 & S3 & _).
    unfold scan_dec. cbn [drop_while]. rewrite S1. cbn [sign]. rewrite S2, S3, C. reflexivity.
  - right. exists c, (u ++ r). split; [|exact B]. rewrite <- app_assoc. apply scan_dec_ok; [discriminate|exact D|]. exact C.
Qed.
Lemma letter_no_dec c u : between 97 102 c = true -> scan_dec (c :: u) = None /\ drop_while isspace (c :: u) = c :: u /\ Ascii.eqb ":" c = false.
Proof.
  intros B. destruct (hexc_facts c (or_intror B)) as (S1 & S2 & S3 & _ & _ & _ & _ & _ & S4). repeat split.
  - unfold scan_dec. cbn [drop_while]. rewrite S1. cbn [sign]. rewrite S2, S3.
    destruct (isdigit c) eqn:E; [|reflexivity]. unfold isdigit, between in *. lia.
  - cbn. now rewrite S1.
  - rewrite Ascii.eqb_sym. exact S4.
Qed.

(* ------------------------------------------------------------ a printed line *)

Lemma mode_span a r : forallb mode_char a = true -> match r with c :: _ => mode_char c = false | [] => True end -> span_max (length a) mode_char (a ++ r) = (a, r).
Proof.
  revert r. induction a as [|c a IH]; intros r H K; cbn [length app span_max]; [reflexivity|].
  cbn [forallb] in H. apply andb_prop in H as [-> H]. now rewrite IH.
Qed.
Lemma mode_plain c : mode_char c = true -> isspace c = false /\ Ascii.eqb c nl = false /\ Ascii.eqb c nul = false.
Proof.
  intros H. pose proof (all_ascii (fun c => implb (mode_char c) (negb (isspace c) && negb (Ascii.eqb c nl) && negb (Ascii.eqb c nul))) ltac:(vm_compute; reflexivity) c) as K.
  cbv beta in K. rewrite H in K. cbn [implb] in K. rewrite !andb_true_iff, !negb_true_iff in K. tauto.
Qed.
Lemma drop_blank a r : match a with c :: _ => isspace c = false | [] => True end -> a <> [] -> drop_while isspace (sp :: a ++ r) = a ++ r.
Proof. destruct a as [|c a]; [contradiction|]. intros H _. cbn [app drop_while]. change (isspace sp) with true. cbn iota. now rewrite H. Qed.
Lemma drop_blanks k a : match a with c :: _ => isspace c = false | [] => True end -> drop_while isspace (repeat sp k ++ a) = a.
Proof.
  intros H. induction k as [|k IH]; cbn [repeat app drop_while]; [|exact IH]. destruct a as [|c a]; [reflexivity|]. cbn. now rewrite H.
Qed.
Lemma printed_name_span s r : span (fun c => negb (Ascii.eqb c nl)) (printed_name s ++ nl :: r) = (printed_name s, nl :: r).
Proof.
  assert (G : forall a, forallb (fun c => negb (Ascii.eqb c nl)) a = true -> span (fun c => negb (Ascii.eqb c nl)) (a ++ nl :: r) = (a, nl :: r)).
  { induction a as [|c a IH]; intros H; [reflexivity|]. cbn [forallb] in H. apply andb_prop in H as [H K]. cbn [app span]. now rewrite H, IH. }
  apply G. unfold printed_name. induction s as [|c s IH]; [reflexivity|]. cbn [flat_map]. rewrite forallb_app, IH, andb_true_r.
  destruct (Ascii.eqb c nl) eqn:E; [reflexivity|]. cbn. now rewrite E.
Qed.
Lemma wide_head w n : exists c t, hex_wide w n = c :: t /\ hexc c.
Proof. destruct (hex_wide_ok w n) as (NE & FA & _). destruct (hex_wide w n) as [|c t]; [contradiction|]. exists c, t. split; [reflexivity|exact (Forall_inv FA)]. Qed.
Lemma wide_blank w n r : drop_while isspace (sp :: hex_wide w n ++ r) = hex_wide w n ++ r.
Proof.
  destruct (wide_head w n) as (c & t & E & H). rewrite E. apply drop_blank; [|discriminate]. destruct (hexc_facts c H) as (? & _). assumption.
Qed.

Definition tail_of (m : mapping) : str := match m_name m with [] => [] | n => repeat sp (m_padding m) ++ printed_name n end ++ [nl].
Definition inode_on (m : mapping) : str := to_string (m_inode m) ++ sp :: tail_of m.
Definition minor_on (m : mapping) : str := hex_wide 2 (m_minor m) ++ sp :: inode_on m.
Definition major_on (m : mapping) : str := hex_wide 2 (m_major m) ++ ":"%char :: minor_on m.
Definition offset_on (m : mapping) : str := hex_wide 8 (m_offset m) ++ sp :: major_on m.
Definition mode_on (m : mapping) : str := m_mode m ++ sp :: offset_on m.
Lemma printed_parts m : printed m = hex_wide 8 (m_first m) ++ "-"%char :: hex_wide 8 (m_end m) ++ sp :: mode_on m.
Proof. reflexivity. Qed.

Definition rest_format : list directive := [DBlank; DSkip; DBlank; DSkip; DChar ":"; DSkip; DBlank; DSkip; DBlank; DAll (fun c => negb (Ascii.eqb c nl))].
Lemma scan_start m : sound_mapping m -> sscanf map_format (printed m) =
  VNumber (m_first m) :: VNumber (m_end m) :: VText (m_mode m) :: sscanf rest_format (sp :: offset_on m).
Proof.
  intros (A & L4 & MC & _). rewrite printed_parts. unfold map_format. cbn [sscanf].
  rewrite scan_hex_wide; [|unfold uintmax; lia|vm_compute; auto]. cbn [sscanf]. change (Ascii.eqb "-" "-") with true. cbn iota.
  rewrite scan_hex_wide; [|unfold uintmax; lia|vm_compute; auto].
  assert (D : drop_while isspace (sp :: mode_on m) = mode_on m).
  { apply drop_blank; [|destruct (m_mode m); discriminate]. destruct (m_mode m) as [|c t]; [exact I|]. cbn [forallb] in MC. apply andb_prop in MC as [MC _].
    destruct (mode_plain c MC). assumption. }
  rewrite D. unfold mode_on. rewrite <- L4, mode_span; [|exact MC|reflexivity].
  destruct (m_mode m) as [|c t] eqn:E; [discriminate L4|]. reflexivity.
Qed.
Lemma scan_named m : sound_mapping m -> decimal_fields m = true -> m_name m <> [] -> sscanf rest_format (sp :: offset_on m) = [VText (printed_name (m_name m))].
Proof.
  intros (_ & _ & _ & _ & SN) DF NN. unfold decimal_fields in DF. apply andb_prop in DF as [DF D3]. apply andb_prop in DF as [D1 D2].
  unfold rest_format. cbn [sscanf]. unfold offset_on. rewrite wide_blank.
  rewrite scan_dec_ok; [|apply hex_wide_ok|exact D1|reflexivity]. unfold major_on. rewrite wide_blank.
  rewrite scan_dec_ok; [|apply hex_wide_ok|exact D2|reflexivity]. change (Ascii.eqb ":" ":") with true. cbn iota. unfold minor_on.
  rewrite scan_dec_ok; [|apply hex_wide_ok|exact D3|reflexivity]. unfold inode_on.
  destruct (to_string_value (m_inode m)) as (_ & TN & TD).
  assert (TD' : forallb isdigit (to_string (m_inode m)) = true) by (apply forallb_forall; intros x I; exact (proj1 (Forall_forall _ _) TD x I)).
  rewrite drop_blank; [|destruct (to_string (m_inode m)) as [|c t]; [exact I|exact (proj1 (digit_plain c (Forall_inv TD)))]|exact TN].
  rewrite scan_dec_ok; [|exact TN|exact TD'|reflexivity]. unfold tail_of. destruct (m_name m) as [|c n] eqn:E; [contradiction|].
  rewrite <- app_assoc. assert (H : drop_while isspace (sp :: repeat sp (m_padding m) ++ printed_name (c :: n) ++ [nl]) = printed_name (c :: n) ++ [nl]).
  { refine (drop_blanks (S (m_padding m)) (printed_name (c :: n) ++ [nl]) _). unfold printed_name. cbn [flat_map].
    destruct (Ascii.eqb c nl) eqn:Q; [reflexivity|]. exact SN. }
  rewrite H, printed_name_span. destruct (printed_name (c :: n)) as [|x y] eqn:Z; [|reflexivity].
  unfold printed_name in Z. cbn [flat_map] in Z. destruct (Ascii.eqb c nl); discriminate Z.
Qed.
Lemma scan_letters m : decimal_fields m = false -> sscanf rest_format (sp :: offset_on m) = [].
Proof.
  intros DF. unfold rest_format. cbn [sscanf]. unfold offset_on. rewrite wide_blank.
  destruct (forallb isdigit (hex_wide 8 (m_offset m))) eqn:D1.
  2:{ destruct (scan_dec_letters (hex_wide 8 (m_offset m)) (sp :: major_on m) D1) as [-> | (c & u & -> & B)]; [apply hex_wide_ok|reflexivity|].
      destruct (letter_no_dec c u B) as (X & Y & _). now rewrite Y, X. }
  rewrite scan_dec_ok; [|apply hex_wide_ok|exact D1|reflexivity]. unfold major_on. rewrite wide_blank.
  destruct (forallb isdigit (hex_wide 2 (m_major m))) eqn:D2.
  2:{ destruct (scan_dec_letters (hex_wide 2 (m_major m)) (":"%char :: minor_on m) D2) as [-> | (c & u & -> & B)]; [apply hex_wide_ok|reflexivity|].
      destruct (letter_no_dec c u B) as (_ & _ & X). now rewrite X. }
  rewrite scan_dec_ok; [|apply hex_wide_ok|exact D2|reflexivity]. change (Ascii.eqb ":" ":") with true. cbn iota. unfold minor_on.
  destruct (forallb isdigit (hex_wide 2 (m_minor m))) eqn:D3.
  2:{ destruct (scan_dec_letters (hex_wide 2 (m_minor m)) (sp :: inode_on m) D3) as [-> | (c & u & -> & B)]; [apply hex_wide_ok|reflexivity|].
      destruct (letter_no_dec c u B) as (X & Y & _). now rewrite Y, X. }
  unfold decimal_fields in DF. now rewrite D1, D2, D3 in DF.
Qed.

Lemma scan_unnamed m : m_name m = [] -> sscanf rest_format (sp :: offset_on m) = [].
Proof.
  intros NN. destruct (decimal_fields m) eqn:DF; [|now apply scan_letters].
  unfold decimal_fields in DF. apply andb_prop in DF as [DF D3]. apply andb_prop in DF as [D1 D2].
  unfold rest_format. cbn [sscanf]. unfold offset_on. rewrite wide_blank.
  rewrite scan_dec_ok; [|apply hex_wide_ok|exact D1|reflexivity]. unfold major_on. rewrite wide_blank.
  rewrite scan_dec_ok; [|apply hex_wide_ok|exact D2|reflexivity]. change (Ascii.eqb ":" ":") with true. cbn iota. unfold minor_on.
  rewrite scan_dec_ok; [|apply hex_wide_ok|exact D3|reflexivity]. unfold inode_on.
  destruct (to_string_value (m_inode m)) as (_ & TN & TD).
  assert (TD' : forallb isdigit (to_string (m_inode m)) = true) by (apply forallb_forall; intros x I; exact (proj1 (Forall_forall _ _) TD x I)).
  rewrite drop_blank; [|destruct (to_string (m_inode m)) as [|c t]; [exact I|exact (proj1 (digit_plain c (Forall_inv TD)))]|exact TN].
  rewrite scan_dec_ok; [|exact TN|exact TD'|reflexivity]. unfold tail_of. rewrite NN. reflexivity.
Qed.

(** characters of a printed line *)
Definition quiet (c : ascii) : Prop := Ascii.eqb c nl = false /\ Ascii.eqb c nul = false.
Lemma quiet_wide w n : Forall quiet (hex_wide w n).
Proof. eapply Forall_impl; [|apply hex_wide_ok]. intros c H. destruct (hexc_facts c H) as (_ & _ & _ & _ & _ & _ & ? & ? & _). split; assumption. Qed.
Lemma quiet_name s : ~ In nul s -> Forall quiet (printed_name s).
Proof.
  unfold printed_name. induction s as [|c s IH]; [constructor|]. cbn [flat_map In]. intros N. apply Forall_app. split; [|tauto].
  destruct (Ascii.eqb c nl) eqn:E; [vm_compute; repeat constructor|]. constructor; [|constructor]. split; [exact E|].
  destruct (Ascii.eqb_spec c nul); [subst; tauto|reflexivity].
Qed.
Lemma quiet_dec n : Forall quiet (to_string n).
Proof.
  destruct (to_string_value n) as (_ & _ & D). eapply Forall_impl; [|exact D]. intros c H. destruct (hexc_facts c (or_introl H)) as (_ & _ & _ & _ & _ & _ & ? & ? & _). split; assumption.
Qed.
Lemma quiet_mode s : forallb mode_char s = true -> Forall quiet s.
Proof. intros H. apply Forall_forall. intros c I. rewrite forallb_forall in H. destruct (mode_plain c (H c I)) as (_ & ? & ?). split; assumption. Qed.
Lemma printed_quiet m : sound_mapping m -> exists t, printed m = t ++ [nl] /\ Forall quiet t.
Proof.
  intros (_ & _ & MC & NN & _). rewrite printed_parts. unfold mode_on, offset_on, major_on, minor_on, inode_on, tail_of.
  set (u := match m_name m with [] => [] | n => repeat sp (m_padding m) ++ printed_name n end).
  exists (hex_wide 8 (m_first m) ++ "-"%char :: hex_wide 8 (m_end m) ++ sp :: m_mode m ++ sp :: hex_wide 8 (m_offset m) ++ sp :: hex_wide 2 (m_major m) ++ ":"%char :: hex_wide 2 (m_minor m) ++ sp :: to_string (m_inode m) ++ sp :: u).
  split; [repeat (rewrite <- app_assoc; cbn [app]); reflexivity|].
  assert (U : Forall quiet u).
  2:{ repeat first [apply quiet_wide|apply quiet_dec|exact U|exact (quiet_mode _ MC)|apply Forall_cons; [split; reflexivity|]|apply Forall_app; split]. }
  subst u. destruct (m_name m) as [|c n] eqn:E; [constructor|]. apply Forall_app. split; [|now apply quiet_name].
  apply Forall_forall. intros x I. apply repeat_spec in I. subst x. split; reflexivity.
Qed.
Lemma c_str_quiet t : Forall quiet t -> c_str (t ++ [nl]) = t ++ [nl].
Proof. induction 1 as [|c t [_ H] F IH]; [reflexivity|]. cbn [app c_str]. now rewrite H, IH. Qed.
Lemma getlines_quiet t r : Forall quiet t -> getlines (t ++ nl :: r) = (t ++ [nl]) :: getlines r.
Proof. induction 1 as [|c t [H _] F IH]; [reflexivity|]. cbn [app getlines]. now rewrite H, IH. Qed.
Lemma getlines_printed ms : Forall sound_mapping ms -> getlines (printed_map ms) = map printed ms.
Proof.
  unfold printed_map. induction 1 as [|m ms H F IH]; [reflexivity|]. cbn [map concat]. destruct (printed_quiet m H) as (t & E & Q).
  rewrite E, <- app_assoc. cbn [app]. rewrite getlines_quiet by exact Q. now rewrite IH.
Qed.

(** what the function sees in a line *)
Definition readable (m : mapping) : bool := decimal_fields m && negb (Nat.eqb (length (m_name m)) 0).
Lemma map_line_printed addr m : sound_mapping m ->
  map_line addr (printed m) = if covers addr m && readable m then Some (printed_name (m_name m)) else None.
Proof.
  intros H. destruct (printed_quiet m H) as (t & E & Q). unfold map_line. rewrite E, c_str_quiet by exact Q. rewrite <- E, scan_start by exact H.
  unfold readable. destruct (m_name m) as [|c n] eqn:N.
  - rewrite scan_unnamed by exact N. now rewrite !andb_false_r.
  - destruct (decimal_fields m) eqn:D.
    + rewrite scan_named; [|exact H|exact D|congruence]. rewrite N. unfold covers. cbn [length Nat.eqb negb andb]. rewrite andb_true_r. reflexivity.
    + rewrite scan_letters by exact D. cbn [andb]. now rewrite andb_false_r.
Qed.
Lemma find_printed addr ms : Forall sound_mapping ms ->
  find_line addr (map printed ms) = match List.find (fun m => covers addr m && readable m) ms with Some m => Some (printed_name (m_name m)) | None => None end.
Proof.
  induction 1 as [|m ms H F IH]; [reflexivity|]. cbn [map find_line List.find]. rewrite map_line_printed by exact H.
  destruct (covers addr m && readable m)%bool; [reflexivity|exact IH].
Qed.

(* ------------------------------------------------------------ the properties *)

Lemma readable_iff m : readable m = true <-> decimal_fields m = true /\ m_name m <> [].
Proof. unfold readable. rewrite andb_true_iff. destruct (m_name m); cbn; intuition congruence. Qed.

(** whatever is reported is the name of the mapping that holds the address *)
Lemma procmap_right addr ms n p : Forall sound_mapping ms -> read_procmap addr None (Some (printed_map ms)) n = Some p ->
  exists m, In m ms /\ covers addr m = true /\ m_name m <> [] /\ p = printed_name (m_name m) /\ (length p < n)%nat.
Proof.
  intros S H. cbn [read_procmap] in H. rewrite getlines_printed, find_printed in H by exact S.
  destruct (List.find (fun m => covers addr m && readable m)%bool ms) as [m|] eqn:F; [|discriminate H].
  destruct (Nat.ltb_spec (length (printed_name (m_name m))) n) as [L|L]; [|discriminate H]. injection H as <-.
  apply List.find_some in F as [I F]. apply andb_prop in F as [C R]. apply readable_iff in R as [D N]. exists m. auto.
Qed.
Lemma procmap_finds addr ms n m : Forall sound_mapping ms -> apart ms -> In m ms -> covers addr m = true -> m_name m <> [] -> decimal_fields m = true ->
  (length (printed_name (m_name m)) < n)%nat -> read_procmap addr None (Some (printed_map ms)) n = Some (printed_name (m_name m)).
Proof.
  intros S A I C N D L. cbn [read_procmap]. rewrite getlines_printed, find_printed by exact S.
  destruct (List.find (fun m => covers addr m && readable m)%bool ms) as [m'|] eqn:F.
  - apply List.find_some in F as [I' F]. apply andb_prop in F as [C' _].
    apply In_nth_error in I as [i I]. apply In_nth_error in I' as [j J]. pose proof (A i j m m' addr I J C C') as E. subst j. rewrite I in J. injection J as <-.
    destruct (Nat.ltb_spec (length (printed_name (m_name m))) n); [reflexivity|lia].
  - exfalso. pose proof (List.find_none _ _ F m I) as K. cbv beta in K. rewrite C, (proj2 (readable_iff m) (conj D N)) in K. discriminate K.
Qed.
(** a mapping with a letter in one of these fields is not found at all *)
Lemma procmap_misses addr ms n m : Forall sound_mapping ms -> apart ms -> In m ms -> covers addr m = true -> decimal_fields m = false ->
  read_procmap addr None (Some (printed_map ms)) n = None.
Proof.
  intros S A I C D. cbn [read_procmap]. rewrite getlines_printed, find_printed by exact S.
  destruct (List.find (fun m => covers addr m && readable m)%bool ms) as [m'|] eqn:F; [|reflexivity].
  apply List.find_some in F as [I' F]. apply andb_prop in F as [C' R]. apply readable_iff in R as [D' _].
  apply In_nth_error in I as [i I]. apply In_nth_error in I' as [j J]. pose proof (A i j m m' addr I J C C') as E. subst j. rewrite I in J. injection J as <-. congruence.
Qed.

(** no text whatsoever makes it report an empty path *)
Lemma span_all f s a b : span f s = (a, b) -> s = a ++ b.
Proof.
  revert a b. induction s as [|c s IH]; cbn [span]; intros a b H; [injection H as <- <-; reflexivity|].
  destruct (f c); [|injection H as <- <-; reflexivity]. destruct (span f s) as [x y]. injection H as <- <-. cbn. now rewrite <- (IH x y).
Qed.
Lemma drop_in (f : ascii -> bool) s x : In x (drop_while f s) -> In x s.
Proof. induction s as [|c s IH]; cbn [drop_while In]; [tauto|]. destruct (f c); [auto|cbn [In]; tauto]. Qed.
Lemma hex_run_in s x : forall v, In x (snd (hex_run s v)) -> In x s.
Proof. induction s as [|c s IH]; cbn [hex_run snd In]; [tauto|]. intros v. destruct (hex_value c); [intros H; right; eapply IH; exact H|cbn [snd In]; tauto]. Qed.
Lemma sign_in s x : In x (snd (sign s)) -> In x s.
Proof. destruct s as [|c s]; cbn; [tauto|]. destruct (Ascii.eqb c "-"); cbn; [tauto|]. destruct (Ascii.eqb c "+"); cbn; tauto. Qed.
Lemma no_0x_in s x : In x (no_0x s) -> In x s.
Proof. destruct s as [|a [|b s]]; cbn; try tauto. destruct (_ && _)%bool; cbn; tauto. Qed.
Lemma scan_hex_in s n r x : scan_hex s = Some (n, r) -> In x r -> In x s.
Proof.
  unfold scan_hex. destruct (sign (drop_while isspace s)) as [neg t] eqn:G. destruct (no_0x t) as [|c u] eqn:Z; [discriminate|].
  destruct (hex_value c); [|discriminate]. destruct (hex_run (c :: u) 0) as [v w] eqn:R. intros [= _ <-] I.
  apply (drop_in isspace). apply sign_in. rewrite G. cbn [snd]. apply no_0x_in. rewrite Z. apply (hex_run_in _ x 0). now rewrite R.
Qed.
Lemma scan_dec_in s r x : scan_dec s = Some r -> In x r -> In x s.
Proof.
  unfold scan_dec. destruct (sign (drop_while isspace s)) as [neg t] eqn:G. destruct t as [|c u]; [discriminate|].
  destruct (isdigit c); [|discriminate]. intros [= <-] I. apply (drop_in isspace), sign_in. rewrite G. cbn [snd]. exact (drop_in isdigit (c :: u) x I).
Qed.
Lemma span_max_all n f s a b : span_max n f s = (a, b) -> s = a ++ b.
Proof.
  revert s a b. induction n as [|n IH]; cbn [span_max]; intros s a b H; [injection H as <- <-; reflexivity|].
  destruct s as [|c s]; [injection H as <- <-; reflexivity|].
  destruct (f c); [|injection H as <- <-; reflexivity]. destruct (span_max n f s) as [x y] eqn:E. injection H as <- <-. cbn. now rewrite <- (IH s x y).
Qed.
Lemma sscanf_texts fmt : forall s t, In (VText t) (sscanf fmt s) -> t <> [] /\ forall x, In x t -> In x s.
Proof.
  induction fmt as [|d fmt IH]; cbn [sscanf In]; [tauto|]. intros s t. destruct d.
  - destruct (scan_hex s) as [[n r]|] eqn:E; [|contradiction]. cbn [In]. intros [H|H]; [discriminate H|]. destruct (IH r t H) as [NE K].
    split; [exact NE|]. intros x I. eapply scan_hex_in; [exact E|auto].
  - destruct s as [|a s]; [contradiction|]. destruct (Ascii.eqb c a); [|contradiction]. intros H. destruct (IH s t H) as [NE K]. split; [exact NE|]. intros x I. right. auto.
  - intros H. destruct (IH _ t H) as [NE K]. split; [exact NE|]. intros x I. eapply drop_in. apply K, I.
  - destruct (span_max width f s) as [a b] eqn:E. destruct a as [|c a]; [contradiction|]. apply span_max_all in E. subst s. cbn [In]. intros [H|H].
    + injection H as <-. split; [discriminate|]. intros x I. apply in_or_app. auto.
    + destruct (IH b t H) as [NE K]. split; [exact NE|]. intros x I. apply (in_or_app (c :: a)). auto.
  - destruct (scan_dec s) as [r|] eqn:E; [|contradiction]. intros H. destruct (IH r t H) as [NE K]. split; [exact NE|]. intros x I. eapply scan_dec_in; [exact E|auto].
  - destruct (span f s) as [a b] eqn:E. destruct a as [|c a]; [contradiction|]. apply span_all in E. subst s. cbn [In]. intros [H|H].
    + injection H as <-. split; [discriminate|]. intros x I. apply in_or_app. auto.
    + destruct (IH b t H) as [NE K]. split; [exact NE|]. intros x I. apply (in_or_app (c :: a)). auto.
Qed.
Lemma c_str_clean s : ~ In nul (c_str s).
Proof. induction s as [|c s IH]; cbn [c_str In]; [tauto|]. destruct (Ascii.eqb_spec c nul); cbn [In]; [tauto|]. intuition congruence. Qed.
Lemma c_str_noop s : ~ In nul s -> c_str s = s.
Proof. induction s as [|c s IH]; cbn [c_str In]; [reflexivity|]. intros H. destruct (Ascii.eqb_spec c nul); [tauto|]. f_equal. tauto. Qed.
Lemma find_line_text addr ls p : find_line addr ls = Some p -> p <> [] /\ c_str p = p.
Proof.
  induction ls as [|l ls IH]; cbn [find_line]; [discriminate|]. destruct (map_line addr l) as [q|] eqn:E; [|exact IH]. intros [= <-]. unfold map_line in E.
  pose proof (sscanf_texts map_format (c_str l)) as T. destruct (sscanf map_format (c_str l)) as [|[a|a] [|[b|b] [|[c|c] [|[d|d] [|]]]]]; try discriminate E.
  destruct (N.leb a addr && N.ltb addr b)%bool; [|discriminate E]. injection E as <-.
  destruct (T d) as [NE K]; [right; right; right; left; reflexivity|]. split; [exact NE|]. apply c_str_noop. intros I. exact (c_str_clean l (K _ I)).
Qed.
Lemma procmap_text addr maps n p : read_procmap addr None maps n = Some p -> p <> [] /\ c_str p = p /\ (length p < n)%nat.
Proof.
  cbn [read_procmap]. destruct maps as [t|]; [|discriminate]. destruct (find_line addr (getlines t)) as [q|] eqn:F; [|discriminate].
  destruct (Nat.ltb_spec (length q) n) as [L|L]; [|discriminate]. intros [= <-]. destruct (find_line_text _ _ _ F). auto.
Qed.

(* ------------------------------------------------------------ examples *)

Definition libc_map : mapping := mkmap 138415000000000 138415000167936 $"r--p" 0 259 1 2758110 20 $"/usr/lib/x86_64-linux-gnu/libc.so.6".
(** the same file on a device mapper volume: device fd:00 *)
Definition lvm_map : mapping := mkmap 138415000000000 138415000167936 $"r--p" 0 253 0 2758110 20 $"/usr/lib/x86_64-linux-gnu/libc.so.6".
Definition heap_map : mapping := mkmap 94000000000000 94000000135168 $"rw-p" 0 0 0 0 20 $"[heap]".
Definition anon_map : mapping := mkmap 138415000167936 138415000180224 $"rw-p" 0 0 0 0 0 [].
Definition newline_map : mapping := mkmap 138415000000000 138415000167936 $"r--p" 0 8 1 2758110 20 ($"/opt/a" ++ nl :: $"b.so").
Lemma apart_ranges ms : ForallOrdPairs (fun a b => m_end a <= m_first b) ms -> Forall (fun m => m_first m < m_end m) ms -> apart ms.
Proof.
  intros P _. unfold apart. assert (G : forall i j a b addr, (i < j)%nat -> nth_error ms i = Some a -> nth_error ms j = Some b -> covers addr a = true -> covers addr b = true -> False).
  { induction P as [|x ms F P IH]; intros i j a b addr L A B CA CB; [destruct i; discriminate A|].
    destruct j as [|j]; [lia|]. destruct i as [|i].
    - cbn in A, B. injection A as <-. apply nth_error_In in B. rewrite Forall_forall in F. specialize (F b B). unfold covers in *. lia.
    - exact (IH i j a b addr ltac:(lia) A B CA CB). }
  intros i j a b addr A B CA CB. destruct (Nat.lt_trichotomy i j) as [H|[H|H]]; [|exact H|]; exfalso; eauto.
Qed.
Lemma sound_example m : In m [heap_map; libc_map; lvm_map; anon_map; newline_map] -> sound_mapping m.
Proof.
  cbn [In]. intros H. repeat destruct H as [<-|H]; try contradiction; (repeat split; try (vm_compute; congruence)); intros I; vm_compute in I;
    repeat (destruct I as [I|I]; [discriminate I|]); contradiction.
Qed.

Lemma same_name s : ~ In nl s -> printed_name s = s.
Proof. unfold printed_name. induction s as [|c s IH]; [reflexivity|]. cbn [flat_map In]. intros H. destruct (Ascii.eqb_spec c nl); [tauto|]. cbn [app]. f_equal. tauto. Qed.
Lemma ways_agree addr ms n p : Forall sound_mapping ms -> apart ms -> kernel_answer addr ms n = Some p ->
  (forall m, mapping_at addr ms = Some m -> decimal_fields m = true) -> ~ In nl p ->
  read_procmap addr (Some p) (Some (printed_map ms)) n = Some p /\ read_procmap addr None (Some (printed_map ms)) n = Some p.
Proof.
  intros S A K D N. split; [reflexivity|]. unfold kernel_answer in K. destruct (mapping_at addr ms) as [m|] eqn:F; [|discriminate K].
  destruct (m_name m) as [|c t] eqn:E; [discriminate K|]. destruct (Ascii.eqb c "/"); [|discriminate K]. cbn [andb] in K.
  destruct (Nat.ltb_spec (length (c :: t)) n) as [L|L]; [|discriminate K]. injection K as <-.
  pose proof (List.find_some _ _ F) as [I C]. rewrite (procmap_finds addr ms n m S A I C); rewrite ?E, ?same_name; try exact N; auto; discriminate.
Qed.

Definition usual_maps : list mapping := [heap_map; libc_map; anon_map].
Lemma usual_ok : Forall sound_mapping usual_maps /\ apart usual_maps.
Proof.
  split; [repeat (apply Forall_cons; [apply sound_example; cbn; tauto|]); apply Forall_nil|].
  apply apart_ranges; repeat constructor; vm_compute; congruence.
Qed.
Lemma lvm_missed : exists ms addr m n, Forall sound_mapping ms /\ apart ms /\ In m ms /\ covers addr m = true /\ m_name m <> [] /\
  (length (printed_name (m_name m)) < n)%nat /\ read_procmap addr None (Some (printed_map ms)) n = None.
Proof.
  exists [heap_map; lvm_map; anon_map], 138415000000000, lvm_map, 4096%nat. split; [|split; [|split; [|split; [|split; [|split]]]]].
  - repeat (apply Forall_cons; [apply sound_example; cbn; tauto|]). apply Forall_nil.
  - apply apart_ranges; repeat constructor; vm_compute; congruence.
  - cbn; tauto.
  - reflexivity.
  - discriminate.
  - apply Nat.ltb_lt. vm_compute. reflexivity.
  - vm_compute. reflexivity.
Qed.
Lemma newline_differs : exists ms addr p q n, Forall sound_mapping ms /\ apart ms /\ (forall m, In m ms -> decimal_fields m = true) /\
  kernel_answer addr ms n = Some p /\ read_procmap addr None (Some (printed_map ms)) n = Some q /\ p <> q.
Proof.
  exists [heap_map; newline_map], 138415000000000, ($"/opt/a" ++ nl :: $"b.so"), ($"/opt/a\012b.so"), 64%nat. split; [|split; [|split; [|split; [|split]]]].
  - repeat (apply Forall_cons; [apply sound_example; cbn; tauto|]). apply Forall_nil.
  - apply apart_ranges; repeat constructor; vm_compute; congruence.
  - cbn [In]. intros m [<-|[<-|[]]]; vm_compute; reflexivity.
  - vm_compute. reflexivity.
  - vm_compute. reflexivity.
  - vm_compute. congruence.
Qed.

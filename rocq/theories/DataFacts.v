(** Facts about reading, dumping and embedding template files. *)
From Coq Require Import Ascii String List Bool Arith NArith Lia.
From Verif Require Import Str StrFacts Substitute Data SpecData.
Import ListNotations.

Lemma lines_line p : ~ In nl p -> lines p = [p].
Proof.
  induction p as [|c p IH]; intro H; [easy|]. cbn [lines]. destruct (Ascii.eqb_spec c nl) as [->|_]; [exfalso; apply H; now left|].
  rewrite IH; [easy|]. intro; apply H; now right.
Qed.
Lemma lines_app p r : ~ In nl p -> lines (p ++ nl :: r) = p :: lines r.
Proof.
  induction p as [|c p IH]; intro H; [easy|]. cbn [lines app]. destruct (Ascii.eqb_spec c nl) as [->|_]; [exfalso; apply H; now left|].
  rewrite IH; [easy|]. intro; apply H; now right.
Qed.
Lemma lines_nonempty s : lines s <> [].
Proof. destruct s as [|c s]; [easy|]. cbn [lines]. destruct (Ascii.eqb c nl); [easy|]. now destruct (lines s). Qed.
(** every text is a line, or a line, a line feed and a text *)
Lemma text_cases s : ~ In nl s \/ exists p r, s = p ++ nl :: r /\ ~ In nl p.
Proof.
  induction s as [|c s [H|(p & r & -> & H)]]; [now left| |].
  - destruct (Ascii.eqb_spec c nl) as [->|N]; [right; now exists [], s|]. left. intros [E|E]; congruence || easy.
  - destruct (Ascii.eqb_spec c nl) as [->|N]; [right; now exists [], (p ++ nl :: r)|].
    right. exists (c :: p), r. split; [easy|]. intros [E|E]; congruence || easy.
Qed.
Lemma text_ind (P : str -> Prop) : (forall p, ~ In nl p -> P p) -> (forall p r, ~ In nl p -> P r -> P (p ++ nl :: r)) -> forall s, P s.
Proof.
  intros H1 H2 s. remember (length s) as n eqn:E. assert (L : length s <= n) by lia. clear E. revert s L.
  induction n as [|n IH]; intros s L.
  - destruct s; [now apply H1|cbn in L; lia].
  - destruct (text_cases s) as [H|(p & r & -> & H)]; [auto|]. apply H2; [easy|]. apply IH. rewrite app_length in L. cbn in L. lia.
Qed.
Lemma lines_length s : length (lines s) = 1 + count_linefeed s.
Proof.
  unfold count_linefeed. induction s as [|c s IH]; [easy|]. cbn [lines filter]. rewrite (Ascii.eqb_sym nl c).
  destruct (Ascii.eqb c nl); [cbn [length]; now rewrite IH|]. rewrite <- IH. assert (N := lines_nonempty s). now destruct (lines s).
Qed.

(* ------------------------------------------------------------ suffixes *)

Lemma ends_with_nil_r p : ends_with p [] = match p with [] => true | _ => false end.
Proof.
  destruct p as [|x p]; [easy|]. destruct (ends_with (x :: p) []) eqn:E; [|easy]. apply ends_with_spec in E as [r E]. now destruct r.
Qed.
Lemma ends_with_app_long p a b : length p <= length b -> ends_with p (a ++ b) = ends_with p b.
Proof.
  intro L. unfold ends_with. rewrite rev_app_distr. assert (L' : length (rev p) <= length (rev b)) by now rewrite !rev_length.
  revert L'. generalize (rev p) (rev b) (rev a). clear. induction l as [|x l IH]; intros b a L; [easy|]. destruct b as [|y b]; [cbn in L; lia|].
  cbn [starts_with app]. rewrite IH; [easy|cbn in L; lia].
Qed.
Definition fresh (d : str) : Prop := d = [] \/ exists d0, d = d0 ++ [nl].
Lemma ends_one c d : ends_with [c] (d ++ [c]) = true.
Proof. apply ends_with_app. Qed.
Lemma ends_last c x d : ends_with [c] (d ++ [x]) = Ascii.eqb c x.
Proof. unfold ends_with. rewrite rev_app_distr. cbn. now rewrite Bool.andb_true_r. Qed.
Lemma ends_last2 c c' x x' d : ends_with [c; c'] (d ++ [x; x']) = Ascii.eqb c x && Ascii.eqb c' x'.
Proof. unfold ends_with. rewrite rev_app_distr. cbn. rewrite Bool.andb_true_r. apply andb_comm. Qed.
Lemma last_case {A} (l : list A) : l = [] \/ exists l' x, l = l' ++ [x].
Proof. destruct l as [|a l] using rev_ind; [now left|]. right. now exists l, a. Qed.
Lemma fresh_at d p : fresh d -> ends_with $"@" (d ++ p) = ends_with $"@" p.
Proof.
  intro F. change $"@" with ["@"%char]. destruct (last_case p) as [->|(p' & x & ->)].
  - rewrite app_nil_r. destruct F as [->|[d0 ->]]; [easy|]. now rewrite ends_last, ends_with_nil_r.
  - rewrite app_assoc. now rewrite !ends_last.
Qed.
Lemma fresh_at_cr d p : fresh d -> ends_with ($"@" ++ [cr]) (d ++ p) = ends_with ($"@" ++ [cr]) p.
Proof.
  intro F. change ($"@" ++ [cr]) with ["@"%char; cr]. destruct (last_case p) as [->|(p' & x & ->)].
  - rewrite app_nil_r. destruct F as [->|[d0 ->]]; [easy|]. destruct (last_case d0) as [->|(d1 & y & ->)]; [easy|].
    rewrite <- app_assoc. cbn [app]. now rewrite ends_last2, Bool.andb_false_r.
  - destruct (last_case p') as [->|(p1 & y & ->)].
    + destruct F as [->|[d0 ->]]; [easy|]. rewrite <- app_assoc. cbn [app]. rewrite ends_last2. cbn [andb Ascii.eqb].
      destruct (ends_with ["@"%char; cr] [x]) eqn:E; [|easy]. apply ends_with_spec in E as [q E]. apply (f_equal (@length _)) in E.
      rewrite app_length in E. cbn in E. lia.
    + now rewrite ends_with_app_long by (rewrite !app_length; cbn; lia).
Qed.

(* ------------------------------------------------------------ reading *)

Definition push (e : entry) (p : str) : entry := mkentry (e_data e ++ p) (e_kw e || percent p) (e_count e).
Lemma get_push p : forall e s, ~ In nl p -> get_lines_from e (p ++ s) = get_lines_from (push e p) s.
Proof.
  induction p as [|c p IH]; intros [d kw n] s H.
  - cbn. unfold push. cbn. now rewrite app_nil_r, Bool.orb_false_r.
  - cbn [app get_lines_from]. unfold save_to_line at 1 2. destruct (Ascii.eqb_spec c nl) as [->|N]; [exfalso; apply H; now left|].
    cbn [fst snd]. rewrite IH by (intro; apply H; now right). unfold push. cbn [e_data e_kw e_count]. rewrite <- app_assoc. cbn [app percent existsb].
    now rewrite (Ascii.eqb_sym "%" c), Bool.orb_assoc.
Qed.
Lemma firstn_app_less {A} (a b : list A) k : k <= length b -> firstn (length (a ++ b) - k) (a ++ b) = a ++ firstn (length b - k) b.
Proof.
  intro L. rewrite firstn_app, app_length. rewrite firstn_all2 by lia. now replace (length a + length b - k - length a) with (length b - k) by lia.
Qed.
Lemma get_nl d p kw n r : fresh d ->
  get_lines_from (mkentry (d ++ p) kw n) (nl :: r) =
  if continued p then get_lines_from (mkentry (d ++ unmark p ++ [nl]) kw (n + 1)) r else (mkentry (d ++ p) kw n, true, r).
Proof.
  intro F. cbn [get_lines_from]. unfold save_to_line. rewrite Ascii.eqb_refl. cbn [e_data e_kw e_count].
  rewrite (fresh_at d p F), (fresh_at_cr d p F). unfold continued, unmark. destruct (ends_with $"@" p) eqn:E1.
  - cbn [fst snd orb]. unfold set_back. rewrite firstn_app_less; [now rewrite <- app_assoc|]. apply ends_with_spec in E1 as [q ->].
    rewrite app_length. cbn. lia.
  - destruct (ends_with ($"@" ++ [cr]) p) eqn:E2; [|easy]. cbn [fst snd orb]. unfold replace_at. apply ends_with_spec in E2 as [q ->].
    rewrite firstn_app_less by (rewrite app_length; cbn; lia). rewrite (skipn_all2 _) by lia. rewrite app_nil_r, <- !app_assoc. easy.
Qed.
Lemma get_end d p kw n : fresh d ->
  get_lines_from (mkentry (d ++ p) kw n) [] = (mkentry (d ++ delete_suffix p $"@") kw n, false, []).
Proof.
  intro F. cbn [get_lines_from save_to_line fst e_data e_kw e_count]. unfold delete_suffix. rewrite (fresh_at d p F). destruct (ends_with $"@" p) eqn:E; [|easy].
  apply ends_with_spec in E as [q ->]. rewrite firstn_app_less; [easy|]. rewrite app_length. cbn. lia.
Qed.

Definition read_from (fuel : nat) (e : entry) (fp : str) : option (list entry) :=
  let '(e, more, fp') := get_lines_from e fp in
  if more then match fuel with O => None | S f => match read_loop f fp' with Some l => Some (e :: l) | None => None end end else Some [e].
Lemma read_loop_from fuel fp : read_loop fuel fp = read_from fuel (mkentry [] false 1) fp.
Proof. destruct fuel; reflexivity. Qed.

(** the entries with [d], [kw] and [n - 1] lines already read *)
Definition gathered (d : str) (kw : bool) (n : nat) (gs : list (list str)) : list entry :=
  match gs with
  | [] => []
  | g :: gs => mkentry (d ++ glue g) (kw || existsb percent g) (n + (length g - 1)) :: map group_entry gs
  end.
Lemma gathered_groups gs : Forall (fun g => g <> []) gs -> gathered [] false 1 gs = map group_entry gs.
Proof.
  intro H. destruct H as [|g gs H _]; [easy|]. cbn. unfold group_entry. destruct g; [easy|]. cbn. now rewrite Nat.sub_0_r.
Qed.
Lemma groups_cons p q ps : groups (p :: q :: ps) =
  if continued p then match groups (q :: ps) with g :: gs => (p :: g) :: gs | [] => [[p]] end else [p] :: groups (q :: ps).
Proof. reflexivity. Qed.
Lemma groups_nonempty ps : Forall (fun g => g <> []) (groups ps).
Proof.
  induction ps as [|p [|q ps] IH]; [constructor|repeat constructor; easy|]. rewrite groups_cons. destruct (continued p).
  - destruct (groups (q :: ps)); [repeat constructor; easy|]. inversion IH; subst. constructor; easy.
  - constructor; [easy|exact IH].
Qed.
Lemma groups_some q ps : exists g gs, groups (q :: ps) = g :: gs.
Proof.
  destruct ps as [|r ps]; [now exists [q], []|]. rewrite groups_cons. destruct (continued q); [|now eexists _, _].
  destruct (groups (r :: ps)); now eexists _, _.
Qed.
Lemma groups_head q ps : exists g gs, groups (q :: ps) = g :: gs /\ g <> [].
Proof.
  destruct (groups_some q ps) as (g & gs & G). exists g, gs. split; [easy|]. assert (X := groups_nonempty (q :: ps)). rewrite G in X. now inversion X.
Qed.
Lemma unmark_percent p : continued p = true -> percent (unmark p) = percent p.
Proof.
  unfold continued, unmark, percent. destruct (ends_with $"@" p) eqn:E1.
  - intros _. apply ends_with_spec in E1 as [q ->]. rewrite app_length. cbn. rewrite Nat.add_sub, firstn_app_exact, existsb_app. cbn. now rewrite Bool.orb_false_r.
  - cbn [orb]. intro E2. apply ends_with_spec in E2 as [q ->]. rewrite app_length. cbn. rewrite Nat.add_sub, firstn_app_exact, !existsb_app. cbn. now rewrite Bool.orb_false_r.
Qed.
Lemma delete_suffix_tail p r : delete_suffix (p ++ nl :: r) $"@" = p ++ nl :: delete_suffix r $"@".
Proof.
  unfold delete_suffix. replace (p ++ nl :: r) with ((p ++ [nl]) ++ r) by now rewrite <- app_assoc.
  rewrite fresh_at by (right; now exists p). destruct (ends_with $"@" r) eqn:E.
  - rewrite firstn_app_less; [now rewrite <- app_assoc|]. apply ends_with_spec in E as [q ->]. rewrite app_length. cbn. lia.
  - now rewrite <- app_assoc.
Qed.
Lemma delete_suffix_In c s suf : In c (delete_suffix s suf) -> In c s.
Proof. unfold delete_suffix. destruct (ends_with suf s); [|easy]. intro H. rewrite <- (firstn_skipn (length s - length suf) s). apply in_or_app. now left. Qed.
Lemma percent_delete p : percent (delete_suffix p $"@") = percent p.
Proof.
  unfold delete_suffix. destruct (ends_with $"@" p) eqn:E; [|easy]. apply ends_with_spec in E as [q ->]. rewrite app_length. cbn.
  rewrite Nat.add_sub, firstn_app_exact. unfold percent. rewrite existsb_app. cbn. now rewrite Bool.orb_false_r.
Qed.

Lemma read_from_lines : forall text d kw n fuel, fresh d -> length text <= fuel ->
  read_from fuel (mkentry d kw n) text = Some (gathered d kw n (groups (file_lines text))).
Proof.
  apply (text_ind (fun text => forall d kw n fuel, fresh d -> length text <= fuel ->
    read_from fuel (mkentry d kw n) text = Some (gathered d kw n (groups (file_lines text)))));
    [intros p H d kw n fuel F L|intros p r H IH d kw n fuel F L]; unfold read_from, file_lines.
  - rewrite <- (app_nil_r p) at 1. rewrite get_push by easy. unfold push. cbn [e_data e_kw e_count]. rewrite get_end by easy.
    rewrite lines_line by (intro X; now apply delete_suffix_In in X). cbn. now rewrite Nat.add_0_r, Bool.orb_false_r, percent_delete.
  - rewrite get_push by easy. unfold push. cbn [e_data e_kw e_count]. rewrite get_nl by easy. rewrite app_length in L. cbn [length] in L.
    rewrite delete_suffix_tail, lines_app by easy. fold (file_lines r). assert (N := lines_nonempty (delete_suffix r $"@")). fold (file_lines r) in N.
    destruct (file_lines r) as [|q ps] eqn:Q; [easy|]. rewrite groups_cons. destruct (groups_some q ps) as (g & gs & G). rewrite G.
    assert (G0 : g <> []) by (assert (X := groups_nonempty (q :: ps)); rewrite G in X; now inversion X).
    destruct (continued p) eqn:C.
    + fold (read_from fuel (mkentry (d ++ unmark p ++ [nl]) (kw || percent p) (n + 1)) r).
      rewrite IH; [|right; exists (d ++ unmark p); now rewrite <- app_assoc|lia]. rewrite G. cbn [gathered]. f_equal. f_equal.
      destruct g as [|q0 g]; [easy|]. f_equal.
      * cbn [glue]. rewrite <- !app_assoc. reflexivity.
      * cbn [existsb]. now rewrite !Bool.orb_assoc.
      * cbn. lia.
    + destruct fuel as [|fuel]; [lia|]. rewrite read_loop_from, IH; [|now left|lia]. rewrite G.
      rewrite gathered_groups by (rewrite <- G; apply groups_nonempty). cbn. now rewrite Nat.add_0_r, Bool.orb_false_r.
Qed.
Lemma read_entries_lines text : read_entries text = Ok (map group_entry (groups (file_lines text))).
Proof.
  unfold read_entries. rewrite read_loop_from, read_from_lines; [|now left|easy]. rewrite gathered_groups; [easy|]. apply groups_nonempty.
Qed.

Lemma groups_concat ps : concat (groups ps) = ps.
Proof.
  induction ps as [|p [|q ps] IH]; [easy|easy|]. rewrite groups_cons. destruct (groups_some q ps) as (g & gs & G). rewrite G in *.
  destruct (continued p); cbn [concat app] in *; now rewrite <- IH.
Qed.
Lemma sum_group_counts gs : fold_right (fun e n => e_count e + n) 0 (map group_entry gs) = length (concat gs).
Proof. induction gs as [|g gs IH]; [easy|]. cbn. now rewrite app_length, IH. Qed.
Lemma count_linefeed_app a b : count_linefeed (a ++ b) = count_linefeed a + count_linefeed b.
Proof. unfold count_linefeed. now rewrite filter_app, app_length. Qed.
Lemma line_total text l : read_entries text = Ok l -> fold_right (fun e n => e_count e + n) 0 l = 1 + count_linefeed text.
Proof.
  rewrite read_entries_lines. intro E. assert (E' : l = map group_entry (groups (file_lines text))) by congruence. subst l.
  rewrite sum_group_counts, groups_concat. unfold file_lines. rewrite lines_length. f_equal.
  unfold delete_suffix. destruct (ends_with $"@" text) eqn:E2; [|easy]. apply ends_with_spec in E2 as [q ->].
  rewrite app_length. cbn. rewrite Nat.add_sub, firstn_app_exact, count_linefeed_app. cbn. lia.
Qed.

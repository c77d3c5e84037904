(** Dumping and embedding template files. *)
From Coq Require Import Ascii String List Bool Arith NArith Lia.
From Verif Require Import Str StrFacts Substitute Data SpecData DataFacts.
Import ListNotations.

(* ------------------------------------------------------------ dump and reload *)

Definition spread (s : str) : str := flat_map (fun c => if Ascii.eqb c nl then $"@" ++ [nl] else [c]) s.
Lemma spread_line s : ~ In nl s -> spread s = s.
Proof.
  induction s as [|c s IH]; intro H; [easy|]. cbn. destruct (Ascii.eqb_spec c nl) as [->|_]; [exfalso; apply H; now left|].
  cbn. f_equal. apply IH. intro; apply H; now right.
Qed.
Lemma count_zero s : count_linefeed s = 0 -> ~ In nl s.
Proof.
  unfold count_linefeed. intros H I. assert (X : In nl (filter (Ascii.eqb nl) s)) by now apply filter_In. now destruct (filter (Ascii.eqb nl) s).
Qed.
Lemma entry_text_spread e : entry_ok e -> entry_text e = spread (e_data e) ++ [nl].
Proof.
  intros (H & _). unfold entry_text. destruct (Nat.eqb_spec (e_count e) 1) as [E|_]; [|easy]. rewrite spread_line; [easy|]. apply count_zero. lia.
Qed.
Lemma get_spread s : forall d kw n r, get_lines_from (mkentry d kw n) (spread s ++ r) =
  get_lines_from (mkentry (d ++ s) (kw || percent s) (n + count_linefeed s)) r.
Proof.
  induction s as [|c s IH]; intros d kw n r.
  - cbn. now rewrite app_nil_r, Bool.orb_false_r, Nat.add_0_r.
  - cbn [spread flat_map]. fold (spread s). rewrite <- app_assoc. destruct (Ascii.eqb_spec c nl) as [->|N].
    + rewrite <- app_assoc. rewrite (get_push $"@") by (cbn; intuition discriminate). unfold push. cbn [e_data e_kw e_count app]. cbn [get_lines_from].
      unfold save_to_line. rewrite Ascii.eqb_refl. cbn [e_data e_kw e_count].
      rewrite (ends_with_app $"@" d). cbn [fst snd]. rewrite IH. unfold set_back. rewrite firstn_app_less by (cbn; lia). cbn [lit list_ascii_of_string length firstn Nat.sub].
      rewrite app_nil_r, <- app_assoc. f_equal. f_equal; [cbn; now rewrite Bool.orb_false_r|unfold count_linefeed; cbn; lia].
    + rewrite (get_push [c]) by (intros [E|[]]; congruence). unfold push. cbn [e_data e_kw e_count]. rewrite IH. rewrite <- app_assoc. cbn [app].
      f_equal. f_equal; [cbn [percent existsb]; now rewrite Bool.orb_false_r, Bool.orb_assoc|].
      unfold count_linefeed. cbn [filter]. destruct (Ascii.eqb_spec nl c); [congruence|easy].
Qed.
Lemma get_entry e r : entry_ok e -> get_lines (entry_text e ++ r) = (e, true, r).
Proof.
  intro H. rewrite entry_text_spread by easy. unfold get_lines. rewrite <- app_assoc, get_spread. cbn [app]. destruct e as [d kw n]. destruct H as (H1 & H2 & H3).
  cbn [e_data e_kw e_count] in *. rewrite (get_nl [] d) by now left. now rewrite H3, <- H2, H1.
Qed.
Lemma read_loop_S f fp : read_loop (S f) fp =
  let '(e, more, fp') := get_lines fp in if more then match read_loop f fp' with Some l => Some (e :: l) | None => None end else Some [e].
Proof. reflexivity. Qed.
Lemma read_loop_entries l : Forall entry_ok l -> forall fuel, length l <= fuel -> read_loop fuel (concat (map entry_text l)) = Some (l ++ [blank_entry]).
Proof.
  induction l as [|e l IH]; intros H fuel L; [now destruct fuel|]. inversion H; subst. destruct fuel as [|fuel]; [cbn in L; lia|].
  rewrite read_loop_S. cbn [map concat]. rewrite get_entry by easy. rewrite IH; [easy..|cbn in L; lia].
Qed.
Lemma save_to_file_text l : Forall entry_ok l -> save_to_file (l ++ [end_mark]) = Ok (concat (map entry_text l)).
Proof.
  induction 1 as [|e l H _ IH]; [easy|]. cbn [save_to_file app]. destruct H as (H & _). destruct (Nat.eqb_spec (e_count e) 0); [lia|]. now rewrite IH.
Qed.
Lemma concat_length_ge l : length l <= length (concat (map entry_text l)).
Proof.
  induction l as [|e l IH]; [easy|]. cbn [map concat length]. rewrite app_length.
  assert (1 <= length (entry_text e)) by (unfold entry_text; destruct (Nat.eqb _ 1); rewrite app_length; cbn; lia). lia.
Qed.
Lemma read_dumped l : Forall entry_ok l -> exists text, save_to_file (l ++ [end_mark]) = Ok text /\ read_entries text = Ok (l ++ [blank_entry]).
Proof.
  intro H. exists (concat (map entry_text l)). split; [now apply save_to_file_text|]. unfold read_entries. rewrite read_loop_entries; [easy..|]. apply concat_length_ge.
Qed.
Lemma reload_dumped l file : Forall entry_ok l -> exists text, save_to_file (l ++ [end_mark]) = Ok text /\
  load_from_file [] file false text = Ok (l ++ [blank_entry; end_mark]).
Proof.
  intro H. destruct (read_dumped l H) as (text & S & R). exists text. split; [easy|]. unfold load_from_file. rewrite R. cbn. now rewrite <- app_assoc.
Qed.
Lemma reload_differs l file : Forall entry_ok l -> exists text l', save_to_file (l ++ [end_mark]) = Ok text /\
  load_from_file [] file false text = Ok l' /\ l' <> l ++ [end_mark].
Proof.
  intro H. destruct (reload_dumped l file H) as (text & S & R). exists text. eexists. split; [easy|]. split; [exact R|].
  intro E. apply (f_equal (@length _)) in E. rewrite !app_length in E. cbn in E. lia.
Qed.
Lemma trailing_mark : exists e1 e2 text, e_count e1 = 1 + count_linefeed (e_data e1) /\ e_kw e1 = percent (e_data e1) /\ entry_ok e2 /\
  save_to_file [e1; e2; end_mark] = Ok text /\ read_entries text = Ok [mkentry $"int a;
int b;" false 2; blank_entry].
Proof.
  exists (mkentry $"int a;@" false 1), (mkentry $"int b;" false 1). eexists. repeat split; vm_compute; reflexivity.
Qed.

(** the extra entry is an extra line of output *)
Lemma entries_app c l : Forall (fun e => e_count e <> 0) l -> forall tail lineno skip ws k skip',
  substitute_entries c lineno skip (l ++ [end_mark]) = Ok (ws, k, skip') ->
  substitute_entries c lineno skip (l ++ tail) =
  match substitute_entries c (lineno + fold_right (fun e n => e_count e + n) 0 l) skip' tail with
  | Ok (ws', k', s) => Ok (ws ++ ws', k + k', s)
  | r => r
  end.
Proof.
  induction 1 as [|e l H _ IH]; intros tail lineno skip ws k skip' E.
  - cbn in E. assert (ws = [] /\ k = 0 /\ skip' = skip) as (-> & -> & ->) by (injection E; intuition).
    cbn [fold_right app]. rewrite Nat.add_0_r. destruct (substitute_entries c lineno skip tail) as [[[w n] s]| | |]; reflexivity.
  - cbn [app substitute_entries fold_right] in *. destruct (Nat.eqb_spec (e_count e) 0); [easy|].
    destruct (substitute_line c lineno skip e) as [[[w n0] s1]| | |]; try discriminate. cbn [bind] in *.
    destruct (substitute_entries c (lineno + e_count e) s1 (l ++ [end_mark])) as [[[w' n'] s2]| | |] eqn:Q; try discriminate. cbn [bind] in E.
    assert (ws = w ++ w' /\ k = n0 + n' /\ skip' = s2) as (-> & -> & ->) by (injection E; intuition).
    rewrite (IH tail _ _ _ _ _ Q), Nat.add_assoc. destruct (substitute_entries c _ s2 tail) as [[[w2 n2] s3]| | |]; [|reflexivity..].
    cbn [bind]. now rewrite app_assoc, Nat.add_assoc.
Qed.
Lemma blank_line c l lineno skip ws k : Forall entry_ok l -> substitute_entries c lineno skip (l ++ [end_mark]) = Ok (ws, k, false) ->
  substitute_entries c lineno skip (l ++ [blank_entry; end_mark]) = Ok (ws ++ [WText [nl]], k + 1, false).
Proof.
  intros H E. assert (H' : Forall (fun e => e_count e <> 0) l) by (eapply Forall_impl; [|exact H]; intros e (X & _); lia).
  rewrite (entries_app c l H' _ _ _ _ _ _ E).
  reflexivity.
Qed.

(* ------------------------------------------------------------ embedding *)

Lemma compiled_app a b : compiled_all (a ++ b) = match compiled_all a, compiled_all b with Some x, Some y => Some (x ++ y) | _, _ => None end.
Proof.
  induction a as [|x a IH]; cbn [compiled_all app]; [now destruct (compiled_all b)|]. rewrite IH. destruct (compiled x), (compiled_all a), (compiled_all b); reflexivity.
Qed.
Lemma literals_app a b : literals (a ++ b) = match literals a, literals b with Some x, Some y => Some (x ++ y) | _, _ => None end.
Proof.
  induction a as [|x a IH]; cbn [literals app]; [now destruct (literals b)|]. rewrite IH. destruct (c_literal Plain x), (literals a), (literals b); try reflexivity.
  now rewrite app_assoc.
Qed.
(** what dump writes for an ordinary character that needs no look-ahead *)
Definition spelled (c : ascii) : str :=
  if Ascii.eqb c tab then $"\t" else if Ascii.eqb c dquote then $"\" ++ [dquote] else if Ascii.eqb c bslash then $"\\" else [c].
Lemma spelled_value c : ordinary c = true -> c <> nl -> c_literal Plain (spelled c) = Some [c].
Proof. destruct c as [[] [] [] [] [] [] [] []]; intros H N; try reflexivity; try discriminate; now exfalso; apply N. Qed.
(** complete escapes do not reach into what follows: for decoded texts without hexadecimal escapes at the end *)
Fixpoint closed (m : lit_mode) (s : str) : bool :=
  match s with
  | [] => match m with Plain => true | _ => false end
  | c :: r =>
      let plain := if Ascii.eqb c bslash then closed Escape r else closed Plain r in
      match m with
      | Plain => plain
      | Escape => if Ascii.eqb c "x" then closed (Hex None) r else closed Plain r
      | Hex v => match hex_digit c with Some _ => closed (Hex None) r | None => plain end
      end
  end.
Lemma c_literal_app a : forall m b x, closed m a = true -> c_literal m a = Some x ->
  c_literal m (a ++ b) = match c_literal Plain b with Some y => Some (x ++ y) | None => None end.
Proof.
  assert (C : forall s v v', closed (Hex v) s = closed (Hex v') s) by (intros [|c s] v v'; [easy|]; reflexivity).
  assert (P : forall c r, put c r = match r with Some s => Some (c :: s) | None => None end) by reflexivity.
  induction a as [|c a IH]; intros m b x K E.
  - destruct m; try discriminate. cbn in E. assert (x = []) by congruence. subst. cbn [app]. now destruct (c_literal Plain b).
  - cbn [app c_literal closed] in *.
    assert (Q : forall x, (if Ascii.eqb c bslash then closed Escape a else closed Plain a) = true ->
      (if Ascii.eqb c bslash then c_literal Escape a else if Ascii.eqb c dquote || Ascii.eqb c nl || Ascii.eqb c cr then None else put c (c_literal Plain a)) = Some x ->
      (if Ascii.eqb c bslash then c_literal Escape (a ++ b) else if Ascii.eqb c dquote || Ascii.eqb c nl || Ascii.eqb c cr then None else put c (c_literal Plain (a ++ b))) =
      match c_literal Plain b with Some y => Some (x ++ y) | None => None end).
    { intros x0 K0 E0. destruct (Ascii.eqb c bslash); [now apply IH|]. destruct (_ || _ || _); [discriminate|].
      destruct (c_literal Plain a) as [z|] eqn:Z; [|discriminate]. cbn [put] in E0. assert (x0 = c :: z) by congruence. subst.
      rewrite (IH Plain b z K0 Z). now destruct (c_literal Plain b). }
    destruct m as [| |v].
    + now apply Q.
    + destruct (Ascii.eqb c "x"); [now apply IH|]. destruct (simple_escape c) as [e|]; [|discriminate].
      destruct (c_literal Plain a) as [z|] eqn:Z; [|discriminate]. cbn [put] in E. assert (x = e :: z) by congruence. subst.
      rewrite (IH Plain b z K Z). now destruct (c_literal Plain b).
    + destruct (hex_digit c) as [d|].
      * apply IH; [|exact E]. now rewrite (C a _ None).
      * destruct v as [v|]; [|discriminate]. destruct (N.ltb v 256); [|discriminate].
        set (p := if Ascii.eqb c bslash then c_literal Escape a else if Ascii.eqb c dquote || Ascii.eqb c nl || Ascii.eqb c cr then None else put c (c_literal Plain a)) in *.
        destruct p as [z|] eqn:Z; [|discriminate]. cbn [put] in E. assert (x = ascii_of_N v :: z) by congruence. subst x.
        rewrite (Q z K eq_refl). now destruct (c_literal Plain b).
Qed.

(** [d] has closed the entries [es] and has read [data] of the next one, with percent flag [kw] and in line [n] of it *)
Definition reading (d : dumper) (es : list entry) (data : str) (kw : bool) (n : nat) : Prop :=
  compiled_all (rev (d_done d)) = Some es /\
  match d_open d with
  | None => data = [] /\ kw = false /\ n = 1 /\ d_percent d = false /\ d_count d = 0
  | Some ps => exists p ps' x y, ps = p :: ps' /\ closed Plain p = true /\ c_literal Plain p = Some x /\ literals (rev ps') = Some y /\
      data = y ++ x /\ d_percent d = kw /\ d_count d + 1 = n
  end.
Lemma reading_begin d es data kw n : reading d es data kw n -> reading (d_begin d) es data kw n /\ d_open (d_begin d) <> None.
Proof.
  intros (H1 & H2). unfold d_begin. destruct (d_open d) as [ps|] eqn:E.
  - split; [|congruence]. split; [easy|]. now rewrite E.
  - destruct H2 as (-> & -> & -> & H3 & H4). split; [|easy]. split; [easy|]. cbn. exists [], [], [], []. repeat split; auto. now rewrite H4.
Qed.
Lemma reading_put d es data kw n s v : reading d es data kw n -> d_open d <> None -> closed Plain s = true -> c_literal Plain s = Some v ->
  reading (d_put s d) es (data ++ v) kw n /\ d_open (d_put s d) <> None.
Proof.
  intros (H1 & H2) O C L. unfold d_put. destruct (d_open d) as [ps|] eqn:E; [|easy].
  destruct H2 as (p & ps' & x & y & -> & P1 & P2 & P3 & -> & P5 & P6). split; [|easy]. split; [easy|]. cbn.
  exists (p ++ s), ps', (x ++ v), y. rewrite <- app_assoc. rewrite (c_literal_app p Plain s x P1 P2), L. repeat split; auto.
  enough (G : forall p m, closed m p = true -> closed m (p ++ s) = true) by now apply G.
  clear - C. induction p as [|c p IH]; intros m K; [now destruct m|]. cbn [app closed] in *.
  assert (Q : (if Ascii.eqb c bslash then closed Escape p else closed Plain p) = true -> (if Ascii.eqb c bslash then closed Escape (p ++ s) else closed Plain (p ++ s)) = true)
    by (destruct (Ascii.eqb c bslash); apply IH).
  destruct m; [now apply Q| |].
  - destruct (Ascii.eqb c "x"); now apply IH.
  - destruct (hex_digit c); [now apply IH|now apply Q].
Qed.
Lemma reading_percent d es data kw n : reading d es data kw n -> d_open d <> None -> reading (d_set_percent d) es data true n /\ d_open (d_set_percent d) <> None.
Proof.
  intros (H1 & H2) O. split; [|easy]. split; [easy|]. cbn. destruct (d_open d) as [ps|]; [|easy].
  destruct H2 as (p & ps' & x & y & -> & P1 & P2 & P3 & -> & P5 & P6). exists p, ps', x, y. repeat split; auto.
Qed.
Lemma reading_close d es data kw n : reading d es data kw n -> d_open d <> None -> reading (d_close d) (es ++ [mkentry data kw n]) [] false 1 /\ d_open (d_close d) = None.
Proof.
  intros (H1 & H2) O. unfold d_close. destruct (d_open d) as [ps|]; [|easy].
  destruct H2 as (p & ps' & x & y & -> & P1 & P2 & P3 & -> & P5 & P6). split; [|easy]. split; [|easy]. cbn [d_done rev].
  rewrite compiled_app, H1. cbn [compiled_all]. unfold compiled. cbn [x_pieces x_kw x_count rev]. rewrite literals_app, P3. cbn [literals]. rewrite P2. subst. now rewrite ?app_nil_r.
Qed.
Lemma reading_join d es data kw n : reading d es data kw n -> d_open d <> None -> reading (d_join d) es (data ++ [nl]) kw (n + 1) /\ d_open (d_join d) <> None.
Proof.
  intros H O. assert (H' := reading_put d es data kw n $"\n" [nl] H O eq_refl eq_refl). destruct H' as ((H1 & H2) & _). unfold d_join. unfold d_put in H1, H2.
  destruct (d_open d) as [ps|] eqn:Q; [|easy]. destruct ps as [|p0 ps0]; [destruct H as (_ & H); rewrite Q in H; destruct H as (p & ps' & x & y & X & _); discriminate|].
  cbn [d_done d_open d_percent d_count] in *. destruct H2 as (p & ps' & x & y & X & P1 & P2 & P3 & P4 & P5 & P6).
  split; [|easy]. split; [easy|]. cbn [d_open d_percent d_count]. exists [], ((p0 ++ $"\n") :: ps0), [], (y ++ x). rewrite X. cbn [rev]. rewrite literals_app, P3. cbn [literals].
  rewrite P2, !app_nil_r. repeat split; auto.
Qed.

Lemma percent_app a b : percent (a ++ b) = percent a || percent b.
Proof. apply existsb_app. Qed.
Definition dput (d : dumper) (c : ascii) : dumper :=
  if Ascii.eqb c "%" then d_set_percent (d_put $"%" (d_begin d)) else d_put (spelled c) (d_begin d).
Lemma reading_dput d es data kw n c : ordinary c = true -> c <> nl -> reading d es data kw n ->
  reading (dput d c) es (data ++ [c]) (kw || Ascii.eqb "%" c) n /\ d_open (dput d c) <> None.
Proof.
  intros O N H. apply reading_begin in H as (H & B). unfold dput. destruct (Ascii.eqb_spec c "%") as [->|M].
  - rewrite Bool.orb_true_r. destruct (reading_put _ _ _ _ _ $"%" $"%" H B eq_refl eq_refl) as (H1 & B1). eapply reading_percent; eauto.
  - destruct (Ascii.eqb_spec "%" c); [congruence|]. rewrite Bool.orb_false_r. apply reading_put; auto using spelled_value.
    clear - O. destruct c as [[] [] [] [] [] [] [] []]; reflexivity || discriminate.
Qed.
Lemma reading_dputs q : forall d es data kw n, forallb ordinary q = true -> ~ In nl q -> reading d es data kw n ->
  reading (fold_left dput q d) es (data ++ q) (kw || percent q) n /\ (q <> [] \/ d_open d <> None -> d_open (fold_left dput q d) <> None).
Proof.
  induction q as [|c q IH]; intros d es data kw n O N H.
  - cbn. rewrite app_nil_r, Bool.orb_false_r. split; [easy|]. now intros [X|X].
  - cbn [forallb] in O. apply andb_prop in O as [O1 O2]. destruct (reading_dput d es data kw n c) as (H1 & B1); [easy| |easy|].
    + intros ->. apply N. now left.
    + destruct (IH (dput d c) es _ _ n O2 (fun X => N (or_intror X)) H1) as (H2 & B2). cbn [fold_left percent existsb].
      rewrite <- app_assoc in H2. cbn [app] in H2. rewrite <- Bool.orb_assoc in H2. split; [exact H2|]. intros _. apply B2. now right.
Qed.

Lemma dump_loop_nil f d : dump_loop f [] d = Some d.
Proof. now destruct f. Qed.
Lemma dump_loop_line q : forall r d fuel, forallb ordinary q = true -> ~ In nl q -> (ends_with $"@" q = false \/ exists c r', r = c :: r' /\ c <> nl /\ ordinary c = true) ->
  length (q ++ r) <= fuel -> exists f, length r <= f /\ dump_loop fuel (q ++ r) d = dump_loop f r (fold_left dput q d).
Proof.
  induction q as [|c q IH]; intros r d fuel O N E L; [now exists fuel|]. destruct fuel as [|fuel]; [cbn in L; lia|].
  cbn [forallb] in O. apply andb_prop in O as [O1 O2]. assert (Cn : c <> nl) by (intros ->; apply N; now left). assert (N' : ~ In nl q) by (intro; apply N; now right).
  assert (E' : ends_with $"@" q = false \/ exists c r', r = c :: r' /\ c <> nl /\ ordinary c = true).
  { destruct E as [E|E]; [|now right]. left. destruct q as [|x q]; [easy|]. etransitivity; [|exact E]. symmetry. apply (ends_with_app_long $"@" [c] (x :: q)). cbn. lia. }
  destruct (IH r (dput d c) fuel O2 N' E') as (f & F1 & F2); [cbn in L; lia|]. exists f. split; [easy|]. cbn [fold_left]. rewrite <- F2. cbn [app dump_loop]. clear F1 F2 IH.
  unfold dput, spelled. destruct (Ascii.eqb_spec c tab) as [->|N1]; [easy|]. destruct (Ascii.eqb_spec c dquote) as [->|N2]; [easy|].
  destruct (Ascii.eqb_spec c bslash) as [->|N3]; [easy|]. destruct (Ascii.eqb_spec c "%") as [->|N4]; [easy|].
  destruct (Ascii.eqb_spec c cr) as [->|N5]; [easy|]. destruct (Ascii.eqb_spec c nl) as [->|N6]; [easy|].
  destruct (Ascii.eqb_spec c "@") as [->|N7].
  - destruct q as [|c2 q].
    + destruct E as [E|(c2 & r' & -> & X1 & X2)]; [easy|]. cbn [app].
      destruct (Ascii.eqb_spec c2 cr) as [->|_]; [easy|]. now destruct (Ascii.eqb_spec c2 nl) as [->|_].
    + cbn [app]. cbn [forallb] in O2. apply andb_prop in O2 as [O2 _]. destruct (Ascii.eqb_spec c2 cr) as [->|_]; [easy|].
      destruct (Ascii.eqb_spec c2 nl) as [->|_]; [exfalso; apply N'; now left|easy].
  - unfold put_default. clear - O1 N1 N6. unfold ordinary, between in O1. destruct (Ascii.eqb_spec c tab); [easy|]. destruct (Ascii.eqb_spec c nl); [easy|].
    rewrite !Bool.orb_false_r in O1. apply andb_prop in O1 as [A B]. apply N.leb_le in A, B.
    destruct (N.ltb_spec (code c) 32); [lia|]. destruct (N.ltb_spec 126 (code c)); [lia|]. easy.
Qed.

Lemma without_blank_app l e : without_blank_end (l ++ [e]) = match e with mkentry [] false 1 => l | _ => l ++ [e] end.
Proof.
  unfold without_blank_end. rewrite rev_app_distr. cbn [rev app]. destruct e as [[|c d] [] [|[|n]]]; try reflexivity. now rewrite rev_involutive.
Qed.
Lemma without_blank_longer a l : l <> [] -> without_blank_end (a ++ l) = a ++ without_blank_end l.
Proof.
  intro H. destruct (last_case l) as [->|(l' & e & ->)]; [easy|]. rewrite app_assoc, !without_blank_app. destruct e as [[|c d] [] [|[|n]]]; try reflexivity; now rewrite <- app_assoc.
Qed.
Lemma ordinary_not_cr p : forallb ordinary p = true -> ends_with ($"@" ++ [cr]) p = false.
Proof.
  intro H. destruct (ends_with ($"@" ++ [cr]) p) eqn:E; [|easy]. apply ends_with_spec in E as [q ->]. rewrite !forallb_app in H. cbn in H. now rewrite !Bool.andb_false_r in H.
Qed.

Lemma dump_lines : forall text, forallb ordinary text = true -> ends_with $"@" text = false -> forall d es data kw n fuel,
  reading d es data kw n -> (d_open d = None \/ 2 <= n) -> length text <= fuel ->
  exists d', dump_loop fuel text d = Some d' /\
    compiled_all (rev (d_done (d_close d'))) = Some (es ++ without_blank_end (gathered data kw n (groups (lines text)))).
Proof.
  apply (text_ind (fun text => forallb ordinary text = true -> ends_with $"@" text = false -> forall d es data kw n fuel,
    reading d es data kw n -> (d_open d = None \/ 2 <= n) -> length text <= fuel ->
    exists d', dump_loop fuel text d = Some d' /\
    compiled_all (rev (d_done (d_close d'))) = Some (es ++ without_blank_end (gathered data kw n (groups (lines text)))))).
  - intros p N O E d es data kw n fuel R F L. rewrite lines_line by easy. cbn [groups gathered map].
    assert (L' : length (p ++ []) <= fuel) by now rewrite app_nil_r.
    destruct (dump_loop_line p [] d fuel O N (or_introl E) L') as (f & _ & D). rewrite app_nil_r, dump_loop_nil in D. rewrite D. eexists. split; [reflexivity|].
    destruct (reading_dputs p d es data kw n O N R) as (R1 & B1). cbn [glue existsb length Nat.sub]. rewrite Nat.add_0_r, Bool.orb_false_r.
    destruct (d_open (fold_left dput p d)) as [ps|] eqn:Q.
    + assert (B2 : d_open (fold_left dput p d) <> None) by congruence. destruct (reading_close _ _ _ _ _ R1 B2) as ((R2 & _) & _). rewrite R2. f_equal. f_equal.
      change ([mkentry (data ++ p) (kw || percent p) n]) with ([] ++ [mkentry (data ++ p) (kw || percent p) n]). rewrite without_blank_app.
      destruct p as [|c p]; [|now destruct data]. rewrite app_nil_r, Bool.orb_false_r in *. cbn [fold_left] in Q. destruct F as [F|F]; [congruence|].
      destruct data, kw, n as [|[|n]]; reflexivity || lia.
    + destruct p as [|c p]; [|exfalso; apply B1; [now left|easy]]. cbn [fold_left] in *. unfold d_close. rewrite Q. destruct R as (R1' & R2). rewrite Q in R2.
      destruct R2 as (-> & -> & -> & _). rewrite R1'. cbn. now rewrite app_nil_r.
  - intros p r N IH O E d es data kw n fuel R F L. rewrite forallb_app in O. apply andb_prop in O as [O1 O2]. cbn [forallb] in O2. apply andb_prop in O2 as [_ O2].
    assert (E' : ends_with $"@" r = false).
    { etransitivity; [|exact E]. change (p ++ nl :: r) with (p ++ [nl] ++ r). rewrite app_assoc. symmetry. apply fresh_at. right. now exists p. }
    rewrite lines_app by easy. assert (M := lines_nonempty r). destruct (lines r) as [|q ps] eqn:Q; [easy|]. rewrite groups_cons.
    destruct (groups_some q ps) as (g & gs & G). rewrite G in *. assert (G0 : g <> []) by (assert (X := groups_nonempty (q :: ps)); rewrite G in X; now inversion X).
    unfold continued. rewrite (ordinary_not_cr p O1), Bool.orb_false_r. destruct (ends_with $"@" p) eqn:K.
    + apply ends_with_spec in K as [p' ->]. rewrite forallb_app in O1. apply andb_prop in O1 as [O1 _]. assert (N' : ~ In nl p') by (intro; apply N; apply in_or_app; now left).
      rewrite <- app_assoc in L |- *. cbn [lit list_ascii_of_string app] in L |- *.
      assert (L2 : length (p' ++ "@"%char :: nl :: r) <= fuel) by exact L. clear L.
      destruct (dump_loop_line p' ("@"%char :: nl :: r) d fuel O1 N') as (f & F1 & ->); [right; eexists _, _; repeat split; discriminate|easy|].
      destruct (reading_dputs p' d es data kw n O1 N' R) as (R1 & _). apply reading_begin in R1 as (R1 & B1). apply reading_join in R1 as (R1 & B2); [|easy].
      destruct f as [|f]; [cbn in F1; lia|].
      destruct (IH O2 E' _ es _ _ _ f R1) as (d' & D1 & D2); [|cbn in F1; lia|].
      * right. destruct R as (_ & R). destruct (d_open d); [destruct R as (? & ? & ? & ? & R); lia|lia].
      * exists d'. split; [exact D1|]. rewrite D2. f_equal. f_equal. cbn [gathered]. f_equal. f_equal. destruct g as [|q0 g]; [easy|]. f_equal.
        -- cbn [glue]. unfold unmark. change ["@"%char] with $"@". rewrite ends_with_app. rewrite app_length. cbn [length lit list_ascii_of_string]. rewrite Nat.add_sub, firstn_app_exact.
           now rewrite <- !app_assoc.
        -- cbn [existsb]. rewrite percent_app. change (percent ["@"%char]) with false. now rewrite !Bool.orb_false_r, !Bool.orb_assoc.
        -- cbn [length]. lia.
    + destruct (dump_loop_line p (nl :: r) d fuel O1 N) as (f & F1 & ->); [now left|easy|]. destruct f as [|f]; [cbn in F1; lia|].
      destruct (reading_dputs p d es data kw n O1 N R) as (R1 & _). apply reading_begin in R1 as (R1 & B1). apply reading_close in R1 as (R1 & B2); [|easy].
      destruct (IH O2 E' _ _ _ _ _ f R1) as (d' & D1 & D2); [now left|cbn in F1; lia|]. exists d'. split; [exact D1|]. rewrite D2. f_equal. rewrite <- app_assoc. f_equal.
      rewrite gathered_groups by (rewrite <- G; apply groups_nonempty). cbn [gathered glue existsb length Nat.sub]. rewrite Nat.add_0_r, Bool.orb_false_r.
      symmetry. apply (without_blank_longer [_]). easy.
Qed.

(** the array is the line directive and the entries read from the file, without the empty line behind the last line feed *)
Lemma embedded text l file : forallb ordinary text = true -> ends_with $"@" text = false -> read_entries text = Ok l -> file <> $"license.h" ->
  forallb (fun c => ordinary c && negb (Ascii.eqb c nl) && negb (Ascii.eqb c bslash) && negb (Ascii.eqb c dquote)) file = true ->
  exists xs, dump file text = Ok xs /\
    compiled_all xs = Some (mkentry ($"#line 1 " ++ [dquote] ++ $"<built-in>/" ++ file ++ [dquote]) false 1 :: without_blank_end l).
Proof.
  intros O E R N Of. unfold dump. destruct (dump_lines text O E d_init [] [] false 1 (length text)) as (d & D1 & D2); [|now left|easy|].
  - split; [reflexivity|]. cbn. auto.
  - rewrite D1. eexists. split; [reflexivity|]. destruct (str_eqb file $"license.h") eqn:Q; [apply str_eqb_eq in Q; congruence|].
    rewrite compiled_app, D2. cbn [app]. rewrite gathered_groups by apply groups_nonempty.
    rewrite read_entries_lines in R. assert (l = map group_entry (groups (file_lines text))) by congruence. subst l. unfold file_lines, delete_suffix. rewrite E.
    cbn [compiled_all]. unfold compiled. cbn [x_pieces literals].
    assert (X : forall f s, forallb (fun c => ordinary c && negb (Ascii.eqb c nl) && negb (Ascii.eqb c bslash) && negb (Ascii.eqb c dquote)) f = true ->
      c_literal Plain (f ++ s) = match c_literal Plain s with Some v => Some (f ++ v) | None => None end).
    { induction f as [|c f IH]; intros s H; [now cbn; destruct (c_literal Plain s)|]. cbn [forallb] in H. apply andb_prop in H as [H H']. cbn [app c_literal].
      destruct (Ascii.eqb c bslash) eqn:A1; [now rewrite !Bool.andb_false_r in H|]. destruct (Ascii.eqb c dquote) eqn:A2; [now rewrite !Bool.andb_false_r in H|].
      destruct (Ascii.eqb c nl) eqn:A3; [now rewrite !Bool.andb_false_r in H|]. destruct (Ascii.eqb_spec c cr) as [->|]; [discriminate|]. cbn [orb]. rewrite IH by easy.
      now destruct (c_literal Plain s). }
    match goal with |- context [c_literal Plain ?t] =>
      replace t with ($"#line 1 " ++ ([bslash; dquote] ++ ($"<built-in>/" ++ (file ++ [bslash; dquote])))) by reflexivity end.
    assert (Y : c_literal Plain ($"#line 1 " ++ ([bslash; dquote] ++ ($"<built-in>/" ++ (file ++ [bslash; dquote])))) =
      Some ($"#line 1 " ++ [dquote] ++ $"<built-in>/" ++ file ++ [dquote])).
    { rewrite X by reflexivity.
      assert (Z : forall t, c_literal Plain ([bslash; dquote] ++ t) = match c_literal Plain t with Some v => Some (dquote :: v) | None => None end) by reflexivity.
      rewrite Z, X by reflexivity. rewrite X by easy. reflexivity. }
    rewrite Y. cbn [app]. now rewrite ?app_nil_r.
Qed.
Lemma hex_runs_on : exists text l xs, read_entries text = Ok l /\ dump $"t.h" text = Ok xs /\ exists d es, compiled_all xs = Some (d :: es) /\ es <> without_blank_end l.
Proof.
  exists ["001"; "a"; "010"]%char. do 2 eexists. split; [vm_compute; reflexivity|]. split; [vm_compute; reflexivity|]. do 2 eexists. split; [vm_compute; reflexivity|]. discriminate.
Qed.

(* ------------------------------------------------------------ Windows line ends *)

Lemma without_cr_app a b : without_cr (a ++ b) = without_cr a ++ without_cr b.
Proof. apply filter_app. Qed.
Lemma without_cr_id s : ~ In cr s -> without_cr s = s.
Proof.
  induction s as [|c s IH]; intro H; [easy|]. cbn. destruct (Ascii.eqb_spec c cr) as [->|_]; [exfalso; apply H; now left|]. cbn. f_equal. apply IH. intro; apply H; now right.
Qed.
Lemma crlf_line p : ~ In nl p -> crlf p = p.
Proof.
  induction p as [|c p IH]; intro H; [easy|]. cbn. destruct (Ascii.eqb_spec c nl) as [->|_]; [exfalso; apply H; now left|]. cbn. f_equal. apply IH. intro; apply H; now right.
Qed.
Lemma crlf_app a b : crlf (a ++ b) = crlf a ++ crlf b.
Proof. apply flat_map_app. Qed.
(** all lines but the last get a carriage return *)
Fixpoint cr_lines (ps : list str) : list str := match ps with [] => [] | [p] => [p] | p :: r => (p ++ [cr]) :: cr_lines r end.
Lemma cr_lines_cons p q r : cr_lines (p :: q :: r) = (p ++ [cr]) :: cr_lines (q :: r).
Proof. reflexivity. Qed.
Lemma lines_crlf : forall s, lines (crlf s) = cr_lines (lines s).
Proof.
  apply (text_ind (fun s => lines (crlf s) = cr_lines (lines s))); [intros p N|intros p r N IH].
  - now rewrite crlf_line, lines_line.
  - rewrite crlf_app. cbn [crlf flat_map]. rewrite Ascii.eqb_refl. fold (crlf r). cbn [app]. rewrite crlf_line by easy. change (p ++ cr :: nl :: crlf r) with (p ++ [cr] ++ nl :: crlf r).
    rewrite app_assoc, lines_app, lines_app by (easy || (rewrite in_app_iff; cbn; intuition discriminate)). rewrite IH.
    assert (M := lines_nonempty r). destruct (lines r); [easy|]. now rewrite cr_lines_cons.
Qed.
Lemma continued_cr p : ~ In cr p -> continued (p ++ [cr]) = continued p.
Proof.
  intro H. unfold continued. change $"@" with ["@"%char]. rewrite ends_last. cbn [orb Ascii.eqb Bool.eqb app].
  destruct (last_case p) as [->|(q & x & ->)]; [reflexivity|]. rewrite <- app_assoc. cbn [app]. rewrite ends_last2, ends_last, Ascii.eqb_refl, Bool.andb_true_r.
  destruct (ends_with ["@"%char; cr] (q ++ [x])) eqn:E; [|now rewrite Bool.orb_false_r]. apply ends_with_spec in E as [r E].
  exfalso. apply H. rewrite E. rewrite !in_app_iff. cbn. tauto.
Qed.
Lemma unmark_cr p : ~ In cr p -> continued p = true -> unmark (p ++ [cr]) = unmark p ++ [cr].
Proof.
  intros H C. unfold continued in C. destruct (ends_with ($"@" ++ [cr]) p) eqn:E2.
  { apply ends_with_spec in E2 as [r ->]. exfalso. apply H. rewrite !in_app_iff. cbn. tauto. }
  rewrite Bool.orb_false_r in C. unfold unmark. rewrite C. change $"@" with ["@"%char]. rewrite ends_last. cbn [Ascii.eqb Bool.eqb].
  apply ends_with_spec in C as [q ->]. rewrite <- app_assoc, !app_length. cbn [app length lit list_ascii_of_string]. now rewrite !Nat.add_sub, !firstn_app_exact.
Qed.
Lemma percent_cr p : percent (p ++ [cr]) = percent p.
Proof. rewrite percent_app. apply Bool.orb_false_r. Qed.
Lemma unmark_no_cr p : ~ In cr p -> continued p = true -> without_cr (unmark p) = unmark p.
Proof.
  intros H C. unfold continued in C. destruct (ends_with ($"@" ++ [cr]) p) eqn:E2.
  { apply ends_with_spec in E2 as [r ->]. exfalso. apply H. rewrite !in_app_iff. cbn. tauto. }
  rewrite Bool.orb_false_r in C. unfold unmark. rewrite C. apply without_cr_id. intro I. apply H. rewrite <- (firstn_skipn (length p - 1) p). apply in_or_app. now left.
Qed.
Lemma groups_crlf (ps : list str) : Forall (fun p : str => ~ In cr p) ps -> Forall2 (fun g g' => same_but_cr (group_entry g) (group_entry g')) (groups ps) (groups (cr_lines ps)).
Proof.
  induction ps as [|p [|q ps] IH]; intro H; [constructor| |].
  - repeat constructor. apply without_cr_id. now inversion H.
  - inversion H as [|? ? H1 H2]; subst. specialize (IH H2). rewrite cr_lines_cons. destruct (groups_head q ps) as (g & gs & G & G0).
    assert (Q : exists q' ps', cr_lines (q :: ps) = q' :: ps') by (destruct ps; [now eexists _, _|]; rewrite cr_lines_cons; now eexists _, _). destruct Q as (q' & ps' & Q).
    rewrite Q in *. destruct (groups_head q' ps') as (g' & gs' & G' & G0').
    rewrite !groups_cons, continued_cr by easy. rewrite G, G' in *. inversion IH as [|? ? ? ? (I1 & I2 & I3) I4]; subst. destruct (continued p) eqn:C.
    + constructor; [|easy]. destruct g as [|g0 g]; [easy|]. destruct g' as [|g0' g']; [easy|]. unfold same_but_cr, group_entry in *. cbn [e_data e_kw e_count] in *.
      repeat split.
      * change (glue ((p ++ [cr]) :: g0' :: g')) with (unmark (p ++ [cr]) ++ [nl] ++ glue (g0' :: g')). change (glue (p :: g0 :: g)) with (unmark p ++ [nl] ++ glue (g0 :: g)).
        rewrite unmark_cr by easy. rewrite !without_cr_app, unmark_no_cr, I1 by easy. cbn. now rewrite app_nil_r.
      * cbn [existsb] in *. now rewrite percent_cr, I2.
      * cbn [length] in *. now rewrite I3.
    + constructor; [|now constructor]. unfold same_but_cr, group_entry. cbn [e_data e_kw e_count glue existsb length]. rewrite without_cr_app, percent_cr. cbn. rewrite app_nil_r.
      repeat split. now apply without_cr_id.
Qed.
Lemma lines_no_cr s : ~ In cr s -> Forall (fun p : str => ~ In cr p) (lines s).
Proof.
  revert s. apply (text_ind (fun s => ~ In cr s -> Forall (fun p : str => ~ In cr p) (lines s))); [intros p N H|intros p r N IH H].
  - rewrite lines_line by easy. now constructor.
  - rewrite lines_app by easy. rewrite in_app_iff in H. constructor; [tauto|]. apply IH. cbn in H. tauto.
Qed.
Lemma crlf_at s : ends_with $"@" (crlf s) = ends_with $"@" s.
Proof.
  destruct (last_case s) as [->|(q & x & ->)]; [reflexivity|]. rewrite crlf_app. change $"@" with ["@"%char]. rewrite ends_last. cbn [crlf flat_map]. rewrite app_nil_r.
  destruct (Ascii.eqb_spec x nl) as [->|N].
  - change [cr; nl] with ([cr] ++ [nl]). now rewrite app_assoc, ends_last.
  - apply ends_last.
Qed.
Lemma delete_crlf s : delete_suffix (crlf s) $"@" = crlf (delete_suffix s $"@").
Proof.
  unfold delete_suffix. rewrite crlf_at. destruct (ends_with $"@" s) eqn:E; [|easy]. apply ends_with_spec in E as [q ->]. rewrite crlf_app. change (crlf $"@") with $"@".
  rewrite !app_length. cbn [length lit list_ascii_of_string]. now rewrite !Nat.add_sub, !firstn_app_exact.
Qed.
Lemma Forall2_map {A B C D} (R : C -> D -> Prop) (f : A -> C) (h : B -> D) l l' : Forall2 (fun a b => R (f a) (h b)) l l' -> Forall2 R (map f l) (map h l').
Proof. induction 1; constructor; easy. Qed.
Lemma read_crlf text l : ~ In cr text -> read_entries text = Ok l -> exists l', read_entries (crlf text) = Ok l' /\ Forall2 same_but_cr l l'.
Proof.
  rewrite !read_entries_lines. intros H E. assert (l = map group_entry (groups (file_lines text))) by congruence. subst l. eexists. split; [reflexivity|].
  apply Forall2_map. unfold file_lines. rewrite delete_crlf, lines_crlf. apply groups_crlf, lines_no_cr. intro X. now apply delete_suffix_In in X.
Qed.

Lemma marker_crlf : exists text c l l' ws ws', ~ In cr text /\ read_entries text = Ok l /\ read_entries (crlf text) = Ok l' /\
  process_custom_template c $"t" l = Ok ws /\ process_custom_template c $"t" l' = Ok ws' /\
  output ws = $"a

" /\ without_cr (output ws') = $"%PARAM_SKIP_REMOVE_BEGIN%
hidden
%PARAM_SKIP_END%
a

".
Proof.
  exists $"%PARAM_SKIP_REMOVE_BEGIN%
hidden
%PARAM_SKIP_END%
a
", (mkcfg false ParamNames.PSkip (Prefix.set_prefix $"gdo") [] []). do 4 eexists.
  split; [cbn; intuition discriminate|]. do 4 (split; [vm_compute; reflexivity|]). split; vm_compute; reflexivity.
Qed.

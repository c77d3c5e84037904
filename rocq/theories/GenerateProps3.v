(** Proofs about the layout of the generated files, and about templates read from a directory. *)
From Coq Require Import Ascii String List Bool Arith NArith Lia.
From Verif Require Import Str StrFacts NumFacts Parse ParamNames Prefix Substitute SpecSubstitute SubstFacts2 SubstProps Data Options Generate SpecGenerate GenerateFacts GenerateProps GenerateProps2.
Import ListNotations.

Lemma last_differs (a b : str) x y : a ++ [x] = b ++ [y] -> x = y.
Proof. intros E. now apply app_inj_tail in E. Qed.
Lemma paths_differ s : separate s = true -> header_path s <> body_path s.
Proof.
  unfold header_path, body_path. intros S. rewrite S. unfold separate in S. destruct (to_stdout s); [now rewrite andb_false_r in S|].
  unfold replace_extension. destruct (is_cxx s); intros E; apply app_inv_head, app_inv_head in E; discriminate E.
Qed.
Lemma paths_real s : separate s = true ->
  (str_eqb (header_path s) [] || str_eqb (header_path s) $"-" = false) /\ (str_eqb (body_path s) [] || str_eqb (body_path s) $"-" = false).
Proof.
  intros S. assert (to_stdout s = false) as O by (unfold separate in S; destruct (to_stdout s); [now rewrite andb_false_r in S|reflexivity]).
  assert (forall p e, (str_eqb (replace_extension p e) [] || str_eqb (replace_extension p e) $"-") = false) as H.
  { intros p e. apply orb_false_iff. unfold replace_extension. split; apply str_eqb_neq; intros E; apply (f_equal (fun l => In "."%char l)) in E;
    assert (In "."%char (parent p ++ stem (filename p) ++ $"." ++ e)) as I by (apply in_app_iff; right; apply in_app_iff; right; now left);
    rewrite E in I; cbn in I; [exact I|destruct I as [I|I]; [discriminate I|exact I]]. }
  unfold header_path, body_path. rewrite O, S. split; apply H.
Qed.
Lemma bodies s : (separate s = false -> body_templates s = []) /\
  (separate s = true -> exists p l, body_templates s = p :: l).
Proof.
  unfold body_templates, separate. destruct (o_format s); cbn [format_sources]; destruct (o_separate s && negb (to_stdout s)); cbn [andb];
  split; intros H; try discriminate H; eauto.
Qed.

Section Files.
Variables (e : env) (s : settings) (f o : list proto) (tdefs : list str) (i : str) (fs : str -> option node) (out : str).
Variables (lic fm defs : str) (hdr bdy : list write) (n : nat).
Hypothesis R : runs e s f o lic fm defs hdr bdy n.
Let w0 := mkworld fs out None (fun _ => []) (fun _ => 0) PBuiltin.
Let top := top_text e s lic.
Let n2 := second_number s top (pre_text s tdefs fm defs) n.
Let htext := header_text s top (middle_text s fm defs tdefs (output hdr)) (next_line top + 1) n2.

Lemma run_parts w : (forall t, w_ptr w t = PBuiltin t) ->
  run e s f o tdefs i w =
  seq (write_header e s f o tdefs defs (map PBuiltin (header_templates s))) (fun _ => write_body e s f o (map PBuiltin (body_templates s))) w.
Proof.
  destruct R as [P T TP _ _ D _ _]. intros W. unfold run. rewrite P, T. unfold generate. unfold seq at 1, lift. rewrite D.
  unfold seq at 1. rewrite (lists_builtin e s w TP W). reflexivity.
Qed.

Lemma header_done w : (forall t, w_ptr w t = PBuiltin t) -> to_stdout s = false -> creatable e s (w_fs w) (header_path s) ->
  str_eqb (header_path s) [] || str_eqb (header_path s) $"-" = false ->
  exists w', write_header e s f o tdefs defs (map PBuiltin (header_templates s)) w = (w', Ret tt) /\ w_cur w' = None /\
    (forall t, w_ptr w' t = PBuiltin t) /\ w_out w' = w_out w /\ w_fs w' (header_path s) = Some (Regular htext) /\
    forall q, q <> header_path s -> w_fs w' q = w_fs w q.
Proof.
  intros P O C H. rewrite header_regroup. destruct (opens e s (header_path s) w C H) as (w1 & E & Cu & Ou & Pt & Fi & Ot).
  unfold seq at 1. rewrite E.
  assert (ready w1) as Rd by (split; [intros t; now rewrite Pt|rewrite Cu; eauto]).
  destruct R as [_ _ TP L F _ S _].
  destruct (header_rest_writes e s TP f o tdefs lic fm defs L F _ _ _ S w1 Rd) as (w2 & E2 & C2 & P2 & W2).
  unfold seq at 1. rewrite E2. exists (set_cur None w2). split; [reflexivity|]. split; [reflexivity|].
  rewrite Cu in W2. destruct W2 as (O2 & K2 & c & A & B). cbn.
  split; [intros t; now rewrite P2, Pt|]. split; [congruence|]. split.
  - rewrite B. rewrite Fi in A. injection A as <-. reflexivity.
  - intros q Q. now rewrite K2, Ot.
Qed.

Theorem single_layout : separate s = false -> to_stdout s = false -> o_output s <> [] -> creatable e s fs (o_output s) ->
  exists w', run e s f o tdefs i w0 = (w', Ret tt) /\ w_fs w' (o_output s) = Some (Regular htext) /\
    same_except [o_output s] fs (w_fs w') /\ w_out w' = out.
Proof.
  intros S O N C. assert (header_path s = o_output s) as HP by (unfold header_path; now rewrite O, S).
  assert (str_eqb (header_path s) [] || str_eqb (header_path s) $"-" = false) as X.
  { rewrite HP. unfold to_stdout in O. rewrite O, orb_false_r. now apply str_eqb_neq. }
  rewrite run_parts by reflexivity. destruct (header_done w0 (fun _ => eq_refl) O) as (w1 & E & _ & _ & Ou & Fi & Ot); [now rewrite HP|exact X|].
  unfold seq at 1. rewrite E. rewrite (proj1 (bodies s) S). cbn [map write_body]. unfold ret. exists w1. split; [reflexivity|].
  rewrite HP in Fi, Ot. split; [exact Fi|]. split; [|exact Ou]. intros p Hp. apply Ot. intros ->. apply Hp. now left.
Qed.

Theorem separate_layout : separate s = true -> creatable e s fs (header_path s) -> creatable e s fs (body_path s) ->
  exists w', run e s f o tdefs i w0 = (w', Ret tt) /\ w_fs w' (header_path s) = Some (Regular htext) /\
    w_fs w' (body_path s) = Some (Regular (body_text e s lic (output bdy))) /\
    same_except [header_path s; body_path s] fs (w_fs w') /\ w_out w' = out.
Proof.
  intros S CH CB. destruct (paths_real s S) as [XH XB]. pose proof (paths_differ s S) as D.
  assert (to_stdout s = false) as O by (unfold separate in S; destruct (to_stdout s); [now rewrite andb_false_r in S|reflexivity]).
  rewrite run_parts by reflexivity. destruct (header_done w0 (fun _ => eq_refl) O CH XH) as (w1 & E & Cu & Pt & Ou & Fi & Ot).
  unfold seq at 1. rewrite E. destruct (proj2 (bodies s) S) as (p & l & B).
  destruct R as [_ _ TP L F _ _ [m SB]]. specialize (SB S). rewrite B in *. cbn [map]. rewrite body_regroup.
  assert (creatable e s (w_fs w1) (body_path s)) as CB1.
  { destruct CB as [W CB]. split; [exact W|]. rewrite (Ot (body_path s)) by congruence. exact CB. }
  destruct (opens e s (body_path s) w1 CB1 XB) as (w2 & E2 & Cu2 & Ou2 & Pt2 & Fi2 & Ot2).
  unfold seq at 1. rewrite E2.
  assert (ready w2) as Rd by (split; [intros t; now rewrite Pt2|rewrite Cu2; eauto]).
  destruct (body_rest_writes e s TP f o lic L (p :: l) _ _ SB w2 Rd) as (w3 & E3 & C3 & P3 & W3).
  cbn [map] in E3. exists w3. split; [exact E3|]. rewrite Cu2 in W3. destruct W3 as (O3 & K3 & c & A & Bo). rewrite Fi2 in A. injection A as <-.
  split; [rewrite K3, Ot2 by congruence; exact Fi|]. split; [exact Bo|]. split; [|cbn in Ou; congruence].
  intros q Hq. rewrite K3, Ot2, Ot; [reflexivity| | |]; intros ->; apply Hq; [now left|right; now left|right; now left].
Qed.

Theorem stdout_layout : to_stdout s = true ->
  exists w', run e s f o tdefs i w0 = (w', Ret tt) /\ w_fs w' = fs /\ w_out w' = out ++ htext.
Proof.
  intros O. rewrite run_parts by reflexivity. unfold seq at 1. rewrite header_regroup.
  assert (separate s = false) as S by (unfold separate; now rewrite O, andb_false_r).
  assert (header_path s = []) as HP by (unfold header_path; now rewrite O).
  assert (open_ofstream e (header_path s) (o_force s) w0 = (w0, Ret tt)) as E by (rewrite HP; reflexivity).
  unfold seq at 1. rewrite E. assert (ready w0) as Rd by (split; [reflexivity|exact I]).
  destruct R as [_ _ TP L F _ SU _].
  destruct (header_rest_writes e s TP f o tdefs lic fm defs L F _ _ _ SU w0 Rd) as (w2 & E2 & C2 & P2 & F2 & O2).
  unfold seq at 1. rewrite E2. cbn [close]. rewrite (proj1 (bodies s) S). cbn [map write_body]. unfold ret, close.
  exists (set_cur None w2). split; [reflexivity|]. cbn. split; [exact F2|exact O2].
Qed.
End Files.

(* ------------------------------------------------------------ line directives *)

Lemma count_none x : ~ In nl x -> count_linefeed x = 0.
Proof.
  intros H. unfold count_linefeed. induction x as [|c x IH]; [reflexivity|]. cbn [filter]. destruct (Ascii.eqb nl c) eqn:E.
  - apply Ascii.eqb_eq in E. subst c. elim H. now left.
  - apply IH. intros K. apply H. now right.
Qed.
Lemma count_directive n file : ~ In nl file -> count_linefeed (directive n file) = 1.
Proof.
  intros N. unfold directive. rewrite !count_app. rewrite (count_none file N), (count_none (nat_to_string n)).
  - reflexivity.
  - intros K. destruct (to_string_value (N.of_nat n)) as (_ & _ & F). rewrite Forall_forall in F. specialize (F _ K). discriminate F.
Qed.

Section Run.
Variables (c : config).
Hypothesis Hf : Forall clean_proto (c_funcs c).
Hypothesis Ho : Forall clean_proto (c_objs c).
Hypothesis Lf : Forall one_line_proto (c_funcs c).
Hypothesis Lo : Forall one_line_proto (c_objs c).
Lemma templates_counts : forall tpls shown tss, Forall template_ok tpls ->
  Forall2 (expands c) (visible_all c shown tpls) tss -> Forall (fun ts => ts <> []) tss ->
  exists ws k, substitute_templates c (negb shown) (map template_entries tpls) = Ok (ws, k) /\ k = count_linefeed (output ws).
Proof.
  induction tpls as [|[d items] tpls IH]; intros shown tss Hok Hv Hn; cbn [visible_all map substitute_templates] in *.
  - exists [], 0. now split.
  - inversion Hok as [|? ? [Hd Hi] Hok']; subst. cbn [fst snd] in *. unfold template_entries at 1. cbn [fst snd].
    rewrite start_kept by (right; apply Hd).
    replace (if c_line c then d :: map item_entry items ++ [terminator] else map item_entry items ++ [terminator])
      with (map item_entry (if c_line c then Line d :: items else items) ++ [terminator]) by (now destruct (c_line c)).
    apply Forall2_app_inv_l in Hv as (t1 & t2 & H1 & H2 & ->). apply Forall_app in Hn as [N1 N2].
    set (its := if c_line c then Line d :: items else items) in *.
    assert (Hi' : line_items_ok its). { unfold its. destruct (c_line c); [constructor; [split; apply Hd|]|]; exact Hi. }
    destruct (run_counts c Hf Ho Lf Lo its 0 shown t1 Hi') as (ws & k & skip & R & T); [|exact N1|].
    { clear - H1. revert t1 H1. induction (visible (c_param c) shown 0 its) as [|[n e] v IHv]; intros t1 H1; inversion H1; subst; constructor; auto. }
    rewrite R. cbn [bind]. pose proof (run_skip c its 0 shown ws k skip Hi' R) as Sk. subst skip.
    destruct (IH _ t2 Hok' H2 N2) as (ws' & k' & R' & T'). rewrite R'. cbn [bind fst snd]. exists (ws ++ ws'), (k + k'). split; [easy|].
    rewrite output_app, count_app. now f_equal.
Qed.
Lemma substitute_counts tpls tss ws n : Forall template_ok tpls -> all_protos c <> [] ->
  Forall2 (expands c) (visible_all c true tpls) tss -> Forall (fun ts => ts <> []) tss ->
  substitute c (map template_entries tpls) = Ok (ws, n) -> n = count_linefeed (output ws).
Proof.
  intros Hok P Hv Hn E. destruct (templates_counts tpls true tss Hok Hv Hn) as (ws' & k & R & K). cbn [negb] in R.
  unfold substitute in E. destruct tpls as [|t l]; cbn [map] in *; [injection E as <- <-; reflexivity|].
  unfold all_protos in P. destruct (c_funcs c), (c_objs c); try (now elim P); rewrite R in E; injection E as <- <-; exact K.
Qed.
End Run.

(** the number can be read off *)
Lemma last_word x : forall c0 (a b y : str), ~ In c0 a -> ~ In c0 b -> x ++ [c0] ++ a = y ++ [c0] ++ b -> a = b.
Proof.
  induction x as [|c x IH]; intros c0 a b [|d y] A B E; cbn [app] in E.
  - now injection E.
  - injection E as <- E. elim A. rewrite E. apply in_app_iff. right. now left.
  - injection E as -> E. elim B. rewrite <- E. apply in_app_iff. right. now left.
  - injection E as _ E. now apply (IH c0 a b y).
Qed.
Lemma number_plain n : ~ In " "%char (nat_to_string n).
Proof. intros K. destruct (to_string_value (N.of_nat n)) as (_ & _ & F). rewrite Forall_forall in F. specialize (F _ K). discriminate F. Qed.
Lemma directive_inj a b n m file : a ++ directive n file = b ++ directive m file -> n = m.
Proof.
  intros E. unfold directive in E. rewrite !app_assoc in E. do 5 (apply app_inv_tail in E). rewrite <- !app_assoc in E.
  change ($"#line ") with ($"#line" ++ [" "%char]) in E. rewrite <- !app_assoc in E. rewrite !(app_assoc _ $"#line") in E.
  apply last_word in E; [now apply nat_to_string_inj|apply number_plain|apply number_plain].
Qed.
(** the two directives of the header *)
Theorem directives_true s top fm defs tdefs filled n : o_line s = true -> ~ In nl (header_name s) ->
  let text := header_text s top (middle_text s fm defs tdefs filled) (next_line top + 1)
                (second_number s top (pre_text s tdefs fm defs) n) in
  exists d1 d2, text = top ++ d1 ++ middle_text s fm defs tdefs filled ++ d2 ++ bottom_text s /\
    true_directive (top ++ d1) (header_name s) /\
    (n = count_linefeed filled <-> true_directive (top ++ d1 ++ middle_text s fm defs tdefs filled ++ d2) (header_name s)).
Proof.
  intros L N text. set (m := middle_text s fm defs tdefs filled). set (n2 := second_number s top (pre_text s tdefs fm defs) n).
  exists (directive (next_line top + 1) (header_name s)), (directive n2 (header_name s)). split.
  { unfold text, header_text. cbv zeta. now rewrite L. }
  assert (count_linefeed m = count_linefeed (pre_text s tdefs fm defs) + count_linefeed filled) as Cm.
  { unfold m, pre_text, middle_text. rewrite !count_app. change (count_linefeed []) with 0. lia. }
  split.
  - exists top. unfold next_line. rewrite count_app, count_directive by exact N. f_equal.
  - assert (next_line (top ++ directive (next_line top + 1) (header_name s) ++ m ++ directive n2 (header_name s)) =
            count_linefeed top + 1 + count_linefeed (pre_text s tdefs fm defs) + count_linefeed filled + 2) as E.
    { unfold next_line. rewrite !count_app, !count_directive by exact N. rewrite Cm. lia. }
    split.
    + intros ->. exists (top ++ directive (next_line top + 1) (header_name s) ++ m). rewrite E. unfold n2, second_number. rewrite L, <- !app_assoc. reflexivity.
    + intros (b & H). rewrite E in H. rewrite !app_assoc in H. apply directive_inj in H.
      unfold n2, second_number in H. rewrite L in H. lia.
Qed.

(** Proofs for C95, C96, C98 and C99: the four templates in the order in which they stand in a single file. *)
From Coq Require Import Ascii String List Bool Arith Lia.
From Verif Require Import Str StrFacts Parse ParamNames Prefix Substitute Data Generate SpecPrefix SpecSubstitute Templates SpecTemplates SpecCLang SpecCProg SpecCMacro SpecBody SpecHeader
  CTemplate CTemplateText CTemplatePP CBody CBodyText HTemplate HTemplatePP HText HMacro HHeader HHeader2.
Import ListNotations.

(** the functions of common.c, and the rest *)
Definition common_part : tprogram := firstn 7 body_first.
Definition other_part (p : param_mode) : tprogram := skipn 7 body_first ++ match p with PSkip => [] | _ => body_wrap end ++ body_last.
Lemma two_parts p : body_of p = common_part ++ other_part p.
Proof. unfold body_of, common_part, other_part. rewrite (app_assoc (firstn 7 body_first)). now rewrite firstn_skipn. Qed.
(** the macros that are tested in common.c *)
Definition tested_names : list str := map (fun s => $s) ["GDO_HAVE_DLADDR"; "GDO_HAVE_DLINFO"; "GDO_HAVE_DLMOPEN"; "__linux__"; "PROCMAP_QUERY"]%string.
Definition lines_of (p : param_mode) (t : Generate.tname) : list str := shown_lines p true (inner_lines (shipped t)).
Definition order_of (h b h' : option (list gel)) : Prop :=
  match h, b, h' with
  | Some o1, Some b1, Some o2 =>
      let o1 := flat_map (pruned absent) o1 in let o2 := flat_map (pruned absent) o2 in
      let n := length o2 - length g_aliases in
      flat_map (pruned absent) b1 = pprogram common_part /\ skipn n o2 = g_aliases /\ flat_map (fun x => filter (may true x) (firstn n o2)) tested_names = [] /\
      flat_map (fun x => filter (may false x) o1) free_names = [] /\ flat_map (fun x => filter (may true x) o1) ($"GDO_INCLUDED_IN_BODY" :: own_words) = []
  | _, _, _ => False
  end.
Definition order_fact (p : param_mode) : Prop :=
  order_of (hread free_names (lines_of p TCommonH)) (hread [] (lines_of p TCommonC)) (hread free_names (lines_of p TCH)) /\
  texts_fine (lines_of p TCommonH) && texts_fine (lines_of p TCommonC) && texts_fine (lines_of p TCH) = true.
Lemma order_skip : order_fact PSkip.
Proof. vm_compute. repeat split. Qed.
Lemma order_read : order_fact PRead.
Proof. vm_compute. repeat split. Qed.
Lemma lines_create t : lines_of PCreate t = lines_of PRead t.
Proof. unfold lines_of. generalize (inner_lines (shipped t)). intro a. apply shown_create. Qed.
Lemma order_facts p : order_fact p.
Proof.
  destruct p; [exact order_read| |exact order_skip]. unfold order_fact. rewrite !lines_create. exact order_read.
Qed.
Lemma common_same d1 d2 c : (forall x, In x tested_names -> d1 x = d2 x) -> inst d1 c common_part = inst d2 c common_part.
Proof.
  intro H. assert (A : Forall (fun x => d1 x = d2 x) tested_names) by now apply Forall_forall. clear H.
  vm_compute in A. inversion A as [|? ? A1 B1]; subst. inversion B1 as [|? ? A2 B2]; subst. inversion B2 as [|? ? A3 B3]; subst. inversion B3 as [|? ? A4 B4]; subst. inversion B4 as [|? ? A5 B5]; subst.
  clear A B1 B2 B3 B4 B5. vm_compute. rewrite A1, A2, A3, A4, A5. reflexivity.
Qed.
Lemma common_tokens d c : exists l, print (inst d c common_part) = map PTok l.
Proof.
  assert (K : Forall (fun x => match snd x with JFunc _ _ _ _ | JCode _ => True | _ => False end) common_part) by (vm_compute; repeat (apply Forall_cons; [exact Logic.I|]); apply Forall_nil).
  induction K as [|[g i] r X K [l IH]]; [now exists []|]. unfold inst. cbn [flat_map fst snd]. destruct (forallb (feval d) g); [|now exists l].
  unfold print in *. rewrite flat_map_app. unfold inst in IH. rewrite IH. destruct i; try contradiction; cbn [inst_i flat_map print_i]; rewrite app_nil_r, <- map_app; now eexists.
Qed.

(* ---------------------------------------------------------------- the four texts *)

Definition text_of (c : config) (t : Generate.tname) : str := expanded c (lines_of (c_param c) t).
Lemma expanded_app c a b : expanded c (a ++ b) = expanded c a ++ expanded c b.
Proof. unfold expanded. now rewrite flat_map_app, map_app, concat_app. Qed.
Lemma texts_shown c ts : c_line c = false -> concat (filled_texts c (map shipped ts)) = concat (map (text_of c) ts).
Proof.
  intro L. unfold filled_texts. change (expanded c (flat_map (lines_shown c) (map shipped ts)) = concat (map (text_of c) ts)).
  induction ts as [|t ts IH]; [reflexivity|]. cbn [map flat_map concat]. rewrite expanded_app, IH. f_equal. unfold text_of, lines_of, lines_shown. now rewrite L.
Qed.
Lemma concat2 {A} (f : A -> str) a b : concat (map f [a; b]) = f a ++ f b.
Proof. cbn [map concat]. now rewrite app_nil_r. Qed.
Lemma concat4 {A} (f : A -> str) a b c d : concat (map f [a; b; c; d]) = f a ++ f b ++ f c ++ f d.
Proof. cbn [map concat]. now rewrite app_nil_r. Qed.
Lemma single_shown c : c_line c = false -> single_text c = text_of c TCommonH ++ text_of c TCommonC ++ text_of c TCH ++ text_of c TCC.
Proof. intro L. exact (eq_trans (texts_shown c [TCommonH; TCommonC; TCH; TCC] L) (concat4 (text_of c) TCommonH TCommonC TCH TCC)). Qed.
Lemma header_two c : c_line c = false -> header_text c = text_of c TCommonH ++ text_of c TCH.
Proof. intro L. exact (eq_trans (texts_shown c [TCommonH; TCH] L) (concat2 (text_of c) TCommonH TCH)). Qed.
Lemma library_two c : c_line c = false -> library_text c = text_of c TCommonC ++ text_of c TCC.
Proof. intro L. exact (eq_trans (texts_shown c [TCommonC; TCC] L) (concat2 (text_of c) TCommonC TCC)). Qed.
Definition behind (o : list pout) (r : option (list pout)) : option (list pout) := match r with Some r => Some (o ++ r) | None => None end.
Lemma flat_none {A B} (f : A -> list B) l x : flat_map f l = [] -> In x l -> f x = [].
Proof. intros H I. induction l as [|y l IH]; [contradiction|]. cbn [flat_map] in H. apply app_eq_nil in H as [H1 H2]. destruct I as [->|I]; auto. Qed.
Lemma order_reads c cfg : usable c cfg -> feval cfg f_sep = false -> exists h1 h2,
  (forall rest, preprocess cfg (text_of c TCommonH ++ rest) = behind h1 (preprocess (defined_after cfg h1) rest)) /\
  (forall d rest, (forall x, In x absent -> d x = false) -> preprocess d (text_of c TCommonC ++ rest) = behind (print (inst d c common_part)) (preprocess d rest)) /\
  (forall x, In x absent -> defined_after cfg h1 x = false) /\
  (forall rest, preprocess (defined_after cfg h1) (text_of c TCH ++ rest) = behind h2 (preprocess (defined_after (defined_after cfg h1) h2) rest)) /\
  (forall x, In x tested_names -> defined_after (defined_after cfg h1) h2 x = defined_after cfg h1 x).
Proof.
  intros [L D P N H A] Q. unfold text_of. pose proof (order_facts (c_param c)) as FT. unfold order_fact in FT. revert FT.
  generalize (lines_of (c_param c) TCommonH). generalize (lines_of (c_param c) TCommonC). generalize (lines_of (c_param c) TCH).
  intros l3 l2 l1 [F T]. rewrite !andb_true_iff in T. destruct T as [[T1 T2] T3]. unfold order_of in F. destruct (hread free_names l1) as [o1|] eqn:E1; [|contradiction]. destruct (hread [] l2) as [b1|] eqn:E2; [|contradiction]. destruct (hread free_names l3) as [o2|] eqn:E3; [|contradiction].
  cbv zeta in F. destruct F as (F1 & F2 & F3 & F4 & F5).
  assert (ND : NoDup (map (fun v => v HFunc) (envs c CFunction))) by (rewrite func_names; unfold symbol_names in N; rewrite map_app in N; now apply NoDup_left in N).
  assert (NH : forall k v h, In v (envs c k) -> ~ In (TOp $"#") (own_tokens (v h))) by (intros k v h Iv; now apply env_no_hash with (c := c) (k := k)).
  assert (FC : forall p v, In p free_names -> In v (envs c CFunction) -> cfg (p ++ v HFunc) = false).
  { intros p v Ip Iv. cbn [envs] in Iv. apply in_map_iff in Iv as (e & <- & Ie). destruct (H e Ie) as [H1 H2]. destruct Ip as [<-|[<-|[]]]; assumption. }
  assert (O1 : outs cfg c o1 = outs cfg c (flat_map (pruned absent) o1)) by (symmetry; now apply pruned_ok).
  assert (K : forall x, In x ($"GDO_INCLUDED_IN_BODY" :: own_words) -> defined_after cfg (outs cfg c o1) x = cfg x).
  { intros x I. rewrite defined_def, O1, (exact_def cfg c x _ []); [reflexivity|]. exact (flat_none _ _ x F5 I). }
  assert (K2 : forall p v, In p free_names -> In v (envs c CFunction) -> defined_after cfg (outs cfg c o1) (p ++ v HFunc) = false).
  { intros p v Ip Iv. rewrite defined_def, O1, (front_def cfg c p (v HFunc) _ []); [now apply FC|]. exact (flat_none _ _ p F4 Ip). }
  assert (K3 : forall x, In x absent -> defined_after cfg (outs cfg c o1) x = false).
  { intros x I. rewrite K; [now apply A|]. right. unfold own_words. apply in_app_iff. now right. }
  set (d1 := defined_after cfg (outs cfg c o1)) in *. exists (outs cfg c o1), (outs d1 c o2). split; [|split; [|split; [|split]]].
  - intro rest. exact (hread_text c cfg free_names l1 o1 D P T1 FC ND NH E1 rest).
  - intros d rest Ad. pose proof (hread_text c d [] l2 b1 D P T2 (fun p v (I : In p []) _ => match I with end) ND NH E2 rest) as R.
    assert (OB : outs d c b1 = print (inst d c common_part)) by (rewrite <- program_ok, <- F1; symmetry; now apply pruned_ok). rewrite OB in R.
    destruct (common_tokens d c) as [l El]. rewrite El in *. now rewrite toks_after in R.
  - exact K3.
  - intro rest. exact (hread_text c d1 free_names l3 o2 D P T3 K2 ND NH E3 rest).
  - intros x I. rewrite defined_def. assert (O2 : outs d1 c o2 = outs d1 c (flat_map (pruned absent) o2)) by (symmetry; now apply pruned_ok). rewrite O2. clear O2.
    set (o2' := flat_map (pruned absent) o2) in *. set (n := length o2' - length g_aliases) in *. rewrite <- (firstn_skipn n o2'), F2, outs_app, last_def_app.
    assert (G : outs d1 c g_aliases = []).
    { rewrite (alias_out d1 c P). assert (f_sep_same : feval d1 f_sep = feval cfg f_sep); [|now rewrite f_sep_same, Q].
      cbn [f_sep feval]. rewrite !K by (unfold own_words, absent; cbn [map In app]; tauto). reflexivity. }
    rewrite G. cbn [last_def]. rewrite (exact_def d1 c x _ []); [reflexivity|]. exact (flat_none _ _ x F3 I).
Qed.

(** Runs with the shipped templates. *)
From Coq Require Import Ascii String List Bool Arith Lia.
From Verif Require Import Str StrFacts Parse ParamNames Prefix Substitute SpecFormat SpecPrefix SpecSubstitute Options Generate SpecGenerate PrefixFacts SubstFacts SubstProps
  GenerateProps2 SpecTemplates TemplateFacts Templates ShippedFacts.
Import ListNotations.

(* ------------------------------------------------------------ every line *)

Definition entry_fine (e : entry) : bool := negb (not_marker (e_data e)) || check_entry e.
Lemma all_fine : forallb (fun t => forallb entry_fine (shipped t)) all_templates = true.
Proof. vm_compute. reflexivity. Qed.
Lemma all_templates_all t : In t all_templates.
Proof. destruct t; cbn; tauto. Qed.
Lemma shipped_line c t e : usable_prefix (c_pfx c) -> In e (shipped t) -> ~ is_marker (e_data e) -> expands c e (expansion c (e_data e)).
Proof.
  intros P I N. apply checked_expands; [exact P|]. pose proof all_fine as A. rewrite forallb_forall in A. specialize (A t (all_templates_all t)).
  rewrite forallb_forall in A. specialize (A e I). unfold entry_fine in A. apply orb_true_iff in A as [A|A]; [|exact A]. exfalso. apply N.
  apply negb_true_iff, negb_false_iff in A. cbn [existsb] in A. unfold is_marker.
  rewrite !orb_true_iff in A. destruct A as [A|[A|[A|A]]]; [| | |discriminate A]; apply str_eqb_eq in A; eauto.
Qed.

(* ------------------------------------------------------------ whole templates *)

Definition item_data (i : item) : str := e_data (item_entry i).
(** the lines of a list of templates that are shown *)
Lemma visible_shown p : forall items sh n, Forall (fun i => match i with Line e => not_marker (e_data e) = true | Mark _ => True end) items ->
  Forall (fun i => match i with Line e => c_str (e_data e) = e_data e | Mark _ => True end) items ->
  map (fun x => e_data (snd x)) (visible p sh n items) = shown_lines p sh (map item_data items).
Proof.
  induction items as [|[e|m] items IH]; intros sh n H K; [reflexivity| |]; inversion H as [|? ? H1 H2]; inversion K as [|? ? K1 K2]; subst; cbn [visible map shown_lines item_data item_entry e_data].
  - assert (M : marker_of (e_data e) = None).
    { unfold not_marker in H1. rewrite K1 in H1. apply negb_true_iff in H1. cbn [existsb] in H1. unfold marker_of. cbn [List.find].
      apply orb_false_iff in H1 as (A & H1). apply orb_false_iff in H1 as (B & H1). apply orb_false_iff in H1 as (C & _). now rewrite A, B, C. }
    change (item_data (Line e)) with (e_data e). rewrite M. rewrite map_app. rewrite IH by assumption. now destruct sh.
  - change (item_data (Mark m)) with (marker_text m). replace (marker_of (marker_text m)) with (Some m) by (now destruct m). apply IH; assumption.
Qed.
Definition closed_sections (t : tname) : bool :=
  forallb (fun p => shown_after p true (snd (shipped_template t))) [PRead; PCreate; PSkip] &&
  forallb (fun i => match i with Line e => not_marker (e_data e) && str_eqb (c_str (e_data e)) (e_data e) | Mark _ => true end) (snd (shipped_template t)) &&
  forallb (fun p => match p with (a, b) => str_eqb a b end) (combine (inner_lines (shipped t)) (map item_data (snd (shipped_template t)))) &&
  Nat.eqb (length (inner_lines (shipped t))) (length (snd (shipped_template t))) &&
  not_marker (e_data (fst (shipped_template t))).
Lemma sections_closed : forallb closed_sections source_templates = true.
Proof. vm_compute. reflexivity. Qed.
Lemma combine_eq : forall a b : list str, length a = length b -> forallb (fun p : str * str => match p with (x, y) => str_eqb x y end) (combine a b) = true -> a = b.
Proof.
  induction a as [|x a IH]; intros [|y b] L E; try discriminate L; [reflexivity|]. cbn [combine forallb] in E. apply andb_true_iff in E as (E1 & E2).
  apply str_eqb_eq in E1. subst. f_equal. apply IH; [now injection L|exact E2].
Qed.
Lemma sections t : In t source_templates ->
  (forall p, shown_after p true (snd (shipped_template t)) = true) /\
  (forall p n, map (fun x => e_data (snd x)) (visible p true n (snd (shipped_template t))) = shown_lines p true (inner_lines (shipped t))) /\
  first_line (shipped t) = [e_data (fst (shipped_template t))].
Proof.
  intros I. pose proof sections_closed as S. rewrite forallb_forall in S. specialize (S t I). unfold closed_sections in S.
  repeat rewrite andb_true_iff in S. destruct S as ((((S1 & S2) & S3) & S4) & S5). split; [|split].
  - intros p. rewrite forallb_forall in S1. apply S1. destruct p; cbn; tauto.
  - intros p n. apply Nat.eqb_eq in S4. rewrite <- (map_length item_data) in S4. rewrite (combine_eq _ _ S4 S3).
    rewrite forallb_forall in S2. apply visible_shown; apply Forall_forall; intros i J; specialize (S2 i J); destruct i; trivial; apply andb_true_iff in S2 as (A & B).
    + exact A.
    + now apply str_eqb_eq in B.
  - rewrite (shipped_entries t I). reflexivity.
Qed.

Lemma visible_snd p : forall items sh n m, map snd (visible p sh n items) = map snd (visible p sh m items).
Proof.
  induction items as [|[e|k] items IH]; intros sh n m; [reflexivity| |]; cbn [visible]; [rewrite !map_app, (IH sh _ (m + e_count e)); now destruct sh|apply IH].
Qed.
Lemma shown_all c : forall ts, Forall (fun t => In t source_templates) ts ->
  map e_data (visible_all c true (map shipped_template ts)) = flat_map (lines_shown c) (map shipped ts).
Proof.
  induction ts as [|t ts IH]; intros H; [reflexivity|]. inversion H as [|? ? H1 H2]; subst. cbn [map visible_all flat_map].
  destruct (sections t H1) as (S1 & S2 & S3). destruct (shipped_template t) as (d, items) eqn:E. cbn [fst snd] in *.
  rewrite map_app. unfold lines_shown at 1. rewrite S3.
  replace (shown_after (c_param c) true (if c_line c then Line d :: items else items)) with true by (destruct (c_line c); cbn [shown_after]; now rewrite S1).
  rewrite (IH H2). f_equal. destruct (c_line c); cbn [visible app map]; rewrite map_map, S2; reflexivity.
Qed.
Lemma all_expand c : usable_prefix (c_pfx c) -> forall ts, Forall (fun t => In t source_templates) ts ->
  Forall2 (expands c) (visible_all c true (map shipped_template ts)) (map (fun e => expansion c (e_data e)) (visible_all c true (map shipped_template ts))).
Proof.
  intros P ts H.
  assert (G0 : forall sh e, In e (visible_all c sh (map shipped_template ts)) -> check_entry e = true).
  { intros sh e. revert sh H. induction ts as [|t ts IH]; intros sh H; [intros []|]. inversion H as [|? ? H1 H2]; subst. cbn [map visible_all].
    destruct (shipped_ok t H1) as (_ & D & I). destruct (shipped_template t) as (d, items). cbn [fst snd] in *. intros J. apply in_app_or in J as [J|J]; [|exact (IH _ H2 J)].
    assert (V : forall its, Forall (fun i => match i with Line e => check_entry e = true | Mark _ => True end) its -> forall sh n x, In x (visible (c_param c) sh n its) -> check_entry (snd x) = true).
    { clear. induction its as [|[a|m] its IH]; intros F sh n x X; [destruct X| |]; inversion F; subst; cbn [visible] in X.
      - apply in_app_or in X as [X|X]; [destruct sh; [destruct X as [<-|[]]; assumption|destruct X]|eapply IH; eassumption].
      - eapply IH; eassumption. }
    apply in_map_iff in J as (x & <- & J). eapply V; [|exact J]. destruct (c_line c); [constructor; [exact D|exact I]|exact I]. }
  pose proof (G0 true) as G. clear G0.
  revert G. induction (visible_all c true (map shipped_template ts)) as [|e v IH]; intros G; [constructor|]. constructor.
  - apply checked_expands; [exact P|]. apply G. now left.
  - apply IH. intros x X. apply G. now right.
Qed.

Lemma shipped_filled c ts : usable_prefix (c_pfx c) -> Forall clean_proto (c_funcs c) -> Forall clean_proto (c_objs c) -> c_funcs c ++ c_objs c <> [] ->
  Forall (fun t => In t source_templates) ts -> exists ws k, substitute c (map shipped ts) = Ok (ws, k) /\ texts ws = filled_texts c (map shipped ts).
Proof.
  intros P F O N H.
  assert (E : map shipped ts = map template_entries (map shipped_template ts)).
  { rewrite map_map. apply map_ext_in. intros t T. rewrite Forall_forall in H. now apply shipped_entries, H. }
  assert (K : Forall template_ok (map shipped_template ts)).
  { apply Forall_map. eapply Forall_impl; [|exact H]. intros t T. now apply shipped_ok. }
  destruct (templates_texts c F O (map shipped_template ts) true _ K (all_expand c P ts H)) as (ws & k & R & T).
  exists ws, k. split.
  - unfold substitute. rewrite <- E in R. cbn [negb] in R. destruct (map shipped ts) as [|l r] eqn:M; [exact R|].
    destruct (c_funcs c); [destruct (c_objs c); [now elim N|exact R]|exact R].
  - rewrite T. unfold filled_texts. rewrite <- (shown_all c ts H). f_equal. rewrite flat_map_concat_map, map_map. reflexivity.
Qed.
Lemma filled_no_hole c ts : usable_prefix (c_pfx c) -> Forall clean_proto (c_funcs c) -> Forall clean_proto (c_objs c) -> 
  Forall (fun t => In t source_templates) ts -> forall x h, In x (filled_texts c (map shipped ts)) -> ~ occurs (hole_text h) x.
Proof.
  intros P F O H x h I. unfold filled_texts in I. rewrite <- (shown_all c ts H) in I. apply in_map_iff in I as (y & <- & I).
  apply in_flat_map in I as (d & D & I). apply in_map_iff in D as (e & <- & E).
  assert (X : expands c e (expansion c (e_data e))).
  { pose proof (all_expand c P ts H) as A. clear -A E. induction (visible_all c true (map shipped_template ts)) as [|a v IH]; [destruct E|].
    cbn [map] in A. inversion A; subst. destruct E as [<-|E]; [assumption|now apply IH]. }
  pose proof (expanded_no_hole c e _ F O X) as A. rewrite Forall_forall in A. specialize (A y I h).
  intros (a & b & B). apply A.
  (* the line feed is no part of a placeholder *)
  destruct (list_eq_dec ascii_dec b []) as [->|Z].
  - exfalso. rewrite app_nil_r in B. assert (L : last (y ++ [nl]) sp = last (a ++ hole_text h) sp) by (now rewrite B). rewrite last_last in L.
    unfold hole_text in L. rewrite !app_assoc in L. change $"%%" with ($"%" ++ ["%"%char]) in L. rewrite !app_assoc in L. rewrite last_last in L. discriminate L.
  - destruct (exists_last Z) as (b' & z & ->). rewrite !app_assoc in B. apply app_inj_tail in B as (B & _). exists a, b'. now rewrite <- app_assoc in B.
Qed.

(* ------------------------------------------------------------ the two texts that are not filled in *)

Definition check_plain (l : list entry) : bool := forallb (fun e => negb (Nat.eqb (e_count e) 0) && negb (adjacent_b (cut_words (words (e_data e))))) l.
Lemma plain_texts c l : usable_prefix (c_pfx c) -> check_plain l = true ->
  plain_text c l = concat (map (fun s => rename (m_pfx_upper (c_pfx c)) (m_pfx_lower (c_pfx c)) s ++ [nl]) (map e_data l)) /\ Forall (fun e => e_count e <> 0) l.
Proof.
  intros P. destruct (usable _ P) as (_ & _ & _ & _ & R). unfold check_plain, plain_text. induction l as [|e l IH]; [split; [reflexivity|constructor]|].
  cbn [forallb map concat]. intros E. apply andb_true_iff in E as (E1 & E2). apply andb_true_iff in E1 as (E0 & E1). destruct (IH E2) as (I1 & I2). split.
  - rewrite I1. f_equal. f_equal. apply R. intros A. apply adjacent_spec in A. rewrite A in E1. discriminate E1.
  - constructor; [|exact I2]. intros Z. rewrite Z in E0. discriminate E0.
Qed.
Lemma license_plain c : usable_prefix (c_pfx c) -> plain_template c (shipped TLicense) (license_text (shipped TLicense)).
Proof.
  intros P. assert (E : exists e, shipped TLicense = [e] ++ [terminator] /\ check_plain [e] = true /\
    (forall u l, rename u l (e_data e) ++ [nl] = license_text (shipped TLicense)) /\ starts_with $"#line" (c_str (e_data e)) = false).
  { eexists. split; [vm_compute; reflexivity|]. split; [vm_compute; reflexivity|]. split; [intros u l; vm_compute; reflexivity|vm_compute; reflexivity]. }
  destruct E as (e & E & K & T & S). destruct (plain_texts c [e] P K) as (A & B). exists [e]. split; [exact B|]. split.
  - rewrite A. cbn [map concat]. now rewrite app_nil_r, T.
  - right. split; [exact E|]. intros _ d r D. rewrite E in D. injection D as <- _. exact S.
Qed.
Lemma macros_plain c : usable_prefix (c_pfx c) -> plain_template c (shipped TFilenameMacros) (macros_text c (shipped TFilenameMacros)).
Proof.
  intros P. assert (E : exists d es, shipped TFilenameMacros = d :: es ++ [terminator] /\ check_plain (d :: es) = true /\ starts_with $"#line" (c_str (e_data d)) = true).
  { exists (hd terminator (shipped TFilenameMacros)), (removelast (tl (shipped TFilenameMacros))). split; [vm_compute; reflexivity|]. split; vm_compute; reflexivity. }
  destruct E as (d & es & E & K & S). unfold macros_text. rewrite E. unfold first_line, inner_lines. cbn [firstn map tl]. rewrite removelast_last.
  destruct (c_line c) eqn:L.
  - destruct (plain_texts c (d :: es) P K) as (A & B). exists (d :: es). split; [exact B|]. split; [now rewrite A|]. right. split; [reflexivity|]. intros X. rewrite L in X. discriminate X.
  - apply andb_true_iff in K as (_ & K). destruct (plain_texts c es P K) as (A & B). exists es. split; [exact B|]. split; [now rewrite A|]. left. exists d. split; [reflexivity|]. split; [exact S|exact L].
Qed.

(* ------------------------------------------------------------ runs *)

Lemma header_sources s : Forall (fun t => In t source_templates) (header_templates s).
Proof. unfold header_templates. destruct (o_format s), (separate s); cbn [format_sources]; repeat (apply Forall_cons; [repeat (first [left; reflexivity|right])|]); apply Forall_nil. Qed.
Lemma body_sources s : Forall (fun t => In t source_templates) (body_templates s).
Proof. unfold body_templates. destruct (o_format s), (separate s); cbn [format_sources]; repeat (apply Forall_cons; [repeat (first [left; reflexivity|right])|]); apply Forall_nil. Qed.

Lemma shipped_runs e s f o defs : (forall t, e_builtin e t = shipped t) -> o_print s = false -> o_template s = [] -> o_tpath s = [] -> usable_prefix (o_pfxs s) ->
  Forall clean_proto f -> Forall clean_proto o -> f ++ o <> [] -> all_defines s f o = Ok defs ->
  exists hdr bdy n, runs e s f o (license_text (shipped TLicense)) (macros_text (config_of s [] []) (shipped TFilenameMacros)) defs hdr bdy n /\
    texts hdr = filled_texts (config_of s f o) (map shipped (header_templates s)) /\
    texts bdy = filled_texts (config_of s f o) (map shipped (body_templates s)).
Proof.
  intros B Pr T Tp P F O N D. set (c := config_of s f o).
  assert (M : forall ts, map (e_builtin e) ts = map shipped ts) by (intros ts; apply map_ext; exact B).
  destruct (shipped_filled c (header_templates s) P F O N (header_sources s)) as (hdr & n & H1 & H2).
  destruct (shipped_filled c (body_templates s) P F O N (body_sources s)) as (bdy & m & B1 & B2).
  exists hdr, bdy, n. split; [|split; [exact H2|exact B2]]. split; try assumption.
  - rewrite B. now apply license_plain.
  - rewrite B. now apply macros_plain.
  - rewrite M. exact H1.
  - exists m. intros _. rewrite M. exact B1.
Qed.

(** Proofs for C85: the generated files. *)
From Coq Require Import Ascii String List Bool Arith Lia NArith.
From Verif Require Import Str StrFacts NumFacts Parse ParamNames Prefix Substitute SpecPrefix SpecSubstitute Options Generate SpecGenerate SpecTemplates Templates SpecEndToEnd SpecCText CTextProps CTextAbs
  SubstFacts2 SubstProps PrefixFacts TemplateFacts ShippedFacts ShippedProps TablesClean EndToEnd CTextLines GenerateFacts SpecMacros MacrosProps.
Import ListNotations.

(* ------------------------------------------------------------ the templates *)

Definition keeps (cxx : bool) (e : entry) : bool := is_fresh (by_items cxx PRead true [Line e] [fresh]).
Lemma shipped_close : forallb (fun cxx => forallb (fun t => forallb (fun m => closes cxx m (snd (shipped_template t))) [PSkip; PRead]) source_templates) [false; true] = true.
Proof. vm_compute. reflexivity. Qed.
Lemma shipped_keep : forallb (fun cxx => forallb (fun t => keeps cxx (fst (shipped_template t))) source_templates) [false; true] = true.
Proof. vm_compute. reflexivity. Qed.
Lemma by_items_create cxx items : forall b l, by_items cxx PCreate b items l = by_items cxx PRead b items l.
Proof.
  induction items as [|[e|k] r IH]; intros b l; [reflexivity| |].
  - cbn [by_items]. destruct b; [|apply IH]. destruct (match holes _ with [] => true | _ => _ end); [|reflexivity]. unfold andthen. destruct (by_line cxx (e_data e) l); [apply IH|reflexivity].
  - cbn [by_items]. destruct (forallb between l); [|reflexivity]. destruct k; cbn [opens]; apply IH.
Qed.
Lemma is_fresh_only l : is_fresh (Some l) = true -> l = [fresh].
Proof. unfold is_fresh. destruct l as [|s [|]]; try discriminate. destruct (state_dec s fresh) as [-> |]; [reflexivity|discriminate]. Qed.
Lemma by_items_line cxx m e items : keeps cxx e = true -> by_items cxx m true (Line e :: items) [fresh] = by_items cxx m true items [fresh].
Proof.
  unfold keeps. cbn [by_items]. destruct (match holes _ with [] => true | _ => _ end); [|discriminate]. unfold andthen. destruct (by_line cxx (e_data e) [fresh]) as [l|]; [|discriminate].
  intros H. now rewrite (is_fresh_only l H).
Qed.
Lemma shipped_closes cxx t m (line : bool) : In t source_templates ->
  closes cxx m (if line then Line (fst (shipped_template t)) :: snd (shipped_template t) else snd (shipped_template t)) = true.
Proof.
  intros I. pose proof shipped_close as S. pose proof shipped_keep as K. rewrite forallb_forall in S, K. specialize (S cxx ltac:(destruct cxx; cbn; tauto)). specialize (K cxx ltac:(destruct cxx; cbn; tauto)).
  cbv beta in S, K. rewrite forallb_forall in S, K. specialize (S t I). specialize (K t I). cbv beta in S, K. rewrite forallb_forall in S. destruct (shipped_template t) as (e, items). cbn [fst snd] in *.
  assert (C : closes cxx m items = true).
  { destruct m; [apply S; cbn; tauto| |apply S; cbn; tauto]. unfold closes. rewrite by_items_create. apply (S PRead); cbn; tauto. }
  destruct line; [|exact C]. unfold closes. now rewrite (by_items_line cxx m e items K).
Qed.
Lemma templates_close cxx c ts ws k : usable_prefix (c_pfx c) -> Forall plain_proto (c_funcs c ++ c_objs c) -> Forall matched_proto (c_funcs c ++ c_objs c) ->
  Forall (fun t => In t source_templates) ts -> substitute_templates c false (map shipped ts) = Ok (ws, k) -> closed cxx (output ws).
Proof.
  intros P F M H. rewrite Forall_app in F, M. destruct F as (F & O), M as (MF & MO). destruct (usable _ P) as (U & L & U0 & L0 & _).
  revert ws k. induction H as [|t ts I H IH]; intros ws k; cbn [map substitute_templates].
  { intros [= <- _]. reflexivity. }
  destruct (shipped_ok t I) as (OK & CD & CI). destruct (sections t I) as (SA & _). rewrite (shipped_entries t I).
  pose proof (shipped_closes cxx t (c_param c) (c_line c) I) as CL. destruct (shipped_template t) as (d, items). cbn [fst snd] in *. destruct OK as (Hd & Hi). cbn [fst snd] in *.
  unfold template_entries. cbn [fst snd]. rewrite start_kept by (right; apply Hd).
  replace (if c_line c then d :: map item_entry items ++ [terminator] else map item_entry items ++ [terminator])
    with (map item_entry (if c_line c then Line d :: items else items) ++ [terminator]) by (now destruct (c_line c)).
  assert (LI : line_items_ok (if c_line c then Line d :: items else items)) by (destruct (c_line c); [constructor; [split; apply Hd|exact Hi]|exact Hi]).
  assert (CE : Forall (fun i => match i with Line e => check_entry e = true | Mark _ => True end) (if c_line c then Line d :: items else items)) by (destruct (c_line c); [constructor; assumption|exact CI]).
  assert (SH : shown_after (c_param c) true (if c_line c then Line d :: items else items) = true) by (destruct (c_line c); cbn [shown_after]; apply SA).
  set (its := if c_line c then Line d :: items else items) in *. clearbody its.
  destruct (substitute_entries c 0 false (map item_entry its ++ [terminator])) as [[[w n] sk]| | |] eqn:E; try discriminate. cbn [bind].
  pose proof (run_skip c its 0 true w n sk LI E) as SK. rewrite SH in SK. cbn [negb] in SK. subst sk.
  destruct (substitute_templates c false (map shipped ts)) as [[w' n']| | |] eqn:E2; try discriminate. cbn [bind fst snd]. intros [= <- _].
  rewrite output_app. apply closed_app; [|exact (IH _ _ eq_refl)].
  exact (closes_reads cxx _ _ U L U0 L0 c eq_refl eq_refl F O MF MO P its 0 w n false CE LI CL E).
Qed.
Lemma filled_closed cxx s f o ts t : usable_prefix (o_pfxs s) -> Forall plain_proto (f ++ o) -> Forall matched_proto (f ++ o) ->
  Forall (fun t => In t source_templates) ts -> filled_in (config_of s f o) ts t -> closed cxx t.
Proof.
  intros P F M H (ws & n & R & -> & _). unfold substitute in R. destruct (map shipped ts) as [|x r] eqn:E; [injection R as <- _; reflexivity|]. rewrite <- E in R.
  apply (templates_close cxx (config_of s f o) ts ws n P F M H).
  destruct (c_funcs (config_of s f o)); [destruct (c_objs (config_of s f o)); [discriminate|exact R]|exact R].
Qed.
(** the two texts that are not filled in *)
Lemma license_closed cxx : closed cxx (license_text (shipped TLicense)).
Proof. destruct cxx; vm_compute; reflexivity. Qed.
Lemma macros_check : forallb (fun cxx => is_fresh (by_plain cxx (inner_lines (shipped TFilenameMacros)) [fresh]) &&
  is_fresh (by_plain cxx (first_line (shipped TFilenameMacros) ++ inner_lines (shipped TFilenameMacros)) [fresh])) [false; true] = true.
Proof. vm_compute. reflexivity. Qed.
Lemma macros_closed cxx c : usable_prefix (c_pfx c) -> closed cxx (macros_text c (shipped TFilenameMacros)).
Proof.
  intros P. destruct (usable _ P) as (U & L & U0 & L0 & _). pose proof macros_check as S. rewrite forallb_forall in S. specialize (S cxx ltac:(destruct cxx; cbn; tauto)).
  apply andb_true_iff in S as (A & B). unfold macros_text.
  assert (K : is_fresh (by_plain cxx ((if c_line c then first_line (shipped TFilenameMacros) else []) ++ inner_lines (shipped TFilenameMacros)) [fresh]) = true)
    by (destruct (c_line c); [exact B|exact A]).
  apply (fresh_closed cxx _ _ K). intros l E. exact (plain_reads cxx _ _ U L U0 L0 _ _ _ E).
Qed.
(* ------------------------------------------------------------ the other parts *)

Lemma closed_line cxx a l t : read_text cxx fresh a = Some (mkstate LineComment l [] []) -> (l = Start \/ l = Code) -> one_line_text t -> closed cxx (a ++ t ++ [nl]).
Proof.
  intros A L T. unfold closed. rewrite read_app, A, read_app, stays_line by exact T. destruct L as [-> | ->]; reflexivity.
Qed.
Lemma note_closed cxx date : match date with Some d => one_line_text d | None => True end -> closed cxx (note_text date).
Proof.
  intros H. unfold note_text. set (D := match date with Some d => $" on " ++ d | None => [] end).
  assert (OD : one_line_text D) by (unfold D; destruct date as [d|]; [apply Forall_app; split; [repeat constructor; discriminate|exact H]|constructor]). clearbody D.
  match goal with |- closed _ (?a ++ ?n ++ ?b ++ D ++ ?dot ++ ?n2 ++ ?r) =>
    replace (a ++ n ++ b ++ D ++ dot ++ n2 ++ r) with ((a ++ n) ++ (b ++ (D ++ dot) ++ n2) ++ r) by (now rewrite <- !app_assoc) end.
  apply closed_app; [destruct cxx; vm_compute; reflexivity|]. apply closed_app; [|destruct cxx; vm_compute; reflexivity].
  eapply closed_line; [destruct cxx; vm_compute; reflexivity|now left|]. apply Forall_app. split; [exact OD|repeat constructor; discriminate].
Qed.

(** file names between quotes *)
Lemma quoted_reads cxx n cs o d : quotable n -> read_text cxx (mkstate Text (Directive d) cs o) ([dquote] ++ n ++ [dquote]) = Some (mkstate Text (Directive d) cs o).
Proof.
  intros (L & Q). cbn [app read_text]. change (read cxx (mkstate Text (Directive d) cs o) dquote) with (Some (mkstate (Literal dquote) (Directive d) cs o)). cbv beta iota.
  rewrite read_app, stays_literal; [reflexivity|]. unfold one_line_text in L. rewrite Forall_forall in *. intros c C. destruct (L c C). repeat split; auto. intros ->. auto.
Qed.
Lemma directive_closed cxx n name : quotable name -> closed cxx (directive n name).
Proof.
  intros Q. unfold directive, closed. rewrite read_app. change (read_text cxx fresh $"#line ") with (Some (mkstate Text (Directive []) [] [])). cbv beta iota.
  rewrite read_app, (name_in_code cxx _ (Directive []) (Directive [])); [|apply number_ident|apply number_some|reflexivity].
  cbv beta iota. replace ($" " ++ [dquote] ++ name ++ [dquote] ++ [nl]) with ($" " ++ ([dquote] ++ name ++ [dquote]) ++ [nl]) by (now rewrite <- !app_assoc).
  rewrite read_app. change (read_text cxx (mkstate Text (Directive []) [] []) $" ") with (Some (mkstate Text (Directive []) [] [])). cbv beta iota.
  rewrite read_app, (quoted_reads cxx name [] [] [] Q). reflexivity.
Qed.
Lemma names_read cxx x d cs o : ident_text x -> read_text cxx (mkstate Text (Directive d) cs o) x = Some (mkstate Text (Directive d) cs o).
Proof. intros H. destruct x as [|c x]; [reflexivity|]. now apply name_in_code. Qed.
Lemma define_reads cxx x cs o : ident_text x -> read_text cxx (within cs o) ($"#define " ++ x) = Some (mkstate Text (Directive o) cs o).
Proof.
  intros H. rewrite read_app. change (read_text cxx (within cs o) $"#define ") with (Some (mkstate Text (Directive o) cs o)). cbv beta iota. now apply names_read.
Qed.
Lemma include_closed cxx name u : ident_text u -> quotable name -> closed cxx (include_header_text name u).
Proof.
  intros U Q. unfold include_header_text.
  match goal with |- closed _ (?n ++ ?d ++ u ++ ?i ++ ?n2 ++ ?r) => replace (n ++ d ++ u ++ i ++ n2 ++ r) with (n ++ ((d ++ (u ++ i)) ++ n2) ++ r) by (now rewrite <- !app_assoc) end.
  apply closed_app; [destruct cxx; reflexivity|]. apply closed_app.
  - unfold closed. rewrite read_app. change fresh with (within [] []). rewrite define_reads; [reflexivity|]. apply Forall_app. split; [exact U|repeat constructor].
  - unfold closed. rewrite read_app. change (read_text cxx fresh $"#include ") with (Some (mkstate Text (Directive []) [] [])). cbv beta iota.
    rewrite (app_assoc name), (app_assoc [dquote]), read_app, (quoted_reads cxx name [] [] [] Q). reflexivity.
Qed.
Lemma includes_closed cxx l c : Forall (fun i => closed cxx ($"#include " ++ i ++ [nl])) l -> closed cxx (includes_text l c).
Proof.
  intros H. unfold includes_text. apply closed_app; [destruct cxx; reflexivity|]. apply closed_app; [destruct cxx; reflexivity|].
  apply closed_app; [destruct c, cxx; vm_compute; reflexivity|]. apply closed_app; [|destruct cxx; reflexivity]. apply closed_concat. now apply Forall_map.
Qed.
Lemma typedefs_closed cxx l : Forall (fun t => declaration_text t /\ matched t) l -> closed cxx (typedefs_text l).
Proof.
  intros H. unfold typedefs_text. destruct l as [|x l]; [reflexivity|]. apply closed_app; [destruct cxx; reflexivity|]. apply closed_app; [destruct cxx; reflexivity|].
  apply closed_app; [|destruct cxx; reflexivity]. apply closed_concat. apply Forall_map. revert H. apply Forall_impl. intros t (D & M). unfold closed. rewrite read_app.
  change (read_text cxx fresh $"typedef ") with (Some (mkstate Text Code [] [])). cbv beta iota.
  rewrite read_app, (decl_in_code cxx t Code [] [] [] D (matched_any true t [] M)) by auto. reflexivity.
Qed.
Lemma defines_closed cxx defs : closed cxx defs -> closed cxx (defines_text defs).
Proof.
  intros H. unfold defines_text. destruct defs as [|c d]; [reflexivity|]. apply closed_app; [destruct cxx; reflexivity|]. apply closed_app; [destruct cxx; reflexivity|].
  apply closed_app; [exact H|destruct cxx; reflexivity].
Qed.

(* ------------------------------------------------------------ the guard *)

Lemma upper_not_lower c : islower (toupper c) = false.
Proof. destruct c as [[] [] [] [] [] [] [] []]; reflexivity. Qed.
Lemma to_upper_not_lower s : Forall (fun c => islower c = false) (to_upper true s).
Proof. unfold to_upper. apply Forall_map. apply Forall_forall. intros c _. destruct (isalnum c); [apply upper_not_lower|reflexivity]. Qed.
Lemma usable_not_lower p : usable_prefix p -> Forall (fun c => islower c = false) (m_pfx_upper p).
Proof. intros [-> |(s & _ & _ & ->)]; [repeat constructor|apply to_upper_not_lower]. Qed.
Lemma guard_word h p : usable_prefix p -> ident_text (guard_name h (m_pfx_upper p)) /\ guard_name h (m_pfx_upper p) <> [] /\ str_eqb (guard_name h (m_pfx_upper p)) $"__cplusplus" = false.
Proof.
  intros P. destruct (usable _ P) as (U & _). unfold guard_name. split; [|split; [discriminate|]].
  - apply Forall_app. split; [repeat constructor|]. apply Forall_app. split; [exact U|]. apply Forall_app. split; [repeat constructor|]. apply Forall_app. split; [apply to_upper_ident|repeat constructor].
  - apply str_eqb_neq. intros E. assert (L : Forall (fun c => islower c = false) ($"_" ++ m_pfx_upper p ++ $"_" ++ to_upper true h ++ $"_")).
    { apply Forall_app. split; [repeat constructor|]. apply Forall_app. split; [now apply usable_not_lower|]. apply Forall_app. split; [repeat constructor|].
      apply Forall_app. split; [apply to_upper_not_lower|repeat constructor]. }
    rewrite E in L. rewrite Forall_forall in L. specialize (L "c"%char). discriminate L. cbn. tauto.
Qed.
(** what is open inside the guard *)
Definition guard_conds (pragma : bool) : list cond := if pragma then [] else [begin_cond None []].
Definition guard_open (cxx is_cxx : bool) : str := if is_cxx then [] else if cxx then $"{" else [].
Definition extern_begin : str := $"#ifdef __cplusplus" ++ [nl] ++ $"extern " ++ [dquote] ++ $"C" ++ [dquote] ++ $" {" ++ [nl] ++ $"#endif" ++ [nl; nl].
Definition extern_end : str := $"#ifdef __cplusplus" ++ [nl] ++ $"} /* extern " ++ [dquote] ++ $"C" ++ [dquote] ++ $" */" ++ [nl] ++ $"#endif" ++ [nl].
Lemma extern_begins cxx cs : read_text cxx (within cs []) extern_begin = Some (within cs (guard_open cxx false)).
Proof. destruct cxx; reflexivity. Qed.
Lemma extern_ends cxx cs : read_text cxx (within cs (guard_open cxx false)) extern_end = Some (within cs []).
Proof. destruct cxx; reflexivity. Qed.
Definition guard_first (h u : str) (pragma : bool) : str :=
  if pragma then [nl] ++ $"#pragma once" ++ [nl; nl] else [nl] ++ $"#ifndef " ++ guard_name h u ++ [nl] ++ $"#define " ++ guard_name h u ++ [nl; nl].
Lemma guard_first_reads cxx h p pragma : usable_prefix p -> read_text cxx fresh (guard_first h (m_pfx_upper p) pragma) = Some (within (guard_conds pragma) []).
Proof.
  intros P. unfold guard_first. destruct pragma; [destruct cxx; reflexivity|]. destruct (guard_word h p P) as (I & N & C). set (g := guard_name h (m_pfx_upper p)) in *. clearbody g.
  rewrite read_app. change (read_text cxx fresh [nl]) with (Some fresh). cbv beta iota.
  rewrite read_app. change (read_text cxx fresh $"#ifndef ") with (Some (mkstate Text (Asking false []) [] [])). cbv beta iota.
  rewrite read_app, name_asked by exact I. cbn beta iota. change ([] ++ g) with g. rewrite read_app.
  assert (read_text cxx (mkstate Text (Asking false g) [] []) [nl] = Some (within [begin_cond None []] [])) as ->.
  { destruct g as [|c g]; [now destruct N|]. cbn [read_text read t_place]. change (Ascii.eqb nl backslash) with false. cbn [read_char]. unfold read_code.
    change (is_ident nl) with false. cbn [end_word t_lead]. unfold asked. rewrite C. reflexivity. }
  match goal with |- read_text _ _ ?r = _ => replace r with (($"#define " ++ g) ++ [nl; nl]) by (now rewrite <- app_assoc) end.
  rewrite read_app, define_reads by exact I. reflexivity.
Qed.
Lemma guard_begins cxx h p pragma is_cxx : usable_prefix p ->
  read_text cxx fresh (guard_begin_text h (m_pfx_upper p) pragma is_cxx) = Some (within (guard_conds pragma) (guard_open cxx is_cxx)).
Proof.
  intros P. change (guard_begin_text h (m_pfx_upper p) pragma is_cxx) with (guard_first h (m_pfx_upper p) pragma ++ (if is_cxx then [] else extern_begin)).
  rewrite read_app, (guard_first_reads cxx h p pragma P). destruct is_cxx; [reflexivity|]. exact (extern_begins cxx (guard_conds pragma)).
Qed.
Definition extern_last (is_cxx : bool) : str := if is_cxx then [] else extern_end.
Lemma guard_ends cxx h p pragma is_cxx : usable_prefix p ->
  read_text cxx (within (guard_conds pragma) (guard_open cxx is_cxx)) (guard_end_text h (m_pfx_upper p) pragma is_cxx) = Some fresh.
Proof.
  intros P. change (guard_end_text h (m_pfx_upper p) pragma is_cxx) with
    (extern_last is_cxx ++ (if pragma then [] else [nl] ++ $"#endif //_" ++ m_pfx_upper p ++ $"_" ++ to_upper true h ++ $"_" ++ [nl])).
  rewrite read_app. assert (read_text cxx (within (guard_conds pragma) (guard_open cxx is_cxx)) (extern_last is_cxx) = Some (within (guard_conds pragma) [])) as ->
    by (destruct is_cxx; [reflexivity|exact (extern_ends cxx (guard_conds pragma))]).
  destruct pragma; [reflexivity|]. destruct (guard_word h p P) as (I & _ & _). unfold guard_name in I. inversion I as [|? ? _ I2]; subst. clear I.
  match goal with |- read_text _ _ (?n ++ ?e ++ ?r) = _ => replace (n ++ e ++ r) with ((n ++ e) ++ (m_pfx_upper p ++ $"_" ++ to_upper true h ++ $"_") ++ [nl]) by (now rewrite <- !app_assoc) end.
  rewrite read_app. change (read_text cxx (within (guard_conds false) []) ([nl] ++ $"#endif //_")) with (Some (mkstate LineComment (Directive []) [] [])). cbv beta iota.
  rewrite read_app, stays_line; [reflexivity|]. revert I2. apply Forall_impl. intros c Hc. destruct (ident_plain c Hc). tauto.
Qed.

(* ------------------------------------------------------------ the files *)

Definition fine_parts (cxx : bool) (e : env) (s : settings) (f o : list proto) (defs : str) (tdefs : list str) : Prop :=
  Forall plain_proto (f ++ o) /\ Forall matched_proto (f ++ o) /\ closed cxx defs /\ Forall (fun i => closed cxx ($"#include " ++ i ++ [nl])) (o_includes s) /\
  Forall (fun t => declaration_text t /\ matched t) tdefs /\ quotable (header_name s) /\
  (if o_date s then match e_date e with Some d => one_line_text d | None => True end else True).
Lemma top_closed cxx e s : (if o_date s then match e_date e with Some d => one_line_text d | None => True end else True) -> closed cxx (top_text e s (license_text (shipped TLicense))).
Proof. intros H. unfold top_text. apply closed_app; [|apply license_closed]. apply note_closed. now destruct (o_date s). Qed.
Lemma header_closed cxx e s f o defs tdefs t : usable_prefix (o_pfxs s) -> fine_parts cxx e s f o defs tdefs -> header_of e s f o defs tdefs t -> closed cxx t.
Proof.
  intros P (PF & PM & D & I & T & Q & DT) (filled & n1 & n2 & FI & ->). unfold header_text. cbv zeta.
  assert (DL : forall n, closed cxx (if o_line s then directive n (header_name s) else [])) by (intros n; destruct (o_line s); [now apply directive_closed|reflexivity]).
  apply closed_app; [now apply top_closed|]. apply closed_app; [apply DL|]. unfold middle_text, bottom_text. rewrite <- app_assoc.
  unfold closed. rewrite read_app, (guard_begins cxx _ _ _ _ P), read_app.
  set (inner := macros_text _ _ ++ _).
  assert (IC : closed cxx inner).
  { unfold inner. apply closed_app; [now apply macros_closed|]. apply closed_app; [now apply defines_closed|]. apply closed_app; [now apply includes_closed|].
    apply closed_app; [now apply typedefs_closed|]. exact (filled_closed cxx s f o _ _ P PF PM (header_sources s) FI). }
  assert (GC : counts (guard_conds (o_pragma s)) = true) by (now destruct (o_pragma s)). clearbody inner. rewrite (closed_within _ _ _ _ GC IC), read_app, (closed_within _ _ _ _ GC (DL n2)). now apply guard_ends.
Qed.
Lemma body_closed cxx e s f o defs tdefs t : usable_prefix (o_pfxs s) -> fine_parts cxx e s f o defs tdefs -> body_of e s f o t -> closed cxx t.
Proof.
  intros P (PF & PM & D & I & T & Q & DT) (filled & FI & ->). unfold body_text. destruct (usable _ P) as (U & _).
  apply closed_app; [now apply top_closed|]. apply closed_app; [now apply include_closed|]. exact (filled_closed cxx s f o _ _ P PF PM (body_sources s) FI).
Qed.

(* ------------------------------------------------------------ the macros in front *)

Lemma literal_reads cxx q n cs o d : quotable n -> q = dquote -> read_text cxx (mkstate Text (Directive d) cs o) ([q] ++ n ++ [q]) = Some (mkstate Text (Directive d) cs o).
Proof. intros Q ->. now apply quoted_reads. Qed.
Lemma macro_closed cxx u m : ident_text u -> ident_text (fst m) -> (snd m = [] \/ (ident_text (snd m) \/ exists p, snd m = quoted p /\ quotable p)) -> closed cxx (macro_line u m).
Proof.
  intros U F S. assert (E : macro_line u m = ($"#define " ++ (u ++ $"_" ++ fst m)) ++ (match snd m with [] => [] | v => $" " ++ v end) ++ [nl]) by (unfold macro_line; now rewrite <- !app_assoc).
  unfold closed. rewrite E. clear E.
  rewrite read_app. change fresh with (within [] []). rewrite define_reads by (apply Forall_app; split; [exact U|]; apply Forall_app; split; [repeat constructor|exact F]).
  destruct (snd m) as [|c v] eqn:V; [reflexivity|]. rewrite read_app. 
  assert (read_text cxx (mkstate Text (Directive []) [] []) ($" " ++ c :: v) = Some (mkstate Text (Directive []) [] [])) as ->; [|reflexivity].
  rewrite read_app. change (read_text cxx (mkstate Text (Directive []) [] []) $" ") with (Some (mkstate Text (Directive []) [] [])). cbv beta iota.
  destruct S as [S|[S|(p & -> & Q)]]; [discriminate|now apply names_read|]. now apply quoted_reads.
Qed.
Lemma ident_quotable t : ident_text t -> quotable t.
Proof.
  intros H. split; [revert H; apply Forall_impl; intros c C; destruct (ident_plain c C); tauto|]. intros I. unfold ident_text in H. rewrite Forall_forall in H. specialize (H _ I). discriminate.
Qed.
Lemma begins_ident pre n r : n = pre ++ r -> ident_text n -> ident_text pre.
Proof. intros -> H. now apply Forall_app in H. Qed.
Lemma names_matter f o pre : Forall plain_proto (f ++ o) -> begins_all pre (map p_symbol (f ++ o)) -> f ++ o <> [] -> ident_text pre.
Proof.
  intros P B N. destruct (f ++ o) as [|e l]; [now destruct N|]. inversion B as [|? ? (r & E) _]; subst. inversion P as [|? ? (_ & _ & _ & I & _) _]; subst. exact (begins_ident _ _ _ E I).
Qed.
Lemma macros_in_front_closed cxx s f o defs : usable_prefix (o_pfxs s) -> Forall plain_proto (f ++ o) -> f ++ o <> [] -> closed cxx (o_defines s) ->
  (forall lib, o_lib s <> [] -> format_libname (o_lib s) (m_pfx_upper (o_pfxs s)) = Ok lib -> closed cxx lib) -> all_defines s f o = Ok defs -> closed cxx defs.
Proof.
  intros P PF N D L A. destruct (defines_all s f o defs A) as (lib & pre & LB & B & _ & ->). destruct (usable _ P) as (U & _).
  apply closed_app; [exact D|]. apply closed_app; [destruct (separate s); [|reflexivity]; apply closed_concat; constructor; [|constructor]; apply macro_closed; auto; repeat constructor|].
  apply closed_app; [destruct (o_lib s); [now rewrite LB|now apply L]|]. apply closed_concat. cbn [map]. constructor.
  - apply macro_closed; [exact U|repeat constructor|]. right. right. exists pre. split; [reflexivity|]. exact (ident_quotable _ (names_matter _ _ _ PF B N)).
  - apply Forall_map, Forall_forall. intros m M. unfold variadic_macros in M. apply in_map_iff in M as (x & <- & X). apply filter_In in X as (X & _). apply in_map_iff in X as (e & <- & E).
    apply macro_closed; cbn [fst snd]; [exact U| |right; left; repeat constructor]. apply Forall_app. split; [repeat constructor|].
    rewrite Forall_forall in PF. apply (PF e). apply in_or_app. now left.
Qed.

(** the library's name *)
Lemma word_reads cxx x d cs o : word_text x -> read_text cxx (mkstate Text (Directive d) cs o) x = Some (mkstate Text (Directive d) cs o).
Proof.
  induction 1 as [|c x C _ IH]; [reflexivity|]. cbn [read_text]. assert (read cxx (mkstate Text (Directive d) cs o) c = Some (mkstate Text (Directive d) cs o)) as ->; [|exact IH].
  unfold word_char in C. apply orb_true_iff in C as [C|C].
  - pose proof (names_read cxx [c] d cs o (Forall_cons _ C (Forall_nil _))) as R. cbn [read_text] in R. destruct (read cxx _ c); [exact R|discriminate].
  - cbn in C. unfold read. destruct cs as [|[? ? ? [] ?] cs]; repeat (apply orb_true_iff in C as [C|C]; [apply Ascii.eqb_eq in C as ->; reflexivity|]); discriminate.
Qed.
Lemma lib_macro_closed cxx up n a : ident_text up -> ident_text n ->
  (forall d cs o, read_text cxx (mkstate Text (Directive d) cs o) a = Some (mkstate Text (Directive d) cs o)) -> closed cxx ($"#define " ++ up ++ n ++ $" " ++ a ++ [nl]).
Proof.
  intros U N A. unfold closed. replace ($"#define " ++ up ++ n ++ $" " ++ a ++ [nl]) with (($"#define " ++ (up ++ n)) ++ $" " ++ a ++ [nl]) by (now rewrite <- !app_assoc).
  rewrite read_app. change fresh with (within [] []). rewrite define_reads by (now apply Forall_app). rewrite read_app.
  change (read_text cxx (mkstate Text (Directive []) [] []) $" ") with (Some (mkstate Text (Directive []) [] [])). cbv beta iota. rewrite read_app, A. reflexivity.
Qed.
Lemma lib_macros_closed cxx up a w : ident_text up -> (forall d cs o, read_text cxx (mkstate Text (Directive d) cs o) a = Some (mkstate Text (Directive d) cs o)) ->
  (forall d cs o, read_text cxx (mkstate Text (Directive d) cs o) w = Some (mkstate Text (Directive d) cs o)) -> closed cxx (lib_macros up a w).
Proof.
  intros U A W. unfold lib_macros.
  pose proof (lib_macro_closed cxx up $"_HARDCODED_DEFAULT_LIBA" a U ltac:(repeat constructor) A) as HA.
  pose proof (lib_macro_closed cxx up $"_HARDCODED_DEFAULT_LIBW" w U ltac:(repeat constructor) W) as HW.
  pose proof (closed_app _ _ _ HA HW) as H. rewrite <- !app_assoc in H. exact H.
Qed.
Lemma narrow_reads cxx x d cs o : quotable x -> read_text cxx (mkstate Text (Directive d) cs o) (quote_lib x false) = Some (mkstate Text (Directive d) cs o).
Proof.
  intros Q. destruct (quote_narrow x) as [x (y & ->)|x _]; [|now apply quoted_reads]. destruct Q as (_ & Q). destruct Q. now left.
Qed.
Lemma wide_reads cxx x d cs o : quotable x -> read_text cxx (mkstate Text (Directive d) cs o) (quote_lib x true) = Some (mkstate Text (Directive d) cs o).
Proof.
  intros Q. assert (NQ : ~ In dquote x) by apply Q. destruct (quote_wide x) as [x (y & ->)|x (y & ->)|x _ _].
  - destruct NQ. right. now left.
  - destruct NQ. now left.
  - rewrite read_app. change (read_text cxx (mkstate Text (Directive d) cs o) $"L") with (Some (mkstate Text (Directive d) cs o)). cbv beta iota. now apply quoted_reads.
Qed.
Lemma then_reads cxx s a b : read_text cxx s a = Some s -> read_text cxx s b = Some s -> read_text cxx s (a ++ b) = Some s.
Proof. intros A B. now rewrite read_app, A. Qed.
Lemma api_reads cxx up x n k d cs o : ident_text up -> ident_text k -> word_text x -> word_text n ->
  read_text cxx (mkstate Text (Directive d) cs o) (up ++ k ++ $"(" ++ x ++ $"," ++ n ++ $")") = Some (mkstate Text (Directive d) cs o).
Proof.
  intros U K X N. apply then_reads; [now apply names_read|]. apply then_reads; [now apply names_read|].
  destruct cs as [|[e b a [] tk] cs]; (rewrite read_app; match goal with |- context[read_text cxx ?s $"("] => 
    first [change (read_text cxx s $"(") with (Some (mkstate Text (Directive d) (t_conds s) ("("%char :: o)))|change (read_text cxx s $"(") with (Some s)] end; cbv beta iota; cbn [t_conds];
    rewrite read_app, (word_reads _ _ _ _ _ X); cbv beta iota; rewrite read_app;
    match goal with |- context[read_text cxx ?s $","] => change (read_text cxx s $",") with (Some s) end; cbv beta iota; rewrite read_app, (word_reads _ _ _ _ _ N); reflexivity).
Qed.
Lemma library_closed cxx v up lib : ident_text up -> quotable v -> (forall m x, In m [$"nq:"; $"api:"] -> moded m v x -> word_text x) ->
  format_libname v up = Ok lib -> closed cxx lib.
Proof.
  intros U Q W. unfold format_libname, libname. destruct v as [|c v]; [discriminate|]. remember (c :: v) as w. clear Heqw.
  assert (QS : forall k, quotable (skipn k w)).
  { intros k. destruct Q as (Q1 & Q2). rewrite <- (firstn_skipn k w) in Q1, Q2. split; [now apply Forall_app in Q1|]. intros I. apply Q2. apply in_or_app. now right. }
  destruct (_ || _).
  { destruct (prefixed_and_longer_case w $"nq:") eqn:E; cbn [bind]; [|now intros [= <-]]. intros H. apply (f_equal (fun r => match r with Ok x => x | _ => [] end)) in H. rewrite <- H.
    assert (WX : word_text (skipn 3 w)) by (apply (W $"nq:"); [now left|]; exact (test_moded $"nq:" w E eq_refl)).
    apply (lib_macros_closed cxx up (skipn 3 w) (skipn 3 w)); [exact U|intros; now apply word_reads|intros; now apply word_reads]. }
  destruct (_ || _).
  { destruct (prefixed_and_longer_case w $"ext:") eqn:E; cbn [bind]; [|now intros [= <-]]. intros H. apply (f_equal (fun r => match r with Ok x => x | _ => [] end)) in H. rewrite <- H.
    apply lib_macros_closed; [exact U| |]; intros d cs o; (apply then_reads; [first [now apply narrow_reads|now apply wide_reads]|]);
      (apply then_reads; [reflexivity|]); apply names_read; apply Forall_app; (split; [exact U|repeat constructor]). }
  destruct (_ || _).
  { destruct (prefixed_and_longer_case w $"api:") eqn:E; cbn [bind]; [|now intros [= <-]].
    assert (WX : word_text (skipn 4 w)) by (apply (W $"api:"); [right; now left|]; exact (test_moded $"api:" w E eq_refl)).
    unfold match_api. destruct (existsb line_end (skipn 4 w)); [now intros [= <-]|]. destruct (find $":" (skipn 4 w)) as [k|]; [|now intros [= <-]]. cbn [bind].
    intros H. apply (f_equal (fun r => match r with Ok x => x | _ => [] end)) in H. rewrite <- H. remember (skipn 4 w) as z.
    assert (W1 : word_text (firstn k z)) by (rewrite <- (firstn_skipn k z) in WX; now apply Forall_app in WX).
    assert (W2 : word_text (skipn (k + 1) z)) by (rewrite <- (firstn_skipn (k + 1) z) in WX; now apply Forall_app in WX).
    apply (lib_macros_closed cxx up); [exact U| |]; intros d cs o.
    - exact (api_reads cxx up _ _ $"_LIBNAMEA" d cs o U ltac:(repeat constructor) W2 W1).
    - exact (api_reads cxx up _ _ $"_LIBNAMEW" d cs o U ltac:(repeat constructor) W2 W1). }
  cbn [bind]. intros H. apply (f_equal (fun r => match r with Ok x => x | _ => [] end)) in H. rewrite <- H.
  apply lib_macros_closed; [exact U|intros; now apply narrow_reads|intros; now apply wide_reads].
Qed.

(** a test *)
Definition reads_closed (cxx : bool) (t : str) : bool :=
  match read_text cxx fresh t with Some s => if state_dec s fresh then true else false | None => false end.
Lemma reads_closed_closed cxx t : reads_closed cxx t = true -> closed cxx t.
Proof. unfold reads_closed, closed. destruct (read_text cxx fresh t) as [s|]; [|discriminate]. destruct (state_dec s fresh) as [-> |]; [reflexivity|discriminate]. Qed.

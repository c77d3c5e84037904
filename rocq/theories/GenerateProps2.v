(** Proofs about what a run writes. *)
From Coq Require Import Ascii String List Bool Arith Lia.
From Verif Require Import Str StrFacts Parse ParamNames Prefix Substitute SpecSubstitute Data Options Generate SpecGenerate GenerateFacts GenerateProps.
Import ListNotations.

(* ------------------------------------------------------------ dumping *)

Definition dscoped (paths : list str) (fs0 : str -> option node) (w : world) : Prop :=
  scoped paths fs0 w /\ no_links (w_fs w).

Lemma add_text_links fs p t : no_links fs -> no_links (add_text fs p t).
Proof.
  intros N q x. unfold add_text. destruct (fs p) as [[c|l|b]|]; try apply N. unfold upd. destruct (str_eqb q p); [discriminate|apply N].
Qed.
Lemma dscoped_put l fs0 t : keeps (dscoped l fs0) (put t).
Proof.
  intros w [A B]. split; [now apply scoped_put|]. unfold put. destruct (w_cur w); [|exact B]. now apply add_text_links.
Qed.
Lemma dscoped_open l fs0 e p : In p l -> keeps (dscoped l fs0) (open_path e p).
Proof.
  intros P w [[A B] C]. unfold open_path.
  assert (match w_fs w p with Some (Link t) => t | _ => p end = p) as ->.
  { destruct (w_fs w p) as [[c|t|b]|] eqn:E; try reflexivity. now elim (C p t). }
  cbn [w_fs set_cur]. assert (dscoped l fs0 (set_cur None w)) as D by (split; [split; [exact A|discriminate]|exact C]).
  destruct (e_writable e p); [|exact D].
  assert (dscoped l fs0 (set_cur (Some p) (set_fs (upd (w_fs w) p (Some (Regular []))) (set_cur None w)))) as G.
  { split; [split|].
    - intros q Q. cbn. rewrite upd_other; [now apply A|]. intros ->. contradiction.
    - intros q Q. cbn in Q. now injection Q as <-.
    - intros q x. cbn. unfold upd. destruct (str_eqb q p); [discriminate|apply C]. }
  destruct (w_fs w p) as [[c|t|b]|]; cbn [fst]; assumption.
Qed.
Lemma dscoped_ext l fs0 : forall w w', w_fs w' = w_fs w -> w_cur w' = w_cur w -> dscoped l fs0 w -> dscoped l fs0 w'.
Proof. intros w w' A B [[C D] E]. unfold dscoped, scoped. rewrite A, B. now repeat split. Qed.

Theorem dump_scope e dir fs out w' r : no_links fs ->
  dump_templates e dir (mkworld fs out None (fun _ => []) (fun _ => 0) PBuiltin) = (w', r) -> same_except (dump_files dir) fs (w_fs w').
Proof.
  intros N E. apply (f_equal fst) in E. cbn [fst] in E. subst w'.
  assert (keeps (dscoped (dump_files dir) fs) (dump_templates e dir)) as K.
  { unfold dump_templates. apply keeps_seq.
    - intros w [[A B] C]. destruct (w_fs w dir); [now repeat split|]. destruct (e_mkdir e dir); [|now repeat split]. split; [split|].
      + intros q Q. cbn. rewrite upd_other; [now apply A|]. intros ->. apply Q. now left.
      + exact B.
      + intros q x. cbn. unfold upd. destruct (str_eqb q dir); [discriminate|apply C].
    - intros _. assert (forall ts, incl ts all_templates -> keeps (dscoped (dump_files dir) fs) (save_templates e dir ts)) as L.
      { induction ts as [|t ts IH]; intros S; [apply keeps_ret|]. cbn [save_templates]. apply keeps_seq.
        - unfold save_template. cbv zeta. apply keeps_seq.
          + apply dscoped_open. right. apply (in_map (fun t => append_missing_separator dir ++ tfile t)). apply S. now left.
          + intros [|]; [|apply keeps_throw]. apply keeps_seq; [apply keeps_print, dscoped_ext|intros _].
            apply keeps_seq; [apply keeps_get|intros p]. apply keeps_seq; [apply keeps_deref|intros es].
            apply keeps_seq; [apply keeps_lift|intros t0]. apply keeps_seq; [apply dscoped_put|intros _].
            intros w [[A B] C]. split; [split; [exact A|discriminate]|exact C].
        - intros _. apply IH. intros x X. apply S. now right. }
      apply L. apply incl_refl. }
  apply K. split; [split; [intros p _; reflexivity|discriminate]|exact N].
Qed.

(* ------------------------------------------------------------ an existing output *)

Lemma lists_builtin e s w : o_tpath s = [] -> (forall t, w_ptr w t = PBuiltin t) ->
  create_template_lists e s (separate s) w = (w, Ret (map PBuiltin (header_templates s), map PBuiltin (body_templates s))).
Proof.
  intros T P. assert (forall t w0, load_template e s t w0 = (w0, Ret tt)) as L by (intros; unfold load_template; now rewrite T).
  unfold create_template_lists, header_templates, body_templates, two_sources, one_source, concat_sources, seq, get_ptr, ret.
  destruct (o_format s); rewrite ?L, ?P; cbn [format_sources]; destruct (separate s); rewrite ?L, ?P; reflexivity.
Qed.

Theorem existing_output e s f o t i fs out defs p :
  o_print s = false -> o_template s = [] -> o_force s = false -> o_tpath s = [] -> str_eqb (o_output s) $"-" = false -> p = header_path s ->
  str_eqb p [] || str_eqb p $"-" = false ->
  all_defines s f o = Ok defs -> fs p <> None ->
  let w := mkworld fs out None (fun _ => []) (fun _ => 0) PBuiltin in
  run e s f o t i w = (w, Throw ($"file already exists: " ++ p)).
Proof.
  intros P T F TP O -> H D X w. unfold run. rewrite P, T. unfold generate, seq, lift. rewrite D.
  rewrite lists_builtin by (exact TP || reflexivity). cbn [fst snd]. unfold write_header. cbv zeta. unfold seq at 1.
  destruct (open_ofstream_world e (header_path s) (o_force s) w H) as (_ & E & _). rewrite E by assumption. reflexivity.
Qed.

(* ------------------------------------------------------------ what is written *)

(** [w'] is [w] with [t] written *)
Definition wrote (w : world) (t : str) (w' : world) : Prop :=
  w_cur w' = w_cur w /\ w_ptr w' = w_ptr w /\
  match w_cur w with
  | None => w_fs w' = w_fs w /\ w_out w' = w_out w ++ t
  | Some p => w_out w' = w_out w /\ (forall q, q <> p -> w_fs w' q = w_fs w q) /\
              exists c, w_fs w p = Some (Regular c) /\ w_fs w' p = Some (Regular (c ++ t))
  end.
Definition ready (w : world) : Prop :=
  (forall t, w_ptr w t = PBuiltin t) /\ match w_cur w with None => True | Some p => exists c, w_fs w p = Some (Regular c) end.
Definition writes {A} (m : M A) (t : str) (a : A) : Prop := forall w, ready w -> exists w', m w = (w', Ret a) /\ wrote w t w'.

Lemma wrote_ready w t w' : ready w -> wrote w t w' -> ready w'.
Proof.
  intros [P C] (E & F & G). unfold ready. rewrite E, F. split; [exact P|]. destruct (w_cur w) as [p|]; [|easy].
  destruct G as (_ & _ & c & _ & H). eauto.
Qed.
Lemma wrote_refl w : ready w -> wrote w [] w.
Proof.
  intros [P C]. unfold wrote. split; [reflexivity|]. split; [reflexivity|]. destruct (w_cur w) as [p|].
  - split; [reflexivity|]. split; [reflexivity|]. destruct C as [c C]. exists c. now rewrite app_nil_r.
  - now rewrite app_nil_r.
Qed.
Lemma wrote_trans w t w1 u w2 : wrote w t w1 -> wrote w1 u w2 -> wrote w (t ++ u) w2.
Proof.
  intros (E & F & G) (E' & F' & G'). unfold wrote. split; [congruence|]. split; [congruence|]. rewrite E in G'.
  destruct (w_cur w) as [p|].
  - destruct G as (A & B & c & C & D), G' as (A' & B' & c' & C' & D'). split; [congruence|]. split.
    + intros q Q. now rewrite B', B.
    + exists c. split; [exact C|]. rewrite D in C'. injection C' as <-. now rewrite D', app_assoc.
  - destruct G as (A & B), G' as (A' & B'). split; [congruence|]. now rewrite B', B, app_assoc.
Qed.
Lemma writes_seq {A B} (m : M A) (k : A -> M B) t a u b : writes m t a -> writes (k a) u b -> writes (seq m k) (t ++ u) b.
Proof.
  intros H K w R. destruct (H w R) as (w1 & E & W). destruct (K w1 (wrote_ready _ _ _ R W)) as (w2 & E' & W').
  exists w2. unfold seq. rewrite E. split; [exact E'|]. eapply wrote_trans; eauto.
Qed.
Lemma writes_ret {A} (a : A) : writes (ret a) [] a.
Proof. intros w R. exists w. split; [reflexivity|now apply wrote_refl]. Qed.
(** steps that write nothing *)
Lemma writes_quiet {A B} (m : M A) (k : A -> M B) a u b : (forall w, ready w -> m w = (w, Ret a)) -> writes (k a) u b -> writes (seq m k) u b.
Proof.
  intros H K w R. unfold seq. rewrite (H w R). now apply K.
Qed.
Lemma writes_put t : writes (put t) t tt.
Proof.
  intros w [P C]. unfold put. eexists. split; [reflexivity|]. unfold wrote. destruct (w_cur w) as [p|] eqn:E; cbn.
  - rewrite E. split; [reflexivity|]. split; [reflexivity|]. split; [reflexivity|]. split; [intros q Q; now apply add_text_other|].
    destruct C as [c C]. exists c. split; [exact C|]. unfold add_text. rewrite C. apply upd_same.
  - repeat split.
Qed.
Lemma writes_then_ret {A B} (m : M A) t a (b : B) : writes m t a -> writes (seq m (fun _ => ret b)) t b.
Proof. intros H. rewrite <- (app_nil_r t). apply (writes_seq m _ t a [] b H (writes_ret b)). Qed.
Lemma writes_count t : writes (put_count t) t (count_linefeed t).
Proof. unfold put_count. rewrite <- (app_nil_r t) at 2. eapply writes_seq; [apply writes_put|apply writes_ret]. Qed.

Lemma save_plain s l t : plain_template (config_of s [] []) l t -> save_entries s (template_start (config_of s [] []) l) = Ok t.
Proof.
  intros (es & F & -> & H).
  assert (save_entries s (es ++ [mkentry [] false 0]) = Ok (plain_text (config_of s [] []) es)) as G.
  { clear H. induction F as [|x es X F IH]; [reflexivity|]. cbn [app save_entries]. apply Nat.eqb_neq in X. rewrite X, IH. cbn [bind].
    unfold plain_text. cbn [map concat]. unfold line_data at 2. cbn [c_pfx config_of]. now rewrite <- app_assoc. }
  destruct H as [(d & -> & S & L)|(-> & H)].
  - cbn [template_start]. rewrite L, S. exact G.
  - rewrite <- G. f_equal. destruct (es ++ [mkentry [] false 0]) as [|d r] eqn:E; [reflexivity|]. cbn [template_start].
    destruct (c_line (config_of s [] [])); [reflexivity|]. now rewrite (H eq_refl d r eq_refl).
Qed.

Section Layout.
Variable e : env.
Variable s : settings.
Hypothesis NoPath : o_tpath s = [].
Let c0 := config_of s [] [].

Lemma writes_save t x : plain_template c0 (e_builtin e t) x -> writes (save_data e s t (PBuiltin t)) x (count_linefeed x).
Proof.
  intros H. unfold save_data. eapply writes_quiet; [intros w _; unfold load_template; rewrite NoPath; reflexivity|].
  eapply writes_quiet; [intros w _; reflexivity|]. eapply writes_quiet; [intros w _; unfold lift; rewrite (save_plain _ _ _ H); reflexivity|].
  apply writes_count.
Qed.
Lemma deref_builtin ts w : deref_all e (map PBuiltin ts) w = (w, Ret (map (e_builtin e) ts)).
Proof.
  induction ts as [|t ts IH]; [reflexivity|]. cbn [map deref_all]. unfold seq at 1. cbn [deref]. unfold seq at 1. rewrite IH. reflexivity.
Qed.
Lemma writes_subst f o ts ws n : substitute (config_of s f o) (map (e_builtin e) ts) = Ok (ws, n) ->
  writes (m_substitute e s f o (map PBuiltin ts)) (output ws) n.
Proof.
  intros H. unfold m_substitute. eapply writes_quiet; [intros w _; apply deref_builtin|].
  eapply writes_quiet; [intros w _; unfold lift; rewrite H; reflexivity|]. cbn [fst snd].
  exact (writes_then_ret _ _ _ _ (writes_put _)).
Qed.
Definition line_text (n : nat) : str := if o_line s then directive n (header_name s) else [].
Lemma writes_line n : writes (put_line s n) (line_text (n + 2)) (if o_line s then 1 else 0).
Proof.
  unfold put_line, line_text. destruct (o_line s); [|apply writes_ret].
  exact (writes_then_ret _ _ _ _ (writes_put _)).
Qed.

(** opening *)
Lemma opens p w : creatable e s (w_fs w) p -> str_eqb p [] || str_eqb p $"-" = false ->
  exists w', open_ofstream e p (o_force s) w = (w', Ret tt) /\ w_cur w' = Some p /\ w_out w' = w_out w /\ w_ptr w' = w_ptr w /\
  w_fs w' p = Some (Regular []) /\ forall q, q <> p -> w_fs w' q = w_fs w q.
Proof.
  intros [W C] H. unfold open_ofstream. rewrite H. unfold seq.
  assert (exists w1, (if o_force s then remove_path e p else ret tt) w = (w1, Ret tt) /\ w_fs w1 p = None /\ w_out w1 = w_out w /\
            w_ptr w1 = w_ptr w /\ forall q, q <> p -> w_fs w1 q = w_fs w q) as (w1 & -> & N & O & P & Q).
  { destruct C as [N|(F & R & n & E & D)].
    - exists w. split; [|easy]. destruct (o_force s); [|reflexivity]. unfold remove_path. now rewrite N.
    - exists (set_fs (upd (w_fs w) p None) w). rewrite F. unfold remove_path. rewrite E, R. split.
      + destruct n as [t|t|[]]; easy.
      + split; [apply upd_same|]. split; [reflexivity|]. split; [reflexivity|]. intros q X. now apply upd_other. }
  rewrite N. cbv beta iota. rewrite (opens_absent e p w1 N), W. cbv beta iota.
  eexists. split; [reflexivity|]. cbn. split; [reflexivity|]. split; [exact O|]. split; [exact P|]. split; [apply upd_same|].
  intros q X. rewrite upd_other by exact X. now apply Q.
Qed.

Variables (f o : list proto) (tdefs : list str) (lic fm defs : str).
Hypothesis Lic : plain_template c0 (e_builtin e TLicense) lic.
Hypothesis Fm : plain_template c0 (e_builtin e TFilenameMacros) fm.

(** what follows the opening *)
Definition header_rest (header : list tptr) : M unit :=
  n1 <~ put_count (note_text (date_of e s)) ;;
  pl <~ get_ptr TLicense ;;
  n2 <~ save_data e s TLicense pl ;;
  n3 <~ put_line s (n1 + n2) ;;
  n4 <~ put_count (guard_begin_text (header_name s) (m_pfx_upper (o_pfxs s)) (o_pragma s) (is_cxx s)) ;;
  pf <~ get_ptr TFilenameMacros ;;
  n5 <~ save_data e s TFilenameMacros pf ;;
  n6 <~ put_count (defines_text defs) ;;
  n7 <~ put_count (includes_text (o_includes s) (is_cxx s)) ;;
  n8 <~ put_count (typedefs_text tdefs) ;;
  n9 <~ m_substitute e s f o header ;;
  _ <~ put_line s (n1 + n2 + n3 + n4 + n5 + n6 + n7 + n8 + n9) ;;
  put (guard_end_text (header_name s) (m_pfx_upper (o_pfxs s)) (o_pragma s) (is_cxx s)).

Lemma count_app a b : count_linefeed (a ++ b) = count_linefeed a + count_linefeed b.
Proof. unfold count_linefeed. now rewrite filter_app, app_length. Qed.

Lemma header_rest_writes ts ws n : substitute (config_of s f o) (map (e_builtin e) ts) = Ok (ws, n) ->
  writes (header_rest (map PBuiltin ts))
    (header_text s (top_text e s lic) (middle_text s fm defs tdefs (output ws)) (next_line (top_text e s lic) + 1)
       (second_number s (top_text e s lic) (pre_text s tdefs fm defs) n)) tt.
Proof.
  intros H. unfold header_rest.
  set (N := note_text (date_of e s)). set (G := guard_begin_text _ _ _ _). set (D := defines_text defs).
  set (I := includes_text _ _). set (T := typedefs_text tdefs). set (E := guard_end_text _ _ _ _).
  assert (header_text s (top_text e s lic) (middle_text s fm defs tdefs (output ws)) (next_line (top_text e s lic) + 1)
       (second_number s (top_text e s lic) (pre_text s tdefs fm defs) n) =
     N ++ lic ++ line_text (count_linefeed N + count_linefeed lic + 2) ++ G ++ fm ++ D ++ I ++ T ++ output ws ++
     line_text (count_linefeed N + count_linefeed lic + (if o_line s then 1 else 0) + count_linefeed G + count_linefeed fm +
                count_linefeed D + count_linefeed I + count_linefeed T + n + 2) ++ E) as ->.
  { unfold header_text, bottom_text. cbv zeta. unfold line_text, second_number, pre_text, middle_text, top_text, next_line.
    unfold date_of in N. fold N G D I T E. rewrite app_nil_r, !count_app, <- !app_assoc.
    replace (count_linefeed N + count_linefeed lic + 1 + 1) with (count_linefeed N + count_linefeed lic + 2) by lia.
    replace (count_linefeed N + count_linefeed lic + (if o_line s then 1 else 0) +
      (count_linefeed G + (count_linefeed fm + (count_linefeed D + (count_linefeed I + count_linefeed T)))) + n + 2) with
      (count_linefeed N + count_linefeed lic + (if o_line s then 1 else 0) + count_linefeed G + count_linefeed fm +
                count_linefeed D + count_linefeed I + count_linefeed T + n + 2) by lia. reflexivity. }
  eapply writes_seq; [apply writes_count|].
  eapply writes_quiet; [intros w [P _]; unfold get_ptr; rewrite P; reflexivity|].
  eapply writes_seq; [apply writes_save, Lic|].
  eapply writes_seq; [apply writes_line|].
  eapply writes_seq; [apply writes_count|].
  eapply writes_quiet; [intros w [P _]; unfold get_ptr; rewrite P; reflexivity|].
  eapply writes_seq; [apply writes_save, Fm|].
  eapply writes_seq; [apply writes_count|].
  eapply writes_seq; [apply writes_count|].
  eapply writes_seq; [apply writes_count|].
  eapply writes_seq; [apply writes_subst, H|].
  eapply writes_seq; [apply writes_line|]. apply writes_put.
Qed.

Definition body_rest (body : list tptr) : M unit :=
  _ <~ put (note_text (date_of e s)) ;;
  pl <~ get_ptr TLicense ;;
  _ <~ save_data e s TLicense pl ;;
  _ <~ put (include_header_text (header_name s) (m_pfx_upper (o_pfxs s))) ;;
  _ <~ m_substitute e s f o body ;;
  ret tt.
Lemma body_rest_writes ts ws n : substitute (config_of s f o) (map (e_builtin e) ts) = Ok (ws, n) ->
  writes (body_rest (map PBuiltin ts)) (body_text e s lic (output ws)) tt.
Proof.
  intros H. unfold body_rest, body_text, top_text. fold (date_of e s). rewrite <- app_assoc.
  eapply writes_seq; [apply writes_put|].
  eapply writes_quiet; [intros w [P _]; unfold get_ptr; rewrite P; reflexivity|].
  eapply writes_seq; [apply writes_save, Lic|].
  eapply writes_seq; [apply writes_put|].
  exact (writes_then_ret _ _ _ _ (writes_subst _ _ _ _ _ H)).
Qed.

(** regrouping the steps of write_header and write_body *)
Lemma seq_assoc {A B C} (m : M A) (k : A -> M B) (l : B -> M C) w : seq (seq m k) l w = seq m (fun a => seq (k a) l) w.
Proof. unfold seq. destruct (m w) as [w' [a|x| | |]]; reflexivity. Qed.
Lemma seq_ext {A B} (m : M A) (k k' : A -> M B) w : (forall a w, k a w = k' a w) -> seq m k w = seq m k' w.
Proof. intros H. unfold seq. destruct (m w) as [w' [a|x| | |]]; auto. Qed.
Lemma header_regroup h w : write_header e s f o tdefs defs h w =
  seq (open_ofstream e (header_path s) (o_force s)) (fun _ => seq (header_rest h) (fun _ => close)) w.
Proof.
  unfold write_header, header_rest. cbv zeta. apply seq_ext. intros _ w1.
  repeat (rewrite seq_assoc; apply seq_ext; intros ? ?). reflexivity.
Qed.
Lemma body_regroup p b w : write_body e s f o (p :: b) w =
  seq (open_ofstream e (body_path s) (o_force s)) (fun _ => body_rest (p :: b)) w.
Proof. reflexivity. Qed.
End Layout.

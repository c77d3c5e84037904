(** Proofs about a whole run with templates read from a directory. *)
From Coq Require Import Ascii String List Bool Arith NArith Lia.
From Verif Require Import Str StrFacts NumFacts Parse ParamNames Prefix Substitute SpecSubstitute Data Options Generate SpecGenerate GenerateFacts GenerateProps GenerateProps2 GenerateProps3 GenerateProps4.
Import ListNotations.

Lemma open_templates e p b w w' : open_ofstream e p b w = (w', Ret tt) -> (w_data w', w_gen w', w_ptr w') = (w_data w, w_gen w, w_ptr w).
Proof.
  unfold open_ofstream. destruct (str_eqb p [] || str_eqb p $"-"); [intros E; unfold close in E; injection E as <-; reflexivity|].
  unfold seq. assert (forall w1 r, (if b then remove_path e p else ret tt) w = (w1, r) -> (w_data w1, w_gen w1, w_ptr w1) = (w_data w, w_gen w, w_ptr w)) as R.
  { intros w1 r. destruct b; [|intros E; injection E as <- _; reflexivity]. unfold remove_path.
    destruct (w_fs w p) as [[c|t|[]]|]; try destruct (e_removable e p); intros E; injection E as <- _; reflexivity. }
  destruct ((if b then remove_path e p else ret tt) w) as [w1 [u|x| | |]] eqn:E1; try discriminate. specialize (R _ _ eq_refl).
  destruct (w_fs w1 p); [discriminate|]. unfold open_path. cbv zeta.
  set (q := match w_fs w1 p with Some (Link t) => t | _ => p end). destruct (e_writable e q); [|discriminate].
  cbn [w_fs set_cur]. destruct (w_fs w1 q) as [[c|t|d]|]; try discriminate; intros E; injection E as <-; exact R.
Qed.

(** the world after a template was read *)
Definition loaded (t : tname) (l : list entry) (w : world) : world :=
  let g := w_gen w t + 1 in
  mkworld (w_fs w) (w_out w) (w_cur w) (updt (w_data w) t l) (updt (w_gen w) t g) (updt (w_ptr w) t (PData t g)).

Section Directory.
Variables (e : env) (s : settings) (text : tname -> str) (L : tname -> list entry).
Hypothesis Tpath : o_tpath s <> [].

Lemma load_ok t w : e_readable e (o_tpath s ++ tfile t) = true -> w_fs w (o_tpath s ++ tfile t) = Some (Regular (text t)) ->
  load_from_file [] (tfile t) (o_line s) (text t) = Ok (L t) -> w_data w t = [] -> load_template e s t w = (loaded t (L t) w, Ret tt).
Proof.
  intros R F O D. unfold load_template. destruct (o_tpath s) as [|c d] eqn:E; [easy|]. unfold seq, read_file. rewrite R, F, D, O. reflexivity.
Qed.

Definition good (fs : str -> option node) (p : tptr) (l : list entry) (w : world) : Prop :=
  exists t, p = PData t (w_gen w t) /\ w_data w t = l /\ In t (format_sources (o_format s)).
Lemma lists_read fs out : holds_templates e s text L fs (format_sources (o_format s)) -> separate s = false ->
  let w0 := mkworld fs out None (fun _ => []) (fun _ => 0) PBuiltin in
  exists w hp, create_template_lists e s (separate s) w0 = (w, Ret (hp, [])) /\ Forall2 (fun p l => good fs p l w) hp (map L (format_sources (o_format s))) /\
    w_fs w = fs /\ w_out w = out /\ w_cur w = None /\
    forall t, In t [TLicense; TFilenameMacros] -> w_data w t = [] /\ w_ptr w t = PBuiltin t.
Proof.
  intros H S w0. unfold create_template_lists. rewrite S. unfold good.
  destruct (o_format s) eqn:F; cbn [format_sources] in H |- *; unfold two_sources, one_source, concat_sources, seq, get_ptr, ret;
  repeat (erewrite load_ok; [|eapply H; cbn; tauto|eapply H; cbn; tauto|eapply H; cbn; tauto|reflexivity]);
  (eexists; eexists; split; [reflexivity|]; split; [|cbn; repeat split; (destruct H0 as [<-|[<-|[]]]; reflexivity)]);
  cbn [map]; repeat (constructor;
    [match goal with |- exists t, w_ptr _ ?T = _ /\ _ => exists T; split; [reflexivity|split; [reflexivity|cbn; tauto]] end|]); constructor.
Qed.

(** writing while the templates stay where they are: [P] is the file written to *)
Variable P : str.
Hypothesis Apart : forall t, o_tpath s ++ tfile t <> P.
Record base (fs : str -> option node) (c : str) (w : world) : Prop := {
  b_cur : w_cur w = Some P;
  b_file : w_fs w P = Some (Regular c);
  b_rest : forall q, q <> P -> w_fs w q = fs q
}.
Definition tpl (w : world) := (w_data w, w_gen w, w_ptr w).
Definition does {A} fs (J : world -> Prop) (m : M A) (t : str) (a : A) (J' : world -> Prop) : Prop :=
  forall c w, base fs c w -> J w -> exists w', m w = (w', Ret a) /\ base fs (c ++ t) w' /\ w_out w' = w_out w /\ J' w'.
Definition stable (J : world -> Prop) : Prop := forall w w', tpl w' = tpl w -> J w -> J w'.

Lemma does_seq {A B} fs J (m : M A) (k : A -> M B) t a J1 u b J2 : does fs J m t a J1 -> does fs J1 (k a) u b J2 -> does fs J (seq m k) (t ++ u) b J2.
Proof.
  intros H K c w W Jw. destruct (H c w W Jw) as (w1 & E & W1 & O1 & Jw1). destruct (K _ w1 W1 Jw1) as (w2 & E2 & W2 & O2 & Jw2).
  exists w2. unfold seq. rewrite E. split; [exact E2|]. rewrite app_assoc. split; [exact W2|]. split; [congruence|exact Jw2].
Qed.
Lemma does_ret {A} fs J (a : A) : does fs J (ret a) [] a J.
Proof. intros c w W Jw. exists w. rewrite app_nil_r. now repeat (split; [easy|]). Qed.
Lemma does_quiet {A B} fs (J : world -> Prop) (m : M A) (k : A -> M B) a J1 u b J2 : (forall c w, base fs c w -> J w -> exists w', m w = (w', Ret a) /\ base fs c w' /\ w_out w' = w_out w /\ J1 w') ->
  does fs J1 (k a) u b J2 -> does fs J (seq m k) u b J2.
Proof. intros H K. change u with ([] ++ u). apply (does_seq fs J m k [] a J1 u b J2); [|exact K]. intros c w W Jw. rewrite app_nil_r. now apply H. Qed.
Lemma does_put fs J t : stable J -> does fs J (put t) t tt J.
Proof.
  intros S c w [C F R] Jw. unfold put. rewrite C. eexists. split; [reflexivity|]. split; [|split; [reflexivity|]].
  - constructor; cbn.
    + exact C.
    + unfold add_text. rewrite F. apply upd_same.
    + intros q Q. rewrite add_text_other by exact Q. now apply R.
  - eapply S; [|exact Jw]. reflexivity.
Qed.
Lemma does_then_ret {A B} fs J (m : M A) t a J1 (b : B) : does fs J m t a J1 -> does fs J (seq m (fun _ => ret b)) t b J1.
Proof. intros H. rewrite <- (app_nil_r t). exact (does_seq fs J m _ t a J1 [] b J1 H (does_ret fs J1 b)). Qed.
Lemma does_count fs J t : stable J -> does fs J (put_count t) t (count_linefeed t) J.
Proof. intros S. apply does_then_ret with (a := tt). now apply does_put. Qed.
Lemma does_line fs J n : stable J -> does fs J (put_line s n) (line_text s (n + 2)) (if o_line s then 1 else 0) J.
Proof. intros S. unfold put_line, line_text. destruct (o_line s); [|apply does_ret]. apply does_then_ret with (a := tt). now apply does_put. Qed.

Variable fs0 : str -> option node.
Hypothesis Held : holds_templates e s text L fs0 (TLicense :: TFilenameMacros :: format_sources (o_format s)).

(** the pointers of the header lead to what was read *)
Definition led (hp : list tptr) (w : world) : Prop :=
  Forall2 (fun p l => good fs0 p l w) hp (map L (format_sources (o_format s))).
Definition fresh (t : tname) (w : world) : Prop := w_data w t = [] /\ w_ptr w t = PBuiltin t.
Lemma led_stable hp : stable (led hp).
Proof. intros w w' E H. unfold tpl in E. injection E as E1 E2 E3. unfold led, good in *. now rewrite E1, E2. Qed.
Lemma and_stable J J' : stable J -> stable J' -> stable (fun w => J w /\ J' w).
Proof. intros A B w w' E [C D]. split; [eapply A|eapply B]; eauto. Qed.
Lemma fresh_stable t : stable (fresh t).
Proof. intros w w' E H. unfold tpl in E. injection E as E1 E2 E3. unfold fresh in *. now rewrite E1, E3. Qed.
Lemma led_loaded hp t l w : ~ In t (format_sources (o_format s)) -> led hp w -> led hp (loaded t l w).
Proof.
  intros N H. unfold led in *. induction H as [|p l0 ps ls G H IH]; constructor; [|exact IH].
  destruct G as (t0 & E & D & I). exists t0. unfold loaded. cbn. unfold updt.
  assert (tname_eqb t0 t = false) as X. { destruct (tname_eqb t0 t) eqn:X; [|reflexivity]. elim N. assert (t0 = t) as <- by (destruct t0, t; (reflexivity || discriminate X)). exact I. }
  rewrite X. now repeat split.
Qed.
Lemma not_a_source t : t = TLicense \/ t = TFilenameMacros -> ~ In t (format_sources (o_format s)).
Proof. intros [->| ->] K; destruct (o_format s); cbn in K; repeat (destruct K as [K|K]; [discriminate K|]); exact K. Qed.

(** saving: the compiled-in template is what is written, although the one of the directory was read *)
Lemma does_save t x (J J' : world -> Prop) : In t (TLicense :: TFilenameMacros :: format_sources (o_format s)) ->
  plain_template (config_of s [] []) (e_builtin e t) x -> (forall w, J w -> fresh t w) -> (forall w, J w -> J' (loaded t (L t) w)) -> stable J' ->
  does fs0 J (save_data e s t (PBuiltin t)) x (count_linefeed x) J'.
Proof.
  intros In_t Pl Fr JJ St. unfold save_data. eapply (does_quiet fs0 J _ _ tt J').
  { intros c w W Jw. destruct (Held t In_t) as (R & F & O). exists (loaded t (L t) w). split.
    - apply load_ok; [exact R| |exact O|apply (Fr w Jw)]. rewrite (b_rest _ _ _ W) by apply Apart. exact F.
    - split; [destruct W as [W1 W2 W3]; constructor; [exact W1|exact W2|exact W3]|]. split; [reflexivity|]. now apply JJ. }
  eapply (does_quiet fs0 J' _ _ (e_builtin e t) J'); [intros c w W Jw; exists w; repeat (split; [easy|]); exact Jw|].
  eapply (does_quiet fs0 J' _ _ x J').
  { intros c w W Jw. exists w. unfold lift. rewrite (save_plain s (e_builtin e t) x Pl). repeat (split; [easy|]); exact Jw. }
  now apply does_count.
Qed.
Lemma deref_led hp w : led hp w -> deref_all e hp w = (w, Ret (map L (format_sources (o_format s)))).
Proof.
  unfold led. intros H. induction H as [|p l ps ls G H IH]; [reflexivity|]. cbn [deref_all]. destruct G as (t & -> & D & _).
  unfold seq at 1, deref at 1. rewrite Nat.eqb_refl. unfold seq at 1. rewrite IH, D. reflexivity.
Qed.
Lemma does_subst f o hp ws n : substitute (config_of s f o) (map L (format_sources (o_format s))) = Ok (ws, n) ->
  does fs0 (led hp) (m_substitute e s f o hp) (output ws) n (led hp).
Proof.
  intros H. unfold m_substitute. eapply does_quiet; [intros c w W Jw; exists w; rewrite (deref_led _ _ Jw); repeat (split; [easy|]); exact Jw|].
  eapply does_quiet; [intros c w W Jw; exists w; unfold lift; rewrite H; repeat (split; [easy|]); exact Jw|]. cbn [fst snd].
  eapply does_then_ret. apply does_put, led_stable.
Qed.

Variables (f o : list proto) (tdefs : list str) (lic fm defs : str).
Hypothesis Lic : plain_template (config_of s [] []) (e_builtin e TLicense) lic.
Hypothesis Fm : plain_template (config_of s [] []) (e_builtin e TFilenameMacros) fm.
Let J0 hp w := (led hp w /\ fresh TFilenameMacros w) /\ fresh TLicense w.
Let J1 hp w := led hp w /\ fresh TFilenameMacros w.
Lemma J1_stable hp : stable (J1 hp).
Proof. apply and_stable; [apply led_stable|apply fresh_stable]. Qed.
Lemma J0_stable hp : stable (J0 hp).
Proof. apply and_stable; [apply J1_stable|apply fresh_stable]. Qed.

Lemma header_does hp ws n : substitute (config_of s f o) (map L (format_sources (o_format s))) = Ok (ws, n) ->
  does fs0 (J0 hp) (header_rest e s f o tdefs defs hp)
    (header_text s (top_text e s lic) (middle_text s fm defs tdefs (output ws)) (next_line (top_text e s lic) + 1)
       (second_number s (top_text e s lic) (pre_text s tdefs fm defs) n)) tt (led hp).
Proof.
  intros H. unfold header_rest.
  set (N := note_text (date_of e s)). set (G := guard_begin_text _ _ _ _). set (D := defines_text defs).
  set (I := includes_text _ _). set (T := typedefs_text tdefs). set (E := guard_end_text _ _ _ _).
  assert (header_text s (top_text e s lic) (middle_text s fm defs tdefs (output ws)) (next_line (top_text e s lic) + 1)
       (second_number s (top_text e s lic) (pre_text s tdefs fm defs) n) =
     N ++ lic ++ line_text s (count_linefeed N + count_linefeed lic + 2) ++ G ++ fm ++ D ++ I ++ T ++ output ws ++
     line_text s (count_linefeed N + count_linefeed lic + (if o_line s then 1 else 0) + count_linefeed G + count_linefeed fm +
                count_linefeed D + count_linefeed I + count_linefeed T + n + 2) ++ E) as ->.
  { unfold header_text, bottom_text. cbv zeta. unfold line_text, second_number, pre_text, middle_text, top_text, next_line.
    unfold date_of in N. fold N G D I T E. rewrite app_nil_r, !count_app, <- !app_assoc.
    replace (count_linefeed N + count_linefeed lic + 1 + 1) with (count_linefeed N + count_linefeed lic + 2) by lia.
    replace (count_linefeed N + count_linefeed lic + (if o_line s then 1 else 0) +
      (count_linefeed G + (count_linefeed fm + (count_linefeed D + (count_linefeed I + count_linefeed T)))) + n + 2) with
      (count_linefeed N + count_linefeed lic + (if o_line s then 1 else 0) + count_linefeed G + count_linefeed fm +
                count_linefeed D + count_linefeed I + count_linefeed T + n + 2) by lia. reflexivity. }
  eapply does_seq; [apply does_count, J0_stable|].
  eapply (does_quiet fs0 (J0 hp) _ _ (PBuiltin TLicense) (J0 hp)).
  { intros c w W Jw. exists w. unfold get_ptr. rewrite (proj2 (proj2 Jw)). repeat (split; [easy|]); exact Jw. }
  eapply does_seq; [apply (does_save TLicense lic (J0 hp) (J1 hp)); [now left|exact Lic|intros w Jw; apply Jw| |apply J1_stable]|].
  { intros w [[A B] _]. split; [apply led_loaded; [apply not_a_source; now left|exact A]|exact B]. }
  eapply does_seq; [apply does_line, J1_stable|].
  eapply does_seq; [apply does_count, J1_stable|].
  eapply (does_quiet fs0 (J1 hp) _ _ (PBuiltin TFilenameMacros) (J1 hp)).
  { intros c w W Jw. exists w. unfold get_ptr. rewrite (proj2 (proj2 Jw)). repeat (split; [easy|]); exact Jw. }
  eapply does_seq; [apply (does_save TFilenameMacros fm (J1 hp) (led hp)); [right; now left|exact Fm|intros w Jw; apply Jw| |apply led_stable]|].
  { intros w [A _]. apply led_loaded; [apply not_a_source; now right|exact A]. }
  eapply does_seq; [apply does_count, led_stable|].
  eapply does_seq; [apply does_count, led_stable|].
  eapply does_seq; [apply does_count, led_stable|].
  eapply does_seq; [apply does_subst, H|].
  eapply does_seq; [apply does_line, led_stable|]. apply does_put, led_stable.
Qed.
End Directory.

Theorem directory_layout e s text L f o tdefs i fs out lic fm defs ws n :
  o_print s = false -> o_template s = [] -> o_tpath s <> [] -> separate s = false -> to_stdout s = false -> o_output s <> [] ->
  (forall t, o_tpath s ++ tfile t <> o_output s) ->
  holds_templates e s text L fs (TLicense :: TFilenameMacros :: format_sources (o_format s)) ->
  plain_template (config_of s [] []) (e_builtin e TLicense) lic -> plain_template (config_of s [] []) (e_builtin e TFilenameMacros) fm ->
  all_defines s f o = Ok defs -> substitute (config_of s f o) (map L (format_sources (o_format s))) = Ok (ws, n) ->
  creatable e s fs (o_output s) ->
  exists w', run e s f o tdefs i (mkworld fs out None (fun _ => []) (fun _ => 0) PBuiltin) = (w', Ret tt) /\
    w_fs w' (o_output s) = Some (Regular (header_text s (top_text e s lic) (middle_text s fm defs tdefs (output ws))
      (next_line (top_text e s lic) + 1) (second_number s (top_text e s lic) (pre_text s tdefs fm defs) n))) /\
    same_except [o_output s] fs (w_fs w') /\ w_out w' = out.
Proof.
  intros Pr T TP S O NE Apart Held Lic Fm D SU C.
  assert (header_path s = o_output s) as HP by (unfold header_path; now rewrite O, S).
  assert (str_eqb (o_output s) [] || str_eqb (o_output s) $"-" = false) as X.
  { unfold to_stdout in O. rewrite O, orb_false_r. now apply str_eqb_neq. }
  destruct (lists_read e s text L TP fs out) as (w1 & hp & E1 & Led & F1 & O1 & C1 & Fr).
  { intros t I. apply Held. right. now right. }
  { exact S. }
  unfold run. rewrite Pr, T. unfold generate. unfold seq at 1, lift. rewrite D. unfold seq at 1. rewrite E1. cbn [fst snd].
  unfold seq at 1. rewrite header_regroup, HP. unfold seq at 1.
  destruct (opens e s (o_output s) w1) as (w2 & E2 & Cu2 & Ou2 & Pt2 & Fi2 & Ot2); [now rewrite F1|exact X|].
  pose proof (open_templates e (o_output s) (o_force s) w1 w2 E2) as Tp. rewrite E2.
  destruct (header_does e s text L TP (o_output s) Apart fs Held f o tdefs lic fm defs Lic Fm hp ws n SU [] w2) as (w3 & E3 & [B1 B2 B3] & O3 & _).
  { constructor; [exact Cu2|exact Fi2|intros q Q; now rewrite Ot2, F1]. }
  { eapply J0_stable; [exact Tp|]. split; [split|]; [exact Led| |]; apply Fr; cbn; auto. }
  unfold seq at 1. rewrite E3. cbn [close]. cbn [write_body]. unfold ret, close. exists (set_cur None w3). split; [reflexivity|]. cbn.
  split; [exact B2|]. split; [|congruence]. intros q Q. apply B3. intros ->. apply Q. now left.
Qed.

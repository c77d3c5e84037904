(** Proofs for C80 to C83. *)
From Coq Require Import Ascii String List Bool Arith ZArith NArith Lia ZifyBool ZifyNat ZifyN.
From Verif Require Import Str StrFacts CRuntime SpecCRuntime CRuntimeFacts CRuntimeFacts2 CRuntimeProps CRuntimeProps2 CRuntimeProps3 WinRuntime SpecWin WinSim.
Import ListNotations.

(* ------------------------------------------------------------ histories without messages *)
Lemma hist_app a b : hist (a ++ b) = hist a ++ hist b.
Proof. apply filter_app. Qed.
Lemma session_hist t : session (hist t) = match session t with Some (h, l) => Some (h, hist l) | None => None end.
Proof.
  induction t as [|e t IH]; [easy|]. destruct e as [f fl ns [h|]|h n r|h [|]|m|b|h r|p r|r|p|m]; cbn; try easy; try (rewrite IH; now destruct (session t) as [[]|]).
  all: fold (hist t); rewrite IH; destruct (session t) as [[]|]; easy.
Qed.
Lemma answer_hist h n l : last_answer h n (hist l) = last_answer h n l.
Proof. induction l as [|e l IH]; [easy|]. destruct e; cbn; try exact IH. fold (hist l). now rewrite IH. Qed.
Lemma open_hist t : open_handles (hist t) = open_handles t.
Proof. induction t as [|e t IH]; [easy|]. destruct e as [f fl ns [h|]|h n r|h [|]|m|b|h r|p r|r|p|m]; cbn; fold (hist t); rewrite ?IH; easy. Qed.
Lemma opens_hist t : opens (hist t) = opens t.
Proof. unfold opens. induction t as [|e t IH]; [easy|]. destruct e as [f fl ns [h|]|h n r|h [|]|m|b|h r|p r|r|p|m]; cbn; fold (hist t); rewrite ?IH; easy. Qed.
Lemma closes_hist t : closes (hist t) = closes t.
Proof. unfold closes. induction t as [|e t IH]; [easy|]. destruct e as [f fl ns [h|]|h n r|h [|]|m|b|h r|p r|r|p|m]; cbn; fold (hist t); rewrite ?IH; easy. Qed.
Lemma uses_hist t : uses_open t -> uses_open (hist t).
Proof. induction t as [|e t IH]; [easy|]. intros [A B]. destruct e; cbn; try rewrite open_hist; auto. Qed.
Lemma in_hist e l : In e l -> heard e = true -> In e (hist l).
Proof. intros A B. apply filter_In. now split. Qed.
Lemma path_hist h p l : named_path h p l -> named_path h p (hist l).
Proof. intros (n & E & H). exists n. split; [exact E|]. destruct H as [H|[H|[q H]]]; [left|right; left|right; right; exists q]; now apply in_hist. Qed.
Lemma not_open_hist l : Forall not_open l -> Forall not_open (hist l).
Proof. intros H. apply Forall_forall. intros e I. apply filter_In in I. rewrite Forall_forall in H. now apply H. Qed.

Lemma windows_name_is f : windows_name f = to_backslash f.
Proof. unfold to_backslash. induction f as [|c f IH]; [easy|]. cbn [windows_name map]. now rewrite IH. Qed.
Lemma convertible_is k w f : x_convert k && negb (x_wide k) && negb (v_conv w (to_backslash f)) = negb (convertible k w f).
Proof. unfold convertible. change (windows_name f) with (to_backslash f). destruct (x_convert k), (x_wide k), (v_conv w (to_backslash f)); reflexivity. Qed.
Lemma sent_cases k w f : sent k w f = if convertible k w f then windows_name f else [].
Proof. unfold sent. rewrite convertible_is. change (windows_name f) with (to_backslash f). now destruct (convertible k w f). Qed.

(* ------------------------------------------------------------ the simulation *)
Section Transfer.
Variables (k : wconf) (w : wworld).
Hypothesis OK : conf_ok k.
Hypothesis proper : one_or_zero w.
Hypothesis pl : lib_printable k.
Notation dk := (dconf k w).
Notation dw := (dworld w).

Lemma dk_ok : conf_ok dk.
Proof. destruct OK as [A B C D]. now split. Qed.
Lemma dk_printable : lib_printable dk.
Proof. destruct pl as [A|A]; [now left|]. right. now apply percent_sent. Qed.
Lemma twin s ops : g_run k w ops = Ok s -> exists d, run dk dw (map (dop k w) ops) = Ok d /\ R s d.
Proof. intros H. pose proof (R_run k w proper pl ops) as X. rewrite H in X. destruct (run dk dw (map (dop k w) ops)); try easy. now exists a. Qed.
Lemma twin_state s : wreachable k w s -> exists d, reachable dk dw d /\ R s d.
Proof. intros [ops H]. destruct (twin _ _ H) as (d & E & X). exists d. split; [now exists (map (dop k w) ops)|exact X]. Qed.
Lemma twin_call o s d v s' : R s d -> g_call k w o s = Ok (v, s') -> exists v' d', call dk dw (dop k w o) d = Ok (v', d') /\ same_value o v v' /\ R s' d'.
Proof. intros H E. pose proof (R_call k w proper pl o s d H) as X. rewrite E in X. destruct (call dk dw (dop k w o) d) as [[v' d']| | |]; try easy. exists v', d'. split; [reflexivity|exact X]. Qed.
Lemma twin_call_back o s d v' d' : R s d -> call dk dw (dop k w o) d = Ok (v', d') -> exists v s', g_call k w o s = Ok (v, s') /\ same_value o v v' /\ R s' d'.
Proof. intros H E. pose proof (R_call k w proper pl o s d H) as X. rewrite E in X. destruct (g_call k w o s) as [[v s']| | |]; try easy. exists v, s'. split; [reflexivity|exact X]. Qed.

(* ------------------------------------------------------------ C80 *)
Theorem w_pointers s : wreachable k w s ->
  match g_handle s with
  | None => forall i, nth i (g_ptrs s) None = None
  | Some h => exists l, session (g_trace s) = Some (h, l) /\
      forall i n, nth_error (k_names k) i = Some n -> nth i (g_ptrs s) None = last_answer h n l
  end.
Proof.
  intros H. destruct (twin_state _ H) as (d & D & X). pose proof (pointers_current dk dw dk_ok d D) as P. rewrite (r_handle _ _ X), (r_ptrs _ _ X), (r_trace _ _ X).
  destruct (s_handle d) as [h|]; [|exact P]. destruct P as (l & A & B). exists (hist l). rewrite session_hist, A. split; [easy|]. intros i n E. rewrite answer_hist. now apply B.
Qed.
Theorem w_handles s : wreachable k w s ->
  uses_open (g_trace s) /\ opens (g_trace s) = closes (g_trace s) + length (open_handles (g_trace s)) /\
  forall h, g_handle s = Some h -> In h (open_handles (g_trace s)).
Proof.
  intros H. destruct (twin_state _ H) as (d & D & X). destruct (handles_balance dk dw dk_ok d D) as (A & B & C). rewrite (r_handle _ _ X), (r_trace _ _ X).
  rewrite opens_hist, closes_hist, open_hist. split; [now apply uses_hist|now split].
Qed.
Lemma force_back o : dop k w o = ForceFreeLib -> o = ForceFreeLib.
Proof. now destruct o. Qed.
Theorem w_exact ops s : g_run k w ops = Ok s -> always_frees w \/ (~ In ForceFreeLib ops /\ g_end s = None) ->
  open_handles (g_trace s) = match g_handle s with Some h => [h] | None => [] end.
Proof.
  intros H C. destruct (twin _ _ H) as (d & D & X). rewrite (r_handle _ _ X), (r_trace _ _ X), open_hist. apply (handles_exact dk dw dk_ok _ _ D).
  destruct C as [C|[C E]]; [left; intros t h; cbn; now rewrite C|right]. split; [|now rewrite <- (r_end _ _ X)].
  intros I. apply in_map_iff in I. destruct I as (o & Eo & I). apply force_back in Eo. now subst o.
Qed.
Theorem w_queries s : wreachable k w s ->
  (g_call k w AllLoaded s = Ok (VBool true, s) <-> forall i, i < length (k_names k) -> nth i (g_ptrs s) None <> None) /\
  (g_call k w NoneLoaded s = Ok (VBool true, s) <-> forall i, i < length (k_names k) -> nth i (g_ptrs s) None = None) /\
  (g_call k w AnyLoaded s = Ok (VBool true, s) <-> exists i, i < length (k_names k) /\ nth i (g_ptrs s) None <> None).
Proof.
  intros H. destruct (twin_state _ H) as (d & D & X). destruct (queries dk dw dk_ok d D) as (A & B & C). rewrite (r_ptrs _ _ X). change (k_names k) with (k_names dk).
  rewrite <- A, <- B, <- C. cbn [g_call call]. unfold g_all_loaded, g_none_loaded, g_any_loaded, all_symbols_loaded, no_symbols_loaded, any_symbol_loaded. rewrite (r_ptrs _ _ X).
  assert (Y : forall b, (Ok (VBool b, s) = Ok (VBool true, s) <-> Ok (VBool b, d) = Ok (VBool true, d))) by (intros []; split; easy). now rewrite !Y.
Qed.
Theorem w_load_all s b s' : wreachable k w s -> g_call k w LoadAllSymbols s = Ok (VBool b, s') ->
  (b = true <-> forall i, i < length (k_names k) -> nth i (g_ptrs s') None <> None).
Proof.
  intros H E. destruct (twin_state _ H) as (d & D & X). destruct (twin_call _ _ _ _ _ X E) as (v' & d' & E' & V & X'). cbn in V. subst v'.
  rewrite (r_ptrs _ _ X'). apply (load_all_truth dk dw dk_ok d b d' D E').
Qed.
Theorem w_registered s : wreachable k w s -> registrations (g_trace s) <= 1.
Proof. intros H. destruct (twin_state _ H) as (d & D & X). rewrite (r_trace _ _ X), registrations_hist. now apply (registered_once dk dw dk_ok). Qed.
Theorem w_released ops s c : g_run k w ops = Ok s -> g_end s = Some (Exited c) -> registrations (g_trace s) = 1 -> g_handle s = None.
Proof.
  intros H. destruct (twin _ _ H) as (d & D & X). rewrite (r_trace _ _ X), registrations_hist, (r_end _ _ X), (r_handle _ _ X). apply (end_cases dk dw dk_ok _ _ _ D).
Qed.
Theorem w_defined ops : exists s, g_run k w ops = Ok s.
Proof.
  destruct (no_undefined dk dw dk_ok (map (dop k w) ops) dk_printable) as [d D]. pose proof (R_run k w proper pl ops) as X. rewrite D in X. destruct (g_run k w ops); try easy. now exists a.
Qed.
Theorem w_by_name s i n : wreachable k w s -> nth_error (k_names k) i = Some n ->
  exists b s', g_call k w (LoadSymbolName (Some n)) s = Ok (VBool b, s') /\
    (forall j, j <> i -> nth j (g_ptrs s') None = nth j (g_ptrs s) None) /\
    (b = true <-> g_handle s <> None /\ nth i (g_ptrs s') None <> None) /\
    (forall p, nth i (g_ptrs s) None = Some p -> nth i (g_ptrs s') None = Some p) /\
    (forall h, g_handle s = Some h -> nth i (g_ptrs s) None = None -> nth i (g_ptrs s') None = v_sym w (g_trace s) h n).
Proof.
  intros H E. destruct (twin_state _ H) as (d & D & X). destruct (by_name_known dk dw dk_ok d i n D E) as (b & d' & C & A1 & A2 & A3 & A4).
  destruct (twin_call_back (LoadSymbolName (Some n)) _ _ _ _ X C) as (v & s' & G & V & X'). cbn in V. subst v. exists b, s'. rewrite (r_ptrs _ _ X), (r_ptrs _ _ X'), (r_handle _ _ X).
  split; [exact G|]. split; [exact A1|]. split; [exact A2|]. split; [exact A3|]. intros h Hh N. destruct (A4 h Hh N) as [m M]. rewrite M. cbn. now rewrite (r_trace _ _ X).
Qed.
Theorem w_by_name_unknown s a : wreachable k w s -> (forall n, a = Some n -> ~ In (c_str n) (k_names k)) ->
  exists s', g_call k w (LoadSymbolName a) s = Ok (VBool false, s') /\ g_ptrs s' = g_ptrs s /\ g_trace s' = g_trace s.
Proof.
  intros H N. destruct (twin_state _ H) as (d & D & X). destruct (by_name_unknown dk dw dk_ok d a D N) as (d' & C & A1 & A2 & m & A3).
  destruct (twin_call_back (LoadSymbolName a) _ _ _ _ X C) as (v & s' & G & V & X'). cbn in V. subst v. exists s'. rewrite (r_ptrs _ _ X), (r_ptrs _ _ X'), (r_trace _ _ X), (r_trace _ _ X').
  now rewrite A3.
Qed.
Theorem w_by_number s num : wreachable k w s ->
  exists b s', g_call k w (LoadSymbol num) s = Ok (VBool b, s') /\
    match g_handle s, (if (num <? 0)%Z then None else nth_error (k_names k) (Z.to_nat num)) with
    | Some h, Some n =>
        (forall j, j <> Z.to_nat num -> nth j (g_ptrs s') None = nth j (g_ptrs s) None) /\
        (b = true <-> nth (Z.to_nat num) (g_ptrs s') None <> None) /\
        nth (Z.to_nat num) (g_ptrs s') None = match nth (Z.to_nat num) (g_ptrs s) None with Some p => Some p | None => v_sym w (g_trace s) h n end
    | _, _ => b = false /\ g_ptrs s' = g_ptrs s
    end.
Proof.
  intros H. destruct (twin_state _ H) as (d & D & X). destruct (by_number dk dw dk_ok d num D) as (b & d' & C & A). change (k_names dk) with (k_names k) in A.
  destruct (twin_call_back (LoadSymbol num) _ _ _ _ X C) as (v & s' & G & V & X'). cbn in V. subst v. exists b, s'. split; [exact G|].
  rewrite (r_ptrs _ _ X), (r_ptrs _ _ X'), (r_handle _ _ X). destruct (s_handle d) as [h|]; [|destruct (if (num <? 0)%Z then None else nth_error (k_names k) (Z.to_nat num)); now split].
  destruct (if (num <? 0)%Z then None else nth_error (k_names k) (Z.to_nat num)) as [n|]; [|now split]. destruct A as (A1 & A2 & m & A3). split; [exact A1|]. split; [exact A2|].
  rewrite A3. cbn. now rewrite (r_trace _ _ X).
Qed.
Theorem w_path s p s' : wreachable k w s -> g_call k w LibraryPath s = Ok (VStr (Some p), s') -> p <> [] ->
  exists h l, g_handle s' = Some h /\ g_handle s = Some h /\ session (g_trace s') = Some (h, l) /\ named_path h p l.
Proof.
  intros H E N. destruct (twin_state _ H) as (d & D & X). destruct (twin_call _ _ _ _ _ X E) as (v' & d' & E' & V & X'). cbn in V. subst v'.
  destruct (path_current dk dw dk_ok d p d' D E' N) as (h & l & A & B & C & F). exists h, (hist l). rewrite (r_handle _ _ X), (r_handle _ _ X'), (r_trace _ _ X'), session_hist, C.
  repeat split; auto. now apply path_hist.
Qed.
Lemma requested_twin o f fl ns : requested k o = Some (f, fl, ns) -> requested dk (dop k w o) = Some (option_map (sent k w) f, fl, ns).
Proof.
  destruct o; cbn; try easy; intros [= <- <- <-]; try reflexivity; f_equal; f_equal; f_equal.
  all: match goal with |- option_map c_str (dfile k w ?f) = _ => destruct f as [f|]; [cbn; f_equal; apply c_str_sent|easy] end.
Qed.
End Transfer.

(* ------------------------------------------------------------ what each call adds to the history *)
Section Direct.
Variables (k : wconf) (w : wworld).
Definition asked (e : event) : Prop := match e with EvSym _ _ _ => True | _ => False end.
Lemma symbols_trace names : forall i s, g_handle s <> None ->
  exists b s' post, g_load_symbols k w names i s = Ok (b, s') /\ g_handle s' = g_handle s /\ g_out s' = g_out s /\ g_trace s' = post ++ g_trace s /\ Forall asked post.
Proof.
  induction names as [|n names IH]; intros i s H; [exists true, s, []; repeat split; constructor|]. cbn [g_load_symbols]. unfold g_sym. destruct (g_handle s) as [h|] eqn:E; [|easy].
  destruct (v_sym w (g_trace s) h n) as [p|] eqn:V; cbn [bind].
  - destruct (IH (S i) (g_set_ptr i (Some p) (g_log (EvSym h n (Some p)) s))) as (b & s' & post & A & B & O & C & D); [cbn; now rewrite E|].
    exists b, s', (post ++ [EvSym h n (Some p)]). rewrite A, B, C, O. repeat split; [exact E|now rewrite <- app_assoc|]. apply Forall_app. split; [exact D|now repeat constructor].
  - eexists _, _, [EvSym h n None]. split; [reflexivity|]. repeat split; [exact E|now repeat constructor].
Qed.
Lemma load_all_trace s : g_handle s <> None ->
  exists b s' post, g_load_all_symbols k w s = Ok (b, s') /\ g_handle s' = g_handle s /\ g_out s' = g_out s /\ g_trace s' = post ++ g_trace s /\ Forall asked post.
Proof.
  intros H. unfold g_load_all_symbols. destruct (g_all_loaded (g_clear_error s)); [exists true, (g_clear_error s), []; repeat split; constructor|].
  unfold g_lib_is_loaded. change (g_handle (g_clear_error s)) with (g_handle s). destruct (g_handle s) as [h|] eqn:E; [|easy].
  destruct (symbols_trace (k_names k) 0 (g_clear_error s)) as (b & s' & post & A & B & O & C & D); [cbn; now rewrite E|]. exists b, s', post. rewrite B, C, O. now repeat split.
Qed.
Lemma asked_not_open l : Forall asked l -> Forall not_open l.
Proof. apply Forall_impl. now intros []. Qed.
Definition opened (f : option str) (fl : Z) (s : wst) (b : bool) (s' : wst) : Prop :=
  match f with
  | None | Some [] => b = false /\ g_handle s' = None /\ g_trace s' = g_trace s
  | Some f =>
      if convertible k w f then exists r post, g_trace s' = post ++ EvOpen (windows_name f) fl false r :: g_trace s /\
        r = v_open w (g_trace s) (windows_name f) fl /\ Forall not_open post /\ g_handle s' = r /\ (r = None -> b = false)
      else b = false /\ g_handle s' = None /\ g_trace s' = g_trace s
  end.
Lemma args_opened f fl s : g_handle s = None ->
  let '(b, s') := g_load_lib_args k w f fl s in opened f fl s b s' /\ (b = true <-> g_handle s' <> None).
Proof.
  intros N. unfold g_load_lib_args, g_lib_is_loaded. change (g_handle (g_clear_error s)) with (g_handle s). rewrite N. destruct f as [[|c f]|]; try (cbn; rewrite N; repeat split; congruence).
  unfold g_load_library. rewrite name_sent. unfold g_load_library_ex, opened. rewrite convertible_is. change (to_backslash (c :: f)) with (windows_name (c :: f)). destruct (convertible k w (c :: f)); cbn [negb].
  - change (g_trace (g_clear_error s)) with (g_trace s). set (f' := windows_name (c :: f)). clearbody f'. destruct (v_open w (g_trace s) f' fl) as [h|] eqn:V; cbn [g_with_handle g_handle].
    + split; [|easy]. exists (Some h), []. now repeat split.
    + split; [|easy]. exists None, []. now repeat split.
  - cbn [g_with_handle g_handle]. repeat split; easy.
Qed.
Theorem w_opens s o f fl ns : g_handle s = None -> requested k o = Some (f, fl, ns) ->
  exists b s', g_call k w o s = Ok (VBool b, s') /\ opened f fl s b s'.
Proof.
  intros N Q.
  assert (T : forall f fl, exists b s', g_then_symbols k w (g_load_lib_args k w f fl s) = Ok (VBool b, s') /\ opened f fl s b s').
  { intros f0 fl0. pose proof (args_opened f0 fl0 s N) as A. destruct (g_load_lib_args k w f0 fl0 s) as [b s1]. destruct A as [A1 A2]. cbn [g_then_symbols]. destruct b; [|now exists false, s1].
    destruct (load_all_trace s1 (proj1 A2 eq_refl)) as (b & s' & post & E & B & _ & C & D). rewrite E. exists b, s'. split; [reflexivity|].
    unfold opened in *. destruct f0 as [[|c f0]|]; try easy. destruct (convertible k w (c :: f0)); [|easy]. destruct A1 as (r & post1 & F1 & F2 & F3 & F4 & F5). exists r, (post ++ post1).
    rewrite C, F1, B, app_assoc. repeat split; auto; [apply Forall_app; split; [now apply asked_not_open|exact F3]|]. intros ->. now specialize (F5 eq_refl). }
  assert (P : forall f fl, exists b s', (let x := g_load_lib_args k w f fl s in Ok (VBool (fst x), snd x)) = Ok (VBool b, s') /\ opened f fl s b s').
  { intros f0 fl0. pose proof (args_opened f0 fl0 s N) as A. destruct (g_load_lib_args k w f0 fl0 s) as [b s1]. exists b, s1. split; [reflexivity|apply A]. }
  destruct o; try discriminate Q; cbn in Q; injection Q as <- <- <-; cbn [g_call]; apply P || apply T.
Qed.
End Direct.

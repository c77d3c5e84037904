(** Proofs for C82 and C83: wrapped calls on Windows, and failures of messages. *)
From Coq Require Import Ascii String List Bool Arith ZArith NArith Lia ZifyBool ZifyNat ZifyN.
From Verif Require Import Str StrFacts CRuntime SpecCRuntime CRuntimeFacts CRuntimeFacts2 CRuntimeProps CRuntimeProps2 CRuntimeProps3 WinRuntime SpecWin WinSim WinProps WinMsg.
Import ListNotations.

Lemma ok_is {A} (a b : A) : Ok a = Ok b -> a = b.
Proof. now intros [= H]. Qed.
Section Out.
Variables (k : wconf) (w : wworld).

Theorem path_says s r s' : g_call k w LibraryPath s = Ok (VStr r, s') ->
  match r with
  | Some _ => quiet s'
  | None => match g_handle s with
      | None => said k s' ($"no library was loaded", 6%N)
      | Some h => exists p, g_trace s' = EvInfo h (option_map Some p) :: g_trace s /\ g_libpath s' = [] /\
          said k s' (if x_wide k then $"GetModuleFileNameW()" else $"GetModuleFileNameA()", v_errno w (g_trace s')) /\
          (forall p', p = Some p' -> c_str p' = [] \/ k_buflen k <= length (c_str p'))
      end
  end.
Proof.
  cbn [g_call]. unfold g_library_path. change (g_handle (g_clear_error s)) with (g_handle s). change (g_libpath (g_clear_error s)) with (g_libpath s). change (g_trace (g_clear_error s)) with (g_trace s).
  destruct (g_handle s) as [h|]; [|now intros [= <- <-]]. destruct (g_libpath s); [|now intros [= <- <-]].
  destruct (v_module w (g_trace s) h) as [p|] eqn:V.
  - destruct (Nat.eqb_spec (length (c_str p)) 0) as [Z|Z]; cbn [orb].
    + intros [= <- <-]. exists (Some p). repeat split. intros p' [= <-]. left. now apply length_zero_iff_nil.
    + destruct (Nat.leb_spec (k_buflen k) (length (c_str p))) as [L|L]; intros [= <- <-].
      * exists (Some p). repeat split. intros p' [= <-]. now right.
      * now repeat split.
  - intros [= <- <-]. exists None. repeat split. discriminate.
Qed.

(** only messages of wrapped calls are shown *)
Definition seen (s : wst) : list str * option ending := (g_out s, g_end s).
Lemma out_clear s : seen (g_clear_error s) = seen s.
Proof. reflexivity. Qed.
Lemma out_args f fl s : seen (snd (g_load_lib_args k w f fl s)) = seen s.
Proof.
  unfold g_load_lib_args. destruct (g_lib_is_loaded (g_clear_error s)); [easy|]. destruct f as [[|c f]|]; try easy. unfold g_load_library, g_load_library_ex.
  destruct (x_convert k && negb (x_wide k) && _); [easy|]. destruct (v_open w _ _ fl); easy.
Qed.
Lemma out_force s : seen (g_force_free_lib k w s) = seen s.
Proof. unfold g_force_free_lib. now destruct (g_handle (g_clear_error s)). Qed.
Lemma out_auto s : seen (snd (g_enable_autorelease k w s)) = seen s.
Proof. unfold g_enable_autorelease. destruct (g_reg (g_clear_error s)); [easy|]. destruct (v_atexit w _); easy. Qed.
Lemma out_sym n s p s' : g_sym k w n s = Ok (p, s') -> seen s' = seen s.
Proof. unfold g_sym. destruct (g_handle s); [|easy]. destruct (v_sym w _ _ n); now intros [= <- <-]. Qed.
Lemma out_symbols names : forall i s b s', g_load_symbols k w names i s = Ok (b, s') -> seen s' = seen s.
Proof.
  induction names as [|n names IH]; intros i s b s' E; [now injection E as _ <-|]. cbn [g_load_symbols] in E. destruct (g_sym k w n s) as [[p s1]| | |] eqn:G; try discriminate. cbn [bind] in E.
  apply out_sym in G. destruct p; [apply IH in E; now rewrite E|now injection E as _ <-].
Qed.
Lemma out_all s b s' : g_load_all_symbols k w s = Ok (b, s') -> seen s' = seen s.
Proof.
  unfold g_load_all_symbols. destruct (g_all_loaded (g_clear_error s)); [now intros [= _ <-]|]. destruct (g_lib_is_loaded (g_clear_error s)); [|now intros [= _ <-]]. intros E. now apply out_symbols in E.
Qed.
Lemma out_one i n s b s' : g_load_one k w i n s = Ok (b, s') -> seen s' = seen s.
Proof.
  unfold g_load_one. destruct (g_get_ptr i s); [now intros [= _ <-]|]. destruct (g_sym k w n s) as [[p s1]| | |] eqn:G; try discriminate. cbn [bind]. intros [= _ <-]. now apply out_sym in G.
Qed.
Lemma out_number n s b s' : g_load_symbol k w n s = Ok (b, s') -> seen s' = seen s.
Proof.
  unfold g_load_symbol. destruct (negb (g_lib_is_loaded (g_clear_error s))); [now intros [= _ <-]|]. destruct (if (n <? 0)%Z then None else _); [intros E; now apply out_one in E|now intros [= _ <-]].
Qed.
Lemma out_last s : seen (snd (g_last_error k w s)) = seen s.
Proof. unfold g_last_error. now destruct (g_formatted s). Qed.
Lemma out_exit c s : g_out (g_exit_program k w c s) = g_out s.
Proof. unfold g_exit_program. cbn. induction (registrations (g_trace s)) as [|n IH]; [easy|]. rewrite <- IH. pose proof (out_force (Nat.iter n (g_force_free_lib k w) s)) as X. injection X as X _. exact X. Qed.
Lemma out_force_1 s : g_out (g_force_free_lib k w s) = g_out s.
Proof. pose proof (out_force s) as X. now injection X. Qed.
Lemma shown_message f n m s s' : g_print_error k f n m s = Ok s' -> exists t, format_s f [n; m] = Ok t /\ g_out s' = shown k t :: g_out s.
Proof. unfold g_print_error, shown, in_buffer, cut. destruct (format_s f [n; m]) as [t| | |]; try discriminate. cbn [bind]. destruct (x_box k); intros [= <-]; now exists t. Qed.
Lemma format_two n m : format_s $"%s: %s" [n; m] = Ok (n ++ $": " ++ m).
Proof. cbn. now rewrite app_nil_r. Qed.
Lemma formats pre n m : ~ In "%"%char pre -> format_s (pre ++ $"%s: %s") [n; m] = Ok (pre ++ n ++ $": " ++ m).
Proof. intros N. now rewrite format_plain, format_two. Qed.
Lemma percent_free (l : str) : existsb (Ascii.eqb "%"%char) l = false -> ~ In "%"%char l.
Proof. intros H I. apply not_true_iff_false in H. apply H. apply existsb_exists. exists "%"%char. now split. Qed.
Lemma format_1 n m : format_s $"error: %s: %s" [n; m] = Ok ($"error: " ++ n ++ $": " ++ m).
Proof. apply (formats $"error: "). now apply percent_free. Qed.
Lemma format_2 n m : format_s $"fatal error: %s: %s" [n; m] = Ok ($"fatal error: " ++ n ++ $": " ++ m).
Proof. apply (formats $"fatal error: "). now apply percent_free. Qed.
Lemma format_3 l n m : ~ In "%"%char l -> format_s ($"error: " ++ l ++ $": %s: %s") [n; m] = Ok (($"error: " ++ l ++ $": ") ++ n ++ $": " ++ m).
Proof.
  intros N. rewrite <- (formats ($"error: " ++ l ++ $": ") n m); [now rewrite <- !app_assoc|]. intros I. apply in_app_iff in I. destruct I as [I|I]; [revert I; now apply percent_free|].
  apply in_app_iff in I. destruct I as [I|I]; [now apply N|revert I; now apply percent_free].
Qed.
Lemma printed_shape l n m s s' : ~ In "%"%char l ->
  (match find l m with Some _ => g_print_error k $"error: %s: %s" n m s | None => g_print_error k ($"error: " ++ l ++ $": %s: %s") n m s end) = Ok s' ->
  exists head, (head = $"error: " \/ head = $"error: " ++ l ++ $": ") /\ g_out s' = shown k (head ++ n ++ $": " ++ m) :: g_out s.
Proof.
  intros N E. destruct (find l m); apply shown_message in E; destruct E as (t & F & ->); [rewrite format_1 in F|rewrite (format_3 l n m N) in F]; apply ok_is in F; subst t; [exists $"error: "|exists ($"error: " ++ l ++ $": ")]; auto.
Qed.
Lemma check_out (pl : lib_printable k) i n s b s' : g_check_loaded k w i n s = Ok (b, s') ->
  if b then seen s' = seen s else g_end s' <> None /\ exists head msg, g_out s' = shown k (head ++ n ++ $": " ++ msg) :: g_out s.
Proof.
  unfold g_check_loaded. destruct (g_get_ptr i s); [now intros [= <- <-]|]. destruct (k_auto k) eqn:A.
  - destruct (g_print_error k $"fatal error: %s: %s" n _ s) as [s1| | |] eqn:P; try discriminate. cbn [bind]. intros [= <- <-]. split; [easy|]. apply shown_message in P. destruct P as (t & F & P). rewrite format_2 in F. apply ok_is in F. subst t.
    eexists _, _. exact P.
  - assert (N : ~ In "%"%char (k_lib k)) by (destruct pl as [Z|Z]; [congruence|exact Z]). cbv zeta.
    set (s1 := snd (g_enable_autorelease k w s)). assert (O1 : seen s1 = seen s) by apply out_auto. clearbody s1.
    set (s2 := if g_lib_is_loaded s1 then s1 else _). assert (O2 : seen s2 = seen s) by (subst s2; destruct (g_lib_is_loaded s1); [exact O1|unfold g_load_lib, g_load_lib_name; now rewrite out_args]). clearbody s2.
    destruct (g_load_all_symbols k w s2) as [[ok s3]| | |] eqn:E; try discriminate. apply out_all in E. cbn [bind]. destruct ok; [intros [= <- <-]; congruence|].
    pose proof (out_last s3) as L. destruct (g_last_error k w s3) as [m s4]. cbn [snd] in L.
    destruct (match find (k_lib k) m with Some _ => _ | None => _ end) as [s5| | |] eqn:P; try discriminate. cbn [bind]. intros [= <- <-]. split; [easy|]. apply printed_shape in P; [|exact N]. destruct P as (head & _ & P).
    exists head, m. rewrite out_exit, out_force_1, P. assert (Y : seen s4 = seen s) by congruence. now injection Y as -> _.
  - assert (N : ~ In "%"%char (k_lib k)) by (destruct pl as [Z|Z]; [congruence|exact Z]). cbv zeta.
    set (s1 := snd (g_enable_autorelease k w s)). assert (O1 : seen s1 = seen s) by apply out_auto. clearbody s1.
    set (s2 := if g_lib_is_loaded s1 then s1 else _). assert (O2 : seen s2 = seen s) by (subst s2; destruct (g_lib_is_loaded s1); [exact O1|unfold g_load_lib, g_load_lib_name; now rewrite out_args]). clearbody s2.
    destruct (g_load_symbol k w (Z.of_nat i) s2) as [[ok s3]| | |] eqn:E; try discriminate. apply out_number in E. cbn [bind]. destruct ok; [intros [= <- <-]; congruence|].
    pose proof (out_last s3) as L. destruct (g_last_error k w s3) as [m s4]. cbn [snd] in L.
    destruct (match find (k_lib k) m with Some _ => _ | None => _ end) as [s5| | |] eqn:P; try discriminate. cbn [bind]. intros [= <- <-]. split; [easy|]. apply printed_shape in P; [|exact N]. destruct P as (head & _ & P).
    exists head, m. rewrite out_exit, out_force_1, P. assert (Y : seen s4 = seen s) by congruence. now injection Y as -> _.
Qed.
End Out.

Section Wrap.
Variables (k : wconf) (w : wworld).
Hypothesis OK : conf_ok k.
Hypothesis proper : one_or_zero w.
Hypothesis pl : lib_printable k.

Lemma silent_hist l : Forall silent l -> Forall not_call (hist l).
Proof. intros H. apply Forall_forall. intros e I. apply filter_In in I. destruct I as [I _]. rewrite Forall_forall in H. specialize (H e I). now destruct e. Qed.
Theorem w_wrapped s i n args : wreachable k w s -> nth_error (k_names k) i = Some n -> g_end s = None ->
  exists s', g_call k w (Wrapped i args) s = Ok (VNone, s') /\
    ((exists p h l new, g_end s' = None /\ g_out s' = g_out s /\ g_trace s' = EvCall p args :: new ++ g_trace s /\ Forall not_call new /\
        g_handle s' = Some h /\ session (new ++ g_trace s) = Some (h, l) /\ last_answer h n l = Some p) \/
     (exists head msg new, g_end s' <> None /\ g_out s' = shown k (head ++ n ++ $": " ++ msg) :: g_out s /\ g_trace s' = new ++ g_trace s /\ Forall not_call new)).
Proof.
  intros H E F. destruct (twin_state k w proper pl _ H) as (d & D & X). rewrite (r_end _ _ X) in F.
  destruct (wrapped (dconf k w) (dworld w) (dk_ok k w OK) d i n args D (dk_printable k w pl) E F) as (d' & C & A).
  destruct (twin_call_back k w proper pl (Wrapped i args) _ _ _ _ X C) as (v & s' & G & V & X'). cbn in V. subst v. exists s'. split; [exact G|].
  assert (Out : (g_end s' = None -> g_out s' = g_out s) /\ (g_end s' <> None -> exists head msg, g_out s' = shown k (head ++ n ++ $": " ++ msg) :: g_out s)).
  { cbn [g_call] in G. unfold g_wrapped in G. rewrite E in G. destruct (g_check_loaded k w i n s) as [[b s1]| | |] eqn:Ch; try discriminate. apply (check_out k w pl) in Ch. cbn [bind] in G. destruct b.
    - destruct (g_get_ptr i s1) as [p|]; try discriminate. injection G as <-. injection Ch as Ch1 Ch2. split; [intros _; exact Ch1|]. intros N. elim N. change (g_end s1 = None). now rewrite Ch2, (r_end _ _ X).
    - injection G as <-. split; [now intros Z; elim (proj1 Ch)|intros _; apply Ch]. }
  rewrite (r_end _ _ X'), (r_handle _ _ X'), (r_trace _ _ X'), (r_trace _ _ X) in *.
  destruct A as [(p & h & l & new & A1 & A2 & A3 & A4 & A5 & A6)|(head & msg & pre & post & A1 & A2 & A3 & A4)].
  - left. exists p, h, (hist l), (hist new). split; [exact A1|]. split; [exact (proj1 Out A1)|]. split; [rewrite A2; cbn [hist filter heard]; now rewrite hist_app|]. split; [now apply silent_hist|].
    split; [exact A4|]. split; [|now rewrite answer_hist]. rewrite <- hist_app, session_hist, A5. reflexivity.
  - right. destruct (proj2 Out A1) as (head' & msg' & O). exists head', msg', (hist post ++ hist pre). split; [exact A1|]. split; [exact O|]. split; [|apply Forall_app; split; now apply silent_hist].
    rewrite A4, hist_app. cbn [hist filter heard]. fold (hist (pre ++ s_trace d)). now rewrite hist_app, app_assoc.
Qed.
End Wrap.

(* ------------------------------------------------------------ the reason of a failed automatic loading *)
Section Lost.
Variables (k : wconf) (w : wworld).
Hypothesis OK : conf_ok k.
Hypothesis proper : one_or_zero w.
Hypothesis pl : lib_printable k.
Lemma reach_call o s v s' : wreachable k w s -> g_end s = None -> g_call k w o s = Ok (v, s') -> wreachable k w s'.
Proof. intros [ops H] E C. exists (ops ++ [o]). unfold g_run in *. rewrite fold_left_app, H. cbn [fold_left bind]. unfold g_step. now rewrite E, C. Qed.
Lemma auto_keeps s : let s' := snd (g_enable_autorelease k w s) in g_handle s' = g_handle s /\ g_end s' = g_end s.
Proof. unfold g_enable_autorelease. destruct (g_reg (g_clear_error s)); [easy|]. destruct (v_atexit w _); easy. Qed.
Lemma lib_end s : g_end (snd (g_load_lib k w s)) = g_end s.
Proof.
  unfold g_load_lib, g_load_lib_name, g_load_lib_args. destruct (g_lib_is_loaded (g_clear_error s)); [easy|]. destruct (k_lib k) as [|c f]; try easy. unfold g_load_library, g_load_library_ex.
  destruct (x_convert k && negb (x_wide k) && _); [easy|]. destruct (v_open w _ _ _); easy.
Qed.
Lemma no_library_text : 22 <= k_buflen k -> cut (k_buflen k) $"no library was loaded" = $"no library was loaded".
Proof. intros L. unfold cut. apply firstn_all2. cbn. lia. Qed.
Lemma no_library_said s m s' : 22 <= k_buflen k -> g_last_error k w (g_set_no_library k s) = (m, s') -> m = in_buffer (x_fbuf k) ($"no library was loaded: " ++ system_text w 6).
Proof.
  intros L. assert (X : g_errbuf (g_set_no_library k s) = $"no library was loaded") by exact (no_library_text L). rewrite last_error_text.
  change (g_formatted (g_set_no_library k s)) with ([] : str). cbv beta iota zeta. rewrite X. intros Y. apply (f_equal fst) in Y. symmetry. exact Y.
Qed.
Theorem w_reason_lost s i n args : wreachable k w s -> 22 <= k_buflen k -> k_auto k <> AutoOff ->
  nth_error (k_names k) i = Some n -> g_end s = None -> g_handle s = None -> (forall t, v_open w t (windows_name (k_lib k)) (k_flags k) = None) ->
  exists s' head, g_call k w (Wrapped i args) s = Ok (VNone, s') /\ g_end s' = Some (Exited 1) /\
    g_out s' = shown k (head ++ n ++ $": " ++ in_buffer (x_fbuf k) ($"no library was loaded: " ++ system_text w 6)) :: g_out s.
Proof.
  intros H L A E F N V.
  assert (NP : ~ In "%"%char (k_lib k)) by (destruct pl as [Z|Z]; [congruence|exact Z]).
  pose proof (w_pointers k w OK proper pl s H) as P. rewrite N in P.
  set (s1 := snd (g_enable_autorelease k w s)).
  assert (H1 : wreachable k w s1) by (eapply (reach_call EnableAutorelease s _ s1 H F); reflexivity).
  destruct (auto_keeps s) as [N1 F1]. fold s1 in N1, F1. rewrite N in N1. rewrite F in F1. assert (O1 : g_out s1 = g_out s) by (pose proof (out_auto k w s) as X; now injection X).
  set (s2 := snd (g_load_lib k w s1)).
  assert (H2 : wreachable k w s2) by (eapply (reach_call LoadLib s1 _ s2 H1 F1); reflexivity).
  assert (N2 : g_handle s2 = None).
  { pose proof (args_opened k w (Some (k_lib k)) (k_flags k) s1 N1) as X. unfold s2, g_load_lib, g_load_lib_name. destruct (g_load_lib_args k w (Some (k_lib k)) (k_flags k) s1) as [b s']. destruct X as [X _]. cbn [snd]. unfold opened in X.
    destruct (k_lib k) as [|c l]; [apply X|]. destruct (convertible k w (c :: l)); [|apply X]. destruct X as (r & post & _ & X & _ & Y & _). rewrite V in X. congruence. }
  assert (O2 : g_out s2 = g_out s) by (pose proof (out_args k w (Some (k_lib k)) (k_flags k) s1) as X; injection X as X _; unfold s2, g_load_lib, g_load_lib_name; congruence).
  assert (Tail : forall s3, g_out s3 = g_out s -> exists s' head, 
    (let '(msg, s) := g_last_error k w (g_set_no_library k s3) in
          s <- (match find (k_lib k) msg with
                | Some _ => g_print_error k $"error: %s: %s" n msg s
                | None => g_print_error k ($"error: " ++ k_lib k ++ $": %s: %s") n msg s
                end) ;;
          Ok (false, g_exit_program k w 1 (g_force_free_lib k w s))) = Ok (false, s') /\ g_end s' = Some (Exited 1) /\
    g_out s' = shown k (head ++ n ++ $": " ++ in_buffer (x_fbuf k) ($"no library was loaded: " ++ system_text w 6)) :: g_out s).
  { intros s3 O3. pose proof (out_last k w (g_set_no_library k s3)) as X. destruct (g_last_error k w (g_set_no_library k s3)) as [m s4] eqn:G. apply (no_library_said s3 m s4 L) in G. cbn [snd] in X. injection X as X _.
    assert (Q : exists s5, (match find (k_lib k) m with Some _ => g_print_error k $"error: %s: %s" n m s4 | None => g_print_error k ($"error: " ++ k_lib k ++ $": %s: %s") n m s4 end) = Ok s5).
    { unfold g_print_error. rewrite format_1, (format_3 (k_lib k) n m NP). destruct (find (k_lib k) m), (x_box k); eexists; reflexivity. }
    destruct Q as [s5 Q]. rewrite Q. apply printed_shape in Q; [|exact NP]. destruct Q as (head & _ & Q). cbn [bind]. eexists _, head. split; [reflexivity|]. split; [reflexivity|].
    rewrite out_exit, out_force_1, Q. subst m. now rewrite X, O3. }
  cbn [g_call]. unfold g_wrapped. rewrite E. unfold g_check_loaded. unfold g_get_ptr at 1. rewrite P. fold s1.
  assert (Load : g_lib_is_loaded s1 = false) by (unfold g_lib_is_loaded; now rewrite N1). rewrite Load. fold s2.
  assert (All : g_load_all_symbols k w s2 = Ok (false, g_set_no_library k (g_clear_error s2))).
  { unfold g_load_all_symbols. replace (g_lib_is_loaded (g_clear_error s2)) with false by (unfold g_lib_is_loaded; cbn; now rewrite N2). destruct (g_all_loaded (g_clear_error s2)) eqn:Q; [|easy]. exfalso.
    destruct (w_queries k w OK proper pl s2 H2) as [W _]. assert (Y : g_call k w AllLoaded s2 = Ok (VBool true, s2)) by (cbn [g_call]; change (g_all_loaded s2) with (g_all_loaded (g_clear_error s2)); now rewrite Q).
    apply (proj1 W Y i); [apply nth_error_Some; congruence|]. pose proof (w_pointers k w OK proper pl s2 H2) as Z. rewrite N2 in Z. apply Z. }
  assert (One : g_load_symbol k w (Z.of_nat i) s2 = Ok (false, g_set_no_library k (g_clear_error s2))).
  { unfold g_load_symbol. replace (g_lib_is_loaded (g_clear_error s2)) with false by (unfold g_lib_is_loaded; cbn; now rewrite N2). reflexivity. }
  cbv zeta. destruct (Tail (g_clear_error s2) O2) as (s' & head & T1 & T2 & T3). exists s', head.
  destruct (k_auto k); [easy| |].
  - rewrite All. cbn [bind]. rewrite T1. cbn [bind]. now repeat split.
  - rewrite One. cbn [bind]. rewrite T1. cbn [bind]. now repeat split.
Qed.
End Lost.

(* ------------------------------------------------------------ worlds for examples *)
Definition wdemo (a : autoload) (conv box : bool) : wconf := mkwconf (demo a $"foo.dll" 100) false conv box 400.
Lemma wdemo_ok a c b : conf_ok (wdemo a c b).
Proof. apply demo_ok. lia. Qed.
Lemma wdemo_printable a c b : lib_printable (wdemo a c b).
Proof. right. now apply percent_free. Qed.
Definition wtext (code : N) : option str :=
  match code with 0%N => Some $"The operation completed successfully." | 2%N => Some $"The system cannot find the file specified." | 126%N => Some $"The specified module could not be found." | 6%N => Some $"The handle is invalid." | _ => None end.
Definition wgood : wworld := mkww (fun _ _ _ => Some 1) (fun _ _ _ => Some 10) (fun _ _ => 1%Z) (fun _ => 2%N) (fun _ => true) (fun _ _ => Some $"C:\foo.dll") wtext (fun _ => true).
(** FreeLibrary() releases the library and returns a nonzero value other than 1 *)
Definition wtrue : wworld := mkww (v_open wgood) (v_sym wgood) (fun _ _ => 2%Z) (fun _ => 0%N) (v_atexit wgood) (v_module wgood) wtext (v_conv wgood).
Definition wabsent : wworld := mkww (fun _ _ _ => None) (v_sym wgood) (v_free wgood) (fun _ => 126%N) (v_atexit wgood) (v_module wgood) wtext (v_conv wgood).
Definition wstrange : wworld := mkww (v_open wgood) (v_sym wgood) (v_free wgood) (fun _ => 2%N) (fun _ => false) (v_module wgood) wtext (fun _ => false).

Theorem w_true : exists (k : wconf) w ops s s2 v s3, conf_ok k /\ lib_printable k /\ g_run k w ops = Ok s /\
  g_call k w FreeLib s = Ok (VBool false, s2) /\ g_handle s2 = Some 1 /\ open_handles (g_trace s2) = [] /\
  g_call k w LoadAllSymbols s2 = Ok (v, s3) /\ ~ uses_open (g_trace s3).
Proof.
  exists (wdemo AutoOff false false), wtrue, [LoadLib]. do 4 eexists. split; [apply wdemo_ok|]. split; [apply wdemo_printable|]. split; [vm_compute; reflexivity|]. split; [vm_compute; reflexivity|].
  split; [reflexivity|]. split; [reflexivity|]. split; [vm_compute; reflexivity|]. vm_compute. tauto.
Qed.
Theorem w_successful_failure : exists (k : wconf) w ops s s2 s3, conf_ok k /\ g_run k w ops = Ok s /\ g_call k w LoadLib s = Ok (VBool false, s2) /\
  g_call k w LastError s2 = Ok (VStr (Some $"library already loaded: The operation completed successfully."), s3).
Proof. exists (wdemo AutoOff false false), wgood, [LoadLib]. do 3 eexists. split; [apply wdemo_ok|]. split; [vm_compute; reflexivity|]. split; vm_compute; reflexivity. Qed.
Theorem w_conversion_lost : exists (k : wconf) w s s2 s3, conf_ok k /\ g_run k w [] = Ok s /\ g_call k w LoadLib s = Ok (VBool false, s2) /\ g_trace s2 = [] /\
  g_call k w LastError s2 = Ok (VStr (Some $"foo.dll: The system cannot find the file specified."), s3).
Proof. exists (wdemo AutoOff true false), wstrange. do 3 eexists. split; [apply wdemo_ok|]. split; [vm_compute; reflexivity|]. split; [vm_compute; reflexivity|]. split; vm_compute; reflexivity. Qed.
Theorem w_reason_example : exists (k : wconf) w s', conf_ok k /\ g_run k w [Wrapped 0 []] = Ok s' /\ (forall t, v_errno w t = 126%N) /\
  g_out s' = [$"error: foo.dll: foo_one: no library was loaded: The handle is invalid.
"].
Proof. exists (wdemo AutoLazy false false), wabsent. eexists. split; [apply wdemo_ok|]. split; [vm_compute; reflexivity|]. split; reflexivity. Qed.

(** dlfcn-win32 *)
Theorem d_overlap k name s : d_report true k name s = UB.
Proof. unfold d_report. destruct (last_error k s) as [m s1]. now destruct (find (k_lib k) m). Qed.
Theorem d_fine k name s : ~ In "%"%char (k_lib k) -> exists s', d_report false k name s = Ok s'.
Proof.
  intros N. unfold d_report. destruct (last_error k s) as [m s1]. destruct (find (k_lib k) m); unfold d_print_error; [rewrite format_1|rewrite (format_3 (k_lib k) name _ N)]; eexists; reflexivity.
Qed.

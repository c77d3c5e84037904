(** The C API: what every reachable state satisfies *)
From Coq Require Import Ascii String List Bool Arith ZArith Lia.
From Verif Require Import Str StrFacts SpecFormat CRuntime SpecCRuntime.
Import ListNotations.

Record inv (k : rconf) (s : st) : Prop := {
  i_len : length (s_ptrs s) = length (k_names k);
  i_none : s_handle s = None -> s_libpath s = [] /\ forall i, get_ptr i s = None;
  i_some : forall h, s_handle s = Some h -> In h (open_handles (s_trace s)) /\
    exists l, session (s_trace s) = Some (h, l) /\
      (forall i n, nth_error (k_names k) i = Some n -> get_ptr i s = last_answer h n l) /\
      (s_libpath s = [] \/ named_path h (s_libpath s) l);
  i_uses : uses_open (s_trace s);
  i_err : length (s_errbuf s) < k_buflen k /\ c_str (s_errbuf s) = s_errbuf s;
  i_path : length (s_libpath s) < k_buflen k /\ c_str (s_libpath s) = s_libpath s;
  i_reg : registrations (s_trace s) = if s_reg s then 1 else 0
}.

Section K.
Variables (k : rconf) (w : world).
Hypothesis K : conf_ok k.
#[local] Notation inv := (inv k).

Lemma c_str_id s : c_str (c_str s) = c_str s.
Proof. induction s as [|c s IH]; [easy|]. cbn [c_str]. destruct (Ascii.eqb c nul) eqn:E; [easy|]. cbn [c_str]. now rewrite E, IH. Qed.
Lemma c_str_firstn n s : c_str s = s -> c_str (firstn n s) = firstn n s.
Proof.
  revert n. induction s as [|c s IH]; intros [|n] H; try easy.
  cbn [c_str] in H. destruct (Ascii.eqb c nul) eqn:E; [easy|]. injection H as H. cbn [firstn c_str]. now rewrite E, IH.
Qed.
Lemma named_more h p e l : named_path h p l -> named_path h p (e :: l).
Proof. intros (n & E & [H|[H|[q H]]]); exists n; split; auto; [left|right;left|right;right; exists q]; now right. Qed.

(** events that change nothing the invariant looks at *)
Definition quiet (t : list event) (e : event) : Prop :=
  match e with
  | EvError _ | EvMaps _ | EvAddr _ _ | EvPrint _ | EvCall _ _ | EvAtexit false | EvOpen _ _ _ None => True
  | EvInfo h _ | EvClose h false => In h (open_handles t)
  | _ => False
  end.
Lemma quiet_session t e : quiet t e -> session (e :: t) = match session t with Some (h, l) => Some (h, e :: l) | None => None end.
Proof. destruct e as [? ? ? []| |? []| |[]| | | | |]; cbn; easy. Qed.
Lemma quiet_open t e : quiet t e -> open_handles (e :: t) = open_handles t.
Proof. destruct e as [? ? ? []| |? []| |[]| | | | |]; cbn; easy. Qed.
Lemma quiet_answer t e h n l : quiet t e -> last_answer h n (e :: l) = last_answer h n l.
Proof. destruct e as [? ? ? []| |? []| |[]| | | | |]; cbn; easy. Qed.
Lemma quiet_reg t e : quiet t e -> registrations (e :: t) = registrations t.
Proof. destruct e as [? ? ? []| |? []| |[]| | | | |]; cbn; easy. Qed.
Lemma quiet_uses t e : quiet t e -> uses_open t -> uses_open (e :: t).
Proof. destruct e as [? ? ? []| |? []| |[]| | | | |]; cbn; easy. Qed.

Lemma log_inv e s : quiet (s_trace s) e -> inv s -> inv (log e s).
Proof.
  intros Q [L N S U E P R]. split; auto.
  - intros h Hh. cbn [s_handle log] in Hh. destruct (S h Hh) as (O & l & A & B & C). cbn [s_trace log].
    rewrite (quiet_open _ _ Q), (quiet_session _ _ Q), A. split; [easy|]. exists (e :: l). split; [easy|]. split.
    + intros i n I. rewrite (quiet_answer _ _ _ _ _ Q). now apply B.
    + destruct C; [now left|right]. now apply named_more.
  - cbn [s_trace log]. now apply quiet_uses.
  - cbn [s_trace s_reg log]. now rewrite (quiet_reg _ _ Q).
Qed.
Lemma errbuf_inv m s : length m < k_buflen k -> c_str m = m -> inv s -> inv (with_errbuf m s).
Proof. intros Lm Cm [L N S U E P R]. split; auto. Qed.
Lemma print_inv m s : inv s -> inv (print_errbuf k m s).
Proof.
  intros I. apply errbuf_inv; [|apply c_str_firstn, c_str_id|easy].
  pose proof (firstn_le_length (k_buflen k - 1) (c_str m)). pose proof (ok_buf _ K). lia.
Qed.
Lemma empty_inv s : inv s -> inv (with_errbuf [] s).
Proof. intros I. apply errbuf_inv; [|easy|easy]. pose proof (ok_buf _ K). cbn. lia. Qed.
Lemma save_inv m s : inv s -> inv (save_to_errbuf k m s).
Proof. intros I. destruct m; [now apply print_inv|now apply empty_inv]. Qed.
Lemma clear_inv s : inv s -> inv (clear_error w s).
Proof. intros I. apply empty_inv, log_inv; [|easy]. exact Logic.I. Qed.
Lemma error_inv s : inv s -> inv (save_error k w s).
Proof. intros I. apply (save_inv _ (log _ s)), log_inv; [|easy]. exact Logic.I. Qed.

Lemma init_inv : inv (init k).
Proof.
  assert (B := ok_buf _ K). split; cbn; try easy.
  - now rewrite map_length.
  - intros _. split; [easy|]. intros i. unfold get_ptr. cbn. revert i. induction (k_names k); intros [|i]; cbn; auto.
  - split; [lia|easy].
  - split; [lia|easy].
Qed.

(** opening *)
Lemma open_inv f fl ns s : s_handle s = None -> inv s -> inv (load_library k w f fl ns s).
Proof.
  intros H [L N S U E P R]. unfold load_library. destruct (w_open _ _ _ _ _) as [h|] eqn:O.
  - destruct (N H) as [N1 N2]. split; cbn; try easy.
    intros h' [= <-]. split; [now left|]. exists []. split; [easy|]. split; [|now left]. intros i n _. cbn. apply N2.
  - destruct (N H) as [N1 N2]. split; cbn; try easy.
Qed.
Lemma load_args_inv f fl ns s : inv s -> inv (snd (load_lib_args k w f fl ns s)).
Proof.
  intros I. unfold load_lib_args. destruct (lib_is_loaded _) eqn:E; [now apply save_inv, clear_inv|].
  destruct f as [[|c f]|]; [now apply save_inv, clear_inv| |now apply save_inv, clear_inv].
  assert (J : inv (load_library k w (c :: f) fl ns (clear_error w s))).
  { apply open_inv; [|now apply clear_inv]. unfold lib_is_loaded in E. now destruct (s_handle _). }
  destruct (lib_is_loaded (load_library _ _ _ _ _ _)); [easy|]. now apply error_inv.
Qed.

(** closing *)
Lemma nth_none {A B} (l : list B) i : nth i (map (fun _ => @None A) l) None = None.
Proof. revert i. induction l; intros [|i]; cbn; auto. Qed.
Lemma reset_inv s : inv s -> inv (reset k s).
Proof.
  intros [L N S U E P R]. assert (B := ok_buf _ K). split; cbn; auto.
  - now rewrite map_length.
  - intros _. split; [easy|]. intros i. apply nth_none.
  - discriminate.
  - split; [lia|easy].
Qed.
Lemma reset_close_inv h ok s : s_handle s = Some h -> inv s -> inv (reset k (log (EvClose h ok) s)).
Proof.
  intros H I. destruct ok.
  - destruct I as [L N S U E P R]. assert (B := ok_buf _ K). split; cbn; auto.
    + now rewrite map_length.
    + intros _. split; [easy|]. intros i. apply nth_none.
    + discriminate.
    + split; [apply (S h H)|easy].
    + split; [lia|easy].
  - apply reset_inv, log_inv; [|easy]. apply (i_some _ _ I h H).
Qed.
Lemma free_inv s : inv s -> inv (snd (free_lib k w s)).
Proof.
  intros I. unfold free_lib. apply clear_inv in I. destruct (s_handle (clear_error w s)) as [h|] eqn:H; [|now apply reset_inv].
  unfold call_close. destruct (w_close _ _ _).
  - now apply reset_close_inv.
  - apply error_inv, log_inv; [|easy]. apply (i_some _ _ I h H).
Qed.
Lemma force_inv s : inv s -> inv (force_free_lib k w s).
Proof.
  intros I. unfold force_free_lib. apply clear_inv in I. destruct (s_handle (clear_error w s)) as [h|] eqn:H; [|now apply reset_inv].
  now apply reset_close_inv.
Qed.
Lemma force_handle s : s_handle (force_free_lib k w s) = None.
Proof. unfold force_free_lib. now destruct (s_handle (clear_error w s)). Qed.

(** registering *)
Lemma autorelease_inv s : inv s -> inv (snd (enable_autorelease k w s)).
Proof.
  intros I. unfold enable_autorelease. cbn [snd]. apply clear_inv in I. remember (clear_error w s) as s1 eqn:E1. clear E1.
  destruct (s_reg s1) eqn:R; [easy|]. destruct (w_atexit _ _).
  - destruct I as [L N S U E P R']. split; auto.
    + cbn [s_handle with_reg log s_trace]. intros h H. destruct (S h H) as (O & l & A & B & C). split; [easy|].
      cbn [session]. rewrite A. exists (EvAtexit true :: l). split; [easy|]. split; [exact B|].
      destruct C; [now left|right]. now apply named_more.
    + cbn in *. easy.
    + cbn in *. rewrite R in R'. unfold registrations in R'. now rewrite R'.
  - apply save_inv, log_inv; easy.
Qed.

(** symbols *)
Lemma nth_set {A} (d : A) l i p j : i < length l -> nth j (firstn i l ++ p :: skipn (S i) l) d = if Nat.eqb j i then p else nth j l d.
Proof.
  intros H. destruct (Nat.eqb_spec j i) as [->|N].
  - rewrite app_nth2; rewrite firstn_length_le by lia; [|lia]. now rewrite Nat.sub_diag.
  - destruct (lt_dec j i) as [J|J].
    + rewrite app_nth1 by (rewrite firstn_length_le; lia). rewrite <- (firstn_skipn i l) at 2.
      now rewrite app_nth1 by (rewrite firstn_length_le; lia).
    + rewrite app_nth2; rewrite firstn_length_le by lia; [|lia]. destruct (j - i) as [|m] eqn:E; [lia|]. cbn [nth].
      rewrite <- (firstn_skipn (S i) l) at 2. rewrite app_nth2; rewrite firstn_length_le by lia; [|lia]. f_equal. lia.
Qed.
Lemma set_length {A} (l : list A) i p : i < length l -> length (firstn i l ++ p :: skipn (S i) l) = length l.
Proof. intros H. rewrite app_length, firstn_length_le by lia. cbn [length]. rewrite skipn_length. lia. Qed.
Lemma str_eqb_true a b : str_eqb a b = true <-> a = b.
Proof. split; [apply str_eqb_eq|]. intros ->. apply str_eqb_refl. Qed.

(** one symbol asked for and its pointer set *)
Definition asked (h : ptr) (i : nat) (n : str) (s s' : st) : Prop :=
  let r := w_sym w (s_trace s) h n in
  s_handle s' = Some h /\ get_ptr i s' = r /\ (forall j, j <> i -> get_ptr j s' = get_ptr j s) /\
  length (s_ptrs s') = length (s_ptrs s) /\ s_reg s' = s_reg s /\ s_end s' = s_end s /\
  s' = set_ptr i r (match r with Some _ => log (EvSym h n r) s | None => save_error k w (log (EvSym h n r) s) end).
Lemma ask h i n s : s_handle s = Some h -> nth_error (k_names k) i = Some n -> inv s ->
  exists s1 r, gdo_sym k w n s = Ok (r, s1) /\ r = w_sym w (s_trace s) h n /\ asked h i n s (set_ptr i r s1) /\ inv (set_ptr i r s1).
Proof.
  intros H Hn I. unfold gdo_sym. rewrite H.
  set (r := w_sym w (s_trace s) h n).
  assert (Hi : i < length (s_ptrs s)) by (rewrite (i_len _ _ I); apply nth_error_Some; congruence).
  set (s1 := match r with Some _ => log (EvSym h n r) s | None => save_error k w (log (EvSym h n r) s) end).
  exists s1, r. split; [subst s1; destruct r; easy|]. split; [easy|].
  assert (P1 : s_ptrs s1 = s_ptrs s).
  { subst s1. destruct r; [easy|]. unfold save_error, call_error, save_to_errbuf. now destruct (w_error _ _). }
  assert (H1 : s_handle s1 = Some h).
  { subst s1. destruct r; [easy|]. unfold save_error, call_error, save_to_errbuf. now destruct (w_error _ _). }
  assert (R1 : s_reg s1 = s_reg s).
  { subst s1. destruct r; [easy|]. unfold save_error, call_error, save_to_errbuf. now destruct (w_error _ _). }
  assert (E1 : s_end s1 = s_end s).
  { subst s1. destruct r; [easy|]. unfold save_error, call_error, save_to_errbuf. now destruct (w_error _ _). }
  assert (L1 : s_libpath s1 = s_libpath s).
  { subst s1. destruct r; [easy|]. unfold save_error, call_error, save_to_errbuf. now destruct (w_error _ _). }
  assert (T1 : exists q, s_trace s1 = q ++ EvSym h n r :: s_trace s /\ (q = [] \/ exists m, q = [EvError m])).
  { subst s1. destruct r; [exists []; now split; [|left]|]. exists [EvError (w_error w (s_trace (log (EvSym h n None) s)))]. split; [|right; now eexists].
    unfold save_error, call_error, save_to_errbuf. now destruct (w_error _ _). }
  assert (B1 : length (s_errbuf s1) < k_buflen k /\ c_str (s_errbuf s1) = s_errbuf s1).
  { subst s1. destruct r; [apply (i_err _ _ I)|]. unfold save_error, call_error. cbn [fst snd].
    assert (J := i_err _ _ I). unfold save_to_errbuf. destruct (w_error _ _); cbn.
    - split; [|apply c_str_firstn, c_str_id]. pose proof (firstn_le_length (k_buflen k - 1) (c_str s0)). pose proof (ok_buf _ K). lia.
    - pose proof (ok_buf _ K). split; [lia|easy]. }
  split.
  - unfold asked. fold r. cbn [s_handle set_ptr with_ptrs s_ptrs s_reg s_end]. unfold get_ptr. cbn [set_ptr with_ptrs s_ptrs].
    rewrite P1. repeat apply conj; auto.
    + now rewrite nth_set, Nat.eqb_refl by lia.
    + intros j Hj. rewrite nth_set by lia. now destruct (Nat.eqb_spec j i).
    + now apply set_length.
  - destruct T1 as (q & T & Q). assert (Dn := ok_nodup _ K). split; cbn [set_ptr with_ptrs s_ptrs s_handle s_trace s_errbuf s_libpath s_reg].
    + rewrite P1, set_length by lia. apply (i_len _ _ I).
    + rewrite H1. discriminate.
    + rewrite H1. intros h' [= <-]. destruct (i_some _ _ I h H) as (O & l & A & B & C). rewrite T, L1.
      split; [destruct Q as [->|[m ->]]; exact O|].
      exists (q ++ EvSym h n r :: l). split; [destruct Q as [->|[m ->]]; cbn; now rewrite A|]. split.
      * intros j m Hm. unfold get_ptr. cbn [set_ptr with_ptrs s_ptrs]. rewrite P1, nth_set by lia.
        assert (Z : last_answer h m (q ++ EvSym h n r :: l) = if str_eqb m n then r else last_answer h m l).
        { destruct Q as [->|[x ->]]; cbn; now rewrite Nat.eqb_refl. }
        rewrite Z. destruct (Nat.eqb_spec j i) as [->|N].
        -- assert (m = n) by congruence. subst. now rewrite str_eqb_refl.
        -- destruct (str_eqb m n) eqn:E; [|now apply B]. apply str_eqb_true in E. subst m. elim N.
           apply (proj1 (NoDup_nth_error _) Dn); [apply nth_error_Some; congruence|congruence].
      * destruct C as [C|C]; [now left|right]. destruct Q as [->|[m ->]]; cbn [app]; repeat apply named_more; exact C.
    + rewrite T. destruct (i_some _ _ I h H) as (O & _). assert (U := i_uses _ _ I). destruct Q as [->|[m ->]]; cbn; auto.
    + exact B1.
    + rewrite L1. apply (i_path _ _ I).
    + rewrite T, R1, <- (i_reg _ _ I). now destruct Q as [->|[m ->]].
Qed.
End K.

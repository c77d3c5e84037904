(** Proofs about common prefixes, library names and paths. *)
From Coq Require Import Ascii String List Bool Arith Lia.
From Verif Require Import Str StrFacts Parse Prefix Substitute SpecSubstitute Options Generate SpecGenerate.
Import ListNotations.

(* ------------------------------------------------------------ common prefix *)

Lemma char_at_ok (p : str) i : i <= length p -> char_at p i = Ok (nth i p nul).
Proof. intros H. unfold char_at. now rewrite (proj2 (Nat.leb_le _ _) H). Qed.

(** the first [i] characters agree and there are that many *)
Definition agree (front : str) (i : nat) (s : str) : Prop := i <= length s /\ firstn i s = firstn i front.

Lemma firstn_snoc (s : str) i : i < length s -> firstn (i + 1) s = firstn i s ++ [nth i s nul].
Proof.
  revert i. induction s as [|c s IH]; intros i H; [cbn in H; lia|]. destruct i as [|i]; [reflexivity|].
  cbn in *. f_equal. apply IH. lia.
Qed.

Lemma nth_len (s : str) i : i <= length s -> nth i s nul <> nul -> i < length s.
Proof.
  intros H N. destruct (Nat.eq_dec i (length s)) as [->|D]; [|lia]. elim N. apply nth_overflow. lia.
Qed.

Lemma compare_spec front i l : i < length front -> Forall (agree front i) l ->
  exists b, compare_chars_at front i l = Ok b /\
  (b = false -> Forall (agree front (i + 1)) l) /\
  (b = true -> exists s, In s l /\ (nth i s nul = nul \/ nth i s nul <> nth i front nul)).
Proof.
  intros Hi. induction l as [|s l IH]; intros F.
  - exists false. split; [reflexivity|]. split; [intros _; constructor|discriminate].
  - inversion F as [|? ? A F']; subst. destruct A as [L E]. destruct (IH F') as (b & R & B0 & B1).
    cbn [compare_chars_at]. rewrite (char_at_ok s i L), (char_at_ok front i) by lia. cbn [bind].
    destruct (Ascii.eqb (nth i s nul) nul) eqn:N.
    + exists true. cbn [orb]. split; [reflexivity|]. split; [discriminate|]. intros _. exists s. split; [now left|].
      left. now apply Ascii.eqb_eq.
    + cbn [orb]. destruct (Ascii.eqb (nth i s nul) (nth i front nul)) eqn:C; cbn [negb].
      * exists b. split; [exact R|]. split.
        -- intros Hb. constructor; [|now apply B0]. apply Ascii.eqb_neq in N. apply Ascii.eqb_eq in C.
           pose proof (nth_len _ _ L N). split; [lia|]. now rewrite !firstn_snoc, E, C by lia.
        -- intros Hb. destruct (B1 Hb) as (t & T & Q). exists t. split; [now right|exact Q].
      * exists true. split; [reflexivity|]. split; [discriminate|]. intros _. exists s. split; [now left|].
        right. now apply Ascii.eqb_neq.
Qed.

Lemma prefix_loop_spec front v1 v2 n : forall i, i + n = length front -> Forall (agree front i) v1 -> Forall (agree front i) v2 ->
  exists k, prefix_loop front v1 v2 i n = Ok k /\ k <= length front /\
  Forall (agree front k) v1 /\ Forall (agree front k) v2 /\
  (k < length front -> exists s, In s (v1 ++ v2) /\ (nth k s nul = nul \/ nth k s nul <> nth k front nul)).
Proof.
  induction n as [|n IH]; intros i L F1 F2.
  - exists i. cbn. repeat split; try easy; lia.
  - cbn [prefix_loop]. destruct (compare_spec front i v1) as (b1 & -> & H0 & H1); [lia|exact F1|]. cbn [bind].
    destruct b1.
    + cbn [bind]. exists i. split; [reflexivity|]. split; [lia|]. split; [exact F1|]. split; [exact F2|]. intros _.
      destruct (H1 eq_refl) as (s & S & Q). exists s. split; [apply in_or_app; now left|exact Q].
    + destruct (compare_spec front i v2) as (b2 & -> & K0 & K1); [lia|exact F2|]. cbn [bind]. destruct b2.
      * exists i. split; [reflexivity|]. split; [lia|]. split; [exact F1|]. split; [exact F2|]. intros _.
        destruct (K1 eq_refl) as (s & S & Q). exists s. split; [apply in_or_app; now right|exact Q].
      * apply IH; [lia| |]; auto.
Qed.

Lemma agree_0 front l : Forall (agree front 0) l.
Proof. apply Forall_forall. intros s _. split; [lia|reflexivity]. Qed.

Lemma agree_prefix front k s : agree front k s -> exists r, s = firstn k front ++ r.
Proof. intros [_ E]. exists (skipn k s). rewrite <- E. symmetry. apply firstn_skipn. Qed.

Lemma prefix_nth (q r : str) k : k < length q -> nth k (q ++ r) nul = nth k q nul.
Proof. intros H. now apply app_nth1. Qed.

(** the result for a first symbol and the others *)
Lemma prefix_result f v1 v2 : exists p, (i <- prefix_loop f v1 v2 0 (length f) ;; Ok (firstn i f)) = Ok p /\
  begins_all p (f :: v1 ++ v2) /\
  (Forall (fun n => ~ In nul n) (f :: v1 ++ v2) -> forall q, begins_all q (f :: v1 ++ v2) -> exists r, p = q ++ r).
Proof.
  destruct (prefix_loop_spec f v1 v2 (length f) 0 eq_refl (agree_0 _ _) (agree_0 _ _)) as (k & -> & L & F1 & F2 & Stop).
  cbn [bind]. exists (firstn k f). split; [reflexivity|]. split.
  - constructor; [exists (skipn k f); symmetry; apply firstn_skipn|]. apply Forall_app. split.
    + eapply Forall_impl; [|exact F1]. intros s. apply agree_prefix.
    + eapply Forall_impl; [|exact F2]. intros s. apply agree_prefix.
  - intros NN q Q. inversion Q as [|? ? [r Hr] Q']; subst. clear Q. rename Q' into Q.
    destruct (Nat.le_gt_cases (length q) k) as [H|H].
    + exists (firstn (k - length q) r). rewrite firstn_app, (firstn_all2 q) by lia. reflexivity.
    + exfalso. assert (Lk : k < length (q ++ r)) by (rewrite app_length; lia).
      destruct (Stop Lk) as (s & S & D). rewrite Forall_forall in Q. destruct (Q s S) as [r' E].
      assert (nth k s nul = nth k (q ++ r) nul) as N by (rewrite E, !prefix_nth by lia; reflexivity).
      destruct D as [D|D]; [|easy].
      inversion NN as [|? ? _ NN']; subst. rewrite Forall_forall in NN'. apply (NN' _ S). rewrite <- D at 1.
      apply nth_In. rewrite app_length. lia.
Qed.

Lemma common_prefix_spec fs os : exists p, get_common_prefix fs os = Ok p /\ begins_all p (fs ++ os) /\
  (2 <= length fs + length os -> Forall (fun n => ~ In nul n) (fs ++ os) ->
   forall q, begins_all q (fs ++ os) -> exists r, p = q ++ r).
Proof.
  unfold get_common_prefix. destruct (Nat.ltb _ 2) eqn:E.
  - exists []. split; [reflexivity|]. split; [apply Forall_forall; intros n _; now exists n|]. apply Nat.ltb_lt in E. lia.
  - apply Nat.ltb_ge in E. destruct fs as [|f v].
    + destruct os as [|f v]; [cbn in E; lia|]. destruct (prefix_result f [] v) as (p & R & B & M). exists p. auto.
    + destruct (prefix_result f v os) as (p & R & B & M). exists p. auto.
Qed.

Theorem prefix_longest fs os : Forall (fun n => ~ In nul n) (fs ++ os) -> 2 <= length (fs ++ os) ->
  exists p, get_common_prefix fs os = Ok p /\ begins_all p (fs ++ os) /\
  forall q, begins_all q (fs ++ os) -> exists r, p = q ++ r.
Proof.
  intros N L. rewrite app_length in L. destruct (common_prefix_spec fs os) as (p & R & B & M). exists p. auto.
Qed.
Theorem prefix_defined fs os : exists p, get_common_prefix fs os = Ok p /\ begins_all p (fs ++ os) /\
  (length (fs ++ os) < 2 -> p = []).
Proof.
  destruct (common_prefix_spec fs os) as (p & R & B & M). exists p. split; [exact R|]. split; [exact B|].
  rewrite app_length. intros L. unfold get_common_prefix in R. rewrite (proj2 (Nat.ltb_lt _ _) L) in R. congruence.
Qed.
(** testing the prefix and then the rest is comparing the whole *)
Theorem prefix_lookup fs os p name : get_common_prefix fs os = Ok p ->
  forall n, In n (fs ++ os) ->
  (n = name <-> starts_with p name = true /\ skipn (length p) name = skipn (length p) n).
Proof.
  intros R n I. destruct (common_prefix_spec fs os) as (p' & R' & B & _). rewrite R in R'. injection R' as <-.
  unfold begins_all in B. rewrite Forall_forall in B. destruct (B n I) as [r E]. split.
  - intros <-. split; [rewrite E; apply starts_with_app|reflexivity].
  - intros [S T]. apply starts_with_spec in S. destruct S as [r' S]. rewrite S, E in T. rewrite !skipn_app_exact in T. now subst.
Qed.

(* ------------------------------------------------------------ library name *)

Lemma quotes_test (s : str) : Nat.leb 2 (length s) && front_and_back s [dquote] [dquote] = true <-> in_quotes s.
Proof.
  unfold front_and_back. rewrite !andb_true_iff, Nat.leb_le, starts_with_spec, ends_with_spec. split.
  - intros [L [[r R] [q Q]]]. subst s. destruct q as [|c q]; [cbn in Q; injection Q as Q; subst; cbn in L; lia|].
    exists q. cbn in Q |- *. now injection Q as -> ->.
  - intros [x ->]. split; [cbn; rewrite app_length; cbn; lia|]. split; [now exists (x ++ [dquote])|]. now exists (dquote :: x).
Qed.
Lemma wide_test (s : str) : Nat.leb 3 (length s) && front_and_back s ($"L" ++ [dquote]) [dquote] = true <-> in_wide_quotes s.
Proof.
  unfold front_and_back. rewrite !andb_true_iff, Nat.leb_le, starts_with_spec, ends_with_spec. split.
  - intros [L [[r R] [q Q]]]. subst s. destruct q as [|c q]; [cbn in Q; discriminate Q|].
    destruct q as [|d q]; [cbn in Q; injection Q as ? Q; subst; cbn in L; lia|].
    exists q. cbn in Q |- *. now injection Q as -> -> ->.
  - intros [x ->]. split; [cbn; rewrite app_length; cbn; lia|]. split; [now exists (x ++ [dquote])|].
    now exists ($"L" ++ dquote :: x).
Qed.

Lemma quote_narrow s : literal s (quote_lib s false).
Proof.
  unfold quote_lib. destruct (_ && _) eqn:E.
  - apply quotes_test in E. now constructor.
  - constructor. intros Q. apply quotes_test in Q. congruence.
Qed.
Lemma quote_wide s : wide_literal s (quote_lib s true).
Proof.
  unfold quote_lib. destruct (Nat.leb 3 _ && _) eqn:E; [apply wide_test in E; now constructor|].
  destruct (Nat.leb 2 _ && _) eqn:F; [apply quotes_test in F; now constructor|].
  apply WideQuoted; intros Q; [apply wide_test in Q|apply quotes_test in Q]; congruence.
Qed.
Lemma literal_fun s a b : literal s a -> literal s b -> a = b.
Proof. intros A B. inversion A; inversion B; subst; congruence || contradiction. Qed.
Lemma wide_no_quotes s : in_wide_quotes s -> in_quotes s -> False.
Proof. intros [x ->] [y E]. cbn in E. discriminate E. Qed.
Lemma wide_fun s a b : wide_literal s a -> wide_literal s b -> a = b.
Proof.
  intros A B. inversion A; inversion B; subst; try congruence; try contradiction;
    exfalso; eapply wide_no_quotes; eassumption.
Qed.
Theorem quote_idempotent s wide : quote_lib (quote_lib s wide) wide = quote_lib s wide.
Proof.
  destruct wide.
  - assert (in_wide_quotes (quote_lib s true)) as H.
    { destruct (quote_wide s) as [s H|s [x ->]|s _ _]; [easy|now exists x|now exists s]. }
    eapply wide_fun; [apply quote_wide|now constructor].
  - assert (in_quotes (quote_lib s false)) as H.
    { destruct (quote_narrow s) as [s H|s _]; [easy|now exists s]. }
    eapply literal_fun; [apply quote_narrow|now constructor].
Qed.

Lemma moded_test mode v x : moded (map tolower mode) v x -> map tolower mode = mode ->
  prefixed_and_longer_case v mode = true /\ skipn (length mode) v = x.
Proof.
  intros (m & -> & E & N) I. assert (length m = length mode) as L by (rewrite <- (map_length tolower m), E; apply map_length).
  unfold prefixed_and_longer_case. rewrite app_length, map_app, <- E, starts_with_app, andb_true_r. split.
  - apply Nat.ltb_lt. destruct x; [easy|cbn; lia].
  - rewrite <- L. apply skipn_app_exact.
Qed.
Lemma test_moded mode v : prefixed_and_longer_case v mode = true -> map tolower mode = mode -> moded mode v (skipn (length mode) v).
Proof.
  unfold prefixed_and_longer_case. rewrite andb_true_iff, Nat.ltb_lt. intros [L S] I. rewrite I in S.
  exists (firstn (length mode) v). split; [symmetry; apply firstn_skipn|]. split.
  - apply starts_with_spec in S. destruct S as [r S].
    apply (f_equal (firstn (length mode))) in S. rewrite firstn_app_exact, firstn_map in S. exact S.
  - intros E. apply (f_equal (@length _)) in E. rewrite skipn_length in E. cbn in E. lia.
Qed.

(** first characters *)
Definition first_char (c : ascii) (v : str) : Prop := exists r, v = c :: r.
Lemma lower_cases (c d : ascii) : tolower c = d -> islower d = true -> c = d \/ c = toupper d.
Proof.
  intros E L. subst d. unfold tolower in *. destruct (isupper c) eqn:U; [right|now left].
  destruct c as [[] [] [] [] [] [] [] []]; vm_compute in U |- *; congruence.
Qed.
Lemma moded_head mode v x a r : moded mode v x -> mode = a :: r -> islower a = true ->
  exists c v', v = c :: v' /\ (c = a \/ c = toupper a).
Proof.
  intros (m & -> & E & _) -> L. destruct m as [|c m]; [discriminate E|]. cbn in E. injection E as E _.
  exists c, (m ++ x). split; [reflexivity|]. now apply lower_cases.
Qed.

Lemma find_colon n x : ~ In ":"%char n -> find $":" (n ++ $":" ++ x) = Some (length n).
Proof.
  change $":" with [":"%char]. cbn [app]. induction n as [|c n IH]; intros H; [reflexivity|].
  specialize (IH (fun K => H (or_intror K))). cbn [app find length]. destruct (starts_with _ _) eqn:E.
  - cbn [starts_with] in E. apply andb_true_iff in E. destruct E as [E _]. apply Ascii.eqb_eq in E. subst. elim H. now left.
  - rewrite IH. reflexivity.
Qed.
Lemma one_line_test s : one_line s <-> existsb line_end s = false.
Proof.
  unfold one_line. split.
  - intros [A B]. destruct (existsb line_end s) eqn:E; [|reflexivity]. exfalso. apply existsb_exists in E. destruct E as (c & I & T).
    unfold line_end in T. apply orb_true_iff in T. destruct T as [T|T]; apply Ascii.eqb_eq in T; subst; contradiction.
  - intros E. split; intros I; (rewrite (proj2 (existsb_exists line_end s)) in E; [discriminate E|]); eexists; (split; [exact I|]); reflexivity.
Qed.
Lemma match_api_ok n x : ~ In ":"%char n -> one_line (n ++ $":" ++ x) -> match_api (n ++ $":" ++ x) = Some (n, x).
Proof.
  intros N O. unfold match_api. rewrite (proj1 (one_line_test _) O), (find_colon n x N). rewrite firstn_app_exact.
  do 2 f_equal. cbn [lit list_ascii_of_string app]. replace (length n + 1) with (length (n ++ [":"%char])) by (rewrite app_length; cbn; lia).
  change (n ++ ":"%char :: x) with (n ++ [":"%char] ++ x). rewrite app_assoc. apply skipn_app_exact.
Qed.

Definition reserved (c : ascii) : bool :=
  Ascii.eqb c "N" || Ascii.eqb c "n" || (Ascii.eqb c "E" || Ascii.eqb c "e") || (Ascii.eqb c "A" || Ascii.eqb c "a").

Theorem libname_nq up v x : moded $"nq:" v x -> format_libname v up = Ok (lib_macros up x x).
Proof.
  intros M. destruct (moded_head _ _ _ "n"%char $"q:" M eq_refl eq_refl) as (c & v' & E & C).
  destruct (moded_test $"nq:" v x M eq_refl) as [T S]. unfold format_libname, libname. subst v.
  assert ((Ascii.eqb c "N" || Ascii.eqb c "n") = true) as -> by (destruct C as [-> | ->]; reflexivity).
  rewrite T. change 3 with (length $"nq:"). rewrite S. reflexivity.
Qed.
Theorem libname_ext up v x a w : moded $"ext:" v x -> literal x a -> wide_literal x w ->
  format_libname v up = Ok (lib_macros up (a ++ $" " ++ up ++ $"_LIBEXTA") (w ++ $" " ++ up ++ $"_LIBEXTW")).
Proof.
  intros M A W. destruct (moded_head _ _ _ "e"%char $"xt:" M eq_refl eq_refl) as (c & v' & E & C).
  destruct (moded_test $"ext:" v x M eq_refl) as [T S]. unfold format_libname, libname. subst v.
  assert ((Ascii.eqb c "N" || Ascii.eqb c "n") = false) as -> by (destruct C as [-> | ->]; reflexivity).
  assert ((Ascii.eqb c "E" || Ascii.eqb c "e") = true) as -> by (destruct C as [-> | ->]; reflexivity).
  rewrite T. change 4 with (length $"ext:"). rewrite S. rewrite (literal_fun _ _ _ A (quote_narrow x)), (wide_fun _ _ _ W (quote_wide x)). reflexivity.
Qed.
Theorem libname_api up v n x : moded $"api:" v (n ++ $":" ++ x) -> ~ In ":"%char n -> one_line (n ++ $":" ++ x) ->
  format_libname v up = Ok (lib_macros up (up ++ $"_LIBNAMEA(" ++ x ++ $"," ++ n ++ $")") (up ++ $"_LIBNAMEW(" ++ x ++ $"," ++ n ++ $")")).
Proof.
  intros M N O. destruct (moded_head _ _ _ "a"%char $"pi:" M eq_refl eq_refl) as (c & v' & E & C).
  destruct (moded_test $"api:" v _ M eq_refl) as [T S]. unfold format_libname, libname. subst v.
  assert ((Ascii.eqb c "N" || Ascii.eqb c "n") = false) as -> by (destruct C as [-> | ->]; reflexivity).
  assert ((Ascii.eqb c "E" || Ascii.eqb c "e") = false) as -> by (destruct C as [-> | ->]; reflexivity).
  assert ((Ascii.eqb c "A" || Ascii.eqb c "a") = true) as -> by (destruct C as [-> | ->]; reflexivity).
  rewrite T. change 4 with (length $"api:"). rewrite S, (match_api_ok n x N O). reflexivity.
Qed.
Theorem libname_plain up c r a w : ~ In c [ "a"; "A"; "e"; "E"; "n"; "N" ]%char -> literal (c :: r) a -> wide_literal (c :: r) w ->
  format_libname (c :: r) up = Ok (lib_macros up a w).
Proof.
  intros N A W. unfold format_libname, libname.
  assert (forall d, In d [ "a"; "A"; "e"; "E"; "n"; "N" ]%char -> Ascii.eqb c d = false) as D.
  { intros d I. apply Ascii.eqb_neq. intros ->. now apply N. }
  rewrite !D by (cbn; tauto). cbn [orb].
  rewrite (literal_fun _ _ _ A (quote_narrow _)), (wide_fun _ _ _ W (quote_wide _)). reflexivity.
Qed.
Theorem libname_dropped up c r : In c [ "a"; "A"; "e"; "E"; "n"; "N" ]%char -> no_mode (c :: r) -> format_libname (c :: r) up = Ok [].
Proof.
  intros I N. unfold format_libname, libname.
  assert (forall m, In m [$"nq:"; $"ext:"; $"api:"] -> map tolower m = m -> prefixed_and_longer_case (c :: r) m = false) as D.
  { intros m Im L. destruct (prefixed_and_longer_case (c :: r) m) eqn:E; [|reflexivity]. exfalso. eapply N; [exact Im|]. now apply test_moded. }
  rewrite (D $"nq:"), (D $"ext:"), (D $"api:") by (reflexivity || (cbn; tauto)).
  cbn in I. repeat (destruct I as [<-|I]; [reflexivity|]). contradiction.
Qed.

(* ------------------------------------------------------------ paths *)

Lemma split_file (f : str) : ~ In "/"%char f -> split_path f = ([], f).
Proof.
  induction f as [|c f IH]; intros N; [reflexivity|]. cbn [split_path]. rewrite IH by (intros K; apply N; now right).
  destruct (Ascii.eqb c "/") eqn:E; [apply Ascii.eqb_eq in E; subst; elim N; now left|reflexivity].
Qed.
Lemma split_dir (d f : str) : ~ In "/"%char f -> split_path (d ++ "/"%char :: f) = (d ++ $"/", f).
Proof.
  intros N. induction d as [|c d IH].
  - cbn [app split_path]. rewrite split_file by exact N. reflexivity.
  - cbn [app split_path]. rewrite IH. destruct d; reflexivity.
Qed.
Lemma split_ok d f : dir_part d -> ~ In "/"%char f -> split_path (d ++ f) = (d, f).
Proof.
  intros [->|[d' ->]] N; [now apply split_file|]. rewrite <- app_assoc. cbn [lit list_ascii_of_string app]. now rewrite split_dir.
Qed.
Lemma last_dot_none f : ~ In "."%char f -> last_dot f = None.
Proof.
  induction f as [|c f IH]; intros N; [reflexivity|]. cbn [last_dot]. rewrite IH by (intros K; apply N; now right).
  destruct (Ascii.eqb c ".") eqn:E; [apply Ascii.eqb_eq in E; subst; elim N; now left|reflexivity].
Qed.
Lemma last_dot_some a x : ~ In "."%char x -> last_dot (a ++ $"." ++ x) = Some (length a).
Proof.
  intros N. induction a as [|c a IH]; cbn [app last_dot length].
  - cbn [lit list_ascii_of_string app last_dot]. now rewrite last_dot_none.
  - now rewrite IH.
Qed.
Theorem extension_replaced d a x e : dir_part d -> a <> [] -> ~ In "/"%char (a ++ $"." ++ x) -> ~ In "."%char x -> a ++ $"." ++ x <> $".." ->
  replace_extension (d ++ a ++ $"." ++ x) e = d ++ a ++ $"." ++ e.
Proof.
  intros D A N X Z. unfold replace_extension, parent, filename. rewrite (split_ok d (a ++ $"." ++ x) D N). cbn [fst snd]. unfold stem.
  rewrite (proj2 (str_eqb_neq _ _) Z), (last_dot_some a x X). destruct a as [|c a]; [easy|]. cbn [length].
  change (S (length a)) with (length (c :: a)). now rewrite firstn_app_exact.
Qed.
Theorem extension_added d a e : dir_part d -> ~ In "/"%char a -> ~ In "."%char a ->
  replace_extension (d ++ a) e = d ++ a ++ $"." ++ e.
Proof.
  intros D N X. unfold replace_extension, parent, filename. rewrite (split_ok d a D N). cbn [fst snd]. unfold stem.
  destruct (str_eqb a $"..") eqn:E; [reflexivity|]. now rewrite last_dot_none.
Qed.

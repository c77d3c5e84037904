(** The text printed by -print-symbols is a header: lemmas for C86. *)
From Coq Require Import Ascii String List Bool Arith NArith ZArith Lia.
From Verif Require Import Str StrFacts NumFacts Lex SpecLex SpecTokenize Parse SpecParse SpecTables SpecFormat Format FormatFacts FormatProps TypedefFacts Options Generate SpecEndToEnd SpecSymbols PrintLex.
Import ListNotations.

(* ------------------------------------------------------------ laid out token lists *)

Lemma unblank_snoc a t : unblank (a ++ [sp]) t -> (exists t0, t = t0 ++ [sp] /\ unblank a t0) \/ unblank a t.
Proof.
  revert t. induction a as [|c a IH]; intros t U; cbn [app] in U.
  - inversion U as [|? ? ? U1|? ? ? _ U1]; subst; inversion U1; subst; [left; exists []; split; [reflexivity|constructor]|right; constructor].
  - inversion U as [|c0 s0 s1 U1|c0 s0 s1 C1 U1]; subst.
    + destruct (IH _ U1) as [(t0 & -> & U2)|U2]; [left; exists (c :: t0); split; [reflexivity|now constructor]|right; now constructor].
    + destruct (IH _ U1) as [(t0 & -> & U2)|U2]; [left; exists t0; split; [reflexivity|now constructor]|right; now constructor].
Qed.
Lemma laid_spaced ts : Forall lexeme ts -> laid ts (spaced ts).
Proof. intros L. split; [apply unblank_refl|now apply tokens_spaced]. Qed.
Lemma spaced_unwords ts : ts <> [] -> spaced ts = unwords ts ++ [sp].
Proof.
  induction ts as [|x [|y ts] IH]; intros N; [now elim N|unfold spaced, unwords; cbn; now rewrite app_nil_r|]. rewrite spaced_cons, IH by discriminate.
  change (unwords (x :: y :: ts)) with (x ++ $" " ++ unwords (y :: ts)). now rewrite <- !app_assoc.
Qed.
Lemma laid_unwords ts : Forall lexeme ts -> laid ts (unwords ts).
Proof.
  intros L. destruct ts as [|x ts]; [now apply laid_spaced|]. split.
  - rewrite spaced_unwords by discriminate. apply unblank_spaces. repeat constructor.
  - rewrite <- (tokens_spaced (x :: ts) L), spaced_unwords by discriminate. symmetry. apply tokens_spaces. repeat constructor.
Qed.
Lemma laid_formatted ts s t : laid ts s -> formatted s t -> laid ts t.
Proof.
  intros (U & T) F. destruct (format_spec s) as (u & E & U' & T' & _). unfold formatted in F. rewrite F in E. injection E as <-. split; [now apply (unblank_trans _ s)|congruence].
Qed.
Lemma tokens_mark_app c a b : is_ident c = false -> isspace c = false -> tokens (a ++ c :: b) = tokens a ++ [[c]] ++ tokens b.
Proof. intros C S. unfold tokens. rewrite (tokens_from_app c b C), (tokens_snoc_mark c S C), <- app_assoc. reflexivity. Qed.
Lemma tokens_gap_app a b : tokens (a ++ sp :: b) = tokens a ++ tokens b.
Proof. unfold tokens. rewrite (tokens_from_app sp b eq_refl), (tokens_snoc sp eq_refl eq_refl). reflexivity. Qed.
(** a type in front of a name *)
Lemma laid_type ty T ts t : ty <> [] -> laid ty T -> tidy T -> laid ts t -> laid (ty ++ ts) (print_type T ++ t).
Proof.
  intros N (U & K) (_ & _ & _ & E) (U' & K'). unfold laid. rewrite spaced_app, flat_map_app, <- K, <- K'. unfold print_type. destruct (ends_with $"*" T) eqn:S.
  - split; [now apply unblank_app|]. unfold ends_with in S. change (List.rev $"*") with $"*" in S. apply starts_with_spec in S as (r & S).
    assert (X : T = rev r ++ $"*") by (rewrite <- (rev_involutive T), S; reflexivity). rewrite X, <- app_assoc. change ($"*" ++ t) with ("*"%char :: t).
    rewrite tokens_mark_app by reflexivity. change (rev r ++ $"*") with (rev r ++ "*"%char :: []). rewrite (tokens_mark_app "*" (rev r) []) by reflexivity. rewrite <- app_assoc. reflexivity.
  - split.
    + rewrite <- app_assoc. rewrite spaced_unwords by exact N. rewrite <- app_assoc. rewrite spaced_unwords in U by exact N.
      destruct (unblank_snoc _ _ U) as [(t0 & -> & _)|U2]; [specialize (E sp t0 eq_refl); discriminate E|]. apply unblank_app; [exact U2|]. cbn [app]. now constructor.
    + rewrite <- app_assoc. apply tokens_gap_app.
Qed.
Lemma laid_word x : ident_word x -> laid [x] x.
Proof.
  intros W. split; [rewrite spaced_cons; apply (unblank_spaces x [sp]); repeat constructor|]. cbn [flat_map]. rewrite (dots_word x W). rewrite <- (app_nil_r x) at 1.
  change (x ++ []) with (x ++ [] ++ []). rewrite (tokens_loose x [] []); [now rewrite (dots_word x W)|now left|right; split; auto].
Qed.
Lemma laid_call x ps a : ident_word x -> laid ps a -> laid ([x] ++ [$"("] ++ ps ++ [$")"]) (x ++ $"(" ++ a ++ $")").
Proof.
  intros W (U & T). destruct (laid_word x W) as (U1 & T1). unfold laid. rewrite !spaced_app, !flat_map_app. split.
  - apply unblank_app; [exact U1|]. apply unblank_app; [repeat constructor|]. apply unblank_app; [exact U|repeat constructor].
  - change (x ++ $"(" ++ a ++ $")") with (x ++ "("%char :: (a ++ ")"%char :: [])). rewrite !tokens_mark_app by reflexivity. rewrite T, T1. reflexivity.
Qed.

(* ------------------------------------------------------------ lines *)

Definition line_of (ts : list str) (t : str) : Prop := ts <> [] /\ Forall good_tok ts /\ laid ts t.
Lemma piece_sort x : lexeme x -> sort (piece_of x) < 2.
Proof.
  intros [W|P]; [rewrite (word_piece x W); cbn; lia|]. unfold punct in P. cbn [In] in P. repeat (destruct P as [<- |P]; [cbn; lia|]). destruct P.
Qed.
Lemma text_app a b : text_of (a ++ b) = text_of a ++ text_of b.
Proof. unfold text_of. now rewrite map_app, concat_app. Qed.
Lemma pieces_tokens_app a : forall n b, (forall m, pieces_tokens m b = pieces_tokens 0 b) -> pieces_tokens n (a ++ b) = pieces_tokens n a ++ pieces_tokens 0 b.
Proof. induction a as [|p a IH]; intros n b H; [cbn [app]; apply H|]. cbn [app pieces_tokens]. rewrite IH by exact H. now rewrite app_assoc. Qed.
(** lines, each after a line end and ended by a semicolon *)
Lemma lines_pieces tss l : Forall2 line_of tss l ->
  exists ps, Forall piece_ok ps /\ text_of ps = concat (map (fun t => [nl] ++ t ++ $";") l) /\
    (forall n, pieces_tokens n ps = flat_map (fun ts => map tok_of ts ++ [T_SEMICOLON]) tss) /\ chain 0 ps = true /\ last_sort 0 ps = 0.
Proof.
  induction 1 as [|ts t tss l (N & G & L) _ (qs & Q1 & Q2 & Q3 & Q4 & Q5)]; [exists []; repeat split; constructor|].
  destruct (laid_pieces ts t G L) as (ps & P1 & P2 & P3 & P4 & P5). exists ((PGap [nl] :: ps ++ [PSemi]) ++ qs).
  split; [rewrite Forall_app; split; [|exact Q1]; constructor; [split; [discriminate|repeat constructor]|]; rewrite Forall_app; split; [exact P1|repeat constructor]|].
  split.
  { rewrite text_app, Q2. cbn [map concat]. f_equal. change (PGap [nl] :: ps ++ [PSemi]) with ([PGap [nl]] ++ ps ++ [PSemi]). rewrite !text_app, P2. reflexivity. }
  split.
  { intros n. rewrite pieces_tokens_app by (intros m; now rewrite !Q3). rewrite Q3. cbn [flat_map]. f_equal. cbn [pieces_tokens app]. rewrite pieces_tokens_app by reflexivity. now rewrite P3. }
  rewrite chain_app, last_sort_app.
  assert (Z : last_sort 0 (PGap [nl] :: ps ++ [PSemi]) = 0) by (change (PGap [nl] :: ps ++ [PSemi]) with ((PGap [nl] :: ps) ++ [PSemi]); rewrite last_sort_app; reflexivity).
  rewrite Z, Q4, Q5. split; [|reflexivity]. rewrite andb_true_r. cbn [chain]. apply andb_true_iff. split; [reflexivity|]. destruct ts as [|y ts]; [now elim N|]. destruct P5 as (r & ->).
  inversion G as [|? ? (Gy & _) _]; subst. pose proof (piece_sort y Gy) as S. cbn [app chain] in *. apply andb_true_iff in P4 as (_ & P4).
  apply andb_true_iff. split; [unfold clash; destruct (sort (piece_of y)) as [|[|n]]; try reflexivity; lia|]. rewrite chain_app, P4. cbn [andb chain sort]. unfold clash.
  destruct (last_sort _ r) as [|k]; reflexivity.
Qed.
Lemma shift_lines (f : str -> str) l : [nl] ++ concat (map (fun t => t ++ $";" ++ [nl]) l) = concat (map (fun t => [nl] ++ t ++ $";") l) ++ [nl].
Proof. induction l as [|t l IH]; [reflexivity|]. cbn [map concat]. rewrite <- !app_assoc. rewrite <- IH. reflexivity. Qed.

Definition object_line (o : proto) : str := print_type (p_type o) ++ p_symbol o.
Definition function_line (f : proto) : str := print_type (p_type f) ++ p_symbol f ++ $"(" ++ p_args f ++ $")".
Definition section (c : str) (l : list str) : str := $"/*" ++ c ++ $"*/" ++ concat (map (fun t => [nl] ++ t ++ $";") l).
Lemma symbols_sections funcs objs tdefs : symbols_text funcs objs tdefs =
  (match tdefs with [] => [] | _ => section $" typedefs " (map (fun t => $"typedef " ++ t) tdefs) ++ [nl; nl] end) ++
  section $" prototypes " (map object_line objs ++ map function_line funcs) ++ match_count (length objs + length funcs).
Proof.
  unfold symbols_text, section, match_count. f_equal.
  - destruct tdefs as [|t0 tdefs]; [reflexivity|]. set (l := t0 :: tdefs).
    assert (E : concat (map (fun t => $"typedef " ++ t ++ $";" ++ [nl]) l) = concat (map (fun t => t ++ $";" ++ [nl]) (map (fun t => $"typedef " ++ t) l))).
    { now rewrite map_map. }
    rewrite E. clear E. pose proof (shift_lines (fun t => t) (map (fun t => $"typedef " ++ t) l)) as S. clearbody l. change ($"/* typedefs */") with ($"/*" ++ $" typedefs " ++ $"*/"). rewrite <- !app_assoc.
    do 3 f_equal. rewrite app_assoc, S, <- app_assoc. reflexivity.
  - assert (E : concat (map (fun o => print_type (p_type o) ++ p_symbol o ++ $";" ++ [nl]) objs) ++ concat (map (fun f => print_type (p_type f) ++ p_symbol f ++ $"(" ++ p_args f ++ $");" ++ [nl]) funcs)
      = concat (map (fun t => t ++ $";" ++ [nl]) (map object_line objs ++ map function_line funcs))).
    { rewrite map_app, concat_app, !map_map. f_equal; f_equal; apply map_ext; intros p; unfold object_line, function_line; now rewrite <- !app_assoc. }
    pose proof (shift_lines (fun t => t) (map object_line objs ++ map function_line funcs)) as S. change ($"/* prototypes */") with ($"/*" ++ $" prototypes " ++ $"*/"). rewrite <- !app_assoc.
    do 3 f_equal. set (tl := $"/***  " ++ _). rewrite (app_assoc (concat _) (concat _)), E, app_assoc, S, <- app_assoc. reflexivity.
Qed.

(** the whole text *)
Lemma section_pieces c tss l : ~ In "/"%char c -> ~ In bslash c -> Forall2 line_of tss l ->
  exists ps, Forall piece_ok ps /\ text_of ps = section c l /\ (forall n, pieces_tokens n ps = flat_map (fun ts => map tok_of ts ++ [T_SEMICOLON]) tss) /\
    (forall k, chain k ps = true) /\ (forall k, last_sort k ps = 0).
Proof.
  intros C1 C2 F. destruct (lines_pieces tss l F) as (ps & P1 & P2 & P3 & P4 & P5). exists (PComment $"/*" c $"*/" :: ps).
  split; [constructor; [now apply plain_comment|exact P1]|]. split; [unfold text_of in *; cbn [map concat piece_text]; rewrite P2; unfold section; now rewrite <- !app_assoc|].
  split; [intros n; cbn [pieces_tokens piece_token app]; apply P3|]. split; [intros k; cbn [chain sort]; rewrite P4; unfold clash; destruct k; reflexivity|].
  intros k. unfold last_sort. cbn [fold_left sort]. exact P5.
Qed.
Lemma digits_clean n : ~ In "/"%char (nat_to_string n) /\ ~ In bslash (nat_to_string n).
Proof.
  destruct (to_string_value (N.of_nat n)) as (_ & _ & H). unfold nat_to_string. rewrite Forall_forall in H. split; intros I; apply H in I; discriminate I.
Qed.
Lemma printed_header tss (ds : list decl) funcs objs tdefs :
  Forall2 line_of tss tdefs -> Forall2 (fun d t => line_of (written d) t) ds (map object_line objs ++ map function_line funcs) ->
  Forall (fun d => forall x r, written d = x :: r -> ~ In x [$"struct"; $"union"; $"enum"; $"typedef"]) ds ->
  header_with ds (symbols_text funcs objs tdefs).
Proof.
  intros T D K. rewrite symbols_sections.
  assert (T' : Forall2 line_of (map (fun ts => $"typedef" :: ts) tss) (map (fun t => $"typedef " ++ t) tdefs)).
  { induction T as [|ts t tss l (N & G & U & Y) T IH]; [constructor|]. cbn [map]. constructor; [|apply IH]. split; [discriminate|]. split.
    - constructor; [|exact G]. split; [left; split; [discriminate|repeat constructor]|split; discriminate].
    - split; [rewrite spaced_cons; change ($"typedef " ++ t) with ($"typedef" ++ sp :: t); apply unblank_app; [apply unblank_refl|now constructor]|].
      change ($"typedef " ++ t) with ($"typedef" ++ sp :: t). rewrite tokens_lexeme by (left; split; [discriminate|repeat constructor]). now rewrite Y. }
  assert (D' : Forall2 line_of (map written ds) (map object_line objs ++ map function_line funcs)).
  { clear - D. induction D; cbn [map]; constructor; auto. }
  destruct (section_pieces $" prototypes " _ _ ltac:(intros H; cbn in H; repeat destruct H as [H|H]; try discriminate; exact H) ltac:(intros H; cbn in H; repeat destruct H as [H|H]; try discriminate; exact H) D') as (ps & P1 & P2 & P3 & P4 & P5).
  set (tail := [PGap [nl; nl]; PComment $"/*" ($"**  " ++ nat_to_string (length objs + length funcs) ++ $" matches  **") $"*/"; PGap [nl]]).
  assert (Tl : Forall piece_ok tail /\ text_of tail = match_count (length objs + length funcs) /\ (forall n, pieces_tokens n tail = []) /\ chain 0 tail = true).
  { destruct (digits_clean (length objs + length funcs)) as (D1 & D2). unfold tail. split; [|split; [|split; [intros n; reflexivity|reflexivity]]].
    - constructor; [split; [discriminate|repeat constructor]|]. constructor; [|constructor; [split; [discriminate|repeat constructor]|constructor]].
      apply plain_comment; rewrite !in_app_iff; intros [H|[H|H]]; try contradiction; cbn in H; repeat destruct H as [H|H]; try discriminate; exact H.
    - unfold text_of, match_count. cbn [map concat piece_text]. rewrite <- !app_assoc. reflexivity. }
  destruct Tl as (L1 & L2 & L3 & L4).
  set (protos := map (fun d => match written d with x :: r => SProto (tok_of x) (map tok_of r) | [] => SEmpty end) ds).
  assert (Pr : flat_map stmt_tokens protos = flat_map (fun ts => map tok_of ts ++ [T_SEMICOLON]) (map written ds) /\ Forall stmt_ok protos /\ flat_map stmt_protos protos = map written ds).
  { unfold protos. clear - D K. induction D as [|d t ds l (N & G & L) D IH]; [repeat split; constructor|]. inversion K as [|? ? K1 K2]; subst. destruct (IH K2) as (I1 & I2 & I3). cbn [map flat_map].
    destruct (written d) as [|x r] eqn:W; [now elim N|]. rewrite I1, I3. split; [reflexivity|]. split.
    - constructor; [|exact I2]. split; [apply keyword_tok; now apply (K1 x r)|]. change (tok_of x :: map tok_of r) with (map tok_of (x :: r)). apply plain_toks.
    - cbn [stmt_protos]. change (tok_of x :: map tok_of r) with (map tok_of (x :: r)). now rewrite texts_toks. }
  destruct Pr as (R1 & R2 & R3).
  destruct tdefs as [|t0 tdefs].
  - exists (ps ++ tail), protos. split; [rewrite Forall_app; auto|]. split; [apply (chain_placed _ 0); now rewrite chain_app, P4, P5|].
    split; [rewrite text_app, P2, L2; reflexivity|]. split; [|auto]. rewrite pieces_tokens_app by (intros m; now rewrite !L3). now rewrite P3, L3, app_nil_r.
  - destruct (section_pieces $" typedefs " _ _ ltac:(intros H; cbn in H; repeat destruct H as [H|H]; try discriminate; exact H) ltac:(intros H; cbn in H; repeat destruct H as [H|H]; try discriminate; exact H) T') as (qs & Q1 & Q2 & Q3 & Q4 & Q5).
    set (blocks := map (fun ts => SBlock T_TYPEDEF (map tok_of ts)) tss).
    assert (B : flat_map stmt_tokens blocks = flat_map (fun ts => map tok_of ts ++ [T_SEMICOLON]) (map (fun ts => $"typedef" :: ts) tss) /\ Forall stmt_ok blocks /\ flat_map stmt_protos blocks = []).
    { unfold blocks. clear. induction tss as [|ts tss (I1 & I2 & I3)]; [repeat split; constructor|]. cbn [map flat_map]. rewrite I1, I3. split; [reflexivity|]. split; [|reflexivity].
      constructor; [|exact I2]. split; [reflexivity|apply block_toks]. }
    destruct B as (B1 & B2 & B3).
    exists ((qs ++ [PGap [nl; nl]]) ++ ps ++ tail), (blocks ++ protos).
    split; [rewrite !Forall_app; repeat split; auto; repeat constructor; discriminate|].
    split; [apply (chain_placed _ 0); rewrite !chain_app, !last_sort_app, Q4, Q5, P4, P5, L4; reflexivity|].
    split; [rewrite !text_app, Q2, P2, L2; reflexivity|].
    split; [|split; [rewrite Forall_app; auto|rewrite flat_map_app, B3, R3; reflexivity]].
    assert (M : forall m, pieces_tokens m (ps ++ tail) = flat_map (fun ts => map tok_of ts ++ [T_SEMICOLON]) (map written ds)).
    { intros m. rewrite pieces_tokens_app by (intros k; now rewrite !L3). now rewrite P3, L3, app_nil_r. }
    rewrite pieces_tokens_app by (intros m; now rewrite !M). rewrite M, flat_map_app, B1, R1. f_equal. rewrite pieces_tokens_app by reflexivity. rewrite Q3. apply app_nil_r.
Qed.

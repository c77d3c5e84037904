(** Proofs for C87 and C88. *)
From Coq Require Import Ascii String List Bool Arith NArith ZArith Lia.
From Verif Require Import Str StrFacts Lex SpecLex Tokenize SpecTokenize TokenizeFacts LexWords LexProps.
From Verif Require Import Parse ParamNames Format Prefix Substitute SpecSubstitute Data SpecData DataProps Options Generate SpecGenerate GenerateProps.
From Verif Require Import GenerateFacts SpecParse SpecTables SpecEndToEnd Templates ClangAst Frontend SpecProgram.
Import ListNotations.

Lemma tfile_inj a b : tfile a = tfile b -> a = b.
Proof. destruct a, b; try reflexivity; intros H; discriminate H. Qed.
Lemma path_inj dir a b : dump_path dir a = dump_path dir b -> a = b.
Proof. unfold dump_path. intros H. apply app_inv_head in H. now apply tfile_inj. Qed.
Lemma path_not_dir dir t : dump_path dir t <> dir.
Proof.
  unfold dump_path, append_missing_separator. intros H. apply (f_equal (@length _)) in H. destruct dir as [|c d].
  - destruct t; discriminate H.
  - destruct (ends_with $"/" (c :: d)); rewrite !app_length in H; assert (length (tfile t) <> 0) by (destruct t; discriminate); lia.
Qed.
Lemma save_template_run e dir t w text : w_ptr w t = PBuiltin t -> e_writable e (dump_path dir t) = true ->
  (w_fs w (dump_path dir t) = None \/ exists x, w_fs w (dump_path dir t) = Some (Regular x)) -> save_to_file (e_builtin e t) = Ok text ->
  exists fs', save_template e dir t w = (mkworld fs' (w_out w ++ $"saving " ++ dump_path dir t ++ [nl]) None (w_data w) (w_gen w) (w_ptr w), Ret tt) /\
    fs' (dump_path dir t) = Some (Regular text) /\ forall p, p <> dump_path dir t -> fs' p = w_fs w p.
Proof.
  intros P W F S. unfold save_template. fold (dump_path dir t). set (p := dump_path dir t) in *. clearbody p.
  set (fs1 := upd (w_fs w) p (Some (Regular []))). exists (upd fs1 p (Some (Regular text))).
  assert (O : open_path e p w = (mkworld fs1 (w_out w) (Some p) (w_data w) (w_gen w) (w_ptr w), Ret true)).
  { unfold open_path. destruct F as [F|(x & F)]; rewrite F, W; cbn [set_cur w_fs]; rewrite F; reflexivity. }
  unfold Generate.seq at 1. rewrite O. unfold Generate.seq, print_out, get_ptr, deref, lift, put, close. cbn [w_fs w_out w_cur w_data w_gen w_ptr]. rewrite P, S.
  unfold add_text, set_fs, set_cur. cbn [w_fs w_out w_cur w_data w_gen w_ptr]. unfold fs1 at 1. rewrite upd_same. cbn [app].
  split; [reflexivity|]. split; [apply upd_same|]. intros q Q. rewrite upd_other by exact Q. unfold fs1. now apply upd_other.
Qed.
Lemma save_templates_run e dir : forall ts w, NoDup ts -> (forall t, In t ts -> w_ptr w t = PBuiltin t /\ e_writable e (dump_path dir t) = true /\
    (w_fs w (dump_path dir t) = None \/ exists x, w_fs w (dump_path dir t) = Some (Regular x)) /\ exists text, save_to_file (e_builtin e t) = Ok text) ->
  w_cur w = None ->
  exists fs', save_templates e dir ts w = (mkworld fs' (w_out w ++ concat (map (fun t => $"saving " ++ dump_path dir t ++ [nl]) ts)) None (w_data w) (w_gen w) (w_ptr w), Ret tt) /\
    (forall t, In t ts -> exists text, save_to_file (e_builtin e t) = Ok text /\ fs' (dump_path dir t) = Some (Regular text)) /\
    forall p, ~ In p (map (dump_path dir) ts) -> fs' p = w_fs w p.
Proof.
  induction ts as [|t ts IH]; intros w N H C; cbn [save_templates map concat].
  - exists (w_fs w). rewrite app_nil_r. split; [|split; [intros t []|auto]]. unfold ret. destruct w; cbn in *. now subst.
  - inversion N as [|? ? N1 N2]; subst. destruct (H t (or_introl eq_refl)) as (P & W & F & text & S).
    destruct (save_template_run e dir t w text P W F S) as (fs1 & R1 & R2 & R3). unfold Generate.seq. rewrite R1.
    destruct (IH (mkworld fs1 (w_out w ++ $"saving " ++ dump_path dir t ++ [nl]) None (w_data w) (w_gen w) (w_ptr w)) N2) as (fs' & Q1 & Q2 & Q3); [|reflexivity|].
    + intros u U. destruct (H u (or_intror U)) as (P' & W' & F' & T'). cbn [w_ptr w_fs]. split; [exact P'|]. split; [exact W'|]. split; [|exact T'].
      rewrite R3; [exact F'|]. intros E. apply path_inj in E as ->. contradiction.
    + cbn [w_fs w_out w_data w_gen w_ptr] in *. exists fs'. rewrite Q1. split; [now rewrite <- !app_assoc|]. split.
      * intros u [<- |U]; [|now apply Q2]. exists text. split; [exact S|]. rewrite Q3; [exact R2|]. intros I. apply in_map_iff in I as (v & E & V). apply path_inj in E as ->. contradiction.
      * intros p I. rewrite Q3 by (intros X; apply I; now right). apply R3. intros ->. apply I. now left.
Qed.
Definition entry_fine (e : entry) : bool := Nat.eqb (e_count e) (1 + count_linefeed (e_data e)) && Bool.eqb (e_kw e) (percent (e_data e)) && negb (continued (e_data e)).
Lemma entry_fine_ok e : entry_fine e = true -> entry_ok e.
Proof. unfold entry_fine, entry_ok. rewrite !andb_true_iff, negb_true_iff, Nat.eqb_eq, eqb_true_iff. tauto. Qed.
Lemma all_templates_in t : In t all_templates.
Proof. destruct t; cbn; tauto. Qed.
Lemma shipped_listed t : exists l, shipped t = l ++ [end_mark] /\ Forall entry_ok l.
Proof.
  assert (B : forallb (fun t => let l := shipped t in forallb entry_fine (removelast l) && negb (Nat.eqb (length l) 0) && Nat.eqb (e_count (last l blank_entry)) 0 && str_eqb (e_data (last l blank_entry)) [] && negb (e_kw (last l blank_entry))) all_templates = true) by (vm_compute; reflexivity).
  rewrite forallb_forall in B. specialize (B t (all_templates_in t)). cbv zeta in B. revert B. generalize (shipped t). intros l B. rewrite !andb_true_iff in B. destruct B as ((((B1 & B2) & B3) & B4) & B5).
  exists (removelast l). split.
  - assert (L : l <> []) by (intros ->; discriminate B2). rewrite (app_removelast_last blank_entry L) at 1. f_equal. f_equal. destruct (last l blank_entry) as [d k c]; cbn in *.
    apply Nat.eqb_eq in B3. apply str_eqb_eq in B4. destruct k; [discriminate B5|]. now subst.
  - apply Forall_forall. intros x X. apply entry_fine_ok. rewrite forallb_forall in B1. now apply B1.
Qed.
Lemma saved_shipped t : exists text, save_to_file (shipped t) = Ok text /\ forall file, reloads (shipped t) file text.
Proof.
  destruct (shipped_listed t) as (l & E & F). destruct (reload_dumped l [] F) as (text & S & _). exists text. rewrite E. split; [exact S|].
  intros file. destruct (reload_dumped l file F) as (text' & S' & L). rewrite S in S'. injection S' as <-. exists l. auto.
Qed.
Lemma dumped e help argv stdin fs out dir :
  parse_cmdline argv defaults = Ok (Exited (EDump dir)) -> (forall t, e_builtin e t = shipped t) -> (fs dir <> None \/ e_mkdir e dir = true) ->
  (forall t, e_writable e (dump_path dir t) = true /\ (fs (dump_path dir t) = None \/ exists x, fs (dump_path dir t) = Some (Regular x))) ->
  exists w', program e help argv stdin (started fs out) = (w', Ret tt) /\
    w_out w' = out ++ concat (map (fun t => $"saving " ++ dump_path dir t ++ [nl]) all_templates) /\ same_except (dump_files dir) fs (w_fs w') /\
    (w_fs w' dir = match fs dir with None => Some (Directory true) | Some n => Some n end) /\
    forall t, exists text, w_fs w' (dump_path dir t) = Some (Regular text) /\ reloads (shipped t) (tfile t) text.
Proof.
  intros C B Dr Wr. unfold program, Generate.seq, lift. rewrite C. unfold dump_templates, Generate.seq.
  set (w0 := match fs dir with Some _ => started fs out | None => started (upd fs dir (Some (Directory true))) out end).
  assert (D0 : match w_fs (started fs out) dir with Some _ => (started fs out, Ret tt)
      | None => if e_mkdir e dir then (set_fs (upd (w_fs (started fs out)) dir (Some (Directory true))) (started fs out), Ret tt) else (started fs out, Abort) end = (w0, Ret tt)).
  { unfold w0. cbn [started w_fs]. destruct (fs dir) as [n|] eqn:E; [reflexivity|]. destruct Dr as [X|X]; [now elim X|]. rewrite X. reflexivity. }
  rewrite D0.
  assert (K : w_ptr w0 = PBuiltin /\ w_out w0 = out /\ w_cur w0 = None /\ (forall p, p <> dir -> w_fs w0 p = fs p) /\ w_fs w0 dir = match fs dir with None => Some (Directory true) | Some n => Some n end).
  { unfold w0. destruct (fs dir) as [n|] eqn:E; cbn [started w_ptr w_out w_cur w_fs]; (split; [reflexivity|split; [reflexivity|split; [reflexivity|]]]); (split; [intros p P; try reflexivity; now apply upd_other|try exact E; apply upd_same]). }
  clearbody w0. destruct K as (K1 & K2 & K3 & K4 & K5).
  destruct (save_templates_run e dir all_templates w0) as (fs' & R1 & R2 & R3).
  - repeat constructor; cbn; intuition discriminate.
  - intros t _. rewrite K1. split; [reflexivity|]. destruct (Wr t) as (W1 & W2). split; [exact W1|]. split; [rewrite K4 by apply path_not_dir; exact W2|].
    rewrite B. destruct (saved_shipped t) as (text & S & _). eauto.
  - exact K3.
  - rewrite R1. eexists. split; [reflexivity|]. cbn [w_out w_fs]. rewrite K2. split; [reflexivity|]. split; [|split].
    + intros p P. rewrite R3 by (intros X; apply P; now right). apply K4. intros ->. apply P. now left.
    + rewrite R3; [exact K5|]. intros I. apply in_map_iff in I as (t & E & _). now apply path_not_dir in E.
    + intros t. destruct (R2 t (all_templates_in t)) as (text & S & F). exists text. split; [exact F|]. destruct (saved_shipped t) as (text' & S' & L). rewrite B in S. rewrite S in S'. injection S' as <-. apply L.
Qed.

(** a leading dot does not begin an extension *)
Lemma hidden_file d x e : dir_part d -> ~ In "/"%char x -> ~ In "."%char x -> replace_extension (d ++ $"." ++ x) e = d ++ ($"." ++ x) ++ $"." ++ e.
Proof.
  intros D N X. assert (N' : ~ In "/"%char ($"." ++ x)) by (intros [H|H]; [discriminate H|now apply N]). unfold replace_extension, parent, filename. rewrite (split_ok d ($"." ++ x) D N'). cbn [fst snd]. unfold stem.
  destruct (str_eqb ($"." ++ x) $"..") eqn:E; [reflexivity|]. pose proof (last_dot_some [] x X) as L. cbn [app length] in L. change ($"." ++ x) with ("."%char :: x) in *. cbn [lit list_ascii_of_string app] in L. now rewrite L.
Qed.

(* ------------------------------------------------------------ C88 *)

Lemma bad_options e help argv stdin w m : parse_cmdline argv defaults = Err m -> program e help argv stdin w = (w, Throw m).
Proof. intros H. unfold program, Generate.seq, lift. now rewrite H. Qed.
Lemma no_input e help argv stdin w g : parse_cmdline argv defaults = Ok (Done g) -> g_input g = None \/ g_input g = Some [] ->
  program e help argv stdin w = (w, Throw $"input file required").
Proof. intros H [I|I]; unfold program, Generate.seq, lift; rewrite H, I; reflexivity. Qed.
Lemma both_stdin e help argv stdin w g : parse_cmdline argv defaults = Ok (Done g) -> g_input g = Some $"-" -> o_template (g_set g) = $"-" ->
  program e help argv stdin w = (w, Throw $"cannot read input file and custom template both from STDIN").
Proof. intros H I T. unfold program, Generate.seq, lift. rewrite H, I. unfold Frontend.tokenize. rewrite T. reflexivity. Qed.
Lemma unreadable_input e help argv stdin w g input : parse_cmdline argv defaults = Ok (Done g) -> g_input g = Some input -> input <> [] -> input <> $"-" ->
  e_readable e input = false \/ w_fs w input = None -> program e help argv stdin w = (w, Throw ($"file: " ++ input ++ nl :: $"failed to open file for reading")).
Proof.
  intros H I N S R. unfold program, Generate.seq, lift. rewrite H, I. unfold Frontend.tokenize. destruct input as [|c i0]; [now elim N|]. set (input := c :: i0) in *. clearbody input. apply str_eqb_neq in S. rewrite S. cbn [andb].
  unfold Generate.seq, read_file, throw, input_name. rewrite S. replace (if e_readable e input then _ else None) with (@None str); [now rewrite <- app_assoc|].
  destruct R as [R|R]; rewrite R; [reflexivity|]. now destruct (e_readable e input).
Qed.
Lemma reading_fails e help argv stdin fs out g input text m : parse_cmdline argv defaults = Ok (Done g) -> g_input g = Some input -> input_is e fs stdin input text ->
  (input = $"-" -> o_template (g_set g) <> $"-") -> read_input (g_set g) input text = Err m -> program e help argv stdin (started fs out) = (started fs out, Throw m).
Proof.
  intros H I (N & R) T E. unfold program, Generate.seq, lift. rewrite H, I. unfold Frontend.tokenize. destruct input as [|c i0]; [now elim N|]. set (input := c :: i0) in *. clearbody input.
  unfold Generate.seq, lift. destruct R as [(-> & ->)|(R1 & R2 & R3)].
  - specialize (T eq_refl). apply str_eqb_neq in T. rewrite T. change (str_eqb $"-" $"-") with true. cbn [andb]. unfold ret. now rewrite E.
  - apply str_eqb_neq in R1. rewrite R1. cbn [andb]. unfold read_file. cbn [started w_fs]. now rewrite R2, R3, E.
Qed.
Lemma illegal_message ro ds before c rest : header_with ds before -> can_begin true c = false ->
  tokenize_stream ro (lex_all (before ++ c :: rest)) = TS_error (illegal_char_msg c (1 + line_ends before)).
Proof.
  intros (ps & ss & P1 & P2 & -> & P3 & P4 & _) C. rewrite lex_pieces_illegal by auto. unfold tokenize_stream, ts_init. rewrite P3.
  destruct (stmts_run ro ss P4 [] [] 0%Z [T_ERROR (illegal_char_msg c (1 + line_ends (text_of ps)))]) as (k & ->). reflexivity.
Qed.
Lemma illegal_byte e help argv stdin fs out g input ds before c rest : parse_cmdline argv defaults = Ok (Done g) -> g_input g = Some input ->
  input_is e fs stdin input (before ++ c :: rest) -> (input = $"-" -> o_template (g_set g) <> $"-") -> header_with ds before -> can_begin true c = false ->
  program e help argv stdin (started fs out) = (started fs out, Throw (shown_name input ++ nl :: illegal_char_msg c (1 + line_ends before))).
Proof.
  intros H I R T D C. eapply reading_fails; eauto. unfold read_input. rewrite (illegal_message _ ds) by auto. reflexivity.
Qed.
Lemma late_failure e help argv stdin fs out w' r : program e help argv stdin (started fs out) = (w', r) -> (w_fs w' <> fs \/ w_out w' <> out) ->
  (exists g input text s y, parse_cmdline argv defaults = Ok (Done g) /\ g_input g = Some input /\ opened e fs stdin input = Some text /\ read_input (g_set g) input text = Ok (s, y)) \/
  (exists k, parse_cmdline argv defaults = Ok (Exited k)).
Proof.
  intros P Ch. unfold program, Generate.seq, lift in P. destruct (parse_cmdline argv defaults) as [[g|k]|m| |] eqn:E.
  2:{ right. now exists k. }
  2-4: injection P as <- <-; cbn [started w_fs w_out] in Ch; destruct Ch as [Ch|Ch]; now elim Ch.
  left. exists g. destruct (tokenize e (g_set g) (g_input g) stdin (started fs out)) as (w1, r1) eqn:Tk.
  assert (K : w1 = started fs out /\ forall a, r1 = Ret a -> exists input text, g_input g = Some input /\ opened e fs stdin input = Some text /\ read_input (g_set g) input text = Ok a).
  { unfold Frontend.tokenize in Tk. destruct (g_input g) as [[|c0 i0]|] eqn:I; [injection Tk as <- <-; split; [reflexivity|discriminate]| |injection Tk as <- <-; split; [reflexivity|discriminate]].
    set (input := c0 :: i0) in *. destruct (str_eqb input $"-" && str_eqb (o_template (g_set g)) $"-"); [injection Tk as <- <-; split; [reflexivity|discriminate]|].
    unfold Generate.seq, lift in Tk.
    assert (Rd : (if str_eqb input $"-" then ret (Some stdin) else read_file e input) (started fs out) = (started fs out, Ret (opened e fs stdin input))).
    { unfold opened. destruct (str_eqb input $"-"); reflexivity. }
    rewrite Rd in Tk. destruct (opened e fs stdin input) as [text|] eqn:Op; [|injection Tk as <- <-; split; [reflexivity|discriminate]].
    injection Tk as <- <-. split; [reflexivity|]. intros a A. exists input, text. split; [reflexivity|]. split; [exact Op|].
    destruct (read_input (g_set g) input text); try discriminate A. now injection A as <-. }
  destruct K as (-> & K). destruct r1 as [(s, y)| | | |].
  1:{ destruct (K (s, y) eq_refl) as (input & text & A & B & C). exists input, text, s, y. auto. }
  all: injection P as <- <-; cbn [started w_fs w_out] in Ch; destruct Ch as [Ch|Ch]; now elim Ch.
Qed.
Definition with_blank (l : list entry) : list entry := removelast l ++ [blank_entry; end_mark].
Lemma dumped_usable e fs dir s : (forall t, exists text, fs (dump_path dir t) = Some (Regular text) /\ reloads (shipped t) (tfile t) text) ->
  o_tpath s = append_missing_separator dir -> o_line s = false -> (forall t, e_readable e (dump_path dir t) = true) ->
  exists text, holds_templates e s text (fun t => with_blank (shipped t)) fs all_templates.
Proof.
  intros D P Ln R. exists (fun t => match fs (dump_path dir t) with Some (Regular x) => x | _ => [] end). intros t _. rewrite P, Ln. fold (dump_path dir t).
  destruct (D t) as (text & F & es & E & L). rewrite F. split; [apply R|]. split; [reflexivity|]. rewrite L. unfold with_blank. rewrite E, removelast_last. reflexivity.
Qed.

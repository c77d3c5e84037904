(** Properties C21 to C24 and C26: statements.  Proofs are in SubstFacts.v, SubstFacts2.v and SubstProps.v. *)
From Coq Require Import Ascii String List Bool Arith Lia.
From Verif Require Import Str SpecFormat Parse ParamNames Prefix Substitute SpecSubstitute SubstFacts SubstFacts2 SubstProps.
Import ListNotations.

(* ------------------------------------------------------------ C21 *)

(** C21: the texts written for a template line are its expansion *)
Theorem C21_line_expanded : forall c lineno e ts, Forall clean_proto (c_funcs c) -> Forall clean_proto (c_objs c) -> expands c e ts ->
  exists ws k, substitute_line c lineno false e = Ok (ws, k, false) /\ texts ws = map (fun s => s ++ [nl]) ts.
Proof.
  exact (fun c n e ts Hf Ho H => match line_expands c n e ts Hf Ho H with
    ex_intro _ ws (ex_intro _ k (conj R (conj T _))) => ex_intro _ ws (ex_intro _ k (conj R T)) end).
Qed.
(** mixing classes is an error *)
Theorem C21_mixed_line_fails : forall c lineno e h1 h2, ~ is_marker (e_data e) -> e_kw e = true ->
  occurs (hole_text h1) (line_data c e) -> occurs (hole_text h2) (line_data c e) -> hole_class h1 <> hole_class h2 ->
  exists msg, substitute_line c lineno false e = Err msg.
Proof. exact mixed_line. Qed.
(** whole outputs: the lines of all templates in order *)
Theorem C21_templates_expanded : forall c, Forall clean_proto (c_funcs c) -> Forall clean_proto (c_objs c) ->
  forall tpls shown tss, Forall template_ok tpls -> Forall2 (expands c) (visible_all c shown tpls) tss ->
  exists ws k, substitute_templates c (negb shown) (map template_entries tpls) = Ok (ws, k) /\
    texts ws = map (fun t => t ++ [nl]) (concat tss).
Proof. exact templates_texts. Qed.

(* ------------------------------------------------------------ C22 *)

(** C22: the texts a line is expanded to hold no placeholder.  Missing from the full claim: lines in which placeholders
    touch or have only letters, digits and underscores between them, or with other percent signs next to placeholders. *)
Theorem C22_no_placeholder_left_partial : forall c e ts, Forall clean_proto (c_funcs c) -> Forall clean_proto (c_objs c) -> expands c e ts ->
  Forall (fun t => forall h, ~ occurs (hole_text h) t) ts.
Proof. exact expanded_no_hole. Qed.
(** full C22 is false of the code: with three placeholders in a row one is put together anew from its neighbours and filled
    again, which destroys them *)
Theorem C22_touching_placeholders_refuted : exists c l e, Forall clean_proto (all_protos c) /\ line_data c e = line_text l /\ e_kw e = true /\
  (forall p, In p l -> exists h, p = Hole h /\ hole_class h = CFunction) /\
  exists ws k, substitute_line c 1 false e = Ok (ws, k, false) /\
    texts ws <> map (fun t => t ++ [nl]) (copies c 1 CFunction l) /\ In $"%%argsreturnargs%%
" (texts ws).
Proof. exact placeholder_reforms. Qed.

(* ------------------------------------------------------------ C23 *)

(** C23: the texts written for a template are those of its visible lines; markers leave no text.  [shown = false] starts
    inside a hidden section. *)
Theorem C23_sections : forall c, Forall clean_proto (c_funcs c) -> Forall clean_proto (c_objs c) ->
  forall items lineno shown tss, line_items_ok items ->
  Forall2 (fun p ts => expands c (snd p) ts) (visible (c_param c) shown lineno items) tss ->
  exists ws k skip, substitute_entries c lineno (negb shown) (map item_entry items ++ [terminator]) = Ok (ws, k, skip) /\
    texts ws = map (fun t => t ++ [nl]) (concat tss).
Proof. exact run_texts. Qed.
(** the same for custom templates *)
Theorem C23_custom_sections : forall c, Forall clean_proto (c_funcs c) -> Forall clean_proto (c_objs c) ->
  forall items lineno shown tss, line_items_ok items ->
  Forall2 (fun p ts => expands c (snd p) ts) (visible (c_param c) shown lineno items) tss ->
  exists ws, custom_entries c lineno (negb shown) (map item_entry items) = Ok ws /\ texts ws = map (fun t => t ++ [nl]) (concat tss).
Proof. exact custom_texts. Qed.
(** a hidden line leaves nothing and cannot fail *)
Theorem C23_hidden_line : forall c lineno e, ~ is_marker (e_data e) -> substitute_line c lineno true e = Ok ([], 0, true).
Proof. exact hidden_line. Qed.
(** a section that is still open at the end of a template stays open in the next one *)
Theorem C23_open_section_carried : forall c items lineno shown ws k skip, line_items_ok items ->
  substitute_entries c lineno (negb shown) (map item_entry items ++ [terminator]) = Ok (ws, k, skip) ->
  skip = negb (shown_after (c_param c) shown items).
Proof. exact run_skip. Qed.

(* ------------------------------------------------------------ C24 *)

(** C24, built-in templates: with [-line] every text has the number of the template line it comes from.  Missing from the
    full claim: lines whose class has no symbols (each expansion is required to be non-empty). *)
Theorem C24_line_numbers_partial : forall c, Forall clean_proto (c_funcs c) -> Forall clean_proto (c_objs c) ->
  Forall one_line_proto (c_funcs c) -> Forall one_line_proto (c_objs c) ->
  forall d items tss, c_line c = true -> template_ok (d, items) -> e_count d = 1 -> all_protos c <> [] ->
  (forall h, ~ occurs (hole_text h) (line_data c d)) ->
  Forall2 (fun p ts => expands c (snd p) ts) (visible (c_param c) true 1 items) tss -> Forall (fun ts => ts <> []) tss ->
  Forall (fun p => counted c (snd p)) (visible (c_param c) true 1 items) ->
  exists ws k, substitute c [template_entries (d, items)] = Ok (WText (line_data c d ++ [nl]) :: ws, k) /\
    numbered 1 ws = expected (visible (c_param c) true 1 items) tss.
Proof. exact builtin_numbers. Qed.
(** custom templates *)
Theorem C24_custom_line_numbers_partial : forall c, Forall clean_proto (c_funcs c) -> Forall clean_proto (c_objs c) ->
  Forall one_line_proto (c_funcs c) -> Forall one_line_proto (c_objs c) ->
  forall name items tss, c_line c = true -> line_items_ok items ->
  Forall2 (fun p ts => expands c (snd p) ts) (visible (c_param c) true 1 items) tss -> Forall (fun ts => ts <> []) tss ->
  Forall (fun p => counted c (snd p)) (visible (c_param c) true 1 items) ->
  exists ws, process_custom_template c name (map item_entry items) =
      Ok (WText ($"#line 1 " ++ [dquote] ++ name ++ [dquote] ++ [nl]) :: ws) /\
    numbered 1 ws = expected (visible (c_param c) true 1 items) tss.
Proof. exact custom_numbers. Qed.
(** the returned number of lines is the number of lines written, with and without [-line] *)
Theorem C24_lines_counted_partial : forall c, Forall clean_proto (c_funcs c) -> Forall clean_proto (c_objs c) ->
  Forall one_line_proto (c_funcs c) -> Forall one_line_proto (c_objs c) ->
  forall items lineno shown tss, line_items_ok items ->
  Forall2 (fun p ts => expands c (snd p) ts) (visible (c_param c) shown lineno items) tss -> Forall (fun ts => ts <> []) tss ->
  exists ws k skip, substitute_entries c lineno (negb shown) (map item_entry items ++ [terminator]) = Ok (ws, k, skip) /\
    k = count_linefeed (output ws).
Proof. exact run_counts. Qed.
(** full C24 is false of the code: a line whose class has no symbols shifts the following lines by one and is not counted *)
Theorem C24_empty_class_refuted : exists c items tss, c_line c = true /\ all_protos c <> [] /\
  Forall clean_proto (all_protos c) /\ Forall one_line_proto (all_protos c) /\ line_items_ok items /\
  Forall2 (fun p ts => expands c (snd p) ts) (visible (c_param c) true 1 items) tss /\
  Forall (fun p => counted c (snd p)) (visible (c_param c) true 1 items) /\
  exists ws k skip, substitute_entries c 1 false (map item_entry items ++ [terminator]) = Ok (ws, k, skip) /\
    numbered 1 ws <> expected (visible (c_param c) true 1 items) tss /\ k <> count_linefeed (output ws).
Proof. exact line_numbers_wrong. Qed.

(* ------------------------------------------------------------ C26 *)

(** C26: what follows a padded symbol starts in the same column for all symbols of the class: the width of the longest *)
Theorem C26_columns : forall c lineno e a b k n, Forall clean_proto (c_funcs c) -> Forall clean_proto (c_objs c) ->
  ~ is_marker (e_data e) -> e_kw e = true ->
  k <> CSymbol -> line_data c e = a ++ pad_text k ++ b -> ~ In "%"%char a -> ~ In "%"%char b -> width (class_names c k) n ->
  exists ws m, substitute_line c lineno false e = Ok (ws, m, false) /\
    texts ws = map (fun f => a ++ p_symbol f ++ blanks (n - length (p_symbol f)) ++ b ++ [nl]) (class_protos c k) /\
    Forall (fun f => length (p_symbol f ++ blanks (n - length (p_symbol f))) = n) (class_protos c k).
Proof. exact pad_columns. Qed.

(* ------------------------------------------------------------ examples *)

Definition ex_fs : list proto :=
  [mkproto KFunction $"char *" $"name" $"int a" [] $"a"; mkproto KFunction $"void" $"run" $"void" [] []].
Definition ex_cfg (line : bool) : config := mkcfg line PRead (set_prefix $"my") ex_fs [mkproto KObject $"int" $"count" [] [] []].
Definition ex_def : list part :=
  [Hole HType; Lit $" my_"; Hole HFuncPad; Lit $" ("; Hole HArgs; Lit $") { "; Hole HReturn; Lit $" p("; Hole HNames; Lit $"); }"].
Definition ex_entry : entry :=
  mkentry $"%%type%% gdo_%%func_symbol_pad%% (%%args%%) { %%return%% p(%%param_names%%); }" true 1.

Example C21_example : expands (ex_cfg false) ex_entry [$"char *my_name (int a) { return p(a); }"; $"void my_run  (void) { p(); }"] /\
  Forall clean_proto ex_fs.
Proof.
  split.
  - change (expands (ex_cfg false) ex_entry (copies (ex_cfg false) 4 CFunction ex_def)). apply ExpandsCopies.
    + intros ([] & E); discriminate.
    + reflexivity.
    + vm_compute. reflexivity.
    + cbn. intuition discriminate.
    + discriminate.
    + intros h H. cbn in H. intuition (subst; reflexivity).
    + split; [intros s H; cbn in H; intuition (subst; cbn; lia)|]. intros _. exists $"name". split; [now left|reflexivity].
  - repeat constructor; now intro X; cbn in X; intuition discriminate.
Qed.
Example C21_symbol_example : copies (ex_cfg false) 0 CSymbol [Lit $"("; Hole HSymType; Lit $") "; Hole HSym] =
  [$"(char *(*)(int a)) name"; $"(void (*)(void)) run"; $"(int *) count"].
Proof. reflexivity. Qed.
Example C21_run : match substitute_line (ex_cfg true) 7 false ex_entry with Ok (ws, n, _) => output ws = $"#line 7
char *my_name (int a) { return p(a); }
#line 7
void my_run  (void) { p(); }
" /\ n = 4 | _ => False end.
Proof. vm_compute. split; reflexivity. Qed.
Example C23_example :
  visible PSkip true 1 [Line (demo_line "a"); Mark RemoveBegin; Line (demo_line "b"); Mark UseBegin; Line (demo_line "c"); Mark SectionEnd; Line (demo_line "d")]
  = [(1, demo_line "a"); (5, demo_line "c"); (7, demo_line "d")] /\
  map fst (visible PRead true 1 [Line (demo_line "a"); Mark RemoveBegin; Line (demo_line "b"); Mark UseBegin; Line (demo_line "c"); Mark SectionEnd; Line (demo_line "d")])
  = [1; 3; 7].
Proof. split; reflexivity. Qed.
Example C24_example : numbered 1 [WLine 2; WText $"x
"; WText $"y
z
"; WLine 9; WText $"w
"] = [(2, $"x
"); (3, $"y
z
"); (9, $"w
")].
Proof. reflexivity. Qed.
(** the hypotheses of the line number theorem are met by a template with a section and a placeholder line *)
Example C24_hypotheses : let items := [Line ex_entry; Mark UseBegin; Line (demo_line "hidden"); Mark SectionEnd; Line (demo_line "end")] in
  template_ok (demo_line "#line 1 ""x.h""", items) /\ map fst (visible PRead true 1 items) = [1; 5] /\
  Forall (fun p => counted (ex_cfg true) (snd p)) (visible PRead true 1 items) /\
  match substitute (ex_cfg true) [template_entries (demo_line "#line 1 ""x.h""", items)] with
  | Ok (ws, _) => map fst (numbered 0 ws) = [0; 1; 1; 5]
  | _ => False
  end.
Proof.
  cbv zeta. split; [|split; [reflexivity|split; [repeat constructor|vm_compute; reflexivity]]]. split.
  - split; [intros ([] & E); discriminate|]. split; [discriminate|reflexivity].
  - repeat constructor; try discriminate; intros ([] & E); discriminate.
Qed.
Example C26_example : class_protos (ex_cfg false) CFunction = ex_fs /\ width (class_names (ex_cfg false) CFunction) 4.
Proof. split; [reflexivity|]. split; [intros s H; cbn in H; intuition (subst; cbn; lia)|]. intros _. exists $"name". split; [now left|reflexivity]. Qed.

Print Assumptions C21_line_expanded.
Print Assumptions C21_mixed_line_fails.
Print Assumptions C21_templates_expanded.
Print Assumptions C22_no_placeholder_left_partial.
Print Assumptions C22_touching_placeholders_refuted.
Print Assumptions C23_sections.
Print Assumptions C23_custom_sections.
Print Assumptions C23_hidden_line.
Print Assumptions C23_open_section_carried.
Print Assumptions C24_line_numbers_partial.
Print Assumptions C24_custom_line_numbers_partial.
Print Assumptions C24_lines_counted_partial.
Print Assumptions C24_empty_class_refuted.
Print Assumptions C26_columns.

(** Properties C25, C56 to C58: statements.  Proofs are in DataFacts.v and DataProps.v. *)
From Coq Require Import Ascii String List Bool Arith.
From Verif Require Import Str Substitute Data SpecData DataFacts DataProps.
Import ListNotations.

(* ------------------------------------------------------------ C25 *)

(** C25: entries that tell the truth about themselves and do not end in a continuation mark are read back, with one blank entry
    too many at the end.  Missing from the full claim: that blank entry; entries that end in a mark. *)
Theorem C25_dump_and_reload_partial : forall l file, Forall entry_ok l ->
  exists text, save_to_file (l ++ [end_mark]) = Ok text /\ load_from_file [] file false text = Ok (l ++ [blank_entry; end_mark]).
Proof. exact reload_dumped. Qed.
(** full C25 is false of the code: no template at all comes back unchanged *)
Theorem C25_blank_entry_refuted : forall l file, Forall entry_ok l ->
  exists text l', save_to_file (l ++ [end_mark]) = Ok text /\ load_from_file [] file false text = Ok l' /\ l' <> l ++ [end_mark].
Proof. exact reload_differs. Qed.
(** ... and the output gets one more line *)
Theorem C25_blank_line_refuted : forall c l lineno skip ws k, Forall entry_ok l -> substitute_entries c lineno skip (l ++ [end_mark]) = Ok (ws, k, false) ->
  substitute_entries c lineno skip (l ++ [blank_entry; end_mark]) = Ok (ws ++ [WText [nl]], k + 1, false).
Proof. exact blank_line. Qed.
(** an entry that ends in a continuation mark is joined with the next one *)
Theorem C25_trailing_mark_refuted : exists e1 e2 text, e_count e1 = 1 + count_linefeed (e_data e1) /\ e_kw e1 = percent (e_data e1) /\ entry_ok e2 /\
  save_to_file [e1; e2; end_mark] = Ok text /\ read_entries text = Ok [mkentry $"int a;
int b;" false 2; blank_entry].
Proof. exact trailing_mark. Qed.
Example C25_example : Forall entry_ok [mkentry $"#define GDO_X(a) \
  %%symbol%%(a)" true 2; mkentry [] false 1; mkentry $"mail@host" false 1] /\
  save_to_file [mkentry $"#define GDO_X(a) \
  %%symbol%%(a)" true 2; mkentry [] false 1; mkentry $"mail@host" false 1; end_mark] = Ok $"#define GDO_X(a) \@
  %%symbol%%(a)

mail@host
".
Proof. split; [repeat constructor|reflexivity]. Qed.

(* ------------------------------------------------------------ C56 *)

(** C56: reading a file gives one entry per group of continued lines: the lines without their marks, whether there is a percent
    sign in them, and their number *)
Theorem C56_entries_are_logical_lines : forall text, read_entries text = Ok (map group_entry (groups (file_lines text))).
Proof. exact read_entries_lines. Qed.
(** no line is lost: the line counts add up *)
Theorem C56_lines_add_up : forall text l, read_entries text = Ok l -> fold_right (fun e n => e_count e + n) 0 l = 1 + count_linefeed text.
Proof. exact line_total. Qed.
Example C56_example : read_entries $"a@b@
c%
d@
" = Ok [mkentry $"a@b
c%" true 2; mkentry $"d
" false 2] /\ groups (file_lines $"a@b@
c%
d@
") = [[$"a@b@"; $"c%"]; [$"d@"; []]].
Proof. split; reflexivity. Qed.

(* ------------------------------------------------------------ C57 *)

(** C57: the source text written at build time compiles to the entries that would be read from the file, without the empty
    line behind the last line feed.  Missing from the full claim: files with bytes that are not printable, and files that end
    in a continuation mark. *)
Theorem C57_embedded_template_partial : forall text l file, forallb ordinary text = true -> ends_with $"@" text = false ->
  read_entries text = Ok l -> file <> $"license.h" ->
  forallb (fun c => ordinary c && negb (Ascii.eqb c nl) && negb (Ascii.eqb c bslash) && negb (Ascii.eqb c dquote)) file = true ->
  exists xs, dump file text = Ok xs /\
    compiled_all xs = Some (mkentry ($"#line 1 " ++ [dquote] ++ $"<built-in>/" ++ file ++ [dquote]) false 1 :: without_blank_end l).
Proof. exact embedded. Qed.
(** full C57 is false of the code: a hexadecimal escape takes in the hexadecimal digits behind it *)
Theorem C57_hex_escape_refuted : exists text l xs, read_entries text = Ok l /\ dump $"t.h" text = Ok xs /\
  exists d es, compiled_all xs = Some (d :: es) /\ es <> without_blank_end l.
Proof. exact hex_runs_on. Qed.
Definition ex_text : str := ($"#define A(x)" ++ [tab] ++ $"\@
  " ++ [dquote] ++ $"%%symbol%%\n" ++ [dquote] ++ $"

end
").
Example C57_example : forallb ordinary ex_text = true /\ ends_with $"@" ex_text = false /\
  exists xs, dump $"c.h" ex_text = Ok xs /\ compiled_all xs = Some
    [mkentry ($"#line 1 " ++ [dquote] ++ $"<built-in>/c.h" ++ [dquote]) false 1;
     mkentry ($"#define A(x)" ++ [tab] ++ $"\
  " ++ [dquote] ++ $"%%symbol%%\n" ++ [dquote]) true 2; mkentry [] false 1; mkentry $"end" false 1].
Proof. split; [reflexivity|]. split; [reflexivity|]. eexists. split; [vm_compute; reflexivity|]. vm_compute. reflexivity. Qed.

(* ------------------------------------------------------------ C58 *)

(** C58: a file with Windows line ends is read as the same entries, but for the carriage returns.  Missing from the full
    claim: that these entries are also treated in the same way. *)
Theorem C58_windows_lines_partial : forall text l, ~ In cr text -> read_entries text = Ok l ->
  exists l', read_entries (crlf text) = Ok l' /\ Forall2 same_but_cr l l'.
Proof. exact read_crlf. Qed.
(** full C58 is false of the code: section markers are not recognised with a carriage return behind them *)
Theorem C58_marker_refuted : exists text c l l' ws ws', ~ In cr text /\ read_entries text = Ok l /\ read_entries (crlf text) = Ok l' /\
  process_custom_template c $"t" l = Ok ws /\ process_custom_template c $"t" l' = Ok ws' /\
  output ws = $"a

" /\ without_cr (output ws') = $"%PARAM_SKIP_REMOVE_BEGIN%
hidden
%PARAM_SKIP_END%
a

".
Proof. exact marker_crlf. Qed.
Example C58_example : read_entries (crlf $"a@
b
c") = Ok [mkentry ($"a" ++ [cr; nl] ++ $"b" ++ [cr]) false 2; mkentry $"c" false 1].
Proof. reflexivity. Qed.

Print Assumptions C25_dump_and_reload_partial.
Print Assumptions C25_blank_entry_refuted.
Print Assumptions C25_blank_line_refuted.
Print Assumptions C25_trailing_mark_refuted.
Print Assumptions C56_entries_are_logical_lines.
Print Assumptions C56_lines_add_up.
Print Assumptions C57_embedded_template_partial.
Print Assumptions C57_hex_escape_refuted.
Print Assumptions C58_windows_lines_partial.
Print Assumptions C58_marker_refuted.

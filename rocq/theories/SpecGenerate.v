(** Specification vocabulary for generated files: common prefixes, library names, paths, file systems, line numbers. *)
From Coq Require Import Ascii String List Bool Arith.
From Verif Require Import Str Parse Prefix Substitute SpecSubstitute Data Options Generate.
Import ListNotations.

(* ------------------------------------------------------------ C27 *)

(** [p] begins every name *)
Definition begins_all (p : str) (names : list str) : Prop := Forall (fun n => exists r, n = p ++ r) names.

(* ------------------------------------------------------------ C30 *)

(** [v] is a mode word in any case, followed by a value *)
Definition moded (mode v x : str) : Prop := exists m, v = m ++ x /\ map tolower m = mode /\ x <> [].
Definition in_quotes (s : str) : Prop := exists x, s = [dquote] ++ x ++ [dquote].
Definition in_wide_quotes (s : str) : Prop := exists x, s = $"L" ++ [dquote] ++ x ++ [dquote].
(** the string literals for a name, narrow and wide *)
Inductive literal : str -> str -> Prop :=
| LiteralAsIs s : in_quotes s -> literal s s
| LiteralQuoted s : ~ in_quotes s -> literal s ([dquote] ++ s ++ [dquote]).
Inductive wide_literal : str -> str -> Prop :=
| WideAsIs s : in_wide_quotes s -> wide_literal s s
| WideQuotes s : in_quotes s -> wide_literal s ($"L" ++ s)
| WideQuoted s : ~ in_wide_quotes s -> ~ in_quotes s -> wide_literal s ($"L" ++ [dquote] ++ s ++ [dquote]).
(** the two macros *)
Definition lib_macros (up a w : str) : str :=
  $"#define " ++ up ++ $"_HARDCODED_DEFAULT_LIBA " ++ a ++ [nl] ++
  $"#define " ++ up ++ $"_HARDCODED_DEFAULT_LIBW " ++ w ++ [nl].
Definition one_line (s : str) : Prop := ~ In nl s /\ ~ In cr s.
(** no mode is given *)
Definition no_mode (v : str) : Prop := forall m x, In m [$"nq:"; $"ext:"; $"api:"] -> ~ moded m v x.

(* ------------------------------------------------------------ C34, C62 *)

(** a directory part: nothing, or something ending in a slash *)
Definition dir_part (d : str) : Prop := d = [] \/ exists d', d = d' ++ $"/".

(** the files a run writes to *)
Definition output_files (s : settings) : list str :=
  if o_print s then []
  else if str_eqb (o_output s) $"-" then []
  else match o_template s with
       | _ :: _ => [o_output s]
       | [] => if separate s then [header_path s; body_path s] else [o_output s]
       end.
Definition still_there (fs fs' : str -> option node) : Prop := forall p n, fs p = Some n -> fs' p = Some n.
Definition same_except (paths : list str) (fs fs' : str -> option node) : Prop := forall p, ~ In p paths -> fs' p = fs p.
Definition no_links (fs : str -> option node) : Prop := forall p t, fs p <> Some (Link t).

(* ------------------------------------------------------------ C63 *)

(** the number of the line that follows a text *)
Definition next_line (t : str) : nat := count_linefeed t + 1.
(** a line directive saying that the line after it is number [n] of [file] *)
Definition directive (n : nat) (file : str) : str := $"#line " ++ nat_to_string n ++ $" " ++ [dquote] ++ file ++ [dquote] ++ [nl].
(** a line directive at the end of [t] tells the true number of the line after it *)
Definition true_directive (t file : str) : Prop := exists before, t = before ++ directive (next_line t) file.

(** the text of a template that is only renamed *)
Definition plain_text (c : config) (l : list entry) : str := concat (map (fun e => line_data c e ++ [nl]) l).
(** a built-in template: perhaps a line directive in front, shown with [-line] only, lines, the end mark *)
Definition plain_template (c : config) (l : list entry) (t : str) : Prop :=
  exists es, Forall (fun e => e_count e <> 0) es /\ t = plain_text c es /\
  ((exists d, l = d :: es ++ [mkentry [] false 0] /\ starts_with $"#line" (c_str (e_data d)) = true /\ c_line c = false) \/
   (l = es ++ [mkentry [] false 0] /\ (c_line c = false -> forall d r, l = d :: r -> starts_with $"#line" (c_str (e_data d)) = false))).
(** an output path can be created: it does not exist, or is a file and [-force] is given *)
Definition creatable (e : env) (s : settings) (fs : str -> option node) (p : str) : Prop :=
  e_writable e p = true /\
  (fs p = None \/ (o_force s = true /\ e_removable e p = true /\ exists n, fs p = Some n /\ n <> Directory false)).

(** the templates of a format *)
Definition format_sources (f : out_format) : list tname :=
  match f with
  | FmtC => [TCommonH; TCommonC; TCH; TCC]
  | FmtCxx => [TCommonH; TCommonC; TCxxH; TCxxC]
  | FmtPlugin => [TCommonH; TCommonC; TPluginH; TPluginC]
  | FmtMinimal => [TMinH]
  | FmtMinimalCxx => [TMinCxx]
  end.
Definition header_templates (s : settings) : list tname :=
  match format_sources (o_format s) with
  | [a; b; c; d] => if separate s then [a; c] else [a; b; c; d]
  | l => l
  end.
Definition body_templates (s : settings) : list tname :=
  match format_sources (o_format s) with
  | [a; b; c; d] => if separate s then [b; d] else []
  | _ => []
  end.

(** what is written before the first line directive, between the directives and after them *)
Definition top_text (e : env) (s : settings) (lic : str) : str := note_text (if o_date s then e_date e else None) ++ lic.
Definition middle_text (s : settings) (fm defs : str) (tdefs : list str) (filled : str) : str :=
  guard_begin_text (header_name s) (m_pfx_upper (o_pfxs s)) (o_pragma s) (is_cxx s) ++ fm ++ defines_text defs ++
  includes_text (o_includes s) (is_cxx s) ++ typedefs_text tdefs ++ filled.
Definition bottom_text (s : settings) : str :=
  guard_end_text (header_name s) (m_pfx_upper (o_pfxs s)) (o_pragma s) (is_cxx s).
(** the header with line directives for the lines numbered [n1] and [n2] *)
Definition header_text (s : settings) (top middle : str) (n1 n2 : nat) : str :=
  let line n := if o_line s then directive n (header_name s) else [] in
  top ++ line n1 ++ middle ++ line n2 ++ bottom_text s.
Definition body_text (e : env) (s : settings) (lic filled : str) : str :=
  top_text e s lic ++ include_header_text (header_name s) (m_pfx_upper (o_pfxs s)) ++ filled.
(** the number in the second directive: the lines before it, of which [n] are in the filled templates, and the two of the
    directive itself and of the line after it *)
Definition second_number (s : settings) (top pre : str) (n : nat) : nat :=
  count_linefeed top + (if o_line s then 1 else 0) + count_linefeed pre + n + 2.
Definition pre_text (s : settings) (tdefs : list str) (fm defs : str) : str := middle_text s fm defs tdefs [].

(** the conditions under which a run completes *)
Record runs (e : env) (s : settings) (f o : list proto) (lic fm defs : str) (hdr bdy : list write) (n : nat) : Prop := {
  r_print : o_print s = false;
  r_template : o_template s = [];
  r_tpath : o_tpath s = [];
  r_lic : plain_template (config_of s [] []) (e_builtin e TLicense) lic;
  r_fm : plain_template (config_of s [] []) (e_builtin e TFilenameMacros) fm;
  r_defs : all_defines s f o = Ok defs;
  r_hdr : substitute (config_of s f o) (map (e_builtin e) (header_templates s)) = Ok (hdr, n);
  r_bdy : exists m, separate s = true -> substitute (config_of s f o) (map (e_builtin e) (body_templates s)) = Ok (bdy, m)
}.
(** the program at its start *)
Definition started (fs : str -> option node) (out : str) : world := mkworld fs out None (fun _ => []) (fun _ => 0) PBuiltin.

(* ------------------------------------------------------------ C64 *)

(** what -dump-templates writes to *)
Definition dump_files (dir : str) : list str := dir :: map (fun t => append_missing_separator dir ++ tfile t) all_templates.
(** the directory of -templates-path holds the templates [ts]: [text] are the files, [L] what is read from them *)
Definition holds_templates (e : env) (s : settings) (text : tname -> str) (L : tname -> list entry) (fs : str -> option node)
  (ts : list tname) : Prop :=
  forall t, In t ts -> e_readable e (o_tpath s ++ tfile t) = true /\ fs (o_tpath s ++ tfile t) = Some (Regular (text t)) /\
    load_from_file [] (tfile t) (o_line s) (text t) = Ok (L t).

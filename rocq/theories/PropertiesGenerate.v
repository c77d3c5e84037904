(** Properties C27, C30, C34, C62 to C64: statements.  Proofs are in GenerateFacts.v and GenerateProps.v to GenerateProps6.v. *)
From Coq Require Import Ascii String List Bool Arith.
From Verif Require Import Str Parse ParamNames Prefix Substitute SpecSubstitute Data Options Generate SpecGenerate.
From Verif Require Import GenerateFacts GenerateProps GenerateProps2 GenerateProps3 GenerateProps4 GenerateProps5 GenerateProps6.
From Verif Require Import SubstFacts2.
Import ListNotations.

(* ------------------------------------------------------------ C27 *)

(** C27: with two or more symbols the common prefix begins every name and every text that begins every name begins it *)
Theorem C27_longest : forall fs os, Forall (fun n => ~ In nul n) (fs ++ os) -> 2 <= length (fs ++ os) ->
  exists p, get_common_prefix fs os = Ok p /\ begins_all p (fs ++ os) /\
  forall q, begins_all q (fs ++ os) -> exists r, p = q ++ r.
Proof. exact prefix_longest. Qed.
(** it is computed within the bounds of the names, and is empty for fewer than two symbols *)
Theorem C27_defined : forall fs os, exists p, get_common_prefix fs os = Ok p /\ begins_all p (fs ++ os) /\ (length (fs ++ os) < 2 -> p = []).
Proof. exact prefix_defined. Qed.
(** testing the prefix and then the rest finds a symbol exactly when its name is asked for *)
Theorem C27_lookup : forall fs os p name, get_common_prefix fs os = Ok p -> forall n, In n (fs ++ os) ->
  (n = name <-> starts_with p name = true /\ skipn (length p) name = skipn (length p) n).
Proof. exact prefix_lookup. Qed.
Example C27_example :
  get_common_prefix [$"av_open"; $"av_op"] [$"av_out"] = Ok $"av_o" /\ get_common_prefix [$"ab"] [$"ab"; $"ab"] = Ok $"ab" /\
  get_common_prefix [$"ab"; $"b"] [] = Ok [] /\ get_common_prefix [] [$"ab"] = Ok [] /\
  Forall (fun n => ~ In nul n) [$"av_open"; $"av_op"; $"av_out"].
Proof.
  split; [reflexivity|]. split; [reflexivity|]. split; [reflexivity|]. split; [reflexivity|].
  repeat constructor; intros K; repeat (destruct K as [K|K]; [discriminate K|]); exact K.
Qed.

(* ------------------------------------------------------------ C30 *)

(** C30: the modes.  Missing from the full claim: names without a mode that begin with a, e or n. *)
Theorem C30_nq_partial : forall up v x, moded $"nq:" v x -> format_libname v up = Ok (lib_macros up x x).
Proof. exact libname_nq. Qed.
Theorem C30_ext_partial : forall up v x a w, moded $"ext:" v x -> literal x a -> wide_literal x w ->
  format_libname v up = Ok (lib_macros up (a ++ $" " ++ up ++ $"_LIBEXTA") (w ++ $" " ++ up ++ $"_LIBEXTW")).
Proof. exact libname_ext. Qed.
Theorem C30_api_partial : forall up v n x, moded $"api:" v (n ++ $":" ++ x) -> ~ In ":"%char n -> one_line (n ++ $":" ++ x) ->
  format_libname v up = Ok (lib_macros up (up ++ $"_LIBNAMEA(" ++ x ++ $"," ++ n ++ $")") (up ++ $"_LIBNAMEW(" ++ x ++ $"," ++ n ++ $")")).
Proof. exact libname_api. Qed.
Theorem C30_plain_partial : forall up c r a w, ~ In c ["a"; "A"; "e"; "E"; "n"; "N"]%char -> literal (c :: r) a -> wide_literal (c :: r) w ->
  format_libname (c :: r) up = Ok (lib_macros up a w).
Proof. exact libname_plain. Qed.
Theorem C30_quoted_once : forall s wide, quote_lib (quote_lib s wide) wide = quote_lib s wide.
Proof. exact quote_idempotent. Qed.
(** full C30 is false of the code: a name that begins with a, e or n and has no mode defines nothing *)
Theorem C30_dropped_refuted : forall up c r, In c ["a"; "A"; "e"; "E"; "n"; "N"]%char -> no_mode (c :: r) -> format_libname (c :: r) up = Ok [].
Proof. exact libname_dropped. Qed.
Example C30_example :
  moded $"nq:" $"Nq:LIB" $"LIB" /\ moded $"api:" $"api:6:GL" ($"6" ++ $":" ++ $"GL") /\ literal $"z.so" ([dquote] ++ $"z.so" ++ [dquote]) /\
  format_libname $"Nq:LIB" $"GDO" = Ok (lib_macros $"GDO" $"LIB" $"LIB") /\
  format_libname $"api:6:GL" $"GDO" = Ok (lib_macros $"GDO" $"GDO_LIBNAMEA(GL,6)" $"GDO_LIBNAMEW(GL,6)") /\
  format_libname $"z.so" $"GDO" = Ok (lib_macros $"GDO" ([dquote] ++ $"z.so" ++ [dquote]) ($"L" ++ [dquote] ++ $"z.so" ++ [dquote])) /\
  format_libname $"avcodec" $"GDO" = Ok [].
Proof.
  split; [exists $"Nq:"; split; [reflexivity|split; [reflexivity|discriminate]]|].
  split; [exists $"api:"; split; [reflexivity|split; [reflexivity|discriminate]]|].
  split; [constructor; intros [x K]; discriminate K|]. vm_compute. repeat split; reflexivity.
Qed.

(* ------------------------------------------------------------ C34 *)

(** C34, generating: without -force whatever was there before is there after the run, however the run ends.  Missing from the
    full claim: -dump-templates. *)
Theorem C34_no_force_partial : forall e s f o t i fs out, o_force s = false ->
  forall w' r, run e s f o t i (started fs out) = (w', r) -> still_there fs (w_fs w').
Proof. exact nothing_overwritten. Qed.
(** with or without -force nothing but the output files is touched *)
Theorem C34_only_outputs : forall e s f o t i fs out w' r,
  run e s f o t i (started fs out) = (w', r) -> same_except (output_files s) fs (w_fs w').
Proof. exact only_outputs. Qed.
(** -dump-templates touches its directory and the templates in it only *)
Theorem C34_dump_scope : forall e dir fs out w' r, no_links fs ->
  dump_templates e dir (started fs out) = (w', r) -> same_except (dump_files dir) fs (w_fs w').
Proof. exact dump_scope. Qed.
(** the names of the two files of -separate: the extension is replaced, or added when there is none *)
Theorem C34_extension_replaced : forall d a x e, dir_part d -> a <> [] -> ~ In "/"%char (a ++ $"." ++ x) -> ~ In "."%char x -> a ++ $"." ++ x <> $".." ->
  replace_extension (d ++ a ++ $"." ++ x) e = d ++ a ++ $"." ++ e.
Proof. exact extension_replaced. Qed.
Theorem C34_extension_added : forall d a e, dir_part d -> ~ In "/"%char a -> ~ In "."%char a ->
  replace_extension (d ++ a) e = d ++ a ++ $"." ++ e.
Proof. exact extension_added. Qed.
(** full C34 is false of the code: -dump-templates replaces an existing file, whether -force is given or not *)
Theorem C34_dump_refuted : exists e dir fs p old new, no_links fs /\ fs p = Some (Regular old) /\ old <> new /\
  exists w', dump_templates e dir (started fs []) = (w', Ret tt) /\ w_fs w' p = Some (Regular new).
Proof. exact dump_overwrites. Qed.
Example C34_example :
  let s := demo_set $"dir/x.y" true true false [] [] in
  output_files s = [$"dir/x.h"; $"dir/x.c"] /\
  (let '(w', r) := run demo_env s demo_funcs [] [] [] (started (files [($"dir/x.h", Regular $"old"); ($"z", Regular $"keep")]) []) in
   r = Ret tt /\ w_fs w' $"dir/x.h" <> Some (Regular $"old") /\ w_fs w' $"z" = Some (Regular $"keep")) /\
  snd (run demo_env (demo_set $"x.h" false false false [] []) demo_funcs [] [] [] (started (files [($"x.h", Regular $"old")]) [])) =
    Throw $"file already exists: x.h".
Proof. vm_compute. split; [reflexivity|]. split; [split; [reflexivity|split; [discriminate|reflexivity]]|reflexivity]. Qed.

(* ------------------------------------------------------------ C62 *)

(** C62: nothing is changed or printed when the output exists and may not be replaced, or the template cannot be read.
    Missing from the full claim: the other failures. *)
Theorem C62_existing_output_partial : forall e s f o t i fs out defs p,
  o_print s = false -> o_template s = [] -> o_force s = false -> o_tpath s = [] -> str_eqb (o_output s) $"-" = false -> p = header_path s ->
  str_eqb p [] || str_eqb p $"-" = false -> all_defines s f o = Ok defs -> fs p <> None ->
  run e s f o t i (started fs out) = (started fs out, Throw ($"file already exists: " ++ p)).
Proof. exact existing_output. Qed.
Theorem C62_unreadable_template_partial : forall e s f o t i fs out, o_print s = false -> o_template s <> [] -> o_template s <> $"-" ->
  e_readable e (o_template s) = false ->
  run e s f o t i (started fs out) = (started fs out, Throw ($"failed to open file for reading: " ++ o_template s)).
Proof. exact unreadable_template. Qed.
(** full C62 is false of the code: the header is written before the body is looked at, and stays *)
Theorem C62_header_left_refuted : exists e s f fs msg w', o_force s = false /\
  run e s f [] [] [] (started fs []) = (w', Throw msg) /\ fs (header_path s) = None /\ w_fs w' (header_path s) <> None.
Proof. exact header_left. Qed.
(** with -force the old output is removed before it is known that there will be a new one *)
Theorem C62_output_lost_refuted : exists e s f fs msg w' old, o_force s = true /\
  run e s f [] [] [] (started fs []) = (w', Throw msg) /\ fs (o_output s) = Some (Regular old) /\ w_fs w' (o_output s) <> Some (Regular old).
Proof. exact output_lost. Qed.
(** with -force a directory as output ends the program with an exception nobody catches *)
Theorem C62_uncaught_refuted : exists e s f fs w', run e s f [] [] [] (started fs []) = (w', Abort).
Proof. exact uncaught. Qed.
Example C62_example : let s := demo_set $"d/x.h" false false false [] [] in
  header_path s = $"d/x.h" /\ all_defines s demo_funcs [] = Ok ($"#define FOO_COMMON_PREFIX " ++ [dquote; dquote; nl]) /\
  files [($"d/x.h", Directory true)] $"d/x.h" <> None.
Proof. vm_compute. split; [reflexivity|]. split; [reflexivity|discriminate]. Qed.

(* ------------------------------------------------------------ C63 *)

(** C63: one output file.  Nothing else is touched, nothing is printed. *)
Theorem C63_single_file : forall e s f o tdefs i fs out lic fm defs hdr bdy n, runs e s f o lic fm defs hdr bdy n ->
  separate s = false -> to_stdout s = false -> o_output s <> [] -> creatable e s fs (o_output s) ->
  exists w', run e s f o tdefs i (started fs out) = (w', Ret tt) /\
    w_fs w' (o_output s) = Some (Regular (header_text s (top_text e s lic) (middle_text s fm defs tdefs (output hdr))
      (next_line (top_text e s lic) + 1) (second_number s (top_text e s lic) (pre_text s tdefs fm defs) n))) /\
    same_except [o_output s] fs (w_fs w') /\ w_out w' = out.
Proof. exact single_layout. Qed.
(** header and body *)
Theorem C63_separate_files : forall e s f o tdefs i fs out lic fm defs hdr bdy n, runs e s f o lic fm defs hdr bdy n ->
  separate s = true -> creatable e s fs (header_path s) -> creatable e s fs (body_path s) ->
  exists w', run e s f o tdefs i (started fs out) = (w', Ret tt) /\
    w_fs w' (header_path s) = Some (Regular (header_text s (top_text e s lic) (middle_text s fm defs tdefs (output hdr))
      (next_line (top_text e s lic) + 1) (second_number s (top_text e s lic) (pre_text s tdefs fm defs) n))) /\
    w_fs w' (body_path s) = Some (Regular (body_text e s lic (output bdy))) /\
    same_except [header_path s; body_path s] fs (w_fs w') /\ w_out w' = out.
Proof. exact separate_layout. Qed.
(** standard output *)
Theorem C63_standard_output : forall e s f o tdefs i fs out lic fm defs hdr bdy n, runs e s f o lic fm defs hdr bdy n -> to_stdout s = true ->
  exists w', run e s f o tdefs i (started fs out) = (w', Ret tt) /\ w_fs w' = fs /\
    w_out w' = out ++ header_text s (top_text e s lic) (middle_text s fm defs tdefs (output hdr))
      (next_line (top_text e s lic) + 1) (second_number s (top_text e s lic) (pre_text s tdefs fm defs) n).
Proof. exact stdout_layout. Qed.
(** the name the body includes is that of the header, which lies beside it *)
Theorem C63_body_finds_header : forall s, separate s = true -> exists d name ext,
  dir_part d /\ ~ In "/"%char name /\ header_name s = name ++ $"." ++ (if is_cxx s then $"hpp" else $"h") /\
  header_path s = d ++ header_name s /\ body_path s = d ++ name ++ $"." ++ ext /\ ext = (if is_cxx s then $"cpp" else $"c").
Proof. exact same_directory. Qed.
(** line directives: the first one is true; the second one exactly when the lines of the templates are counted right *)
Theorem C63_directives_partial : forall s top fm defs tdefs filled n, o_line s = true -> ~ In nl (header_name s) ->
  exists d1 d2, header_text s top (middle_text s fm defs tdefs filled) (next_line top + 1)
                  (second_number s top (pre_text s tdefs fm defs) n) =
      top ++ d1 ++ middle_text s fm defs tdefs filled ++ d2 ++ bottom_text s /\
    true_directive (top ++ d1) (header_name s) /\
    (n = count_linefeed filled <-> true_directive (top ++ d1 ++ middle_text s fm defs tdefs filled ++ d2) (header_name s)).
Proof. exact directives_true. Qed.
(** ... which they are when no template line is for a kind of symbol of which there are none *)
Theorem C63_lines_counted_partial : forall c, Forall clean_proto (c_funcs c) -> Forall clean_proto (c_objs c) ->
  Forall one_line_proto (c_funcs c) -> Forall one_line_proto (c_objs c) ->
  forall tpls tss ws n, Forall template_ok tpls -> all_protos c <> [] ->
  Forall2 (expands c) (visible_all c true tpls) tss -> Forall (fun ts => ts <> []) tss ->
  substitute c (map template_entries tpls) = Ok (ws, n) -> n = count_linefeed (output ws).
Proof. exact substitute_counts. Qed.
(** true line directives in every case: false of the code *)
Theorem C63_second_directive_refuted : exists e s f fs w' text before n, o_line s = true /\ o_tpath s = [] /\
  run e s f [] [] [] (started fs []) = (w', Ret tt) /\ w_fs w' (o_output s) = Some (Regular text) /\
  text = before ++ directive n (header_name s) ++ bottom_text s /\ n <> next_line (before ++ directive n (header_name s)).
Proof. exact second_wrong. Qed.

Example C63_example : let s := demo_set $"d/x" false true true [] [] in
  runs demo_env s demo_funcs [] ($"/* license */" ++ [nl])
    ($"#line 1 " ++ [dquote] ++ $"filename_macros.h" ++ [dquote; nl] ++ $"#define FOO_EXT 1" ++ [nl])
    ($"#define FOO_SEPARATE" ++ [nl] ++ $"#define FOO_COMMON_PREFIX " ++ [dquote; dquote; nl])
    (match substitute (config_of s demo_funcs []) (map demo_templates [TCommonH; TCH]) with Ok (ws, _) => ws | _ => [] end)
    (match substitute (config_of s demo_funcs []) (map demo_templates [TCommonC; TCC]) with Ok (ws, _) => ws | _ => [] end)
    14 /\
  separate s = true /\ header_path s = $"d/x.h" /\ body_path s = $"d/x.c" /\ creatable demo_env s (fun _ => None) $"d/x.h" /\
  (let '(w', _) := run demo_env s demo_funcs [] [] [] (started (fun _ => None) []) in
   w_fs w' $"d/x.c" = Some (Regular $"// Do not edit this file!
// It was automatically generated by gendlopen.
// All changes made will be lost.

/* license */

#define FOO_INCLUDED_IN_BODY
#include ""x.h""

#line 1 ""common.c""
/* common.c */
#line 2
void *foo_f;
#line 2
void *foo_g;
/* end */
#line 1 ""c.c""
/* c.c */
#line 2
void *foo_f;
#line 2
void *foo_g;
/* end */
")).
Proof.
  split.
  - constructor; try (vm_compute; reflexivity).
    + exists [mkentry $"/* license */" false 1]. split; [repeat constructor; discriminate|]. split; [vm_compute; reflexivity|].
      right. split; [reflexivity|]. intros K. discriminate K.
    + exists [mkentry ($"#line 1 " ++ [dquote] ++ $"filename_macros.h" ++ [dquote]) false 1; mkentry $"#define GDO_EXT 1" false 1].
      split; [repeat constructor; discriminate|]. split; [vm_compute; reflexivity|]. right. split; [reflexivity|]. intros K. discriminate K.
    + eexists. intros _. vm_compute. reflexivity.
  - split; [reflexivity|]. split; [reflexivity|]. split; [reflexivity|]. split; [split; [reflexivity|now left]|]. vm_compute. reflexivity.
Qed.

(* ------------------------------------------------------------ C64 *)

(** C64: the templates of the format are those of the directory.  Missing from the full claim: license.h and
    filename_macros.h, which are read but not used, and -separate. *)
Theorem C64_templates_used_partial : forall e s text L f o tdefs i fs out lic fm defs ws n,
  o_print s = false -> o_template s = [] -> o_tpath s <> [] -> separate s = false -> to_stdout s = false -> o_output s <> [] ->
  (forall t, o_tpath s ++ tfile t <> o_output s) ->
  holds_templates e s text L fs (TLicense :: TFilenameMacros :: format_sources (o_format s)) ->
  plain_template (config_of s [] []) (e_builtin e TLicense) lic -> plain_template (config_of s [] []) (e_builtin e TFilenameMacros) fm ->
  all_defines s f o = Ok defs -> substitute (config_of s f o) (map L (format_sources (o_format s))) = Ok (ws, n) ->
  creatable e s fs (o_output s) ->
  exists w', run e s f o tdefs i (started fs out) = (w', Ret tt) /\
    w_fs w' (o_output s) = Some (Regular (header_text s (top_text e s lic) (middle_text s fm defs tdefs (output ws))
      (next_line (top_text e s lic) + 1) (second_number s (top_text e s lic) (pre_text s tdefs fm defs) n))) /\
    same_except [o_output s] fs (w_fs w') /\ w_out w' = out.
Proof. exact directory_layout. Qed.
(** full C64 is false of the code: the license and the file name macros of the directory are ignored *)
Theorem C64_license_ignored_refuted : exists e s f fs w' text, o_tpath s <> [] /\ run e s f [] [] [] (started fs []) = (w', Ret tt) /\
  w_fs w' (o_output s) = Some (Regular text) /\ fs (o_tpath s ++ $"license.h") = Some (Regular $"/* my license.h %%func_symbol%% */") /\
  find $"license */" text <> None /\ find $"my license" text = None /\ find $"my filename_macros" text = None /\ find $"my common.h f" text <> None.
Proof. exact license_ignored. Qed.
(** with -separate no run completes; the pointer to the license is used after the vector it leads to has moved *)
Theorem C64_separate_never_completes_refuted : forall e s f o tdefs i w, o_print s = false -> o_template s = [] -> o_tpath s <> [] ->
  separate s = true -> forall w', run e s f o tdefs i w <> (w', Ret tt).
Proof. exact separate_never_completes. Qed.
Theorem C64_separate_undefined_refuted : exists e s f fs w', o_tpath s <> [] /\ o_separate s = true /\
  run e s f [] [] [] (started fs []) = (w', Undef).
Proof. exact dangling. Qed.
Example C64_example : let s := demo_set $"x.h" false false false [] $"t/" in
  let text t := $"/* my " ++ tfile t ++ $" %%func_symbol%% */" in
  let L t := [mkentry (text t) true 1; mkentry [] false 0] in
  holds_templates demo_env s text L demo_dir (TLicense :: TFilenameMacros :: format_sources (o_format s)) /\
  match substitute (config_of s demo_funcs []) (map L (format_sources (o_format s))) with
  | Ok (ws, n) => output ws = $"/* my common.h f */
/* my common.h g */
/* my common.c f */
/* my common.c g */
/* my c.h f */
/* my c.h g */
/* my c.c f */
/* my c.c g */
"
  | _ => False
  end.
Proof.
  split; [|vm_compute; reflexivity]. intros t I. cbn in I. repeat (destruct I as [<-|I]; [vm_compute; repeat split; reflexivity|]). destruct I.
Qed.

Print Assumptions C27_longest.
Print Assumptions C27_defined.
Print Assumptions C27_lookup.
Print Assumptions C30_nq_partial.
Print Assumptions C30_ext_partial.
Print Assumptions C30_api_partial.
Print Assumptions C30_plain_partial.
Print Assumptions C30_quoted_once.
Print Assumptions C30_dropped_refuted.
Print Assumptions C34_no_force_partial.
Print Assumptions C34_only_outputs.
Print Assumptions C34_dump_scope.
Print Assumptions C34_extension_replaced.
Print Assumptions C34_extension_added.
Print Assumptions C34_dump_refuted.
Print Assumptions C62_existing_output_partial.
Print Assumptions C62_unreadable_template_partial.
Print Assumptions C62_header_left_refuted.
Print Assumptions C62_output_lost_refuted.
Print Assumptions C62_uncaught_refuted.
Print Assumptions C63_single_file.
Print Assumptions C63_separate_files.
Print Assumptions C63_standard_output.
Print Assumptions C63_body_finds_header.
Print Assumptions C63_directives_partial.
Print Assumptions C63_lines_counted_partial.
Print Assumptions C63_second_directive_refuted.
Print Assumptions C64_templates_used_partial.
Print Assumptions C64_license_ignored_refuted.
Print Assumptions C64_separate_never_completes_refuted.
Print Assumptions C64_separate_undefined_refuted.

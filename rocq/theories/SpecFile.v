(** What a compiler reads in the file that the program writes, for C100.  Definitions only. *)
From Coq Require Import Ascii String List Bool Arith.
From Verif Require Import Str Parse ParamNames Prefix Substitute Data Options Generate.
From Verif Require CRuntime.
From Verif Require Import SpecPrefix SpecSubstitute SpecTemplates SpecCRuntime SpecCLang SpecCProg SpecCRun SpecCMacro SpecBody SpecHeader SpecCRead SpecCSyntax SpecCWhole.
Import ListNotations.

(** what stands between the macros for file names and the templates: the macros for this library, the included headers, the types *)
Definition extra_text (s : settings) (defs : str) (tdefs : list str) : str := defines_text defs ++ includes_text (o_includes s) (is_cxx s) ++ typedefs_text tdefs.
(** it is read as [ds] no matter which macros are set *)
Definition always_read (t : str) (ds : list pout) : Prop := forall d, preprocess d t = Some ds.
(** the macros the file defines before that: the include guard, and the names of libraries and their extensions *)
Definition library_names : list str := map (fun s => $s) ["GDO_LIBEXTA"; "GDO_LIBNAMEA"; "GDO_LIBEXTW"; "GDO_LIBNAMEW"; "GDO_LIBEXT"; "GDO_LIBNAME"]%string.
Definition guard_of (s : settings) : str := guard_name (header_name s) (m_pfx_upper (o_pfxs s)).
Definition file_macros (s : settings) : list str := (if o_pragma s then [] else [guard_of s]) ++ library_names.
(** whether a macro is set where the templates begin: by the compiler ([cfg]), by the file, or by the texts read as [ds] *)
Definition told (s : settings) (cfg : str -> bool) (ds : list pout) : str -> bool := defined_after (fun x => existsb (str_eqb x) (file_macros s) || cfg x) ds.
(** only macros of the file *)
Definition own_macro (s : settings) (o : pout) : Prop := match o with PTok _ => False | PDefine x _ _ | PUndef x => In x (file_macros s) end.
(** only options of the library: macros GDO_... that its functions do not use as names of their own *)
Definition option_macro (o : pout) : Prop :=
  match o with PTok _ => True | PDefine x _ _ | PUndef x => starts_with $"GDO_" x = true /\ starts_with $"GDO_LOAD_" x = false /\ starts_with $"GDO_PTR_" x = false end.
(** the date, if one is printed, is one line *)
Definition plain_date (e : env) (s : settings) : Prop :=
  match (if o_date s then e_date e else None) with Some d => Forall (fun c => c <> nl /\ c <> bslash) d | None => True end.
(** the macros the program always writes: the common beginning of the symbols' names, and one for each function with a variable
    number of arguments *)
Definition standard_macros (f : list proto) (pre : str) : list pout :=
  PDefine $"GDO_COMMON_PREFIX" false [TText pre] :: flat_map (fun e => if ends_with $"..." (p_args e) then [PDefine ($"GDO_HAS_VA_ARGS_" ++ p_symbol e) false [TWord $"1"]] else []) f.
(** what is written behind [#include] are whole tokens in one line *)
Definition header_spec (e : str) : Prop := ~ In bslash e /\ exists k, lex_from MCode (e ++ [nl]) = (MCode, k ++ [TEnd]) /\ ~ In TEnd k.

(** a C file without line directives, and what is known of its surroundings: [cfg] are the compiler's macros, [ds] is how the texts in
    front of the templates are read *)
Definition c_file (e : env) (s : settings) (cfg : str -> bool) (defs : str) (tdefs : list str) (ds : list pout) : Prop :=
  o_format s = FmtC /\ o_line s = false /\ plain_date e s /\ always_read (extra_text s defs tdefs) ds /\ Forall option_macro ds /\
  (o_pragma s = false -> cfg (guard_of s) = false) /\ cfg $"__cplusplus" = false.
(** a library for the target [k] with the macros [d]: see C96 and C99 *)
Definition c_library (k : CRuntime.rconf) (c : config) (d : str -> bool) : Prop :=
  usable c d /\ target k c d /\ d $"GDO_SEPARATE" = false /\ ~ In $"__cplusplus" (symbol_names c) /\ plain_types c /\ typed_config c /\ no_variable c.
(** the text [t] is read by the compiler as the file's own macros, the texts in front, and the library: the header's two parts, with
    functions behind each.  These functions are what C reads with the macros of the text replaced, and they do what CRuntime.v says in
    every sequence of calls that the header offers.  Where the include guard is set already, nothing of the text is used *)
Definition holds_library (s : settings) (k : CRuntime.rconf) (c : config) (cfg : str -> bool) (ds : list pout) (t : str) : Prop :=
  exists own h1 p1 h2 p2, let d := told s cfg ds in let out := own ++ ds ++ h1 ++ print p1 ++ h2 ++ print p2 in
    preprocess cfg t = Some out /\ (o_pragma s = false -> forall d', d' (guard_of s) = true -> preprocess d' t = Some []) /\
    Forall (own_macro s) own /\ preprocess d (header_text c) = Some (h1 ++ h2) /\
    let fs := functions (header_macros (symbol_names c)) (p1 ++ p2) in
    (forall x g, find_func fs x = Some g -> written_as c out x g) /\
    (forall w ops, Forall (fun x => offered c d x = true) ops -> c_run k w fs ops = CRuntime.run k w ops).

(* ------------------------------------------------------------ C101 *)

(** the macro that the body sets before it includes the header *)
Definition in_body (cfg : str -> bool) (x : str) : bool := str_eqb x $"GDO_INCLUDED_IN_BODY" || cfg x.
(** the header [t], included anywhere, is read as the file's own macros, the texts in front, and the templates of the header; included
    again, it adds nothing *)
Definition holds_header (s : settings) (c : config) (cfg : str -> bool) (ds : list pout) (t : str) : Prop :=
  exists own h, preprocess cfg t = Some (own ++ ds ++ h) /\ Forall (own_macro s) own /\ preprocess (told s cfg ds) (header_text c) = Some h /\
    (o_pragma s = false -> forall d', d' (guard_of s) = true -> preprocess d' t = Some []).
(** the body [t'] includes the header [t] by a line of its own.  With the header in the place of that line, the body is read as the macro
    that says so, the header, and the functions of the library, which are as in [holds_library] *)
Definition holds_body (s : settings) (k : CRuntime.rconf) (c : config) (cfg : str -> bool) (ds : list pout) (t t' : str) : Prop :=
  exists before behind own h p, let d := told s (in_body cfg) ds in let first := PDefine $"GDO_INCLUDED_IN_BODY" false [] in let out := first :: own ++ ds ++ h ++ print p in
    t' = before ++ ($"#include " ++ [dquote] ++ header_name s ++ [dquote] ++ [nl]) ++ behind /\ preprocess cfg before = Some [first] /\
    preprocess cfg (before ++ t ++ behind) = Some out /\ Forall (own_macro s) own /\ preprocess d (header_text c) = Some h /\
    let fs := functions (header_macros (symbol_names c)) p in
    (forall x g, find_func fs x = Some g -> written_as c out x g) /\
    (forall w ops, Forall (fun x => offered c d x = true) ops -> c_run k w fs ops = CRuntime.run k w ops).
(** a library in two files, for a target *)
Definition pair_library (k : CRuntime.rconf) (c : config) (d d' : str -> bool) : Prop :=
  usable c d /\ usable c d' /\ target k c d' /\ ~ In $"__cplusplus" (symbol_names c) /\ plain_types c /\ typed_config c /\ no_variable c.

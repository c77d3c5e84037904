(** The default library of a generated file, for C103.  Definitions only. *)
From Coq Require Import Ascii String List Bool.
From Verif Require Import Str Parse ParamNames Prefix Substitute Data Options Generate SpecPrefix SpecSubstitute SpecTemplates SpecCRuntime SpecCLang SpecCProg SpecCMacro SpecBody SpecHeader SpecFile SpecFileName.
Import ListNotations.

(** a word of letters, digits and underscores that is not the name of one of the file's own macros; it may be the name of a function or a variable of the library *)
Definition free_word (c : config) (w : str) : Prop :=
  w <> [] /\ ident_text w /\ starts_with $"GDO_" w = false /\ starts_with $"_GDO_" w = false /\ ~ In w other_macros /\ w <> $"_countof" /\ (In w (symbol_names c) -> w <> $"DECL").
(** the two macros for the default library, with their texts *)
Definition default_macros (a w : list tok) : list pout := [PDefine $"GDO_HARDCODED_DEFAULT_LIBA" false a; PDefine $"GDO_HARDCODED_DEFAULT_LIBW" false w].
(** the value [v] of the option -library stands for the file [file] where the compiler has the macros [d]:
    api:NUMBER:NAME for the file of the library NAME, ext:NAME for NAME with the extension of libraries (api and ext may be written in capitals), anything
    else for itself; the program writes the macros [ds] for it *)
Inductive names_library (c : config) (d : str -> bool) : str -> str -> list pout -> Prop :=
| ByName m n x : map tolower m = $"api:" -> free_word c n -> free_word c x ->
    names_library c d (m ++ n ++ $":" ++ x) (library_file d x n) (default_macros (call "GDO_LIBNAMEA" x n) (call "GDO_LIBNAMEW" x n))
| ByFile h r : ~ In h ["a"; "A"; "e"; "E"; "n"; "N"]%char -> Forall (fun y => y <> dquote /\ y <> nl /\ y <> bslash) (h :: r) ->
    names_library c d (h :: r) (h :: r) (default_macros [TText (h :: r)] [TWord $"L"; TText (h :: r)])
| ByExtension m x : map tolower m = $"ext:" -> x <> [] -> Forall (fun y => y <> dquote /\ y <> nl /\ y <> bslash) x ->
    names_library c d (m ++ x) (x ++ library_extension d) (default_macros [TText x; TWord $"GDO_LIBEXTA"] [TWord $"L"; TText x; TWord $"GDO_LIBEXTW"]).
(** the compiler has no macros for the default library *)
Definition no_default (cfg : str -> bool) : Prop := cfg $"GDO_DEFAULT_LIBA" = false /\ cfg $"GDO_DEFAULT_LIB" = false.
(** a C file without line directives and without -D; the compiler reads it for the first time *)
Definition library_given (e : env) (s : settings) (cfg : str -> bool) : Prop :=
  o_format s = FmtC /\ o_line s = false /\ plain_date e s /\ o_defines s = [] /\ Forall header_spec (o_includes s) /\
  (o_pragma s = false -> cfg (guard_of s) = false) /\ cfg $"__cplusplus" = false /\ cfg $"GDO_SEPARATE" = false /\ no_default cfg.
(** behind the text [t], GDO_DEFAULT_LIB (the library that is opened, see C92) is the text [file], and GDO_COMMON_PREFIX the text [pre] *)
Definition opens_library (cfg : str -> bool) (t file pre : str) : Prop :=
  exists out, preprocess cfg t = Some out /\ makes_text (macros_of out) false [TWord $"GDO_DEFAULT_LIB"] file /\ makes_text (macros_of out) false [TWord $"GDO_COMMON_PREFIX"] pre.
(** the same for the body [t'], with the header [t] in the place of the line that includes it *)
Definition opens_library_with (s : settings) (cfg : str -> bool) (t t' file pre : str) : Prop :=
  exists before behind, t' = before ++ ($"#include " ++ [dquote] ++ header_name s ++ [dquote] ++ [nl]) ++ behind /\ opens_library cfg (before ++ t ++ behind) file pre.

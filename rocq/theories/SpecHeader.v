(** What the header for C is expected to declare, for C93 to C96.  Definitions only. *)
From Coq Require Import Ascii String List Bool Arith ZArith.
From Verif Require Import Str Parse ParamNames Prefix Substitute Data Generate SpecPrefix SpecSubstitute Templates SpecTemplates CRuntime SpecCRuntime SpecCLang SpecCProg SpecCRun SpecCMacro SpecBody.
Import ListNotations.

(** the texts that common.h and c.h are filled in to, and common.c and c.c *)
Definition header_text (c : config) : str := concat (filled_texts c [shipped TCommonH; shipped TCH]).
Definition library_text (c : config) : str := concat (filled_texts c [shipped TCommonC; shipped TCC]).
(** the whole library, as it is in a single file (data.cpp:149-154) *)
Definition single_text (c : config) : str := concat (filled_texts c [shipped TCommonH; shipped TCommonC; shipped TCH; shipped TCC]).
(** header and body in two files: the body begins with the header, which it includes (generate.cpp:339-346, data.cpp:143-148) *)
Definition included_text (c : config) : str := header_text c ++ library_text c.

(** the tokens of a part of a line *)
Definition tokens_of (s : str) : list tok :=
  let (m, l) := lex_from MCode s in unglued (l ++ match m with MWord w => [TWord w] | _ => [] end).
(** which macros are defined behind what was read, if [cfg] tells it for those from outside *)
Definition defined_after (cfg : str -> bool) (out : list pout) : str -> bool :=
  fold_left (fun (d : str -> bool) o => match o with
                                        | PTok _ => d
                                        | PDefine y _ _ => fun x => if str_eqb x y then true else d x
                                        | PUndef y => fun x => if str_eqb x y then false else d x
                                        end) out cfg.

(** the flags of common.h:12-40: functions are called through wrappers; wrappers are visible from outside *)
Definition wrapping (cfg : str -> bool) : bool := cfg $"GDO_WRAP_FUNCTIONS" || cfg $"GDO_ENABLE_AUTOLOAD" || cfg $"GDO_ENABLE_AUTOLOAD_LAZY".
Definition visible (cfg : str -> bool) : bool := cfg $"GDO_WRAP_VISIBILITY".
(** nothing was set for single functions: no hook, no variable arguments *)
Definition no_hooks (c : config) (cfg : str -> bool) : Prop :=
  forall e, In e (c_funcs c) -> cfg ($"GDO_HOOK_" ++ p_symbol e) = false /\ cfg ($"GDO_HAS_VA_ARGS_" ++ p_symbol e) = false.
(** the names of parameters are words with commas between *)
Definition plain_names (e : proto) : Prop := forall t, In t (tokens_of (p_param_names e)) -> t = pn "," \/ exists w, t = TWord w.
(** a library of ordinary declarations, with the default prefix, on a system with dlfcn.h *)
Record usable (c : config) (cfg : str -> bool) : Prop := {
  u_line : c_line c = false; u_prefix : default_prefix c; u_plain : plain_config c; u_names : NoDup (symbol_names c); u_hooks : no_hooks c cfg;
  u_absent : forall x, In x absent -> cfg x = false }.
(** names that are not the header's own *)
Definition own_names (c : config) : Prop := forall n, In n (symbol_names c) -> starts_with $"GDO_" n = false /\ starts_with $"gdo_" n = false.

(** the macros that the header defines whose names do not start with GDO_ *)
Definition other_macros : list str := map (fun s => $s)
  ["DLADDR_PROTOTYPE"; "DLINFO_PROTOTYPE"; "DLMOPEN_PROTOTYPE"; "_GDO_PRAGMA"; "_GDO_WRAP_CHECK_LOADED"; "_T"; "LM_ID_NEWLM"; "RTLD_DI_LINKMAP"; "RTLD_LAZY";
   "RTLD_NOW"; "RTLD_GLOBAL"; "RTLD_LOCAL"; "RTLD_BINDING_MASK"; "RTLD_CONFGEN"; "RTLD_DEEPBIND"; "RTLD_FIRST"; "RTLD_GROUP"; "RTLD_MEMBER"; "RTLD_MODEMASK";
   "RTLD_NOAUTODEFER"; "RTLD_NODELETE"; "RTLD_NOLOAD"; "RTLD_PARENT"; "RTLD_TRACE"; "RTLD_WORLD"; "DL_LAZY"; "DONT_RESOLVE_DLL_REFERENCES";
   "LOAD_IGNORE_CODE_AUTHZ_LEVEL"; "LOAD_LIBRARY_AS_DATAFILE"; "LOAD_LIBRARY_AS_DATAFILE_EXCLUSIVE"; "LOAD_LIBRARY_AS_IMAGE_RESOURCE";
   "LOAD_LIBRARY_SEARCH_APPLICATION_DIR"; "LOAD_LIBRARY_SEARCH_DEFAULT_DIRS"; "LOAD_LIBRARY_SEARCH_DLL_LOAD_DIR"; "LOAD_LIBRARY_SEARCH_SYSTEM32";
   "LOAD_LIBRARY_SEARCH_USER_DIRS"; "LOAD_WITH_ALTERED_SEARCH_PATH"; "LOAD_LIBRARY_REQUIRE_SIGNED_TARGET"; "LOAD_LIBRARY_SAFE_CURRENT_DIRS"]%string.

(** the pointer in the handle *)
Definition pointer (n : str) : list tok := [wd "gdo_hndl"; pn "."; TWord ($"GDO_PTR_" ++ n)].
(** the numbers of the symbols, and the handle with a pointer to each of them *)
Definition handle_text (c : config) : list tok :=
  [wd "enum"; pn "{"] ++ flat_map (fun n => [TWord ($"GDO_LOAD_" ++ n); pn ","]) (symbol_names c) ++ [wd "GDO_ENUM_LAST"; pn "}"; pn ";"] ++
  [wd "typedef"; wd "struct"; wd "_gdo_handle"; pn "{"; wd "gdo_hmod_t"; wd "handle"; pn ";"; wd "bool"; wd "free_lib_reg"; pn ";"] ++
  flat_map (fun e => tokens_of (p_type e) ++ [pn "("; pn "*"; TWord ($"GDO_PTR_" ++ p_symbol e); pn ")"; pn "("] ++ tokens_of (p_args e) ++ [pn ")"; pn ";"]) (c_funcs c) ++
  flat_map (fun e => tokens_of (p_type e) ++ [pn "*"; TWord ($"GDO_PTR_" ++ p_symbol e); pn ";"]) (c_objs c) ++
  [wd "gdo_char_t"; wd "libpath"; pn "["; wd "GDO_BUFLEN"; pn "]"; pn ";"; wd "gdo_char_t"; wd "errbuf"; pn "["; wd "GDO_BUFLEN"; pn "]"; pn ";"; pn "}"; wd "gdo_handle_t"; pn ";";
   wd "GDO_OBJ_DECL"; wd "gdo_handle_t"; wd "gdo_hndl"; pn ";"].
(** the wrapper of a function: it has the function's type, checks that the pointer was loaded (with its number and its name) and hands
    over its arguments *)
Definition wrapper_name (seen : bool) (n : str) : str := if seen then n else $"GDO_WRAP_" ++ n.
Definition wrapper (seen : bool) (e : proto) : list tok :=
  (if seen then [wd "GDO_WRAP_VISIBILITY"] else [wd "static"; wd "inline"]) ++
  tokens_of (p_type e) ++ [TWord (wrapper_name seen (p_symbol e)); pn "("] ++ tokens_of (p_args e) ++ [pn ")"; pn "{"] ++
  [wd "_gdo_wrap_check_loaded"; pn "("; pn "("; wd "void"; pn "*"; pn ")"] ++ pointer (p_symbol e) ++
    [pn ","; TWord ($"GDO_LOAD_" ++ p_symbol e); pn ","; TText (p_symbol e); pn ")"; pn ";"] ++
  [wd "_gdo_noop"; pn "("; pn ")"; pn ";"] ++
  (if void_type e then [] else [wd "return"]) ++ pointer (p_symbol e) ++ [pn "("] ++ tokens_of (p_param_names e) ++ [pn ")"; pn ";"; pn "}"].
(** what a function's name is to stand for: its wrapper if there is one, else the pointer *)
Definition meant (cfg : str -> bool) (n : str) : list tok := if wrapping cfg then [TWord (wrapper_name (visible cfg) n)] else pointer n.
(** a token that is the name of the wrapper, or of the macro that it is declared with *)
Definition names_wrapper (n : str) (o : pout) : bool := match o with PTok (TWord x) => str_eqb x ($"GDO_WRAP_" ++ n) || str_eqb x $"GDO_WRAP" | _ => false end.
(** the words of a declaration are no macros, and neither is the name of its wrapper *)
Definition not_macros (m : macro_table) (e : proto) : Prop :=
  forall t w, In t (tokens_of (p_type e) ++ tokens_of (p_args e) ++ tokens_of (p_param_names e) ++ [TWord (p_symbol e); TWord ($"GDO_WRAP_" ++ p_symbol e)]) ->
    t = TWord w -> macro_at m w = None.
(** the words of a declaration are none of the header's macros *)
Definition plain_words (e : proto) : Prop :=
  (forall w, In (TWord w) (tokens_of (p_type e) ++ tokens_of (p_args e) ++ tokens_of (p_param_names e) ++ [TWord (p_symbol e)]) -> starts_with $"GDO_" w = false /\ ~ In w other_macros) /\
  p_symbol e <> $"DECL".

(** a target with dlfcn.h, in terms of the macros that the compiler and the user set (common.h:77-260): [k] is the library's
    behaviour on it *)
Definition any_of (cfg : str -> bool) (l : list str) : bool := existsb cfg l.
Record target (k : rconf) (c : config) (cfg : str -> bool) : Prop := {
  t_ok : conf_ok k;
  t_names : k_names k = symbol_names c;
  t_absent : forall x, In x absent -> cfg x = false;
  t_dladdr : k_dladdr k = true;
  t_dlinfo : k_dlinfo k = any_of cfg [$"GDO_HAVE_DLINFO"; $"__GLIBC__"; $"__FreeBSD__"; $"__NetBSD__"; $"__DragonFly__"; $"__minix"; $"__sun"];
  t_dlmopen : k_dlmopen k = any_of cfg [$"GDO_HAVE_DLMOPEN"; $"__GLIBC__"; $"__sun"];
  t_linux : k_linux k = cfg $"__linux__";
  t_auto : k_auto k = if cfg $"GDO_ENABLE_AUTOLOAD_LAZY" then AutoLazy else if cfg $"GDO_ENABLE_AUTOLOAD" then AutoAll else AutoOff;
  t_lib : c_str (k_lib k) = k_lib k
}.
(** there is a default library (common.h) *)
Definition default_lib (cfg : str -> bool) : bool := any_of cfg [$"GDO_DEFAULT_LIB"; $"GDO_DEFAULT_LIBA"; $"GDO_HARDCODED_DEFAULT_LIBA"].
Definition offered (c : config) (cfg : str -> bool) (o : op) : bool :=
  match o with
  | LoadLib | LoadLibAndSymbols => default_lib cfg
  | Wrapped _ _ => wrapping cfg && match c_param c with PSkip => false | _ => true end &&
                   ((negb (cfg $"GDO_ENABLE_AUTOLOAD") && negb (cfg $"GDO_ENABLE_AUTOLOAD_LAZY")) || default_lib cfg)
  | _ => true
  end.

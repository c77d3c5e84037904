(** What the program in the generated files is expected to find in the headers, for C92.  Definitions only. *)
From Coq Require Import Ascii String List Bool Arith ZArith.
From Verif Require Import Str SpecCRuntime Parse ParamNames Prefix Substitute SpecPrefix SpecSubstitute Templates SpecTemplates CRuntime SpecCLang SpecCProg SpecCRun.
Import ListNotations.

(** the symbols in the order of the templates: functions, then objects *)
Definition symbol_names (c : config) : list str := map p_symbol (c_funcs c ++ c_objs c).
(** the macros of c.h that the functions use: _T, c.h:8-10 (without wide characters it changes nothing), and GDO_RAWPTR_x, c.h:180-181 *)
Definition header_macros (names : list str) : list (str * option macro) :=
  ($"_T", Some (mkmacro (Some ([$"x"], false)) (MExpr (EId $"x")))) ::
  map (fun n => ($"GDO_RAWPTR_" ++ n, Some (mkmacro None (MExpr (EField (EId $"gdo_hndl") ($"GDO_PTR_" ++ n)))))) names.

(** the declarations are ordinary: names are identifiers, types and parameters hold no brackets, quotes or comments *)
Definition plain_config (c : config) : Prop := Forall plain_proto (c_funcs c) /\ Forall plain_proto (c_objs c).
(** the functions are called gdo_x and the macros GDO_x: the default prefix *)
Definition default_prefix (c : config) : Prop := m_pfx_upper (c_pfx c) = $"GDO" /\ m_pfx_lower (c_pfx c) = $"gdo".
(** macros that are not set: a system with dlfcn.h other than AIX *)
Definition absent : list str := [$"_WIN32"; $"GDO_WINAPI"; $"_AIX"; $"_GDO_TARGET_WIDECHAR"; $"_countof"].

(** the build that CRuntime.v's [k] describes: the symbols of the configuration [c], compiled with the macros [cfg] *)
Record build (k : rconf) (c : config) (cfg : str -> bool) : Prop := {
  b_ok : conf_ok k;
  b_names : k_names k = symbol_names c;
  b_absent : forall x, In x absent -> cfg x = false;
  b_dlmopen : cfg $"GDO_HAVE_DLMOPEN" = k_dlmopen k;
  b_dlinfo : cfg $"GDO_HAVE_DLINFO" = k_dlinfo k;
  b_dladdr : cfg $"GDO_HAVE_DLADDR" = k_dladdr k;
  b_linux : cfg $"__linux__" = k_linux k;
  b_auto : cfg $"GDO_ENABLE_AUTOLOAD" = match k_auto k with AutoOff => false | _ => true end;
  b_lazy : k_auto k <> AutoOff -> cfg $"GDO_ENABLE_AUTOLOAD_LAZY" = match k_auto k with AutoLazy => true | _ => false end;
  b_lib : c_str (k_lib k) = k_lib k
}.
(** the functions a program can call: those with a default library exist if there is one (c.h:84-90), the wrappers if they are
    asked for and the parameters have names, with autoloading only if there is a default library (c.h:188-271, common.h:20-27) *)
Definition callable (k : rconf) (c : config) (cfg : str -> bool) (o : op) : bool :=
  match o with
  | LoadLib | LoadLibAndSymbols => cfg $"GDO_DEFAULT_LIB"
  | Wrapped _ _ => (cfg $"GDO_WRAP_FUNCTIONS" || cfg $"GDO_ENABLE_AUTOLOAD") && match c_param c with PSkip => false | _ => true end &&
                   match k_auto k with AutoOff => true | _ => cfg $"GDO_DEFAULT_LIB" end
  | _ => true
  end.
(** every expression of a statement or function is read back from its tokens as it is *)
Definition fine_x (e : expr) : bool := match e with ENone => true | _ => fine_e e end.
Fixpoint fine_s (s : stmt) : bool :=
  match s with
  | SExpr e => fine_x e
  | SDecl _ _ _ init => match init with Some e => fine_e e && (level e <=? 9) | None => true end
  | SIf e yes no => fine_e e && forallb fine_s yes && match no with Some l => forallb fine_s l | None => true end
  | SReturn e => match e with Some e => fine_e e | None => true end
  | SSwitch e l => fine_e e && forallb fine_s l
  | SCase e => fine_e e
  | SDefault | SBreak => true
  end.
Definition fine_f (f : func) : bool := forallb fine_s (f_body f).

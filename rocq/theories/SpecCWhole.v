(** Which macros are replaced in the generated functions, and which are left for the program that runs them, for C99.  Definitions only. *)
From Coq Require Import Ascii String List Bool Arith.
From Verif Require Import Str Parse ParamNames Prefix Substitute SpecPrefix SpecSubstitute Templates SpecTemplates SpecCLang SpecCProg SpecCRun SpecCMacro SpecBody SpecHeader SpecCRead SpecCSyntax.
Import ListNotations.

(** constants whose values are given to the program from outside (SpecCRun.v), and the words for the linkage of functions *)
Definition left_alone : list str := map (fun s => $s)
  ["GDO_DEFAULT_FLAGS"; "GDO_BUFLEN"; "GDO_DEFAULT_LIB"; "GDO_COMMON_PREFIX"; "LM_ID_NEWLM"; "RTLD_DI_LINKMAP"; "GDO_LINKAGE"; "GDO_INLINE"]%string.
(** the macros without these *)
Definition without (names : list str) (m : macro_table) : macro_table := filter (fun y => negb (one_of (fst y) names)) m.
(** the words of the declarations' types and parameters are no macros of the header or of the library *)
Definition plain_types (c : config) : Prop := forall e w, In e (c_funcs c ++ c_objs c) -> In (TWord w) (tokens_of (p_type e) ++ tokens_of (p_args e)) ->
  starts_with $"GDO_" w = false /\ starts_with $"_GDO_" w = false /\ ~ In w other_macros /\ w <> $"_countof".
(** the function [x] in the text [out], with the macros that are defined in front of it replaced, is what C reads as [f] *)
Definition written_as (c : config) (out : list pout) (x : str) (f : func) : Prop := exists front f0 rest l,
  out = front ++ map PTok (print_f f0) ++ rest /\ f_name f0 = x /\ becomes (without left_alone (macros_of front)) (print_f f0) l /\ reads_function (type_in c f) l f.

(** What is a type's name in the generated functions, for C97.  Definitions only. *)
From Coq Require Import Ascii String List Bool Arith.
From Verif Require Import Str Parse ParamNames Prefix Substitute SpecPrefix SpecSubstitute Templates SpecTemplates SpecCLang SpecCProg SpecCRun SpecBody SpecHeader SpecCRead.
Import ListNotations.

Definition one_of (x : str) (l : list str) : bool := existsb (str_eqb x) l.
(** types that C and the headers bring along *)
Definition base_types : list str := map (fun s => $s) ["void"; "const"; "char"; "int"; "bool"; "size_t"; "struct"; "Dl_info"; "gdo_hmod_t"; "gdo_char_t"]%string.
(** the words with which the types of the declarations begin *)
Definition first_word (e : proto) : list str := match tokens_of (p_type e) with TWord w :: _ => [w] | _ => [] end.
Definition user_types (c : config) : list str := flat_map first_word (c_funcs c ++ c_objs c).
(** a function's parameters and variables hide types of the same name *)
Fixpoint variables (s : stmt) : list str :=
  match s with
  | SDecl _ x _ _ => [x]
  | SIf _ yes no => flat_map variables yes ++ match no with Some l => flat_map variables l | None => [] end
  | SSwitch _ l => flat_map variables l
  | _ => []
  end.
Definition hidden_by (f : func) : list str := map snd (f_params f) ++ flat_map variables (f_body f).
Definition type_in (c : config) (f : func) (w : str) : bool := (one_of w base_types || one_of w (user_types c)) && negb (one_of w (hidden_by f)).

(** the names that the generated functions use: their variables, and what the system's headers declare *)
Definition own_variables : list str := map (fun s => $s)
  ["addr"; "curr"; "curr_len"; "filename"; "flags"; "fmt"; "handle"; "haystack"; "info"; "len"; "lm"; "load"; "msg"; "needle"; "new_namespace"; "path"; "pfx"; "pfxlen"; "ptr";
   "sym"; "symbol"; "symbol_num"; "symptr"]%string.
Definition system_names : list str := map (fun s => $s)
  ["0"; "1"; "LM_ID_NEWLM"; "NULL"; "RTLD_DI_LINKMAP"; "abort"; "atexit"; "dladdr"; "dlclose"; "dlerror"; "dlinfo"; "dlmopen"; "dlopen"; "dlsym"; "exit"; "false"; "fprintf"; "fputc";
   "memcpy"; "snprintf"; "stderr"; "strcmp"; "strlen"; "strncmp"; "strstr"; "true"]%string.
Definition own_prefix (w : str) : bool := starts_with $"gdo_" w || starts_with $"_gdo_" w || starts_with $"GDO_" w.
(** a declaration's type begins with a word that is none of these, and the brackets in it and in the parameters match *)
Definition brackets_match (s : str) : Prop := closing 0 (tokens_of s ++ [pn ")"]) = Some (tokens_of s, []).
Definition typed_proto (e : proto) : Prop :=
  (exists w r, tokens_of (p_type e) = TWord w :: r /\ is_keyword w = false /\ one_of w system_names = false /\ own_prefix w = false) /\
  brackets_match (p_type e) /\ brackets_match (p_args e).
Definition typed_config (c : config) : Prop := Forall typed_proto (c_funcs c ++ c_objs c).
(** no type is called like a variable of the generated functions *)
Definition no_variable (c : config) : Prop := forall w, In w (user_types c) -> one_of w own_variables = false.

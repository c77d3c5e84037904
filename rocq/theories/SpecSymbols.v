(** Specification vocabulary for the list of symbols printed by -print-symbols. *)
From Coq Require Import Ascii String List Bool Arith NArith.
From Verif Require Import Str Parse SpecParse SpecTables SpecFormat Prefix Format Options SpecEndToEnd.
Import ListNotations.

(** The declaration printed for a declaration: functions are printed without the parentheses around the name; function pointers
    and arrays have the type name that is defined for them, made with the prefix [pl]. *)
Definition reprinted (pl : str) (d : decl) : decl :=
  match d with
  | DObject ty n => DObject ty n
  | DArray _ n _ | DFunctionPointer _ n _ => DObject [td_name pl n] n
  | DFunction ty n ps | DFunctionParen ty n ps => DFunction ty n ps
  | DFunctionParenPtr two ty n ps => DFunction (ty ++ stars two) n ps
  end.
(** the declarations asked for by [-P] and [-S], in the order of [asked_for] *)
Definition asked_decls (pfx syms : list str) (ds : list decl) : list decl :=
  match pfx, syms with
  | [], [] => ds
  | _, _ => filter (fun d => prefixed_by pfx (decl_name d)) ds ++
            filter (fun d => listed_in syms (decl_name d) && negb (prefixed_by pfx (decl_name d))) ds
  end.
(** the printed declarations: objects, then functions *)
Definition printed_decls (s : settings) (ds : list decl) : list decl :=
  let asked := asked_decls (o_prefix_list s) (o_symbol_list s) in
  map (reprinted (m_pfx_lower (o_pfxs s)))
    (asked (filter (fun d => negb (is_function_decl d)) ds) ++ asked (filter is_function_decl ds)).
(** an entry whose type is a name now *)
Definition plain_object (p : proto) : proto :=
  mkproto KObject (p_type p) (p_symbol p) (p_args p) (p_args_vec p) (p_param_names p).
(** how the list ends *)
Definition match_count (n : nat) : str := [nl; nl] ++ $"/***  " ++ nat_to_string n ++ $" matches  ***/" ++ [nl].

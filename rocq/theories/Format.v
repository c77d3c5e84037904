(** Cosmetic formatting and typedefs: /repo/src/tokenize.cpp.  Definitions only. *)
From Coq Require Import Ascii String List Bool Arith.
From Verif Require Import Str CheckPattern Parse.
Import ListNotations.

(** fptr_typedef, tokenize.cpp:177-189; the empty result stands for [return {}] *)
Definition fptr_typedef (type name : str) : str :=
  match find $"(*)" type with
  | None => []
  | Some pos =>
      if match find $"(" type with Some p => Nat.eqb p pos | None => false end
      then insert_at (pos + 2) name type
      else []
  end.

(** array_typedef, tokenize.cpp:193-210 *)
Definition array_typedef (type name : str) : str :=
  match find $"[" type with
  | None => []
  | Some pos =>
      if Nat.ltb 0 pos && negb (Ascii.eqb (str_at type (pos - 1)) " ")
      then insert_at (pos + 1) name (insert_at pos $" " type)
      else insert_at pos name type
  end.

(** the replacements of format_prototype, tokenize.cpp:218-228, in order *)
Definition format_rules : list (str * str) :=
  [ ($"( ", $"("); ($") ", $")"); ($" )", $")");
    ($" [", $"["); ($" ]", $"]"); ($"[ ", $"["); ($"] ", $"]");
    ($" ,", $","); ($"* ", $"*") ].
Fixpoint replace_all (rules : list (str * str)) (s : str) : res str :=
  match rules with
  | [] => Ok s
  | (from, to) :: rules' => s' <- replace from to s ;; replace_all rules' s'
  end.

(** format_prototype, tokenize.cpp:214-229 *)
Definition format_prototype (s : str) : res str := replace_all format_rules (strip_spaces s).

(** gendlopen::create_typedefs, tokenize.cpp:344-368: [objs] is m_objects; returns m_typedefs (appended) and the
    changed m_objects *)
Definition typedef_name (pfx_lower symbol : str) : str := pfx_lower ++ $"_" ++ symbol ++ $"__t".
Fixpoint create_typedefs (pfx_lower : str) (objs : list proto) : res (list str * list proto) :=
  match objs with
  | [] => Ok ([], [])
  | p :: objs' =>
      let name := typedef_name pfx_lower (p_symbol p) in
      let go def :=
        match def with
        | [] => Err ($"failed to create typedef for symbol `" ++ p_symbol p ++ $"'")
        | _ :: _ =>
            r <- create_typedefs pfx_lower objs' ;;
            Ok (def :: fst r,
                mkproto (p_kind p) name (p_symbol p) (p_args p) (p_args_vec p) (p_param_names p) :: snd r)
        end in
      match p_kind p with
      | KFunctionPointer => go (fptr_typedef (p_type p) name)
      | KObjectArray => go (array_typedef (p_type p) name)
      | _ => r <- create_typedefs pfx_lower objs' ;; Ok (fst r, p :: snd r)
      end
  end.

(** the "cosmetics" loops of gendlopen::tokenize, tokenize.cpp:432-446 *)
Definition format_proto (p : proto) : res proto :=
  t <- format_prototype (p_type p) ;;
  a <- format_prototype (p_args p) ;;
  Ok (mkproto (p_kind p) t (p_symbol p) a (p_args_vec p) (p_param_names p)).

(** m_prototypes, m_objects and m_typedefs once gendlopen::tokenize has returned *)
Record symbols := mksyms { s_funcs : list proto; s_objs : list proto; s_typedefs : list str }.

(** end of gendlopen::tokenize for text input, tokenize.cpp:430-446: typedefs, then the cosmetics *)
Definition finish_tables (pfx_lower : str) (t : tables) : res symbols :=
  td <- create_typedefs pfx_lower (t_objs t) ;;
  f <- mapR format_proto (t_funcs t) ;;
  o <- mapR format_proto (snd td) ;;
  d <- mapR format_prototype (fst td) ;;
  Ok (mksyms f o d).

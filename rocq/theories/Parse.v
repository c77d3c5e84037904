(** Prototype parsing and symbol selection: /repo/src/parse.cpp, parse.hpp, types.hpp.  Definitions only. *)
From Coq Require Import Ascii String List Bool Arith ZArith.
From Verif Require Import Str CheckPattern.
Import ListNotations.
Local Open Scope Z_scope.

(** proto::type, types.hpp:40-48 *)
Inductive kind := KFunction | KFunctionPointer | KObject | KObjectArray.

(** proto_t, types.hpp:51-59 (the [saved] flag is local to gendlopen::parse and modelled there) *)
Record proto := mkproto {
  p_kind : kind;
  p_type : str;
  p_symbol : str;
  p_args : str;
  p_args_vec : list (list str);
  p_param_names : str
}.

(** parse::append_strings, parse.hpp:36-50 *)
Definition append_strings (buf : str) (l : list str) : str :=
  buf ++ concat (map (fun s => s ++ [sp]) l).

(** copy_parameters, parse.cpp:69-101: [cur] is the local [tokens], [acc] is args_vec *)
Fixpoint copy_loop (scope : Z) (cur : list str) (acc : list (list str)) (l : list str) : list (list str) :=
  match l with
  | [] => if cur then acc else acc ++ [cur]
  | t :: l' =>
      if Ascii.eqb (str_front t) "(" then copy_loop (scope + 1) (cur ++ [t]) acc l'
      else if Ascii.eqb (str_front t) ")" then copy_loop (scope - 1) (cur ++ [t]) acc l'
      else if Ascii.eqb (str_front t) "," && (scope =? 0) then copy_loop scope [] (acc ++ [cur]) l'
      else copy_loop scope (cur ++ [t]) acc l'
  end.
Definition copy_parameters (l : list str) : list (list str) := copy_loop 0 [] [] l.

(** result of one check_* function: None means "return false" *)
Definition mk_fn (ty sym : str) (args : list (list str)) : proto := mkproto KFunction ty sym [] args [].

(** check_object, parse.cpp:105-116 *)
Definition check_object (v : list str) : res (option proto) :=
  b <- is_object v (vsize v) ;;
  if negb b then Ok None else
  ty <- slice v 0 (vsize v - 1) ;;
  sym <- deref v (vsize v - 1) ;;
  Ok (Some (mkproto KObject (append_strings [] ty) sym [] [] [])).

(** check_array, parse.cpp:120-132 *)
Definition check_array (v : list str) (it : Z) : res (option proto) :=
  b <- is_array v it ;;
  if negb b then Ok None else
  ty <- slice v 0 (it - 1) ;;
  br <- slice v it (vsize v) ;;
  sym <- deref v (it - 1) ;;
  Ok (Some (mkproto KObjectArray (append_strings (append_strings [] ty) br) sym [] [] [])).

(** check_function_pointer, parse.cpp:136-153 *)
Definition check_function_pointer (v : list str) (it : Z) : res (option proto) :=
  b <- is_function_pointer v it ;;
  if negb b then Ok None else
  ty <- slice v 0 it ;;
  rest <- slice v (it + 4) (vsize v) ;;
  sym <- deref v (it + 2) ;;
  Ok (Some (mkproto KFunctionPointer (append_strings (append_strings [] ty ++ $"(*)") rest) sym [] [] [])).

(** check_function_paren, parse.cpp:157-172 *)
Definition check_function_paren (v : list str) (it : Z) : res (option proto) :=
  b <- is_function_parentheses v it ;;
  if negb b then Ok None else
  ty <- slice v 0 it ;;
  sym <- deref v (it + 1) ;;
  ps <- slice v (it + 4) (vsize v - 1) ;;
  Ok (Some (mk_fn (append_strings [] ty) sym (copy_parameters ps))).

(** check_function_paren_pointer, parse.cpp:176-198 *)
Definition check_function_paren_pointer (v : list str) (it : Z) : res (option proto) :=
  b1 <- is_function_paren_pointer1 v it ;;
  b2 <- (if b1 then Ok false else is_function_paren_pointer2 v it) ;;
  if negb b1 && negb b2 then Ok None else
  let n := if b1 then 1 else 2 in
  ty <- slice v 0 it ;;
  ptrs <- slice v (it + 1) (it + 1 + n) ;;
  sym <- deref v (it + 1 + n) ;;
  ps <- slice v (it + n + 3) (vsize v - 2) ;;
  Ok (Some (mk_fn (append_strings (append_strings [] ty) ptrs) sym (copy_parameters ps))).

(** check_function, parse.cpp:202-214 *)
Definition check_function (v : list str) (it : Z) : res (option proto) :=
  b <- is_function v it ;;
  if negb b then Ok None else
  ty <- slice v 0 (it - 1) ;;
  sym <- deref v (it - 1) ;;
  ps <- slice v (it + 1) (vsize v - 1) ;;
  Ok (Some (mk_fn (append_strings [] ty) sym (copy_parameters ps))).

(** [a || b] on check functions *)
Definition or_else (a : res (option proto)) (b : res (option proto)) : res (option proto) :=
  x <- a ;; match x with Some p => Ok (Some p) | None => b end.

(** check_prototype, parse.cpp:218-252 *)
Definition check_prototype (v : list str) : res (option proto) :=
  if vsize v <? 2 then Ok None else
  f <- deref v 0 ;;
  if negb (is_ident (str_front f)) then Ok None else
  let it := find_first_not_pointer_or_ident v in
  if it =? vsize v then check_object v else
  t <- deref v it ;;
  if Ascii.eqb (str_front t) "(" then
    or_else (check_function v it)
   (or_else (check_function_pointer v it)
   (or_else (check_function_paren v it)
            (check_function_paren_pointer v it)))
  else if Ascii.eqb (str_front t) "[" then check_array v it
  else Ok None.

(** parse_tokens, parse.cpp:256-272; None: print_tokens(v); return false *)
Fixpoint parse_tokens (vec : list (list str)) : res (option (list proto)) :=
  match vec with
  | [] => Ok (Some [])
  | v :: vec' =>
      p <- check_prototype v ;;
      match p with
      | None => Ok None
      | Some p => ps <- parse_tokens vec' ;;
                  Ok (match ps with Some ps => Some (p :: ps) | None => None end)
      end
  end.

(** multiple_definitions, parse.cpp:52-65: the first i for which an earlier j has the same symbol *)
Fixpoint multiple_definitions_from (seen : list str) (l : list proto) : option str :=
  match l with
  | [] => None
  | p :: l' => if existsb (str_eqb (p_symbol p)) seen then Some (p_symbol p)
               else multiple_definitions_from (p_symbol p :: seen) l'
  end.
Definition multiple_definitions (l : list proto) : option str := multiple_definitions_from [] l.

(* ------------------------------------------------------------ selection, parse.cpp:309-371 *)

(** m_prototypes, m_objects *)
Record tables := mktab { t_funcs : list proto; t_objs : list proto }.
Definition no_tables : tables := mktab [] [].

Definition is_function_kind (p : proto) : bool := match p_kind p with KFunction => true | _ => false end.

(** save_symbol, parse.cpp:311-322, for a proto that is not saved yet *)
Definition save_symbol (t : tables) (p : proto) : tables :=
  if is_function_kind p then mktab (t_funcs t ++ [p]) (t_objs t)
  else mktab (t_funcs t) (t_objs t ++ [p]).

(** the prefix loop, parse.cpp:333-337; elements carry their [saved] flag *)
Fixpoint select_prefix (pfx : list str) (t : tables) (l : list (proto * bool)) : tables * list (proto * bool) :=
  match l with
  | [] => (t, [])
  | (p, saved) :: l' =>
      if is_prefixed (p_symbol p) pfx then
        let t' := if saved then t else save_symbol t p in
        let '(t'', r) := select_prefix pfx t' l' in (t'', (p, true) :: r)
      else let '(t'', r) := select_prefix pfx t l' in (t'', (p, saved) :: r)
  end.

(** the list loop, parse.cpp:342-346: std::erase on m_symbol_list *)
Fixpoint select_list (syms : list str) (t : tables) (l : list (proto * bool)) : tables * list str :=
  match l with
  | [] => (t, syms)
  | (p, saved) :: l' =>
      if existsb (str_eqb (p_symbol p)) syms then
        select_list (filter (fun x => negb (str_eqb (p_symbol p) x)) syms)
                    (if saved then t else save_symbol t p) l'
      else select_list syms t l'
  end.

Definition not_found_msg (syms : list str) : str :=
  $"the following symbols were not found:" ++ concat (map (fun e => sp :: e) (sort_dedup syms)).

(** filter and copy symbols, parse.cpp:309-371 *)
Definition select (pfx syms : list str) (input_name : str) (l : list proto) : res tables :=
  let mode := get_filter_mode pfx syms in
  let l0 := map (fun p => (p, false)) l in
  t <- match mode with
       | FNone => Ok (fold_left save_symbol l no_tables)
       | _ =>
           let '(t1, l1) := if mode_prefix mode then select_prefix pfx no_tables l0 else (no_tables, l0) in
           if mode_list mode then
             let '(t2, missing) := select_list syms t1 l1 in
             match missing with [] => Ok t2 | _ => Err (not_found_msg missing) end
           else Ok t1
       end ;;
  match t_funcs t, t_objs t with
  | [], [] => Err ($"no function or object prototypes found in " ++ input_name)
  | _, _ => Ok t
  end.

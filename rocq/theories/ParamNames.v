(** Parameter names: /repo/src/parameter_names.cpp.  Definitions only.
    A function returning false with a message in [msg] is [Err msg]. *)
From Coq Require Import Ascii String List Bool Arith ZArith.
From Verif Require Import Str CheckPattern Parse.
Import ListNotations.
Local Open Scope Z_scope.

Definition set_args (p : proto) (a : str) : proto :=
  mkproto (p_kind p) (p_type p) (p_symbol p) a (p_args_vec p) (p_param_names p).
Definition set_args_names (p : proto) (a n : str) : proto :=
  mkproto (p_kind p) (p_type p) (p_symbol p) a (p_args_vec p) n.

(** param::names, types.hpp:84-90 *)
Inductive param_mode := PRead | PCreate | PSkip.

(** param_void_or_empty, parameter_names.cpp:40-67; the proto is changed only when true is returned *)
Definition param_void_or_empty (p : proto) : option proto :=
  match p_args_vec p with
  | [] => Some p
  | [v] => match v with
           | [t] => if strcaseeq t $"void" then Some (set_args p t) else None
           | _ => None
           end
  | _ => None
  end.

Definition hint : str := nl :: $"hint: try `-param=skip' or `-param=create'".

(** read_parameter_names, parameter_names.cpp:123-183; [names] is proto.param_names *)
Fixpoint read_names_loop (sym : str) (names : str) (vs : list (list str)) : res str :=
  match vs with
  | [] => Ok (delete_suffix names $", ")
  | v :: vs' =>
      match v with
      | [] => Err ($"empty parameter in function `" ++ sym ++ $"'")
      | [t] => if str_eqb t $"..." then read_names_loop sym names vs'
               else Err ($"typename only or incorrect parameter format in function `" ++ sym ++ $"': "
                         ++ t ++ hint)
      | _ =>
        f <- deref v 0 ;;
        b <- deref v (vsize v - 1) ;;
        if starts_with $"*" f then
          Err (append_strings ($"parameter in function `" ++ sym ++ $"' begins with pointer `*': ") v)
        else if ends_with $"*" b then
          Err (append_strings ($"parameter in function `" ++ sym ++ $"' is missing a typename: ") v ++ hint)
        else
          let it := find_first_not_pointer_or_ident v in
          o <- is_object v it ;;
          if o then read_names_loop sym (names ++ b ++ $", ") vs' else
          fp <- is_function_pointer v it ;;
          if fp then n <- deref v (it + 2) ;; read_names_loop sym (names ++ n ++ $", ") vs' else
          ar <- is_array v it ;;
          if ar then n <- deref v (it - 1) ;; read_names_loop sym (names ++ n ++ $", ") vs' else
          Err (append_strings ($"incorrect parameter format in function `" ++ sym ++ $"': ") v ++ hint)
      end
  end.

(** the "copy parameters" loop of get_parameter_names, parameter_names.cpp:197-203 *)
Definition copied_args (a0 : str) (vs : list (list str)) : str :=
  strip_spaces (delete_suffix (fold_left (fun a v => append_strings a v ++ $", ") vs a0) $", ").

(** parse::get_parameter_names, parameter_names.cpp:189-210 (skip and read) *)
Definition get_parameter_names (m : param_mode) (p : proto) : res proto :=
  if negb (is_function_kind p) then Ok p else
  match param_void_or_empty p with
  | Some p' => Ok p'
  | None =>
      let a := copied_args (p_args p) (p_args_vec p) in
      match m with
      | PSkip => Ok (set_args p a)
      | _ => n <- read_names_loop (p_symbol p) (p_param_names p) (p_args_vec p) ;;
             Ok (set_args_names p a n)
      end
  end.

(** "a" + std::to_string(param_count) *)
Definition gen_name (k : nat) : str := $"a" ++ nat_to_string k.

(** create_parameter_names loop, parameter_names.cpp:217-273, with append_name (:70-78),
    get_array_type (:81-95), get_function_pointer_type (:98-120) *)
Fixpoint create_loop (sym : str) (k : nat) (args names : str) (vs : list (list str)) : res (str * str) :=
  match vs with
  | [] => Ok (delete_suffix args $", ", delete_suffix names $", ")
  | v :: vs' =>
      match v with
      | [] => Err ($"empty parameter in function `" ++ sym ++ $"'")
      | f :: _ =>
        if starts_with $"*" f then
          Err (append_strings ($"parameter in function `" ++ sym ++ $"' begins with pointer `*': ") v)
        else if (vsize v =? 1) && str_eqb f $"..." then
          create_loop sym k (args ++ $"... , ") (names ++ $"... , ") vs'
        else
          let it := find_first_not_pointer_or_ident v in
          let name := gen_name k in
          let names' := names ++ name ++ $", " in
          if it =? vsize v then
            create_loop sym (S k) (append_strings args v ++ name ++ $", ") names' vs'
          else
            fp <- is_function_pointer v it ;;
            fn <- (if fp then Ok false else is_function_pointer_no_name v it) ;;
            if fp || fn then
              let offset := if fp then 3 else 2 in
              front <- slice v 0 (it + 2) ;;
              back <- slice v (it + offset) (vsize v) ;;
              create_loop sym (S k)
                (append_strings (append_strings args front ++ name ++ $" ") back ++ $", ") names' vs'
            else
              ar <- is_array_no_name v it ;;
              if ar then
                front <- slice v 0 it ;;
                back <- slice v it (vsize v) ;;
                create_loop sym (S k)
                  (append_strings (append_strings args front ++ name ++ $" ") back ++ $", ") names' vs'
              else Err (append_strings ($"cannot read parameter in function `" ++ sym ++ $"': ") v)
      end
  end.

Definition create_parameter_names (p : proto) : res proto :=
  if negb (is_function_kind p) then Ok p else
  match param_void_or_empty p with
  | Some p' => Ok p'
  | None =>
      r <- create_loop (p_symbol p) 1 (p_args p) (p_param_names p) (p_args_vec p) ;;
      Ok (set_args_names p (fst r) (snd r))
  end.

(** the parameters step of gendlopen::parse, parse.cpp:292-307 *)
Definition do_params (m : param_mode) (p : proto) : res proto :=
  match m with
  | PCreate => create_parameter_names p
  | _ => get_parameter_names m p
  end.

(** gendlopen::parse, parse.cpp:277-372: parse, check, name parameters, select *)
Definition with_prefix {A} (pfx : str) (r : res A) : res A :=
  match r with Err m => Err (pfx ++ nl :: m) | r => r end.

Definition gdo_parse (m : param_mode) (pfx syms : list str) (input_name : str) (vec : list (list str)) : res tables :=
  ps <- parse_tokens vec ;;
  match ps with
  | None => Err (input_name ++ nl :: $"failed to read prototypes")
  | Some [] => Err (input_name ++ nl :: $"no function or object prototypes found")
  | Some l =>
      match multiple_definitions l with
      | Some s => Err (input_name ++ nl :: $"multiple definitions of symbol `" ++ s ++ $"' found")
      | None =>
          l' <- with_prefix input_name (mapR (do_params m) l) ;;
          select pfx syms input_name l'
      end
  end.

(** Properties of Clang AST input (C46, C65-C67). *)
From Coq Require Import Ascii String List Bool Arith.
From Verif Require Import Str SpecParse Prefix Parse Format Options Frontend SpecFormat SpecClangAst SpecClangType
  ClangAstProps ClangAstSelect ClangTypeFacts ClangAstFinal ClangAstTypes.
Import ListNotations.

(* ------------------------------------------------------------ C46 *)

(** C46, under the hypothesis that no declared name is asked for by both a prefix and the list, that function types are
    spelled out and that typedefs can be made: the missing names are the undeclared ones; otherwise the tables are the
    records of the declarations with a given prefix or a listed name. *)
Theorem C46_selection_partial : forall s input its text,
  dump its text -> Forall spelled_out its -> Forall typedef_ok its ->
  o_ast_all s = false -> (o_prefix_list s <> [] \/ o_symbol_list s <> []) -> no_overlap (o_prefix_list s) (o_symbol_list s) its ->
  match undeclared (o_symbol_list s) its, chosen false (o_prefix_list s) (o_symbol_list s) [] its with
  | _ :: _, _ => read_input s input text = Err (not_found_msg (undeclared (o_symbol_list s) its))
  | [], [] => read_input s input text = Err ($"no function or object prototypes found in file: " ++ input)
  | [], ch => exists y, read_input s input text = Ok (s, y) /\ tables_of (m_pfx_lower (o_pfxs s)) ch y
  end.
Proof. exact selection_no_overlap. Qed.
(** without the hypothesis on overlaps: the reported names are the undeclared ones and those that also have a prefix *)
Theorem C46_selection_actual : forall s input its text,
  dump its text -> Forall spelled_out its -> Forall typedef_ok its ->
  o_ast_all s = false -> (o_prefix_list s <> [] \/ o_symbol_list s <> []) ->
  match reported (o_prefix_list s) (o_symbol_list s) its, chosen false (o_prefix_list s) (o_symbol_list s) [] its with
  | _ :: _, _ => read_input s input text = Err (not_found_msg (reported (o_prefix_list s) (o_symbol_list s) its))
  | [], [] => read_input s input text = Err ($"no function or object prototypes found in file: " ++ input)
  | [], ch => exists y, read_input s input text = Ok (s, y) /\ tables_of (m_pfx_lower (o_pfxs s)) ch y
  end.
Proof. exact selection_actual. Qed.
(** -ast-all-symbols takes every declaration, whatever the lists are *)
Theorem C46_all_symbols : forall s input its text,
  dump its text -> Forall spelled_out its -> Forall typedef_ok its -> o_ast_all s = true -> its <> [] ->
  exists y, read_input s input text = Ok (s, y) /\ tables_of (m_pfx_lower (o_pfxs s)) its y.
Proof. exact selection_all. Qed.
(** nothing is recorded that was not asked for *)
Theorem C46_nothing_else : forall s input its text s' y n,
  dump its text -> Forall spelled_out its -> read_input s input text = Ok (s', y) ->
  In n (map p_symbol (s_funcs y ++ s_objs y)) ->
  In n (map item_name its) /\ (o_ast_all s = true \/ has_prefix (o_prefix_list s) n = true \/ In n (o_symbol_list s)).
Proof. exact selection_sound. Qed.

(** a dump of three declarations *)
Definition sample : list item :=
  [IFunc $"foo_open" $"int (const char *, void (*)(int))" [$"const char *"; $"void (*)(int)"]; IVar $"bar" $"char[10]"; IVar $"foo_x" $"double"].
Example C46_example :
  dump sample (dump_text sample) /\ Forall spelled_out sample /\ Forall typedef_ok sample /\
  let s := add_sym $"bar" (add_pfx $"foo_o" defaults) in
  no_overlap (o_prefix_list s) (o_symbol_list s) sample /\ undeclared (o_symbol_list s) sample = [] /\
  chosen false (o_prefix_list s) (o_symbol_list s) [] sample = firstn 2 sample /\
  read_input s $"a.ast" (dump_text sample) = Ok (s, mksyms
    [mkproto KFunction $"int" $"foo_open" $"const char *a1, void (*a2)(int)" [] $"a1, a2"]
    [mkproto KObjectArray $"gdo_bar__t" $"bar" [] [] []] [$"char gdo_bar__t[10]"]).
Proof.
  split; [apply dump_text_ok; vm_compute; reflexivity|]. split; [spelled|].
  split; [repeat constructor; apply typedef_ok_b; vm_compute; reflexivity|]. cbv zeta. split; [apply no_overlap_b; vm_compute; reflexivity|].
  split; [vm_compute; reflexivity|]. split; [vm_compute; reflexivity|]. vm_compute. reflexivity.
Qed.

(** finding: a declared name that is both listed and has one of the prefixes is reported as missing *)
Theorem C46_selection_overlap_refuted : exists s its, let text := dump_text its in
  dump its text /\ Forall spelled_out its /\ Forall typedef_ok its /\ o_ast_all s = false /\
  undeclared (o_symbol_list s) its = [] /\
  read_input s $"a.ast" text = Err $"the following symbols were not found: foo_x".
Proof. exact overlap_refuted. Qed.
(** finding: a selected function whose type is the name of a function type is dropped without a message *)
Theorem C46_selection_named_type_refuted : exists s its y, let text := dump_text its in
  dump its text /\ Forall typedef_ok its /\ o_ast_all s = false /\ o_prefix_list s = [] /\
  In $"cb" (o_symbol_list s) /\ In $"cb" (map item_name its) /\
  read_input s $"a.ast" text = Ok (s, y) /\ ~ In $"cb" (map p_symbol (s_funcs y ++ s_objs y)).
Proof. exact named_type_refuted. Qed.

(* ------------------------------------------------------------ C65 *)

(** C65, for functions that are not variadic, have parameters, return a base or pointer type, and whose parameters are
    of base or pointer types or plain pointers to functions and arrays: the recorded texts declare exactly the function's type *)
Theorem C65_function_types_partial : forall n r ps p, simple r -> ps <> [] -> Forall param_type ps ->
  recorded (IFunc n (type_text (CFun r ps false)) (map type_text ps)) p ->
  p_symbol p = n /\ p_kind p = KFunction /\ p_type p = type_text r /\ p_args p = param_list (declare_all ps (arg_names 1 ps)) false /\
  p_param_names p = join $", " (arg_names 1 ps).
Proof. exact function_declared. Qed.

(** the same of the program: the functions in the tables are those asked for, in order, each with the type clang reported *)
Theorem C65_functions_read_partial : forall s input its text s' y, dump its text -> Forall spelled_out its -> read_input s input text = Ok (s', y) ->
  Forall2 (fun i p => forall n r ps, i = IFunc n (type_text (CFun r ps false)) (map type_text ps) -> simple r -> ps <> [] -> Forall param_type ps ->
    p_symbol p = n /\ p_type p = type_text r /\ p_args p = param_list (declare_all ps (arg_names 1 ps)) false /\ p_param_names p = join $", " (arg_names 1 ps))
    (filter is_func (chosen (o_ast_all s) (o_prefix_list s) (o_symbol_list s) [] its)) (s_funcs y).
Proof. exact functions_read. Qed.

(** a function with a plain pointer, a function pointer and a pointer to an array as parameters *)
Definition cptr t := CPtr [] t.
Example C65_example :
  let ps := [cptr (cptr (CBase $"char")); cptr (CFun (cptr (CBase $"char")) [cptr (CBase $"const void")] false); cptr (CArr $"3" (CBase $"int"))] in
  Forall param_type ps /\ simple (CPtr $"const" (CBase $"unsigned int")) /\
  type_text (CFun (CBase $"int") ps false) = $"int (char **, char *(*)(const void *), int (*)[3])" /\
  param_list (declare_all ps (arg_names 1 ps)) false = $"char **a1, char *(*a2)(const void *), int (*a3)[3]" /\
  read_input (set_ast_all true defaults) $"a" (dump_text [IFunc $"f" (type_text (CFun (CBase $"int") ps false)) (map type_text ps)]) =
    Ok (set_ast_all true defaults, mksyms [mkproto KFunction $"int" $"f" $"char **a1, char *(*a2)(const void *), int (*a3)[3]" [] $"a1, a2, a3"] [] []).
Proof.
  cbv zeta. split; [|split; [|split; [|split]]]; try (vm_compute; reflexivity).
  - repeat (apply Forall_cons || apply Forall_nil).
    + left. cbn. split; [left; reflexivity|]. split; [left; reflexivity|apply words_b; reflexivity].
    + right. split; [|reflexivity]. cbn. split; [left; reflexivity|]. split; [left; reflexivity|apply words_b; reflexivity].
    + right. split; [|reflexivity]. cbn. split; [left; reflexivity|apply words_b; reflexivity].
  - cbn. split; [right|]; apply words_b; reflexivity.
Qed.

(** what the full statement says of one function: the tables made from a dump of it have its type *)
Definition keeps_type (n : str) (r : ctype) (ps : list ctype) (v : bool) : Prop :=
  forall input y s, read_input (set_ast_all true defaults) input (dump_text [IFunc n (type_text (CFun r ps v)) (map type_text ps)]) = Ok (s, y) ->
  exists p, s_funcs y = [p] /\ p_type p = type_text r /\ p_args p = param_list (declare_all ps (arg_names 1 ps)) v.

(** findings: the ellipsis is lost; the type of a function that returns a function pointer is cut off; the name of a pointer
    to a function pointer, or of a const one, is put at the end; a function without parameters loses its prototype *)
Theorem C65_variadic_refuted : ~ keeps_type $"f" (CBase $"int") [CPtr [] (CBase $"const char")] true.
Proof. exact variadic_refuted. Qed.
Theorem C65_returned_function_pointer_refuted : ~ keeps_type $"f" (CPtr [] (CFun (CBase $"void") [CBase $"int"] false)) [CBase $"int"] false.
Proof. exact returned_fptr_refuted. Qed.
Theorem C65_double_pointer_refuted : ~ keeps_type $"f" (CBase $"int") [CPtr [] (CPtr [] (CFun (CBase $"void") [CBase $"int"] false))] false.
Proof. exact double_pointer_refuted. Qed.
Theorem C65_no_parameters_refuted : ~ keeps_type $"f" (CBase $"int") [] false.
Proof. exact no_parameters_refuted. Qed.

(* ------------------------------------------------------------ C66 *)

(** C66, variables: a variable of base or pointer type keeps its type; a plain pointer to a function or array of simple types,
    or an array (if no parenthesised star occurs in its text), gets a typedef that declares exactly its type *)
Theorem C66_plain_variables : forall n t p, simple t -> recorded (IVar n (type_text t)) p ->
  p_symbol p = n /\ p_kind p = KObject /\ p_type p = type_text t.
Proof. exact variable_simple. Qed.
Theorem C66_pointer_typedefs_partial : forall n t p pl, composite t = true -> flat t -> recorded (IVar n (type_text (CPtr [] t))) p ->
  create_typedefs pl [p] = Ok ([declare (CPtr [] t) (td_name pl n)], [with_typedef pl p]).
Proof. exact variable_pointer. Qed.
Theorem C66_array_typedefs_partial : forall n m e p pl, spine_ok e -> ~ occurs $"(*)" (type_text (CArr m e)) -> (forall r, pl <> "["%char :: r) ->
  recorded (IVar n (type_text (CArr m e))) p ->
  exists def, create_typedefs pl [p] = Ok ([def], [with_typedef pl p]) /\ tokens def = tokens (declare (CArr m e) (td_name pl n)).
Proof. exact variable_array. Qed.

(** the same of the program: a variable asked for is in the table with its type, or with the name of a typedef that declares its type *)
Theorem C66_variables_read_partial : forall s input its text s' y n tt, dump its text -> Forall spelled_out its -> read_input s input text = Ok (s', y) ->
  In (IVar n tt) (chosen (o_ast_all s) (o_prefix_list s) (o_symbol_list s) [] its) ->
  let pl := m_pfx_lower (o_pfxs s) in
  (forall t, tt = type_text t -> simple t -> exists p, In p (s_objs y) /\ p_symbol p = n /\ p_kind p = KObject /\ p_type p = type_text t) /\
  (forall t, tt = type_text (CPtr [] t) -> composite t = true -> flat t ->
    exists p, In p (s_objs y) /\ p_symbol p = n /\ p_type p = td_name pl n /\ In (declare (CPtr [] t) (td_name pl n)) (s_typedefs y)) /\
  (forall m e, tt = type_text (CArr m e) -> spine_ok e -> ~ occurs $"(*)" (type_text (CArr m e)) -> (forall r, pl <> "["%char :: r) ->
    exists p def, In p (s_objs y) /\ p_symbol p = n /\ p_type p = td_name pl n /\ In def (s_typedefs y) /\
      tokens def = tokens (declare (CArr m e) (td_name pl n))).
Proof. exact variables_read. Qed.

Example C66_example :
  let h := CPtr [] (CFun (CPtr [] (CBase $"char")) [CBase $"int"] true) in
  let a := CArr $"4" (CPtr [] (CFun (CBase $"void") [] false)) in
  type_text h = $"char *(*)(int, ...)" /\ type_text a = $"void (*[4])(void)" /\ flat (CFun (CPtr [] (CBase $"char")) [CBase $"int"] true) /\
  read_input (set_ast_all true defaults) $"a" (dump_text [IVar $"h" (type_text h); IVar $"a" (type_text a)]) =
    Ok (set_ast_all true defaults, mksyms [] [mkproto KFunctionPointer $"gdo_h__t" $"h" [] [] []; mkproto KObjectArray $"gdo_a__t" $"a" [] [] []]
      [$"char *(*gdo_h__t)(int, ...)"; $"void (* gdo_a__t[4])(void)"]) /\
  declare h $"gdo_h__t" = $"char *(*gdo_h__t)(int, ...)" /\ declare a $"gdo_a__t" = $"void (*gdo_a__t[4])(void)".
Proof.
  cbv zeta. repeat split; try (vm_compute; reflexivity); try (left; reflexivity); try (apply words_b; reflexivity).
Qed.

(** findings: a pointer to a function pointer, or a const function pointer, is recorded as a plain object whose type text
    cannot be followed by a name; an array of pointers to functions that take function pointers stops the program *)
Theorem C66_double_pointer_refuted : exists t y p, t = CPtr [] (CPtr [] (CFun (CBase $"void") [CBase $"int"] false)) /\
  read_input (set_ast_all true defaults) $"a" (dump_text [IVar $"v" (type_text t)]) = Ok (set_ast_all true defaults, y) /\
  s_objs y = [p] /\ s_typedefs y = [] /\ p_kind p = KObject /\ tokens (p_type p ++ $" v") <> tokens (declare t $"v").
Proof. exact var_double_pointer_refuted. Qed.
Theorem C66_array_refuted : exists t m, 
  t = CArr $"3" (CPtr [] (CFun (CBase $"int") [CPtr [] (CFun (CBase $"void") [CBase $"int"] false)] false)) /\
  read_input (set_ast_all true defaults) $"a" (dump_text [IVar $"v" (type_text t)]) = Err m /\
  m = $"failed to create typedef for symbol `v'".
Proof. exact var_array_refuted. Qed.

(* ------------------------------------------------------------ C67 *)

(** C67: with -S alone no name is recorded twice *)
Theorem C67_no_duplicates_partial : forall s input its text s' y,
  dump its text -> Forall spelled_out its -> o_ast_all s = false -> o_prefix_list s = [] ->
  read_input s input text = Ok (s', y) -> NoDup (map p_symbol (s_funcs y ++ s_objs y)).
Proof. exact ast_list_nodup. Qed.
Definition twice : list item := [IFunc $"f" $"int (int)" [$"int"]; IFunc $"f" $"int (int)" [$"int"]; IVar $"v" $"int"].
Example C67_example :
  dump twice (dump_text twice) /\ Forall spelled_out twice /\
  let s := add_sym $"v" (add_sym $"f" defaults) in
  exists y, read_input s $"a" (dump_text twice) = Ok (s, y) /\ map p_symbol (s_funcs y ++ s_objs y) = [$"f"; $"v"].
Proof.
  split; [apply dump_text_ok; vm_compute; reflexivity|]. split; [spelled|]. cbv zeta. eexists.
  split; vm_compute; reflexivity.
Qed.
(** finding: with -P or -ast-all-symbols a redeclared function is recorded twice; for text input this is an error *)
Theorem C67_no_duplicates_refuted : exists s its y, dump its (dump_text its) /\ Forall spelled_out its /\ o_ast_all s = false /\
  read_input s $"a" (dump_text its) = Ok (s, y) /\ ~ NoDup (map p_symbol (s_funcs y ++ s_objs y)).
Proof. exact ast_duplicates_refuted. Qed.

Print Assumptions C46_selection_partial.
Print Assumptions C46_selection_actual.
Print Assumptions C46_all_symbols.
Print Assumptions C46_nothing_else.
Print Assumptions C46_selection_overlap_refuted.
Print Assumptions C46_selection_named_type_refuted.
Print Assumptions C65_function_types_partial.
Print Assumptions C65_functions_read_partial.
Print Assumptions C65_variadic_refuted.
Print Assumptions C65_returned_function_pointer_refuted.
Print Assumptions C65_double_pointer_refuted.
Print Assumptions C65_no_parameters_refuted.
Print Assumptions C66_plain_variables.
Print Assumptions C66_pointer_typedefs_partial.
Print Assumptions C66_array_typedefs_partial.
Print Assumptions C66_variables_read_partial.
Print Assumptions C66_double_pointer_refuted.
Print Assumptions C66_array_refuted.
Print Assumptions C67_no_duplicates_partial.
Print Assumptions C67_no_duplicates_refuted.

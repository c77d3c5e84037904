(** Parser properties C07-C16 and C48: statements.  Proofs are in ParseProps.v. *)
From Coq Require Import Ascii String List Bool Arith NArith ZArith Sorted.
From Verif Require Import Str CheckPattern Parse ParamNames SpecParse SpecTables SelectFacts ParseProps.
Import ListNotations.

(* ------------------------------------------------------------ C07 *)

(** C07: deciding whether any token vector is a prototype never leaves the vector ([UB]); reading the
    parameter names never does either; nor does the complete parse step in any parameter mode. *)
Theorem C07_prototype_matching_in_bounds : forall v : list str, defined (check_prototype v).
Proof. exact prototype_defined. Qed.
Theorem C07_parameter_matching_in_bounds : forall sym names (vs : list (list str)), defined (read_names_loop sym names vs).
Proof. exact read_defined. Qed.
Theorem C07_parse_in_bounds : forall m pfx syms name vec,
  Forall (Forall lexeme) vec -> defined (gdo_parse m pfx syms name vec).
Proof. exact parse_defined. Qed.

Example C07_example : check_prototype [$"int"; $"("; $"*"] = Ok None /\ check_prototype [] = Ok None.
Proof. split; vm_compute; reflexivity. Qed.

(* ------------------------------------------------------------ C08 *)

(** C08: an accepted token list is exactly a written declaration with the recorded kind, type and name,
    and the recorded parameter groups joined with commas are its parameters; what is missing from the
    full claim is one possible trailing comma, which is dropped. *)
Theorem C08_accepted_split_partial : forall v p,
  Forall lexeme v -> check_prototype v = Ok (Some p) ->
  exists d, decl_ok d /\ written d = v /\
    p_kind p = decl_kind d /\ p_symbol p = decl_name d /\ p_type p = decl_type d /\
    (decl_params d = comma_join (p_args_vec p) \/ decl_params d = comma_join (p_args_vec p) ++ [$","]).
Proof. exact split_lossless. Qed.

(** Full C08 is false of the code: [int f(int a,)] is accepted and its comma is lost. *)
Theorem C08_accepted_split_refuted : exists v p,
  Forall lexeme v /\ check_prototype v = Ok (Some p) /\ p_kind p = KFunction /\
  forall d, decl_kind d = KFunction -> decl_params d = comma_join (p_args_vec p) -> written d <> v.
Proof. exact split_loses_comma. Qed.

Example C08_example :
  check_prototype [$"char"; $"*"; $"f"; $"("; $"int"; $"a"; $","; $"void"; $"("; $"*"; $"g"; $")"; $"("; $"int"; $","; $"int"; $")"; $")"]
  = Ok (Some (mkproto KFunction $"char * " $"f" []
       [[$"int"; $"a"]; [$"void"; $"("; $"*"; $"g"; $")"; $"("; $"int"; $","; $"int"; $")"]] [])).
Proof. vm_compute. reflexivity. Qed.

(* ------------------------------------------------------------ C09 *)

(** C09: every declaration in one of the six written forms is accepted with its kind, type, name and
    parameter groups; for the forms with a parenthesised declarator the type must be one word or end in [*]
    (see C10 for why). *)
Theorem C09_wellformed_accepted : forall d gs,
  decl_ok d -> (paren_form d -> single_or_pointer (decl_type_tokens d)) ->
  decl_params d = comma_join gs -> Forall (Forall lexeme) gs -> Forall no_top_comma gs -> closed_groups gs ->
  (gs = [] \/ last gs [] <> []) ->
  exists p, check_prototype (written d) = Ok (Some p) /\
    p_kind p = decl_kind d /\ p_symbol p = decl_name d /\ p_type p = decl_type d /\
    (decl_kind d = KFunction -> p_args_vec p = gs).
Proof. exact accepts. Qed.

Example C09_example : exists p,
  check_prototype (written (DFunctionParenPtr true [$"const"; $"char"; $"*"] $"get" [$"int"; $"n"])) = Ok (Some p) /\
  p_symbol p = $"get" /\ p_type p = $"const char * * * ".
Proof. eexists. split; vm_compute; split; reflexivity. Qed.

(* ------------------------------------------------------------ C10 *)

(** C10 as stated is false: with a type of two words the function pointer's name is lost ... *)
Theorem C10_multiword_paren_refuted : exists d,
  decl_ok d /\ decl_kind d = KFunctionPointer /\
  forall p, check_prototype (written d) = Ok (Some p) -> p_symbol p <> decl_name d.
Proof. exact multiword_refuted. Qed.
(** ... for every type ending in a second word: the declaration is always taken for a function called like
    the last word of its type. *)
Theorem C10_multiword_always_misread : forall ty s n ps, type_tokens ty -> ident_word s ->
  exists p, check_prototype (written (DFunctionPointer (ty ++ [s]) n ps)) = Ok (Some p) /\
    p_symbol p = s /\ p_kind p = KFunction.
Proof. exact multiword_fptr. Qed.
(** the part that holds: one-word and pointer types (an instance of C09) *)
Theorem C10_multiword_paren_partial : forall d gs,
  decl_ok d -> paren_form d -> single_or_pointer (decl_type_tokens d) ->
  decl_params d = comma_join gs -> Forall (Forall lexeme) gs -> Forall no_top_comma gs -> closed_groups gs ->
  (gs = [] \/ last gs [] <> []) ->
  exists p, check_prototype (written d) = Ok (Some p) /\ p_kind p = decl_kind d /\ p_symbol p = decl_name d.
Proof.
  exact (fun d gs Hd _ Hs Hp H1 H2 H3 H4 =>
    match accepts d gs Hd (fun _ => Hs) Hp H1 H2 H3 H4 with
    | ex_intro _ p (conj A (conj B (conj C _))) => ex_intro _ p (conj A (conj B C)) end).
Qed.

Example C10_example : exists p,
  check_prototype (written (DFunctionPointer [$"unsigned"; $"int"] $"fp" [$"int"])) = Ok (Some p) /\ p_symbol p = $"int".
Proof. eexists. split; vm_compute; reflexivity. Qed.

(* ------------------------------------------------------------ C11 *)

(** C11: the groups have no top-level comma, all but the last are closed, and joined with commas they give
    back the list, up to one dropped trailing comma. *)
Theorem C11_groups_partial : forall l, Forall lexeme l ->
  Forall no_top_comma (copy_parameters l) /\ closed_groups (copy_parameters l) /\
  (l = comma_join (copy_parameters l) \/ l = comma_join (copy_parameters l) ++ [$","]).
Proof. exact groups_spec. Qed.
(** without that exception it is false *)
Theorem C11_groups_refuted : exists l, Forall lexeme l /\ l <> comma_join (copy_parameters l).
Proof. exact groups_refuted. Qed.

Example C11_example : copy_parameters [$"int"; $"("; $"*"; $")"; $"("; $"a"; $","; $"b"; $")"; $","; $"c"]
  = [[$"int"; $"("; $"*"; $")"; $"("; $"a"; $","; $"b"; $")"]; [$"c"]].
Proof. vm_compute. reflexivity. Qed.

(* ------------------------------------------------------------ C12 *)

Theorem C12_no_duplicate_names : forall m pfx syms name vec t, Forall (Forall lexeme) vec ->
  gdo_parse m pfx syms name vec = Ok t -> NoDup (map p_symbol (t_funcs t ++ t_objs t)).
Proof. exact parse_names_distinct. Qed.
Theorem C12_duplicates_reported : forall m pfx syms name ds, Forall decl_ok ds ->
  Forall (fun d => paren_form d -> single_or_pointer (decl_type_tokens d)) ds ->
  ~ NoDup (map decl_name ds) ->
  exists s l1 l2 l3, map decl_name ds = l1 ++ s :: l2 ++ s :: l3 /\
    gdo_parse m pfx syms name (map written ds) = Err (name ++ nl :: $"multiple definitions of symbol `" ++ s ++ $"' found").
Proof. exact duplicate_reported. Qed.

Definition sample : list (list str) :=
  [[$"int"; $"f"; $"("; $"int"; $"a"; $","; $"..."; $")"]; [$"char"; $"*"; $"obj"]; [$"void"; $"g"; $"("; $"void"; $")"]].
Example C12_example : exists t, gdo_parse PRead [] [] $"in" sample = Ok t /\ map p_symbol (t_funcs t ++ t_objs t) = [$"f"; $"g"; $"obj"].
Proof. eexists. split; vm_compute; reflexivity. Qed.
Example C12_example2 : gdo_parse PRead [] [] $"in" (sample ++ sample) = Err ($"in" ++ nl :: $"multiple definitions of symbol `f' found").
Proof. vm_compute. reflexivity. Qed.

(* ------------------------------------------------------------ C13 *)

(** C13: relative to the run without filters, which reports every declaration: the filtered run reports
    exactly the wanted symbols, each once; in each table those matching -P come first, then those named by -S,
    both in the order of the unfiltered run. *)
Theorem C13_selection_exact : forall m name vec pfx syms t, Forall (Forall lexeme) vec ->
  gdo_parse m pfx syms name vec = Ok t ->
  exists t0, gdo_parse m [] [] name vec = Ok t0 /\
    t_funcs t = SpecTables.pick pfx syms (t_funcs t0) /\ t_objs t = SpecTables.pick pfx syms (t_objs t0) /\
    NoDup (map p_symbol (t_funcs t ++ t_objs t)) /\
    (forall p, In p (t_funcs t) <-> In p (t_funcs t0) /\ wanted pfx syms (p_symbol p)) /\
    (forall p, In p (t_objs t) <-> In p (t_objs t0) /\ wanted pfx syms (p_symbol p)).
Proof. exact filtered_run. Qed.
(** and the run without filters reports every declaration of the input, in order *)
Theorem C13_unfiltered_complete : forall m name vec t, Forall (Forall lexeme) vec ->
  gdo_parse m [] [] name vec = Ok t ->
  exists ds ps, Forall decl_ok ds /\ map written ds = vec /\
    Forall2 (fun d p => p_kind p = decl_kind d /\ p_symbol p = decl_name d /\ p_type p = decl_type d) ds ps /\
    t_funcs t = filter is_function_kind ps /\ t_objs t = filter (fun p => negb (is_function_kind p)) ps.
Proof. exact unfiltered_complete. Qed.

Example C13_example : exists t, gdo_parse PRead [$"g"] [$"obj"; $"g"] $"in" sample = Ok t /\
  map p_symbol (t_funcs t) = [$"g"] /\ map p_symbol (t_objs t) = [$"obj"].
Proof. eexists. split; [vm_compute; reflexivity|]. split; vm_compute; reflexivity. Qed.

(* ------------------------------------------------------------ C14 *)

Theorem C14_missing_symbol_reported : forall m name vec pfx syms t0, Forall (Forall lexeme) vec ->
  gdo_parse m [] [] name vec = Ok t0 ->
  ((exists s, In s syms /\ ~ In s (names_of t0)) ->
     exists l, gdo_parse m pfx syms name vec =
        Err ($"the following symbols were not found:" ++ concat (map (fun e => sp :: e) l)) /\
        StronglySorted str_lt l /\ (forall s, In s l <-> In s syms /\ ~ In s (names_of t0))) /\
  ((forall s, In s syms -> In s (names_of t0)) -> (forall s, In s (names_of t0) -> ~ wanted pfx syms s) ->
     gdo_parse m pfx syms name vec = Err ($"no function or object prototypes found in " ++ name)) /\
  ((forall s, In s syms -> In s (names_of t0)) -> (exists s, In s (names_of t0) /\ wanted pfx syms s) ->
     exists t, gdo_parse m pfx syms name vec = Ok t).
Proof. exact filtered_errors. Qed.

Example C14_example : gdo_parse PRead [$"g"] [$"z"; $"obj"; $"b"; $"z"] $"in" sample =
  Err ($"the following symbols were not found: b z").
Proof. vm_compute. reflexivity. Qed.

(* ------------------------------------------------------------ C15 *)

(** C15 for functions without [...]: names a1..an, distinct, each put into its own parameter; and creation
    succeeds whenever every parameter has a form into which a name can be put. *)
Theorem C15_created_names : forall p vs, p_kind p = KFunction -> p_args p = [] -> p_param_names p = [] -> p_args_vec p = vs ->
  Forall (Forall lexeme) vs -> vs <> [] -> ~ void_param vs -> ~ In ellipsis vs ->
  (forall p', do_params PCreate p = Ok p' ->
     p_param_names p' = join $", " (map gen_name (List.seq 1 (length vs))) /\
     NoDup (map gen_name (List.seq 1 (length vs))) /\
     exists ts, p_args p' = join $", " ts /\
       Forall2 (fun iv t => exists w, insert_name (gen_name (fst iv)) (snd iv) w /\ (t = unwords w \/ t = unwords w ++ $" "))
         (combine (List.seq 1 (length vs)) vs) ts) /\
  (Forall nameable vs -> exists p', do_params PCreate p = Ok p').
Proof. exact create_total_names. Qed.
(** with [...]: it keeps its place in the parameter text, but also appears among the call names (see C48) *)
Theorem C15_created_with_ellipsis : forall p vs p', p_kind p = KFunction -> p_args p = [] -> p_param_names p = [] -> p_args_vec p = vs ->
  Forall (Forall lexeme) vs -> vs <> [] -> ~ void_param vs -> do_params PCreate p = Ok p' ->
  exists ts ns, created 1 vs ts ns /\ p_args p' = join $", " ts /\ p_param_names p' = join $", " ns.
Proof. exact created_ellipsis. Qed.
(** [void] or nothing: no names *)
Theorem C15_void_or_empty : forall m p, p_kind p = KFunction -> p_args p = [] -> p_param_names p = [] ->
  p_args_vec p = [] \/ void_param (p_args_vec p) ->
  exists p', do_params m p = Ok p' /\ p_param_names p' = [] /\ p_args p' = concat (concat (p_args_vec p)).
Proof. exact void_or_empty. Qed.

Example C15_example : exists p', do_params PCreate
    (mkproto KFunction $"int " $"f" [] [[$"int"]; [$"char"; $"*"; $"["; $"]"]; [$"void"; $"("; $"*"; $")"; $"("; $"int"; $")"]] []) = Ok p' /\
  p_args p' = $"int a1, char * a2 [ ] , void ( * a3 ) ( int ) " /\ p_param_names p' = $"a1, a2, a3".
Proof. eexists. split; [vm_compute; reflexivity|]. split; vm_compute; reflexivity. Qed.

(* ------------------------------------------------------------ C16 *)

(** C16: on success every parameter contributed one of its own identifier tokens ([...] contributed none),
    the call names are these in order and the parameter text is the parameter tokens. *)
Theorem C16_read_names_own : forall p vs p', p_kind p = KFunction -> p_args p = [] -> p_param_names p = [] -> p_args_vec p = vs ->
  Forall (Forall lexeme) vs -> vs <> [] -> ~ void_param vs -> do_params PRead p = Ok p' ->
  p_args p' = unwords (comma_join vs) /\
  exists ns, Forall2 own_name vs ns /\ p_param_names p' = join $", " (somes ns).
Proof. exact read_own. Qed.
(** parameters written as declarations give exactly their declared names *)
Theorem C16_read_names_declared : forall p vs ns,
  p_kind p = KFunction -> p_args p = [] -> p_param_names p = [] -> p_args_vec p = vs ->
  Forall (Forall lexeme) vs -> vs <> [] -> ~ void_param vs -> Forall2 rd_param vs ns ->
  exists p', do_params PRead p = Ok p' /\ p_args p' = unwords (comma_join vs) /\ p_param_names p' = join $", " (somes ns).
Proof. exact read_total. Qed.

Example C16_example : exists p', do_params PRead
    (mkproto KFunction $"int " $"f" [] [[$"int"; $"x"]; [$"char"; $"y"; $"["; $"]"]; [$"void"; $"("; $"*"; $"z"; $")"; $"("; $"int"; $")"]; [$"..."]] []) = Ok p' /\
  p_args p' = $"int x , char y [ ] , void ( * z ) ( int ) , ..." /\ p_param_names p' = $"x, y, z".
Proof. eexists. split; [vm_compute; reflexivity|]. split; vm_compute; reflexivity. Qed.

(* ------------------------------------------------------------ C48 *)

(** C48: the names passed on in a forwarded call are identifiers.  True with -param=read ... *)
Theorem C48_forwarded_names_partial : forall p p', p_kind p = KFunction -> p_args p = [] -> p_param_names p = [] ->
  Forall (Forall lexeme) (p_args_vec p) -> do_params PRead p = Ok p' ->
  exists ns, Forall (fun n => ident_word n) ns /\ p_param_names p' = join $", " ns.
Proof. exact read_forwarded. Qed.
(** ... but with -param=create a variadic function passes the text [...] itself, which is not C. *)
Theorem C48_forwarded_names_refuted : exists p p', p_kind p = KFunction /\ p_args p = [] /\ p_param_names p = [] /\
  Forall (Forall lexeme) (p_args_vec p) /\ do_params PCreate p = Ok p' /\ p_param_names p' = $"a1, ... ".
Proof. exact create_variadic_refuted. Qed.

Print Assumptions C07_parse_in_bounds.
Print Assumptions C08_accepted_split_partial.
Print Assumptions C09_wellformed_accepted.
Print Assumptions C12_duplicates_reported.
Print Assumptions C13_selection_exact.
Print Assumptions C14_missing_symbol_reported.
Print Assumptions C15_created_names.
Print Assumptions C16_read_names_declared.

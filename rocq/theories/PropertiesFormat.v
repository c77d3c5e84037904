(** Properties C17-C20: statements.  Proofs are in FormatProps.v. *)
From Coq Require Import Ascii String List Bool Arith.
From Verif Require Import Str Parse ParamNames SpecParse SpecTables Format SpecFormat FormatFacts TypedefFacts FormatProps.
Import ListNotations.

(* ------------------------------------------------------------ C17 *)

(** C17: formatting ends for every text, only white space disappears, and what remains is tidy: no blank at either
    end, after [( ) [ ] *], or before [) [ ] ,].  A tidy text is left alone. *)
Theorem C17_format_only_drops_blanks : forall s, exists t, format_prototype s = Ok t /\ unblank s t /\ tidy t.
Proof. exact format_cosmetic. Qed.
Theorem C17_format_idempotent : forall s, tidy s -> format_prototype s = Ok s.
Proof. exact format_idem. Qed.

Example C17_example : format_prototype $"  const char * ( * ) ( int , char [ 3 ] ) " = Ok $"const char *(*)(int, char[3])".
Proof. vm_compute. reflexivity. Qed.

(* ------------------------------------------------------------ C18 *)

(** C18: formatting keeps the C tokens of a text; for the text of a token list these are the tokens themselves. *)
Theorem C18_format_keeps_tokens : forall s t, format_prototype s = Ok t -> tokens t = tokens s.
Proof. exact format_tokens. Qed.
Theorem C18_format_keeps_token_list : forall ts t, Forall lexeme ts ->
  format_prototype (spaced ts) = Ok t -> tokens t = flat_map split_dots ts.
Proof. exact format_spaced. Qed.

Example C18_example :
  format_prototype (spaced [$"unsigned"; $"int"; $"*"; $"const"; $"["; $"3"; $"]"]) = Ok $"unsigned int *const[3]" /\
  tokens $"unsigned int *const[3]" = [$"unsigned"; $"int"; $"*"; $"const"; $"["; $"3"; $"]"] /\
  tokens $"unsignedint *const[3]" <> [$"unsigned"; $"int"; $"*"; $"const"; $"["; $"3"; $"]"].
Proof. repeat split; vm_compute; congruence. Qed.

(* ------------------------------------------------------------ C19 *)

(** C19: for every accepted input, creating the typedefs succeeds.  The selected objects are declarations [ds] of the
    input; the typedefs are, in order, the ones of the function pointers and arrays among them; those objects get the
    typedef's name as type, the others keep theirs (all texts formatted as in C17). *)
Theorem C19_typedefs_of_input : forall m pfx syms name vec t pl,
  Forall (Forall lexeme) vec -> gdo_parse m pfx syms name vec = Ok t ->
  exists ds s, Forall2 describes ds (t_objs t) /\ Forall (fun d => decl_ok d /\ In (written d) vec) ds /\
    finish_tables pl t = Ok s /\
    Forall2 formatted_proto (t_funcs t) (s_funcs s) /\
    Forall2 formatted_proto (map (with_typedef pl) (t_objs t)) (s_objs s) /\
    Forall2 formatted (flat_map (fun d => typedef_text d (td_name pl (decl_name d))) ds) (s_typedefs s).
Proof. exact typedefs_of_input. Qed.
(** each typedef text reads as the object's declaration with the typedef's name instead of the symbol *)
Theorem C19_typedef_reads_back : forall pl d t t', decl_ok d -> Forall lexeme (written d) ->
  ident_word (td_name pl (decl_name d)) ->
  In t (typedef_text d (td_name pl (decl_name d))) -> formatted t t' ->
  tokens t' = flat_map split_dots (written (renamed d (td_name pl (decl_name d)))).
Proof. exact typedef_reads_back. Qed.
(** for object lists of any origin (Clang AST input gives other type texts): if it succeeds, there is one typedef per
    function pointer or array, in order, each the object's type with the name inserted after the first [( *] or before
    the first bracket, and the other objects are untouched *)
Theorem C19_typedefs_of_objects : forall pl objs defs objs', create_typedefs pl objs = Ok (defs, objs') ->
  objs' = map (with_typedef pl) objs /\
  Forall2 (fun p def => exists a b, p_type p = a ++ b /\
      (def = a ++ td_name pl (p_symbol p) ++ b \/ def = a ++ $" " ++ td_name pl (p_symbol p) ++ b) /\
      (p_kind p = KFunctionPointer -> ends_with $"(*" a = true /\ starts_with $")" b = true) /\
      (p_kind p = KObjectArray -> starts_with $"[" b = true /\ ~ In "["%char a))
    (filter (fun p => match p_kind p with KFunctionPointer | KObjectArray => true | _ => false end) objs) defs.
Proof. exact create_typedefs_any. Qed.

Example C19_example :
  exists t s, gdo_parse PCreate [] [] $"x" [[$"int"; $"f"; $"("; $")"]; [$"int"; $"("; $"*"; $"cb"; $")"; $"("; $"int"; $")"]; [$"char"; $"n"]; [$"char"; $"b"; $"["; $"3"; $"]"]] = Ok t /\
   finish_tables $"gdo" t = Ok s /\ s_typedefs s = [$"int (*gdo_cb__t)(int)"; $"char gdo_b__t[3]"] /\
   map p_type (s_objs s) = [$"gdo_cb__t"; $"char"; $"gdo_b__t"].
Proof. eexists. eexists. split; [vm_compute; reflexivity|]. split; [vm_compute; reflexivity|]. split; vm_compute; reflexivity. Qed.

(* ------------------------------------------------------------ C20 *)

(** C20: replacing a text by one without its first character, or by a shorter one, always ends; the result comes from
    exchanging occurrences one at a time and contains none any more. *)
Theorem C20_replace_complete : forall c from to s, ~ In c to ->
  exists r, replace (c :: from) to s = Ok r /\ rewrites (c :: from) to s r /\ ~ occurs (c :: from) r.
Proof. exact replace_terminates. Qed.
Theorem C20_replace_shorter : forall from to s, length to < length from ->
  exists r, replace from to s = Ok r /\ rewrites from to s r /\ ~ occurs from r.
Proof. exact replace_shorter. Qed.
(** if the new text contains the old one and the old one occurs, no number of rounds is enough *)
Theorem C20_replace_diverges : forall from to s, occurs from to -> occurs from s -> forall rounds, replace_fuel rounds from to s = None.
Proof. exact replace_diverges. Qed.

Example C20_example : replace $"%%symbol%%" $"foo" $"a(%%symbol%%, %%symbol%%)" = Ok $"a(foo, foo)" /\
  occurs $"%%symbol%%" $"my_%%symbol%%".
Proof. split; [vm_compute; reflexivity|]. exists $"my_", []. reflexivity. Qed.

Print Assumptions C17_format_only_drops_blanks.
Print Assumptions C17_format_idempotent.
Print Assumptions C18_format_keeps_tokens.
Print Assumptions C18_format_keeps_token_list.
Print Assumptions C19_typedefs_of_input.
Print Assumptions C19_typedef_reads_back.
Print Assumptions C19_typedefs_of_objects.
Print Assumptions C20_replace_complete.
Print Assumptions C20_replace_shorter.
Print Assumptions C20_replace_diverges.

(** C104: the names of the recorded symbols are words of the input. *)
From Coq Require Import Ascii String List Bool.
From Verif Require Import Str Parse Format Lex Tokenize Options Generate ClangAst Frontend SpecParse SpecNames SymbolNames.
Import ListNotations.

(** every symbol recorded from a header is a whole word of its text *)
Theorem C104_names_written : forall s input text s' y vec opts, tokenize_stream (o_read_options s) (lex_all text) = TS_eof vec opts -> read_input s input text = Ok (s', y) ->
  Forall (fun p => whole_word text (p_symbol p)) (s_funcs y ++ s_objs y).
Proof. exact input_names. Qed.
(** so it is an identifier of C where no word of the text begins with a digit *)
Theorem C104_identifiers_partial : forall s input text s' y vec opts, tokenize_stream (o_read_options s) (lex_all text) = TS_eof vec opts -> read_input s input text = Ok (s', y) ->
  (forall n, whole_word text n -> isdigit (str_front n) = false) -> Forall (fun p => c_identifier (p_symbol p)) (s_funcs y ++ s_objs y).
Proof. exact names_identifiers. Qed.
(** ... but not in general: a number is accepted as the name of a function *)
Theorem C104_identifiers_refuted : exists vec opts s' y p, let text := $"int 3(void);" in tokenize_stream (o_read_options defaults) (lex_all text) = TS_eof vec opts /\ read_input defaults $"a.h" text = Ok (s', y) /\
  In p (s_funcs y ++ s_objs y) /\ ~ c_identifier (p_symbol p).
Proof. exact number_recorded. Qed.

(** names next to comments, brackets, stars and keywords, in a text without digits *)
Example C104_example : let text := $"int*/*x*/get(struct s*a);extern int(*call_back)(int);extern char/**/name[N];" in
  exists vec opts s' y, tokenize_stream (o_read_options defaults) (lex_all text) = TS_eof vec opts /\ read_input defaults $"a.h" text = Ok (s', y) /\
    map p_symbol (s_funcs y ++ s_objs y) = [$"get"; $"call_back"; $"name"] /\ forall n, whole_word text n -> isdigit (str_front n) = false.
Proof.
  intro text. do 4 eexists. split; [vm_compute; reflexivity|]. split; [vm_compute; reflexivity|]. split; [vm_compute; reflexivity|].
  intros n ((N & _) & a & b & E & _). destruct n as [|x n]; [now elim N|]. cbn [str_front].
  assert (D : forallb (fun c => negb (isdigit c)) text = true) by (vm_compute; reflexivity). rewrite forallb_forall in D. specialize (D x). rewrite E in D. apply negb_true_iff, D. apply in_or_app. right. now left.
Qed.

Print Assumptions C104_names_written.
Print Assumptions C104_identifiers_partial.
Print Assumptions C104_identifiers_refuted.

(** Properties C31 to C33 and C59 to C61 and C74: statements.  Proofs are in OptionsFacts.v, OptionsProps.v and OptionsMean.v. *)
From Coq Require Import Ascii String List Bool Arith.
From Verif Require Import Str Prefix ParamNames Options SpecOptions OptionsFacts OptionsProps OptionsMean.
Import ListNotations.

(* ------------------------------------------------------------ C31 *)

(** C31: the text written for any number of -D options, run through a preprocessor, defines each name that is not defined
    yet with its value (nothing when no value is given) and leaves no group open.  Missing from the full claim: names
    that are not identifiers, values that contain a line feed or end in a backslash. *)
Theorem C31_defines_partial : forall l m, Forall define_ok l ->
  preprocess (o_defines (fold_left (fun s d => add_def (define_arg d) s) l defaults)) m =
  (fold_left (fun m d => define_once (define_of d) m) l m, []).
Proof. exact defines_mean. Qed.
(** full C31 is false of the code: a value ending in a backslash swallows the [#endif] *)
Theorem C31_define_refuted : exists d, ~ In nl d /\
  snd (preprocess (o_defines (add_def d defaults)) []) = [true] /\
  fst (preprocess (o_defines (add_def d defaults)) []) = [($"X", $"a#endif")].
Proof. exact define_unterminated. Qed.
(** C31: an include is taken as it is when it is marked (the mark is dropped), bracketed or quoted; otherwise it is quoted *)
Theorem C31_includes : forall i,
  (forall f, nq_marked i f -> include_text i = f) /\
  (enclosed i -> include_text i = i) /\
  ((forall f, ~ nq_marked i f) -> ~ enclosed i -> include_text i = [dquote] ++ i ++ [dquote]).
Proof. exact include_cases. Qed.

Example C31_example :
  let l := [($"DEBUG", Some $"a = b"); ($"FOO", None); ($"DEBUG", Some $"2")] in
  Forall define_ok l /\
  preprocess (o_defines (fold_left (fun s d => add_def (define_arg d) s) l defaults)) [($"FOO", $"1")] =
    ([($"DEBUG", $"a = b"); ($"FOO", $"1")], []) /\
  include_text $"NQ:FOO_H" = $"FOO_H" /\ include_text $"<a.h>" = $"<a.h>" /\
  include_text $"a.h" = [dquote] ++ $"a.h" ++ [dquote].
Proof.
  cbv zeta. split; [|vm_compute; repeat split; reflexivity].
  repeat constructor; cbn; try discriminate; intros X; repeat (destruct X as [X|X]; [discriminate X|]); exact X.
Qed.

(* ------------------------------------------------------------ C32 *)

(** C32: every argument list is a sequence of items followed by nothing, or by an argument that cannot be read; the items
    take effect from left to right, and an unreadable argument is an error unless an item has ended the run before *)
Theorem C32_arguments_used_once : forall prog args s, Forall argument args ->
  exists items rest, Forall item_ok items /\ args = concat (map spell items) ++ rest /\
  ((rest = [] /\ parse_cmdline (prog :: args) s = finish (interpret items (start s))) \/
   (unreadable rest /\ exists msg, parse_cmdline (prog :: args) s =
      bind (interpret items (start s)) (fun o => match o with Done _ => Err msg | Exited e => Ok (Exited e) end))).
Proof. exact used_once. Qed.
(** there is only one way to read it *)
Theorem C32_one_reading : forall is js r r', Forall item_ok is -> Forall item_ok js ->
  concat (map spell is) ++ r = concat (map spell js) ++ r' -> r = [] \/ unreadable r -> r' = [] \/ unreadable r' ->
  is = js /\ r = r'.
Proof. exact one_reading. Qed.
(** nothing is read past the end of an argument or of the argument vector, and reading ends *)
Theorem C32_defined : forall prog args s, Forall argument args ->
  (exists o, parse_cmdline (prog :: args) s = Ok o) \/ (exists m, parse_cmdline (prog :: args) s = Err m).
Proof. exact cmdline_defined. Qed.

Definition C32_items : list item :=
  [IFlag true OForce; IValue false OOut true $"a=b.h"; ILetter OLetterD false $"-x"; IFile $"-"; IValue true OPrefix false $"--line"; IFile $"more"].
Example C32_example :
  Forall item_ok C32_items /\
  concat (map spell C32_items) = [$"--force"; $"-out=a=b.h"; $"-D"; $"-x"; $"-"; $"--prefix"; $"--line"; $"more"] /\
  match interpret C32_items (start defaults) with
  | Ok (Done g) => g_input g = Some $"-" /\ g_ignored g = [$"more"] /\ o_output (g_set g) = $"a=b.h" /\ o_line (g_set g) = false
  | _ => False
  end /\
  parse_cmdline [$"gendlopen"; $"-force=1"; $"x"] defaults = Err $"unknown option: -force=1" /\
  parse_cmdline [$"gendlopen"; $"--"; $"-help"] defaults = Ok (Exited EHelp) /\
  parse_cmdline [$"gendlopen"; $"x"; $"-S"] defaults = Err $"option '-S' requires an argument".
Proof. split; [repeat constructor; discriminate|]. vm_compute. repeat split; reflexivity. Qed.

(* ------------------------------------------------------------ C33 *)

(** C33: whatever is written with documented options is accepted *)
Theorem C33_documented_accepted : forall prog items s, Forall item_ok items -> Forall argument (concat (map spell items)) ->
  parse_cmdline (prog :: concat (map spell items)) s = finish (interpret items (start s)).
Proof. exact readable. Qed.
(** an argument that looks like an option and is not documented is rejected as unknown *)
Theorem C33_undocumented_rejected : forall prog items a rest s, Forall item_ok items ->
  Forall argument (concat (map spell items) ++ a :: rest) -> option_like a = true -> ~ documented a ->
  parse_cmdline (prog :: concat (map spell items) ++ a :: rest) s =
  bind (interpret items (start s)) (fun o => match o with Done _ => Err ($"unknown option: " ++ a) | Exited e => Ok (Exited e) end).
Proof. exact unknown_rejected. Qed.
(** the order between different options does not matter *)
Theorem C33_any_order : forall is js g r, (forall n, of_slot n is = of_slot n js) ->
  interpret is g = Ok (Done r) -> interpret js g = Ok (Done r).
Proof. exact any_order. Qed.

Example C33_example :
  ~ documented $"--Dx" /\ ~ documented $"-templates" /\ documented $"-Dx" /\
  (let is := [ILetter OLetterS true $"a"; IFlag false OLine; ILetter OLetterS true $"b"; IFile $"f"] in
   let js := [IFile $"f"; ILetter OLetterS true $"a"; ILetter OLetterS true $"b"; IFlag false OLine] in
   map (fun n => of_slot n is) [$"S"; $"line"; []] = map (fun n => of_slot n js) [$"S"; $"line"; []] /\
   interpret is (start defaults) = interpret js (start defaults)).
Proof.
  split.
  { intros [(l & o & E)|[(l & o & E)|[(l & o & v & E)|(o & v & E)]]];
      [destruct l, o; discriminate E|destruct l, o; discriminate E|destruct l, o; discriminate E|destruct o; discriminate E]. }
  split.
  { intros [(l & o & E)|[(l & o & E)|[(l & o & v & E)|(o & v & E)]]];
      [destruct l, o; discriminate E|destruct l, o; discriminate E|destruct l, o; discriminate E|destruct o; discriminate E]. }
  split; [right; right; right; exists OLetterD, $"x"; reflexivity|].
  vm_compute. split; reflexivity.
Qed.

(* ------------------------------------------------------------ C59 *)

(** C59: the message about an option without a value names the option as it was written.  Missing from the full claim:
    options written with two dashes. *)
Theorem C59_message_partial : forall prog items rest s g, Forall item_ok items ->
  Forall argument (concat (map spell items) ++ rest) ->
  lacks_value rest -> interpret items (start s) = Ok (Done g) -> starts_with $"--" (hd [] rest) = false ->
  exists name why, (hd [] rest = name \/ hd [] rest = name ++ $"=") /\
    (why = $"requires an argument" \/ why = $"has an empty argument") /\
    (why = $"requires an argument" <-> rest = [name]) /\
    parse_cmdline (prog :: concat (map spell items) ++ rest) s = Err ($"option '" ++ name ++ $"' " ++ why).
Proof. exact lacking_message. Qed.
(** full C59 is false of the code: [--format] is called [-fformat] *)
Theorem C59_message_refuted : exists args msg, parse_cmdline ($"gendlopen" :: args) defaults = Err msg /\
  lacks_value args /\ find (hd [] args) msg = None.
Proof. exact long_message_wrong. Qed.

Example C59_example :
  lacks_value [$"-out="; $"x"] /\
  parse_cmdline [$"gendlopen"; $"-line"; $"-out="; $"x"] defaults = Err $"option '-out' has an empty argument".
Proof. split; [exact (value_empty false OOut [$"x"])|vm_compute; reflexivity]. Qed.

(* ------------------------------------------------------------ C60 *)

(** C60: an option in the input file has the effect of the same option on the command line *)
Theorem C60_same_effect : forall t act s, argument t -> file_option t act ->
  bind (parse_option t s) (fun s' => Ok (Done s')) = act s.
Proof. exact option_accepted. Qed.
Theorem C60_lacking_value : forall t s, file_lacks_value t ->
  parse_option t s = Err ($"%option string requires an argument: " ++ t).
Proof. exact option_lacking. Qed.
Theorem C60_unknown : forall t s, (forall act, ~ file_option t act) -> ~ file_lacks_value t ->
  parse_option t s = Err ($"unknown %option string: " ++ t).
Proof. exact option_unknown. Qed.

Example C60_example :
  file_option $"prefix=ab" (value_effect OPrefix $"ab") /\
  parse_options [$"line"; $"prefix=ab"; $"D=X=1"] defaults = Ok (add_def $"X=1" (opt_prefix $"ab" (set_line true defaults))) /\
  parse_options [$"force"] defaults = Err $"unknown %option string: force".
Proof.
  split; [|vm_compute; split; reflexivity].
  apply (file_value OPrefix $"ab"); [cbn [In]; tauto|discriminate].
Qed.

(* ------------------------------------------------------------ C61 *)

(** C61: -format and -param accept exactly their words, in any case *)
Theorem C61_formats : forall v, (forall f, read_format v = Ok f <-> In (map tolower v) (format_words f)) /\
  ((forall f, ~ In (map tolower v) (format_words f)) <-> read_format v = Err ($"unknown output format: " ++ v)).
Proof. exact (fun v => conj (format_accepted v) (format_rejected v)). Qed.
Theorem C61_modes : forall v, argument v -> (forall m, read_param v = Ok m <-> map tolower v = param_word m) /\
  ((forall m, map tolower v <> param_word m) <-> read_param v = Err ($"parameter_names: unknown mode: " ++ v)).
Proof. exact (fun v A => conj (fun m => param_accepted v m A) (param_rejected v A)). Qed.

Example C61_example : read_format $"C++" = Ok FmtCxx /\ read_param $"Create" = Ok PCreate /\
  read_format $"c+" = Err $"unknown output format: c+".
Proof. vm_compute. repeat split; reflexivity. Qed.

(* ------------------------------------------------------------ C74 *)

(** C74: an accepted command line leaves exactly the settings its options ask for: the last one for single settings, all of
    them in order for lists; the first file is the input and the others are ignored *)
Theorem C74_settings : forall prog is s g, Forall item_ok is -> Forall argument (concat (map spell is)) ->
  parse_cmdline (prog :: concat (map spell is)) s = Ok (Done g) ->
  settings_of s is (g_set g) /\ exists f, f <> [] /\ g_input g = Some f /\ files is = f :: g_ignored g.
Proof. exact meaning. Qed.
Example C74_example :
  let is := [ILetter OLetterP true $"a_"; IValue true OInclude true $"x.h"; IValue false OOut false $"1.h"; IFile $"in"; ILetter OLetterP false $"b_";
             IFlag false ONoDate; IValue true OInclude true $"<y.h>"; IFile $"more"; IValue true OOut true $"2.h"; IValue false OFormat true $"C++"] in
  Forall item_ok is /\
  match parse_cmdline ($"gendlopen" :: concat (map spell is)) defaults with
  | Ok (Done g) => o_prefix_list (g_set g) = [$"a_"; $"b_"] /\ o_includes (g_set g) = [[dquote] ++ $"x.h" ++ [dquote]; $"<y.h>"] /\ o_output (g_set g) = $"2.h" /\
      o_format (g_set g) = FmtCxx /\ o_date (g_set g) = false /\ o_line (g_set g) = false /\ g_input g = Some $"in" /\ g_ignored g = [$"more"]
  | _ => False
  end.
Proof. cbv zeta. split; [repeat constructor; discriminate|]. vm_compute. repeat split. Qed.

Print Assumptions C31_defines_partial.
Print Assumptions C31_define_refuted.
Print Assumptions C31_includes.
Print Assumptions C32_arguments_used_once.
Print Assumptions C32_one_reading.
Print Assumptions C32_defined.
Print Assumptions C33_documented_accepted.
Print Assumptions C33_undocumented_rejected.
Print Assumptions C33_any_order.
Print Assumptions C59_message_partial.
Print Assumptions C59_message_refuted.
Print Assumptions C60_same_effect.
Print Assumptions C60_lacking_value.
Print Assumptions C60_unknown.
Print Assumptions C61_formats.
Print Assumptions C61_modes.
Print Assumptions C74_settings.

(** Properties C87 and C88, and one more theorem for C34: statements.  Proofs are in DumpFacts.v. *)
From Coq Require Import Ascii String List Bool Arith NArith.
From Verif Require Import Str Lex SpecLex Tokenize Parse ParamNames Format Prefix Substitute Data SpecData Options Generate SpecGenerate SpecParse SpecTables SpecEndToEnd EndToEnd Templates ClangAst Frontend SpecProgram DumpFacts.
Import ListNotations.

(* ------------------------------------------------------------ C34 *)

(** C34, the names of the two files of -separate: a dot at the start of a file name does not begin an extension *)
Theorem C34_hidden_file : forall d x e, dir_part d -> ~ In "/"%char x -> ~ In "."%char x -> replace_extension (d ++ $"." ++ x) e = d ++ ($"." ++ x) ++ $"." ++ e.
Proof. exact hidden_file. Qed.
Example C34_hidden_example : replace_extension $"d.e/.x" $"h" = $"d.e/.x.h".
Proof. reflexivity. Qed.

(* ------------------------------------------------------------ C87 *)

(** C87: -dump-templates=dir creates the directory if there is nothing of its name, saves the 12 templates in it, tells so, and
    touches nothing else; every saved template is read back as the template that comes with the program and one empty line.  The
    rest of the command line, the input and the other options play no role. *)
Theorem C87_dumped : forall e help argv stdin fs out dir,
  parse_cmdline argv defaults = Ok (Exited (EDump dir)) -> (forall t, e_builtin e t = shipped t) -> (fs dir <> None \/ e_mkdir e dir = true) ->
  (forall t, e_writable e (dump_path dir t) = true /\ (fs (dump_path dir t) = None \/ exists x, fs (dump_path dir t) = Some (Regular x))) ->
  exists w', program e help argv stdin (started fs out) = (w', Ret tt) /\
    w_out w' = out ++ concat (map (fun t => $"saving " ++ dump_path dir t ++ [nl]) all_templates) /\ same_except (dump_files dir) fs (w_fs w') /\
    (w_fs w' dir = match fs dir with None => Some (Directory true) | Some n => Some n end) /\
    forall t, exists text, w_fs w' (dump_path dir t) = Some (Regular text) /\ reloads (shipped t) (tfile t) text.
Proof. exact dumped. Qed.
(** C87: the saved templates can be used with -templates-path (see C64) *)
Theorem C87_usable : forall e fs dir s, (forall t, exists text, fs (dump_path dir t) = Some (Regular text) /\ reloads (shipped t) (tfile t) text) ->
  o_tpath s = append_missing_separator dir -> o_line s = false -> (forall t, e_readable e (dump_path dir t) = true) ->
  exists text, holds_templates e s text (fun t => with_blank (shipped t)) fs all_templates.
Proof. exact dumped_usable. Qed.
Definition open_env : env := mkenv shipped (fun _ => true) (fun _ => true) (fun _ => true) (fun _ => true) None.
Example C87_example :
  let argv := [$"gendlopen"; $"-print-symbols"; $"-dump-templates=t"; $"-nonsense"] in
  parse_cmdline argv defaults = Ok (Exited (EDump $"t")) /\
  (let '(w, r) := program open_env (fun _ => []) argv [] (started (fun _ => None) []) in
   r = Ret tt /\ w_fs w $"t" = Some (Directory true) /\ find $"saving t/minimal_cxxeh.hpp
" (w_out w) <> None /\ match w_fs w $"t/license.h" with Some (Regular x) => starts_with $"/**@" x = true /\ find $"MIT License" x <> None | _ => False end) /\
  match parse_cmdline [$"gendlopen"; $"-templates-path=t"; $"x.h"] defaults with Ok (Done g) => o_tpath (g_set g) = append_missing_separator $"t" | _ => False end.
Proof. vm_compute. repeat (split; [reflexivity|]). split; [|reflexivity]. repeat (split; [reflexivity || discriminate|]). discriminate. Qed.

(* ------------------------------------------------------------ C88 *)

(** C88: whenever the program changed a file or printed something, the command line was right and the whole input had been read
    without an error; the exceptions are the options that only print texts or save the templates *)
Theorem C88_nothing_before_reading : forall e help argv stdin fs out w' r, program e help argv stdin (started fs out) = (w', r) -> (w_fs w' <> fs \/ w_out w' <> out) ->
  (exists g input text s y, parse_cmdline argv defaults = Ok (Done g) /\ g_input g = Some input /\ opened e fs stdin input = Some text /\ read_input (g_set g) input text = Ok (s, y)) \/
  (exists k, parse_cmdline argv defaults = Ok (Exited k)).
Proof. exact late_failure. Qed.
(** the messages: wrong options, no input, an input that cannot be read, one that is wrong *)
Theorem C88_wrong_options : forall e help argv stdin w m, parse_cmdline argv defaults = Err m -> program e help argv stdin w = (w, Throw m).
Proof. exact bad_options. Qed.
Theorem C88_no_input : forall e help argv stdin w g, parse_cmdline argv defaults = Ok (Done g) -> g_input g = None \/ g_input g = Some [] ->
  program e help argv stdin w = (w, Throw $"input file required").
Proof. exact no_input. Qed.
Theorem C88_standard_input_once : forall e help argv stdin w g, parse_cmdline argv defaults = Ok (Done g) -> g_input g = Some $"-" -> o_template (g_set g) = $"-" ->
  program e help argv stdin w = (w, Throw $"cannot read input file and custom template both from STDIN").
Proof. exact both_stdin. Qed.
Theorem C88_unreadable_input : forall e help argv stdin w g input, parse_cmdline argv defaults = Ok (Done g) -> g_input g = Some input -> input <> [] -> input <> $"-" ->
  e_readable e input = false \/ w_fs w input = None -> program e help argv stdin w = (w, Throw ($"file: " ++ input ++ nl :: $"failed to open file for reading")).
Proof. exact unreadable_input. Qed.
Theorem C88_wrong_input : forall e help argv stdin fs out g input text m, parse_cmdline argv defaults = Ok (Done g) -> g_input g = Some input -> input_is e fs stdin input text ->
  (input = $"-" -> o_template (g_set g) <> $"-") -> read_input (g_set g) input text = Err m -> program e help argv stdin (started fs out) = (started fs out, Throw m).
Proof. exact reading_fails. Qed.
(** a byte that does not belong into a header, behind any declarations and in front of anything: the message names the input, the
    byte and the number of its line *)
Theorem C88_illegal_byte : forall e help argv stdin fs out g input ds before c rest, parse_cmdline argv defaults = Ok (Done g) -> g_input g = Some input ->
  input_is e fs stdin input (before ++ c :: rest) -> (input = $"-" -> o_template (g_set g) <> $"-") -> header_with ds before -> can_begin true c = false ->
  program e help argv stdin (started fs out) = (started fs out, Throw (shown_name input ++ nl :: illegal_char_msg c (1 + line_ends before))).
Proof. exact illegal_byte. Qed.
Example C88_example :
  let before := $"struct s { int a; }; /* two symbols */
extern int f(int a);
#define X 1
double d;
" in
  let text := before ++ $"$ int g;" in
  let fs := fun p => if str_eqb p $"x.h" then Some (Regular text) else None in
  match parse_cmdline [$"gendlopen"; $"x.h"; $"-out=y.h"] defaults with
  | Ok (Done g) => g_input g = Some $"x.h" /\ input_is open_env fs [] $"x.h" text /\ header_with [DFunction [$"int"] $"f" [$"int"; $"a"]; DObject [$"double"] $"d"] before /\ can_begin true "$" = false /\
      snd (program open_env (fun _ => []) [$"gendlopen"; $"x.h"; $"-out=y.h"] [] (started fs [])) = Throw ($"file: x.h
illegal character [$] at line 5")
  | _ => False
  end /\
  snd (program open_env (fun _ => []) [$"gendlopen"; $"-P"] [] (started fs [])) = Throw $"option '-P' requires an argument".
Proof.
  cbv zeta. split; [|vm_compute; reflexivity]. match goal with |- match ?p with _ => _ end => let r := eval vm_compute in p in replace p with r by (vm_compute; reflexivity) end. cbn [g_set].
  split; [reflexivity|]. split; [split; [discriminate|right; split; [discriminate|split; reflexivity]]|]. split; [exact example_header|]. split; [reflexivity|]. vm_compute. reflexivity.
Qed.

Print Assumptions C34_hidden_file.
Print Assumptions C87_dumped.
Print Assumptions C87_usable.
Print Assumptions C88_nothing_before_reading.
Print Assumptions C88_wrong_options.
Print Assumptions C88_no_input.
Print Assumptions C88_standard_input_once.
Print Assumptions C88_unreadable_input.
Print Assumptions C88_wrong_input.
Print Assumptions C88_illegal_byte.

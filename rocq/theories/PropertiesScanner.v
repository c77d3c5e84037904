(** Property C79: statements.  Proofs are in ScannerDfa.v, ScannerFacts.v and ScannerProps.v. *)
From Coq Require Import Ascii String List Bool Arith NArith.
From Verif Require Import Str Regex Lex LexTables Scanner ScannerDfa ScannerProps.
Import ListNotations.

(* ------------------------------------------------------------ C79 *)

(** C79: the compiled scanner gives the tokens the rules of lex.l ask for, for every file and for every way the file's bytes
    arrive; it never reads a table or the buffer out of bounds, nor jumps forever ([UB], [Fuel]) *)
Theorem C79_tokens : forall chunk file, scan_file chunk file = Ok (lex_all file).
Proof. exact compiled_scanner. Qed.
(** also each single match: text, action, line number, start condition and whether a line begins *)
Theorem C79_matches : forall chunk file, turns chunk (S (length file)) (y_init file) = Ok (lex_run lex_init file).
Proof. exact compiled_matches. Qed.
(** one token from any state and any contents of the buffer: the same step as that of the rules, and the unread bytes are kept *)
Theorem C79_one_token : forall chunk y c s, y_text y ++ y_more y = c :: s ->
  let x := lex_step (mkl (y_cond y) (y_bol y) (y_line y)) (c :: s) in
  exists y', turn chunk y = Ok (Some x, y') /\ mkl (y_cond y') (y_bol y') (y_line y') = s_state x /\ y_text y' ++ y_more y' = s_rest x.
Proof. exact turn_spec. Qed.
(** so the way the file is read does not matter *)
Theorem C79_any_reads : forall chunk chunk' file, scan_file chunk file = scan_file chunk' file.
Proof. exact reads_alike. Qed.

Example C79_example :
  let file := $"int f(char *x); // a" ++ [nl] ++ $"#define /* */ " ++ [bslash; nl] ++ $" 1" ++ [nl] ++ $"struct s { /* * */ };" in
  scan_file (fun n => n) file = Ok [T_ID $"int"; T_ID $"f"; T_OTHER $"("; T_ID $"char"; T_OTHER $"*"; T_ID $"x"; T_OTHER $")"; T_SEMICOLON;
    T_STRUCT; T_ID $"s"; T_CURLY_OPEN 4; T_CURLY_CLOSE 4; T_SEMICOLON].
Proof. vm_compute. reflexivity. Qed.
(** a NUL byte, and a match that must be undone at the end of the file *)
Example C79_example_nul :
  scan_file (fun _ => 2) ($"// a" ++ [nul; nul; nl] ++ $"x;/") = Ok [T_ID $"x"; T_SEMICOLON; T_ERROR $"illegal character [/] at line 2"] /\
  scan_file (fun _ => 100) ([nul] ++ $"x") = Ok [T_ERROR $"illegal character [0x00] at line 1"] /\
  scan_file (fun _ => 1) ($"..") = Ok [T_ERROR $"illegal character [.] at line 1"].
Proof. vm_compute. repeat split. Qed.

Print Assumptions C79_tokens.
Print Assumptions C79_matches.
Print Assumptions C79_one_token.
Print Assumptions C79_any_reads.

(** Specification vocabulary: the statements of any accepted input. *)
From Coq Require Import Ascii String List Bool Arith ZArith.
From Verif Require Import Str Lex SpecTokenize.
Import ListNotations.

(** What may stand behind the last [;] of an input. *)
Inductive ending :=
| EndNone
| EndProto (first : token) (more : list token)   (* a declaration without its [;] *)
| EndBlock (kw : token) (inner : list token).    (* struct/union/enum/typedef ... up to the end of the input *)

(** an unfinished block: no [;] in it ends the statement, because all are inside braces *)
Definition ending_ok (e : ending) : Prop :=
  match e with
  | EndNone => True
  | EndProto t ts => is_keyword t = false /\ Forall (fun t => plain_text t <> None) (t :: ts)
  | EndBlock kw inner => is_keyword kw = true /\ forallb block_token inner = true /\
      (forall a b, inner = a ++ T_SEMICOLON :: b -> (1 <= depth a)%Z)
  end.
Definition ending_tokens (e : ending) : list token :=
  match e with EndNone => [] | EndProto t ts => t :: ts | EndBlock kw inner => kw :: inner end.
Definition ending_protos (e : ending) : list (list str) :=
  match e with EndProto t ts => [texts (t :: ts)] | _ => [] end.

(** The tokens [ts], options left out, are the statements [ss] followed by [e]. *)
Definition made_of (ts : list token) (ss : list stmt) (e : ending) : Prop :=
  filter (fun t => negb (is_option t)) ts = flat_map stmt_tokens ss ++ ending_tokens e /\ Forall stmt_ok ss /\ ending_ok e.
(** the declarations among them, each as the words it is written with *)
Definition declarations (ss : list stmt) (e : ending) : list (list str) := flat_map stmt_protos ss ++ ending_protos e.

(** an identifier of a declaration *)
Definition plain_name (w : str) : Prop := w <> [] /\ Forall (fun c => is_ident c = true) w /\ w <> $"TranslationUnitDecl".
(** A comment line, and behind it a prototype that returns a pointer to a structure, union or enumeration, for example
    [struct tm *gmtime(void);] *)
Definition tagged_prototype (kw tag name : str) : str := $"//" ++ [nl] ++ kw ++ $" " ++ tag ++ $" *" ++ name ++ $"(void);".

(** Specification vocabulary for statement collection and parenthesis clean-up. *)
From Coq Require Import Ascii String List Bool Arith ZArith.
From Verif Require Import Str Lex.
Import ListNotations.

(* ---------------------------------------------------------------- statements *)

Definition is_keyword (t : token) : bool :=
  match t with T_STRUCT | T_UNION | T_ENUM | T_TYPEDEF => true | _ => false end.

(** tokens of ordinary declarations with the text they are written with *)
Definition plain_text (t : token) : option str :=
  match t with
  | T_ID x | T_OTHER x => Some x
  | T_STRUCT => Some $"struct" | T_UNION => Some $"union" | T_ENUM => Some $"enum" | T_TYPEDEF => Some $"typedef"
  | _ => None
  end.

(** brace depth of a token sequence *)
Definition brace (t : token) : Z :=
  match t with T_CURLY_OPEN _ => 1 | T_CURLY_CLOSE _ => -1 | _ => 0 end%Z.
Definition depth (ts : list token) : Z := fold_right (fun t n => (brace t + n)%Z) 0%Z ts.

(** tokens that may stand in a skipped block: anything but errors, options and AST lines *)
Definition block_token (t : token) : bool :=
  match t with T_ERROR _ | T_OPTION _ | T_AST_BEGIN | T_AST_FUNCVAR _ | T_AST_PARMVAR _ => false | _ => true end.

(** [inner] is what stands between the keyword and the [;] that ends its statement: every [;] in it is
    inside braces, and the braces are closed at the end *)
Definition block_inner (inner : list token) : Prop :=
  forallb block_token inner = true /\
  (forall a b, inner = a ++ T_SEMICOLON :: b -> (1 <= depth a)%Z) /\ (depth inner <= 0)%Z.

Inductive stmt :=
| SProto (first : token) (more : list token)   (* a declaration, ended by [;] *)
| SBlock (kw : token) (inner : list token)     (* struct/union/enum/typedef ... ; *)
| SEmpty.                                      (* a lone [;] *)

Definition stmt_ok (s : stmt) : Prop :=
  match s with
  | SProto t ts => is_keyword t = false /\ Forall (fun t => plain_text t <> None) (t :: ts)
  | SBlock kw inner => is_keyword kw = true /\ block_inner inner
  | SEmpty => True
  end.
Definition stmt_tokens (s : stmt) : list token :=
  match s with
  | SProto t ts => t :: ts ++ [T_SEMICOLON]
  | SBlock kw inner => kw :: inner ++ [T_SEMICOLON]
  | SEmpty => [T_SEMICOLON]
  end.
Definition texts (ts : list token) : list str :=
  flat_map (fun t => match plain_text t with Some x => [x] | None => [] end) ts.
(** what the statement contributes *)
Definition stmt_protos (s : stmt) : list (list str) :=
  match s with SProto t ts => [texts (t :: ts)] | _ => [] end.

Definition is_option (t : token) : bool := match t with T_OPTION _ => true | _ => false end.
Definition option_texts (ts : list token) : list str :=
  flat_map (fun t => match t with T_OPTION x => [x] | _ => [] end) ts.

(* ---------------------------------------------------------------- doubled parentheses *)

Definition lparen : str := $"(".
Definition rparen : str := $")".

(** One clean-up step: of two adjacent opening and two adjacent closing parentheses the inner ones go. *)
Inductive unwrap : list str -> list str -> Prop :=
| Unwrap pre mid post :
    unwrap (pre ++ lparen :: lparen :: mid ++ rparen :: rparen :: post) (pre ++ lparen :: mid ++ rparen :: post).
Inductive unwraps : list str -> list str -> Prop :=
| UnwrapsRefl v : unwraps v v
| UnwrapsStep u v w : unwrap u v -> unwraps v w -> unwraps u w.

(** [v'] is [v] with some elements left out *)
Inductive subseq {A} : list A -> list A -> Prop :=
| SubNil : subseq [] []
| SubKeep x l l' : subseq l l' -> subseq (x :: l) (x :: l')
| SubDrop x l l' : subseq l l' -> subseq l (x :: l').

Definition is_paren (x : str) : bool := str_eqb x lparen || str_eqb x rparen.
Definition count (x : str) (v : list str) : nat := length (filter (str_eqb x) v).

(** balanced parentheses: never more closed than opened, all closed at the end *)
Fixpoint balanced_from (n : nat) (v : list str) : bool :=
  match v with
  | [] => Nat.eqb n 0
  | x :: v' =>
      if str_eqb x lparen then balanced_from (S n) v'
      else if str_eqb x rparen then match n with O => false | S m => balanced_from m v' end
      else balanced_from n v'
  end.
Definition paren_balanced (v : list str) : bool := balanced_from 0 v.

(** tokens as the scanner makes them: a token starting with a parenthesis is that parenthesis *)
Definition paren_token (x : str) : Prop :=
  (str_front x = "("%char -> x = lparen) /\ (str_front x = ")"%char -> x = rparen).

(** Specification vocabulary: preprocessor directives with comments and continued lines, and option lines. *)
From Coq Require Import Ascii String List Bool Arith NArith.
From Verif Require Import Str Lex SpecLex.
Import ListNotations.

(** What stands behind the [#] of a directive. *)
Inductive segment :=
| DText (w : str)          (* text without slashes, backslashes and line ends *)
| DSlash                   (* a slash that opens no comment *)
| DBackslash               (* a backslash that does not end a line *)
| DSplit (ws : str)        (* a continued line: backslash, white space, line end *)
| DComment (body : str).   (* a comment on one line *)

Definition segment_text (x : segment) : str :=
  match x with
  | DText w => w
  | DSlash => $"/"
  | DBackslash => [bslash]
  | DSplit ws => [bslash] ++ ws ++ [nl]
  | DComment body => $"/*" ++ body ++ $"*/"
  end.
Definition segments_text (l : list segment) : str := concat (map segment_text l).

(** blank text that goes on on the same line *)
Definition blank (c : ascii) : Prop := isspace c = true /\ c <> nl.

(** [rest] is what follows the segment in the directive *)
Definition segment_ok (x : segment) (rest : str) : Prop :=
  match x with
  | DText w => Forall (fun c => c <> "/"%char /\ c <> bslash /\ c <> nl) w
  | DSlash => match rest with c :: _ => c <> "/"%char /\ c <> "*"%char /\ c <> bslash | [] => True end
  | DBackslash => match rest with c :: _ => isspace c = false | [] => True end
  | DSplit ws => spaces ws /\ exists b c r, rest = b ++ c :: r /\ Forall blank b /\ isspace c = false
  | DComment body => ~ In nl body /\ first_closer body $"*/"
  end.
Fixpoint segments_ok (l : list segment) (last : str) : Prop :=
  match l with
  | [] => True
  | x :: l' => segment_ok x (segments_text l' ++ last) /\ segments_ok l' last
  end.

(** a directive ends with its line, which may end with a comment [//] *)
Definition directive_end (last : str) : Prop := last = [nl] \/ exists body, one_line body /\ last = $"//" ++ body ++ [nl].

(* ---------------------------------------------------------------- option lines *)

(** What stands behind [%option]. *)
Inductive opart :=
| OWord (w : str)      (* an option *)
| OBlanks (w : str)    (* blanks *)
| OJoin (ws : str).    (* a continued line *)
Definition opart_text (x : opart) : str :=
  match x with OWord w => w | OBlanks w => w | OJoin ws => [bslash] ++ ws ++ [nl] end.
Definition oparts_text (l : list opart) : str := concat (map opart_text l).
Definition opart_words (x : opart) : list str := match x with OWord w => [w] | _ => [] end.
Definition option_words (l : list opart) : list str := flat_map opart_words l.

(** [rest]: what follows; a word ends at white space, so a continued line must be set off from it *)
Definition opart_ok (x : opart) (rest : str) : Prop :=
  match x with
  | OWord w => w <> [] /\ w <> [bslash] /\ Forall (fun c => isspace c = false /\ c <> nul) w /\
      match rest with c :: _ => isspace c = true | [] => True end
  | OBlanks w => Forall blank w
  | OJoin ws => spaces ws /\ exists b c r, rest = b ++ c :: r /\ Forall blank b /\ isspace c = false
  end.
Fixpoint oparts_ok (l : list opart) (last : str) : Prop :=
  match l with
  | [] => True
  | x :: l' => opart_ok x (oparts_text l' ++ last) /\ oparts_ok l' last
  end.
(** an option line *)
Definition option_line (l : list opart) : str := $"%option " ++ oparts_text l ++ [nl].
(** several of them *)
Definition option_lines (ls : list (list opart)) : str := concat (map option_line ls).

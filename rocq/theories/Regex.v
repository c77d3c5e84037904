(** Regular expressions over bytes: the meaning flex gives to a pattern, and a matcher by derivatives.
    Definitions only; [longest_spec] in RegexFacts.v proves the matcher correct. *)
From Coq Require Import Ascii List Bool.
From Verif Require Import Str.
Import ListNotations.

Inductive re : Type :=
| Emp                      (* matches nothing *)
| Eps                      (* empty string *)
| Cls (f : ascii -> bool)  (* one byte in a class *)
| Cat (a b : re)
| Alt (a b : re)
| Star (a : re).

(** Declarative meaning. *)
Inductive matches : re -> str -> Prop :=
| MEps : matches Eps []
| MCls f c : f c = true -> matches (Cls f) [c]
| MCat a b u v : matches a u -> matches b v -> matches (Cat a b) (u ++ v)
| MAltL a b u : matches a u -> matches (Alt a b) u
| MAltR a b u : matches b u -> matches (Alt a b) u
| MStar0 a : matches (Star a) []
| MStarS a u v : matches a u -> matches (Star a) v -> matches (Star a) (u ++ v).

(** Abbreviations for flex notation. *)
Definition chr (c : ascii) : re := Cls (Ascii.eqb c).
Fixpoint word (s : str) : re := match s with [] => Eps | c :: s' => Cat (chr c) (word s') end.
Definition opt (a : re) : re := Alt a Eps.            (* a? *)
Definition plus (a : re) : re := Cat a (Star a).      (* a+ *)
Definition any : re := Cls (fun c => negb (Ascii.eqb c nl)).  (* flex `.`: any byte but newline *)

(** Matcher: Brzozowski derivatives with simplification of [Emp]. *)
Fixpoint nullable (r : re) : bool :=
  match r with
  | Emp => false | Eps => true | Cls _ => false
  | Cat a b => nullable a && nullable b
  | Alt a b => nullable a || nullable b
  | Star _ => true
  end.

Definition cat (a b : re) : re :=
  match a, b with Emp, _ => Emp | _, Emp => Emp | Eps, _ => b | _, _ => Cat a b end.
Definition alt (a b : re) : re :=
  match a, b with Emp, _ => b | _, Emp => a | _, _ => Alt a b end.

Fixpoint deriv (c : ascii) (r : re) : re :=
  match r with
  | Emp => Emp
  | Eps => Emp
  | Cls f => if f c then Eps else Emp
  | Cat a b => if nullable a then alt (cat (deriv c a) b) (deriv c b) else cat (deriv c a) b
  | Alt a b => alt (deriv c a) (deriv c b)
  | Star a => cat (deriv c a) (Star a)
  end.

(** Length of the longest prefix of [s] matched by [r]; [None] if no prefix matches. *)
Fixpoint longest (r : re) (s : str) : option nat :=
  match r with
  | Emp => None
  | _ =>
    match s with
    | [] => if nullable r then Some 0 else None
    | c :: s' => match longest (deriv c r) s' with
                 | Some n => Some (S n)
                 | None => if nullable r then Some 0 else None
                 end
    end
  end.

(** Specification vocabulary for template files. *)
From Coq Require Import Ascii String List Bool Arith NArith.
From Verif Require Import Str Substitute Data.
Import ListNotations.

(** the lines of a text (one more than line feeds) *)
Fixpoint lines (s : str) : list str :=
  match s with
  | [] => [[]]
  | c :: s' => if Ascii.eqb c nl then [] :: lines s'
               else match lines s' with p :: ps => (c :: p) :: ps | [] => [[c]] end
  end.

(** a line with a continuation mark at its end, before a possible carriage return; and the line without the mark *)
Definition continued (p : str) : bool := ends_with $"@" p || ends_with ($"@" ++ [cr]) p.
Definition unmark (p : str) : str :=
  if ends_with $"@" p then firstn (length p - 1) p else firstn (length p - 2) p ++ [cr].
(** groups of lines belonging together: each continued line with the next one *)
Fixpoint groups (ps : list str) : list (list str) :=
  match ps with
  | [] => []
  | [p] => [[p]]
  | p :: r =>
      if continued p then match groups r with g :: gs => (p :: g) :: gs | [] => [[p]] end
      else [p] :: groups r
  end.
Fixpoint glue (g : list str) : str :=
  match g with
  | [] => []
  | [p] => p
  | p :: r => unmark p ++ [nl] ++ glue r
  end.
(** a percent sign somewhere *)
Definition percent (s : str) : bool := existsb (Ascii.eqb "%") s.
(** the entry made of a group of lines *)
Definition group_entry (g : list str) : entry := mkentry (glue g) (existsb percent g) (length g).
(** a mark at the very end of a file continues nothing and is left out *)
Definition file_lines (text : str) : list str := lines (delete_suffix text $"@").

(** entries as they should be: line count and percent flag tell the truth, no continuation mark at the end *)
Definition entry_ok (e : entry) : Prop :=
  e_count e = 1 + count_linefeed (e_data e) /\ e_kw e = percent (e_data e) /\ continued (e_data e) = false.
Definition blank_entry : entry := mkentry [] false 1.
Definition end_mark : entry := mkentry [] false 0.

(** the value of a C string literal, given its spelling between the quotes: simple escapes and hexadecimal escapes, the latter
    taking all hexadecimal digits that follow; None if it is no literal.  C11 6.4.4.4, 6.4.5 *)
Inductive lit_mode := Plain | Escape | Hex (v : option N).
Definition hex_digit (c : ascii) : option N :=
  if isdigit c then Some (code c - 48)%N
  else if between 65 70 c then Some (code c - 55)%N
  else if between 97 102 c then Some (code c - 87)%N
  else None.
Definition simple_escape (c : ascii) : option ascii :=
  if Ascii.eqb c "t" then Some tab else if Ascii.eqb c "n" then Some nl else if Ascii.eqb c "r" then Some cr
  else if Ascii.eqb c dquote then Some dquote else if Ascii.eqb c bslash then Some bslash else None.
Definition put (c : ascii) (r : option str) : option str := match r with Some s => Some (c :: s) | None => None end.
Fixpoint c_literal (m : lit_mode) (s : str) : option str :=
  match s with
  | [] => match m with
          | Plain => Some []
          | Hex (Some v) => if N.ltb v 256 then Some [ascii_of_N v] else None
          | _ => None
          end
  | c :: r =>
      let plain := if Ascii.eqb c bslash then c_literal Escape r
                   else if Ascii.eqb c dquote || Ascii.eqb c nl || Ascii.eqb c cr then None
                   else put c (c_literal Plain r) in
      match m with
      | Plain => plain
      | Escape => if Ascii.eqb c "x" then c_literal (Hex None) r
                  else match simple_escape c with Some v => put v (c_literal Plain r) | None => None end
      | Hex v =>
          match hex_digit c, v with
          | Some d, _ => c_literal (Hex (Some (16 * match v with Some v => v | None => 0 end + d)%N)) r
          | None, Some v => if N.ltb v 256 then put (ascii_of_N v) plain else None
          | None, None => None
          end
      end
  end.
(** adjacent literals are decoded one by one and concatenated *)
Fixpoint literals (l : list str) : option str :=
  match l with
  | [] => Some []
  | p :: l' => match c_literal Plain p, literals l' with Some a, Some b => Some (a ++ b) | _, _ => None end
  end.
(** the entry a compiler makes of the source text *)
Definition compiled (x : source_entry) : option entry :=
  match literals (x_pieces x) with Some d => Some (mkentry d (x_kw x) (x_count x)) | None => None end.
Fixpoint compiled_all (l : list source_entry) : option (list entry) :=
  match l with
  | [] => Some []
  | x :: l' => match compiled x, compiled_all l' with Some e, Some es => Some (e :: es) | _, _ => None end
  end.
(** characters of ordinary template files *)
Definition ordinary (c : ascii) : bool := between 32 126 c || Ascii.eqb c tab || Ascii.eqb c nl.
(** without the empty line behind the last line feed *)
Definition without_blank_end (l : list entry) : list entry :=
  match rev l with
  | mkentry [] false 1 :: r => rev r
  | _ => l
  end.

(** a text with Windows line ends, and without carriage returns *)
Definition crlf (s : str) : str := flat_map (fun c => if Ascii.eqb c nl then [cr; nl] else [c]) s.
Definition without_cr (s : str) : str := filter (fun c => negb (Ascii.eqb c cr)) s.
Definition same_but_cr (e e' : entry) : Prop := without_cr (e_data e') = e_data e /\ e_kw e' = e_kw e /\ e_count e' = e_count e.

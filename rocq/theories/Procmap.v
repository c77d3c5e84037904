(** Reading the process map on Linux: _gdo_fullpath_procmap, /repo/src/templates/common.c:113-183.  Definitions only.
    The sscanf() of the C library is modelled for the directives used here; the map text and the answer of the
    PROCMAP_QUERY ioctl are arguments.  Allocation by %m is assumed to succeed. *)
From Coq Require Import Ascii String List Bool Arith NArith.
From Verif Require Import Str.
Import ListNotations.

(** the directives of the format in common.c:158 *)
Inductive directive :=
| DHex                                  (* %jx *)
| DChar (c : ascii)                     (* an ordinary character *)
| DBlank                                (* white space *)
| DSet (width : nat) (f : ascii -> bool)  (* %4[...] *)
| DSkip                                 (* %*u *)
| DAll (f : ascii -> bool).             (* %m[...] *)
Inductive conversion := VNumber (n : N) | VText (s : str).

Definition hex_value (c : ascii) : option N :=
  if isdigit c then Some (code c - 48)%N
  else if between 97 102 c then Some (code c - 87)%N
  else if between 65 70 c then Some (code c - 55)%N else None.
(** the digits of a hexadecimal number, most significant first, and what follows *)
Fixpoint hex_run (s : str) (acc : N) : N * str :=
  match s with
  | c :: s' => match hex_value c with Some v => hex_run s' (16 * acc + v)%N | None => (acc, s) end
  | [] => (acc, s)
  end.
Definition uintmax : N := 18446744073709551615.
(** strtoumax: values out of range become the greatest one, a minus sign negates modulo 2^64 *)
Definition in_range (neg : bool) (n : N) : N :=
  if N.ltb uintmax n then uintmax else if neg then ((uintmax + 1 - n) mod (uintmax + 1))%N else n.
Definition sign (s : str) : bool * str :=
  match s with
  | c :: s' => if Ascii.eqb c "-" then (true, s') else if Ascii.eqb c "+" then (false, s') else (false, s)
  | [] => (false, s)
  end.
(** an 0x prefix is part of the number (C11 7.22.1.4); without a digit after it the conversion fails *)
Definition no_0x (s : str) : str :=
  match s with
  | z :: x :: s' => if Ascii.eqb z "0" && (Ascii.eqb x "x" || Ascii.eqb x "X") then s' else s
  | _ => s
  end.
Definition scan_hex (s : str) : option (N * str) :=
  let '(neg, s) := sign (drop_while isspace s) in
  let s := no_0x s in
  match s with
  | c :: _ => match hex_value c with Some _ => let '(n, s) := hex_run s 0 in Some (in_range neg n, s) | None => None end
  | [] => None
  end.
(** %*u: decimal digits, no value is stored *)
Definition scan_dec (s : str) : option str :=
  let '(_, s) := sign (drop_while isspace s) in
  match s with
  | c :: _ => if isdigit c then Some (drop_while isdigit s) else None
  | [] => None
  end.
(** the longest prefix of characters in the set, and what follows *)
Fixpoint span (f : ascii -> bool) (s : str) : str * str :=
  match s with
  | c :: s' => if f c then let '(a, b) := span f s' in (c :: a, b) else ([], s)
  | [] => ([], s)
  end.
Fixpoint span_max (n : nat) (f : ascii -> bool) (s : str) : str * str :=
  match n, s with
  | S n', c :: s' => if f c then let '(a, b) := span_max n' f s' in (c :: a, b) else ([], s)
  | _, _ => ([], s)
  end.

(** sscanf(): the stored values; it stops at the first directive that does not match *)
Fixpoint sscanf (fmt : list directive) (s : str) : list conversion :=
  match fmt with
  | [] => []
  | DHex :: fmt' => match scan_hex s with Some (n, s') => VNumber n :: sscanf fmt' s' | None => [] end
  | DChar c :: fmt' => match s with d :: s' => if Ascii.eqb c d then sscanf fmt' s' else [] | [] => [] end
  | DBlank :: fmt' => sscanf fmt' (drop_while isspace s)
  | DSet n f :: fmt' => match span_max n f s with ([], _) => [] | (t, s') => VText t :: sscanf fmt' s' end
  | DSkip :: fmt' => match scan_dec s with Some s' => sscanf fmt' s' | None => [] end
  | DAll f :: fmt' => match span f s with ([], _) => [] | (t, s') => VText t :: sscanf fmt' s' end
  end.

(** [rwxsp-] *)
Definition mode_char (c : ascii) : bool := existsb (Ascii.eqb c) $"rwxsp-".
(** "%jx-%jx %4[rwxsp-] %*u %*u:%*u %*u %m[^\n]", common.c:158 *)
Definition map_format : list directive :=
  [DHex; DChar "-"; DHex; DBlank; DSet 4 mode_char; DBlank; DSkip; DBlank; DSkip; DChar ":"; DSkip; DBlank; DSkip; DBlank;
   DAll (fun c => negb (Ascii.eqb c nl))].

(** common.c:158-164: the path in a line whose address range contains [addr] *)
Definition map_line (addr : N) (line : str) : option str :=
  match sscanf map_format (c_str line) with
  | [VNumber first; VNumber last; VText _; VText path] =>
      if N.leb first addr && N.ltb addr last then Some path else None
  | _ => None
  end.
(** getline(): the lines of a text, each with its newline *)
Fixpoint getlines (s : str) : list str :=
  match s with
  | [] => []
  | c :: s' =>
      if Ascii.eqb c nl then [c] :: getlines s'
      else match getlines s' with l :: ls => (c :: l) :: ls | [] => [[c]] end
  end.
(** the loop, common.c:155-168: the path of the first line that matches *)
Fixpoint find_line (addr : N) (lines : list str) : option str :=
  match lines with
  | [] => None
  | l :: ls => match map_line addr l with Some p => Some p | None => find_line addr ls end
  end.

(** _gdo_fullpath_procmap.  [query]: the name the ioctl stored in the buffer, if it succeeded, common.c:115-142; without
    PROCMAP_QUERY or on an older kernel it is [None].  [maps]: the text of /proc/self/maps, if it could be opened.
    The result is the path in the buffer if [true] is returned. *)
Definition read_procmap (addr : N) (query maps : option str) (bufsize : nat) : option str :=
  match query with
  | Some p => Some p
  | None =>
      match maps with
      | None => None
      | Some text =>
          match find_line addr (getlines text) with
          | Some p => if Nat.ltb (length p) bufsize then Some p else None
          | None => None
          end
      end
  end.

(** Template files: reading lines (/repo/src/utils.cpp), loading, dumping (/repo/src/data.cpp) and embedding them at build
    time (/repo/src/gen_templates_data.c).  Definitions only. *)
From Coq Require Import Ascii String List Bool Arith NArith.
From Verif Require Import Str Substitute.
Import ListNotations.

(** s.back() = c for a non-empty string *)
Definition set_back (s : str) (c : ascii) : str := firstn (length s - 1) s ++ [c].

(** save_to_line, utils.cpp:33-66; None is EOF; the second component is the returned bool *)
Definition save_to_line (c : option ascii) (e : entry) : entry * bool :=
  match c with
  | None => (mkentry (delete_suffix (e_data e) $"@") (e_kw e) (e_count e), false)
  | Some c =>
      if Ascii.eqb c nl then
        if ends_with $"@" (e_data e) then (mkentry (set_back (e_data e) nl) (e_kw e) (e_count e + 1), true)
        else if ends_with ($"@" ++ [cr]) (e_data e)
        then (mkentry (replace_at (length (e_data e) - 2) 2 [cr; nl] (e_data e)) (e_kw e) (e_count e + 1), true)
        else (e, false)
      else (mkentry (e_data e ++ [c]) (e_kw e || Ascii.eqb c "%") (e_count e), true)
  end.

(** the loop of get_lines, utils.cpp:179-185: the entry, the returned bool (not at the end of the file) and the rest of the
    file *)
Fixpoint get_lines_from (e : entry) (fp : str) : entry * bool * str :=
  match fp with
  | [] => (fst (save_to_line None e), false, [])
  | c :: fp' =>
      let r := save_to_line (Some c) e in
      if snd r then get_lines_from (fst r) fp' else (fst r, true, fp')
  end.
(** utils::get_lines, utils.cpp:170-188 *)
Definition get_lines (fp : str) : entry * bool * str := get_lines_from (mkentry [] false 1) fp.

(** [while (rv) { rv = get_lines(fp, entry); ... }], data.cpp:93-96 and gendlopen.cpp:207-212: the entries read.  Each call
    reads at least one byte or meets the end, so [length fp] further calls are enough *)
Fixpoint read_loop (fuel : nat) (fp : str) : option (list entry) :=
  let '(e, more, fp') := get_lines fp in
  if more then
    match fuel with
    | O => None
    | S f => match read_loop f fp' with Some l => Some (e :: l) | None => None end
    end
  else Some [e].
Definition read_entries (fp : str) : res (list entry) :=
  match read_loop (length fp) fp with Some l => Ok l | None => Fuel end.

(** load_from_file, data.cpp:55-100, for a file that could be opened and holds [text]; the path is never "-", so the
    branch for standard input (82-83) is dead.  [data] is the vector's old contents *)
Definition load_from_file (data : list entry) (file : str) (line_directive : bool) (text : str) : res (list entry) :=
  l <- read_entries text ;;
  let head := if line_directive && negb (str_eqb (c_str file) $"license.h")
              then [mkentry ($"#line 1 " ++ [dquote] ++ file ++ [dquote] ++ [nl]) false 1] else [] in
  Ok (data ++ head ++ l ++ [mkentry [] false 0]).

(** save_to_file, data.cpp:116-131: the text written; a list without end mark would be read past its end *)
Definition entry_text (e : entry) : str :=
  if Nat.eqb (e_count e) 1 then e_data e ++ [nl]
  else flat_map (fun c => if Ascii.eqb c nl then $"@" ++ [nl] else [c]) (e_data e) ++ [nl].
Fixpoint save_to_file (l : list entry) : res str :=
  match l with
  | [] => UB
  | e :: l' => if Nat.eqb (e_count e) 0 then Ok [] else s <- save_to_file l' ;; Ok (entry_text e ++ s)
  end.

(* ------------------------------------------------- gen_templates_data.c *)

(** dump writes C source: the pieces of a string literal (its spelling between the quotes), the word false/true and the
    number.  [lit_piece]: one piece.  Pieces of one entry are adjacent literals, one per line *)
Record source_entry := mksrc { x_pieces : list str; x_kw : bool; x_count : nat }.

Definition hex_upper (n : N) : ascii := if N.ltb n 10 then ascii_of_N (48 + n) else ascii_of_N (55 + n).
(** the default case, gen_templates_data.c:147-153: "\\x%02X" for bytes that are not printable; [c] is an int, so bytes
    above 127 are above '~' *)
Definition put_default (c : ascii) : str :=
  if N.ltb (code c) 32 || N.ltb 126 (code c)
  then $"\x" ++ [hex_upper (N.div (code c) 16); hex_upper (N.modulo (code c) 16)] else [c].

(** state of dump: closed entries (newest first), the pieces of the open entry (newest first; None: new_line), percent and
    count *)
Record dumper := mkdump { d_done : list source_entry; d_open : option (list str); d_percent : bool; d_count : nat }.
Definition d_init : dumper := mkdump [] None false 0.
(** gen_templates_data.c:87-90 *)
Definition d_begin (d : dumper) : dumper :=
  match d_open d with None => mkdump (d_done d) (Some [[]]) (d_percent d) (d_count d) | Some _ => d end.
Definition d_put (s : str) (d : dumper) : dumper :=
  match d_open d with
  | Some (p :: ps) => mkdump (d_done d) (Some ((p ++ s) :: ps)) (d_percent d) (d_count d)
  | _ => d
  end.
(** 118-124, 158-161: close the entry *)
Definition d_close (d : dumper) : dumper :=
  match d_open d with
  | Some ps => mkdump (mksrc (rev ps) (d_percent d) (d_count d + 1) :: d_done d) None false 0
  | None => d
  end.
(** 133-142: next piece *)
Definition d_join (d : dumper) : dumper :=
  match d_open d with
  | Some (p :: ps) => mkdump (d_done d) (Some ([] :: (p ++ $"\n") :: ps)) (d_percent d) (d_count d + 1)
  | _ => d
  end.
Definition d_set_percent (d : dumper) : dumper := mkdump (d_done d) (d_open d) true (d_count d).

(** the loop, gen_templates_data.c:84-156; ungetc puts the byte last read back (nothing at the end of the file) *)
Fixpoint dump_loop (fuel : nat) (fp : str) (d : dumper) : option dumper :=
  match fp with
  | [] => Some d
  | c :: fp' =>
      match fuel with
      | O => None
      | S f =>
          let d := d_begin d in
          if Ascii.eqb c tab then dump_loop f fp' (d_put $"\t" d)
          else if Ascii.eqb c dquote then dump_loop f fp' (d_put ($"\" ++ [dquote]) d)
          else if Ascii.eqb c bslash then dump_loop f fp' (d_put $"\\" d)
          else if Ascii.eqb c "%" then dump_loop f fp' (d_set_percent (d_put $"%" d))
          else if Ascii.eqb c cr then
            match fp' with
            | c2 :: fp2 => if Ascii.eqb c2 nl then dump_loop f fp2 (d_close d) else dump_loop f fp' (d_put $"\r" d)
            | [] => dump_loop f [] (d_put $"\r" d)
            end
          else if Ascii.eqb c nl then dump_loop f fp' (d_close d)
          else if Ascii.eqb c "@" then
            match fp' with
            | [] => dump_loop f [] (d_join d)
            | c2 :: fp2 =>
                if Ascii.eqb c2 cr then
                  match fp2 with
                  | c3 :: fp3 => if Ascii.eqb c3 nl then dump_loop f fp3 (d_join d) else dump_loop f fp2 (d_put ($"@" ++ [cr]) d)
                  | [] => dump_loop f [] (d_put ($"@" ++ [cr]) d)
                  end
                else if Ascii.eqb c2 nl then dump_loop f fp2 (d_join d)
                else dump_loop f fp' (d_put $"@" d)
            end
          else dump_loop f fp' (d_put (put_default c) d)
      end
  end.
(** dump, gen_templates_data.c:40-169: the entries of the array, without the end mark; the first one is the line
    directive (75-77) *)
Definition dump (file text : str) : res (list source_entry) :=
  match dump_loop (length text) text d_init with
  | None => Fuel
  | Some d =>
      let head := if str_eqb file $"license.h" then []
                  else [mksrc [$"#line 1 \" ++ [dquote] ++ $"<built-in>/" ++ file ++ $"\" ++ [dquote]] false 1] in
      Ok (head ++ rev (d_done (d_close d)))
  end.

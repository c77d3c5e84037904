(** Symbol prefix: /repo/src/gendlopen.cpp:123-164.  Definitions only. *)
From Coq Require Import Ascii String List Bool Arith.
From Verif Require Import Str.
Import ListNotations.

(** the members set by gendlopen::prefix, gendlopen.cpp:123-136 (m_pfx itself is not used afterwards) *)
Record prefixes := mkpfx {
  m_pfx_upper : str; m_pfx_lower : str;
  m_fmt_upper : str; m_fmt_lower : str; m_fmt_standalone : str
}.
Definition set_prefix (s : str) : prefixes :=
  let u := to_upper true s in
  let l := to_lower true s in
  mkpfx u l ($"$1" ++ u ++ $"_") ($"$1" ++ l ++ $"_") ($"$1" ++ l ++ $"$3").

(** A match found by std::regex_search: number of characters, first and third group.  (The second group is not used
    by any format string.) *)
Record rmatch := mkm { m_len : nat; m_g1 : str; m_g3 : str }.

(** one attempt of [((NOT_IDENT|^)[_]?)(kw)], gendlopen.cpp:146-152, at the start of [s]; [bol] tells whether [^]
    matches here.  Alternatives in the order an ECMAScript matcher tries them; [kw] does not begin with [_], so the
    greedy optional underscore needs no second try when an underscore is there *)
Definition opt_underscore (kw : str) (pre : str) (s : str) : option rmatch :=
  match s with
  | "_"%char :: s' =>
      if starts_with kw s' then Some (mkm (length pre + 1 + length kw) (pre ++ $"_") kw)
      else if starts_with kw s then Some (mkm (length pre + length kw) pre kw) else None
  | _ => if starts_with kw s then Some (mkm (length pre + length kw) pre kw) else None
  end.
Definition match_prefix (kw : str) (bol : bool) (s : str) : option rmatch :=
  match (match s with
         | c :: s' => if is_ident c then None else opt_underscore kw [c] s'
         | [] => None
         end) with
  | Some m => Some m
  | None => if bol then opt_underscore kw [] s else None
  end.

(** one attempt of [(NOT_IDENT|^)(gdo)(NOT_IDENT|$)], gendlopen.cpp:154-156 *)
Definition word_end (pre : str) (s : str) : option rmatch :=
  if starts_with $"gdo" s then
    match skipn 3 s with
    | [] => Some (mkm (length pre + 3) pre [])
    | c :: _ => if is_ident c then None else Some (mkm (length pre + 4) pre [c])
    end
  else None.
Definition match_standalone (bol : bool) (s : str) : option rmatch :=
  match (match s with
         | c :: s' => if is_ident c then None else word_end [c] s'
         | [] => None
         end) with
  | Some m => Some m
  | None => if bol then word_end [] s else None
  end.

(** match_results::format of libstdc++ for the format strings used here: [$n] or [$nn] is a group; a group number
    past the last one (3) gives nothing *)
Definition group (m : rmatch) (n : nat) : str := match n with 1 => m_g1 m | 3 => m_g3 m | _ => [] end.
Definition digit (c : ascii) : nat := nat_of_ascii c - 48.
Fixpoint expand (fmt : str) (m : rmatch) : str :=
  match fmt with
  | "$"%char :: ((d :: fmt1) as rest) =>
      if isdigit d then
        match fmt1 with
        | e :: fmt2 => if isdigit e then group m (10 * digit d + digit e) ++ expand fmt2 m
                       else group m (digit d) ++ expand fmt1 m
        | [] => group m (digit d)
        end
      else "$"%char :: expand rest m
  | c :: fmt' => c :: expand fmt' m
  | [] => []
  end.

(** std::regex_replace: all matches from left to right, each search starting where the last match ended and [^]
    matching at the very beginning only.  [skip] counts the characters of the current match still to be passed over. *)
Fixpoint regex_replace (try : bool -> str -> option rmatch) (fmt : str) (bol : bool) (skip : nat) (s : str) : str :=
  match s with
  | [] => []
  | c :: s' =>
      match skip with
      | S k => regex_replace try fmt false k s'
      | O => match try bol s with
             | Some m => expand fmt m ++ regex_replace try fmt false (m_len m - 1) s'
             | None => c :: regex_replace try fmt false 0 s'
             end
      end
  end.

(** gendlopen::replace_prefixes, gendlopen.cpp:144-164 *)
Definition replace_prefixes (p : prefixes) (s : str) : str :=
  let b1 := regex_replace (match_prefix $"GDO_") (m_fmt_upper p) true 0 s in
  let b2 := regex_replace (match_prefix $"gdo_") (m_fmt_lower p) true 0 b1 in
  regex_replace match_standalone (m_fmt_standalone p) true 0 b2.

(** the guard macro of header_guard_begin, generate.cpp:305 *)
Definition guard_name (header_name pfx_upper : str) : str := $"_" ++ pfx_upper ++ $"_" ++ to_upper true header_name ++ $"_".

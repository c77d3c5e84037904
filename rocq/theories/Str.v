(** Byte strings, character classes and the string helpers of the generator.
    Models: std::string operations used by /repo/src, and /repo/src/utils.{hpp,cpp}.
    Definitions only; facts are in StrFacts.v. *)
From Coq Require Import Ascii String List Bool Arith NArith ZArith.
Import ListNotations.

(** [std::string] / [char*] payloads: lists of 8-bit bytes. *)
Definition str := list ascii.
Definition lit (s : string) : str := list_ascii_of_string s.
Notation "$ s" := (lit s%string) (at level 5, s at level 0, only parsing).

(** Outcome of a modelled C++ computation.
    [Ok]   : normal return;
    [Err]  : a gendlopen::error exception (gendlopen.hpp:59-69) with its message;
    [UB]   : undefined behaviour (e.g. an iterator dereferenced outside its vector);
    [Fuel] : the model's fuel ran out (the C++ loop has not ended yet). *)
Inductive res (A : Type) : Type :=
| Ok   (a : A)
| Err  (msg : str)
| UB
| Fuel.
Arguments Ok {A} a.
Arguments Err {A} msg.
Arguments UB {A}.
Arguments Fuel {A}.

Definition bind {A B} (r : res A) (f : A -> res B) : res B :=
  match r with Ok a => f a | Err m => Err m | UB => UB | Fuel => Fuel end.
Notation "x <- r ;; k" := (bind r (fun x => k)) (at level 100, r at next level, right associativity).

Fixpoint mapR {A B} (f : A -> res B) (l : list A) : res (list B) :=
  match l with
  | [] => Ok []
  | a :: l' => b <- f a ;; bs <- mapR f l' ;; Ok (b :: bs)
  end.

(* ------------------------------------------------------------------ bytes *)

Definition code (c : ascii) : N := N_of_ascii c.
Definition between (lo hi : N) (c : ascii) : bool := (N.leb lo (code c) && N.leb (code c) hi)%bool.

Definition nul : ascii := "000".
Definition tab : ascii := "009".
Definition nl  : ascii := "010".
Definition cr  : ascii := "013".
Definition esc : ascii := "027".
Definition sp  : ascii := " ".
Definition dquote : ascii := "034".
Definition bslash : ascii := "\".

(** <ctype.h> in the "C" locale; bytes >= 128 are in no class (see DESIGN.md). *)
Definition isdigit (c : ascii) : bool := between 48 57 c.
Definition isupper (c : ascii) : bool := between 65 90 c.
Definition islower (c : ascii) : bool := between 97 122 c.
Definition isalpha (c : ascii) : bool := isupper c || islower c.
Definition isalnum (c : ascii) : bool := isalpha c || isdigit c.
(** space, \t \n \v \f \r *)
Definition isspace (c : ascii) : bool := between 9 13 c || Ascii.eqb c " ".
Definition isgraph (c : ascii) : bool := between 33 126 c.
Definition toupper (c : ascii) : ascii := if islower c then ascii_of_N (code c - 32) else c.
Definition tolower (c : ascii) : ascii := if isupper c then ascii_of_N (code c + 32) else c.

(** parse::is_ident, parse.hpp:54-56 *)
Definition is_ident (c : ascii) : bool := isalnum c || Ascii.eqb c "_".

(* ------------------------------------------------------- std::string model *)

Fixpoint str_eqb (a b : str) : bool :=
  match a, b with
  | [], [] => true
  | x :: a', y :: b' => Ascii.eqb x y && str_eqb a' b'
  | _, _ => false
  end.

(** s.starts_with(p) *)
Fixpoint starts_with (p s : str) : bool :=
  match p, s with
  | [], _ => true
  | x :: p', y :: s' => Ascii.eqb x y && starts_with p' s'
  | _ :: _, [] => false
  end.

(** s.ends_with(p) *)
Definition ends_with (p s : str) : bool := starts_with (rev p) (rev s).

(** s.find(n): index of the first occurrence, None for npos. *)
Fixpoint find (n s : str) : option nat :=
  if starts_with n s then Some 0
  else match s with
       | [] => None
       | _ :: s' => match find n s' with Some k => Some (S k) | None => None end
       end.

(** s.replace(pos, len, t) / s.erase(pos, len) / s.insert(pos, t), for pos <= size *)
Definition replace_at (pos len : nat) (t s : str) : str := firstn pos s ++ t ++ skipn (pos + len) s.
Definition erase_at (pos len : nat) (s : str) : str := replace_at pos len [] s.
Definition insert_at (pos : nat) (t s : str) : str := replace_at pos 0 t s.

(** the C string seen through c_str(): everything before the first NUL *)
Fixpoint c_str (s : str) : str :=
  match s with
  | [] => []
  | c :: s' => if Ascii.eqb c nul then [] else c :: c_str s'
  end.

(** std::to_string(unsigned) / operator<< of size_t: decimal digits *)
Fixpoint dec_digits (fuel : nat) (n : N) (acc : str) : str :=
  match fuel with
  | O => acc
  | S f => let acc' := ascii_of_N (48 + N.modulo n 10) :: acc in
           if N.eqb (N.div n 10) 0 then acc' else dec_digits f (N.div n 10) acc'
  end.
Definition to_string (n : N) : str := dec_digits (S (N.to_nat (N.size n))) n [].
Definition nat_to_string (n : nat) : str := to_string (N.of_nat n).

(* ------------------------------------------------------------ utils.{hpp,cpp} *)

(** utils::strcasecmp(a,b) == 0 on C strings (utils.hpp:46-53) *)
Definition strcaseeq (a b : str) : bool := str_eqb (map tolower (c_str a)) (map tolower (c_str b)).

(** utils::prefixed_and_longer_case, utils.hpp:80-84: size > N-1 and strncasecmp(str, pfx, N-1) == 0.
    The prefixes used contain no NUL, so comparing the first N-1 bytes is what strncasecmp does:
    a NUL inside the string differs from the prefix byte at that place. *)
Definition prefixed_and_longer_case (s pfx : str) : bool :=
  Nat.ltb (length pfx) (length s) && starts_with (map tolower pfx) (map tolower s).

(** utils::to_upper / to_lower, utils.cpp:72-113 *)
Definition to_upper (underscores : bool) (s : str) : str :=
  map (fun c => if underscores then (if isalnum c then toupper c else "_"%char) else toupper c) s.
Definition to_lower (underscores : bool) (s : str) : str :=
  map (fun c => if underscores then (if isalnum c then tolower c else "_"%char) else tolower c) s.

(** utils::is_prefixed, utils.cpp:116-128 *)
Definition is_prefixed (s : str) (l : list str) : bool :=
  match s, l with
  | [], _ => false
  | _, [] => false
  | _, _ => existsb (fun e => starts_with e s) l
  end.

Fixpoint drop_while {A} (f : A -> bool) (l : list A) : list A :=
  match l with
  | [] => []
  | a :: l' => if f a then drop_while f l' else l
  end.

(** utils::strip_spaces, utils.cpp:131-142: first from the back, then from the front *)
Definition strip_back (s : str) : str := rev (drop_while isspace (rev s)).
Definition strip_spaces (s : str) : str := drop_while isspace (strip_back s).

(** utils::replace, utils.cpp:145-153: [while (find(str, from, pos)) str.replace(pos, |from|, to)].
    utils::find searches from position 0 every time (utils.hpp:67-70), the [pos += to.size()] has no effect. *)
Fixpoint replace_fuel (fuel : nat) (from to s : str) : option str :=
  match find from s with
  | None => Some s
  | Some pos =>
      match fuel with
      | O => None
      | S f => replace_fuel f from to (replace_at pos (length from) to s)
      end
  end.
(** As called by the model: [S (length s)] iterations at most; StrFacts proves when this is enough
    and [Fuel] is returned otherwise. *)
Definition replace (from to s : str) : res str :=
  match replace_fuel (S (length s)) from to s with Some r => Ok r | None => Fuel end.

(** utils::count_linefeed, utils.cpp:156-167 *)
Definition count_linefeed (s : str) : nat := length (filter (Ascii.eqb nl) s).

(** utils::append_missing_separator (POSIX), utils.cpp:192-203 *)
Definition append_missing_separator (path : str) : str :=
  match path with
  | [] => []
  | _ => if ends_with $"/" path then path else path ++ $"/"
  end.

(** utils::str_front / str_at, utils.hpp:145-151: NUL when out of range *)
Definition str_front (s : str) : ascii := match s with [] => nul | c :: _ => c end.
Definition str_at (s : str) (pos : nat) : ascii := nth pos s nul.

(** utils::front_and_back, utils.hpp:155-158 *)
Definition front_and_back (s p q : str) : bool := starts_with p s && ends_with q s.

(** utils::delete_suffix, utils.hpp:163-173 (string and char overloads) *)
Definition delete_suffix (s suf : str) : str :=
  if ends_with suf s then firstn (length s - length suf) s else s.

(** utils::get_filter_mode, utils.hpp:177-189; filter::mode, types.hpp:98-106 *)
Inductive filter_mode := FNone | FPrefix | FList | FPfxList.
Definition get_filter_mode (pfx sym : list str) : filter_mode :=
  match pfx, sym with
  | _ :: _, _ :: _ => FPfxList
  | _ :: _, [] => FPrefix
  | [], _ :: _ => FList
  | [], [] => FNone
  end.
Definition mode_prefix (m : filter_mode) : bool := match m with FPrefix | FPfxList => true | _ => false end.
Definition mode_list (m : filter_mode) : bool := match m with FList | FPfxList => true | _ => false end.

(** operator< of std::string: lexicographic on unsigned bytes *)
Fixpoint str_ltb (a b : str) : bool :=
  match a, b with
  | _, [] => false
  | [], _ :: _ => true
  | x :: a', y :: b' => N.ltb (code x) (code y) || (N.eqb (code x) (code y) && str_ltb a' b')
  end.

(** utils::sort_dedup, utils.hpp:193-201: std::sort + std::unique.
    std::sort's result for a strict weak order on a total order is the sorted list; modelled as
    insertion sort, then adjacent duplicates removed. *)
Fixpoint insert_sorted (x : str) (l : list str) : list str :=
  match l with
  | [] => [x]
  | y :: l' => if str_ltb y x then y :: insert_sorted x l' else x :: l
  end.
Definition sort_strs (l : list str) : list str := fold_right insert_sorted [] l.
Fixpoint unique_strs (l : list str) : list str :=
  match l with
  | [] => []
  | x :: l' => match unique_strs l' with
               | y :: r => if str_eqb x y then y :: r else x :: y :: r
               | [] => [x]
               end
  end.
Definition sort_dedup (l : list str) : list str := unique_strs (sort_strs l).

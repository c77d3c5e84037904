(** Specification for C78: the memory mappings of a process and how the Linux kernel prints them in /proc/PID/maps
    (proc_pid_maps(5), fs/proc/task_mmu.c).  Uses only the basic text functions. *)
From Coq Require Import Ascii String List Bool Arith NArith.
From Verif Require Import Str.
Import ListNotations.

Record mapping := mkmap {
  m_first : N; m_end : N;          (* addresses, the end is excluded *)
  m_mode : str;                    (* such as r-xp *)
  m_offset : N; m_major : N; m_minor : N; m_inode : N;
  m_padding : nat;                 (* blanks before the name, at least one is printed *)
  m_name : str                     (* the file, or empty *)
}.

(** hexadecimal digits in lower case, as printf %x *)
Definition hex_digit (v : N) : ascii := if N.ltb v 10 then ascii_of_N (48 + v) else ascii_of_N (87 + v).
Fixpoint hex_fuel (fuel : nat) (n : N) (acc : str) : str :=
  match fuel with
  | O => acc
  | S f => let acc := hex_digit (n mod 16) :: acc in if N.eqb (n / 16) 0 then acc else hex_fuel f (n / 16)%N acc
  end.
Definition hex (n : N) : str := hex_fuel (S (N.to_nat (N.size n))) n [].
(** with leading zeros up to a width, as %08x *)
Definition hex_wide (width : nat) (n : N) : str := repeat "0"%char (width - length (hex n)) ++ hex n.
(** newlines in names are printed as backslash 012 *)
Definition printed_name (s : str) : str := flat_map (fun c => if Ascii.eqb c nl then $"\012" else [c]) s.

Definition printed (m : mapping) : str :=
  hex_wide 8 (m_first m) ++ $"-" ++ hex_wide 8 (m_end m) ++ $" " ++ m_mode m ++ $" " ++ hex_wide 8 (m_offset m) ++ $" " ++
  hex_wide 2 (m_major m) ++ $":" ++ hex_wide 2 (m_minor m) ++ $" " ++ to_string (m_inode m) ++ $" " ++
  (match m_name m with [] => [] | n => repeat sp (m_padding m) ++ printed_name n end) ++ [nl].
Definition printed_map (ms : list mapping) : str := concat (map printed ms).

Definition covers (addr : N) (m : mapping) : bool := N.leb (m_first m) addr && N.ltb addr (m_end m).
(** what holds of every mapping of a process on a 64 bit system: names do not begin with white space *)
Definition sound_mapping (m : mapping) : Prop :=
  (m_first m < m_end m <= 18446744073709551615)%N /\
  length (m_mode m) = 4 /\ forallb (fun c => existsb (Ascii.eqb c) $"rwxsp-") (m_mode m) = true /\
  ~ In nul (m_name m) /\ match m_name m with c :: _ => isspace c = false | [] => True end.
(** mappings do not overlap *)
Definition apart (ms : list mapping) : Prop :=
  forall i j a b addr, nth_error ms i = Some a -> nth_error ms j = Some b -> covers addr a = true -> covers addr b = true -> i = j.
(** the offset and the device have no digits above nine when printed *)
Definition decimal_fields (m : mapping) : bool :=
  forallb isdigit (hex_wide 8 (m_offset m)) && forallb isdigit (hex_wide 2 (m_major m)) && forallb isdigit (hex_wide 2 (m_minor m)).
(** the mapping of an address *)
Definition mapping_at (addr : N) (ms : list mapping) : option mapping := List.find (covers addr) ms.
(** what the PROCMAP_QUERY ioctl stores in a buffer of [n] bytes: the unchanged name of the mapped file *)
Definition kernel_answer (addr : N) (ms : list mapping) (n : nat) : option str :=
  match mapping_at addr ms with
  | Some m => match m_name m with
              | c :: _ => if Ascii.eqb c "/" && Nat.ltb (length (m_name m)) n then Some (m_name m) else None
              | [] => None
              end
  | None => None
  end.

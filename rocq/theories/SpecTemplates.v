(** Specification vocabulary for the templates that are part of the program: how their lines are read, renamed and filled. *)
From Coq Require Import Ascii String List Bool Arith.
From Verif Require Import Str Parse ParamNames Prefix Substitute SpecPrefix SpecSubstitute Options.
Import ListNotations.

Definition all_holes : list hole := [HReturn; HType; HFunc; HFuncPad; HArgs; HNames; HObjType; HObj; HObjPad; HSymType; HSym].

(** a line as texts and placeholders; [skip]: characters of a placeholder still to be passed over *)
Fixpoint parts (skip : nat) (s : str) : list part :=
  match s with
  | [] => []
  | c :: r =>
      match skip with
      | S k => parts k r
      | O => match List.find (fun h => starts_with (hole_text h) s) all_holes with
             | Some h => Hole h :: parts (length (hole_text h) - 1) r
             | None => match parts 0 r with Lit t :: q => Lit (c :: t) :: q | q => Lit [c] :: q end
             end
      end
  end.

(** a text cut into words *)
Fixpoint words (s : str) : cut :=
  match s with
  | [] => ([], [])
  | c :: s' => let '(w, r) := words s' in if is_ident c then (c :: w, r) else ([], (c, w) :: r)
  end.
(** the text with its [gdo] words renamed *)
Definition rename (upper lower s : str) : str := cut_text (map_words (renamed_word upper lower) (words s)).
Definition rename_part (upper lower : str) (p : part) : part := match p with Lit s => Lit (rename upper lower s) | Hole h => Hole h end.

(** the prefixes a user can set: the default, or any name not starting with a digit *)
Definition usable_prefix (p : prefixes) : Prop :=
  p = o_pfxs defaults \/ exists s, s <> [] /\ match s with c :: _ => isdigit c = false | [] => True end /\ p = set_prefix s.

(** the length of the longest name *)
Definition longest (names : list str) : nat := fold_right (fun s n => Nat.max (length s) n) 0 names.

(** what a line of a template becomes: itself, or a copy per symbol of the class of its (first) placeholder *)
Definition expansion (c : config) (data : str) : list str :=
  let u := m_pfx_upper (c_pfx c) in
  let l := m_pfx_lower (c_pfx c) in
  match holes (parts 0 data) with
  | [] => [rename u l data]
  | h :: _ => copies c (longest (class_names c (hole_class h))) (hole_class h) (map (rename_part u l) (parts 0 data))
  end.

(** the lines shown for the parameter mode: text between markers *)
Definition marker_of (s : str) : option marker := List.find (fun m => str_eqb s (marker_text m)) [RemoveBegin; UseBegin; SectionEnd].
Fixpoint shown_lines (p : param_mode) (shown : bool) (l : list str) : list str :=
  match l with
  | [] => []
  | s :: r => match marker_of s with
              | Some m => shown_lines p (opens m p) r
              | None => (if shown then [s] else []) ++ shown_lines p shown r
              end
  end.

(** a shipped template: its line directive, its lines *)
Definition first_line (l : list entry) : list str := map e_data (firstn 1 l).
Definition inner_lines (l : list entry) : list str := map e_data (removelast (tl l)).
Definition lines_shown (c : config) (l : list entry) : list str :=
  (if c_line c then first_line l else []) ++ shown_lines (c_param c) true (inner_lines l).
(** the text a list of templates is filled in to *)
Definition filled_texts (c : config) (ls : list (list entry)) : list str :=
  map (fun t => t ++ [nl]) (flat_map (expansion c) (flat_map (lines_shown c) ls)).
(** the texts that are copied: the license as it is, the macros for file names with their [gdo] words renamed *)
Definition license_text (l : list entry) : str := concat (map (fun s => s ++ [nl]) (first_line l)).
Definition macros_text (c : config) (l : list entry) : str :=
  concat (map (fun s => rename (m_pfx_upper (c_pfx c)) (m_pfx_lower (c_pfx c)) s ++ [nl])
    ((if c_line c then first_line l else []) ++ inner_lines l)).

(** texts made of the characters of declarations: letters, digits, underscores, blanks and [* , ( ) [ ] .] *)
Definition declaration_char (c : ascii) : bool := is_ident c || existsb (Ascii.eqb c) ["*"; ","; "("; ")"; "["; "]"; "."; " "]%char.
Definition declaration_text (s : str) : Prop := Forall (fun c => declaration_char c = true) s.
Definition plain_proto (e : proto) : Prop :=
  declaration_text (p_type e) /\ declaration_text (p_args e) /\ declaration_text (p_param_names e) /\ ident_text (p_symbol e) /\ p_symbol e <> [].

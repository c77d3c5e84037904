(** Specification vocabulary for templates. *)
From Coq Require Import Ascii String List Bool Arith.
From Verif Require Import Str Parse ParamNames Substitute SpecFormat.
Import ListNotations.

(** the placeholders *)
Inductive hole :=
| HReturn | HType | HFunc | HFuncPad | HArgs | HNames      (* functions *)
| HObjType | HObj | HObjPad                                (* objects *)
| HSymType | HSym.                                         (* all symbols *)
Definition hole_name (h : hole) : str :=
  match h with
  | HReturn => $"return" | HType => $"type" | HFunc => $"func_symbol" | HFuncPad => $"func_symbol_pad"
  | HArgs => $"args" | HNames => $"param_names"
  | HObjType => $"obj_type" | HObj => $"obj_symbol" | HObjPad => $"obj_symbol_pad"
  | HSymType => $"sym_type" | HSym => $"symbol"
  end.
Definition hole_text (h : hole) : str := $"%%" ++ hole_name h ++ $"%%".
Inductive class := CFunction | CObject | CSymbol.
Definition hole_class (h : hole) : class :=
  match h with
  | HReturn | HType | HFunc | HFuncPad | HArgs | HNames => CFunction
  | HObjType | HObj | HObjPad => CObject
  | HSymType | HSym => CSymbol
  end.

(** a template line: texts and placeholders *)
Inductive part := Lit (s : str) | Hole (h : hole).
Definition part_text (p : part) : str := match p with Lit s => s | Hole h => hole_text h end.
Definition line_text (l : list part) : str := concat (map part_text l).
Definition holes (l : list part) : list hole := flat_map (fun p => match p with Hole h => [h] | Lit _ => [] end) l.

(** no [%] outside placeholders, and between two placeholders something that is not a letter, digit or underscore
    ([tight]: we are behind a placeholder and no such character came yet) *)
Fixpoint line_ok (tight : bool) (l : list part) : Prop :=
  match l with
  | [] => True
  | Lit s :: r => ~ In "%"%char s /\ line_ok (tight && forallb is_ident s) r
  | Hole _ :: r => tight = false /\ line_ok true r
  end.

(** writing a value per placeholder; [eats h]: a blank directly behind [h] is left out *)
Fixpoint fill (value : hole -> str) (eats : hole -> bool) (eating : bool) (l : list part) : str :=
  match l with
  | [] => []
  | Lit [] :: r => fill value eats eating r
  | Lit (c :: s) :: r => (if eating && Ascii.eqb c sp then s else c :: s) ++ fill value eats false r
  | Hole h :: r => value h ++ fill value eats (eats h) r
  end.

(** [width]: the length of the longest of the names *)
Definition width (names : list str) (n : nat) : Prop :=
  (forall s, In s names -> length s <= n) /\ (names <> [] -> exists s, In s names /\ length s = n).
Definition blanks (n : nat) : str := repeat sp n.

(** a type that ends in an asterisk *)
Definition pointer_type (e : proto) : bool := ends_with $"*" (p_type e).
Definition void_type (e : proto) : bool := strcaseeq (p_type e) $"void".

(** what a placeholder stands for, for a function or an object [e] and column width [n] *)
Definition value_of (n : nat) (e : proto) (h : hole) : str :=
  match h with
  | HReturn => if void_type e then [] else $"return"
  | HType | HObjType => p_type e
  | HFunc | HObj | HSym => p_symbol e
  | HFuncPad | HObjPad => p_symbol e ++ blanks (n - length (p_symbol e))
  | HArgs => p_args e
  | HNames => p_param_names e
  | HSymType => []
  end.
(** the pointer type of a symbol *)
Definition pointer_to (is_function : bool) (e : proto) : str :=
  p_type e ++ (if pointer_type e then [] else $" ") ++ (if is_function then $"(*)(" ++ p_args e ++ $")" else $"*").
Definition symbol_value (is_function : bool) (e : proto) (h : hole) : str :=
  match h with HSymType => pointer_to is_function e | _ => value_of 0 e h end.
(** the blank behind a pointer type, and behind the missing [return], is left out *)
Definition eats_of (e : proto) (h : hole) : bool :=
  match h with
  | HReturn => void_type e
  | HType | HObjType => pointer_type e
  | _ => false
  end.
Definition fill_entry (n : nat) (l : list part) (e : proto) : str := fill (value_of n e) (eats_of e) false l.
Definition fill_symbol_of (is_function : bool) (l : list part) (e : proto) : str :=
  fill (symbol_value is_function e) (fun _ => false) false l.

(** data of a symbol without percent signs, and with a name *)
Definition clean_proto (e : proto) : Prop :=
  ~ In "%"%char (p_type e) /\ ~ In "%"%char (p_symbol e) /\ ~ In "%"%char (p_args e) /\ ~ In "%"%char (p_param_names e) /\
  p_symbol e <> [].

(** the copies of a line of one class *)
Definition copies (c : config) (n : nat) (k : class) (l : list part) : list str :=
  match k with
  | CFunction => map (fill_entry n l) (c_funcs c)
  | CObject => map (fill_entry n l) (c_objs c)
  | CSymbol => map (fill_symbol_of true l) (c_funcs c) ++ map (fill_symbol_of false l) (c_objs c)
  end.
Definition class_names (c : config) (k : class) : list str :=
  match k with
  | CFunction => map p_symbol (c_funcs c)
  | CObject => map p_symbol (c_objs c)
  | CSymbol => map p_symbol (c_funcs c ++ c_objs c)
  end.

(** the text of a template line once the prefixes are renamed *)
Definition line_data (c : config) (e : entry) : str :=
  if str_eqb (Prefix.m_pfx_upper (c_pfx c)) $"GDO" then e_data e else Prefix.replace_prefixes (c_pfx c) (e_data e).

(** section markers *)
Inductive marker := RemoveBegin | UseBegin | SectionEnd.
Definition marker_text (m : marker) : str :=
  match m with
  | RemoveBegin => $"%PARAM_SKIP_REMOVE_BEGIN%"
  | UseBegin => $"%PARAM_SKIP_USE_BEGIN%"
  | SectionEnd => $"%PARAM_SKIP_END%"
  end.
Definition is_marker (s : str) : Prop := exists m, c_str s = marker_text m.

(** what a template line is expanded to: itself if there is no placeholder, else one text per symbol of its class *)
Inductive expands (c : config) (e : entry) : list str -> Prop :=
| ExpandsPlain : ~ is_marker (e_data e) -> (forall h, ~ occurs (hole_text h) (line_data c e)) ->
    expands c e [line_data c e]
| ExpandsCopies l k n : ~ is_marker (e_data e) -> e_kw e = true -> line_data c e = line_text l -> line_ok false l ->
    holes l <> [] -> (forall h, In h (holes l) -> hole_class h = k) -> width (class_names c k) n ->
    expands c e (copies c n k l).

(** a template: lines and markers *)
Inductive item := Line (e : entry) | Mark (m : marker).
Definition item_entry (i : item) : entry :=
  match i with Line e => e | Mark m => mkentry (marker_text m) true 1 end.
(** is the section behind a marker part of the output? *)
Definition opens (m : marker) (p : param_mode) : bool :=
  match m, p with
  | RemoveBegin, PSkip => false
  | RemoveBegin, _ => true
  | UseBegin, PSkip => true
  | UseBegin, _ => false
  | SectionEnd, _ => true
  end.
(** the lines that are part of the output, with their numbers in the template, the first line having number [at_line] *)
Fixpoint visible (p : param_mode) (shown : bool) (at_line : nat) (l : list item) : list (nat * entry) :=
  match l with
  | [] => []
  | Line e :: r => (if shown then [(at_line, e)] else []) ++ visible p shown (at_line + e_count e) r
  | Mark m :: r => visible p (opens m p) (at_line + 1) r
  end.

(** the end of a template list *)
Definition terminator : entry := mkentry [] false 0.

(** the texts of an output, without line directives *)
Definition texts (ws : list write) : list str := flat_map (fun w => match w with WText s => [s] | WLine _ => [] end) ws.

(** the texts of an output with the line numbers a compiler gives their first lines, the next line having number [n] *)
Fixpoint numbered (n : nat) (ws : list write) : list (nat * str) :=
  match ws with
  | [] => []
  | WLine m :: r => numbered m r
  | WText s :: r => (n, s) :: numbered (n + count_linefeed s) r
  end.

(** an entry counts its own lines, also after renaming *)
Definition counted (c : config) (e : entry) : Prop := e_count e = 1 + count_linefeed (line_data c e).
(** data without line feeds *)
Definition one_line_proto (e : proto) : Prop :=
  ~ In nl (p_type e) /\ ~ In nl (p_symbol e) /\ ~ In nl (p_args e) /\ ~ In nl (p_param_names e).

Definition line_items_ok (l : list item) : Prop :=
  Forall (fun i => match i with Line e => ~ is_marker (e_data e) /\ e_count e <> 0 | Mark _ => True end) l.

(** expected texts with line numbers *)
Definition expected (vis : list (nat * entry)) (tss : list (list str)) : list (nat * str) :=
  flat_map (fun p => map (fun t => (fst (fst p), t ++ [nl])) (snd p)) (combine vis tss).


(** is the section open at the end of a template? *)
Fixpoint shown_after (p : param_mode) (shown : bool) (l : list item) : bool :=
  match l with
  | [] => shown
  | Line _ :: r => shown_after p shown r
  | Mark m :: r => shown_after p (opens m p) r
  end.
(** several templates in a row, each with a line directive in front that is part of the output with [-line] only *)
Definition template := (entry * list item)%type.
Definition template_entries (t : template) : list entry := fst t :: map item_entry (snd t) ++ [terminator].
Definition template_ok (t : template) : Prop :=
  (~ is_marker (e_data (fst t)) /\ e_count (fst t) <> 0 /\ starts_with $"#line" (c_str (e_data (fst t))) = true) /\ line_items_ok (snd t).
Fixpoint visible_all (c : config) (shown : bool) (l : list template) : list entry :=
  match l with
  | [] => []
  | (d, items) :: r =>
      let its := if c_line c then Line d :: items else items in
      map snd (visible (c_param c) shown 0 its) ++ visible_all c (shown_after (c_param c) shown its) r
  end.

(** padded columns *)
Definition pad_text (k : class) : str := match k with CObject => $"%%obj_symbol_pad%%" | _ => $"%%func_symbol_pad%%" end.
Definition class_protos (c : config) (k : class) : list proto :=
  match k with CFunction => c_funcs c | CObject => c_objs c | CSymbol => c_funcs c ++ c_objs c end.

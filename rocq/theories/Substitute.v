(** Filling in templates: /repo/src/substitute.cpp.  Definitions only. *)
From Coq Require Import Ascii String List Bool Arith.
From Verif Require Import Str Parse ParamNames Prefix.
Import ListNotations.

(** template_t, types.hpp:62-66 *)
Record entry := mkentry { e_data : str; e_kw : bool; e_count : nat }.

(** the members of gendlopen that substitute.cpp reads: m_line_directive, m_parameter_names, the prefixes,
    m_prototypes, m_objects *)
Record config := mkcfg {
  c_line : bool; c_param : param_mode; c_pfx : prefixes; c_funcs : list proto; c_objs : list proto
}.

(** one output statement: a line directive or a text *)
Inductive write := WLine (n : nat) | WText (s : str).
Definition write_text (w : write) : str :=
  match w with
  | WLine n => $"#line " ++ nat_to_string n ++ [nl]
  | WText s => s
  end.
Definition output (ws : list write) : str := concat (map write_text ws).

(** check_skip_keyword, substitute.cpp:51-77: the new value of param_skip_code, or None for "return false" *)
Definition check_skip_keyword (data : str) (m : param_mode) : option bool :=
  let p := c_str data in
  if str_eqb p $"%PARAM_SKIP_REMOVE_BEGIN%" then Some (match m with PSkip => true | _ => false end)
  else if str_eqb p $"%PARAM_SKIP_USE_BEGIN%" then Some (match m with PSkip => false | _ => true end)
  else if str_eqb p $"%PARAM_SKIP_END%" then Some false
  else None.

(** get_longest_symbol_size, substitute.cpp:80-89 *)
Definition longest_symbol (v : list proto) : nat := fold_right (fun p n => Nat.max (length (p_symbol p)) n) 0 v.

(** symbol name with padding, substitute.cpp:131-136, 175-180 *)
Definition padded (longest : nat) (s : str) : str := s ++ repeat sp (longest - length s).

Definition has (k s : str) : bool := match find k s with Some _ => true | None => false end.

(** the directive before and the text of one copy, substitute.cpp:138-145, 182-189, 206-212: [lineno] is
    m_substitute_lineno; and the lines counted for it *)
Definition print_copy (c : config) (lineno : nat) (copy : str) : list write :=
  (if c_line c then [WLine lineno] else []) ++ [WText (copy ++ [nl])].
Definition copy_lines (c : config) (entry_lines : nat) : nat := (if c_line c then 1 else 0) + (entry_lines + 1).

(** body of the loop of replace_function_prototypes, substitute.cpp:111-136; erase_string (97-105) is the same loop as
    utils::replace with an empty replacement *)
Definition fill_function (longest : nat) (entry : str) (e : proto) : res str :=
  c1 <- (if strcaseeq (p_type e) $"void"
         then (a <- replace $"%%return%% " [] entry ;; replace $"%%return%%" [] a)
         else replace $"%%return%%" $"return" entry) ;;
  c2 <- (if ends_with $"*" (p_type e) then replace $"%%type%% " (p_type e) c1 else Ok c1) ;;
  c3 <- replace $"%%type%%" (p_type e) c2 ;;
  c4 <- replace $"%%func_symbol%%" (p_symbol e) c3 ;;
  c5 <- replace $"%%args%%" (p_args e) c4 ;;
  c6 <- replace $"%%param_names%%" (p_param_names e) c5 ;;
  if Nat.ltb 0 longest then replace $"%%func_symbol_pad%%" (padded longest (p_symbol e)) c6 else Ok c6.

(** body of the loop of replace_object_prototypes, substitute.cpp:167-180 *)
Definition fill_object (longest : nat) (entry : str) (e : proto) : res str :=
  c1 <- (if ends_with $"*" (p_type e) then replace $"%%obj_type%% " (p_type e) entry else Ok entry) ;;
  c2 <- replace $"%%obj_type%%" (p_type e) c1 ;;
  c3 <- replace $"%%obj_symbol%%" (p_symbol e) c2 ;;
  if Nat.ltb 0 longest then replace $"%%obj_symbol_pad%%" (padded longest (p_symbol e)) c3 else Ok c3.

(** %%sym_type%%, substitute.cpp:217-238 *)
Definition sym_type_function (e : proto) : str :=
  if ends_with $"*" (p_type e) then p_type e ++ $"(*)(" ++ p_args e ++ $")"
  else p_type e ++ $" (*)(" ++ p_args e ++ $")".
Definition sym_type_object (e : proto) : str :=
  if ends_with $"*" (p_type e) then p_type e ++ $"*" else p_type e ++ $" *".
(** replace_and_print, substitute.cpp:202-213 *)
Definition fill_symbol (entry : str) (type symbol : str) : res str :=
  c1 <- replace $"%%sym_type%%" type entry ;; replace $"%%symbol%%" symbol c1.

(** the three loops: writes and line count; substitute.cpp:95-242 *)
Definition print_all (c : config) (lineno : nat) (entry : str) (copies : res (list str)) : res (list write * nat) :=
  cs <- copies ;;
  Ok (flat_map (print_copy c lineno) cs, length cs * copy_lines c (count_linefeed entry)).
Definition replace_function_prototypes (c : config) (lineno : nat) (entry : str) : res (list write * nat) :=
  let longest := if has $"%%func_symbol_pad%%" entry then longest_symbol (c_funcs c) else 0 in
  print_all c lineno entry (mapR (fill_function longest entry) (c_funcs c)).
Definition replace_object_prototypes (c : config) (lineno : nat) (entry : str) : res (list write * nat) :=
  let longest := if has $"%%obj_symbol_pad%%" entry then longest_symbol (c_objs c) else 0 in
  print_all c lineno entry (mapR (fill_object longest entry) (c_objs c)).
Definition replace_symbol_names (c : config) (lineno : nat) (entry : str) : res (list write * nat) :=
  print_all c lineno entry
    (fs <- mapR (fun e => fill_symbol entry (sym_type_function e) (p_symbol e)) (c_funcs c) ;;
     os <- mapR (fun e => fill_symbol entry (sym_type_object e) (p_symbol e)) (c_objs c) ;;
     Ok (fs ++ os)).

(** keyword lists, substitute.cpp:247-268 *)
Definition function_keywords : list str :=
  [$"%%return%%"; $"%%type%%"; $"%%func_symbol%%"; $"%%func_symbol_pad%%"; $"%%args%%"; $"%%param_names%%"].
Definition object_keywords : list str := [$"%%obj_type%%"; $"%%obj_symbol%%"; $"%%obj_symbol_pad%%"].
Definition symbol_keywords : list str := [$"%%sym_type%%"; $"%%symbol%%"].
Definition find_keyword (l : list str) (buf : str) : bool := existsb (fun k => has k buf) l.

(** substitute_line, substitute.cpp:245-364: the writes, the returned line count and the new param_skip_code *)
Definition substitute_line (c : config) (lineno : nat) (skip : bool) (line : entry) : res (list write * nat * bool) :=
  match e_data line with
  | [] => if skip then Ok ([], 0, skip) else Ok ([WText [nl]], 1, skip)
  | _ :: _ =>
      match (if e_kw line then check_skip_keyword (e_data line) (c_param c) else None) with
      | Some skip' =>
          if negb skip' && c_line c then Ok ([WLine (lineno + 1)], 1, skip') else Ok ([], 0, skip')
      | None =>
          if skip then Ok ([], 0, skip) else
          let buf := if str_eqb (m_pfx_upper (c_pfx c)) $"GDO" then e_data line else replace_prefixes (c_pfx c) (e_data line) in
          let entry_lines := count_linefeed buf in
          let plain := Ok ([WText (buf ++ [nl])], entry_lines + 1, skip) in
          let print_lineno := Ok ((if c_line c then [WLine (lineno + entry_lines)] else []), entry_lines, skip) in
          let with_skip (r : res (list write * nat)) := wn <- r ;; Ok (fst wn, snd wn, skip) in
          if e_kw line && has $"%%" buf then
            match find_keyword function_keywords buf, find_keyword object_keywords buf, find_keyword symbol_keywords buf with
            | false, false, false => plain
            | true, false, false =>
                match c_funcs c with [] => print_lineno | _ => with_skip (replace_function_prototypes c lineno buf) end
            | false, true, false =>
                match c_objs c with [] => print_lineno | _ => with_skip (replace_object_prototypes c lineno buf) end
            | false, false, true => with_skip (replace_symbol_names c lineno buf)
            | _, _, _ => Err ($"cannot mix function, object and regular symbol placeholders:" ++ [nl] ++ e_data line)
            end
          else plain
      end
  end.

(** inner loop of substitute, substitute.cpp:388-391: up to the entry with line count 0; a list without such an entry would
    be read past its end *)
Fixpoint substitute_entries (c : config) (lineno : nat) (skip : bool) (l : list entry) : res (list write * nat * bool) :=
  match l with
  | [] => UB
  | e :: l' =>
      if Nat.eqb (e_count e) 0 then Ok ([], 0, skip) else
      r <- substitute_line c lineno skip e ;;
      let '(w, n, skip1) := r in
      r' <- substitute_entries c (lineno + e_count e) skip1 l' ;;
      let '(w', n', skip2) := r' in
      Ok (w ++ w', n + n', skip2)
  end.

(** substitute.cpp:379-386: skip an initial line directive *)
Definition template_start (c : config) (l : list entry) : list entry :=
  match l with
  | e :: l' => if negb (c_line c) && starts_with $"#line" (c_str (e_data e)) then l' else l
  | [] => []
  end.
Fixpoint substitute_templates (c : config) (skip : bool) (vec : list (list entry)) : res (list write * nat) :=
  match vec with
  | [] => Ok ([], 0)
  | l :: vec' =>
      r <- substitute_entries c 0 skip (template_start c l) ;;
      let '(w, n, skip1) := r in
      r' <- substitute_templates c skip1 vec' ;;
      Ok (w ++ fst r', n + snd r')
  end.

(** gendlopen::substitute, substitute.cpp:367-396 *)
Definition substitute (c : config) (vec : list (list entry)) : res (list write * nat) :=
  match vec with
  | [] => Ok ([], 0)
  | _ => match c_funcs c, c_objs c with
         | [], [] => Err $"no function or object prototypes"
         | _, _ => substitute_templates c false vec
         end
  end.

(** the loop of gendlopen::process_custom_template, gendlopen.cpp:206-212, over the entries get_lines returns; the
    initial directive and m_substitute_lineno (0 from the constructor, or 1), gendlopen.cpp:194-204 *)
Fixpoint custom_entries (c : config) (lineno : nat) (skip : bool) (l : list entry) : res (list write) :=
  match l with
  | [] => Ok []
  | e :: l' =>
      r <- substitute_line c lineno skip e ;;
      let '(w, _, skip1) := r in
      w' <- custom_entries c (lineno + e_count e) skip1 l' ;;
      Ok (w ++ w')
  end.
Definition process_custom_template (c : config) (name : str) (l : list entry) : res (list write) :=
  if c_line c then
    w <- custom_entries c 1 false l ;;
    Ok (WText ($"#line 1 " ++ [dquote] ++ name ++ [dquote] ++ [nl]) :: w)
  else custom_entries c 0 false l.

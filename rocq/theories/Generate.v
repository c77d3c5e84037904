(** Generating the output: /repo/src/generate.cpp, the file handling of gendlopen.cpp, data.cpp and cio_ofstream.hpp.
    Definitions only. *)
From Coq Require Import Ascii String List Bool Arith.
From Verif Require Import Str Parse ParamNames Prefix Substitute Data Options.
Import ListNotations.

(* ------------------------------------------------------------ common prefix *)

(** compare_chars_at, generate.cpp:62-77, for the entries other than *it0.  When it0 belongs to the other vector, [it != it0]
    compares iterators of two vectors; they are addresses of different objects and so never equal (the C++ standard does
    not define this comparison) *)
Fixpoint compare_chars_at (front : str) (pos : nat) (others : list str) : res bool :=
  match others with
  | [] => Ok false
  | s :: others' =>
      c <- char_at s pos ;;
      f <- char_at front pos ;;
      if Ascii.eqb c nul || negb (Ascii.eqb c f) then Ok true else compare_chars_at front pos others'
  end.
(** the loop of get_common_prefix, generate.cpp:97-103; [n] = size - i *)
Fixpoint prefix_loop (front : str) (v1 v2 : list str) (i n : nat) : res nat :=
  match n with
  | O => Ok i
  | S n =>
      b1 <- compare_chars_at front i v1 ;;
      b2 <- (if b1 then Ok true else compare_chars_at front i v2) ;;
      if b2 then Ok i else prefix_loop front v1 v2 (i + 1) n
  end.
(** get_common_prefix, generate.cpp:86-106 *)
Definition get_common_prefix (v_prot v_obj : list str) : res str :=
  if Nat.ltb (length v_prot + length v_obj) 2 then Ok []
  else match v_prot, v_obj with
       | [], [] => UB
       | [], f :: v => i <- prefix_loop f [] v 0 (length f) ;; Ok (firstn i f)
       | f :: v, _ => i <- prefix_loop f v v_obj 0 (length f) ;; Ok (firstn i f)
       end.

(* ------------------------------------------------------------ library name *)

(** quote_lib, generate.cpp:118-138 *)
Definition quote_lib (lib : str) (wide : bool) : str :=
  if wide then
    if Nat.leb 3 (length lib) && front_and_back lib ($"L" ++ [dquote]) [dquote] then lib
    else if Nat.leb 2 (length lib) && front_and_back lib [dquote] [dquote] then $"L" ++ lib
    else $"L" ++ [dquote] ++ lib ++ [dquote]
  else if Nat.leb 2 (length lib) && front_and_back lib [dquote] [dquote] then lib
  else [dquote] ++ lib ++ [dquote].

(** regex_match in generate.cpp:179-184: two groups separated by a colon, the first as short as possible; a dot matches
    anything but line terminators *)
Definition line_end (c : ascii) : bool := Ascii.eqb c nl || Ascii.eqb c cr.
Definition match_api (s : str) : option (str * str) :=
  if existsb line_end s then None
  else match find $":" s with
       | Some k => Some (firstn k s, skipn (k + 1) s)
       | None => None
       end.

(** the switch of format_libname, generate.cpp:154-197: lib_a and lib_w, None for [return {}] *)
Definition libname (s pfx : str) : res (option (str * str)) :=
  match s with
  | [] => UB
  | c :: _ =>
      if Ascii.eqb c "N" || Ascii.eqb c "n" then
        if prefixed_and_longer_case s $"nq:" then Ok (Some (skipn 3 s, skipn 3 s)) else Ok None
      else if Ascii.eqb c "E" || Ascii.eqb c "e" then
        if prefixed_and_longer_case s $"ext:" then
          Ok (Some (quote_lib (skipn 4 s) false ++ $" " ++ pfx ++ $"_LIBEXTA",
                    quote_lib (skipn 4 s) true ++ $" " ++ pfx ++ $"_LIBEXTW"))
        else Ok None
      else if Ascii.eqb c "A" || Ascii.eqb c "a" then
        if prefixed_and_longer_case s $"api:" then
          match match_api (skipn 4 s) with
          | Some (m1, m2) => Ok (Some (pfx ++ $"_LIBNAMEA(" ++ m2 ++ $"," ++ m1 ++ $")",
                                       pfx ++ $"_LIBNAMEW(" ++ m2 ++ $"," ++ m1 ++ $")"))
          | None => Ok None
          end
        else Ok None
      else Ok (Some (quote_lib s false, quote_lib s true))
  end.
(** format_libname, generate.cpp:150-204 *)
Definition format_libname (s pfx : str) : res str :=
  r <- libname s pfx ;;
  match r with
  | None => Ok []
  | Some (a, w) => Ok ($"#define " ++ pfx ++ $"_HARDCODED_DEFAULT_LIBA " ++ a ++ [nl] ++
                       $"#define " ++ pfx ++ $"_HARDCODED_DEFAULT_LIBW " ++ w ++ [nl])
  end.

(* ------------------------------------------------------------ texts *)

(** note, generate.cpp:208-238; [date] is what put_time writes, None when there is no date to print *)
Definition note_text (date : option str) : str :=
  $"// Do not edit this file!" ++ [nl] ++ $"// It was automatically generated by gendlopen" ++
  match date with Some d => $" on " ++ d | None => [] end ++
  $"." ++ [nl] ++ $"// All changes made will be lost." ++ [nl; nl].
(** extra_defines, typedefs, includes: generate.cpp:242-294 *)
Definition defines_text (defs : str) : str :=
  match defs with [] => [] | _ => $"/* extra defines */" ++ [nl] ++ defs ++ [nl] end.
Definition typedefs_text (tdefs : list str) : str :=
  match tdefs with
  | [] => []
  | _ => $"/* typedefs */" ++ [nl] ++ concat (map (fun e => $"typedef " ++ e ++ $";" ++ [nl]) tdefs) ++ [nl]
  end.
Definition includes_text (incs : list str) (is_cxx : bool) : str :=
  $"/* extra headers */" ++ [nl] ++
  (if is_cxx then $"#include <cstddef>" ++ [nl] ++ $"#include <cstring>" ++ [nl]
   else $"#include <stddef.h>" ++ [nl] ++ $"#include <string.h>" ++ [nl]) ++
  concat (map (fun e => $"#include " ++ e ++ [nl]) incs) ++ [nl].
(** header_guard_begin, header_guard_end: generate.cpp:297-337 *)
Definition guard_begin_text (header_name pfx_upper : str) (pragma_once is_cxx : bool) : str :=
  (if pragma_once then [nl] ++ $"#pragma once" ++ [nl; nl]
   else [nl] ++ $"#ifndef " ++ guard_name header_name pfx_upper ++ [nl] ++
        $"#define " ++ guard_name header_name pfx_upper ++ [nl; nl]) ++
  (if is_cxx then [] else $"#ifdef __cplusplus" ++ [nl] ++ $"extern " ++ [dquote] ++ $"C" ++ [dquote] ++ $" {" ++ [nl] ++
                          $"#endif" ++ [nl; nl]).
Definition guard_end_text (header_name pfx_upper : str) (pragma_once is_cxx : bool) : str :=
  (if is_cxx then [] else $"#ifdef __cplusplus" ++ [nl] ++ $"} /* extern " ++ [dquote] ++ $"C" ++ [dquote] ++ $" */" ++ [nl] ++
                          $"#endif" ++ [nl]) ++
  (if pragma_once then [] else [nl] ++ $"#endif //_" ++ pfx_upper ++ $"_" ++ to_upper true header_name ++ $"_" ++ [nl]).
(** include_header, generate.cpp:339-346 *)
Definition include_header_text (header_name pfx_upper : str) : str :=
  [nl] ++ $"#define " ++ pfx_upper ++ $"_INCLUDED_IN_BODY" ++ [nl] ++
  $"#include " ++ [dquote] ++ header_name ++ [dquote] ++ [nl; nl].
(** line_directive, generate.cpp:373-384 *)
Definition line_directive_text (lines : nat) (header_name : str) : str :=
  $"#line " ++ nat_to_string (lines + 2) ++ $" " ++ [dquote] ++ header_name ++ [dquote] ++ [nl].

(* ------------------------------------------------------------ paths *)

(** std::filesystem::path on POSIX: the part up to the last separator, and filename() *)
Fixpoint split_path (p : str) : str * str :=
  match p with
  | [] => ([], [])
  | c :: p' => let '(d, f) := split_path p' in
               match d with
               | [] => if Ascii.eqb c "/" then ([c], f) else ([], c :: f)
               | _ => (c :: d, f)
               end
  end.
Definition parent (p : str) : str := fst (split_path p).
Definition filename (p : str) : str := snd (split_path p).
(** the file name without extension: the last dot begins an extension unless it is the first character or the name is ".." *)
Fixpoint last_dot (f : str) : option nat :=
  match f with
  | [] => None
  | c :: f' => match last_dot f' with
               | Some k => Some (S k)
               | None => if Ascii.eqb c "." then Some 0 else None
               end
  end.
Definition stem (f : str) : str :=
  if str_eqb f $".." then f
  else match last_dot f with
       | None | Some 0 => f
       | Some k => firstn k f
       end.
(** replace_extension(e) for an [e] without dot *)
Definition replace_extension (p e : str) : str := parent p ++ stem (filename p) ++ $"." ++ e.

(* ------------------------------------------------------------ the world outside *)

(** what a path may be; a link leads to its final target.  Paths that are written differently are taken to be different
    files *)
Inductive node := Regular (content : str) | Link (target : str) | Directory (empty : bool).

(** the templates, list.h *)
Inductive tname := TLicense | TFilenameMacros | TCommonH | TCommonC | TCH | TCC | TCxxH | TCxxC | TMinH | TMinCxx
                 | TPluginH | TPluginC.
Definition tfile (t : tname) : str :=
  match t with
  | TLicense => $"license.h" | TFilenameMacros => $"filename_macros.h" | TCommonH => $"common.h" | TCommonC => $"common.c"
  | TCH => $"c.h" | TCC => $"c.c" | TCxxH => $"cxx.hpp" | TCxxC => $"cxx.cpp" | TMinH => $"minimal.h"
  | TMinCxx => $"minimal_cxxeh.hpp" | TPluginH => $"plugin.h" | TPluginC => $"plugin.c"
  end.
Definition tname_eqb (a b : tname) : bool := str_eqb (tfile a) (tfile b).
Definition all_templates : list tname :=
  [TLicense; TFilenameMacros; TCommonH; TCommonC; TCH; TCC; TCxxH; TCxxC; TMinH; TMinCxx; TPluginH; TPluginC].

(** a [const template_t *]: to the compiled-in array or to the data of a vector, which is given up when the vector grows *)
Inductive tptr := PBuiltin (t : tname) | PData (t : tname) (generation : nat).

(** the environment: the compiled-in templates, which operations the system allows, the date *)
Record env := mkenv {
  e_builtin : tname -> list entry;
  e_readable : str -> bool; e_writable : str -> bool; e_removable : str -> bool; e_mkdir : str -> bool;
  e_date : option str
}.

(** files, standard output, where save::ofs writes to, the vectors templates::data_* with a count of their growths, and the
    pointers templates::ptr_* *)
Record world := mkworld {
  w_fs : str -> option node; w_out : str; w_cur : option str;
  w_data : tname -> list entry; w_gen : tname -> nat; w_ptr : tname -> tptr
}.
Definition upd {A} (f : str -> A) (p : str) (a : A) : str -> A := fun q => if str_eqb q p then a else f q.
Definition updt {A} (f : tname -> A) (t : tname) (a : A) : tname -> A := fun u => if tname_eqb u t then a else f u.
Definition set_fs v w := mkworld v (w_out w) (w_cur w) (w_data w) (w_gen w) (w_ptr w).
Definition set_cur v w := mkworld (w_fs w) (w_out w) v (w_data w) (w_gen w) (w_ptr w).

(** what a step ends in: a value, gendlopen::error, an exception that nobody catches, undefined behaviour, or a loop that
    does not end *)
Inductive ending (A : Type) := Ret (a : A) | Throw (msg : str) | Abort | Undef | Stuck.
Arguments Ret {A}. Arguments Throw {A}. Arguments Abort {A}. Arguments Undef {A}. Arguments Stuck {A}.
Definition M (A : Type) := world -> world * ending A.
Definition ret {A} (a : A) : M A := fun w => (w, Ret a).
Definition throw {A} (m : str) : M A := fun w => (w, Throw m).
Definition seq {A B} (m : M A) (k : A -> M B) : M B :=
  fun w => match m w with
           | (w', Ret a) => k a w'
           | (w', Throw e) => (w', Throw e)
           | (w', Abort) => (w', Abort)
           | (w', Undef) => (w', Undef)
           | (w', Stuck) => (w', Stuck)
           end.
Notation "x <~ m ;; k" := (seq m (fun x => k)) (at level 100, m at next level, right associativity).
Definition lift {A} (r : res A) : M A :=
  fun w => (w, match r with Ok a => Ret a | Err e => Throw e | UB => Undef | Fuel => Stuck end).

(** save::ofs << s *)
Definition add_text (fs : str -> option node) (p s : str) : str -> option node :=
  match fs p with
  | Some (Regular t) => upd fs p (Some (Regular (t ++ s)))
  | _ => fs
  end.
Definition put (s : str) : M unit :=
  fun w => (match w_cur w with
            | None => mkworld (w_fs w) (w_out w ++ s) None (w_data w) (w_gen w) (w_ptr w)
            | Some p => set_fs (add_text (w_fs w) p s) w
            end, Ret tt).
(** put and count the line feeds *)
Definition put_count (s : str) : M nat := _ <~ put s ;; ret (count_linefeed s).
(** cio::ofstream::close, cio_ofstream.cpp:59-66 *)
Definition close : M unit := fun w => (set_cur None w, Ret tt).

(** std::ofstream::open for writing: an existing file is emptied, a link followed; a directory cannot be opened *)
Definition open_path (e : env) (p : str) : M bool :=
  fun w =>
    let q := match w_fs w p with Some (Link t) => t | _ => p end in
    let w := set_cur None w in
    if e_writable e q then
      match w_fs w q with
      | Some (Directory _) => (w, Ret false)
      | _ => (set_cur (Some q) (set_fs (upd (w_fs w) q (Some (Regular []))) w), Ret true)
      end
    else (w, Ret false).

(** std::filesystem::remove: nothing to do when the path does not exist; a failure is an exception *)
Definition remove_path (e : env) (p : str) : M unit :=
  fun w =>
    match w_fs w p with
    | None => (w, Ret tt)
    | Some (Directory false) => (w, Abort)
    | Some _ => if e_removable e p then (set_fs (upd (w_fs w) p None) w, Ret tt) else (w, Abort)
    end.

(** open_ofstream, generate.cpp:349-371; a null [opath] or "-" is standard output *)
Definition open_ofstream (e : env) (opath : str) (force : bool) : M unit :=
  if str_eqb opath [] || str_eqb opath $"-" then close
  else
    _ <~ (if force then remove_path e opath else ret tt) ;;
    ex <~ (fun w => (w, Ret (match w_fs w opath with Some _ => true | None => false end))) ;;
    if (ex : bool) then throw ($"file already exists: " ++ opath)
    else
      ok <~ open_path e opath ;;
      if (ok : bool) then ret tt else throw ($"failed to open file for writing: " ++ opath).

(** the contents of a file opened with fopen(path, "rb"); reading a directory gives nothing *)
Definition read_file (e : env) (p : str) : M (option str) :=
  fun w => (w, Ret (if e_readable e p then
                      match w_fs w p with
                      | Some (Regular t) => Some t
                      | Some (Link q) => match w_fs w q with
                                         | Some (Regular t) => Some t
                                         | Some (Directory _) => Some []
                                         | _ => None
                                         end
                      | Some (Directory _) => Some []
                      | None => None
                      end
                    else None)).

(* ------------------------------------------------------------ templates *)

(** load_template, data.cpp:193-214 with load_from_file, data.cpp:55-100.  The vector keeps its old contents; it then holds
    2n elements for the n it held before, more than it had room for when room is doubled, so it moves *)
Definition load_template (e : env) (s : settings) (t : tname) : M unit :=
  match o_tpath s with
  | [] => ret tt
  | dir =>
    r <~ read_file e (dir ++ tfile t) ;;
    match r with
    | None => throw ($"failed to open file for reading: " ++ dir ++ tfile t)
    | Some text =>
        fun w =>
          match load_from_file (w_data w t) (tfile t) (o_line s) text with
          | Ok l => let g := w_gen w t + 1 in
                    (mkworld (w_fs w) (w_out w) (w_cur w) (updt (w_data w) t l) (updt (w_gen w) t g)
                             (updt (w_ptr w) t (PData t g)), Ret tt)
          | Err m => (w, Throw m)
          | UB => (w, Undef)
          | Fuel => (w, Stuck)
          end
    end
  end.
(** reading templates::ptr_*, and the array a pointer leads to *)
Definition get_ptr (t : tname) : M tptr := fun w => (w, Ret (w_ptr w t)).
Definition deref (e : env) (p : tptr) : M (list entry) :=
  fun w => match p with
           | PBuiltin t => (w, Ret (e_builtin e t))
           | PData t g => if Nat.eqb g (w_gen w t) then (w, Ret (w_data w t)) else (w, Undef)
           end.

(** the lambda of create_template_lists, data.cpp:139-158; [separate] is m_separate *)
Definition concat_sources (e : env) (s : settings) (separate : bool) (t_header t_body : tptr) : M (list tptr * list tptr) :=
  _ <~ load_template e s TCommonH ;;
  _ <~ load_template e s TCommonC ;;
  ch <~ get_ptr TCommonH ;;
  cb <~ get_ptr TCommonC ;;
  ret (if separate then ([ch; t_header], [cb; t_body]) else ([ch; cb; t_header; t_body], [])).
(** create_template_lists, data.cpp:137-189 *)
Definition two_sources (e : env) (s : settings) (separate : bool) (h b : tname) : M (list tptr * list tptr) :=
  _ <~ load_template e s h ;;
  _ <~ load_template e s b ;;
  ph <~ get_ptr h ;;
  pb <~ get_ptr b ;;
  concat_sources e s separate ph pb.
Definition one_source (e : env) (s : settings) (h : tname) : M (list tptr * list tptr) :=
  _ <~ load_template e s h ;;
  ph <~ get_ptr h ;;
  ret ([ph], []).
Definition create_template_lists (e : env) (s : settings) (separate : bool) : M (list tptr * list tptr) :=
  match o_format s with
  | FmtC => two_sources e s separate TCH TCC
  | FmtCxx => two_sources e s separate TCxxH TCxxC
  | FmtPlugin => two_sources e s separate TPluginH TPluginC
  | FmtMinimal => one_source e s TMinH
  | FmtMinimalCxx => one_source e s TMinCxx
  end.

(** the configuration substitute.cpp reads *)
Definition config_of (s : settings) (funcs objs : list proto) : config :=
  mkcfg (o_line s) (o_param s) (o_pfxs s) funcs objs.

(** the loop of save_data, generate.cpp:401-418: the text written *)
Fixpoint save_entries (s : settings) (l : list entry) : res str :=
  match l with
  | [] => UB
  | x :: l' =>
      if Nat.eqb (e_count x) 0 then Ok []
      else
        let buf := if str_eqb (m_pfx_upper (o_pfxs s)) $"GDO" then e_data x else replace_prefixes (o_pfxs s) (e_data x) in
        t <- save_entries s l' ;;
        Ok (buf ++ [nl] ++ t)
  end.
(** save_data, generate.cpp:390-421; [p] is the argument, evaluated before the template is loaded *)
Definition save_data (e : env) (s : settings) (t : tname) (p : tptr) : M nat :=
  _ <~ load_template e s t ;;
  l <~ deref e p ;;
  txt <~ lift (save_entries s (template_start (config_of s [] []) l)) ;;
  put_count txt.

(** substitute, substitute.cpp, on the arrays the pointers lead to.  When it fails, what it wrote before is not shown *)
Fixpoint deref_all (e : env) (ps : list tptr) : M (list (list entry)) :=
  match ps with
  | [] => ret []
  | p :: ps' => l <~ deref e p ;; ls <~ deref_all e ps' ;; ret (l :: ls)
  end.
Definition m_substitute (e : env) (s : settings) (funcs objs : list proto) (ps : list tptr) : M nat :=
  ls <~ deref_all e ps ;;
  r <~ lift (substitute (config_of s funcs objs) ls) ;;
  _ <~ put (output (fst r)) ;;
  ret (snd r).

(* ------------------------------------------------------------ generate *)

Definition is_cxx (s : settings) : bool := match o_format s with FmtCxx | FmtMinimalCxx => true | _ => false end.
Definition to_stdout (s : settings) : bool := str_eqb (o_output s) $"-".
(** m_separate after generate.cpp:434-463 *)
Definition separate (s : settings) : bool :=
  o_separate s && negb (to_stdout s) && match o_format s with FmtMinimal | FmtMinimalCxx => false | _ => true end.
(** ofhdr and ofbody, generate.cpp:437-469; the empty path for standard output *)
Definition header_path (s : settings) : str :=
  if to_stdout s then []
  else if separate s then replace_extension (o_output s) (if is_cxx s then $"hpp" else $"h") else o_output s.
Definition body_path (s : settings) : str :=
  if to_stdout s then []
  else if separate s then replace_extension (o_output s) (if is_cxx s then $"cpp" else $"c") else o_output s.
(** header_name, generate.cpp:472-477 *)
Definition header_name (s : settings) : str :=
  if to_stdout s then o_pfx s ++ (if is_cxx s then $".hpp" else $".h") else filename (header_path s).

(** m_defines, generate.cpp:479-500 *)
Definition all_defines (s : settings) (funcs objs : list proto) : res str :=
  let up := m_pfx_upper (o_pfxs s) in
  lib <- (match o_lib s with [] => Ok [] | l => format_libname l up end) ;;
  pre <- get_common_prefix (map p_symbol funcs) (map p_symbol objs) ;;
  Ok (o_defines s ++
      (if separate s then $"#define " ++ up ++ $"_SEPARATE" ++ [nl] else []) ++
      lib ++
      ($"#define " ++ up ++ $"_COMMON_PREFIX " ++ [dquote] ++ pre ++ [dquote] ++ [nl]) ++
      concat (map (fun f => if ends_with $"..." (p_args f)
                            then $"#define " ++ up ++ $"_HAS_VA_ARGS_" ++ p_symbol f ++ $" 1" ++ [nl] else []) funcs)).

(** line_directive, generate.cpp:373-384 *)
Definition put_line (s : settings) (lines : nat) : M nat :=
  if o_line s then _ <~ put (line_directive_text lines (header_name s)) ;; ret 1 else ret 0.
Definition date_of (e : env) (s : settings) : option str := if o_date s then e_date e else None.

(** the header, generate.cpp:506-529 *)
Definition write_header (e : env) (s : settings) (funcs objs : list proto) (tdefs : list str) (defs : str) (header : list tptr)
  : M unit :=
  let up := m_pfx_upper (o_pfxs s) in
  _ <~ open_ofstream e (header_path s) (o_force s) ;;
  n1 <~ put_count (note_text (date_of e s)) ;;
  pl <~ get_ptr TLicense ;;
  n2 <~ save_data e s TLicense pl ;;
  n3 <~ put_line s (n1 + n2) ;;
  n4 <~ put_count (guard_begin_text (header_name s) up (o_pragma s) (is_cxx s)) ;;
  pf <~ get_ptr TFilenameMacros ;;
  n5 <~ save_data e s TFilenameMacros pf ;;
  n6 <~ put_count (defines_text defs) ;;
  n7 <~ put_count (includes_text (o_includes s) (is_cxx s)) ;;
  n8 <~ put_count (typedefs_text tdefs) ;;
  n9 <~ m_substitute e s funcs objs header ;;
  _ <~ put_line s (n1 + n2 + n3 + n4 + n5 + n6 + n7 + n8 + n9) ;;
  _ <~ put (guard_end_text (header_name s) up (o_pragma s) (is_cxx s)) ;;
  close.
(** the body, generate.cpp:532-543 *)
Definition write_body (e : env) (s : settings) (funcs objs : list proto) (body : list tptr) : M unit :=
  match body with
  | [] => ret tt
  | _ =>
    _ <~ open_ofstream e (body_path s) (o_force s) ;;
    _ <~ put (note_text (date_of e s)) ;;
    pl <~ get_ptr TLicense ;;
    _ <~ save_data e s TLicense pl ;;
    _ <~ put (include_header_text (header_name s) (m_pfx_upper (o_pfxs s))) ;;
    _ <~ m_substitute e s funcs objs body ;;
    ret tt
  end.
(** gendlopen::generate, generate.cpp:425-545 *)
Definition generate (e : env) (s : settings) (funcs objs : list proto) (tdefs : list str) : M unit :=
  defs <~ lift (all_defines s funcs objs) ;;
  hb <~ create_template_lists e s (separate s) ;;
  _ <~ write_header e s funcs objs tdefs defs (fst hb) ;;
  write_body e s funcs objs (snd hb).

(* ------------------------------------------------------------ other modes *)

(** process_custom_template, gendlopen.cpp:178-213; [stdin] is what standard input holds *)
Definition custom_template (e : env) (s : settings) (funcs objs : list proto) (stdin : str) : M unit :=
  r <~ (if str_eqb (o_template s) $"-" then ret (Some stdin) else read_file e (o_template s)) ;;
  match r with
  | None => throw ($"failed to open file for reading: " ++ o_template s)
  | Some text =>
      _ <~ open_ofstream e (o_output s) (o_force s) ;;
      l <~ lift (read_entries text) ;;
      ws <~ lift (process_custom_template (config_of s funcs objs)
                    (if str_eqb (o_template s) $"-" then $"<STDIN>" else o_template s) l) ;;
      put (output ws)
  end.

(** print_symbols_to_stdout, gendlopen.cpp:217-252: std::cout is written to *)
Definition print_type (t : str) : str := if ends_with $"*" t then t else t ++ $" ".
Definition symbols_text (funcs objs : list proto) (tdefs : list str) : str :=
  (match tdefs with
   | [] => []
   | _ => $"/* typedefs */" ++ [nl] ++ concat (map (fun t => $"typedef " ++ t ++ $";" ++ [nl]) tdefs) ++ [nl]
   end) ++
  $"/* prototypes */" ++ [nl] ++
  concat (map (fun o => print_type (p_type o) ++ p_symbol o ++ $";" ++ [nl]) objs) ++
  concat (map (fun f => print_type (p_type f) ++ p_symbol f ++ $"(" ++ p_args f ++ $");" ++ [nl]) funcs) ++
  [nl] ++ $"/***  " ++ nat_to_string (length objs + length funcs) ++ $" matches  ***/" ++ [nl].
Definition print_out (t : str) : M unit :=
  fun w => (mkworld (w_fs w) (w_out w ++ t) (w_cur w) (w_data w) (w_gen w) (w_ptr w), Ret tt).
Definition print_symbols (funcs objs : list proto) (tdefs : list str) : M unit := print_out (symbols_text funcs objs tdefs).

(** the choice of main.cpp:52-59 *)
Definition run (e : env) (s : settings) (funcs objs : list proto) (tdefs : list str) (stdin : str) : M unit :=
  if o_print s then print_symbols funcs objs tdefs
  else match o_template s with
       | [] => generate e s funcs objs tdefs
       | _ => custom_template e s funcs objs stdin
       end.

(** dump_templates, data.cpp:218-229, and save_to_file, data.cpp:103-132.  The local cio::ofstream writes to the file and
    is closed at the end; the directory is created when nothing has its name *)
Definition save_template (e : env) (dir : str) (t : tname) : M unit :=
  let path := append_missing_separator dir ++ tfile t in
  ok <~ open_path e path ;;
  if (ok : bool) then
    _ <~ print_out ($"saving " ++ path ++ [nl]) ;;
    p <~ get_ptr t ;;
    l <~ deref e p ;;
    txt <~ lift (save_to_file l) ;;
    _ <~ put txt ;;
    close
  else throw ($"failed to open file for writing: " ++ path).
Fixpoint save_templates (e : env) (dir : str) (ts : list tname) : M unit :=
  match ts with
  | [] => ret tt
  | t :: ts' => _ <~ save_template e dir t ;; save_templates e dir ts'
  end.
Definition dump_templates (e : env) (dir : str) : M unit :=
  _ <~ (fun w => match w_fs w dir with
                 | Some _ => (w, Ret tt)
                 | None => if e_mkdir e dir then (set_fs (upd (w_fs w) dir (Some (Directory true))) w, Ret tt) else (w, Abort)
                 end) ;;
  save_templates e dir all_templates.

(** the state before anything happened: nothing loaded, nothing open *)
Definition fresh_world (fs : str -> option node) : world :=
  mkworld fs [] None (fun _ => []) (fun _ => 0) PBuiltin.

(** The names of shared library files on the systems the generated header knows, for C102.  Definitions only; see the comment in
    filename_macros.h:33-53. *)
From Coq Require Import Ascii String List Bool.
From Verif Require Import Str SpecCLang SpecCMacro SpecFile.
Import ListNotations.

(** the file of the library [name] with the API number [api], where [d] says which macros the compiler has set *)
Definition library_file (d : str -> bool) (name api : str) : str :=
  if d $"_WIN32" then (if d $"__MINGW32__" then $"lib" else []) ++ name ++ $"-" ++ api ++ $".dll"
  else if d $"__APPLE__" then $"lib" ++ name ++ $"." ++ api ++ $".dylib"
  else if d $"_AIX" then $"lib" ++ name ++ $".a(" ++ (if d $"__64BIT__" || d $"__LP64__" then $"shr_64.o" else $"shr.o") ++ $")"
  else if d $"__ANDROID__" then $"lib" ++ name ++ $".so"
  else $"lib" ++ name ++ $".so." ++ api.
Definition library_extension (d : str -> bool) : str :=
  if d $"_WIN32" then $".dll" else if d $"__APPLE__" then $".dylib" else if d $"_AIX" then $".a" else $".so".
(** whether file names are texts of wide characters by default *)
Definition wide_names (d : str -> bool) : bool := d $"_WIN32" && d $"_UNICODE".

(** [l] is one text for a C compiler: string literals side by side, the first with an L if the text is wide *)
Definition is_text (wide : bool) (l : list tok) (s : str) : Prop :=
  exists a ps, l = (if wide then [TWord $"L"] else []) ++ map TText (a :: ps) /\ concat (a :: ps) = s.
(** MACRO(name, api) *)
Definition call (x : string) (name api : str) : list tok := [TWord $x; TOp $"("; TWord name; TOp $","; TWord api; TOp $")"].
(** the macros replace the word [x] by the word [y], and that by nothing else *)
Definition ends_as (m : macro_table) (x y : str) : Prop := becomes m [TWord x] [TWord y] /\ macro_at m y = None.
(** what the preprocessor makes of the tokens is the text *)
Definition makes_text (m : macro_table) (wide : bool) (l : list tok) (s : str) : Prop := exists r, becomes m l r /\ is_text wide r s.
(** the macros for file names are not defined anew or taken back *)
Definition keeps_names (o : pout) : Prop := match o with PTok _ => True | PDefine x _ _ | PUndef x => ~ In x library_names end.

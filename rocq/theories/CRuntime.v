(** The generated C API, dlfcn variant: /repo/src/templates/c.c, c.h, common.c.  Definitions only.
    The template is modelled after substitution, for an arbitrary list of symbols.  Not modelled: the WINAPI and AIX
    branches, wide characters, calls from several threads. *)
From Coq Require Import Ascii String List Bool Arith ZArith.
From Verif Require Import Str.
Import ListNotations.

(** What the preprocessor and the generator fix.
    [k_names]: the symbols in the order of the %%symbol%% lines; [k_prefix]: GDO_COMMON_PREFIX; [k_lib]: GDO_DEFAULT_LIB;
    [k_flags]: GDO_DEFAULT_FLAGS; [k_buflen]: GDO_BUFLEN, common.h:113-117; the GDO_HAVE_* macros; [k_linux]: __linux__;
    GDO_ENABLE_AUTOLOAD and GDO_ENABLE_AUTOLOAD_LAZY *)
Inductive autoload := AutoOff | AutoAll | AutoLazy.
Record rconf := mkrconf {
  k_names : list str; k_prefix : str; k_lib : str; k_flags : Z; k_buflen : nat;
  k_dlmopen : bool; k_dlinfo : bool; k_dladdr : bool; k_linux : bool; k_auto : autoload
}.

(** handles and symbol addresses; the null pointer is [None] *)
Definition ptr := nat.

(** what the library calls and what it is told, newest first *)
Inductive event :=
| EvOpen (file : str) (flags : Z) (newns : bool) (r : option ptr)     (* dlopen, dlmopen *)
| EvSym (h : ptr) (name : str) (r : option ptr)                        (* dlsym *)
| EvClose (h : ptr) (ok : bool)                                        (* dlclose *)
| EvError (r : option str)                                             (* dlerror *)
| EvAtexit (ok : bool)                                                 (* atexit *)
| EvInfo (h : ptr) (r : option (option str))                           (* dlinfo: link map with its l_name *)
| EvAddr (p : ptr) (r : option (option str))                           (* dladdr: dli_fname *)
| EvMaps (r : option str)                                              (* /proc/self/maps *)
| EvPrint (s : str)                                                    (* stderr *)
| EvCall (p : ptr) (args : list nat).                                  (* call through a symbol pointer *)

(** the rest of the world: any answer depending on the whole past *)
Record world := mkworld {
  w_open : list event -> str -> Z -> bool -> option ptr;
  w_sym : list event -> ptr -> str -> option ptr;
  w_close : list event -> ptr -> bool;
  w_error : list event -> option str;
  w_atexit : list event -> bool;
  w_info : list event -> ptr -> option (option str);
  w_addr : list event -> ptr -> option (option str);
  w_maps : list event -> option str
}.

(** how the program ended *)
Inductive ending := Exited (code : nat) | Aborted.

(** gdo_hndl, c.h:40-65; [s_reg] is free_lib_reg *)
Record st := mkst {
  s_handle : option ptr; s_reg : bool; s_ptrs : list (option ptr); s_libpath : str; s_errbuf : str;
  s_trace : list event; s_end : option ending
}.
(** static storage: all zero *)
Definition init (k : rconf) : st := mkst None false (map (fun _ => None) (k_names k)) [] [] [] None.

Section API.
Variables (k : rconf) (w : world).

Definition log (e : event) (s : st) : st :=
  mkst (s_handle s) (s_reg s) (s_ptrs s) (s_libpath s) (s_errbuf s) (e :: s_trace s) (s_end s).
Definition with_handle (h : option ptr) (s : st) : st :=
  mkst h (s_reg s) (s_ptrs s) (s_libpath s) (s_errbuf s) (s_trace s) (s_end s).
Definition with_reg (s : st) : st :=
  mkst (s_handle s) true (s_ptrs s) (s_libpath s) (s_errbuf s) (s_trace s) (s_end s).
Definition with_ptrs (p : list (option ptr)) (s : st) : st :=
  mkst (s_handle s) (s_reg s) p (s_libpath s) (s_errbuf s) (s_trace s) (s_end s).
Definition with_libpath (p : str) (s : st) : st :=
  mkst (s_handle s) (s_reg s) (s_ptrs s) p (s_errbuf s) (s_trace s) (s_end s).
Definition with_errbuf (m : str) (s : st) : st :=
  mkst (s_handle s) (s_reg s) (s_ptrs s) (s_libpath s) m (s_trace s) (s_end s).
Definition with_end (e : ending) (s : st) : st :=
  mkst (s_handle s) (s_reg s) (s_ptrs s) (s_libpath s) (s_errbuf s) (s_trace s) (Some e).

(** snprintf(errbuf, sizeof(errbuf), ...), c.c:72-79: the text is cut to the buffer *)
Definition print_errbuf (m : str) (s : st) : st := with_errbuf (firstn (k_buflen k - 1) (c_str m)) s.
(** _gdo_save_to_errbuf, c.c:93-104 *)
Definition save_to_errbuf (m : option str) (s : st) : st :=
  match m with Some m => print_errbuf m s | None => with_errbuf [] s end.
(** dlerror() *)
Definition call_error (s : st) : option str * st := let r := w_error w (s_trace s) in (r, log (EvError r) s).
(** _gdo_clear_error, c.c:134-138 *)
Definition clear_error (s : st) : st := with_errbuf [] (snd (call_error s)).
(** _gdo_save_error, c.c:141-145 *)
Definition save_error (s : st) : st := let '(r, s1) := call_error s in save_to_errbuf r s1.
(** _gdo_set_error_no_library_loaded, c.c:148-151 *)
Definition set_no_library (s : st) : st := save_to_errbuf (Some $"no library was loaded") s.

(** gdo_lib_is_loaded, c.c:323-326 *)
Definition lib_is_loaded (s : st) : bool := match s_handle s with Some _ => true | None => false end.

(** _gdo_call_dlopen, common.c:24-36, from _gdo_load_library, c.c:239-270 *)
Definition load_library (file : str) (flags : Z) (newns : bool) (s : st) : st :=
  let ns := k_dlmopen k && newns in
  let r := w_open w (s_trace s) file flags ns in
  with_handle r (log (EvOpen file flags ns r) s).

(** gdo_load_lib_args, c.c:210-236 *)
Definition load_lib_args (file : option str) (flags : Z) (newns : bool) (s : st) : bool * st :=
  let s := clear_error s in
  if lib_is_loaded s then (false, save_to_errbuf (Some $"library already loaded") s) else
  match file with
  | None | Some [] => (false, save_to_errbuf (Some $"empty filename") s)
  | Some f =>
      let s := load_library f flags newns s in
      if lib_is_loaded s then (true, s) else (false, save_error s)
  end.
(** gdo_load_lib_name, c.c:188-191; gdo_load_lib, c.c:163-166 *)
Definition load_lib_name (file : option str) (s : st) : bool * st := load_lib_args file (k_flags k) false s.
Definition load_lib (s : st) : bool * st := load_lib_name (Some (k_lib k)) s.

(** dlclose, common.c:13-20 *)
Definition call_close (h : ptr) (s : st) : bool * st := let r := w_close w (s_trace s) h in (r, log (EvClose h r) s).

(** the end of gdo_free_lib and gdo_force_free_lib: c.c:349-354, 373-377 *)
Definition reset (s : st) : st :=
  with_ptrs (map (fun _ => None) (k_names k)) (with_handle None (with_libpath [] s)).
(** gdo_free_lib, c.c:334-357 *)
Definition free_lib (s : st) : bool * st :=
  let s := clear_error s in
  match s_handle s with
  | Some h =>
      let '(ok, s) := call_close h s in
      if ok then (true, reset s) else (false, save_error s)
  | None => (true, reset s)
  end.
(** gdo_force_free_lib, c.c:365-378 *)
Definition force_free_lib (s : st) : st :=
  let s := clear_error s in
  match s_handle s with
  | Some h => reset (snd (call_close h s))
  | None => reset s
  end.

(** gdo_enable_autorelease, c.c:386-399 *)
Definition enable_autorelease (s : st) : bool * st :=
  let s := clear_error s in
  let s :=
    if s_reg s then s else
    let r := w_atexit w (s_trace s) in
    let s := log (EvAtexit r) s in
    if r then with_reg s
    else save_to_errbuf (Some $"atexit(): failed to register `gdo_force_free_lib()'") s in
  (s_reg s, s).

(** gdo_all_symbols_loaded, gdo_no_symbols_loaded, gdo_any_symbol_loaded, c.c:407-450: one condition per %%symbol%% line *)
Definition non_null (p : option ptr) : bool := match p with Some _ => true | None => false end.
Definition all_symbols_loaded (s : st) : bool := fold_left (fun b p => b && non_null p) (s_ptrs s) true.
Definition no_symbols_loaded (s : st) : bool := fold_left (fun b p => b && negb (non_null p)) (s_ptrs s) true.
Definition any_symbol_loaded (s : st) : bool := fold_left (fun b p => b || non_null p) (s_ptrs s) false.

(** _gdo_sym, c.c:483-492; dlsym is only called with a handle (the callers have checked it): a null handle is left to UB *)
Definition gdo_sym (name : str) (s : st) : res (option ptr * st) :=
  match s_handle s with
  | None => UB
  | Some h =>
      let r := w_sym w (s_trace s) h name in
      let s := log (EvSym h name r) s in
      match r with
      | Some p => Ok (Some p, s)
      | None => Ok (None, save_error s)
      end
  end.
(** assignment to the pointer of the [i]-th symbol *)
Definition set_ptr (i : nat) (p : option ptr) (s : st) : st :=
  with_ptrs (firstn i (s_ptrs s) ++ p :: skipn (S i) (s_ptrs s)) s.
Definition get_ptr (i : nat) (s : st) : option ptr := nth i (s_ptrs s) None.

(** the %%symbol%% lines of gdo_load_all_symbols, c.c:472-478, from the [i]-th symbol on *)
Fixpoint load_symbols (names : list str) (i : nat) (s : st) : res (bool * st) :=
  match names with
  | [] => Ok (true, s)
  | n :: names' =>
      r <- gdo_sym n s ;;
      let '(p, s) := r in
      let s := set_ptr i p s in
      match p with
      | None => Ok (false, s)
      | Some _ => load_symbols names' (S i) s
      end
  end.
(** gdo_load_all_symbols, c.c:458-481 *)
Definition load_all_symbols (s : st) : res (bool * st) :=
  let s := clear_error s in
  if all_symbols_loaded s then Ok (true, s) else
  if lib_is_loaded s then load_symbols (k_names k) 0 s else Ok (false, set_no_library s).

(** c.c:514-519 and c.c:561-566 *)
Definition load_one (i : nat) (name : str) (s : st) : res (bool * st) :=
  match get_ptr i s with
  | Some _ => Ok (true, s)
  | None =>
      r <- gdo_sym name s ;;
      let '(p, s) := r in
      Ok (non_null p, set_ptr i p s)
  end.
(** printf("%d") *)
Definition int_to_string (z : Z) : str :=
  match z with
  | Z0 => $"0"
  | Zpos p => nat_to_string (Pos.to_nat p)
  | Zneg p => $"-" ++ nat_to_string (Pos.to_nat p)
  end.
(** gdo_load_symbol, c.c:500-528; the enumeration GDO_LOAD_*, c.h:32-35, counts from 0 *)
Definition load_symbol (num : Z) (s : st) : res (bool * st) :=
  let s := clear_error s in
  if negb (lib_is_loaded s) then Ok (false, set_no_library s) else
  match (if Z.ltb num 0 then None else nth_error (k_names k) (Z.to_nat num)) with
  | Some name => load_one (Z.to_nat num) name s
  | None => Ok (false, print_errbuf ($"unknown symbol number: " ++ int_to_string num) s)
  end.

(** the %%symbol%% lines of gdo_load_symbol_name, c.c:557-568: [Some] if one of them returns.  [symbol] is a C string *)
Fixpoint find_symbol (names : list str) (i : nat) (symbol : str) (s : st) : option (res (bool * st)) :=
  match names with
  | [] => None
  | curr :: names' =>
      if Nat.eqb (length symbol) (length curr) && str_eqb (skipn (length (k_prefix k)) symbol) (skipn (length (k_prefix k)) curr)
      then Some (load_one i curr s)
      else find_symbol names' (S i) symbol s
  end.
(** gdo_load_symbol_name, c.c:536-576 *)
Definition load_symbol_name (symbol : option str) (s : st) : res (bool * st) :=
  let s := clear_error s in
  if negb (lib_is_loaded s) then Ok (false, set_no_library s) else
  match symbol with
  | None | Some [] => Ok (false, save_to_errbuf (Some $"empty symbol name") s)
  | Some name =>
      let unknown := Ok (false, print_errbuf ($"unknown symbol: " ++ name) s) in
      if Nat.eqb (length (k_prefix k)) 0 || starts_with (k_prefix k) name then
        match find_symbol (k_names k) 0 name s with Some r => r | None => unknown end
      else unknown
  end.

(** gdo_last_error, c.c:584-634 (dlfcn) *)
Definition last_error (s : st) : str * st :=
  let s := match s_errbuf s with [] => save_to_errbuf (Some $"no error") s | _ => s end in
  (s_errbuf s, s).

(** memcpy of a path with its terminator into the buffer: writing past its end is undefined *)
Definition store_path (p : str) (s : st) : res st :=
  if Nat.leb (length p + 1) (k_buflen k) then Ok (with_libpath p s) else UB.
(** _gdo_fullpath_procmap, common.c:113-183: the path found in the process map, if it fits; the two ways to read the map are
    one question to the world *)
Definition fullpath_procmap (s : st) : res (bool * st) :=
  let r := w_maps w (s_trace s) in
  let s := log (EvMaps r) (with_libpath [] s) in
  match r with
  | Some p => if Nat.ltb (length (c_str p)) (k_buflen k) then s <- store_path (c_str p) s ;; Ok (true, s) else Ok (false, s)
  | None => Ok (false, s)
  end.
(** c.c:816-824, 856-864: the length test and memcpy *)
Definition copy_path (p : str) (s : st) : res (bool * st) :=
  if Nat.leb (length p + 1) (k_buflen k) then s <- store_path p s ;; Ok (true, s) else Ok (false, s).
(** _gdo_libpath_dlinfo, c.c:795-828 *)
Definition libpath_dlinfo (h : ptr) (s : st) : res (bool * st) :=
  let s := clear_error s in
  let r := w_info w (s_trace s) h in
  let s := log (EvInfo h r) s in
  match r with
  | None => Ok (false, save_error s)
  | Some name =>
      match (match name with Some n => c_str n | None => [] end) with
      | [] => Ok (false, save_to_errbuf (Some $"dlinfo() failed to get library path") s)
      | c :: n =>
          if k_linux k && negb (Ascii.eqb c "/"%char) then
            (r <- fullpath_procmap s ;;
             let '(ok, s) := r in
             if ok then Ok (true, s) else copy_path (c :: n) s)
          else copy_path (c :: n) s
      end
  end.
(** _gdo_call_dladdr, common.c:40-45, for the symbol pointers in order until one gives a path, c.c:848-852 *)
Fixpoint dladdr_first (ps : list (option ptr)) (s : st) : option str * st :=
  match ps with
  | [] => (None, s)
  | None :: ps' => dladdr_first ps' s
  | Some p :: ps' =>
      let r := w_addr w (s_trace s) p in
      let s := log (EvAddr p r) s in
      match (match r with Some (Some n) => c_str n | _ => [] end) with
      | [] => dladdr_first ps' s
      | c :: n => (Some (c :: n), s)
      end
  end.
(** _gdo_libpath_dladdr, c.c:833-867 *)
Definition libpath_dladdr (s : st) : res (bool * st) :=
  let s := clear_error s in
  if no_symbols_loaded s then Ok (false, save_to_errbuf (Some $"no symbols were loaded") s) else
  match dladdr_first (s_ptrs s) s with
  | (None, s) => Ok (false, save_to_errbuf (Some $"dladdr() failed to get library path") s)
  | (Some p, s) => copy_path p s
  end.
(** gdo_library_path, c.c:642-684 *)
Definition library_path (s : st) : res (option str * st) :=
  let s := clear_error s in
  if negb (k_dlinfo k || k_dladdr k) then Ok (None, save_to_errbuf (Some $"function not implemented") s) else
  match s_handle s with
  | None => Ok (None, set_no_library s)
  | Some h =>
      match s_libpath s with
      | _ :: _ => Ok (Some (s_libpath s), s)
      | [] =>
          r <- (if k_dlinfo k then libpath_dlinfo h s else Ok (false, s)) ;;
          let '(ok, s) := r in
          if ok then Ok (Some (s_libpath s), s) else
          r <- (if k_dladdr k then libpath_dladdr s else Ok (false, s)) ;;
          let '(ok, s) := r in
          if ok then Ok (Some (s_libpath s), s) else Ok (None, with_libpath [] s)
      end
  end.

(** fprintf with a format that should hold [%s] conversions only *)
Fixpoint format_s (fmt : str) (args : list str) : res str :=
  match fmt with
  | [] => Ok []
  | "%"%char :: r =>
      match r with
      | "s"%char :: r => match args with [] => UB | a :: args => t <- format_s r args ;; Ok (a ++ t) end
      | "%"%char :: r => t <- format_s r args ;; Ok ("%"%char :: t)
      | _ => UB
      end
  | c :: r => t <- format_s r args ;; Ok (c :: t)
  end.
(** _gdo_print_error, c.c:881-904 *)
Definition print_error (fmt sym msg : str) (s : st) : res st :=
  t <- format_s fmt [sym; msg] ;; Ok (log (EvPrint (t ++ [nl])) s).

(** exit(): the handlers registered with atexit, as often as they were registered *)
Definition registrations (t : list event) : nat := length (filter (fun e => match e with EvAtexit true => true | _ => false end) t).
Definition run_handlers (s : st) : st := Nat.iter (registrations (s_trace s)) force_free_lib s.
Definition exit_program (code : nat) (s : st) : st := with_end (Exited code) (run_handlers s).

(** _gdo_wrap_check_loaded, c.c:907-967, called with the pointer and number of the [i]-th symbol.  [false]: the program has
    ended *)
Definition wrap_check_loaded (i : nat) (name : str) (s : st) : res (bool * st) :=
  match get_ptr i s with
  | Some _ => Ok (true, s)
  | None =>
      match k_auto k with
      | AutoOff =>
          s <- print_error $"fatal error: %s: %s" name (if lib_is_loaded s then $"symbol not loaded" else $"library not loaded") s ;;
          Ok (false, with_end Aborted s)
      | _ =>
          let s := snd (enable_autorelease s) in
          let s := if lib_is_loaded s then s else snd (load_lib s) in
          r <- (match k_auto k with AutoLazy => load_symbol (Z.of_nat i) s | _ => load_all_symbols s end) ;;
          let '(ok, s) := r in
          if ok then Ok (true, s) else
          let '(msg, s) := last_error s in
          s <- (match find (k_lib k) msg with
                | Some _ => print_error $"error: %s: %s" name msg s
                | None => print_error ($"error: " ++ k_lib k ++ $": %s: %s") name msg s
                end) ;;
          Ok (false, exit_program 1 (force_free_lib s))
      end
  end.
(** a generated wrapper function, c.h:258-263; the hook macro is its default, which does nothing *)
Definition wrapped_call (i : nat) (args : list nat) (s : st) : res (bool * st) :=
  match nth_error (k_names k) i with
  | None => Ok (false, s)
  | Some name =>
      r <- wrap_check_loaded i name s ;;
      let '(ok, s) := r in
      if ok then match get_ptr i s with Some p => Ok (true, log (EvCall p args) s) | None => UB end
      else Ok (false, s)
  end.

(** the API *)
Inductive op :=
| LoadLib | LoadLibAndSymbols | LoadLibName (file : option str) | LoadLibNameAndSymbols (file : option str)
| LoadLibArgs (file : option str) (flags : Z) (newns : bool)
| IsLoaded | FreeLib | ForceFreeLib | EnableAutorelease
| LoadAllSymbols | LoadSymbol (num : Z) | LoadSymbolName (symbol : option str)
| AllLoaded | NoneLoaded | AnyLoaded | LastError | LibraryPath
| Wrapped (i : nat) (args : list nat) | Exit (code : nat).
Inductive value := VBool (b : bool) | VStr (s : option str) | VNone.

Definition then_symbols (r : bool * st) : res (value * st) :=
  let '(ok, s) := r in
  if ok then r <- load_all_symbols s ;; Ok (VBool (fst r), snd r) else Ok (VBool false, s).
(** C strings end at the first NUL *)
Definition c_arg (a : option str) : option str := option_map c_str a.
Definition call (o : op) (s : st) : res (value * st) :=
  let b (r : bool * st) : res (value * st) := Ok (VBool (fst r), snd r) in
  let rb (r : res (bool * st)) : res (value * st) := r <- r ;; Ok (VBool (fst r), snd r) in
  match o with
  | LoadLib => b (load_lib s)
  | LoadLibAndSymbols => then_symbols (load_lib s)
  | LoadLibName f => b (load_lib_name (c_arg f) s)
  | LoadLibNameAndSymbols f => then_symbols (load_lib_name (c_arg f) s)
  | LoadLibArgs f fl ns => b (load_lib_args (c_arg f) fl ns s)
  | IsLoaded => Ok (VBool (lib_is_loaded s), s)
  | FreeLib => b (free_lib s)
  | ForceFreeLib => Ok (VNone, force_free_lib s)
  | EnableAutorelease => b (enable_autorelease s)
  | LoadAllSymbols => rb (load_all_symbols s)
  | LoadSymbol n => rb (load_symbol n s)
  | LoadSymbolName n => rb (load_symbol_name (c_arg n) s)
  | AllLoaded => Ok (VBool (all_symbols_loaded s), s)
  | NoneLoaded => Ok (VBool (no_symbols_loaded s), s)
  | AnyLoaded => Ok (VBool (any_symbol_loaded s), s)
  | LastError => let '(m, s) := last_error s in Ok (VStr (Some m), s)
  | LibraryPath => r <- library_path s ;; Ok (VStr (fst r), snd r)
  | Wrapped i args => r <- wrapped_call i args s ;; Ok (VNone, snd r)
  | Exit c => Ok (VNone, exit_program c s)
  end.
(** a call made by the program; nothing happens once it has ended *)
Definition step (s : st) (o : op) : res st :=
  match s_end s with Some _ => Ok s | None => r <- call o s ;; Ok (snd r) end.
Definition run (ops : list op) : res st := fold_left (fun r o => s <- r ;; step s o) ops (Ok (init k)).
End API.

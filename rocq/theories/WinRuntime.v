(** The generated C API, WINAPI variant: the GDO_WINAPI and _WIN32 branches of /repo/src/templates/c.c, c.h, common.c and
    common.h.  Definitions only.  Names of operations, events and configurations are those of CRuntime.v.
    Not modelled: characters that are not single bytes (text is the same for char and wchar_t), allocation failures, calls
    from several threads.  What is printed does not influence the answers of the system. *)
From Coq Require Import Ascii String List Bool Arith ZArith NArith.
From Verif Require Import Str CRuntime.
Import ListNotations.

(** what the preprocessor fixes beside [rconf]: GDO_CONVERT_FILENAME (only without wide characters), GDO_USE_MESSAGE_BOX, and
    the number of characters in [formatted], c.h:57-63; [x_wide]: _GDO_TARGET_WIDECHAR *)
Record wconf := mkwconf { x_conf :> rconf; x_wide : bool; x_convert : bool; x_box : bool; x_fbuf : nat }.

(** the system; answers depend on the calls made before.  [v_free] is the BOOL of FreeLibrary(); [v_errno] is GetLastError();
    [v_module] is the path GetModuleFileName() has for a module; [v_format] is FormatMessage() on a code ([None]: it failed);
    [v_conv] tells whether _gdo_mbstowcs(), c.c:274-291, can convert a file name *)
Record wworld := mkww {
  v_open : list event -> str -> Z -> option ptr;
  v_sym : list event -> ptr -> str -> option ptr;
  v_free : list event -> ptr -> Z;
  v_errno : list event -> N;
  v_atexit : list event -> bool;
  v_module : list event -> ptr -> option str;
  v_format : N -> option str;
  v_conv : str -> bool
}.

(** gdo_hndl, c.h:40-65, with the history of calls (newest first), the messages shown (newest first) and the end *)
Record wst := mkw {
  g_handle : option ptr; g_reg : bool; g_ptrs : list (option ptr); g_libpath : str; g_errbuf : str; g_formatted : str; g_errno : N;
  g_trace : list event; g_out : list str; g_end : option ending
}.
(** static storage: all zero *)
Definition g_init (k : wconf) : wst := mkw None false (map (fun _ => None) (k_names k)) [] [] [] 0 [] [] None.

(** winerror.h *)
Definition error_invalid_handle : N := 6.
Definition error_invalid_parameter : N := 87.
Definition error_invalid_name : N := 123.
Definition error_not_found : N := 1168.

Section WINAPI.
Variables (k : wconf) (w : wworld).

Definition g_log (e : event) (s : wst) : wst :=
  mkw (g_handle s) (g_reg s) (g_ptrs s) (g_libpath s) (g_errbuf s) (g_formatted s) (g_errno s) (e :: g_trace s) (g_out s) (g_end s).
Definition g_with_handle (h : option ptr) (s : wst) : wst :=
  mkw h (g_reg s) (g_ptrs s) (g_libpath s) (g_errbuf s) (g_formatted s) (g_errno s) (g_trace s) (g_out s) (g_end s).
Definition g_with_reg (s : wst) : wst :=
  mkw (g_handle s) true (g_ptrs s) (g_libpath s) (g_errbuf s) (g_formatted s) (g_errno s) (g_trace s) (g_out s) (g_end s).
Definition g_with_ptrs (p : list (option ptr)) (s : wst) : wst :=
  mkw (g_handle s) (g_reg s) p (g_libpath s) (g_errbuf s) (g_formatted s) (g_errno s) (g_trace s) (g_out s) (g_end s).
Definition g_with_libpath (p : str) (s : wst) : wst :=
  mkw (g_handle s) (g_reg s) (g_ptrs s) p (g_errbuf s) (g_formatted s) (g_errno s) (g_trace s) (g_out s) (g_end s).
(** the three parts of the error state *)
Definition g_with_error (m f : str) (e : N) (s : wst) : wst :=
  mkw (g_handle s) (g_reg s) (g_ptrs s) (g_libpath s) m f e (g_trace s) (g_out s) (g_end s).
Definition g_show (t : str) (s : wst) : wst :=
  mkw (g_handle s) (g_reg s) (g_ptrs s) (g_libpath s) (g_errbuf s) (g_formatted s) (g_errno s) (g_trace s) (t :: g_out s) (g_end s).
Definition g_with_end (e : ending) (s : wst) : wst :=
  mkw (g_handle s) (g_reg s) (g_ptrs s) (g_libpath s) (g_errbuf s) (g_formatted s) (g_errno s) (g_trace s) (g_out s) (Some e).

(** _sntprintf_s(..., _TRUNCATE, ...), c.c:73-75: the text is cut to a buffer of [n] characters *)
Definition cut (n : nat) (m : str) : str := firstn (n - 1) (c_str m).
(** GDO_SNPRINTF(gdo_hndl.errbuf, ...) *)
Definition g_print_errbuf (m : str) (s : wst) : wst := g_with_error (cut (k_buflen k) m) (g_formatted s) (g_errno s) s.
(** GDO_SET_LAST_ERRNO, c.c:87 *)
Definition g_set_errno (e : N) (s : wst) : wst := g_with_error (g_errbuf s) (g_formatted s) e s.
(** _gdo_save_to_errbuf, c.c:93-104; no caller passes NULL *)
Definition g_save_to_errbuf (m : str) (s : wst) : wst := g_with_error (cut (k_buflen k) m) [] (g_errno s) s.
(** _gdo_clear_error, c.c:109-114 *)
Definition g_clear_error (s : wst) : wst := g_with_error [] [] 0 s.
(** _gdo_save_error, c.c:118-122 *)
Definition g_save_error (m : str) (s : wst) : wst := g_save_to_errbuf m (g_set_errno (v_errno w (g_trace s)) s).
(** _gdo_set_error_no_library_loaded, c.c:125-129 *)
Definition g_set_no_library (s : wst) : wst := g_save_to_errbuf $"no library was loaded" (g_set_errno error_invalid_handle s).

(** gdo_lib_is_loaded, c.c:323-326 *)
Definition g_lib_is_loaded (s : wst) : bool := match g_handle s with Some _ => true | None => false end.

(** _gdo_load_library_ex, c.c:295-314 *)
Definition g_load_library_ex (file : str) (flags : Z) (s : wst) : option ptr * wst :=
  if x_convert k && negb (x_wide k) && negb (v_conv w file)
  then (None, g_save_to_errbuf $"mbstowcs_s: failed to convert filename" (g_set_errno error_invalid_name s))
  else let r := v_open w (g_trace s) file flags in (r, g_log (EvOpen file flags false r) s).
(** _gdo_load_library, c.c:239-263: path separators are replaced; the namespace argument is not used *)
Definition slash : ascii := "/".
Definition to_backslash (f : str) : str := map (fun c => if Ascii.eqb c slash then bslash else c) f.
Definition g_load_library (file : str) (flags : Z) (s : wst) : wst :=
  let '(r, s) := g_load_library_ex (if existsb (Ascii.eqb slash) file then to_backslash file else file) flags s in
  g_with_handle r s.

(** gdo_load_lib_args, c.c:210-236 *)
Definition g_load_lib_args (file : option str) (flags : Z) (s : wst) : bool * wst :=
  let s := g_clear_error s in
  if g_lib_is_loaded s then (false, g_save_to_errbuf $"library already loaded" s) else
  match file with
  | None | Some [] => (false, g_save_to_errbuf $"empty filename" (g_set_errno error_invalid_name s))
  | Some f =>
      let s := g_load_library f flags s in
      if g_lib_is_loaded s then (true, s) else (false, g_save_error f s)
  end.
(** gdo_load_lib_name, c.c:188-191; gdo_load_lib, c.c:163-166 *)
Definition g_load_lib_name (file : option str) (s : wst) : bool * wst := g_load_lib_args file (k_flags k) s.
Definition g_load_lib (s : wst) : bool * wst := g_load_lib_name (Some (k_lib k)) s.

(** _gdo_call_dlclose, common.c:13-20: FreeLibrary(handle) == TRUE.  The history tells whether the library was released, which
    any nonzero result means *)
Definition g_call_close (h : ptr) (s : wst) : bool * wst :=
  let r := v_free w (g_trace s) h in (Z.eqb r 1, g_log (EvClose h (negb (Z.eqb r 0))) s).
(** c.c:349-354, 373-377 *)
Definition g_reset (s : wst) : wst :=
  g_with_ptrs (map (fun _ => None) (k_names k)) (g_with_handle None (g_with_libpath [] s)).
(** gdo_free_lib, c.c:334-357 *)
Definition g_free_lib (s : wst) : bool * wst :=
  let s := g_clear_error s in
  match g_handle s with
  | Some h =>
      let '(ok, s) := g_call_close h s in
      if ok then (true, g_reset s) else (false, g_save_error $"FreeLibrary()" s)
  | None => (true, g_reset s)
  end.
(** gdo_force_free_lib, c.c:365-378 *)
Definition g_force_free_lib (s : wst) : wst :=
  let s := g_clear_error s in
  match g_handle s with
  | Some h => g_reset (snd (g_call_close h s))
  | None => g_reset s
  end.
(** gdo_enable_autorelease, c.c:386-399 *)
Definition g_enable_autorelease (s : wst) : bool * wst :=
  let s := g_clear_error s in
  let s :=
    if g_reg s then s else
    let r := v_atexit w (g_trace s) in
    let s := g_log (EvAtexit r) s in
    if r then g_with_reg s
    else g_save_to_errbuf $"atexit(): failed to register `gdo_force_free_lib()'" s in
  (g_reg s, s).

(** c.c:407-450 *)
Definition g_all_loaded (s : wst) : bool := fold_left (fun b p => b && non_null p) (g_ptrs s) true.
Definition g_none_loaded (s : wst) : bool := fold_left (fun b p => b && negb (non_null p)) (g_ptrs s) true.
Definition g_any_loaded (s : wst) : bool := fold_left (fun b p => b || non_null p) (g_ptrs s) false.

(** _gdo_sym, c.c:483-492: the symbol's name is the message *)
Definition g_sym (name : str) (s : wst) : res (option ptr * wst) :=
  match g_handle s with
  | None => UB
  | Some h =>
      let r := v_sym w (g_trace s) h name in
      let s := g_log (EvSym h name r) s in
      match r with
      | Some p => Ok (Some p, s)
      | None => Ok (None, g_save_error name s)
      end
  end.
Definition g_set_ptr (i : nat) (p : option ptr) (s : wst) : wst :=
  g_with_ptrs (firstn i (g_ptrs s) ++ p :: skipn (S i) (g_ptrs s)) s.
Definition g_get_ptr (i : nat) (s : wst) : option ptr := nth i (g_ptrs s) None.
(** c.c:472-478 *)
Fixpoint g_load_symbols (names : list str) (i : nat) (s : wst) : res (bool * wst) :=
  match names with
  | [] => Ok (true, s)
  | n :: names' =>
      r <- g_sym n s ;;
      let '(p, s) := r in
      let s := g_set_ptr i p s in
      match p with
      | None => Ok (false, s)
      | Some _ => g_load_symbols names' (S i) s
      end
  end.
(** gdo_load_all_symbols, c.c:458-481 *)
Definition g_load_all_symbols (s : wst) : res (bool * wst) :=
  let s := g_clear_error s in
  if g_all_loaded s then Ok (true, s) else
  if g_lib_is_loaded s then g_load_symbols (k_names k) 0 s else Ok (false, g_set_no_library s).
(** c.c:514-519, 561-566 *)
Definition g_load_one (i : nat) (name : str) (s : wst) : res (bool * wst) :=
  match g_get_ptr i s with
  | Some _ => Ok (true, s)
  | None =>
      r <- g_sym name s ;;
      let '(p, s) := r in
      Ok (non_null p, g_set_ptr i p s)
  end.
(** gdo_load_symbol, c.c:500-528 *)
Definition g_load_symbol (num : Z) (s : wst) : res (bool * wst) :=
  let s := g_clear_error s in
  if negb (g_lib_is_loaded s) then Ok (false, g_set_no_library s) else
  match (if Z.ltb num 0 then None else nth_error (k_names k) (Z.to_nat num)) with
  | Some name => g_load_one (Z.to_nat num) name s
  | None => Ok (false, g_print_errbuf ($"unknown symbol number: " ++ int_to_string num) (g_set_errno error_not_found s))
  end.
(** c.c:557-568 *)
Fixpoint g_find_symbol (names : list str) (i : nat) (symbol : str) (s : wst) : option (res (bool * wst)) :=
  match names with
  | [] => None
  | curr :: names' =>
      if Nat.eqb (length symbol) (length curr) && str_eqb (skipn (length (k_prefix k)) symbol) (skipn (length (k_prefix k)) curr)
      then Some (g_load_one i curr s)
      else g_find_symbol names' (S i) symbol s
  end.
(** gdo_load_symbol_name, c.c:536-576 *)
Definition g_load_symbol_name (symbol : option str) (s : wst) : res (bool * wst) :=
  let s := g_clear_error s in
  if negb (g_lib_is_loaded s) then Ok (false, g_set_no_library s) else
  match symbol with
  | None | Some [] => Ok (false, g_save_to_errbuf $"empty symbol name" (g_set_errno error_invalid_parameter s))
  | Some name =>
      let unknown := Ok (false, g_print_errbuf ($"unknown symbol: " ++ name) (g_set_errno error_not_found s)) in
      if Nat.eqb (length (k_prefix k)) 0 || starts_with (k_prefix k) name then
        match g_find_symbol (k_names k) 0 name s with Some r => r | None => unknown end
      else unknown
  end.

(** gdo_last_error, c.c:584-624 *)
Definition g_last_error (s : wst) : str * wst :=
  match g_formatted s with
  | _ :: _ => (g_formatted s, s)
  | [] =>
      let m := match v_format w (g_errno s) with
               | Some buf => match g_errbuf s with [] => c_str buf | e => e ++ $": " ++ c_str buf end
               | None =>
                   let code := $"error code: " ++ nat_to_string (N.to_nat (g_errno s)) in
                   match g_errbuf s with [] => code | e => e ++ $": " ++ code end
               end in
      let s := g_with_error (g_errbuf s) (cut (x_fbuf k) m) (g_errno s) s in
      (g_formatted s, s)
  end.

(** gdo_library_path, c.c:642-684, with _gdo_library_path, c.c:688-700.  GetModuleFileName() returns 0 when it fails and the
    size of the buffer when the path was cut; in the end the buffer holds no path then *)
Definition g_library_path (s : wst) : option str * wst :=
  let s := g_clear_error s in
  match g_handle s with
  | None => (None, g_set_no_library s)
  | Some h =>
      match g_libpath s with
      | _ :: _ => (Some (g_libpath s), s)
      | [] =>
          let r := v_module w (g_trace s) h in
          let s := g_log (EvInfo h (option_map Some r)) s in
          let p := match r with Some p => c_str p | None => [] end in
          if Nat.eqb (length p) 0 || Nat.leb (k_buflen k) (length p) then
            (None, g_with_libpath [] (g_save_error (if x_wide k then $"GetModuleFileNameW()" else $"GetModuleFileNameA()") s))
          else (Some p, g_with_libpath p s)
      end
  end.

(** _gdo_print_error, c.c:884-897: with a message box the text is put into errbuf first, which the message given never lies in *)
Definition g_print_error (fmt sym msg : str) (s : wst) : res wst :=
  t <- format_s fmt [sym; msg] ;;
  if x_box k
  then Ok (g_show (cut (k_buflen k) t) (g_with_error (cut (k_buflen k) t) (g_formatted s) (g_errno s) s))
  else Ok (g_show (t ++ [nl]) s).

(** exit() *)
Definition g_exit_program (code : nat) (s : wst) : wst :=
  g_with_end (Exited code) (Nat.iter (registrations (g_trace s)) g_force_free_lib s).
(** _gdo_wrap_check_loaded, c.c:907-967 *)
Definition g_check_loaded (i : nat) (name : str) (s : wst) : res (bool * wst) :=
  match g_get_ptr i s with
  | Some _ => Ok (true, s)
  | None =>
      match k_auto k with
      | AutoOff =>
          s <- g_print_error $"fatal error: %s: %s" name (if g_lib_is_loaded s then $"symbol not loaded" else $"library not loaded") s ;;
          Ok (false, g_with_end Aborted s)
      | _ =>
          let s := snd (g_enable_autorelease s) in
          let s := if g_lib_is_loaded s then s else snd (g_load_lib s) in
          r <- (match k_auto k with AutoLazy => g_load_symbol (Z.of_nat i) s | _ => g_load_all_symbols s end) ;;
          let '(ok, s) := r in
          if ok then Ok (true, s) else
          let '(msg, s) := g_last_error s in
          s <- (match find (k_lib k) msg with
                | Some _ => g_print_error $"error: %s: %s" name msg s
                | None => g_print_error ($"error: " ++ k_lib k ++ $": %s: %s") name msg s
                end) ;;
          Ok (false, g_exit_program 1 (g_force_free_lib s))
      end
  end.
(** a generated wrapper function, c.h:258-263 *)
Definition g_wrapped (i : nat) (args : list nat) (s : wst) : res wst :=
  match nth_error (k_names k) i with
  | None => Ok s
  | Some name =>
      r <- g_check_loaded i name s ;;
      let '(ok, s) := r in
      if ok then match g_get_ptr i s with Some p => Ok (g_log (EvCall p args) s) | None => UB end
      else Ok s
  end.

Definition g_then_symbols (r : bool * wst) : res (value * wst) :=
  let '(ok, s) := r in
  if ok then r <- g_load_all_symbols s ;; Ok (VBool (fst r), snd r) else Ok (VBool false, s).
Definition g_call (o : op) (s : wst) : res (value * wst) :=
  let b (r : bool * wst) : res (value * wst) := Ok (VBool (fst r), snd r) in
  let rb (r : res (bool * wst)) : res (value * wst) := r <- r ;; Ok (VBool (fst r), snd r) in
  match o with
  | LoadLib => b (g_load_lib s)
  | LoadLibAndSymbols => g_then_symbols (g_load_lib s)
  | LoadLibName f => b (g_load_lib_name (c_arg f) s)
  | LoadLibNameAndSymbols f => g_then_symbols (g_load_lib_name (c_arg f) s)
  | LoadLibArgs f fl _ => b (g_load_lib_args (c_arg f) fl s)
  | IsLoaded => Ok (VBool (g_lib_is_loaded s), s)
  | FreeLib => b (g_free_lib s)
  | ForceFreeLib => Ok (VNone, g_force_free_lib s)
  | EnableAutorelease => b (g_enable_autorelease s)
  | LoadAllSymbols => rb (g_load_all_symbols s)
  | LoadSymbol n => rb (g_load_symbol n s)
  | LoadSymbolName n => rb (g_load_symbol_name (c_arg n) s)
  | AllLoaded => Ok (VBool (g_all_loaded s), s)
  | NoneLoaded => Ok (VBool (g_none_loaded s), s)
  | AnyLoaded => Ok (VBool (g_any_loaded s), s)
  | LastError => let '(m, s) := g_last_error s in Ok (VStr (Some m), s)
  | LibraryPath => let '(p, s) := g_library_path s in Ok (VStr p, s)
  | Wrapped i args => s <- g_wrapped i args s ;; Ok (VNone, s)
  | Exit c => Ok (VNone, g_exit_program c s)
  end.
(** nothing happens once the program has ended *)
Definition g_step (s : wst) (o : op) : res wst :=
  match g_end s with Some _ => Ok s | None => r <- g_call o s ;; Ok (snd r) end.
Definition g_run (ops : list op) : res wst := fold_left (fun r o => s <- r ;; g_step s o) ops (Ok (g_init k)).
End WINAPI.

(** dlfcn-win32 (GDO_USE_DLOPEN on Windows): the error handling is that of CRuntime.v, messages are shown in the Windows way.
    [_gdo_print_error], c.c:884-897, gets a pointer to the message: *)
Inductive message := InErrbuf | Literal (t : str).
(** _sntprintf_s(gdo_hndl.errbuf, ..., fmt, sym, msg): the objects must not overlap *)
Definition d_print_error (box : bool) (fmt sym : str) (m : message) (s : st) : res st :=
  match m with
  | InErrbuf => if box then UB else t <- format_s fmt [sym; s_errbuf s] ;; Ok (log (EvPrint (t ++ [nl])) s)
  | Literal x => t <- format_s fmt [sym; x] ;; Ok (log (EvPrint (if box then t else t ++ [nl])) s)
  end.
(** the end of _gdo_wrap_check_loaded after a failed automatic loading, c.c:940-947; gdo_last_error() returns gdo_hndl.errbuf,
    c.c:627-631 *)
Definition d_report (box : bool) (k : rconf) (name : str) (s : st) : res st :=
  let '(msg, s) := last_error k s in
  match find (k_lib k) msg with
  | Some _ => d_print_error box $"error: %s: %s" name InErrbuf s
  | None => d_print_error box ($"error: " ++ k_lib k ++ $": %s: %s") name InErrbuf s
  end.

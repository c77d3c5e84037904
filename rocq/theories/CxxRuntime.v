(** The generated C++ class gdo::dl, dlfcn variant: /repo/src/templates/cxx.hpp, cxx.cpp, common.c.  Definitions only.
    The template is modelled after substitution, for an arbitrary list of symbols.  The handle and the symbol pointers are
    shared by all objects; the rest belongs to an object.  The dynamic loader is the [world] of CRuntime.v, the macros are
    its [rconf].  Not modelled: the WINAPI and AIX branches, a message callback other than the default one, calls from
    several threads, destruction during stack unwinding. *)
From Coq Require Import Ascii String List Bool Arith ZArith.
From Verif Require Import Str CRuntime.
Import ListNotations.

(** the members of an object, cxx.hpp:95-100, 181.  [o_static]: the object has static storage and is destroyed by exit() *)
Record obj := mkobj {
  o_file : str; o_flags : Z; o_newns : bool; o_free : bool; o_libpath : str; o_err : str; o_static : bool
}.
(** m_handle, cxx.hpp:88, cxx.cpp:39; the symbol pointers, cxx.cpp:43-44; the history of calls, newest first *)
Record shared := mkshared { h_handle : option ptr; h_ptrs : list (option ptr); h_trace : list event }.

Section CXX.
Variables (k : rconf) (w : world).

(** a member function works on its object and the shared part *)
Definition focus := (obj * shared)%type.
Definition with_err (m : str) (s : focus) : focus :=
  let o := fst s in (mkobj (o_file o) (o_flags o) (o_newns o) (o_free o) (o_libpath o) m (o_static o), snd s).
Definition with_path (p : str) (s : focus) : focus :=
  let o := fst s in (mkobj (o_file o) (o_flags o) (o_newns o) (o_free o) p (o_err o) (o_static o), snd s).
Definition with_request (f : str) (fl : Z) (ns : bool) (s : focus) : focus :=
  let o := fst s in (mkobj f fl ns (o_free o) (o_libpath o) (o_err o) (o_static o), snd s).
Definition with_free (b : bool) (s : focus) : focus :=
  let o := fst s in (mkobj (o_file o) (o_flags o) (o_newns o) b (o_libpath o) (o_err o) (o_static o), snd s).
Definition record (e : event) (s : focus) : focus :=
  let g := snd s in (fst s, mkshared (h_handle g) (h_ptrs g) (e :: h_trace g)).
Definition with_hndl (h : option ptr) (s : focus) : focus :=
  let g := snd s in (fst s, mkshared h (h_ptrs g) (h_trace g)).
Definition with_pointers (p : list (option ptr)) (s : focus) : focus :=
  let g := snd s in (fst s, mkshared (h_handle g) p (h_trace g)).
Definition past (s : focus) : list event := h_trace (snd s).
Definition hndl (s : focus) : option ptr := h_handle (snd s).
Definition pointers (s : focus) : list (option ptr) := h_ptrs (snd s).

(** clear_error, cxx.cpp:331-335 *)
Definition x_clear (s : focus) : focus := record (EvError (w_error w (past s))) (with_err [] s).
(** save_error, cxx.cpp:339-343: a null message gives the empty string *)
Definition x_save (s : focus) : focus :=
  let r := w_error w (past s) in
  with_err (match r with Some m => c_str m | None => [] end) (record (EvError r) s).
(** set_error_invalid_handle, cxx.cpp:347-351 *)
Definition x_no_library (s : focus) : focus := with_err $"no library was loaded" (x_clear s).
(** lib_loaded, cxx.cpp:653-656 *)
Definition x_loaded (s : focus) : bool := non_null (hndl s).

(** load_lib, cxx.cpp:355-359 *)
Definition x_load_lib (f : str) (s : focus) : focus :=
  let s := x_clear s in
  let ns := k_dlmopen k && o_newns (fst s) in
  let r := w_open w (past s) (c_str f) (o_flags (fst s)) ns in
  with_hndl r (record (EvOpen (c_str f) (o_flags (fst s)) ns r) s).
(** load_filename, cxx.cpp:517-542 *)
Definition x_load_filename (f : str) (s : focus) : bool * focus :=
  let s := x_clear s in
  if x_loaded s then (false, with_err $"library already loaded" s) else
  match f with
  | [] => (false, with_err $"empty filename" s)
  | _ => let s := x_load_lib f s in if x_loaded s then (true, s) else (false, x_save s)
  end.
(** load, cxx.cpp:591-601 and 633-642 *)
Definition x_load_args (f : str) (fl : Z) (ns : bool) (s : focus) : bool * focus :=
  let s := with_request f fl ns s in x_load_filename (o_file (fst s)) s.
Definition x_load (s : focus) : bool * focus := x_load_filename (o_file (fst s)) s.

(** all_symbols_loaded, no_symbols_loaded, any_symbol_loaded, cxx.cpp:768-803 *)
Definition x_all (s : focus) : bool := fold_left (fun b p => b && non_null p) (pointers s) true.
Definition x_none (s : focus) : bool := fold_left (fun b p => b && negb (non_null p)) (pointers s) true.
Definition x_any (s : focus) : bool := fold_left (fun b p => b || non_null p) (pointers s) false.

(** sym_load, cxx.cpp:503-513; the callers have checked the handle: a null handle is left to UB *)
Definition x_sym (name : str) (s : focus) : res (option ptr * focus) :=
  match hndl s with
  | None => UB
  | Some h =>
      let r := w_sym w (past s) h name in
      let s := record (EvSym h name r) s in
      match r with Some p => Ok (Some p, s) | None => Ok (None, x_save s) end
  end.
Definition x_set (i : nat) (p : option ptr) (s : focus) : focus :=
  with_pointers (firstn i (pointers s) ++ p :: skipn (S i) (pointers s)) s.
(** the %%symbol%% lines of load_all_symbols, cxx.cpp:680-685 *)
Fixpoint x_symbols (names : list str) (i : nat) (s : focus) : res (bool * focus) :=
  match names with
  | [] => Ok (true, s)
  | n :: names' =>
      r <- x_sym n s ;;
      let '(p, s) := r in
      let s := x_set i p s in
      match p with None => Ok (false, s) | Some _ => x_symbols names' (S i) s end
  end.
(** load_all_symbols, cxx.cpp:667-688 *)
Definition x_load_all (s : focus) : res (bool * focus) :=
  let s := x_clear s in
  if x_all s then Ok (true, s) else
  if negb (x_loaded s) then Ok (false, x_no_library s) else x_symbols (k_names k) 0 s.
(** load_lib_and_symbols, cxx.cpp:646-649 *)
Definition x_load_both (s : focus) : res (bool * focus) :=
  let '(ok, s) := x_load s in if ok then x_load_all s else Ok (false, s).

(** cxx.cpp:705-710 and 751-756 *)
Definition x_one (i : nat) (name : str) (s : focus) : res (bool * focus) :=
  match nth i (pointers s) None with
  | Some _ => Ok (true, s)
  | None =>
      r <- x_sym name s ;;
      let '(p, s) := r in
      Ok (non_null p, x_set i p s)
  end.
(** load_symbol(int), cxx.cpp:692-720; the enumeration counts from 0, cxx.hpp:12-15 *)
Definition x_load_num (num : Z) (s : focus) : res (bool * focus) :=
  let s := x_clear s in
  if negb (x_loaded s) then Ok (false, x_no_library s) else
  match (if Z.ltb num 0 then None else nth_error (k_names k) (Z.to_nat num)) with
  | Some name => x_one (Z.to_nat num) name s
  | None => Ok (false, with_err ($"unknown symbol number: " ++ int_to_string num) s)
  end.
(** the %%symbol%% lines of load_symbol(const char * ), cxx.cpp:747-757: [Some] if one of them returns *)
Fixpoint x_find (names : list str) (i : nat) (symbol : str) (s : focus) : option (res (bool * focus)) :=
  match names with
  | [] => None
  | curr :: names' =>
      if Nat.eqb (length symbol) (length curr) && str_eqb (skipn (length (k_prefix k)) symbol) (skipn (length (k_prefix k)) curr)
      then Some (x_one i curr s)
      else x_find names' (S i) symbol s
  end.
(** load_symbol(const char * ), cxx.cpp:724-764 *)
Definition x_load_name (symbol : option str) (s : focus) : res (bool * focus) :=
  let s := x_clear s in
  if negb (x_loaded s) then Ok (false, x_no_library s) else
  match option_map c_str symbol with
  | None | Some [] => Ok (false, with_err $"empty symbol name" s)
  | Some name =>
      let unknown := Ok (false, with_err ($"unknown symbol: " ++ name) s) in
      if Nat.eqb (length (k_prefix k)) 0 || starts_with (k_prefix k) name then
        match x_find (k_names k) 0 name s with Some r => r | None => unknown end
      else unknown
  end.

(** free, cxx.cpp:807-841 *)
Definition x_free (force : bool) (s : focus) : bool * focus :=
  let s := x_clear s in
  let '(rv, s) :=
    match hndl s with
    | Some h => let ok := w_close w (past s) h in (ok || force, record (EvClose h ok) s)
    | None => (true, s)
    end in
  if negb rv then (false, x_save s)
  else (true, with_pointers (map (fun _ => None) (k_names k)) (with_hndl None (with_path [] s))).
(** the destructor, cxx.cpp:582-587 *)
Definition x_destroy (s : focus) : focus := if o_free (fst s) then snd (x_free true s) else s.

(** get_library_path_dlinfo, cxx.cpp:444-472; _gdo_fullpath_procmap, common.c:113-183, is one question to the world *)
Definition x_path_dlinfo (h : ptr) (s : focus) : bool * focus :=
  let r := w_info w (past s) h in
  let s := record (EvInfo h r) s in
  match r with
  | None => (false, x_save s)
  | Some name =>
      match (match name with Some n => c_str n | None => [] end) with
      | [] => (false, with_err $"dlinfo() failed to get library path" s)
      | c :: n =>
          if k_linux k && negb (Ascii.eqb c "/"%char) then
            let m := w_maps w (past s) in
            let s := record (EvMaps m) s in
            match m with
            | Some p => if Nat.ltb (length (c_str p)) (k_buflen k) then (true, with_path (c_str p) s) else (true, with_path (c :: n) s)
            | None => (true, with_path (c :: n) s)
            end
          else (true, with_path (c :: n) s)
      end
  end.
(** _gdo_call_dladdr, common.c:40-45, for the pointers in order until one gives a path, cxx.cpp:486-488 *)
Fixpoint x_addr_first (ps : list (option ptr)) (s : focus) : option str * focus :=
  match ps with
  | [] => (None, s)
  | None :: ps' => x_addr_first ps' s
  | Some p :: ps' =>
      let r := w_addr w (past s) p in
      let s := record (EvAddr p r) s in
      match (match r with Some (Some n) => c_str n | _ => [] end) with
      | [] => x_addr_first ps' s
      | c :: n => (Some (c :: n), s)
      end
  end.
(** get_library_path_dladdr, cxx.cpp:476-496 *)
Definition x_path_dladdr (s : focus) : bool * focus :=
  if x_none s then (false, with_err $"no symbols were loaded" s) else
  match x_addr_first (pointers s) s with
  | (Some p, s) => (true, with_path p s)
  | (None, s) => (false, with_err $"dladdr() failed to get library path" s)
  end.
(** library_path, cxx.cpp:939-982 *)
Definition x_library_path (s : focus) : str * focus :=
  let s := x_clear s in
  if negb (k_dlinfo k || k_dladdr k) then ([], with_err $"function not implemented" s) else
  match hndl s with
  | None => ([], x_no_library s)
  | Some h =>
      match o_libpath (fst s) with
      | _ :: _ => (o_libpath (fst s), s)
      | [] =>
          let '(ok, s) := if k_dlinfo k then x_path_dlinfo h s else (false, s) in
          if ok then (o_libpath (fst s), s) else
          let '(ok, s) := if k_dladdr k then x_path_dladdr s else (false, s) in
          if ok then (o_libpath (fst s), s) else ([], s)
      end
  end.
(** error, cxx.cpp:986-989 *)
Definition x_error (s : focus) : str := match o_err (fst s) with [] => $"no error" | m => m end.

(** the program: its objects ([None]: destroyed), numbered in the order of construction; the object _loader of
    cxx.cpp:1007-1009, if there is one; the way the program ended *)
Record cst := mkcst { c_sh : shared; c_loader : option obj; c_objs : list (option obj); c_end : option ending }.
(** default member initialisers, cxx.hpp:95-100, and the constructors, cxx.cpp:546-557 *)
Definition new_obj (f : str) (fl : Z) (ns st : bool) : obj := mkobj f fl ns true [] [] st.
Definition c_init : cst :=
  mkcst (mkshared None (map (fun _ => None) (k_names k)) [])
    (match k_auto k with AutoOff => None | _ => Some (new_obj (k_lib k) (k_flags k) false true) end) [] None.

(** exit(): objects with static storage are destroyed, the latest first; _loader is taken to be the oldest.  Their members
    are gone afterwards *)
Definition destroy_static (o : option obj) (g : shared) : shared :=
  match o with Some o => if o_static o then snd (x_destroy (o, g)) else g | None => g end.
Definition x_exit (code : nat) (s : cst) : cst :=
  let g := fold_left (fun g o => destroy_static o g) (rev (c_objs s)) (c_sh s) in
  let g := destroy_static (c_loader s) g in
  mkcst g None (map (fun o => match o with Some o => if o_static o then None else Some o | None => None end) (c_objs s)) (Some (Exited code)).

(** default_message_callback, cxx.cpp:23-30, with the text of a stringstream as a C string *)
Definition x_message (m : str) (g : shared) : shared := mkshared (h_handle g) (h_ptrs g) (EvPrint (c_str m ++ [nl]) :: h_trace g).
Definition c_with_sh (g : shared) (s : cst) : cst := mkcst g (c_loader s) (c_objs s) (c_end s).

(** wrap::not_loaded, cxx.cpp:1012-1066.  [true]: it returns *)
Definition x_not_loaded (i : nat) (name : str) (s : cst) : res (bool * cst) :=
  match k_auto k, c_loader s with
  | AutoOff, _ =>
      let m := $"fatal error: " ++ name ++ (if non_null (h_handle (c_sh s)) then $": symbol not loaded" else $": library not loaded") in
      Ok (false, mkcst (x_message m (c_sh s)) (c_loader s) (c_objs s) (Some Aborted))
  | _, None => UB
  | _, Some l =>
      let f := (l, c_sh s) in
      let f := if x_loaded f then f else snd (x_load f) in
      r <- (match k_auto k with AutoLazy => x_load_num (Z.of_nat i) f | _ => x_load_all f end) ;;
      let '(ok, f) := r in
      let s := mkcst (snd f) (Some (fst f)) (c_objs s) (c_end s) in
      if ok then Ok (true, s) else
      let msg := x_error f in
      let m := match find (k_lib k) msg with
               | Some _ => $"error: " ++ name ++ $": " ++ msg
               | None => $"error: " ++ k_lib k ++ $": " ++ name ++ $": " ++ msg
               end in
      Ok (false, x_exit 1 (c_with_sh (x_message m (c_sh s)) s))
  end.
(** a generated wrapper function, cxx.hpp:459-480; the hook macro is its default, which does nothing *)
Definition x_wrapped (i : nat) (args : list nat) (s : cst) : res cst :=
  match nth_error (k_names k) i with
  | None => Ok s
  | Some name =>
      r <- (match nth i (h_ptrs (c_sh s)) None with Some _ => Ok (true, s) | None => x_not_loaded i name s end) ;;
      let '(ok, s) := r in
      if ok then
        match nth i (h_ptrs (c_sh s)) None with
        | Some p => Ok (c_with_sh (mkshared (h_handle (c_sh s)) (h_ptrs (c_sh s)) (EvCall p args :: h_trace (c_sh s))) s)
        | None => UB
        end
      else Ok s
  end.

(** member functions *)
Inductive method :=
| XLoadArgs (file : str) (flags : Z) (newns : bool) | XLoad | XLoadBoth | XFree (force : bool)
| XLoadAll | XLoadNum (num : Z) | XLoadName (symbol : option str)
| XLoaded | XAll | XNone | XAny | XError | XFilename | XFlags | XPath | XGetFree | XSetFree (b : bool).
Inductive xvalue := XBool (b : bool) | XStr (s : str) | XInt (z : Z) | XVoid.
Definition x_method (m : method) (s : focus) : res (xvalue * focus) :=
  let b (r : bool * focus) : res (xvalue * focus) := Ok (XBool (fst r), snd r) in
  let rb (r : res (bool * focus)) : res (xvalue * focus) := r <- r ;; Ok (XBool (fst r), snd r) in
  match m with
  | XLoadArgs f fl ns => b (x_load_args f fl ns s)
  | XLoad => b (x_load s)
  | XLoadBoth => rb (x_load_both s)
  | XFree force => b (x_free force s)
  | XLoadAll => rb (x_load_all s)
  | XLoadNum n => rb (x_load_num n s)
  | XLoadName n => rb (x_load_name n s)
  | XLoaded => Ok (XBool (x_loaded s), s)
  | XAll => Ok (XBool (x_all s), s)
  | XNone => Ok (XBool (x_none s), s)
  | XAny => Ok (XBool (x_any s), s)
  | XError => Ok (XStr (x_error s), s)
  | XFilename => Ok (XStr (o_file (fst s)), s)
  | XFlags => Ok (XInt (o_flags (fst s)), s)
  | XPath => let '(p, s) := x_library_path s in Ok (XStr p, s)
  | XGetFree => Ok (XBool (o_free (fst s)), s)
  | XSetFree v => Ok (XVoid, with_free v s)
  end.

(** what a program does: construct (the implicit copy constructor included), assign (implicit), destroy, call a member
    function, call a wrapper, end *)
Inductive xop :=
| XNew (file : option str) (flags : Z) (newns st : bool) | XCopy (i : nat) (st : bool) | XAssign (i j : nat) | XDelete (i : nat)
| XOn (i : nat) (m : method) | XWrapped (i : nat) (args : list nat) | XExit (code : nat).
Definition live (i : nat) (s : cst) : option obj := match nth_error (c_objs s) i with Some o => o | None => None end.
Definition put (i : nat) (o : option obj) (g : shared) (s : cst) : cst :=
  mkcst g (c_loader s) (firstn i (c_objs s) ++ o :: skipn (S i) (c_objs s)) (c_end s).
Definition add (o : obj) (s : cst) : cst := mkcst (c_sh s) (c_loader s) (c_objs s ++ [Some o]) (c_end s).
(** using an object that was not constructed or was destroyed is undefined *)
Definition x_call (o : xop) (s : cst) : res (xvalue * cst) :=
  match o with
  | XNew None _ _ st => Ok (XVoid, add (new_obj [] (k_flags k) false st) s)
  | XNew (Some f) fl ns st => Ok (XVoid, add (new_obj f fl ns st) s)
  | XCopy i st =>
      match live i s with
      | Some o => Ok (XVoid, add (mkobj (o_file o) (o_flags o) (o_newns o) (o_free o) (o_libpath o) (o_err o) st) s)
      | None => UB
      end
  | XAssign i j =>
      match live i s, live j s with
      | Some a, Some o => Ok (XVoid, put i (Some (mkobj (o_file o) (o_flags o) (o_newns o) (o_free o) (o_libpath o) (o_err o) (o_static a))) (c_sh s) s)
      | _, _ => UB
      end
  | XDelete i =>
      match live i s with Some o => Ok (XVoid, put i None (snd (x_destroy (o, c_sh s))) s) | None => UB end
  | XOn i m =>
      match live i s with
      | Some o => r <- x_method m (o, c_sh s) ;; let '(v, f) := r in Ok (v, put i (Some (fst f)) (snd f) s)
      | None => UB
      end
  | XWrapped i args => s <- x_wrapped i args s ;; Ok (XVoid, s)
  | XExit c => Ok (XVoid, x_exit c s)
  end.
(** nothing happens once the program has ended *)
Definition x_step (s : cst) (o : xop) : res cst :=
  match c_end s with Some _ => Ok s | None => r <- x_call o s ;; Ok (snd r) end.
Definition x_run (ops : list xop) : res cst := fold_left (fun r o => s <- r ;; x_step s o) ops (Ok c_init).
End CXX.

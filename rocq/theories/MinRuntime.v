(** The small generated loaders, dlfcn variants: /repo/src/templates/minimal.h, minimal_cxxeh.hpp and plugin.c.  Definitions
    only.  The templates are modelled after substitution, for an arbitrary list of symbols.  The dynamic loader is the
    [world] of CRuntime.v.  Not modelled: the WINAPI and AIX branches, calls from several threads. *)
From Coq Require Import Ascii String List Bool Arith ZArith.
From Verif Require Import Str CRuntime.
Import ListNotations.

(* ------------------------------------------------------------ minimal.h, minimal_cxxeh.hpp *)

(** gdo_hndl, minimal.h:18-32; the variables of namespace gdo, minimal_cxxeh.hpp:38-50; with the history of loader calls,
    newest first *)
Record mst := mkmst { m_handle : option ptr; m_ptrs : list (option ptr); m_trace : list event }.

(** why loading failed *)
Inductive mfailure := NullName | EmptyName | NotOpened (file : str) | NotFound (symbol : str).
(** the string the C function returns, minimal.h:65-98 *)
Definition c_message (e : mfailure) : str :=
  match e with
  | NullName => $"filename is <NULL>"
  | EmptyName => $"filename is empty"
  | NotOpened _ => $"failed to load library"
  | NotFound s => $"failed to load symbol: " ++ s
  end.
(** the exception the C++ function throws, minimal_cxxeh.hpp:104-140 *)
Inductive mexception := LibraryError (what : str) | SymbolError (what : str).
Definition cxx_exception (e : mfailure) : mexception :=
  match e with
  | NullName => LibraryError $"<NULL>"
  | EmptyName => LibraryError $"<EMPTY>"
  | NotOpened f => LibraryError f
  | NotFound s => SymbolError s
  end.

Section Minimal.
(** the symbols in the order of the %%symbol%% lines, the value of RTLD_LAZY, the dynamic loader *)
Variables (names : list str) (rtld_lazy : Z) (w : world).

(** static storage: all zero *)
Definition m_init : mst := mkmst None (map (fun _ => None) names) [].

(** gdo_free_library, minimal.h:39-51, minimal_cxxeh.hpp:57-69: the result of dlclose is ignored *)
Definition m_free (s : mst) : mst :=
  mkmst None (map (fun _ => None) names)
    (match m_handle s with
     | Some h => EvClose h (w_close w (m_trace s) h) :: m_trace s
     | None => m_trace s
     end).

(** the %%symbol%% lines, minimal.h:90-98, minimal_cxxeh.hpp:132-140, from the [i]-th symbol on.  A null handle cannot be
    passed to dlsym: the caller has checked it *)
Fixpoint m_symbols (todo : list str) (i : nat) (h : ptr) (s : mst) : option mfailure * mst :=
  match todo with
  | [] => (None, s)
  | n :: todo' =>
      let r := w_sym w (m_trace s) h n in
      let s := mkmst (m_handle s) (firstn i (m_ptrs s) ++ r :: skipn (S i) (m_ptrs s)) (EvSym h n r :: m_trace s) in
      match r with
      | Some _ => m_symbols todo' (S i) h s
      | None => (Some (NotFound n), m_free s)
      end
  end.
(** gdo_load_library_and_symbols, minimal.h:63-103; load_library_and_symbols, minimal_cxxeh.hpp:102-141.  [None]: success *)
Definition m_load (file : option str) (s : mst) : option mfailure * mst :=
  match option_map c_str file with
  | None => (Some NullName, s)
  | Some [] => (Some EmptyName, s)
  | Some f =>
      let r := w_open w (m_trace s) f rtld_lazy false in
      let s := mkmst r (m_ptrs s) (EvOpen f rtld_lazy false r :: m_trace s) in
      match r with
      | None => (Some (NotOpened f), s)
      | Some h => m_symbols names 0 h s
      end
  end.

(** what a program does: it calls the two functions, and library functions through their aliases (minimal.h:111-112,
    minimal_cxxeh.hpp:151-152), which are the bare pointers *)
Inductive mop := MLoad (file : option str) | MFree | MCall (i : nat) (args : list nat).
Definition m_step (s : mst) (o : mop) : res mst :=
  match o with
  | MLoad f => Ok (snd (m_load f s))
  | MFree => Ok (m_free s)
  | MCall i args =>
      match nth i (m_ptrs s) None with
      | Some p => Ok (mkmst (m_handle s) (m_ptrs s) (EvCall p args :: m_trace s))
      | None => UB
      end
  end.
Definition m_run (ops : list mop) : res mst := fold_left (fun r o => s <- r ;; m_step s o) ops (Ok m_init).
End Minimal.

(* ------------------------------------------------------------ plugin.c *)

(** gdo_handle_t, plugin.h:23-34 *)
Record plugin_entry := mkentry { pl_name : option str; pl_handle : option ptr; pl_ptrs : list (option ptr) }.

(** A program and the plugin lists it got: [None] is a list that was released.  A null result of gdo_load_plugins is not in
    the list.  [p_allocs]: how many allocations were made *)
Record pst := mkpst { p_lists : list (option (list plugin_entry)); p_trace : list event; p_allocs : nat }.

Section Plugins.
(** the symbols, GDO_DEFAULT_FLAGS, the dynamic loader, and whether the [n]-th allocation succeeds *)
Variables (names : list str) (flags : Z) (w : world) (memory : nat -> bool).

Definition p_init : pst := mkpst [] [] 0.
(** calloc leaves everything null, plugin.c:37 *)
Definition null_entry : plugin_entry := mkentry None None (map (fun _ => None) names).

(** the %%symbol%% lines, plugin.c:52-56 *)
Fixpoint p_symbols (todo : list str) (h : ptr) (t : list event) : list (option ptr) * list event :=
  match todo with
  | [] => ([], t)
  | n :: todo' =>
      let r := w_sym w t h n in
      let '(ps, t) := p_symbols todo' h (EvSym h n r :: t) in
      (r :: ps, t)
  end.
(** the body of the loop, plugin.c:40-56 *)
Definition p_entry (file : option str) (t : list event) (a : nat) : plugin_entry * list event * nat :=
  match option_map c_str file with
  | None | Some [] => (null_entry, t, a)
  | Some f =>
      let name := if memory a then Some f else None in
      let r := w_open w t f flags false in
      let t := EvOpen f flags false r :: t in
      match r with
      | None => (mkentry name None (map (fun _ => None) names), t, S a)
      | Some h => let '(ps, t) := p_symbols names h t in (mkentry name (Some h) ps, t, S a)
      end
  end.
(** the loop, plugin.c:39-57: [num] files from [files] on; reading past the end of the array is undefined *)
Fixpoint p_entries (num : nat) (files : list (option str)) (t : list event) (a : nat) : res (list plugin_entry * list event * nat) :=
  match num with
  | 0 => Ok ([], t, a)
  | S num =>
      match files with
      | [] => UB
      | f :: files =>
          let '(e, t, a) := p_entry f t a in
          r <- p_entries num files t a ;;
          let '(es, t, a) := r in
          Ok (e :: es, t, a)
      end
  end.
(** gdo_load_plugins, plugin.c:28-60: neither allocation is checked *)
Definition load_plugins (files : option (list (option str))) (num : nat) (s : pst) : res (option (list plugin_entry) * pst) :=
  match files, num with
  | None, _ | _, 0 => Ok (None, s)
  | Some files, _ =>
      if memory (p_allocs s) && memory (S (p_allocs s)) then
        (r <- p_entries num files (p_trace s) (S (S (p_allocs s))) ;;
         let '(es, t, a) := r in
         Ok (Some es, mkpst (p_lists s) t a))
      else UB
  end.
(** gdo_release_plugins, plugin.c:64-80, for a list that was not released *)
Fixpoint p_close (es : list plugin_entry) (t : list event) : list event :=
  match es with
  | [] => t
  | e :: es =>
      p_close es (match pl_handle e with Some h => EvClose h (w_close w t h) :: t | None => t end)
  end.
Definition release_plugins (i : nat) (s : pst) : res pst :=
  match nth_error (p_lists s) i with
  | Some (Some es) => Ok (mkpst (firstn i (p_lists s) ++ None :: skipn (S i) (p_lists s)) (p_close es (p_trace s)) (p_allocs s))
  | Some None => UB
  | None => UB
  end.

(** what a program does: it loads lists, releases them ([None]: a null pointer), and calls functions through the pointers of
    an entry *)
Inductive pop := PLoad (files : option (list (option str))) (num : nat) | PRelease (i : option nat) | PCall (i j n : nat) (args : list nat).
Definition p_step (s : pst) (o : pop) : res pst :=
  match o with
  | PLoad files num =>
      r <- load_plugins files num s ;;
      let '(l, s) := r in
      match l with
      | Some es => Ok (mkpst (p_lists s ++ [Some es]) (p_trace s) (p_allocs s))
      | None => Ok s
      end
  | PRelease None => Ok s
  | PRelease (Some i) => release_plugins i s
  | PCall i j n args =>
      match nth_error (p_lists s) i with
      | Some (Some es) =>
          match nth_error es j with
          | Some e => match nth n (pl_ptrs e) None with
                      | Some p => Ok (mkpst (p_lists s) (EvCall p args :: p_trace s) (p_allocs s))
                      | None => UB
                      end
          | None => UB
          end
      | _ => UB
      end
  end.
Definition p_run (ops : list pop) : res pst := fold_left (fun r o => s <- r ;; p_step s o) ops (Ok p_init).
End Plugins.

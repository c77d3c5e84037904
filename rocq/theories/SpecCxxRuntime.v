(** What the properties of the generated C++ class (C45, C68 to C73) are about. *)
From Coq Require Import Ascii String List Bool Arith ZArith.
From Verif Require Import Str CRuntime SpecCRuntime MinRuntime SpecMinRuntime CxxRuntime.
Import ListNotations.

Definition x_reachable (k : rconf) (w : world) (s : cst) : Prop := exists ops, x_run k w ops = Ok s.
(** the history, handle and pointers of a program *)
Definition x_past (s : cst) : list event := h_trace (c_sh s).
Definition x_handle (s : cst) : option ptr := h_handle (c_sh s).
Definition x_ptr (i : nat) (s : cst) : option ptr := nth i (h_ptrs (c_sh s)) None.
(** the [i]-th object of a program and its last error message (empty: none) *)
Definition x_object (i : nat) (s : cst) (o : obj) : Prop := nth_error (c_objs s) i = Some (Some o).
(** member functions whose result is a success report, and those that open a library *)
Definition x_reports (m : method) : bool :=
  match m with XLoadArgs _ _ _ | XLoad | XLoadBoth | XFree _ | XLoadAll | XLoadNum _ | XLoadName _ => true | _ => false end.
Definition x_opens (m : method) : bool := match m with XLoadArgs _ _ _ | XLoad | XLoadBoth => true | _ => false end.
(** operations that may release a library the loader refuses to close *)
Definition x_forces (o : xop) : bool := match o with XOn _ (XFree true) | XDelete _ => true | _ => false end.
(** operations on objects that exist *)
Definition x_valid (s : cst) (o : xop) : Prop :=
  match o with
  | XCopy i _ | XDelete i | XOn i _ => exists o, x_object i s o
  | XAssign i j => (exists o, x_object i s o) /\ (exists o, x_object j s o)
  | _ => True
  end.
(** the names in the process map are not empty *)
Definition maps_named (w : world) : Prop := forall t p, w_maps w t = Some p -> c_str p <> [].

(** operations that may give up the library: free(), and the destructor of an object whose free_lib_in_dtor is set *)
Definition x_releases (s : cst) (o : xop) : Prop :=
  match o with
  | XOn _ (XFree _) | XExit _ => True
  | XDelete i => exists o, x_object i s o /\ o_free o = true
  | _ => False
  end.
(** programs still running in which the library was only given up through an object while there was no other *)
Inductive lone_releases (k : rconf) (w : world) : cst -> Prop :=
| lone_start : lone_releases k w (c_init k)
| lone_next s o v s' : lone_releases k w s -> x_call k w o s = Ok (v, s') -> c_end s' = None ->
    (forall i f, o = XOn i (XFree f) \/ o = XDelete i -> x_releases s o -> forall j x, x_object j s x -> j = i) ->
    lone_releases k w s'.
(** operations that replace what object [i] is asked to load, or the object *)
Definition x_requests (i : nat) (o : xop) : bool :=
  match o with XOn j (XLoadArgs _ _ _) | XAssign j _ | XDelete j => Nat.eqb i j | _ => false end.
(** what a call of load(), load_lib_and_symbols() or load(file, flags, namespace) on an object asks for *)
Definition x_asked (o : obj) (m : method) : str * Z * bool :=
  match m with XLoadArgs f fl ns => (f, fl, ns) | _ => (o_file o, o_flags o, o_newns o) end.
(** what each object of a program was told (file, flags, namespace, free_lib_in_dtor), from the program's text alone: no
    outcome of a call matters.  A copied or assigned object takes over what the original was told. *)
Definition told : Type := (str * Z * bool * bool)%type.
Definition told_set (i : nat) (x : option told) (l : list (option told)) : list (option told) := firstn i l ++ x :: skipn (S i) l.
Definition x_told (k : rconf) (l : list (option told)) (o : xop) : list (option told) :=
  match o with
  | XNew None _ _ _ => l ++ [Some ([], k_flags k, false, true)]
  | XNew (Some f) fl ns _ => l ++ [Some (f, fl, ns, true)]
  | XCopy i _ => l ++ [nth i l None]
  | XAssign i j => told_set i (nth j l None) l
  | XDelete i => told_set i None l
  | XOn i (XLoadArgs f fl ns) => told_set i (option_map (fun t => (f, fl, ns, snd t)) (nth i l None)) l
  | XOn i (XSetFree b) => told_set i (option_map (fun t => (fst t, b)) (nth i l None)) l
  | _ => l
  end.
Definition x_settings (o : obj) : told := (o_file o, o_flags o, o_newns o, o_free o).

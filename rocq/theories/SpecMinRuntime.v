(** What the properties of the small generated loaders (C43, C44) are about.  Histories are newest first. *)
From Coq Require Import Ascii String List Bool Arith ZArith.
From Verif Require Import Str CRuntime SpecCRuntime MinRuntime.
Import ListNotations.

(** every answer in the history is the one the loader gave at that time *)
Fixpoint honest (w : world) (t : list event) : Prop :=
  match t with
  | [] => True
  | e :: older =>
      match e with
      | EvOpen f fl ns r => r = w_open w older f fl ns
      | EvSym h n r => r = w_sym w older h n
      | EvClose h ok => ok = w_close w older h
      | EvError r => r = w_error w older
      | EvAtexit ok => ok = w_atexit w older
      | EvInfo h r => r = w_info w older h
      | EvAddr p r => r = w_addr w older p
      | EvMaps r => r = w_maps w older
      | EvPrint _ | EvCall _ _ => True
      end /\ honest w older
  end.

(** the loader was asked for each of these symbols in turn and found them here *)
Definition found (h : ptr) (names : list str) (ps : list ptr) : list event :=
  map (fun np => EvSym h (fst np) (Some (snd np))) (combine names ps).
Definition is_call (e : event) : Prop := match e with EvCall _ _ => True | _ => False end.
Definition nothing_loaded (s : mst) : Prop := m_handle s = None /\ forall i, nth i (m_ptrs s) None = None.
Definition m_reachable (names : list str) (fl : Z) (w : world) (s : mst) : Prop := exists ops, m_run names fl w ops = Ok s.
(** a program that loads only when nothing is loaded *)
Definition releases_first (names : list str) (fl : Z) (w : world) (ops : list mop) : Prop :=
  forall pre f post s, ops = pre ++ MLoad f :: post -> m_run names fl w pre = Ok s -> m_handle s = None.

(** what one file of a plugin list leads to: the entry, and the events in the order they happen *)
Inductive plugin_of (names : list str) (fl : Z) : option str -> plugin_entry -> list event -> Prop :=
| no_name f : (f = None \/ exists n, f = Some n /\ c_str n = []) -> plugin_of names fl f (mkentry None None (map (fun _ => None) names)) []
| no_library n name : c_str n <> [] -> (name = Some (c_str n) \/ name = None) ->
    plugin_of names fl (Some n) (mkentry name None (map (fun _ => None) names)) [EvOpen (c_str n) fl false None]
| library n name h ps : c_str n <> [] -> (name = Some (c_str n) \/ name = None) -> length ps = length names ->
    plugin_of names fl (Some n) (mkentry name (Some h) ps)
      (EvOpen (c_str n) fl false (Some h) :: map (fun np => EvSym h (fst np) (snd np)) (combine names ps)).
(** ... and a list of files *)
Inductive plugins_of (names : list str) (fl : Z) : list (option str) -> list plugin_entry -> list event -> Prop :=
| no_files : plugins_of names fl [] [] []
| more_files f fs e es l ls : plugin_of names fl f e l -> plugins_of names fl fs es ls -> plugins_of names fl (f :: fs) (e :: es) (l ++ ls).

(** the handles of a plugin list, and of all lists a program holds *)
Definition handles_of (es : list plugin_entry) : list ptr :=
  concat (map (fun e => match pl_handle e with Some h => [h] | None => [] end) es).
Definition held (s : pst) : list ptr := concat (map (fun l => match l with Some es => handles_of es | None => [] end) (p_lists s)).
(** the handles passed to dlclose, in the order of the calls *)
Definition closed (l : list event) : list ptr := concat (map (fun e => match e with EvClose h _ => [h] | _ => [] end) l).
Definition is_close (e : event) : Prop := match e with EvClose _ _ => True | _ => False end.
Definition p_reachable (names : list str) (fl : Z) (w : world) (mem : nat -> bool) (s : pst) : Prop := exists ops, p_run names fl w mem ops = Ok s.
(** a program that hands over as many files as it says, releases and uses only lists it holds, and calls only functions that
    were found *)
Definition careful (s : pst) (o : pop) : Prop :=
  match o with
  | PLoad (Some files) num => num <= length files
  | PLoad None _ | PRelease None => True
  | PRelease (Some i) => exists es, nth_error (p_lists s) i = Some (Some es)
  | PCall i j n _ => exists es e p, nth_error (p_lists s) i = Some (Some es) /\ nth_error es j = Some e /\ nth n (pl_ptrs e) None = Some p
  end.

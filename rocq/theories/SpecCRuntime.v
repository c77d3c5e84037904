(** What the properties of the generated C API (C35 to C42, C50 to C52) are about: the history of calls to the dynamic loader.
    Histories are newest first. *)
From Coq Require Import Ascii String List Bool Arith ZArith.
From Verif Require Import Str SpecFormat CRuntime.
Import ListNotations.

(** the handles opened and not yet closed, one entry per opening *)
Fixpoint remove_one (h : ptr) (l : list ptr) : list ptr :=
  match l with [] => [] | x :: l => if Nat.eqb h x then l else x :: remove_one h l end.
Fixpoint open_handles (t : list event) : list ptr :=
  match t with
  | [] => []
  | EvOpen _ _ _ (Some h) :: t => h :: open_handles t
  | EvClose h true :: t => remove_one h (open_handles t)
  | _ :: t => open_handles t
  end.
(** how many libraries were opened and closed *)
Definition opens (t : list event) : nat := length (filter (fun e => match e with EvOpen _ _ _ (Some _) => true | _ => false end) t).
Definition closes (t : list event) : nat := length (filter (fun e => match e with EvClose _ true => true | _ => false end) t).
Definition refused (e : event) : Prop := exists h, e = EvClose h false.
(** a handle is only passed to the loader while it is open *)
Fixpoint uses_open (t : list event) : Prop :=
  match t with
  | [] => True
  | e :: older =>
      match e with EvSym h _ _ | EvClose h _ | EvInfo h _ => In h (open_handles older) | _ => True end /\ uses_open older
  end.

(** the library opened last, unless a library was closed since, with the events since *)
Fixpoint session (t : list event) : option (ptr * list event) :=
  match t with
  | [] => None
  | EvOpen _ _ _ (Some h) :: _ => Some (h, [])
  | EvClose _ true :: _ => None
  | e :: older => match session older with Some (h, l) => Some (h, e :: l) | None => None end
  end.
(** the loader's latest answer for a name *)
Fixpoint last_answer (h : ptr) (name : str) (l : list event) : option ptr :=
  match l with
  | [] => None
  | EvSym h' n r :: older => if Nat.eqb h h' && str_eqb name n then r else last_answer h name older
  | _ :: older => last_answer h name older
  end.
(** a path the system named for the library since it was opened *)
Definition named_path (h : ptr) (p : str) (l : list event) : Prop :=
  exists n, c_str n = p /\
    (In (EvInfo h (Some (Some n))) l \/ In (EvMaps (Some n)) l \/ exists q, In (EvAddr q (Some (Some n))) l).

(** configurations the generator makes *)
Record conf_ok (k : rconf) : Prop := {
  ok_nodup : NoDup (k_names k);
  ok_text : Forall (fun n => c_str n = n /\ n <> []) (k_names k);
  ok_prefix : Forall (fun n => exists r, n = k_prefix k ++ r) (k_names k);
  ok_buf : 2 <= k_buflen k
}.
(** autoload messages use the library name as a format *)
Definition lib_printable (k : rconf) : Prop := k_auto k = AutoOff \/ ~ In "%"%char (k_lib k).

(** the loader explains its failures *)
Definition failure (e : event) : Prop :=
  match e with
  | EvOpen _ _ _ None | EvSym _ _ None | EvClose _ false | EvInfo _ None => True
  | _ => False
  end.
Definition explains (w : world) : Prop :=
  forall e t, failure e -> exists m, w_error w (e :: t) = Some m /\ c_str m <> [].
Definition never_refuses (w : world) : Prop := forall t h, w_close w t h = true.
(** the loader names no path that does not fit the buffer *)
Definition paths_fit (k : rconf) (w : world) : Prop :=
  (forall t h n, w_info w t h = Some (Some n) -> length (c_str n) < k_buflen k) /\
  (forall t p n, w_addr w t p = Some (Some n) -> length (c_str n) < k_buflen k).

(** states a program can reach *)
Definition reachable (k : rconf) (w : world) (s : st) : Prop := exists ops, run k w ops = Ok s.
(** what was added to the history *)
Definition added (s s' : st) (new : list event) : Prop := s_trace s' = new ++ s_trace s.
(** the operations whose Boolean result is a success report *)
Definition reports (o : op) : bool :=
  match o with
  | LoadLib | LoadLibAndSymbols | LoadLibName _ | LoadLibNameAndSymbols _ | LoadLibArgs _ _ _ | FreeLib | EnableAutorelease
  | LoadAllSymbols | LoadSymbol _ | LoadSymbolName _ => true
  | _ => false
  end.
(** the operations that open a library *)
Definition opens_library (o : op) : bool :=
  match o with
  | LoadLib | LoadLibAndSymbols | LoadLibName _ | LoadLibNameAndSymbols _ | LoadLibArgs _ _ _ => true
  | _ => false
  end.
(** events the program's user does not see: neither a message nor a call of a library function *)
Definition silent (e : event) : Prop := match e with EvPrint _ | EvCall _ _ => False | _ => True end.
(** calls that give up the library, or ask for all symbols anew *)
Definition drops (k : rconf) (o : op) : bool :=
  match o with
  | FreeLib | ForceFreeLib | Exit _ | LoadAllSymbols => true
  | Wrapped _ _ => match k_auto k with AutoOff => false | _ => true end
  | _ => false
  end.
(** what an operation asks the loader to open: file, flags, own namespace *)
Definition requested (k : rconf) (o : op) : option (option str * Z * bool) :=
  match o with
  | LoadLib | LoadLibAndSymbols => Some (Some (k_lib k), k_flags k, false)
  | LoadLibName f | LoadLibNameAndSymbols f => Some (option_map c_str f, k_flags k, false)
  | LoadLibArgs f flags newns => Some (option_map c_str f, flags, newns)
  | _ => None
  end.
Definition not_open (e : event) : Prop := match e with EvOpen _ _ _ _ => False | _ => True end.

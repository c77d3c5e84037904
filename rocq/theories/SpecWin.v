(** What the properties of the generated C API on Windows (C80 to C83) are about. *)
From Coq Require Import Ascii String List Bool Arith ZArith NArith.
From Verif Require Import Str CRuntime SpecCRuntime WinRuntime.
Import ListNotations.

(** states a program can reach *)
Definition wreachable (k : wconf) (w : wworld) (s : wst) : Prop := exists ops, g_run k w ops = Ok s.
(** FreeLibrary() returns nothing but TRUE (1) or FALSE (0) *)
Definition one_or_zero (w : wworld) : Prop := forall t h, v_free w t h = 0%Z \/ v_free w t h = 1%Z.
Definition always_frees (w : wworld) : Prop := forall t h, v_free w t h = 1%Z.

(** a file name as it is handed to LoadLibraryEx() *)
Fixpoint windows_name (f : str) : str :=
  match f with [] => [] | c :: f => (if Ascii.eqb c "/" then "\"%char else c) :: windows_name f end.
(** it can be handed over *)
Definition convertible (k : wconf) (w : wworld) (f : str) : bool := negb (x_convert k) || x_wide k || v_conv w (windows_name f).

(** a text in a buffer of [n] characters *)
Definition in_buffer (n : nat) (m : str) : str := firstn (n - 1) (c_str m).
(** the system's text for an error code, and a message about something *)
Definition system_text (w : wworld) (code : N) : str :=
  match v_format w code with Some t => c_str t | None => $"error code: " ++ nat_to_string (N.to_nat code) end.
Definition about (w : wworld) (what : str) (code : N) : str :=
  match what with [] => system_text w code | _ => what ++ $": " ++ system_text w code end.
(** what a failed call of the system was about *)
Definition subject (e : event) (what : str) : Prop :=
  match e with
  | EvOpen f _ _ None => windows_name what = f
  | EvSym _ n None => what = n
  | EvClose _ false => what = $"FreeLibrary()"
  | _ => False
  end.
(** the failures the API finds by itself: message and code *)
Definition own_failure (k : wconf) (w : wworld) (o : op) (s : wst) : option (str * N) :=
  let no_library := match g_handle s with None => Some ($"no library was loaded", 6%N) | Some _ => None end in
  match o with
  | EnableAutorelease => Some ($"atexit(): failed to register `gdo_force_free_lib()'", 0%N)
  | LoadAllSymbols => no_library
  | LoadSymbol n =>
      match no_library with
      | Some m => Some m
      | None => if (n <? 0)%Z || (Z.of_nat (length (k_names k)) <=? n)%Z then Some ($"unknown symbol number: " ++ int_to_string n, 1168%N) else None
      end
  | LoadSymbolName n =>
      match no_library with
      | Some m => Some m
      | None =>
          match option_map c_str n with
          | None | Some [] => Some ($"empty symbol name", 87%N)
          | Some n => if existsb (str_eqb n) (k_names k) then None else Some ($"unknown symbol: " ++ n, 1168%N)
          end
      end
  | _ =>
      match requested k o with
      | None => None
      | Some (f, _, _) =>
          match g_handle s with
          | Some _ => Some ($"library already loaded", 0%N)
          | None =>
              match f with
              | None | Some [] => Some ($"empty filename", 123%N)
              | Some f => if convertible k w f then None else Some (f, v_errno w (g_trace s))
              end
          end
      end
  end.
(** the program's view of the library: everything but messages *)
Definition same_library (s s' : wst) : Prop :=
  g_handle s' = g_handle s /\ g_reg s' = g_reg s /\ g_ptrs s' = g_ptrs s /\ g_libpath s' = g_libpath s /\ g_trace s' = g_trace s /\
  g_out s' = g_out s /\ g_end s' = g_end s.
(** a shown message: in a box, or as a line *)
Definition shown (k : wconf) (t : str) : str := if x_box k then in_buffer (k_buflen k) t else t ++ [nl].
Definition not_call (e : event) : Prop := match e with EvCall _ _ => False | _ => True end.
(** the error state after a call of the API.  A failed call of the system: the message names its subject, the code is the system's *)
Definition system_failed (k : wconf) (w : wworld) (s' : wst) : Prop :=
  exists e what older, g_trace s' = e :: older /\ subject e what /\ g_errbuf s' = in_buffer (k_buflen k) what /\ g_errno s' = v_errno w (g_trace s').
(** a given message and code *)
Definition said (k : wconf) (s' : wst) (m : str * N) : Prop := g_errbuf s' = in_buffer (k_buflen k) (fst m) /\ g_errno s' = snd m.
(** no error *)
Definition quiet (s' : wst) : Prop := g_errbuf s' = [] /\ g_errno s' = 0%N /\ g_formatted s' = [].

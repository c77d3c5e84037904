(** Properties C80 to C83: statements.  Proofs are in WinSim.v, WinProps.v, WinMsg.v and WinWrap.v. *)
From Coq Require Import Ascii String List Bool Arith ZArith NArith Lia.
From Verif Require Import Str CRuntime SpecCRuntime WinRuntime SpecWin WinProps WinMsg WinWrap.
Import ListNotations.

(** a world in which everything works meets every condition used below *)
Example wworlds_ok : one_or_zero wgood /\ always_frees wgood /\ conf_ok (wdemo AutoLazy true true) /\ lib_printable (wdemo AutoLazy true true).
Proof. split; [now right|]. split; [easy|]. split; [apply wdemo_ok|apply wdemo_printable]. Qed.

(* ------------------------------------------------------------ C80 *)

(** C80: on Windows too, each pointer is the system's latest answer for its symbol on the current handle, since it was opened;
    without a library all pointers are null *)
Theorem C80_pointers_belong_to_library : forall k w, conf_ok (x_conf k) -> one_or_zero w -> lib_printable k -> forall s, wreachable k w s ->
  match g_handle s with
  | None => forall i, nth i (g_ptrs s) None = None
  | Some h => exists l, session (g_trace s) = Some (h, l) /\
      forall i n, nth_error (k_names k) i = Some n -> nth i (g_ptrs s) None = last_answer h n l
  end.
Proof. exact w_pointers. Qed.
Print Assumptions C80_pointers_belong_to_library.
(** handles are passed to the system only while they are open, and the current handle is open *)
Theorem C80_no_use_after_free_partial : forall k w, conf_ok (x_conf k) -> one_or_zero w -> lib_printable k -> forall s, wreachable k w s ->
  uses_open (g_trace s) /\ opens (g_trace s) = closes (g_trace s) + length (open_handles (g_trace s)) /\
  forall h, g_handle s = Some h -> In h (open_handles (g_trace s)).
Proof. exact w_handles. Qed.
Print Assumptions C80_no_use_after_free_partial.
(** nothing is leaked, unless a release the system refused was forced *)
Theorem C80_nothing_leaked_partial : forall k w, conf_ok (x_conf k) -> one_or_zero w -> lib_printable k -> forall ops s, g_run k w ops = Ok s ->
  always_frees w \/ (~ In ForceFreeLib ops /\ g_end s = None) ->
  open_handles (g_trace s) = match g_handle s with Some h => [h] | None => [] end.
Proof. exact w_exact. Qed.
Print Assumptions C80_nothing_leaked_partial.
(** full C80 is false of the code: FreeLibrary() reports success by any nonzero value, the code takes only TRUE (1).  With
    another value the release counts as failed, the released handle is kept and used again *)
Theorem C80_nonzero_bool_refuted : exists (k : wconf) w ops s s2 v s3, conf_ok k /\ lib_printable k /\ g_run k w ops = Ok s /\
  g_call k w FreeLib s = Ok (VBool false, s2) /\ g_handle s2 = Some 1 /\ open_handles (g_trace s2) = [] /\
  g_call k w LoadAllSymbols s2 = Ok (v, s3) /\ ~ uses_open (g_trace s3).
Proof. exact w_true. Qed.
Print Assumptions C80_nonzero_bool_refuted.
(** the queries and the result of loading all symbols tell the truth *)
Theorem C80_queries : forall k w, conf_ok (x_conf k) -> one_or_zero w -> lib_printable k -> forall s, wreachable k w s ->
  (g_call k w AllLoaded s = Ok (VBool true, s) <-> forall i, i < length (k_names k) -> nth i (g_ptrs s) None <> None) /\
  (g_call k w NoneLoaded s = Ok (VBool true, s) <-> forall i, i < length (k_names k) -> nth i (g_ptrs s) None = None) /\
  (g_call k w AnyLoaded s = Ok (VBool true, s) <-> exists i, i < length (k_names k) /\ nth i (g_ptrs s) None <> None).
Proof. exact w_queries. Qed.
Print Assumptions C80_queries.
Theorem C80_load_all : forall k w, conf_ok (x_conf k) -> one_or_zero w -> lib_printable k -> forall s b s', wreachable k w s ->
  g_call k w LoadAllSymbols s = Ok (VBool b, s') -> (b = true <-> forall i, i < length (k_names k) -> nth i (g_ptrs s') None <> None).
Proof. exact w_load_all. Qed.
Print Assumptions C80_load_all.
(** a known name or number loads its own pointer and no other; everything else fails and changes nothing *)
Theorem C80_by_name : forall k w, conf_ok (x_conf k) -> one_or_zero w -> lib_printable k -> forall s i n, wreachable k w s -> nth_error (k_names k) i = Some n ->
  exists b s', g_call k w (LoadSymbolName (Some n)) s = Ok (VBool b, s') /\
    (forall j, j <> i -> nth j (g_ptrs s') None = nth j (g_ptrs s) None) /\
    (b = true <-> g_handle s <> None /\ nth i (g_ptrs s') None <> None) /\
    (forall p, nth i (g_ptrs s) None = Some p -> nth i (g_ptrs s') None = Some p) /\
    (forall h, g_handle s = Some h -> nth i (g_ptrs s) None = None -> nth i (g_ptrs s') None = v_sym w (g_trace s) h n).
Proof. exact w_by_name. Qed.
Print Assumptions C80_by_name.
Theorem C80_unknown_name : forall k w, conf_ok (x_conf k) -> one_or_zero w -> lib_printable k -> forall s a, wreachable k w s ->
  (forall n, a = Some n -> ~ In (c_str n) (k_names k)) ->
  exists s', g_call k w (LoadSymbolName a) s = Ok (VBool false, s') /\ g_ptrs s' = g_ptrs s /\ g_trace s' = g_trace s.
Proof. exact w_by_name_unknown. Qed.
Print Assumptions C80_unknown_name.
Theorem C80_by_number : forall k w, conf_ok (x_conf k) -> one_or_zero w -> lib_printable k -> forall s num, wreachable k w s ->
  exists b s', g_call k w (LoadSymbol num) s = Ok (VBool b, s') /\
    match g_handle s, (if (num <? 0)%Z then None else nth_error (k_names k) (Z.to_nat num)) with
    | Some h, Some n =>
        (forall j, j <> Z.to_nat num -> nth j (g_ptrs s') None = nth j (g_ptrs s) None) /\
        (b = true <-> nth (Z.to_nat num) (g_ptrs s') None <> None) /\
        nth (Z.to_nat num) (g_ptrs s') None = match nth (Z.to_nat num) (g_ptrs s) None with Some p => Some p | None => v_sym w (g_trace s) h n end
    | _, _ => b = false /\ g_ptrs s' = g_ptrs s
    end.
Proof. exact w_by_number. Qed.
Print Assumptions C80_by_number.
(** the exit handler is registered at most once and releases the library *)
Theorem C80_registered_once : forall k w, conf_ok (x_conf k) -> one_or_zero w -> lib_printable k -> forall s, wreachable k w s -> registrations (g_trace s) <= 1.
Proof. exact w_registered. Qed.
Print Assumptions C80_registered_once.
Theorem C80_released_at_exit : forall k w, conf_ok (x_conf k) -> one_or_zero w -> lib_printable k -> forall ops s c, g_run k w ops = Ok s ->
  g_end s = Some (Exited c) -> registrations (g_trace s) = 1 -> g_handle s = None.
Proof. exact w_released. Qed.
Print Assumptions C80_released_at_exit.
(** the path handed out is one the system named for the library loaded now *)
Theorem C80_path_of_current_library : forall k w, conf_ok (x_conf k) -> one_or_zero w -> lib_printable k -> forall s p s', wreachable k w s ->
  g_call k w LibraryPath s = Ok (VStr (Some p), s') -> p <> [] ->
  exists h l, g_handle s' = Some h /\ g_handle s = Some h /\ session (g_trace s') = Some (h, l) /\ named_path h p l.
Proof. exact w_path. Qed.
Print Assumptions C80_path_of_current_library.
(** every program is defined *)
Theorem C80_defined : forall k w, conf_ok (x_conf k) -> one_or_zero w -> lib_printable k -> forall ops, exists s, g_run k w ops = Ok s.
Proof. exact w_defined. Qed.
Print Assumptions C80_defined.
Example C80_example : exists s, g_run (wdemo AutoOff false false) wgood [EnableAutorelease; LoadLib; LoadSymbol 1; LibraryPath; FreeLib; LoadLibName (Some $"bar.dll"); LoadSymbolName (Some $"foo_one"); Exit 0] = Ok s /\
  g_handle s = None /\ opens (g_trace s) = 2 /\ closes (g_trace s) = 2.
Proof. eexists. split; [vm_compute; reflexivity|]. repeat split; reflexivity. Qed.

(* ------------------------------------------------------------ C81 *)

(** C81: gdo_last_error() gives the saved message followed by the system's text for the saved code, as far as it fits; asking
    changes nothing *)
Theorem C81_last_error : forall k w s, wreachable k w s -> g_end s = None ->
  exists s', g_call k w LastError s = Ok (VStr (Some (in_buffer (x_fbuf k) (about w (g_errbuf s) (g_errno s)))), s') /\
    same_library s s' /\ g_errbuf s' = g_errbuf s /\ g_errno s' = g_errno s.
Proof. exact last_error_says. Qed.
Print Assumptions C81_last_error.
(** success clears the error.  After a failed call of the system, message and code are those of that call; the failures the
    API finds by itself have the messages and codes of [own_failure] *)
Theorem C81_reports : forall k w, conf_ok (x_conf k) -> one_or_zero w -> forall o s b s', reports o = true -> g_call k w o s = Ok (VBool b, s') ->
  if b then quiet s' else match own_failure k w o s with Some m => said k s' m | None => system_failed k w s' end.
Proof. exact reports_say. Qed.
Print Assumptions C81_reports.
Theorem C81_path_reports : forall k w s r s', g_call k w LibraryPath s = Ok (VStr r, s') ->
  match r with
  | Some _ => quiet s'
  | None => match g_handle s with
      | None => said k s' ($"no library was loaded", 6%N)
      | Some h => exists p, g_trace s' = EvInfo h (option_map Some p) :: g_trace s /\ g_libpath s' = [] /\
          said k s' (if x_wide k then $"GetModuleFileNameW()" else $"GetModuleFileNameA()", v_errno w (g_trace s')) /\
          (forall p', p = Some p' -> c_str p' = [] \/ k_buflen k <= length (c_str p'))
      end
  end.
Proof. exact path_says. Qed.
Print Assumptions C81_path_reports.
Example C81_example : exists s s2 s3, g_run (wdemo AutoOff false false) wabsent [] = Ok s /\ g_call (wdemo AutoOff false false) wabsent (LoadLibName (Some $"a/b.dll")) s = Ok (VBool false, s2) /\
  g_trace s2 = [EvOpen $"a\b.dll" 1 false None] /\ g_call (wdemo AutoOff false false) wabsent LastError s2 = Ok (VStr (Some $"a/b.dll: The specified module could not be found."), s3).
Proof. do 3 eexists. split; [vm_compute; reflexivity|]. split; [vm_compute; reflexivity|]. split; vm_compute; reflexivity. Qed.
(** that every message tells the failure is false of the code: loading twice is explained with the text for code 0, *)
Theorem C81_success_text_refuted : exists (k : wconf) w ops s s2 s3, conf_ok k /\ g_run k w ops = Ok s /\ g_call k w LoadLib s = Ok (VBool false, s2) /\
  g_call k w LastError s2 = Ok (VStr (Some $"library already loaded: The operation completed successfully."), s3).
Proof. exact w_successful_failure. Qed.
Print Assumptions C81_success_text_refuted.
(** and if a file name cannot be converted, the message about that is overwritten at once: the code is one of an earlier call,
    although the system was not asked to open anything *)
Theorem C81_conversion_refuted : exists (k : wconf) w s s2 s3, conf_ok k /\ g_run k w [] = Ok s /\ g_call k w LoadLib s = Ok (VBool false, s2) /\ g_trace s2 = [] /\
  g_call k w LastError s2 = Ok (VStr (Some $"foo.dll: The system cannot find the file specified."), s3).
Proof. exact w_conversion_lost. Qed.
Print Assumptions C81_conversion_refuted.

(* ------------------------------------------------------------ C82 *)

(** C82: loading asks the system once, for the requested file with slashes turned into backslashes and the requested flags;
    it asks nothing for an empty name or one that cannot be converted *)
Theorem C82_opens_what_was_asked : forall k w s o f fl ns, g_handle s = None -> requested (x_conf k) o = Some (f, fl, ns) ->
  exists b s', g_call k w o s = Ok (VBool b, s') /\
  match f with
  | None | Some [] => b = false /\ g_handle s' = None /\ g_trace s' = g_trace s
  | Some f =>
      if convertible k w f then exists r post, g_trace s' = post ++ EvOpen (windows_name f) fl false r :: g_trace s /\
        r = v_open w (g_trace s) (windows_name f) fl /\ Forall not_open post /\ g_handle s' = r /\ (r = None -> b = false)
      else b = false /\ g_handle s' = None /\ g_trace s' = g_trace s
  end.
Proof. exact w_opens. Qed.
Print Assumptions C82_opens_what_was_asked.
Example C82_example : exists s, g_run (wdemo AutoOff true false) wgood [LoadLibArgs (Some $"C:/x\y/z.dll") 8 true] = Ok s /\ g_trace s = [EvOpen $"C:\x\y\z.dll" 8 false (Some 1)].
Proof. eexists. split; [vm_compute; reflexivity|]. reflexivity. Qed.

(* ------------------------------------------------------------ C83 *)

(** C83: a wrapped call forwards its arguments to the system's answer for that symbol, or the program ends with exactly one
    message that names the function and no call is made *)
Theorem C83_wrapped_call : forall k w, conf_ok (x_conf k) -> one_or_zero w -> lib_printable k -> forall s i n args, wreachable k w s ->
  nth_error (k_names k) i = Some n -> g_end s = None ->
  exists s', g_call k w (Wrapped i args) s = Ok (VNone, s') /\
    ((exists p h l new, g_end s' = None /\ g_out s' = g_out s /\ g_trace s' = EvCall p args :: new ++ g_trace s /\ Forall not_call new /\
        g_handle s' = Some h /\ session (new ++ g_trace s) = Some (h, l) /\ last_answer h n l = Some p) \/
     (exists head msg new, g_end s' <> None /\ g_out s' = shown k (head ++ n ++ $": " ++ msg) :: g_out s /\ g_trace s' = new ++ g_trace s /\ Forall not_call new)).
Proof. exact w_wrapped. Qed.
Print Assumptions C83_wrapped_call.
Example C83_example : exists s, g_run (wdemo AutoLazy false true) wgood [Wrapped 1 [4; 5]] = Ok s /\ g_end s = None /\ g_out s = [] /\ In (EvCall 10 [4; 5]) (g_trace s).
Proof. eexists. split; [vm_compute; reflexivity|]. vm_compute. auto. Qed.
(** that the message tells the reason is false of the code: if the library cannot be opened, it says that no library was loaded
    and that the handle is invalid *)
Theorem C83_reason_lost_refuted : forall k w, conf_ok (x_conf k) -> one_or_zero w -> lib_printable k -> forall s i n args, wreachable k w s -> 22 <= k_buflen k -> k_auto k <> AutoOff ->
  nth_error (k_names k) i = Some n -> g_end s = None -> g_handle s = None -> (forall t, v_open w t (windows_name (k_lib k)) (k_flags k) = None) ->
  exists s' head, g_call k w (Wrapped i args) s = Ok (VNone, s') /\ g_end s' = Some (Exited 1) /\
    g_out s' = shown k (head ++ n ++ $": " ++ in_buffer (x_fbuf k) ($"no library was loaded: " ++ system_text w 6)) :: g_out s.
Proof. exact w_reason_lost. Qed.
Print Assumptions C83_reason_lost_refuted.
Theorem C83_reason_example_refuted : exists (k : wconf) w s', conf_ok k /\ g_run k w [Wrapped 0 []] = Ok s' /\ (forall t, v_errno w t = 126%N) /\
  g_out s' = [$"error: foo.dll: foo_one: no library was loaded: The handle is invalid.
"].
Proof. exact w_reason_example. Qed.
Print Assumptions C83_reason_example_refuted.
(** with dlfcn-win32 and message boxes a failed automatic loading is undefined: the message is copied within one buffer *)
Theorem C83_dlfcn_box_refuted : forall k name s, d_report true k name s = UB.
Proof. exact d_overlap. Qed.
Print Assumptions C83_dlfcn_box_refuted.
Theorem C83_dlfcn_no_box : forall k name s, ~ In "%"%char (k_lib k) -> exists s', d_report false k name s = Ok s'.
Proof. exact d_fine. Qed.
Print Assumptions C83_dlfcn_no_box.

(** Properties C35 to C42, C50 to C55: statements.  Proofs are in CRuntimeFacts.v, CRuntimeFacts2.v, CRuntimeProps.v and
    CRuntimeProps2.v. *)
From Coq Require Import Ascii String List Bool Arith ZArith Lia.
From Verif Require Import Str CRuntime SpecCRuntime CRuntimeProps2 CRuntimeProps3.
Import ListNotations.

(** a world in which everything works meets every condition used below *)
Example worlds_ok : never_refuses good /\ explains good /\ paths_fit (demo AutoLazy $"foo.so" 100) good.
Proof.
  split; [easy|]. split; [intros e t _; exists $"reason"; split; [reflexivity|discriminate]|].
  split; intros t h n [= <-]; vm_compute; repeat constructor.
Qed.

(* ------------------------------------------------------------ C35 *)

(** C35: without a library all pointers are null; with one, each pointer is the loader's latest answer for that symbol on
    this very handle, since it was opened and before it was closed (null if it was not asked) *)
Theorem C35_pointers_belong_to_library : forall k w, conf_ok k -> forall s, reachable k w s ->
  match s_handle s with
  | None => forall i, nth i (s_ptrs s) None = None
  | Some h => exists l, session (s_trace s) = Some (h, l) /\
      forall i n, nth_error (k_names k) i = Some n -> nth i (s_ptrs s) None = last_answer h n l
  end.
Proof. exact pointers_current. Qed.
Example C35_example : exists s, run (demo AutoOff $"foo.so" 100) fickle [LoadLib; LoadSymbol 0; FreeLib; LoadLib; LoadSymbolName (Some $"foo_two")] = Ok s /\
  s_handle s = Some 1 /\ s_ptrs s = [None; Some 11].
Proof. eexists. split; [vm_compute; reflexivity|]. split; reflexivity. Qed.

(* ------------------------------------------------------------ C36 *)

(** C36: handles are only passed to the loader while they are open, the current handle is open, and what was opened and not
    closed is still open *)
Theorem C36_no_use_after_close : forall k w, conf_ok k -> forall s, reachable k w s ->
  uses_open (s_trace s) /\ opens (s_trace s) = closes (s_trace s) + length (open_handles (s_trace s)) /\
  forall h, s_handle s = Some h -> In h (open_handles (s_trace s)).
Proof. exact handles_balance. Qed.
(** and if the loader never refuses to close a library, or the program runs and has not forced a release, then exactly the
    current handle is open.  Missing from the full claim: forced releases the loader refuses. *)
Theorem C36_nothing_leaked_partial : forall k w, conf_ok k -> forall ops s, run k w ops = Ok s ->
  never_refuses w \/ (~ In ForceFreeLib ops /\ s_end s = None) ->
  open_handles (s_trace s) = match s_handle s with Some h => [h] | None => [] end.
Proof. exact handles_exact. Qed.
(** full C36 is false of the code: a forced release forgets a handle the loader did not close *)
Theorem C36_forced_release_refuted : exists k w ops s, conf_ok k /\ run k w ops = Ok s /\
  s_handle s = None /\ opens (s_trace s) = 1 /\ closes (s_trace s) = 0.
Proof. exact leak. Qed.
Example C36_example : exists s, run (demo AutoOff $"foo.so" 100) refusing [LoadLib; LoadAllSymbols; FreeLib; LoadLib] = Ok s /\
  s_handle s = Some 1 /\ open_handles (s_trace s) = [1] /\ s_errbuf s <> [].
Proof. eexists. split; [vm_compute; reflexivity|]. repeat split; try reflexivity. discriminate. Qed.

(* ------------------------------------------------------------ C37 *)

(** C37: loading while a library is loaded fails, changes nothing and leaves a message *)
Theorem C37_load_twice : forall k w, conf_ok k -> forall s o, reachable k w s -> opens_library o = true -> s_handle s <> None ->
  exists s', call k w o s = Ok (VBool false, s') /\ s_handle s' = s_handle s /\ s_ptrs s' = s_ptrs s /\ s_libpath s' = s_libpath s /\ s_errbuf s' <> [].
Proof. exact open_when_loaded. Qed.
(** loading that fails to open the library leaves the symbols unloaded *)
Theorem C37_failed_load : forall k w, conf_ok k -> forall s o s', reachable k w s -> opens_library o = true ->
  call k w o s = Ok (VBool false, s') -> s_handle s' = None -> s_handle s = None /\ s_ptrs s' = s_ptrs s.
Proof. exact failed_open. Qed.
(** releasing that fails changes nothing *)
Theorem C37_failed_free : forall k w, conf_ok k -> forall s s', reachable k w s -> call k w FreeLib s = Ok (VBool false, s') ->
  s_handle s' = s_handle s /\ s_ptrs s' = s_ptrs s /\ s_libpath s' = s_libpath s.
Proof. exact failed_free. Qed.
(** success leaves an empty message, failure a message.  Missing from the full claim: failures the loader does not explain. *)
Theorem C37_messages_partial : forall k w, conf_ok k -> forall s o b s', reachable k w s -> reports o = true ->
  call k w o s = Ok (VBool b, s') -> (b = true -> s_errbuf s' = []) /\ (b = false -> explains w -> s_errbuf s' <> []).
Proof. exact messages. Qed.
(** the same for the library's path.  Missing: paths that do not fit the buffer. *)
Theorem C37_path_messages_partial : forall k w, conf_ok k -> forall s r s', reachable k w s -> call k w LibraryPath s = Ok (VStr r, s') ->
  (r <> None -> s_errbuf s' = []) /\ (r = None -> explains w -> paths_fit k w -> s_errbuf s' <> []).
Proof. exact path_messages. Qed.
(** full C37 is false of the code: a path that does not fit is a failure without a message, *)
Theorem C37_long_path_refuted : exists k w ops s s', conf_ok k /\ explains w /\ run k w ops = Ok s /\
  call k w LibraryPath s = Ok (VStr None, s') /\ s_errbuf s' = [].
Proof. exact long_path_mute. Qed.
(** and so is a symbol whose address is null (dlerror() then has nothing to say): the program is told "no error" *)
Theorem C37_null_symbol_refuted : exists k w ops s s', conf_ok k /\ run k w ops = Ok s /\ call k w LoadAllSymbols s = Ok (VBool false, s') /\
  s_errbuf s' = [] /\ exists s2, call k w LastError s' = Ok (VStr (Some $"no error"), s2).
Proof. exact mute_failure. Qed.

(* ------------------------------------------------------------ C38 *)

(** C38: the queries tell the truth *)
Theorem C38_queries : forall k w, conf_ok k -> forall s, reachable k w s ->
  (call k w AllLoaded s = Ok (VBool true, s) <-> forall i, i < length (k_names k) -> nth i (s_ptrs s) None <> None) /\
  (call k w NoneLoaded s = Ok (VBool true, s) <-> forall i, i < length (k_names k) -> nth i (s_ptrs s) None = None) /\
  (call k w AnyLoaded s = Ok (VBool true, s) <-> exists i, i < length (k_names k) /\ nth i (s_ptrs s) None <> None).
Proof. exact queries. Qed.
Theorem C38_load_all : forall k w, conf_ok k -> forall s b s', reachable k w s -> call k w LoadAllSymbols s = Ok (VBool b, s') ->
  (b = true <-> forall i, i < length (k_names k) -> nth i (s_ptrs s') None <> None).
Proof. exact load_all_truth. Qed.
Example C38_example : exists s, run (demo AutoOff $"foo.so" 100) good [LoadLib; LoadSymbol 1] = Ok s /\
  call (demo AutoOff $"foo.so" 100) good AnyLoaded s = Ok (VBool true, s) /\ call (demo AutoOff $"foo.so" 100) good AllLoaded s = Ok (VBool false, s).
Proof. eexists. split; [vm_compute; reflexivity|]. split; reflexivity. Qed.

(* ------------------------------------------------------------ C39 *)

(** C39: a known name loads its own pointer and no other *)
Theorem C39_known_name : forall k w, conf_ok k -> forall s i n, reachable k w s -> nth_error (k_names k) i = Some n ->
  exists b s', call k w (LoadSymbolName (Some n)) s = Ok (VBool b, s') /\
    (forall j, j <> i -> nth j (s_ptrs s') None = nth j (s_ptrs s) None) /\
    (b = true <-> s_handle s <> None /\ nth i (s_ptrs s') None <> None) /\
    (forall p, nth i (s_ptrs s) None = Some p -> nth i (s_ptrs s') None = Some p) /\
    (forall h, s_handle s = Some h -> nth i (s_ptrs s) None = None -> exists m, nth i (s_ptrs s') None = w_sym w (EvError m :: s_trace s) h n).
Proof. exact by_name_known. Qed.
(** every other string, and NULL, is an error; the loader is not asked for anything *)
Theorem C39_unknown_name : forall k w, conf_ok k -> forall s a, reachable k w s -> (forall n, a = Some n -> ~ In (c_str n) (k_names k)) ->
  exists s', call k w (LoadSymbolName a) s = Ok (VBool false, s') /\ s_ptrs s' = s_ptrs s /\ s_errbuf s' <> [] /\
    exists m, s_trace s' = EvError m :: s_trace s.
Proof. exact by_name_unknown. Qed.
Example C39_example : exists s, run (demo AutoOff $"foo.so" 100) good
  [LoadLib; LoadSymbolName (Some $"foo_on"); LoadSymbolName (Some $"foo_ones"); LoadSymbolName (Some $"bar_one"); LoadSymbolName (Some $"foo_two")] = Ok s /\
  s_ptrs s = [None; Some 10].
Proof. eexists. split; [vm_compute; reflexivity|]. reflexivity. Qed.

(* ------------------------------------------------------------ C40 *)

(** C40: a wrapped call forwards its arguments to the loader's answer for that symbol, or the program ends with one message
    and no call; in either case it is defined *)
Theorem C40_wrapped_call : forall k w, conf_ok k -> forall s i n args, reachable k w s -> lib_printable k -> nth_error (k_names k) i = Some n -> s_end s = None ->
  exists s', call k w (Wrapped i args) s = Ok (VNone, s') /\
    ((exists p h l new, s_end s' = None /\ s_trace s' = EvCall p args :: new ++ s_trace s /\ Forall silent new /\
        s_handle s' = Some h /\ session (new ++ s_trace s) = Some (h, l) /\ last_answer h n l = Some p) \/
     (exists head msg pre post, s_end s' <> None /\ Forall silent pre /\ Forall silent post /\
        s_trace s' = post ++ EvPrint (head ++ $": " ++ n ++ $": " ++ msg ++ [nl]) :: pre ++ s_trace s)).
Proof. exact wrapped. Qed.
Example C40_example_call : exists s, run (demo AutoLazy $"foo.so" 100) good [Wrapped 1 [4; 5]] = Ok s /\ s_end s = None /\
  s_ptrs s = [None; Some 10] /\ In (EvCall 10 [4; 5]) (s_trace s).
Proof. eexists. split; [vm_compute; reflexivity|]. vm_compute. auto. Qed.
Example C40_example_abort : exists s, run (demo AutoOff $"foo.so" 100) good [LoadLib; Wrapped 1 [4; 5]] = Ok s /\ s_end s = Some Aborted /\
  In (EvPrint $"fatal error: foo_two: symbol not loaded
") (s_trace s).
Proof. eexists. split; [vm_compute; reflexivity|]. vm_compute. auto. Qed.

(* ------------------------------------------------------------ C41 *)

(** C41: the exit handler is registered at most once; if it was, no library is loaded after the program's exit, *)
Theorem C41_registered_once : forall k w, conf_ok k -> forall s, reachable k w s -> registrations (s_trace s) <= 1.
Proof. exact registered_once. Qed.
Theorem C41_released_at_exit : forall k w, conf_ok k -> forall ops s c, run k w ops = Ok s -> s_end s = Some (Exited c) ->
  registrations (s_trace s) = 1 -> s_handle s = None.
Proof. exact end_cases. Qed.
(** and none is open *)
Theorem C41_none_open_at_exit : forall k w, conf_ok k -> forall ops s c, run k w ops = Ok s -> s_end s = Some (Exited c) ->
  registrations (s_trace s) = 1 -> never_refuses w -> open_handles (s_trace s) = [].
Proof.
  exact (fun k w K ops s c R E G N => eq_trans (handles_exact k w K ops s R (or_introl N))
    (f_equal (fun h => match h with Some h => [h] | None => [] end) (end_cases k w K ops s c R E G))).
Qed.
Example C41_example : exists s, run (demo AutoOff $"foo.so" 100) good [EnableAutorelease; LoadLib; EnableAutorelease; FreeLib; LoadLib; Exit 0] = Ok s /\
  registrations (s_trace s) = 1 /\ s_end s = Some (Exited 0) /\ opens (s_trace s) = 2 /\ closes (s_trace s) = 2.
Proof. eexists. split; [vm_compute; reflexivity|]. repeat split; reflexivity. Qed.

(* ------------------------------------------------------------ C42 *)

(** C42: the texts in the buffers leave room for the terminator and hold no other one; no write goes past a buffer's end and
    no null pointer is called (both would be [UB]) *)
Theorem C42_buffers : forall k w, conf_ok k -> forall s, reachable k w s ->
  length (s_errbuf s) < k_buflen k /\ c_str (s_errbuf s) = s_errbuf s /\ length (s_libpath s) < k_buflen k /\ c_str (s_libpath s) = s_libpath s.
Proof. exact buffers. Qed.
Theorem C42_defined : forall k w, conf_ok k -> forall ops, lib_printable k -> exists s, run k w ops = Ok s.
Proof. exact no_undefined. Qed.
Example C42_example : exists s, run (demo AutoOff $"foo.so" 12) absent [LoadLib] = Ok s /\ s_errbuf s = $"foo.so: can".
Proof. eexists. split; [vm_compute; reflexivity|]. reflexivity. Qed.

(* ------------------------------------------------------------ C50 *)

(** C50 is false of the code: when a wrapper cannot open the library, the message it prints says "no library was loaded",
    whatever reason the loader gave *)
Theorem C50_autoload_reason_lost_refuted : forall k w, conf_ok k -> forall s i n args, reachable k w s -> lib_printable k -> 22 <= k_buflen k -> k_auto k <> AutoOff ->
  nth_error (k_names k) i = Some n -> s_end s = None -> s_handle s = None -> (forall t, w_open w t (k_lib k) (k_flags k) false = None) ->
  exists s' head pre post, call k w (Wrapped i args) s = Ok (VNone, s') /\ s_end s' = Some (Exited 1) /\ Forall silent pre /\ Forall silent post /\
    s_trace s' = post ++ EvPrint (head ++ $": " ++ n ++ $": no library was loaded" ++ [nl]) :: pre ++ s_trace s.
Proof. exact autoload_message. Qed.
Theorem C50_example_refuted : exists k w s', conf_ok k /\ run k w [Wrapped 0 []] = Ok s' /\
  (forall t, w_error w t = Some $"foo.so: cannot open shared object file") /\
  In (EvPrint $"error: foo.so: foo_one: no library was loaded
") (s_trace s').
Proof. exact reason_lost. Qed.

(* ------------------------------------------------------------ C51 *)

(** C51 is false of the code: the default library's name is part of a printf format *)
Theorem C51_percent_in_library_name_refuted : exists k w ops, conf_ok k /\ k_lib k = $"foo%n.so" /\ run k w ops = UB.
Proof. exact percent_name. Qed.
(** without percent signs every program is defined *)
Theorem C51_defined_partial : forall k w, conf_ok k -> forall ops, lib_printable k -> exists s, run k w ops = Ok s.
Proof. exact no_undefined. Qed.

(* ------------------------------------------------------------ C52 *)

(** C52: the path handed out is one the system named for the library that is loaded now, since it was opened *)
Theorem C52_path_of_current_library : forall k w, conf_ok k -> forall s p s', reachable k w s -> call k w LibraryPath s = Ok (VStr (Some p), s') -> p <> [] ->
  exists h l, s_handle s' = Some h /\ s_handle s = Some h /\ session (s_trace s') = Some (h, l) /\ named_path h p l.
Proof. exact path_current. Qed.
Example C52_example : exists s s', run (demo AutoOff $"foo.so" 100) good [LoadLib; LibraryPath; FreeLib; LoadLib] = Ok s /\ s_libpath s = [] /\
  call (demo AutoOff $"foo.so" 100) good LibraryPath s = Ok (VStr (Some $"/lib/foo.so"), s').
Proof. do 2 eexists. split; [vm_compute; reflexivity|]. split; vm_compute; reflexivity. Qed.

(* ------------------------------------------------------------ C53 *)

(** C53: loading by number loads exactly that symbol; other numbers are an error *)
Theorem C53_by_number : forall k w, conf_ok k -> forall s num, reachable k w s ->
  exists b s', call k w (LoadSymbol num) s = Ok (VBool b, s') /\
    match s_handle s, (if (num <? 0)%Z then None else nth_error (k_names k) (Z.to_nat num)) with
    | Some h, Some n =>
        (forall j, j <> Z.to_nat num -> nth j (s_ptrs s') None = nth j (s_ptrs s) None) /\
        (b = true <-> nth (Z.to_nat num) (s_ptrs s') None <> None) /\
        exists m, nth (Z.to_nat num) (s_ptrs s') None = match nth (Z.to_nat num) (s_ptrs s) None with Some p => Some p | None => w_sym w (EvError m :: s_trace s) h n end
    | _, _ => b = false /\ s_ptrs s' = s_ptrs s /\ s_errbuf s' <> []
    end.
Proof. exact by_number. Qed.
Example C53_example : exists s, run (demo AutoOff $"foo.so" 100) good [LoadLib; LoadSymbol 1; LoadSymbol 2; LoadSymbol (-1)] = Ok s /\
  s_ptrs s = [None; Some 10] /\ s_errbuf s = $"unknown symbol number: -1".
Proof. eexists. split; [vm_compute; reflexivity|]. split; reflexivity. Qed.

(* ------------------------------------------------------------ C54 *)

(** C54: a loaded pointer stays.  Missing from the full claim: loading all symbols (also by a wrapper that loads them). *)
Theorem C54_pointer_stays_partial : forall k w, conf_ok k -> forall s o v s' i p, reachable k w s -> drops k o = false -> call k w o s = Ok (v, s') ->
  nth i (s_ptrs s) None = Some p -> nth i (s_ptrs s') None = Some p.
Proof. exact pointers_stay. Qed.
(** full C54 is false of the code: loading all symbols asks for the loaded ones again and may lose them *)
Theorem C54_pointer_lost_refuted : exists k w ops s s', conf_ok k /\ run k w ops = Ok s /\ nth 0 (s_ptrs s) None = Some 10 /\
  call k w LoadAllSymbols s = Ok (VBool false, s') /\ nth 0 (s_ptrs s') None = None /\ s_handle s' = s_handle s.
Proof. exact pointer_lost. Qed.

(* ------------------------------------------------------------ C55 *)

(** C55: loading opens exactly the requested file with the requested flags and namespace, once; nothing is opened for a null
    or empty name *)
Theorem C55_opens_what_was_asked : forall k w, conf_ok k -> forall s o f fl ns, reachable k w s -> s_handle s = None -> requested k o = Some (f, fl, ns) ->
  exists b s', call k w o s = Ok (VBool b, s') /\
  match f with
  | None | Some [] => b = false /\ s_handle s' = None /\ exists new, s_trace s' = new ++ s_trace s /\ Forall not_open new
  | Some f => exists r pre post, s_trace s' = post ++ EvOpen f fl (k_dlmopen k && ns) r :: pre ++ s_trace s /\
      Forall not_open pre /\ Forall not_open post /\ s_handle s' = r /\ (r = None -> b = false)
  end.
Proof. exact opens_requested. Qed.
Example C55_example : exists s, run (demo AutoOff $"foo.so" 100) good [LoadLibArgs (Some $"bar.so") 7 true] = Ok s /\
  s_trace s = [EvOpen $"bar.so" 7 true (Some 1); EvError (Some $"reason")].
Proof. eexists. split; [vm_compute; reflexivity|]. reflexivity. Qed.

Print Assumptions C55_opens_what_was_asked.
Print Assumptions C35_pointers_belong_to_library.
Print Assumptions C36_no_use_after_close.
Print Assumptions C36_nothing_leaked_partial.
Print Assumptions C36_forced_release_refuted.
Print Assumptions C37_load_twice.
Print Assumptions C37_failed_load.
Print Assumptions C37_failed_free.
Print Assumptions C37_messages_partial.
Print Assumptions C37_path_messages_partial.
Print Assumptions C37_long_path_refuted.
Print Assumptions C37_null_symbol_refuted.
Print Assumptions C38_queries.
Print Assumptions C38_load_all.
Print Assumptions C39_known_name.
Print Assumptions C39_unknown_name.
Print Assumptions C40_wrapped_call.
Print Assumptions C41_registered_once.
Print Assumptions C41_released_at_exit.
Print Assumptions C41_none_open_at_exit.
Print Assumptions C42_buffers.
Print Assumptions C42_defined.
Print Assumptions C50_autoload_reason_lost_refuted.
Print Assumptions C51_percent_in_library_name_refuted.
Print Assumptions C52_path_of_current_library.
Print Assumptions C53_by_number.
Print Assumptions C54_pointer_stays_partial.
Print Assumptions C54_pointer_lost_refuted.

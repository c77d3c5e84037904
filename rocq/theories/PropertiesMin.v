(** Properties C43 and C44: statements.  Proofs are in MinProps.v. *)
From Coq Require Import Ascii String List Bool Arith ZArith Permutation.
From Verif Require Import Str CRuntime SpecCRuntime MinRuntime SpecMinRuntime MinProps.
Import ListNotations.

(* ------------------------------------------------------------ C43 *)

(** C43: success means that the named file was opened and every symbol was found in it, in order; nothing else was asked of
    the loader, and the pointers are its answers *)
Theorem C43_success : forall names fl w s file s', m_reachable names fl w s -> m_load names fl w file s = (None, s') ->
  exists f h ps, file = Some f /\ c_str f <> [] /\ length ps = length names /\ m_handle s' = Some h /\ m_ptrs s' = map Some ps /\
    m_trace s' = rev (found h names ps) ++ EvOpen (c_str f) fl false (Some h) :: m_trace s /\ honest w (m_trace s').
Proof. exact minimal_success. Qed.
(** failure leaves nothing loaded, closes what was opened, and the reason is the true one.  Missing from the full claim:
    loading while something is loaded. *)
Theorem C43_failure_partial : forall names fl w s file e s', m_reachable names fl w s -> nothing_loaded s -> m_load names fl w file s = (Some e, s') ->
  nothing_loaded s' /\ honest w (m_trace s') /\ exists new, m_trace s' = new ++ m_trace s /\
  match e with
  | NullName => file = None /\ new = []
  | EmptyName => (exists f, file = Some f /\ c_str f = []) /\ new = []
  | NotOpened f => option_map c_str file = Some f /\ f <> [] /\ new = [EvOpen f fl false None]
  | NotFound n => exists f h before after ps ok, option_map c_str file = Some f /\ f <> [] /\ names = before ++ n :: after /\ length ps = length before /\
      new = EvClose h ok :: EvSym h n None :: rev (found h before ps) ++ [EvOpen f fl false (Some h)]
  end.
Proof. exact minimal_failure. Qed.
(** the message (C) and the exception (C++) tell which: the library that could not be opened, the bad file name, or the symbol
    that was not found *)
Theorem C43_reported : forall names fl w s file e s', m_reachable names fl w s -> nothing_loaded s -> m_load names fl w file s = (Some e, s') ->
  exists new, m_trace s' = new ++ m_trace s /\
  match cxx_exception e with
  | LibraryError x => option_map c_str file = Some x /\ x <> [] /\ new = [EvOpen x fl false None] /\ c_message e = $"failed to load library" \/
      file = None /\ new = [] /\ x = $"<NULL>" /\ c_message e = $"filename is <NULL>" \/
      option_map c_str file = Some [] /\ new = [] /\ x = $"<EMPTY>" /\ c_message e = $"filename is empty"
  | SymbolError x => In x names /\ (exists h, In (EvSym h x None) new) /\ c_message e = $"failed to load symbol: " ++ x
  end.
Proof. exact minimal_reported. Qed.
(** whatever the program does: handles are only used while they are open, and while a library is loaded every pointer is the
    answer found when it was opened, with nothing but calls of library functions since *)
Theorem C43_loaded_state : forall names fl w s, m_reachable names fl w s -> uses_open (m_trace s) /\ honest w (m_trace s) /\
  forall h, m_handle s = Some h -> In h (open_handles (m_trace s)) /\
    exists f ps calls older, length ps = length names /\ m_ptrs s = map Some ps /\ Forall is_call calls /\
      m_trace s = calls ++ rev (found h names ps) ++ EvOpen f fl false (Some h) :: older.
Proof. exact minimal_always. Qed.
(** so calling a symbol is defined while a library is loaded *)
Theorem C43_calls_defined : forall names fl w s i args, m_reachable names fl w s -> m_handle s <> None -> i < length names ->
  exists p, m_step names fl w s (MCall i args) = Ok (mkmst (m_handle s) (m_ptrs s) (EvCall p args :: m_trace s)) /\ nth i (m_ptrs s) None = Some p.
Proof. exact minimal_call. Qed.
(** for programs that release before they load again: without a handle nothing is loaded, and (if the loader never refuses
    to close a library) exactly the current handle is open *)
Theorem C43_history_partial : forall names fl w ops s, releases_first names fl w ops -> m_run names fl w ops = Ok s ->
  (m_handle s = None -> nothing_loaded s) /\
  (never_refuses w -> open_handles (m_trace s) = match m_handle s with Some h => [h] | None => [] end).
Proof. exact minimal_exact. Qed.
(** full C43 is false of the code: loading a second time forgets the first handle, which is never closed, *)
Theorem C43_second_load_leaks_refuted : exists names fl w ops s, never_refuses w /\ m_run names fl w ops = Ok s /\
  ops = [MLoad (Some $"foo.so"); MLoad (Some $"foo.so"); MFree] /\ m_handle s = None /\ opens (m_trace s) = 2 /\ closes (m_trace s) = 1.
Proof. exact second_load_leaks. Qed.
(** and when the second load fails, the pointers into the first library stay although there is no handle any more *)
Theorem C43_failed_second_load_refuted : exists names fl w s s', m_reachable names fl w s /\
  m_load names fl w (Some $"bar.so") s = (Some (NotOpened $"bar.so"), s') /\ m_handle s' = None /\ nth 0 (m_ptrs s') None <> None /\
  opens (m_trace s') = 1 /\ closes (m_trace s') = 0.
Proof. exact failed_load_keeps_pointers. Qed.

(** a loader that knows every symbol but one *)
Definition lacking (n : str) : world := mkworld (fun t _ _ _ => Some (opens t)) (fun t h m => if str_eqb m n then None else Some (10 + h))
  (fun _ _ => true) (fun _ => None) (fun _ => true) (fun _ _ => None) (fun _ _ => None) (fun _ => None).
Example C43_example : exists s, m_run [$"one"; $"two"] 1 (lacking $"three") [MLoad (Some $"foo.so"); MCall 1 [7]; MFree; MLoad None; MLoad (Some $"bar.so")] = Ok s /\
  m_handle s = Some 1 /\ m_ptrs s = [Some 11; Some 11] /\ In (EvCall 10 [7]) (m_trace s).
Proof. eexists. split; [vm_compute; reflexivity|]. vm_compute. auto 10. Qed.
Example C43_example_missing : let '(r, s) := m_load [$"one"; $"two"] 1 (lacking $"two") (Some $"foo.so") (m_init [$"one"; $"two"]) in
  option_map c_message r = Some $"failed to load symbol: two" /\ option_map cxx_exception r = Some (SymbolError $"two") /\ nothing_loaded s /\
  m_trace s = [EvClose 0 true; EvSym 0 $"two" None; EvSym 0 $"one" (Some 10); EvOpen $"foo.so" 1 false (Some 0)].
Proof. vm_compute. repeat split. intros [|[|[|i]]]; reflexivity. Qed.
Example C43_example_polite : releases_first [$"one"] 1 (lacking $"two") [MLoad (Some $"foo.so"); MFree; MLoad (Some $"foo.so"); MCall 0 []].
Proof.
  intros pre f post s E R. destruct pre as [|a [|b [|c [|d [|]]]]]; cbn in E; try discriminate; injection E; intros; subst;
    vm_compute in R; injection R as <-; reflexivity.
Qed.

(* ------------------------------------------------------------ C44 *)

(** C44: with memory for the list, loading gives one entry per file, in order, and opens each named file once; each entry
    holds the loader's answers *)
Theorem C44_loaded : forall names fl w mem s files num, p_reachable names fl w mem s -> (forall n, mem n = true) -> 0 < num -> num <= length files ->
  exists es l s', load_plugins names fl w mem (Some files) num s = Ok (Some es, s') /\ length es = num /\
    plugins_of names fl (firstn num files) es l /\ p_trace s' = rev l ++ p_trace s /\ honest w (p_trace s').
Proof. exact plugins_loaded. Qed.
(** without files nothing happens *)
Theorem C44_no_files : forall names fl w mem s files num, files = None \/ num = 0 -> load_plugins names fl w mem files num s = Ok (None, s).
Proof. exact plugins_none. Qed.
(** releasing closes each handle of the list exactly once, in order, and touches no other list *)
Theorem C44_released : forall names fl w mem s i es, p_reachable names fl w mem s -> nth_error (p_lists s) i = Some (Some es) ->
  exists l s', release_plugins w i s = Ok s' /\ p_trace s' = rev l ++ p_trace s /\ closed l = handles_of es /\ Forall is_close l /\
    honest w (p_trace s') /\ nth_error (p_lists s') i = Some None /\ (forall j, j <> i -> nth_error (p_lists s') j = nth_error (p_lists s) j).
Proof. exact plugins_released. Qed.
(** whatever lists are loaded and released: handles are only used while they are open, and (if the loader never refuses to
    close a library) what is open is what the lists not yet released hold *)
Theorem C44_balance : forall names fl w mem s, p_reachable names fl w mem s -> uses_open (p_trace s) /\ honest w (p_trace s) /\
  (never_refuses w -> Permutation (open_handles (p_trace s)) (held s)).
Proof. exact plugins_balance. Qed.
(** a careful program with enough memory is defined *)
Theorem C44_defined_partial : forall names fl w mem s o, (forall n, mem n = true) -> careful s o -> exists s', p_step names fl w mem s o = Ok s'.
Proof. exact plugins_defined. Qed.
(** without memory it is not: no allocation is checked *)
Theorem C44_out_of_memory_refuted : exists names fl w mem, p_run names fl w mem [PLoad (Some [Some $"foo.so"]) 1] = UB.
Proof. exact out_of_memory. Qed.
(** a loader that knows no file named bad.so *)
Definition picky : world := mkworld (fun t f _ _ => if str_eqb f $"bad.so" then None else Some (opens t)) (fun t h m => if str_eqb m $"two" then None else Some (10 + h))
  (fun _ _ => true) (fun _ => None) (fun _ => true) (fun _ _ => None) (fun _ _ => None) (fun _ => None).
Example C44_example : exists s, p_run [$"one"; $"two"] 2 picky (fun _ => true)
    [PLoad (Some [Some $"a.so"; None; Some $"bad.so"; Some $"b.so"]) 4; PCall 0 3 0 [5]; PLoad (Some [Some $"a.so"]) 1; PRelease (Some 0); PRelease None] = Ok s /\
  p_lists s = [None; Some [mkentry (Some $"a.so") (Some 2) [Some 12; None]]] /\ open_handles (p_trace s) = [2] /\ opens (p_trace s) = 3 /\
  In (EvCall 11 [5]) (p_trace s).
Proof. eexists. split; [vm_compute; reflexivity|]. vm_compute. auto 20. Qed.

Print Assumptions C43_success.
Print Assumptions C43_failure_partial.
Print Assumptions C43_reported.
Print Assumptions C43_loaded_state.
Print Assumptions C43_calls_defined.
Print Assumptions C43_history_partial.
Print Assumptions C43_second_load_leaks_refuted.
Print Assumptions C43_failed_second_load_refuted.
Print Assumptions C44_loaded.
Print Assumptions C44_no_files.
Print Assumptions C44_released.
Print Assumptions C44_balance.
Print Assumptions C44_defined_partial.
Print Assumptions C44_out_of_memory_refuted.

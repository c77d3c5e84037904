(** Properties C45, C68 to C73: statements.  Proofs are in CxxFacts.v, CxxProps.v, CxxRun.v, CxxRun2.v, CxxRun3.v and
    CxxCounter.v. *)
From Coq Require Import Ascii String List Bool Arith ZArith Lia.
From Verif Require Import Str CRuntime SpecCRuntime MinRuntime SpecMinRuntime CRuntimeProps2 CxxRuntime SpecCxxRuntime CxxRun2 CxxRun3 CxxCounter.
Import ListNotations.

(** a world in which everything works meets every condition used below *)
Example worlds_ok : never_refuses good /\ explains good /\ maps_named good /\ conf_ok plain /\ c_str (k_lib plain) = k_lib plain.
Proof.
  split; [easy|]. split; [intros e t _; exists $"reason"; split; [reflexivity|discriminate]|]. split; [now intros t p [= <-]|]. split; [apply demo_ok; lia|reflexivity].
Qed.

(* ------------------------------------------------------------ C45 *)

(** C45: whatever is done with any number of objects, without a library all pointers are null; with one, each pointer is the
    loader's latest answer for that symbol on this very handle, since it was opened *)
Theorem C45_pointers_belong_to_library : forall k w, conf_ok k -> forall s, x_reachable k w s ->
  match x_handle s with
  | None => forall i, x_ptr i s = None
  | Some h => exists l, session (x_past s) = Some (h, l) /\ forall i n, nth_error (k_names k) i = Some n -> x_ptr i s = last_answer h n l
  end.
Proof. exact x_pointers_current. Qed.
(** handles are used only while open, and opens and closes balance; the history records the loader's own answers *)
Theorem C45_handles : forall k w, conf_ok k -> forall s, x_reachable k w s ->
  uses_open (x_past s) /\ honest w (x_past s) /\ opens (x_past s) = closes (x_past s) + length (open_handles (x_past s)) /\
  forall h, x_handle s = Some h -> In h (open_handles (x_past s)).
Proof. exact x_balance. Qed.
(** exactly the current handle is open.  Missing from the full claim: forced releases the loader refuses. *)
Theorem C45_nothing_leaked_partial : forall k w, conf_ok k -> forall ops s, x_run k w ops = Ok s ->
  never_refuses w \/ forallb (fun o => negb (x_forces o)) ops = true /\ c_end s = None ->
  open_handles (x_past s) = match x_handle s with Some h => [h] | None => [] end.
Proof. exact x_exact. Qed.
(** full C45 is false of the code: the destructor forgets a handle the loader did not close *)
Theorem C45_forced_release_refuted : exists k w ops s, conf_ok k /\ x_run k w ops = Ok s /\ c_end s = None /\ x_handle s = None /\
  opens (x_past s) = 1 /\ closes (x_past s) = 0.
Proof. exact x_leak. Qed.
(** every use of objects that exist is defined *)
Theorem C45_defined : forall k w, conf_ok k -> forall s o, x_reachable k w s -> c_end s = None -> x_valid s o -> exists v s', x_call k w o s = Ok (v, s').
Proof. exact x_defined. Qed.
Example C45_example : exists s, x_run plain fickle
  [XNew (Some $"foo.so") 1 false false; XOn 0 XLoad; XCopy 0 false; XOn 1 (XLoadNum 0); XOn 0 (XFree false); XOn 1 XLoad; XOn 0 (XLoadName (Some $"foo_two"))] = Ok s /\
  x_handle s = Some 1 /\ x_ptr 0 s = None /\ x_ptr 1 s = Some 11 /\ open_handles (x_past s) = [1] /\ opens (x_past s) = 2.
Proof. eexists. split; [vm_compute; reflexivity|]. repeat split. Qed.

(* ------------------------------------------------------------ C68 *)

(** C68: a member function that reports success leaves its object without an error message, one that reports failure leaves
    a message.  Missing from the full claim: failures the loader does not explain. *)
Theorem C68_messages_partial : forall k w, conf_ok k -> forall s i o m v s', x_reachable k w s -> x_object i s o -> x_reports m = true ->
  x_call k w (XOn i m) s = Ok (v, s') ->
  exists b o', v = XBool b /\ x_object i s' o' /\ (b = true -> o_err o' = []) /\ (b = false -> explains w -> o_err o' <> []).
Proof. exact x_messages. Qed.
(** full C68 is false of the code: a symbol whose address is null is a failure without a message *)
Theorem C68_null_symbol_refuted : exists k w ops s s' o, conf_ok k /\ x_run k w ops = Ok s /\ x_call k w (XOn 0 XLoadAll) s = Ok (XBool false, s') /\
  x_object 0 s' o /\ o_err o = [].
Proof. exact x_mute. Qed.
(** loading while a library is loaded, by whatever object, fails with a message and changes nothing *)
Theorem C68_load_twice : forall k w, conf_ok k -> forall s i o m, x_reachable k w s -> x_object i s o -> x_opens m = true -> x_handle s <> None ->
  exists s' o', x_call k w (XOn i m) s = Ok (XBool false, s') /\ x_object i s' o' /\ o_err o' <> [] /\
    x_handle s' = x_handle s /\ (forall j, x_ptr j s' = x_ptr j s) /\ o_libpath o' = o_libpath o.
Proof. exact x_load_twice. Qed.
(** loading that fails to open a library leaves the symbols unloaded *)
Theorem C68_failed_load : forall k w, conf_ok k -> forall s i o m s', x_reachable k w s -> x_object i s o -> x_opens m = true ->
  x_call k w (XOn i m) s = Ok (XBool false, s') -> x_handle s' = None -> x_handle s = None /\ forall j, x_ptr j s' = x_ptr j s.
Proof. exact x_failed_load. Qed.
(** releasing succeeds if nothing is loaded or if it is forced; success clears everything, failure changes nothing *)
Theorem C68_free : forall k w, conf_ok k -> forall s i o force, x_reachable k w s -> x_object i s o ->
  exists b s' o', x_call k w (XOn i (XFree force)) s = Ok (XBool b, s') /\ x_object i s' o' /\
    (x_handle s = None \/ force = true -> b = true) /\
    (b = true -> x_handle s' = None /\ (forall j, x_ptr j s' = None) /\ o_libpath o' = []) /\
    (b = false -> x_handle s' = x_handle s /\ (forall j, x_ptr j s' = x_ptr j s) /\ o_libpath o' = o_libpath o).
Proof. exact x_freed. Qed.
(** the path is empty if nothing is loaded; if it is empty there is a message, otherwise none.  Missing from the full claim:
    systems with both dlinfo() and dladdr(). *)
Theorem C68_path_messages_partial : forall k w, conf_ok k -> forall s i o v s', x_reachable k w s -> x_object i s o -> x_call k w (XOn i XPath) s = Ok (v, s') ->
  exists p o', v = XStr p /\ x_object i s' o' /\ (x_handle s = None -> p = []) /\ (p = [] -> maps_named w -> explains w -> o_err o' <> []) /\
    (p <> [] -> k_dlinfo k = false \/ k_dladdr k = false -> o_err o' = []).
Proof. exact x_path_messages. Qed.
(** with both, the message of the first attempt survives the success of the second *)
Theorem C68_stale_message_refuted : exists k w ops s p s' o, conf_ok k /\ explains w /\ x_run k w ops = Ok s /\
  x_call k w (XOn 0 XPath) s = Ok (XStr p, s') /\ p <> [] /\ x_object 0 s' o /\ o_err o <> [].
Proof. exact stale_message. Qed.
(** the other objects, and their messages, are left alone *)
Theorem C68_other_objects : forall k w s i j m v s', x_call k w (XOn i m) s = Ok (v, s') -> j <> i -> nth_error (c_objs s') j = nth_error (c_objs s) j.
Proof. exact x_isolated. Qed.
Example C68_example : exists s, x_run plain absent [XNew (Some $"foo.so") 1 false false; XNew None 0 false false; XOn 0 XLoad; XOn 1 XLoad] = Ok s /\
  (exists s', x_call plain absent (XOn 0 XError) s = Ok (XStr $"foo.so: cannot open shared object file", s')) /\
  (exists s', x_call plain absent (XOn 1 XError) s = Ok (XStr $"empty filename", s')).
Proof. eexists. split; [vm_compute; reflexivity|]. split; eexists; reflexivity. Qed.

(* ------------------------------------------------------------ C69 *)

(** C69: the queries tell the truth, on any object *)
Theorem C69_queries : forall k w, conf_ok k -> forall s i o, x_reachable k w s -> x_object i s o ->
  (exists b s', x_call k w (XOn i XLoaded) s = Ok (XBool b, s') /\ (b = true <-> x_handle s <> None)) /\
  (exists b s', x_call k w (XOn i XAll) s = Ok (XBool b, s') /\ (b = true <-> forall j, j < length (k_names k) -> x_ptr j s <> None)) /\
  (exists b s', x_call k w (XOn i XNone) s = Ok (XBool b, s') /\ (b = true <-> forall j, j < length (k_names k) -> x_ptr j s = None)) /\
  (exists b s', x_call k w (XOn i XAny) s = Ok (XBool b, s') /\ (b = true <-> exists j, j < length (k_names k) /\ x_ptr j s <> None)) /\
  (exists s', x_call k w (XOn i XError) s = Ok (XStr (match o_err o with [] => $"no error" | m => m end), s')).
Proof. exact x_queries. Qed.
Theorem C69_load_all : forall k w, conf_ok k -> forall s i o v s', x_reachable k w s -> x_object i s o -> x_call k w (XOn i XLoadAll) s = Ok (v, s') ->
  exists b, v = XBool b /\ (b = true <-> forall j, j < length (k_names k) -> x_ptr j s' <> None) /\ x_handle s' = x_handle s.
Proof. exact x_load_all_truth. Qed.
(** loading by number loads exactly that symbol; other numbers are an error *)
Theorem C69_by_number : forall k w, conf_ok k -> forall s i o num, x_reachable k w s -> x_object i s o ->
  exists b s' o', x_call k w (XOn i (XLoadNum num)) s = Ok (XBool b, s') /\ x_object i s' o' /\ x_handle s' = x_handle s /\
    match x_handle s, (if (num <? 0)%Z then None else nth_error (k_names k) (Z.to_nat num)) with
    | Some h, Some n =>
        (forall j, j <> Z.to_nat num -> x_ptr j s' = x_ptr j s) /\ (b = true <-> x_ptr (Z.to_nat num) s' <> None) /\
        exists m, x_ptr (Z.to_nat num) s' = match x_ptr (Z.to_nat num) s with Some p => Some p | None => w_sym w (EvError m :: x_past s) h n end
    | _, _ => b = false /\ (forall j, x_ptr j s' = x_ptr j s) /\ o_err o' <> []
    end.
Proof. exact x_by_number. Qed.
(** loading by name likewise *)
Theorem C69_by_name : forall k w, conf_ok k -> forall s i o a n, x_reachable k w s -> x_object i s o -> nth_error (k_names k) a = Some n ->
  exists b s' o', x_call k w (XOn i (XLoadName (Some n))) s = Ok (XBool b, s') /\ x_object i s' o' /\ x_handle s' = x_handle s /\
    (forall j, j <> a -> x_ptr j s' = x_ptr j s) /\ (b = true <-> x_handle s <> None /\ x_ptr a s' <> None) /\
    forall h, x_handle s = Some h -> exists m, x_ptr a s' = match x_ptr a s with Some p => Some p | None => w_sym w (EvError m :: x_past s) h n end.
Proof. exact x_by_name. Qed.
Theorem C69_unknown_name : forall k w, conf_ok k -> forall s i o a, x_reachable k w s -> x_object i s o -> (forall n, a = Some n -> ~ In (c_str n) (k_names k)) ->
  exists s' o', x_call k w (XOn i (XLoadName a)) s = Ok (XBool false, s') /\ x_object i s' o' /\ x_handle s' = x_handle s /\ (forall j, x_ptr j s' = x_ptr j s) /\ o_err o' <> [] /\
    exists new, x_past s' = new ++ x_past s /\ forall e, In e new -> exists m, e = EvError m.
Proof. exact x_by_unknown_name. Qed.
Example C69_example : exists s, x_run plain good [XNew (Some $"foo.so") 1 false false; XOn 0 XLoad; XOn 0 (XLoadName (Some $"foo_tw")); XOn 0 (XLoadNum 2); XOn 0 (XLoadNum 1)] = Ok s /\
  x_ptr 0 s = None /\ x_ptr 1 s = Some 10 /\ (exists s', x_call plain good (XOn 0 XAny) s = Ok (XBool true, s')) /\ exists s', x_call plain good (XOn 0 XAll) s = Ok (XBool false, s').
Proof. eexists. split; [vm_compute; reflexivity|]. repeat split; eexists; reflexivity. Qed.

(* ------------------------------------------------------------ C70 *)

(** C70: a wrapper calls the function it stands for, found in the current library, with the arguments it got; or it prints one
    message that names the symbol and ends the program.  Unlike the C wrappers (C51) it is defined for every library name. *)
Theorem C70_wrapped_call : forall k w, conf_ok k -> forall s i n args, x_reachable k w s -> c_end s = None -> nth_error (k_names k) i = Some n -> c_str (k_lib k) = k_lib k ->
  exists s', x_call k w (XWrapped i args) s = Ok (XVoid, s') /\
    ((exists p h l new, c_end s' = None /\ x_past s' = EvCall p args :: new ++ x_past s /\ Forall silent new /\
        x_handle s' = Some h /\ session (new ++ x_past s) = Some (h, l) /\ last_answer h n l = Some p) \/
     (exists head msg pre post, x_ptr i s = None /\ c_end s' = Some (match k_auto k with AutoOff => Aborted | _ => Exited 1 end) /\ Forall silent pre /\ Forall silent post /\
        x_past s' = post ++ EvPrint (head ++ $": " ++ n ++ $": " ++ msg ++ [nl]) :: pre ++ x_past s /\
        (head = $"fatal error" \/ head = $"error" \/ head = $"error: " ++ k_lib k) /\
        (k_auto k = AutoOff -> msg = match x_handle s with Some _ => $"symbol not loaded" | None => $"library not loaded" end) /\
        (k_auto k <> AutoOff -> x_handle s' = None))).
Proof. exact wrapped_call. Qed.
(** a lazy wrapper whose symbol the library lacks prints the loader's reason *)
Theorem C70_reason : forall k w, conf_ok k -> forall s i n args h, x_reachable k w s -> c_end s = None -> nth_error (k_names k) i = Some n -> c_str (k_lib k) = k_lib k ->
  k_auto k = AutoLazy -> x_handle s = Some h -> x_ptr i s = None -> (forall t, w_sym w t h n = None) -> explains w ->
  exists s' head pre post r m, x_call k w (XWrapped i args) s = Ok (XVoid, s') /\ Forall silent post /\
    x_past s' = post ++ EvPrint (head ++ $": " ++ n ++ $": " ++ c_str r ++ [nl]) :: pre ++ x_past s /\ pre = [EvError (Some r); EvSym h n None; EvError m].
Proof. exact lazy_reason. Qed.
(** but when the library cannot be opened the message says "no library was loaded", whatever reason the loader gave *)
Theorem C70_open_reason_lost_refuted : forall k w, conf_ok k -> forall s i n args, x_reachable k w s -> c_end s = None -> nth_error (k_names k) i = Some n -> c_str (k_lib k) = k_lib k ->
  k_auto k <> AutoOff -> x_handle s = None -> (forall t f fl ns, w_open w t f fl ns = None) ->
  exists s' head pre post, x_call k w (XWrapped i args) s = Ok (XVoid, s') /\ c_end s' = Some (Exited 1) /\ Forall silent pre /\ Forall silent post /\
    x_past s' = post ++ EvPrint (head ++ $": " ++ n ++ $": no library was loaded" ++ [nl]) :: pre ++ x_past s.
Proof. exact open_reason_lost. Qed.
Example C70_example_call : exists s, x_run (demo AutoLazy $"foo%n.so" 100) good [XWrapped 1 [4; 5]] = Ok s /\ c_end s = None /\ In (EvCall 10 [4; 5]) (x_past s) /\ x_ptr 0 s = None.
Proof. eexists. split; [vm_compute; reflexivity|]. vm_compute. auto. Qed.
Example C70_example_lost : exists s, x_run (demo AutoAll $"foo.so" 100) absent [XWrapped 0 []] = Ok s /\ c_end s = Some (Exited 1) /\
  In (EvPrint $"error: foo.so: foo_one: no library was loaded
") (x_past s).
Proof. eexists. split; [vm_compute; reflexivity|]. vm_compute. auto 10. Qed.

(* ------------------------------------------------------------ C71 *)

(** C71: the path handed out is one the system named for the library that is loaded now.  Missing from the full claim: programs
    in which one object releases the library while there are other objects. *)
Theorem C71_path_of_current_library_partial : forall k w, conf_ok k -> forall s i o p s', lone_releases k w s -> x_object i s o ->
  x_call k w (XOn i XPath) s = Ok (XStr p, s') -> p <> [] ->
  exists h l, x_handle s = Some h /\ x_handle s' = Some h /\ session (x_past s') = Some (h, l) /\ named_path h p l.
Proof. exact path_of_current. Qed.
(** full C71 is false of the code: each object keeps the path it found, also when another object replaced the library *)
Theorem C71_stale_path_refuted : exists k w ops s p s' h l, conf_ok k /\ x_run k w ops = Ok s /\ x_call k w (XOn 0 XPath) s = Ok (XStr p, s') /\ p <> [] /\
  x_handle s' = Some h /\ session (x_past s') = Some (h, l) /\ ~ named_path h p l.
Proof. exact stale_path. Qed.
Local Ltac next L op :=
  let N := fresh in
  lazymatch type of L with lone_releases ?k ?w ?s =>
    let r := eval vm_compute in (x_call k w op s) in
    lazymatch r with Ok (?v, ?t) =>
      assert (N : lone_releases k w t) by
        (apply (lone_next k w s op v t L); [vm_compute; reflexivity|reflexivity|intros i f [F|F] _ [|[]] x X; now inversion F || easy]);
      clear L; rename N into L
    end
  end.
Example C71_example : exists s s', lone_releases plain two s /\ x_call plain two (XOn 0 XPath) s = Ok (XStr $"/lib/bar.so", s') /\ opens (x_past s) = 2.
Proof.
  pose proof (lone_start plain two) as L.
  next L (XNew (Some $"foo.so") 1 false false). next L (XOn 0 XLoad). next L (XOn 0 XPath). next L (XOn 0 (XFree false)). next L (XOn 0 (XLoadArgs $"bar.so" 1 false)).
  do 2 eexists. split; [exact L|]. split; [vm_compute; reflexivity|reflexivity].
Qed.

(* ------------------------------------------------------------ C72 *)

(** C72: destroying an object releases the library, or leaves it alone, as free_lib_in_dtor says; the other objects remain *)
Theorem C72_destructor : forall k w, conf_ok k -> forall s i o, x_reachable k w s -> x_object i s o -> exists s', x_call k w (XDelete i) s = Ok (XVoid, s') /\
  (o_free o = true -> x_handle s' = None /\ forall j, x_ptr j s' = None) /\ (o_free o = false -> c_sh s' = c_sh s) /\
  (forall x, ~ x_object i s' x) /\ forall j, j <> i -> nth_error (c_objs s') j = nth_error (c_objs s) j.
Proof. exact deleted. Qed.
(** otherwise the library stays loaded while the program runs.  Missing from the full claim: other objects' destructors. *)
Theorem C72_library_stays_partial : forall k w, conf_ok k -> forall s o v s' h, x_reachable k w s -> c_end s = None -> x_call k w o s = Ok (v, s') -> ~ x_releases s o ->
  x_handle s = Some h -> x_handle s' = Some h \/ c_end s' <> None.
Proof. exact library_stays. Qed.
(** full C72 is false of the code: the destructor of an object that never loaded anything releases the library another loaded *)
Theorem C72_foreign_release_refuted : exists k w ops s s', conf_ok k /\ x_run k w ops = Ok s /\ x_handle s <> None /\ (forall o, x_object 1 s o -> o_err o = [] /\ o_libpath o = []) /\
  x_call k w (XDelete 1) s = Ok (XVoid, s') /\ x_handle s' = None /\ x_past s' <> x_past s.
Proof. exact not_shared_alike. Qed.
(** a normal end of a program with an automatic loader, or with a static object, releases the library *)
Theorem C72_released_at_exit : forall k w, conf_ok k -> forall s c, x_reachable k w s -> c_end s = None ->
  k_auto k <> AutoOff \/ (exists i o, x_object i s o /\ o_static o = true /\ o_free o = true) ->
  exists s', x_call k w (XExit c) s = Ok (XVoid, s') /\ c_end s' = Some (Exited c) /\ x_handle s' = None.
Proof. exact exit_releases. Qed.
(** whether an object's destructor gives up the library, and what the object asks for, is what the program told that object
    (or the object it is a copy of); no outcome of any call changes it *)
Theorem C72_as_told : forall k w, conf_ok k -> forall ops s, x_run k w ops = Ok s -> c_end s = None ->
  map (option_map x_settings) (c_objs s) = fold_left (x_told k) ops [].
Proof. exact told_all. Qed.
Example C72_told_example : fold_left (x_told plain) [XNew (Some $"foo.so") 1 false true; XOn 0 (XSetFree false); XCopy 0 false; XOn 1 (XLoadArgs $"b.so" 2 true)] [] =
  [Some ($"foo.so", 1%Z, false, false); Some ($"b.so", 2%Z, true, false)].
Proof. reflexivity. Qed.
Example C72_example : exists s, x_run plain good [XNew (Some $"foo.so") 1 false true; XOn 0 XLoad; XCopy 0 false; XOn 1 (XSetFree false); XDelete 1] = Ok s /\
  x_handle s = Some 1 /\ exists s', x_call plain good (XExit 0) s = Ok (XVoid, s') /\ x_handle s' = None /\ open_handles (x_past s') = [].
Proof. eexists. split; [vm_compute; reflexivity|]. split; [reflexivity|]. eexists. split; [vm_compute; reflexivity|]. now split. Qed.

(* ------------------------------------------------------------ C73 *)

(** C73: filename() and flags() tell the last request made of this object, whether it was granted or not, and whatever happened
    since *)
Theorem C73_last_request : forall k w, conf_ok k -> forall ops s i o f fl ns v s1 s2, x_reachable k w s -> c_end s = None -> x_object i s o ->
  x_call k w (XOn i (XLoadArgs f fl ns)) s = Ok (v, s1) ->
  fold_left (fun r o => s <- r ;; x_step k w s o) ops (Ok s1) = Ok s2 -> forallb (fun o => negb (x_requests i o)) ops = true -> c_end s2 = None ->
  x_reachable k w s2 /\ exists o2, x_object i s2 o2 /\ (o_file o2, o_flags o2, o_newns o2) = (f, fl, ns).
Proof. exact last_request. Qed.
Theorem C73_told : forall k w s i o, x_object i s o -> (exists s', x_call k w (XOn i XFilename) s = Ok (XStr (o_file o), s')) /\ (exists s', x_call k w (XOn i XFlags) s = Ok (XInt (o_flags o), s')).
Proof. exact tells_request. Qed.
(** and loading opens what was asked, once; nothing is opened for an empty name *)
Theorem C73_opens_what_was_asked : forall k w, conf_ok k -> forall s i o m f fl ns, x_reachable k w s -> x_object i s o -> x_opens m = true -> x_handle s = None -> x_asked o m = (f, fl, ns) ->
  exists b s', x_call k w (XOn i m) s = Ok (XBool b, s') /\
  match f with
  | [] => b = false /\ x_handle s' = None /\ exists new, x_past s' = new ++ x_past s /\ Forall not_open new
  | _ => exists r pre post, x_past s' = post ++ EvOpen (c_str f) fl (k_dlmopen k && ns) r :: pre ++ x_past s /\
      Forall not_open pre /\ Forall not_open post /\ x_handle s' = r /\ (r = None -> b = false) /\ (m <> XLoadBoth -> r <> None -> b = true)
  end.
Proof. exact opens_asked. Qed.
(** cxx.hpp says flags() is zero before the first attempt; it is not *)
Theorem C73_flags_not_zero_refuted : exists k w s s', conf_ok k /\ x_run k w [XNew None 0 false false] = Ok s /\ x_past s = [] /\ x_call k w (XOn 0 XFlags) s = Ok (XInt 1, s').
Proof. exact flags_not_zero. Qed.
Example C73_example : exists s, x_run plain good [XNew (Some $"foo.so") 1 false false; XOn 0 XLoad; XOn 0 (XLoadArgs $"bar.so" 7 true); XNew None 0 false false; XOn 0 (XFree false); XOn 0 XLoad] = Ok s /\
  (exists s', x_call plain good (XOn 0 XFilename) s = Ok (XStr $"bar.so", s')) /\ In (EvOpen $"bar.so" 7 true (Some 1)) (x_past s).
Proof. eexists. split; [vm_compute; reflexivity|]. split; [eexists; reflexivity|]. vm_compute. auto. Qed.

Print Assumptions C45_pointers_belong_to_library.
Print Assumptions C45_handles.
Print Assumptions C45_nothing_leaked_partial.
Print Assumptions C45_forced_release_refuted.
Print Assumptions C45_defined.
Print Assumptions C68_messages_partial.
Print Assumptions C68_null_symbol_refuted.
Print Assumptions C68_load_twice.
Print Assumptions C68_failed_load.
Print Assumptions C68_free.
Print Assumptions C68_path_messages_partial.
Print Assumptions C68_stale_message_refuted.
Print Assumptions C68_other_objects.
Print Assumptions C69_queries.
Print Assumptions C69_load_all.
Print Assumptions C69_by_number.
Print Assumptions C69_by_name.
Print Assumptions C69_unknown_name.
Print Assumptions C70_wrapped_call.
Print Assumptions C70_reason.
Print Assumptions C70_open_reason_lost_refuted.
Print Assumptions C71_path_of_current_library_partial.
Print Assumptions C71_stale_path_refuted.
Print Assumptions C72_destructor.
Print Assumptions C72_library_stays_partial.
Print Assumptions C72_foreign_release_refuted.
Print Assumptions C72_released_at_exit.
Print Assumptions C72_as_told.
Print Assumptions C73_last_request.
Print Assumptions C73_told.
Print Assumptions C73_opens_what_was_asked.
Print Assumptions C73_flags_not_zero_refuted.

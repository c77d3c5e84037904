(** The C++ class: counterexamples *)
From Coq Require Import Ascii String List Bool Arith ZArith Lia.
From Verif Require Import Str CRuntime SpecCRuntime MinRuntime SpecMinRuntime CRuntimeProps2 CxxRuntime SpecCxxRuntime.
Import ListNotations.

Definition plain := demo AutoOff $"foo.so" 100.
(** two libraries, each with its own path *)
Definition two : world := mkworld (fun _ f _ _ => if str_eqb f $"bar.so" then Some 2 else Some 1) (w_sym good) (w_close good) (w_error good) (w_atexit good)
  (fun _ h => Some (Some (if Nat.eqb h 2 then $"/lib/bar.so" else $"/lib/foo.so"))) (w_addr good) (w_maps good).
(** dlinfo() names no path, dladdr() does *)
Definition nameless : world := mkworld (w_open good) (w_sym good) (w_close good) (w_error good) (w_atexit good)
  (fun _ _ => Some (Some [])) (w_addr good) (w_maps good).

Lemma x_leak : exists k w ops s, conf_ok k /\ x_run k w ops = Ok s /\ c_end s = None /\ x_handle s = None /\ opens (x_past s) = 1 /\ closes (x_past s) = 0.
Proof.
  exists plain, refusing, [XNew (Some $"foo.so") 1 false false; XOn 0 XLoad; XDelete 0]. eexists. split; [apply demo_ok; lia|]. split; [vm_compute; reflexivity|]. repeat split.
Qed.
Lemma stale_message : exists k w ops s p s' o, conf_ok k /\ explains w /\ x_run k w ops = Ok s /\ x_call k w (XOn 0 XPath) s = Ok (XStr p, s') /\ p <> [] /\ x_object 0 s' o /\ o_err o <> [].
Proof.
  exists plain, nameless, [XNew (Some $"foo.so") 1 false false; XOn 0 XLoadBoth]. do 4 eexists. split; [apply demo_ok; lia|]. split; [intros e t _; exists $"reason"; now split|].
  split; [vm_compute; reflexivity|]. split; [vm_compute; reflexivity|]. split; [discriminate|]. split; [reflexivity|discriminate].
Qed.
Lemma x_mute : exists k w ops s s' o, conf_ok k /\ x_run k w ops = Ok s /\ x_call k w (XOn 0 XLoadAll) s = Ok (XBool false, s') /\ x_object 0 s' o /\ o_err o = [].
Proof.
  exists plain, mute, [XNew (Some $"foo.so") 1 false false; XOn 0 XLoad]. do 3 eexists. split; [apply demo_ok; lia|]. split; [vm_compute; reflexivity|]. split; [vm_compute; reflexivity|]. now split.
Qed.
Lemma stale_path : exists k w ops s p s' h l, conf_ok k /\ x_run k w ops = Ok s /\ x_call k w (XOn 0 XPath) s = Ok (XStr p, s') /\ p <> [] /\
  x_handle s' = Some h /\ session (x_past s') = Some (h, l) /\ ~ named_path h p l.
Proof.
  exists plain, two, [XNew (Some $"foo.so") 1 false false; XNew (Some $"bar.so") 1 false false; XOn 0 XLoad; XOn 0 XPath; XOn 1 (XFree false); XOn 1 XLoad; XOn 1 XPath].
  do 5 eexists. split; [apply demo_ok; lia|]. split; [vm_compute; reflexivity|]. split; [vm_compute; reflexivity|]. split; [discriminate|]. split; [reflexivity|]. split; [vm_compute; reflexivity|].
  intros (n & E & [H|[H|[q H]]]); cbn in H; repeat (destruct H as [H|H]; [try discriminate|]); try easy.
  injection H as <-. discriminate.
Qed.
Lemma not_shared_alike : exists k w ops s s', conf_ok k /\ x_run k w ops = Ok s /\ x_handle s <> None /\ (forall o, x_object 1 s o -> o_err o = [] /\ o_libpath o = []) /\
  x_call k w (XDelete 1) s = Ok (XVoid, s') /\ x_handle s' = None /\ x_past s' <> x_past s.
Proof.
  exists plain, good, [XNew (Some $"foo.so") 1 false false; XOn 0 XLoadBoth; XNew (Some $"other.so") 1 false false]. do 2 eexists. split; [apply demo_ok; lia|].
  split; [vm_compute; reflexivity|]. split; [discriminate|]. split; [intros o [= <-]; now split|]. split; [vm_compute; reflexivity|]. split; [reflexivity|]. discriminate.
Qed.
Lemma flags_not_zero : exists k w s s', conf_ok k /\ x_run k w [XNew None 0 false false] = Ok s /\ x_past s = [] /\ x_call k w (XOn 0 XFlags) s = Ok (XInt 1, s').
Proof. exists plain, good. do 2 eexists. split; [apply demo_ok; lia|]. split; [vm_compute; reflexivity|]. split; [reflexivity|vm_compute; reflexivity]. Qed.

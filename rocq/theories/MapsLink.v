(** The assumption [maps_named] of C71 holds of the process map reader. *)
From Coq Require Import Ascii String List Bool Arith NArith.
From Verif Require Import Str CRuntime SpecCxxRuntime Procmap ProcmapFacts.

Lemma procmap_world w addr maps n : (forall t, w_maps w t = read_procmap (addr t) None (maps t) n) -> maps_named w.
Proof.
  intros H t p E. rewrite H in E. destruct (procmap_text _ _ _ _ E) as (NE & C & _). now rewrite C.
Qed.

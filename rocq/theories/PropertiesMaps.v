(** Property C78: statements.  Proofs are in ProcmapFacts.v. *)
From Coq Require Import Ascii String List Bool Arith NArith.
From Verif Require Import Str CRuntime SpecCxxRuntime Procmap SpecProcmap ProcmapFacts MapsLink.
Import ListNotations.

(** C78: a path found in the text of the process map is the printed name of the mapping that holds the address, and fits *)
Theorem C78_right_library : forall addr ms n p, Forall sound_mapping ms -> read_procmap addr None (Some (printed_map ms)) n = Some p ->
  exists m, In m ms /\ covers addr m = true /\ m_name m <> [] /\ p = printed_name (m_name m) /\ length p < n.
Proof. exact procmap_right. Qed.
(** it is found.  Missing: mappings whose offset or device number has a digit above nine. *)
Theorem C78_found_partial : forall addr ms n m, Forall sound_mapping ms -> apart ms -> In m ms -> covers addr m = true -> m_name m <> [] ->
  decimal_fields m = true -> length (printed_name (m_name m)) < n ->
  read_procmap addr None (Some (printed_map ms)) n = Some (printed_name (m_name m)).
Proof. exact procmap_finds. Qed.
(** full C78 is false of the code: these fields are printed in hexadecimal and read as decimal.  No such mapping is found, ... *)
Theorem C78_letters_missed : forall addr ms n m, Forall sound_mapping ms -> apart ms -> In m ms -> covers addr m = true -> decimal_fields m = false ->
  read_procmap addr None (Some (printed_map ms)) n = None.
Proof. exact procmap_misses. Qed.
(** ... for example a library on device fd:00 (a logical volume) *)
Theorem C78_found_refuted : exists ms addr m n, Forall sound_mapping ms /\ apart ms /\ In m ms /\ covers addr m = true /\ m_name m <> [] /\
  length (printed_name (m_name m)) < n /\ read_procmap addr None (Some (printed_map ms)) n = None.
Proof. exact lvm_missed. Qed.
(** both ways to ask, ioctl and text, give the same path.  Missing: as above, and names with a newline. *)
Theorem C78_same_answer_partial : forall addr ms n p, Forall sound_mapping ms -> apart ms -> kernel_answer addr ms n = Some p ->
  (forall m, mapping_at addr ms = Some m -> decimal_fields m = true) -> ~ In nl p ->
  read_procmap addr (Some p) (Some (printed_map ms)) n = Some p /\ read_procmap addr None (Some (printed_map ms)) n = Some p.
Proof. exact ways_agree. Qed.
(** a name with a newline is returned in its printed form, which names another file *)
Theorem C78_same_answer_refuted : exists ms addr p q n, Forall sound_mapping ms /\ apart ms /\ (forall m, In m ms -> decimal_fields m = true) /\
  kernel_answer addr ms n = Some p /\ read_procmap addr None (Some (printed_map ms)) n = Some q /\ p <> q.
Proof. exact newline_differs. Qed.
(** whatever the text is, a path that is returned is a non-empty C string that fits into the buffer *)
Theorem C78_any_text : forall addr maps n p, read_procmap addr None maps n = Some p -> p <> [] /\ c_str p = p /\ length p < n.
Proof. exact procmap_text. Qed.
(** which is what C71 assumes of the process map *)
Theorem C78_for_C71 : forall w addr maps n, (forall t, w_maps w t = read_procmap (addr t) None (maps t) n) -> maps_named w.
Proof. exact procmap_world. Qed.
Example C78_example : Forall sound_mapping usual_maps /\ apart usual_maps /\
  printed libc_map = $"7de340e81600-7de340eaa600 r--p 00000000 103:01 2758110                     /usr/lib/x86_64-linux-gnu/libc.so.6" ++ [nl] /\
  kernel_answer 138415000000000 usual_maps 4096 = Some $"/usr/lib/x86_64-linux-gnu/libc.so.6" /\
  read_procmap 138415000000000 None (Some (printed_map usual_maps)) 4096 = Some $"/usr/lib/x86_64-linux-gnu/libc.so.6" /\
  read_procmap 138415000167936 None (Some (printed_map usual_maps)) 4096 = None.
Proof. split; [apply usual_ok|]. split; [apply usual_ok|]. vm_compute. repeat split. Qed.
Print Assumptions C78_right_library.
Print Assumptions C78_found_partial.
Print Assumptions C78_letters_missed.
Print Assumptions C78_found_refuted.
Print Assumptions C78_same_answer_partial.
Print Assumptions C78_same_answer_refuted.
Print Assumptions C78_any_text.
Print Assumptions C78_for_C71.

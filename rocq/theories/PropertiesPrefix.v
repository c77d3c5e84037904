(** Properties C28 and C29: statements.  Proofs are in PrefixFacts.v. *)
From Coq Require Import Ascii String List Bool Arith.
From Verif Require Import Str Prefix SpecPrefix PrefixFacts.
Import ListNotations.

(* ------------------------------------------------------------ C28 *)

(** every text is cut into words and separators in exactly one way *)
Theorem C28_text_cut : forall s, exists t, cut_ok t /\ cut_text t = s /\ forall t', cut_ok t' -> cut_text t' = s -> t' = t.
Proof.
  exact (fun s => match cut_exists s with ex_intro _ t (conj H E) =>
    ex_intro _ t (conj H (conj E (fun t' H' E' => cut_unique t' t H' H (eq_trans E' (eq_sym E))))) end).
Qed.
(** C28: renaming changes words only: those that start with [GDO_], [_GDO_], [gdo_], [_gdo_] or are [gdo].  Missing from
    the full claim: prefixes starting with a digit, and two standalone [gdo] with one character between them. *)
Theorem C28_rename_words_partial : forall s t, s <> [] -> not_digit_first s -> cut_ok t -> ~ adjacent_gdo (cut_words t) ->
  replace_prefixes (set_prefix s) (cut_text t) = cut_text (map_words (renamed_word (to_upper true s) (to_lower true s)) t).
Proof. exact rename_spec. Qed.
(** other texts are unchanged *)
Theorem C28_other_text_unchanged : forall s t, s <> [] -> not_digit_first s -> cut_ok t ->
  Forall (fun w => w <> $"gdo" /\ forall k, In k [$"GDO_"; $"_GDO_"; $"gdo_"; $"_gdo_"] -> starts_with k w = false) (cut_words t) ->
  replace_prefixes (set_prefix s) (cut_text t) = cut_text t.
Proof. exact rename_unchanged. Qed.
(** full C28 is false of the code: of two standalone [gdo] in a row only the first is renamed ... *)
Theorem C28_standalone_pair_refuted : exists s t, s <> [] /\ not_digit_first s /\ cut_ok t /\
  replace_prefixes (set_prefix s) (cut_text t) <> cut_text (map_words (renamed_word (to_upper true s) (to_lower true s)) t).
Proof. exact rename_overlap. Qed.
(** ... and with a prefix starting with a digit, characters of the text are lost. *)
Theorem C28_digit_prefix_refuted : exists s t, s <> [] /\ cut_ok t /\ ~ adjacent_gdo (cut_words t) /\
  length (replace_prefixes (set_prefix s) (cut_text t)) < length (cut_text (map_words (renamed_word (to_upper true s) (to_lower true s)) t)).
Proof. exact rename_digit. Qed.

Example C28_example :
  replace_prefixes (set_prefix $"my-lib") $"#if GDO_X && _GDO_Y gdo_a(_gdo_b, __gdo_c, xgdo_d, gdo);"
  = $"#if MY_LIB_X && _MY_LIB_Y my_lib_a(_my_lib_b, __gdo_c, xgdo_d, my_lib);" /\
  cut_ok ($"a", [("("%char, $"gdo_b"); (")"%char, [])]) /\ ~ adjacent_gdo (cut_words ($"a", [("("%char, $"gdo_b"); (")"%char, [])])).
Proof.
  split; [vm_compute; reflexivity|]. split; [split; repeat constructor|].
  intros ([|x [|y [|z [|q a]]]] & b & E); cbn in E; discriminate.
Qed.

(* ------------------------------------------------------------ C29 *)

(** C29: whatever the option, both prefixes consist of letters, digits and underscores and are as long as the option; the
    upper-case one has no lower-case letter and vice versa, and they differ by case only *)
Theorem C29_prefix_names : forall s, ident_text (m_pfx_upper (set_prefix s)) /\ ident_text (m_pfx_lower (set_prefix s)) /\
  length (m_pfx_upper (set_prefix s)) = length s /\ length (m_pfx_lower (set_prefix s)) = length s /\
  Forall (fun c => islower c = false) (m_pfx_upper (set_prefix s)) /\ Forall (fun c => isupper c = false) (m_pfx_lower (set_prefix s)) /\
  map toupper (m_pfx_lower (set_prefix s)) = m_pfx_upper (set_prefix s).
Proof. exact prefix_names. Qed.
(** the header guard is an identifier for every file name and option *)
Theorem C29_guard_identifier : forall h s, ident_text (guard_name h (m_pfx_upper (set_prefix s))) /\
  length (guard_name h (m_pfx_upper (set_prefix s))) = length h + length s + 3 /\
  not_digit_first (guard_name h (m_pfx_upper (set_prefix s))).
Proof. exact guard_ident. Qed.
(** an option that is an identifier already only changes case *)
Theorem C29_plain_prefix : forall s, Forall (fun c => isalnum c = true \/ c = "_"%char) s ->
  m_pfx_upper (set_prefix s) = map toupper s /\ m_pfx_lower (set_prefix s) = map tolower s.
Proof. exact plain_name_kept. Qed.

Example C29_example : m_pfx_upper (set_prefix $"lib-foo.2") = $"LIB_FOO_2" /\ m_pfx_lower (set_prefix $"Lib-Foo.2") = $"lib_foo_2" /\
  guard_name $"out/my file.h" (m_pfx_upper (set_prefix $"x")) = $"_X_OUT_MY_FILE_H_".
Proof. repeat split; vm_compute; reflexivity. Qed.

Print Assumptions C28_text_cut.
Print Assumptions C28_rename_words_partial.
Print Assumptions C28_other_text_unchanged.
Print Assumptions C28_standalone_pair_refuted.
Print Assumptions C28_digit_prefix_refuted.
Print Assumptions C29_prefix_names.
Print Assumptions C29_guard_identifier.
Print Assumptions C29_plain_prefix.

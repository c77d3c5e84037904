(** A small set of templates, and runs in which things go wrong. *)
From Coq Require Import Ascii String List Bool Arith NArith Lia.
From Verif Require Import Str StrFacts Parse ParamNames Prefix Substitute SpecSubstitute Data Options Generate SpecGenerate.
Import ListNotations.

Definition demo_end : entry := mkentry [] false 0.
Definition demo_builtin (t : tname) : list entry :=
  match t with
  | TLicense => [mkentry $"/* license */" false 1; demo_end]
  | _ => [mkentry ($"#line 1 " ++ [dquote] ++ tfile t ++ [dquote]) false 1; mkentry ($"/* " ++ tfile t ++ $" */") false 1;
          mkentry $"void *gdo_%%func_symbol%%;" true 1; mkentry $"/* end */" false 1; demo_end]
  end.
(** filename_macros.h has no placeholders *)
Definition demo_templates (t : tname) : list entry :=
  match t with
  | TFilenameMacros => [mkentry ($"#line 1 " ++ [dquote] ++ tfile t ++ [dquote]) false 1; mkentry $"#define GDO_EXT 1" false 1; demo_end]
  | _ => demo_builtin t
  end.
Definition demo_env : env := mkenv demo_templates (fun _ => true) (fun _ => true) (fun _ => true) (fun _ => true) None.
Definition demo_funcs : list proto := [mkproto KFunction $"int" $"f" $"int a" [[$"int"; $"a"]] $"a"; mkproto KFunction $"void" $"g" $"void" [] []].
Definition demo_set (out : str) (force sep line : bool) (tpl tpath : str) : settings :=
  mkset out FmtC PRead tpl [] force sep false false true false line false [] [] [] [] $"foo"
        (set_prefix $"foo") tpath.
Fixpoint files (l : list (str * node)) : str -> option node :=
  fun p => match l with
           | [] => None
           | (q, n) :: l' => if str_eqb p q then Some n else files l' p
           end.

(** an existing file is overwritten by -dump-templates *)
Lemma dump_overwrites : exists e dir fs p old new, no_links fs /\ fs p = Some (Regular old) /\ old <> new /\
  exists w', dump_templates e dir (started fs []) = (w', Ret tt) /\ w_fs w' p = Some (Regular new).
Proof.
  exists demo_env, $"d", (files [($"d", Directory false); ($"d/license.h", Regular $"mine")]), $"d/license.h", $"mine", ($"/* license */" ++ [nl]).
  split.
  { intros p t. cbn [files]. destruct (str_eqb p $"d"); [discriminate|]. destruct (str_eqb p $"d/license.h"); discriminate. }
  split; [reflexivity|]. split; [discriminate|]. eexists. split; [vm_compute; reflexivity|]. vm_compute. reflexivity.
Qed.

(** the header is left behind when the body cannot be written *)
Lemma header_left : exists e s f fs msg w', o_force s = false /\
  run e s f [] [] [] (started fs []) = (w', Throw msg) /\ fs (header_path s) = None /\ w_fs w' (header_path s) <> None.
Proof.
  exists demo_env, (demo_set $"x" false true false [] []), demo_funcs, (files [($"x.c", Regular [])]).
  eexists. eexists. split; [reflexivity|]. split; [vm_compute; reflexivity|]. split; [reflexivity|]. vm_compute. discriminate.
Qed.
(** the old output is gone although nothing replaces it *)
Lemma output_lost : exists e s f fs msg w' old, o_force s = true /\
  run e s f [] [] [] (started fs []) = (w', Throw msg) /\ fs (o_output s) = Some (Regular old) /\ w_fs w' (o_output s) <> Some (Regular old).
Proof.
  exists demo_env, (demo_set $"x.h" true false false $"t" []), demo_funcs,
    (files [($"x.h", Regular $"old"); ($"t", Regular $"%%func_symbol%% %%obj_symbol%%")]).
  eexists. eexists. exists $"old". split; [reflexivity|]. split; [vm_compute; reflexivity|]. split; [reflexivity|]. vm_compute. discriminate.
Qed.
(** an exception nobody catches *)
Lemma uncaught : exists e s f fs w', run e s f [] [] [] (started fs []) = (w', Abort).
Proof.
  exists demo_env, (demo_set $"x.h" true false false [] []), demo_funcs, (files [($"x.h", Directory false)]).
  eexists. vm_compute. reflexivity.
Qed.

(** templates in a directory *)
Definition demo_dir : str -> option node :=
  files (map (fun t => ($"t/" ++ tfile t, Regular ($"/* my " ++ tfile t ++ $" %%func_symbol%% */"))) all_templates).
Lemma license_ignored : exists e s f fs w' text, o_tpath s <> [] /\ run e s f [] [] [] (started fs []) = (w', Ret tt) /\
  w_fs w' (o_output s) = Some (Regular text) /\ fs (o_tpath s ++ $"license.h") = Some (Regular $"/* my license.h %%func_symbol%% */") /\
  find $"license */" text <> None /\ find $"my license" text = None /\ find $"my filename_macros" text = None /\ find $"my common.h f" text <> None.
Proof.
  exists demo_env, (demo_set $"x.h" false false false [] $"t/"), demo_funcs, demo_dir.
  eexists. eexists. split; [discriminate|]. split; [vm_compute; reflexivity|]. split; [vm_compute; reflexivity|].
  split; [vm_compute; reflexivity|]. split; [vm_compute; discriminate|]. split; [vm_compute; reflexivity|].
  split; [vm_compute; reflexivity|vm_compute; discriminate].
Qed.
Lemma dangling : exists e s f fs w', o_tpath s <> [] /\ o_separate s = true /\ run e s f [] [] [] (started fs []) = (w', Undef).
Proof.
  exists demo_env, (demo_set $"x.h" false true false [] $"t/"), demo_funcs, demo_dir.
  eexists. split; [discriminate|]. split; [reflexivity|]. vm_compute. reflexivity.
Qed.
(** the second line directive is wrong when a template line is for objects and there are none *)
Lemma second_wrong : exists e s f fs w' text before n, o_line s = true /\ o_tpath s = [] /\ run e s f [] [] [] (started fs []) = (w', Ret tt) /\
  w_fs w' (o_output s) = Some (Regular text) /\
  text = before ++ directive n (header_name s) ++ bottom_text s /\ n <> next_line (before ++ directive n (header_name s)).
Proof.
  pose (b := fun t => match t with TCC => [mkentry ($"#line 1 " ++ [dquote] ++ $"c.c" ++ [dquote]) false 1;
    mkentry $"void *%%obj_symbol%%;" true 1; mkentry $"/* end */" false 1; demo_end] | _ => demo_templates t end).
  pose (e := mkenv b (fun _ => true) (fun _ => true) (fun _ => true) (fun _ => true) None). pose (s := demo_set $"x.h" false false true [] []).
  pose (w := fst (run e s demo_funcs [] [] [] (started (fun _ => None) []))).
  pose (text := match w_fs w $"x.h" with Some (Regular t) => t | _ => [] end).
  pose (n := 48).
  pose (before := firstn (length text - length (directive n (header_name s) ++ bottom_text s)) text).
  exists e, s, demo_funcs, (fun _ => None), w, text, before, n.
  split; [reflexivity|]. split; [reflexivity|]. split; [vm_compute; reflexivity|]. split; [vm_compute; reflexivity|].
  split; [vm_compute; reflexivity|]. vm_compute. discriminate.
Qed.

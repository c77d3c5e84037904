(** C102: the macros for the names of library files.
    Model: Templates.v, Substitute.v; specification: SpecCLang.v (the preprocessor), SpecCMacro.v (replacement), SpecFileName.v; proofs: HFile.v, HFileName.v. *)
From Coq Require Import Ascii String List Bool Arith.
From Verif Require Import Str Parse ParamNames Prefix Substitute Data Options Generate SpecPrefix SpecSubstitute Templates SpecTemplates SpecCLang SpecCProg SpecCMacro SpecBody SpecHeader SpecFile SpecFileName HFileName PropertiesFile.
Import ListNotations.

(** C102: the macros as the program writes them in front of its templates, on every system; [pre] and [post] are what the compiler has read
    before and after them.  GDO_LIBNAMEA(n, a) is the name of the file of the library n even if n and a are names of macros, and the extensions are right.
    GDO_LIBNAME and GDO_LIBNAMEW replace the macros in n and a first: with words that are no macros ([ends_as m n n]) they name the file of n *)
Theorem C102_file_names_partial : forall c cfg, default_prefix c -> c_line c = false -> c_funcs c = [] -> c_objs c = [] -> exists fm, preprocess cfg (macros_text c (shipped TFilenameMacros)) = Some fm /\
  forall pre post, let m := macros_of (pre ++ fm ++ post) in Forall keeps_names post -> macro_at m $"L" = None ->
    (forall n a, (exists r, becomes m [TWord n] r) -> (exists r, becomes m [TWord a] r) -> makes_text m false (call "GDO_LIBNAMEA" n a) (library_file cfg n a)) /\
    (forall n a y z, ends_as m n y -> ends_as m a z -> makes_text m true (call "GDO_LIBNAMEW" n a) (library_file cfg y z) /\ makes_text m (wide_names cfg) (call "GDO_LIBNAME" n a) (library_file cfg y z)) /\
    makes_text m false [TWord $"GDO_LIBEXTA"] (library_extension cfg) /\ makes_text m true [TWord $"GDO_LIBEXTW"] (library_extension cfg) /\ makes_text m (wide_names cfg) [TWord $"GDO_LIBEXT"] (library_extension cfg).
Proof. exact names_right. Qed.
(** C102, finding: where the name of the library is also the name of one of its functions, and that stands for the wrapper (C95), GDO_LIBNAME
    names the file of a library that is called like the wrapper *)
Theorem C102_function_name_refuted : forall c cfg, default_prefix c -> c_line c = false -> c_funcs c = [] -> c_objs c = [] -> exists fm, preprocess cfg (macros_text c (shipped TFilenameMacros)) = Some fm /\
  forall pre post n a, let m := macros_of (pre ++ fm ++ post) in Forall keeps_names post -> macro_at m $"L" = None -> ends_as m n ($"GDO_WRAP_" ++ n) -> ends_as m a a ->
    makes_text m (wide_names cfg) (call "GDO_LIBNAME" n a) (library_file cfg ($"GDO_WRAP_" ++ n) a) /\ ~ makes_text m (wide_names cfg) (call "GDO_LIBNAME" n a) (library_file cfg n a).
Proof. exact names_wrong. Qed.

(** on Linux and Windows *)
Definition linux_macros (x : str) : bool := str_eqb x $"__linux__".
Definition mingw_macros (x : str) : bool := existsb (str_eqb x) [$"_WIN32"; $"__MINGW32__"; $"_UNICODE"].
(** what c.h:280 and c.h:296 leave behind for a function readline with a wrapper *)
Definition readline_alias : list pout := [PDefine $"GDO_FUNC_ALIAS" true [TOp $"("; TWord $"x"; TOp $")"; TWord $"GDO_WRAP_"; TOp $"##"; TWord $"x"];
  PDefine $"readline" false [TWord $"GDO_FUNC_ALIAS"; TOp $"("; TWord $"readline"; TOp $")"]].
Example C102_example :
  library_file linux_macros $"foo" $"1.2" = $"libfoo.so.1.2" /\ library_file mingw_macros $"foo" $"1.2" = $"libfoo-1.2.dll" /\ wide_names mingw_macros = true /\ library_extension linux_macros = $".so" /\
  (exists fm, preprocess linux_macros (macros_text (config_of plain_settings [] []) (shipped TFilenameMacros)) = Some fm /\
    let m := macros_of (fm ++ readline_alias) in
    makes_text m false (call "GDO_LIBNAME" $"foo" $"8") $"libfoo.so.8" /\ makes_text m false (call "GDO_LIBNAMEA" $"readline" $"8") $"libreadline.so.8" /\
    makes_text m false (call "GDO_LIBNAME" $"readline" $"8") $"libGDO_WRAP_readline.so.8").
Proof.
  do 4 (split; [vm_compute; reflexivity|]). eexists. split; [vm_compute; reflexivity|]. cbv zeta.
  split; [|split]; (eexists; split; [exists 20; eexists; split; vm_compute; reflexivity|]).
  - exists $"lib", [$"foo"; $".so."; $"8"]. split; reflexivity.
  - exists $"lib", [$"readline"; $".so."; $"8"]. split; reflexivity.
  - exists $"lib", [$"GDO_WRAP_readline"; $".so."; $"8"]. split; reflexivity.
Qed.

Print Assumptions C102_file_names_partial.
Print Assumptions C102_function_name_refuted.

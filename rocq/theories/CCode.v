(** The functions of the generated C library for the symbols [vs], with all macros replaced.  Written by the program that wrote CBody.v;
    that they are the functions of CBody.v is proved in CBodyFuns.v.  Definitions only (for proofs). *)
From Coq Require Import Ascii String List Bool Arith.
From Verif Require Import Str Parse Prefix Substitute SpecSubstitute SpecCLang SpecCProg CTemplate.
Import ListNotations.

Section Code.
Variables (cfg : str -> bool) (vs : list (hole -> str)).
Definition code_gdo_call_dlsym : list stmt :=
    [SReturn (Some (ECall $"dlsym" [(EId $"handle"); (EId $"symbol")]))].
Definition code_gdo_call_dlclose : list stmt :=
    [SReturn (Some (EParen (EBin $"==" (ECall $"dlclose" [(EId $"handle")]) (EId $"0"))))].
Definition code_gdo_call_dlopen : list stmt :=
    ((if forallb (feval cfg) [(FDef $"GDO_HAVE_DLMOPEN")] then [SIf (EId $"new_namespace") ([SReturn (Some (ECall $"dlmopen" [(EId $"LM_ID_NEWLM"); (EId $"filename"); (EId $"flags")]))]) None] else []) ++
    (if forallb (feval cfg) [(FNot (FDef $"GDO_HAVE_DLMOPEN"))] then [SExpr (ECast [TWord $"void"] (EId $"new_namespace"))] else []) ++
    [SReturn (Some (ECall $"dlopen" [(EId $"filename"); (EId $"flags")]))]).
Definition code_gdo_call_dladdr : list stmt :=
    [SExpr (ESet (EArrow (EId $"info") $"dli_fname") (EId $"NULL"));
    SReturn (Some (EParen (EBin $"&&" (EBin $"&&" (EBin $"&&" (EId $"addr") (EBin $"!=" (ECall $"dladdr" [(EId $"addr"); (EId $"info")]) (EId $"0"))) (EArrow (EId $"info") $"dli_fname")) (EBin $"!=" (EIndex (EArrow (EId $"info") $"dli_fname") (EId $"0")) (EId $"0")))))].
Definition code_gdo_tcsstr : list stmt :=
    [SReturn (Some (ECall $"strstr" [(EId $"haystack"); (EId $"needle")]))].
Definition code_gdo_save_to_errbuf : list stmt :=
    [SIf (EId $"msg") ([SExpr (ECall $"snprintf" [(EField (EId $"gdo_hndl") $"errbuf"); (EParen (EBin $"/" (ESizeof (EField (EId $"gdo_hndl") $"errbuf")) (ESizeof (EIndex (EField (EId $"gdo_hndl") $"errbuf") (EId $"0"))))); (EStr $"%s"); (EId $"msg")])]) (Some ([SExpr (ESet (EIndex (EField (EId $"gdo_hndl") $"errbuf") (EId $"0")) (EId $"0"))]))].
Definition code_gdo_clear_error : list stmt :=
    [SExpr (ECall $"dlerror" []);
    SExpr (ESet (EIndex (EField (EId $"gdo_hndl") $"errbuf") (EId $"0")) (EId $"0"))].
Definition code_gdo_save_error : list stmt :=
    [SExpr (ECast [TWord $"void"] (EParen (EId $"msg")));
    SExpr (ECall $"_gdo_save_to_errbuf" [(ECall $"dlerror" [])])].
Definition code_gdo_set_error_no_library_loaded : list stmt :=
    [SExpr (ECall $"_gdo_save_to_errbuf" [(EStr $"no library was loaded")])].
Definition code_gdo_load_lib : list stmt :=
    [SReturn (Some (ECall $"gdo_load_lib_name" [(EId $"GDO_DEFAULT_LIB")]))].
Definition code_gdo_load_lib_and_symbols : list stmt :=
    [SReturn (Some (EParen (EBin $"&&" (ECall $"gdo_load_lib" []) (ECall $"gdo_load_all_symbols" []))))].
Definition code_gdo_load_lib_name : list stmt :=
    [SReturn (Some (ECall $"gdo_load_lib_args" [(EId $"filename"); (EId $"GDO_DEFAULT_FLAGS"); (EId $"false")]))].
Definition code_gdo_load_lib_name_and_symbols : list stmt :=
    [SReturn (Some (EParen (EBin $"&&" (ECall $"gdo_load_lib_name" [(EId $"filename")]) (ECall $"gdo_load_all_symbols" []))))].
Definition code_gdo_load_lib_args : list stmt :=
    [SExpr (ECall $"_gdo_clear_error" []);
    SIf (ECall $"gdo_lib_is_loaded" []) ([SExpr (ECall $"_gdo_save_to_errbuf" [(EStr $"library already loaded")]);
    SReturn (Some (EId $"false"))]) None;
    SIf (EBin $"||" (ENot (EId $"filename")) (EBin $"==" (EDeref (EId $"filename")) (EId $"0"))) ([SExpr ENone;
    SExpr (ECall $"_gdo_save_to_errbuf" [(EStr $"empty filename")]);
    SReturn (Some (EId $"false"))]) None;
    SExpr (ECall $"_gdo_load_library" [(EId $"filename"); (EId $"flags"); (EId $"new_namespace")]);
    SIf (ENot (ECall $"gdo_lib_is_loaded" [])) ([SExpr (ECall $"_gdo_save_error" [(EId $"filename")]);
    SReturn (Some (EId $"false"))]) None;
    SReturn (Some (EId $"true"))].
Definition code_gdo_load_library : list stmt :=
    [SExpr (ESet (EField (EId $"gdo_hndl") $"handle") (ECall $"_gdo_call_dlopen" [(EId $"filename"); (EId $"flags"); (EId $"new_namespace")]))].
Definition code_gdo_lib_is_loaded : list stmt :=
    [SReturn (Some (EParen (EBin $"!=" (EField (EId $"gdo_hndl") $"handle") (EId $"NULL"))))].
Definition loop_1 (v : hole -> str) : list stmt :=
    [SExpr (ESet (EField (EId $"gdo_hndl") ($"GDO_PTR_" ++ v HSym)) (EId $"NULL"))].
Definition code_gdo_free_lib : list stmt :=
    ([SExpr (ECall $"_gdo_clear_error" []);
    SIf (ECall $"gdo_lib_is_loaded" []) ([SIf (ENot (ECall $"_gdo_call_dlclose" [(EField (EId $"gdo_hndl") $"handle")])) ([SExpr (ECall $"_gdo_save_error" [(EId $"NULL")]);
    SReturn (Some (EId $"false"))]) None]) None;
    SExpr (ESet (EIndex (EField (EId $"gdo_hndl") $"libpath") (EId $"0")) (EId $"0"));
    SExpr (ESet (EField (EId $"gdo_hndl") $"handle") (EId $"NULL"))] ++
    flat_map loop_1 vs ++
    [SReturn (Some (EId $"true"))]).
Definition loop_2 (v : hole -> str) : list stmt :=
    [SExpr (ESet (EField (EId $"gdo_hndl") ($"GDO_PTR_" ++ v HSym)) (EId $"NULL"))].
Definition code_gdo_force_free_lib : list stmt :=
    ([SExpr (ECall $"_gdo_clear_error" []);
    SIf (ECall $"gdo_lib_is_loaded" []) ([SExpr (ECall $"_gdo_call_dlclose" [(EField (EId $"gdo_hndl") $"handle")])]) None;
    SExpr (ESet (EIndex (EField (EId $"gdo_hndl") $"libpath") (EId $"0")) (EId $"0"));
    SExpr (ESet (EField (EId $"gdo_hndl") $"handle") (EId $"NULL"))] ++
    flat_map loop_2 vs).
Definition code_gdo_enable_autorelease : list stmt :=
    [SExpr (ECall $"_gdo_clear_error" []);
    SIf (ENot (EField (EId $"gdo_hndl") $"free_lib_reg")) ([SIf (EBin $"==" (ECall $"atexit" [(EId $"gdo_force_free_lib")]) (EId $"0")) ([SExpr (ESet (EField (EId $"gdo_hndl") $"free_lib_reg") (EId $"true"))]) (Some ([SExpr (ECall $"_gdo_save_to_errbuf" [(EStr $"atexit(): failed to register `gdo_force_free_lib()'")])]))]) None;
    SReturn (Some (EField (EId $"gdo_hndl") $"free_lib_reg"))].
Definition loop_3 (v : hole -> str) : expr :=
    (EBin $"!=" (EField (EId $"gdo_hndl") ($"GDO_PTR_" ++ v HSym)) (EId $"NULL")).
Definition code_gdo_all_symbols_loaded : list stmt :=
    [SIf (fold_left (fun a (v : hole -> str) => EBin $"&&" a (loop_3 v)) vs (EId $"true")) ([SReturn (Some (EId $"true"))]) None;
    SReturn (Some (EId $"false"))].
Definition loop_4 (v : hole -> str) : expr :=
    (EBin $"==" (EField (EId $"gdo_hndl") ($"GDO_PTR_" ++ v HSym)) (EId $"NULL")).
Definition code_gdo_no_symbols_loaded : list stmt :=
    [SIf (fold_left (fun a (v : hole -> str) => EBin $"&&" a (loop_4 v)) vs (EId $"true")) ([SReturn (Some (EId $"true"))]) None;
    SReturn (Some (EId $"false"))].
Definition loop_5 (v : hole -> str) : expr :=
    (EBin $"!=" (EField (EId $"gdo_hndl") ($"GDO_PTR_" ++ v HSym)) (EId $"NULL")).
Definition code_gdo_any_symbol_loaded : list stmt :=
    [SIf (fold_left (fun a (v : hole -> str) => EBin $"||" a (loop_5 v)) vs (EId $"false")) ([SReturn (Some (EId $"true"))]) None;
    SReturn (Some (EId $"false"))].
Definition loop_6 (v : hole -> str) : list stmt :=
    [SIf (EBin $"==" (EParen (ESet (EField (EId $"gdo_hndl") ($"GDO_PTR_" ++ v HSym)) (ECast (utoks v [(KHole HSymType)]) (ECall $"_gdo_sym" [(EStr (v HSym)); (EStr (v HSym))])))) (EId $"NULL")) [SReturn (Some (EId $"false"))] None].
Definition code_gdo_load_all_symbols : list stmt :=
    ([SExpr (ECall $"_gdo_clear_error" []);
    SIf (ECall $"gdo_all_symbols_loaded" []) ([SReturn (Some (EId $"true"))]) None;
    SIf (ENot (ECall $"gdo_lib_is_loaded" [])) ([SExpr (ECall $"_gdo_set_error_no_library_loaded" []);
    SReturn (Some (EId $"false"))]) None] ++
    flat_map loop_6 vs ++
    [SReturn (Some (EId $"true"))]).
Definition code_gdo_sym : list stmt :=
    [SDecl [(TWord $"void"); (TOp $"*")] $"ptr" false (Some (ECall $"_gdo_call_dlsym" [(EField (EId $"gdo_hndl") $"handle"); (EId $"symbol")]));
    SIf (ENot (EId $"ptr")) ([SExpr (ECall $"_gdo_save_error" [(EId $"msg")])]) None;
    SReturn (Some (EId $"ptr"))].
Definition loop_7 (v : hole -> str) : list stmt :=
    [SCase (EId ($"GDO_LOAD_" ++ v HSym));
    SIf (ENot (EField (EId $"gdo_hndl") ($"GDO_PTR_" ++ v HSym))) [SExpr (ESet (EField (EId $"gdo_hndl") ($"GDO_PTR_" ++ v HSym)) (ECast (utoks v [(KHole HSymType)]) (ECall $"_gdo_sym" [(EStr (v HSym)); (EStr (v HSym))])))] None;
    SReturn (Some (EParen (EBin $"!=" (EField (EId $"gdo_hndl") ($"GDO_PTR_" ++ v HSym)) (EId $"NULL"))))].
Definition code_gdo_load_symbol : list stmt :=
    [SExpr (ECall $"_gdo_clear_error" []);
    SIf (ENot (ECall $"gdo_lib_is_loaded" [])) ([SExpr (ECall $"_gdo_set_error_no_library_loaded" []);
    SReturn (Some (EId $"false"))]) None;
    SSwitch (EId $"symbol_num") ((flat_map loop_7 vs ++
    [SDefault;
    SBreak]));
    SExpr ENone;
    SExpr (ECall $"snprintf" [(EField (EId $"gdo_hndl") $"errbuf"); (EParen (EBin $"/" (ESizeof (EField (EId $"gdo_hndl") $"errbuf")) (ESizeof (EIndex (EField (EId $"gdo_hndl") $"errbuf") (EId $"0"))))); (EStr $"unknown symbol number: %d"); (EId $"symbol_num")]);
    SReturn (Some (EId $"false"))].
Definition loop_8 (v : hole -> str) : list stmt :=
    [SExpr (ESet (EId $"curr") (EStr (v HSym)));
    SExpr (ESet (EId $"curr_len") (EBin $"-" (ESizeof (EStr (v HSym))) (EId $"1")));
    SIf (EBin $"&&" (EBin $"==" (EId $"len") (EId $"curr_len")) (EBin $"==" (ECall $"strcmp" [(EBin $"+" (EId $"symbol") (EId $"pfxlen")); (EBin $"+" (EId $"curr") (EId $"pfxlen"))]) (EId $"0"))) [SIf (ENot (EField (EId $"gdo_hndl") ($"GDO_PTR_" ++ v HSym))) [SExpr (ESet (EField (EId $"gdo_hndl") ($"GDO_PTR_" ++ v HSym)) (ECast (utoks v [(KHole HSymType)]) (ECall $"_gdo_sym" [(EStr (v HSym)); (EStr (v HSym))])))] None; SReturn (Some (EParen (EBin $"!=" (EField (EId $"gdo_hndl") ($"GDO_PTR_" ++ v HSym)) (EId $"NULL"))))] None].
Definition code_gdo_load_symbol_name : list stmt :=
    [SExpr (ECall $"_gdo_clear_error" []);
    SIf (ENot (ECall $"gdo_lib_is_loaded" [])) ([SExpr (ECall $"_gdo_set_error_no_library_loaded" []);
    SReturn (Some (EId $"false"))]) None;
    SIf (EBin $"||" (ENot (EId $"symbol")) (EBin $"==" (EDeref (EId $"symbol")) (EId $"0"))) ([SExpr ENone;
    SExpr (ECall $"_gdo_save_to_errbuf" [(EStr $"empty symbol name")]);
    SReturn (Some (EId $"false"))]) None;
    SDecl [(TWord $"const"); (TWord $"char")] $"pfx" true (Some (EId $"GDO_COMMON_PREFIX"));
    SDecl [(TWord $"const"); (TWord $"size_t")] $"pfxlen" false (Some (EBin $"-" (ESizeof (EId $"pfx")) (EId $"1")));
    SIf (EBin $"||" (EBin $"==" (EId $"pfxlen") (EId $"0")) (EBin $"==" (ECall $"strncmp" [(EId $"symbol"); (EId $"pfx"); (EId $"pfxlen")]) (EId $"0"))) (([SDecl [(TWord $"const"); (TWord $"size_t")] $"len" false (Some (ECall $"strlen" [(EId $"symbol")]));
    SDecl [(TWord $"const"); (TWord $"char"); (TOp $"*")] $"curr" false None;
    SDecl [(TWord $"size_t")] $"curr_len" false None] ++
    flat_map loop_8 vs)) None;
    SExpr ENone;
    SExpr (ECall $"snprintf" [(EField (EId $"gdo_hndl") $"errbuf"); (EParen (EBin $"/" (ESizeof (EField (EId $"gdo_hndl") $"errbuf")) (ESizeof (EIndex (EField (EId $"gdo_hndl") $"errbuf") (EId $"0"))))); (ECat (EStr $"unknown symbol: ") (EStr $"%s")); (EId $"symbol")]);
    SReturn (Some (EId $"false"))].
Definition code_gdo_last_error : list stmt :=
    [SIf (EBin $"==" (EIndex (EField (EId $"gdo_hndl") $"errbuf") (EId $"0")) (EId $"0")) ([SExpr (ECall $"_gdo_save_to_errbuf" [(EStr $"no error")])]) None;
    SReturn (Some (EField (EId $"gdo_hndl") $"errbuf"))].
Definition code_gdo_library_path : list stmt :=
    ([SExpr (ECall $"_gdo_clear_error" [])] ++
    (if forallb (feval cfg) [(FAnd (FNot (FDef $"_WIN32")) (FAnd (FNot (FDef $"_AIX")) (FAnd (FNot (FDef $"GDO_HAVE_DLINFO")) (FNot (FDef $"GDO_HAVE_DLADDR")))))] then [SExpr (ECall $"_gdo_save_to_errbuf" [(EStr $"function not implemented")]);
    SReturn (Some (EId $"NULL"))] else []) ++
    [SIf (ENot (ECall $"gdo_lib_is_loaded" [])) ([SExpr (ECall $"_gdo_set_error_no_library_loaded" []);
    SReturn (Some (EId $"NULL"))]) None;
    SIf (EBin $"!=" (EIndex (EField (EId $"gdo_hndl") $"libpath") (EId $"0")) (EId $"0")) ([SReturn (Some (EField (EId $"gdo_hndl") $"libpath"))]) None] ++
    (if forallb (feval cfg) [(FDef $"GDO_HAVE_DLINFO")] then [SIf (ECall $"_gdo_libpath_dlinfo" []) ([SReturn (Some (EField (EId $"gdo_hndl") $"libpath"))]) None] else []) ++
    (if forallb (feval cfg) [(FDef $"GDO_HAVE_DLADDR")] then [SIf (ECall $"_gdo_libpath_dladdr" []) ([SReturn (Some (EField (EId $"gdo_hndl") $"libpath"))]) None] else []) ++
    [SExpr (ESet (EIndex (EField (EId $"gdo_hndl") $"libpath") (EId $"0")) (EId $"0"));
    SReturn (Some (EId $"NULL"))]).
Definition code_gdo_libpath_dlinfo : list stmt :=
    ([SDecl [(TWord $"struct"); (TWord $"link_map"); (TOp $"*")] $"lm" false (Some (EId $"NULL"));
    SExpr (ECall $"_gdo_clear_error" []);
    SIf (EBin $"==" (ECall $"dlinfo" [(EField (EId $"gdo_hndl") $"handle"); (EId $"RTLD_DI_LINKMAP"); (EAddr (EId $"lm"))]) (ENeg (EId $"1"))) ([SExpr (ECall $"_gdo_save_error" [(EId $"NULL")]);
    SReturn (Some (EId $"false"))]) None;
    SIf (EBin $"||" (ENot (EArrow (EId $"lm") $"l_name")) (EBin $"==" (EIndex (EArrow (EId $"lm") $"l_name") (EId $"0")) (EId $"0"))) ([SExpr (ECall $"_gdo_save_to_errbuf" [(EStr $"dlinfo() failed to get library path")]);
    SReturn (Some (EId $"false"))]) None] ++
    (if forallb (feval cfg) [(FDef $"__linux__")] then [SIf (EBin $"&&" (EBin $"!=" (EIndex (EArrow (EId $"lm") $"l_name") (EId $"0")) (EChr $"/")) (ECall $"_gdo_fullpath_procmap" [(EId $"lm"); (EField (EId $"gdo_hndl") $"libpath"); (EId $"GDO_BUFLEN")])) ([SReturn (Some (EId $"true"))]) None] else []) ++
    [SDecl [(TWord $"size_t")] $"len" false (Some (EBin $"+" (ECall $"strlen" [(EArrow (EId $"lm") $"l_name")]) (EId $"1")));
    SIf (EBin $">" (EId $"len") (EId $"GDO_BUFLEN")) ([SReturn (Some (EId $"false"))]) None;
    SExpr (ECall $"memcpy" [(EField (EId $"gdo_hndl") $"libpath"); (EArrow (EId $"lm") $"l_name"); (EId $"len")]);
    SReturn (Some (EId $"true"))]).
Definition loop_9 (v : hole -> str) : expr :=
    (ECall $"_gdo_call_dladdr" [(ECast [TWord $"void"; TOp $"*"] (EField (EId $"gdo_hndl") ($"GDO_PTR_" ++ v HSym))); (EAddr (EId $"info"))]).
Definition code_gdo_libpath_dladdr : list stmt :=
    [SDecl [(TWord $"const"); (TWord $"char"); (TOp $"*")] $"path" false (Some (EId $"NULL"));
    SDecl [(TWord $"Dl_info")] $"info" false None;
    SExpr (ECall $"_gdo_clear_error" []);
    SIf (ECall $"gdo_no_symbols_loaded" []) ([SExpr (ECall $"_gdo_save_to_errbuf" [(EStr $"no symbols were loaded")]);
    SReturn (Some (EId $"false"))]) None;
    SIf (fold_left (fun a (v : hole -> str) => EBin $"||" a (loop_9 v)) vs (EId $"false")) ([SExpr (ESet (EId $"path") (EField (EId $"info") $"dli_fname"))]) None;
    SIf (ENot (EId $"path")) ([SExpr (ECall $"_gdo_save_to_errbuf" [(EStr $"dladdr() failed to get library path")]);
    SReturn (Some (EId $"false"))]) None;
    SDecl [(TWord $"size_t")] $"len" false (Some (EBin $"+" (ECall $"strlen" [(EId $"path")]) (EId $"1")));
    SIf (EBin $">" (EId $"len") (EId $"GDO_BUFLEN")) ([SReturn (Some (EId $"false"))]) None;
    SExpr (ECall $"memcpy" [(EField (EId $"gdo_hndl") $"libpath"); (EId $"path"); (EId $"len")]);
    SReturn (Some (EId $"true"))].
Definition code_gdo_print_error : list stmt :=
    [SExpr (ECall $"fprintf" [(EId $"stderr"); (EId $"fmt"); (EId $"sym"); (EId $"msg")]);
    SExpr (ECall $"fputc" [(EChr $"\n"); (EId $"stderr")])].
Definition code_gdo_wrap_check_loaded : list stmt :=
    ([SDecl [(TWord $"const"); (TWord $"gdo_char_t"); (TOp $"*")] $"msg" false None;
    SIf (EBin $"!=" (EId $"symptr") (EId $"NULL")) ([SReturn None]) None] ++
    (if forallb (feval cfg) [(FDef $"GDO_ENABLE_AUTOLOAD")] then [SExpr (ECall $"gdo_enable_autorelease" []);
    SIf (ENot (ECall $"gdo_lib_is_loaded" [])) ([SExpr (ECall $"gdo_load_lib" [])]) None] else []) ++
    (if forallb (feval cfg) [(FDef $"GDO_ENABLE_AUTOLOAD"); (FDef $"GDO_ENABLE_AUTOLOAD_LAZY")] then [SIf (ECall $"gdo_load_symbol" [(EId $"load")]) ([SReturn None]) None] else []) ++
    (if forallb (feval cfg) [(FDef $"GDO_ENABLE_AUTOLOAD"); (FNot (FDef $"GDO_ENABLE_AUTOLOAD_LAZY"))] then [SExpr (ECast [TWord $"void"] (EParen (EId $"load")));
    SIf (ECall $"gdo_load_all_symbols" []) ([SReturn None]) None] else []) ++
    (if forallb (feval cfg) [(FDef $"GDO_ENABLE_AUTOLOAD")] then [SExpr (ESet (EId $"msg") (ECall $"gdo_last_error" []));
    SIf (ECall $"_gdo_tcsstr" [(EId $"msg"); (EId $"GDO_DEFAULT_LIB")]) ([SExpr (ECall $"_gdo_print_error" [(EStr $"error: %s: %s"); (EId $"sym"); (EId $"msg")])]) (Some ([SExpr (ECall $"_gdo_print_error" [(ECat (ECat (EStr $"error: ") (EId $"GDO_DEFAULT_LIB")) (EStr $": %s: %s")); (EId $"sym"); (EId $"msg")])]));
    SExpr (ECall $"gdo_force_free_lib" []);
    SExpr (ECall $"exit" [(EId $"1")])] else []) ++
    (if forallb (feval cfg) [(FNot (FDef $"GDO_ENABLE_AUTOLOAD"))] then [SIf (ENot (ECall $"gdo_lib_is_loaded" [])) ([SExpr (ESet (EId $"msg") (EStr $"library not loaded"))]) (Some ([SExpr (ESet (EId $"msg") (EStr $"symbol not loaded"))]));
    SExpr (ECast [TWord $"void"] (EParen (EId $"load")));
    SExpr (ECall $"_gdo_print_error" [(EStr $"fatal error: %s: %s"); (EId $"sym"); (EId $"msg")]);
    SExpr (ECall $"abort" [])] else [])).
End Code.

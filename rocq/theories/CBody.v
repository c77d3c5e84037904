(** The syntax trees of common.c and c.c (without the parts for Windows and AIX), with placeholders.  Written by a program that
    parses the templates; that they are the trees of the templates is proved in CBodyText.v.  Definitions only (for proofs). *)
From Coq Require Import Ascii String List Bool Arith.
From Verif Require Import Str Parse ParamNames Prefix Substitute SpecSubstitute SpecTemplates SpecCLang SpecCProg CTemplate.
Import ListNotations.

Definition nm (s : string) : tname := map SC $s.
Definition body_gdo_call_dlsym : titem :=
  JFunc [TWord $"GDO_INLINE"; TWord $"void"; TOp $"*"] $"_gdo_call_dlsym" [([TWord $"gdo_hmod_t"], $"handle"); ([TWord $"const"; TWord $"char"; TOp $"*"], $"symbol")]
    [BReturn (Some (XCall $"dlsym" [(XId (nm "handle")); (XId (nm "symbol"))]))].
Definition body_gdo_call_dlclose : titem :=
  JFunc [TWord $"GDO_INLINE"; TWord $"bool"] $"_gdo_call_dlclose" [([TWord $"gdo_hmod_t"], $"handle")]
    [BReturn (Some (XParen (XBin $"==" (XCall $"dlclose" [(XId (nm "handle"))]) (XId (nm "0")))))].
Definition body_gdo_call_dlopen : titem :=
  JFunc [TWord $"GDO_INLINE"; TWord $"gdo_hmod_t"] $"_gdo_call_dlopen" [([TWord $"const"; TWord $"char"; TOp $"*"], $"filename"); ([TWord $"int"], $"flags"); ([TWord $"bool"], $"new_namespace")]
    [BGuard [(FDef $"GDO_HAVE_DLMOPEN")] [BIf (XId (nm "new_namespace"))
      [BReturn (Some (XCall $"dlmopen" [(XId (nm "LM_ID_NEWLM")); (XId (nm "filename")); (XId (nm "flags"))]))] None];
    BGuard [(FNot (FDef $"GDO_HAVE_DLMOPEN"))] [BExpr (XCast [KWord (nm "void")] (XId (nm "new_namespace")))];
    BReturn (Some (XCall $"dlopen" [(XId (nm "filename")); (XId (nm "flags"))]))].
Definition body_gdo_call_dladdr : titem :=
  JFunc [TWord $"GDO_INLINE"; TWord $"bool"] $"_gdo_call_dladdr" [([TWord $"const"; TWord $"void"; TOp $"*"], $"addr"); ([TWord $"Dl_info"; TOp $"*"], $"info")]
    [BExpr (XSet (XArrow (XId (nm "info")) $"dli_fname") (XId (nm "NULL")));
    BReturn (Some (XParen (XBin $"&&" (XBin $"&&" (XBin $"&&" (XId (nm "addr")) (XBin $"!=" (XCall $"dladdr" [(XId (nm "addr")); (XId (nm "info"))]) (XId (nm "0")))) (XArrow (XId (nm "info")) $"dli_fname")) (XBin $"!=" (XIndex (XArrow (XId (nm "info")) $"dli_fname") (XId (nm "0"))) (XId (nm "0"))))))].
Definition body_gdo_tcsstr : titem :=
  JFunc [TWord $"GDO_INLINE"; TWord $"const"; TWord $"gdo_char_t"; TOp $"*"] $"_gdo_tcsstr" [([TWord $"const"; TWord $"gdo_char_t"; TOp $"*"], $"haystack"); ([TWord $"const"; TWord $"gdo_char_t"; TOp $"*"], $"needle")]
    [BReturn (Some (XCall $"strstr" [(XId (nm "haystack")); (XId (nm "needle"))]))].
Definition body_gdo_save_to_errbuf : titem :=
  JFunc [TWord $"GDO_INLINE"; TWord $"void"] $"_gdo_save_to_errbuf" [([TWord $"const"; TWord $"gdo_char_t"; TOp $"*"], $"msg")]
    [BIf (XId (nm "msg"))
    [BExpr (XCall $"GDO_SNPRINTF" [(XField (XId (nm "gdo_hndl")) $"errbuf"); (XCall $"_T" [(XStr (nm "%s"))]); (XId (nm "msg"))])] (Some [BExpr (XSet (XIndex (XField (XId (nm "gdo_hndl")) $"errbuf") (XId (nm "0"))) (XId (nm "0")))])].
Definition body_gdo_clear_error : titem :=
  JFunc [TWord $"GDO_INLINE"; TWord $"void"] $"_gdo_clear_error" []
    [BExpr (XCall $"dlerror" []);
    BExpr (XSet (XIndex (XField (XId (nm "gdo_hndl")) $"errbuf") (XId (nm "0"))) (XId (nm "0")))].
Definition body_gdo_save_error : titem :=
  JFunc [TWord $"GDO_INLINE"; TWord $"void"] $"_gdo_save_error" [([TWord $"const"; TWord $"gdo_char_t"; TOp $"*"], $"msg")]
    [BExpr (XCall $"GDO_UNUSED_REF" [(XId (nm "msg"))]);
    BExpr (XCall $"_gdo_save_to_errbuf" [(XCall $"dlerror" [])])].
Definition body_gdo_set_error_no_library_loaded : titem :=
  JFunc [TWord $"GDO_INLINE"; TWord $"void"] $"_gdo_set_error_no_library_loaded" []
    [BExpr (XCall $"_gdo_save_to_errbuf" [(XStr (nm "no library was loaded"))])].
Definition body_gdo_load_lib : titem :=
  JFunc [TWord $"GDO_LINKAGE"; TWord $"bool"] $"gdo_load_lib" []
    [BReturn (Some (XCall $"gdo_load_lib_name" [(XId (nm "GDO_DEFAULT_LIB"))]))].
Definition body_gdo_load_lib_and_symbols : titem :=
  JFunc [TWord $"GDO_LINKAGE"; TWord $"bool"] $"gdo_load_lib_and_symbols" []
    [BReturn (Some (XParen (XBin $"&&" (XCall $"gdo_load_lib" []) (XCall $"gdo_load_all_symbols" []))))].
Definition body_gdo_load_lib_name : titem :=
  JFunc [TWord $"GDO_LINKAGE"; TWord $"bool"] $"gdo_load_lib_name" [([TWord $"const"; TWord $"gdo_char_t"; TOp $"*"], $"filename")]
    [BReturn (Some (XCall $"gdo_load_lib_args" [(XId (nm "filename")); (XId (nm "GDO_DEFAULT_FLAGS")); (XId (nm "false"))]))].
Definition body_gdo_load_lib_name_and_symbols : titem :=
  JFunc [TWord $"GDO_LINKAGE"; TWord $"bool"] $"gdo_load_lib_name_and_symbols" [([TWord $"const"; TWord $"gdo_char_t"; TOp $"*"], $"filename")]
    [BReturn (Some (XParen (XBin $"&&" (XCall $"gdo_load_lib_name" [(XId (nm "filename"))]) (XCall $"gdo_load_all_symbols" []))))].
Definition body_gdo_load_lib_args : titem :=
  JFunc [TWord $"GDO_LINKAGE"; TWord $"bool"] $"gdo_load_lib_args" [([TWord $"const"; TWord $"gdo_char_t"; TOp $"*"], $"filename"); ([TWord $"int"], $"flags"); ([TWord $"bool"], $"new_namespace")]
    [BExpr (XCall $"_gdo_clear_error" []);
    BIf (XCall $"gdo_lib_is_loaded" [])
    [BExpr (XCall $"_gdo_save_to_errbuf" [(XCall $"_T" [(XStr (nm "library already loaded"))])]);
      BReturn (Some (XId (nm "false")))] None;
    BIf (XBin $"||" (XNot (XId (nm "filename"))) (XBin $"==" (XDeref (XId (nm "filename"))) (XId (nm "0"))))
    [BExpr (XCall $"GDO_SET_LAST_ERRNO" [(XId (nm "ERROR_INVALID_NAME"))]);
      BExpr (XCall $"_gdo_save_to_errbuf" [(XCall $"_T" [(XStr (nm "empty filename"))])]);
      BReturn (Some (XId (nm "false")))] None;
    BExpr (XCall $"_gdo_load_library" [(XId (nm "filename")); (XId (nm "flags")); (XId (nm "new_namespace"))]);
    BIf (XNot (XCall $"gdo_lib_is_loaded" []))
    [BExpr (XCall $"_gdo_save_error" [(XId (nm "filename"))]);
      BReturn (Some (XId (nm "false")))] None;
    BReturn (Some (XId (nm "true")))].
Definition body_gdo_load_library : titem :=
  JFunc [TWord $"GDO_INLINE"; TWord $"void"] $"_gdo_load_library" [([TWord $"const"; TWord $"gdo_char_t"; TOp $"*"], $"filename"); ([TWord $"int"], $"flags"); ([TWord $"bool"], $"new_namespace")]
    [BExpr (XSet (XField (XId (nm "gdo_hndl")) $"handle") (XCall $"_gdo_call_dlopen" [(XId (nm "filename")); (XId (nm "flags")); (XId (nm "new_namespace"))]))].
Definition body_gdo_lib_is_loaded : titem :=
  JFunc [TWord $"GDO_LINKAGE"; TWord $"bool"] $"gdo_lib_is_loaded" []
    [BReturn (Some (XParen (XBin $"!=" (XField (XId (nm "gdo_hndl")) $"handle") (XId (nm "NULL")))))].
Definition body_gdo_free_lib : titem :=
  JFunc [TWord $"GDO_LINKAGE"; TWord $"bool"] $"gdo_free_lib" []
    [BExpr (XCall $"_gdo_clear_error" []);
    BIf (XCall $"gdo_lib_is_loaded" [])
    [BIf (XNot (XCall $"_gdo_call_dlclose" [(XField (XId (nm "gdo_hndl")) $"handle")]))
      [BExpr (XCall $"_gdo_save_error" [(XId (nm "NULL"))]);
        BReturn (Some (XId (nm "false")))] None] None;
    BExpr (XSet (XIndex (XField (XId (nm "gdo_hndl")) $"libpath") (XId (nm "0"))) (XId (nm "0")));
    BExpr (XSet (XField (XId (nm "gdo_hndl")) $"handle") (XId (nm "NULL")));
    BEach [YExpr (XSet (XId (nm "GDO_RAWPTR_" ++ [SH HSym])) (XId (nm "NULL")))];
    BReturn (Some (XId (nm "true")))].
Definition body_gdo_force_free_lib : titem :=
  JFunc [TWord $"GDO_LINKAGE"; TWord $"void"] $"gdo_force_free_lib" []
    [BExpr (XCall $"_gdo_clear_error" []);
    BIf (XCall $"gdo_lib_is_loaded" [])
    [BExpr (XCall $"_gdo_call_dlclose" [(XField (XId (nm "gdo_hndl")) $"handle")])] None;
    BExpr (XSet (XIndex (XField (XId (nm "gdo_hndl")) $"libpath") (XId (nm "0"))) (XId (nm "0")));
    BExpr (XSet (XField (XId (nm "gdo_hndl")) $"handle") (XId (nm "NULL")));
    BEach [YExpr (XSet (XId (nm "GDO_RAWPTR_" ++ [SH HSym])) (XId (nm "NULL")))]].
Definition body_gdo_enable_autorelease : titem :=
  JFunc [TWord $"GDO_LINKAGE"; TWord $"bool"] $"gdo_enable_autorelease" []
    [BExpr (XCall $"_gdo_clear_error" []);
    BIf (XNot (XField (XId (nm "gdo_hndl")) $"free_lib_reg"))
    [BIf (XBin $"==" (XCall $"atexit" [(XId (nm "gdo_force_free_lib"))]) (XId (nm "0")))
      [BExpr (XSet (XField (XId (nm "gdo_hndl")) $"free_lib_reg") (XId (nm "true")))] (Some [BExpr (XCall $"_gdo_save_to_errbuf" [(XCall $"_T" [(XStr (nm "atexit(): failed to register `gdo_force_free_lib()'"))])])])] None;
    BReturn (Some (XField (XId (nm "gdo_hndl")) $"free_lib_reg"))].
Definition body_gdo_all_symbols_loaded : titem :=
  JFunc [TWord $"GDO_LINKAGE"; TWord $"bool"] $"gdo_all_symbols_loaded" []
    [BIfEach (XId (nm "true")) $"&&" (XBin $"!=" (XId (nm "GDO_RAWPTR_" ++ [SH HSym])) (XId (nm "NULL")))
    [BReturn (Some (XId (nm "true")))];
    BReturn (Some (XId (nm "false")))].
Definition body_gdo_no_symbols_loaded : titem :=
  JFunc [TWord $"GDO_LINKAGE"; TWord $"bool"] $"gdo_no_symbols_loaded" []
    [BIfEach (XId (nm "true")) $"&&" (XBin $"==" (XId (nm "GDO_RAWPTR_" ++ [SH HSym])) (XId (nm "NULL")))
    [BReturn (Some (XId (nm "true")))];
    BReturn (Some (XId (nm "false")))].
Definition body_gdo_any_symbol_loaded : titem :=
  JFunc [TWord $"GDO_LINKAGE"; TWord $"bool"] $"gdo_any_symbol_loaded" []
    [BIfEach (XId (nm "false")) $"||" (XBin $"!=" (XId (nm "GDO_RAWPTR_" ++ [SH HSym])) (XId (nm "NULL")))
    [BReturn (Some (XId (nm "true")))];
    BReturn (Some (XId (nm "false")))].
Definition body_gdo_load_all_symbols : titem :=
  JFunc [TWord $"GDO_LINKAGE"; TWord $"bool"] $"gdo_load_all_symbols" []
    [BExpr (XCall $"_gdo_clear_error" []);
    BIf (XCall $"gdo_all_symbols_loaded" [])
    [BReturn (Some (XId (nm "true")))] None;
    BIf (XNot (XCall $"gdo_lib_is_loaded" []))
    [BExpr (XCall $"_gdo_set_error_no_library_loaded" []);
      BReturn (Some (XId (nm "false")))] None;
    BEach [YIf (XBin $"==" (XParen (XSet (XId (nm "GDO_RAWPTR_" ++ [SH HSym])) (XCast [KHole HSymType] (XCall $"_gdo_sym" [(XStr ([SH HSym])); (XCall $"_T" [(XStr ([SH HSym]))])])))) (XId (nm "NULL"))) [YReturn (Some (XId (nm "false")))]];
    BReturn (Some (XId (nm "true")))].
Definition body_gdo_sym : titem :=
  JFunc [TWord $"GDO_INLINE"; TWord $"void"; TOp $"*"] $"_gdo_sym" [([TWord $"const"; TWord $"char"; TOp $"*"], $"symbol"); ([TWord $"const"; TWord $"gdo_char_t"; TOp $"*"], $"msg")]
    [BDecl [TWord $"void"; TOp $"*"] $"ptr" false (Some (XCall $"_gdo_call_dlsym" [(XField (XId (nm "gdo_hndl")) $"handle"); (XId (nm "symbol"))]));
    BIf (XNot (XId (nm "ptr")))
    [BExpr (XCall $"_gdo_save_error" [(XId (nm "msg"))])] None;
    BReturn (Some (XId (nm "ptr")))].
Definition body_gdo_load_symbol : titem :=
  JFunc [TWord $"GDO_LINKAGE"; TWord $"bool"] $"gdo_load_symbol" [([TWord $"int"], $"symbol_num")]
    [BExpr (XCall $"_gdo_clear_error" []);
    BIf (XNot (XCall $"gdo_lib_is_loaded" []))
    [BExpr (XCall $"_gdo_set_error_no_library_loaded" []);
      BReturn (Some (XId (nm "false")))] None;
    BSwitch (XId (nm "symbol_num"))
    [BEach [YCase (XId (nm "GDO_LOAD_" ++ [SH HSym]));
        YIf (XNot (XId (nm "GDO_RAWPTR_" ++ [SH HSym]))) [YExpr (XSet (XId (nm "GDO_RAWPTR_" ++ [SH HSym])) (XCast [KHole HSymType] (XCall $"_gdo_sym" [(XStr ([SH HSym])); (XCall $"_T" [(XStr ([SH HSym]))])])))];
        YReturn (Some (XParen (XBin $"!=" (XId (nm "GDO_RAWPTR_" ++ [SH HSym])) (XId (nm "NULL")))))];
      BDefault;
      BBreak];
    BExpr (XCall $"GDO_SET_LAST_ERRNO" [(XId (nm "ERROR_NOT_FOUND"))]);
    BExpr (XCall $"GDO_SNPRINTF" [(XField (XId (nm "gdo_hndl")) $"errbuf"); (XCall $"_T" [(XStr (nm "unknown symbol number: %d"))]); (XId (nm "symbol_num"))]);
    BReturn (Some (XId (nm "false")))].
Definition body_gdo_load_symbol_name : titem :=
  JFunc [TWord $"GDO_LINKAGE"; TWord $"bool"] $"gdo_load_symbol_name" [([TWord $"const"; TWord $"char"; TOp $"*"], $"symbol")]
    [BExpr (XCall $"_gdo_clear_error" []);
    BIf (XNot (XCall $"gdo_lib_is_loaded" []))
    [BExpr (XCall $"_gdo_set_error_no_library_loaded" []);
      BReturn (Some (XId (nm "false")))] None;
    BIf (XBin $"||" (XNot (XId (nm "symbol"))) (XBin $"==" (XDeref (XId (nm "symbol"))) (XId (nm "0"))))
    [BExpr (XCall $"GDO_SET_LAST_ERRNO" [(XId (nm "ERROR_INVALID_PARAMETER"))]);
      BExpr (XCall $"_gdo_save_to_errbuf" [(XCall $"_T" [(XStr (nm "empty symbol name"))])]);
      BReturn (Some (XId (nm "false")))] None;
    BDecl [TWord $"const"; TWord $"char"] $"pfx" true (Some (XId (nm "GDO_COMMON_PREFIX")));
    BDecl [TWord $"const"; TWord $"size_t"] $"pfxlen" false (Some (XBin $"-" (XSizeof (XId (nm "pfx"))) (XId (nm "1"))));
    BIf (XBin $"||" (XBin $"==" (XId (nm "pfxlen")) (XId (nm "0"))) (XBin $"==" (XCall $"strncmp" [(XId (nm "symbol")); (XId (nm "pfx")); (XId (nm "pfxlen"))]) (XId (nm "0"))))
    [BDecl [TWord $"const"; TWord $"size_t"] $"len" false (Some (XCall $"strlen" [(XId (nm "symbol"))]));
      BDecl [TWord $"const"; TWord $"char"; TOp $"*"] $"curr" false None;
      BDecl [TWord $"size_t"] $"curr_len" false None;
      BEach [YExpr (XSet (XId (nm "curr")) (XStr ([SH HSym])));
        YExpr (XSet (XId (nm "curr_len")) (XBin $"-" (XSizeof (XStr ([SH HSym]))) (XId (nm "1"))));
        YIf (XBin $"&&" (XBin $"==" (XId (nm "len")) (XId (nm "curr_len"))) (XBin $"==" (XCall $"strcmp" [(XBin $"+" (XId (nm "symbol")) (XId (nm "pfxlen"))); (XBin $"+" (XId (nm "curr")) (XId (nm "pfxlen")))]) (XId (nm "0")))) [YIf (XNot (XId (nm "GDO_RAWPTR_" ++ [SH HSym]))) [YExpr (XSet (XId (nm "GDO_RAWPTR_" ++ [SH HSym])) (XCast [KHole HSymType] (XCall $"_gdo_sym" [(XStr ([SH HSym])); (XCall $"_T" [(XStr ([SH HSym]))])])))];
          YReturn (Some (XParen (XBin $"!=" (XId (nm "GDO_RAWPTR_" ++ [SH HSym])) (XId (nm "NULL")))))]]] None;
    BExpr (XCall $"GDO_SET_LAST_ERRNO" [(XId (nm "ERROR_NOT_FOUND"))]);
    BExpr (XCall $"GDO_SNPRINTF" [(XField (XId (nm "gdo_hndl")) $"errbuf"); (XCat (XCall $"_T" [(XStr (nm "unknown symbol: "))]) (XId (nm "GDO_XHS"))); (XId (nm "symbol"))]);
    BReturn (Some (XId (nm "false")))].
Definition body_gdo_last_error : titem :=
  JFunc [TWord $"GDO_LINKAGE"; TWord $"const"; TWord $"gdo_char_t"; TOp $"*"] $"gdo_last_error" []
    [BIf (XBin $"==" (XIndex (XField (XId (nm "gdo_hndl")) $"errbuf") (XId (nm "0"))) (XId (nm "0")))
    [BExpr (XCall $"_gdo_save_to_errbuf" [(XStr (nm "no error"))])] None;
    BReturn (Some (XField (XId (nm "gdo_hndl")) $"errbuf"))].
Definition body_gdo_library_path : titem :=
  JFunc [TWord $"GDO_LINKAGE"; TWord $"const"; TWord $"gdo_char_t"; TOp $"*"] $"gdo_library_path" []
    [BExpr (XCall $"_gdo_clear_error" []);
    BGuard [(FAnd (FNot (FDef $"_WIN32")) (FAnd (FNot (FDef $"_AIX")) (FAnd (FNot (FDef $"GDO_HAVE_DLINFO")) (FNot (FDef $"GDO_HAVE_DLADDR")))))] [BExpr (XCall $"_gdo_save_to_errbuf" [(XStr (nm "function not implemented"))]); BReturn (Some (XId (nm "NULL")))];
    BIf (XNot (XCall $"gdo_lib_is_loaded" []))
    [BExpr (XCall $"_gdo_set_error_no_library_loaded" []);
      BReturn (Some (XId (nm "NULL")))] None;
    BIf (XBin $"!=" (XIndex (XField (XId (nm "gdo_hndl")) $"libpath") (XId (nm "0"))) (XId (nm "0")))
    [BReturn (Some (XField (XId (nm "gdo_hndl")) $"libpath"))] None;
    BGuard [(FDef $"GDO_HAVE_DLINFO")] [BIf (XCall $"_gdo_libpath_dlinfo" [])
      [BReturn (Some (XField (XId (nm "gdo_hndl")) $"libpath"))] None];
    BGuard [(FDef $"GDO_HAVE_DLADDR")] [BIf (XCall $"_gdo_libpath_dladdr" [])
      [BReturn (Some (XField (XId (nm "gdo_hndl")) $"libpath"))] None];
    BExpr (XSet (XIndex (XField (XId (nm "gdo_hndl")) $"libpath") (XId (nm "0"))) (XId (nm "0")));
    BReturn (Some (XId (nm "NULL")))].
Definition body_gdo_libpath_dlinfo : titem :=
  JFunc [TWord $"GDO_INLINE"; TWord $"bool"] $"_gdo_libpath_dlinfo" []
    [BDecl [TWord $"struct"; TWord $"link_map"; TOp $"*"] $"lm" false (Some (XId (nm "NULL")));
    BExpr (XCall $"_gdo_clear_error" []);
    BIf (XBin $"==" (XCall $"dlinfo" [(XField (XId (nm "gdo_hndl")) $"handle"); (XId (nm "RTLD_DI_LINKMAP")); (XAddr (XId (nm "lm")))]) (XNeg (XId (nm "1"))))
    [BExpr (XCall $"_gdo_save_error" [(XId (nm "NULL"))]);
      BReturn (Some (XId (nm "false")))] None;
    BIf (XBin $"||" (XNot (XArrow (XId (nm "lm")) $"l_name")) (XBin $"==" (XIndex (XArrow (XId (nm "lm")) $"l_name") (XId (nm "0"))) (XId (nm "0"))))
    [BExpr (XCall $"_gdo_save_to_errbuf" [(XStr (nm "dlinfo() failed to get library path"))]);
      BReturn (Some (XId (nm "false")))] None;
    BGuard [(FDef $"__linux__")] [BIf (XBin $"&&" (XBin $"!=" (XIndex (XArrow (XId (nm "lm")) $"l_name") (XId (nm "0"))) (XChr $"/")) (XCall $"_gdo_fullpath_procmap" [(XId (nm "lm")); (XField (XId (nm "gdo_hndl")) $"libpath"); (XId (nm "GDO_BUFLEN"))]))
      [BReturn (Some (XId (nm "true")))] None];
    BDecl [TWord $"size_t"] $"len" false (Some (XBin $"+" (XCall $"strlen" [(XArrow (XId (nm "lm")) $"l_name")]) (XId (nm "1"))));
    BIf (XBin $">" (XId (nm "len")) (XId (nm "GDO_BUFLEN")))
    [BReturn (Some (XId (nm "false")))] None;
    BExpr (XCall $"memcpy" [(XField (XId (nm "gdo_hndl")) $"libpath"); (XArrow (XId (nm "lm")) $"l_name"); (XId (nm "len"))]);
    BReturn (Some (XId (nm "true")))].
Definition body_gdo_libpath_dladdr : titem :=
  JFunc [TWord $"GDO_INLINE"; TWord $"bool"] $"_gdo_libpath_dladdr" []
    [BDecl [TWord $"const"; TWord $"char"; TOp $"*"] $"path" false (Some (XId (nm "NULL")));
    BDecl [TWord $"Dl_info"] $"info" false None;
    BExpr (XCall $"_gdo_clear_error" []);
    BIf (XCall $"gdo_no_symbols_loaded" [])
    [BExpr (XCall $"_gdo_save_to_errbuf" [(XStr (nm "no symbols were loaded"))]);
      BReturn (Some (XId (nm "false")))] None;
    BIfEach (XId (nm "false")) $"||" (XCall $"_gdo_call_dladdr" [(XCast [KWord (nm "void"); KOp $"*"] (XId (nm "GDO_RAWPTR_" ++ [SH HSym]))); (XAddr (XId (nm "info")))])
    [BExpr (XSet (XId (nm "path")) (XField (XId (nm "info")) $"dli_fname"))];
    BIf (XNot (XId (nm "path")))
    [BExpr (XCall $"_gdo_save_to_errbuf" [(XStr (nm "dladdr() failed to get library path"))]);
      BReturn (Some (XId (nm "false")))] None;
    BDecl [TWord $"size_t"] $"len" false (Some (XBin $"+" (XCall $"strlen" [(XId (nm "path"))]) (XId (nm "1"))));
    BIf (XBin $">" (XId (nm "len")) (XId (nm "GDO_BUFLEN")))
    [BReturn (Some (XId (nm "false")))] None;
    BExpr (XCall $"memcpy" [(XField (XId (nm "gdo_hndl")) $"libpath"); (XId (nm "path")); (XId (nm "len"))]);
    BReturn (Some (XId (nm "true")))].
Definition body_gdo_print_error : titem :=
  JFunc [TWord $"GDO_INLINE"; TWord $"void"] $"_gdo_print_error" [([TWord $"const"; TWord $"gdo_char_t"; TOp $"*"], $"fmt"); ([TWord $"const"; TWord $"gdo_char_t"; TOp $"*"], $"sym"); ([TWord $"const"; TWord $"gdo_char_t"; TOp $"*"], $"msg")]
    [BExpr (XCall $"fprintf" [(XId (nm "stderr")); (XId (nm "fmt")); (XId (nm "sym")); (XId (nm "msg"))]);
    BExpr (XCall $"fputc" [(XChr $"\n"); (XId (nm "stderr"))])].
Definition body_gdo_wrap_check_loaded : titem :=
  JFunc [TWord $"GDO_LINKAGE"; TWord $"void"] $"_gdo_wrap_check_loaded" [([TWord $"void"; TOp $"*"], $"symptr"); ([TWord $"int"], $"load"); ([TWord $"const"; TWord $"gdo_char_t"; TOp $"*"], $"sym")]
    [BDecl [TWord $"const"; TWord $"gdo_char_t"; TOp $"*"] $"msg" false None;
    BIf (XBin $"!=" (XId (nm "symptr")) (XId (nm "NULL")))
    [BReturn None] None;
    BGuard [(FDef $"GDO_ENABLE_AUTOLOAD")] [BExpr (XCall $"gdo_enable_autorelease" []); BIf (XNot (XCall $"gdo_lib_is_loaded" []))
      [BExpr (XCall $"gdo_load_lib" [])] None];
    BGuard [(FDef $"GDO_ENABLE_AUTOLOAD"); (FDef $"GDO_ENABLE_AUTOLOAD_LAZY")] [BIf (XCall $"gdo_load_symbol" [(XId (nm "load"))])
      [BReturn None] None];
    BGuard [(FDef $"GDO_ENABLE_AUTOLOAD"); (FNot (FDef $"GDO_ENABLE_AUTOLOAD_LAZY"))] [BExpr (XCall $"GDO_UNUSED_REF" [(XId (nm "load"))]); BIf (XCall $"gdo_load_all_symbols" [])
      [BReturn None] None];
    BGuard [(FDef $"GDO_ENABLE_AUTOLOAD")] [BExpr (XSet (XId (nm "msg")) (XCall $"gdo_last_error" [])); BIf (XCall $"_gdo_tcsstr" [(XId (nm "msg")); (XId (nm "GDO_DEFAULT_LIB"))])
      [BExpr (XCall $"_gdo_print_error" [(XCall $"_T" [(XStr (nm "error: %s: %s"))]); (XId (nm "sym")); (XId (nm "msg"))])] (Some [BExpr (XCall $"_gdo_print_error" [(XCat (XCat (XCall $"_T" [(XStr (nm "error: "))]) (XId (nm "GDO_DEFAULT_LIB"))) (XCall $"_T" [(XStr (nm ": %s: %s"))])); (XId (nm "sym")); (XId (nm "msg"))])]); BExpr (XCall $"gdo_force_free_lib" []); BExpr (XCall $"exit" [(XId (nm "1"))])];
    BGuard [(FNot (FDef $"GDO_ENABLE_AUTOLOAD"))] [BIf (XNot (XCall $"gdo_lib_is_loaded" []))
      [BExpr (XSet (XId (nm "msg")) (XCall $"_T" [(XStr (nm "library not loaded"))]))] (Some [BExpr (XSet (XId (nm "msg")) (XCall $"_T" [(XStr (nm "symbol not loaded"))]))]); BExpr (XCall $"GDO_UNUSED_REF" [(XId (nm "load"))]); BExpr (XCall $"_gdo_print_error" [(XCall $"_T" [(XStr (nm "fatal error: %s: %s"))]); (XId (nm "sym")); (XId (nm "msg"))]); BExpr (XCall $"abort" [])]].
Definition body_first : tprogram := [
  ([], body_gdo_call_dlsym);
  ([], body_gdo_call_dlclose);
  ([], body_gdo_call_dlopen);
  ([(FDef $"GDO_HAVE_DLADDR")], body_gdo_call_dladdr);
  ([(FAnd (FDef $"GDO_HAVE_DLINFO") (FDef $"__linux__"))], JCode [TWord $"GDO_INLINE"; TWord $"bool"; TWord $"_gdo_fullpath_procmap"; TOp $"("; TWord $"struct"; TWord $"link_map"; TOp $"*"; TWord $"lm"; TOp $","; TWord $"char"; TOp $"*"; TWord $"buf"; TOp $","; TWord $"size_t"; TWord $"bufsize"; TOp $")"; TOp $"{"]);
  ([(FAnd (FDef $"GDO_HAVE_DLINFO") (FDef $"__linux__")); (FDef $"PROCMAP_QUERY")], JCode [TWord $"struct"; TWord $"procmap_query"; TWord $"q"; TOp $";"; TWord $"int"; TWord $"fd"; TOp $"="; TWord $"open"; TOp $"("; TText $"/proc/self/maps"; TOp $","; TWord $"O_RDONLY"; TOp $"|"; TWord $"O_NONBLOCK"; TOp $")"; TOp $";"; TWord $"if"; TOp $"("; TWord $"fd"; TOp $"!="; TOp $"-"; TWord $"1"; TOp $")"; TOp $"{"; TWord $"memset"; TOp $"("; TOp $"&"; TWord $"q"; TOp $","; TWord $"0"; TOp $","; TWord $"sizeof"; TOp $"("; TWord $"struct"; TWord $"procmap_query"; TOp $")"; TOp $")"; TOp $";"; TWord $"q"; TOp $"."; TWord $"size"; TOp $"="; TWord $"sizeof"; TOp $"("; TWord $"struct"; TWord $"procmap_query"; TOp $")"; TOp $";"; TWord $"q"; TOp $"."; TWord $"query_flags"; TOp $"="; TWord $"PROCMAP_QUERY_FILE_BACKED_VMA"; TOp $";"; TWord $"q"; TOp $"."; TWord $"query_addr"; TOp $"="; TOp $"("; TWord $"__u64"; TOp $")"; TWord $"lm"; TOp $"->"; TWord $"l_addr"; TOp $";"; TWord $"q"; TOp $"."; TWord $"vma_name_size"; TOp $"="; TWord $"bufsize"; TOp $";"; TWord $"q"; TOp $"."; TWord $"vma_name_addr"; TOp $"="; TOp $"("; TWord $"__u64"; TOp $")"; TWord $"buf"; TOp $";"; TWord $"if"; TOp $"("; TWord $"ioctl"; TOp $"("; TWord $"fd"; TOp $","; TWord $"PROCMAP_QUERY"; TOp $","; TOp $"&"; TWord $"q"; TOp $")"; TOp $"=="; TWord $"0"; TOp $"&&"; TWord $"q"; TOp $"."; TWord $"vma_name_size"; TOp $">"; TWord $"0"; TOp $")"; TOp $"{"; TWord $"close"; TOp $"("; TWord $"fd"; TOp $")"; TOp $";"; TWord $"return"; TWord $"true"; TOp $";"; TOp $"}"; TWord $"close"; TOp $"("; TWord $"fd"; TOp $")"; TOp $";"; TOp $"}"; TWord $"buf"; TOp $"["; TWord $"0"; TOp $"]"; TOp $"="; TWord $"0"; TOp $";"]);
  ([(FAnd (FDef $"GDO_HAVE_DLINFO") (FDef $"__linux__"))], JCode [TWord $"FILE"; TOp $"*"; TWord $"fp"; TOp $"="; TWord $"fopen"; TOp $"("; TText $"/proc/self/maps"; TOp $","; TText $"r"; TOp $")"; TOp $";"; TWord $"if"; TOp $"("; TOp $"!"; TWord $"fp"; TOp $")"; TOp $"{"; TWord $"return"; TWord $"false"; TOp $";"; TOp $"}"; TWord $"uintmax_t"; TWord $"start"; TOp $","; TWord $"end"; TOp $";"; TWord $"char"; TWord $"mode"; TOp $"["; TWord $"5"; TOp $"]"; TOp $";"; TWord $"char"; TOp $"*"; TWord $"line"; TOp $"="; TWord $"NULL"; TOp $","; TOp $"*"; TWord $"path"; TOp $"="; TWord $"NULL"; TOp $";"; TWord $"size_t"; TWord $"n"; TOp $"="; TWord $"0"; TOp $";"; TWord $"while"; TOp $"("; TWord $"getline"; TOp $"("; TOp $"&"; TWord $"line"; TOp $","; TOp $"&"; TWord $"n"; TOp $","; TWord $"fp"; TOp $")"; TOp $"!="; TOp $"-"; TWord $"1"; TOp $")"; TOp $"{"; TWord $"int"; TWord $"rv"; TOp $"="; TWord $"sscanf"; TOp $"("; TWord $"line"; TOp $","; TText $"%jx-%jx %4[rwxsp-] %*u %*u:%*u %*u %m[^\n]"; TOp $","; TOp $"&"; TWord $"start"; TOp $","; TOp $"&"; TWord $"end"; TOp $","; TWord $"mode"; TOp $","; TOp $"&"; TWord $"path"; TOp $")"; TOp $";"; TWord $"if"; TOp $"("; TWord $"rv"; TOp $"=="; TWord $"4"; TOp $"&&"; TWord $"lm"; TOp $"->"; TWord $"l_addr"; TOp $">="; TWord $"start"; TOp $"&&"; TWord $"lm"; TOp $"->"; TWord $"l_addr"; TOp $"<"; TWord $"end"; TOp $")"; TOp $"{"; TWord $"break"; TOp $";"; TOp $"}"; TWord $"free"; TOp $"("; TWord $"path"; TOp $")"; TOp $";"; TWord $"path"; TOp $"="; TWord $"NULL"; TOp $";"; TOp $"}"; TWord $"free"; TOp $"("; TWord $"line"; TOp $")"; TOp $";"; TWord $"fclose"; TOp $"("; TWord $"fp"; TOp $")"; TOp $";"; TWord $"if"; TOp $"("; TWord $"path"; TOp $"&&"; TOp $"("; TWord $"n"; TOp $"="; TWord $"strlen"; TOp $"("; TWord $"path"; TOp $")"; TOp $")"; TOp $"<"; TWord $"bufsize"; TOp $")"; TOp $"{"; TWord $"memcpy"; TOp $"("; TWord $"buf"; TOp $","; TWord $"path"; TOp $","; TWord $"n"; TOp $"+"; TWord $"1"; TOp $")"; TOp $";"; TWord $"free"; TOp $"("; TWord $"path"; TOp $")"; TOp $";"; TWord $"return"; TWord $"true"; TOp $";"; TOp $"}"; TWord $"free"; TOp $"("; TWord $"path"; TOp $")"; TOp $";"; TWord $"return"; TWord $"false"; TOp $";"; TOp $"}"]);
  ([], JMacro $"GDO_XHS" (mkmacro None (MExpr (EStr $"%s"))));
  ([(FDef $"GDO_STATIC")], JMacro $"GDO_LINKAGE" (mkmacro None (MRaw [TWord $"GDO_DECL"])));
  ([(FDef $"GDO_STATIC")], JMacro $"GDO_OBJ_LINKAGE" (mkmacro None (MRaw [TWord $"GDO_OBJ_DECL"])));
  ([(FNot (FDef $"GDO_STATIC"))], JMacro $"GDO_LINKAGE" (mkmacro None (MRaw [])));
  ([(FNot (FDef $"GDO_STATIC"))], JMacro $"GDO_OBJ_LINKAGE" (mkmacro None (MRaw [])));
  ([], JMacro $"GDO_UNUSED_REF" (mkmacro (Some ([$"x"], false)) (MExpr (ECast [TWord $"void"] (EParen (EId $"x"))))));
  ([], JMacro $"_countof" (mkmacro (Some ([$"array"], false)) (MExpr (EParen (EBin $"/" (ESizeof (EId $"array")) (ESizeof (EIndex (EId $"array") (EId $"0"))))))));
  ([], JCode [TWord $"GDO_OBJ_LINKAGE"; TWord $"gdo_handle_t"; TWord $"gdo_hndl"; TOp $";"]);
  ([], JCode [TWord $"GDO_INLINE"; TWord $"void"; TWord $"_gdo_load_library"; TOp $"("; TWord $"const"; TWord $"gdo_char_t"; TOp $"*"; TWord $"filename"; TOp $","; TWord $"int"; TWord $"flags"; TOp $","; TWord $"bool"; TWord $"new_namespace"; TOp $")"; TOp $";"]);
  ([], JCode [TWord $"GDO_INLINE"; TWord $"void"; TOp $"*"; TWord $"_gdo_sym"; TOp $"("; TWord $"const"; TWord $"char"; TOp $"*"; TWord $"symbol"; TOp $","; TWord $"const"; TWord $"gdo_char_t"; TOp $"*"; TWord $"msg"; TOp $")"; TOp $";"]);
  ([(FDef $"GDO_HAVE_DLINFO")], JCode [TWord $"GDO_INLINE"; TWord $"bool"; TWord $"_gdo_libpath_dlinfo"; TOp $"("; TWord $"void"; TOp $")"; TOp $";"]);
  ([(FDef $"GDO_HAVE_DLADDR")], JCode [TWord $"GDO_INLINE"; TWord $"bool"; TWord $"_gdo_libpath_dladdr"; TOp $"("; TWord $"void"; TOp $")"; TOp $";"]);
  ([], body_gdo_tcsstr);
  ([], JMacro $"GDO_SNPRINTF" (mkmacro (Some ([$"DEST"; $"FORMAT"], true)) (MExpr (ECall $"snprintf" [(EId $"DEST"); (ECall $"_countof" [(EId $"DEST")]); (EId $"FORMAT"); (EId $"__VA_ARGS__")]))));
  ([], JMacro $"GDO_SET_LAST_ERRNO" (mkmacro (Some ([$"x"], false)) (MExpr ENone)));
  ([], body_gdo_save_to_errbuf);
  ([], body_gdo_clear_error);
  ([], body_gdo_save_error);
  ([], body_gdo_set_error_no_library_loaded);
  ([(FDef $"GDO_DEFAULT_LIB")], body_gdo_load_lib);
  ([(FDef $"GDO_DEFAULT_LIB")], body_gdo_load_lib_and_symbols);
  ([], body_gdo_load_lib_name);
  ([], body_gdo_load_lib_name_and_symbols);
  ([], body_gdo_load_lib_args);
  ([], body_gdo_load_library);
  ([], body_gdo_lib_is_loaded);
  ([], body_gdo_free_lib);
  ([], body_gdo_force_free_lib);
  ([], body_gdo_enable_autorelease);
  ([], body_gdo_all_symbols_loaded);
  ([], body_gdo_no_symbols_loaded);
  ([], body_gdo_any_symbol_loaded);
  ([], body_gdo_load_all_symbols);
  ([], body_gdo_sym);
  ([], body_gdo_load_symbol);
  ([], body_gdo_load_symbol_name);
  ([], body_gdo_last_error);
  ([], body_gdo_library_path);
  ([(FDef $"GDO_HAVE_DLINFO")], body_gdo_libpath_dlinfo);
  ([(FDef $"GDO_HAVE_DLADDR")], body_gdo_libpath_dladdr)].
Definition body_wrap : tprogram := [
  ([(FOr (FDef $"GDO_WRAP_FUNCTIONS") (FDef $"GDO_ENABLE_AUTOLOAD")); (FAnd (FNot (FDef $"__GNUC__")) (FNot (FDef $"_MSC_VER")))], JCode [TWord $"void"; TWord $"_gdo_noop"; TOp $"("; TWord $"void"; TOp $")"; TOp $"{"; TOp $"}"]);
  ([(FOr (FDef $"GDO_WRAP_FUNCTIONS") (FDef $"GDO_ENABLE_AUTOLOAD"))], body_gdo_print_error);
  ([(FOr (FDef $"GDO_WRAP_FUNCTIONS") (FDef $"GDO_ENABLE_AUTOLOAD"))], body_gdo_wrap_check_loaded)].
Definition body_last : tprogram := [
  ([(FAnd (FNot (FDef $"GDO_SEPARATE")) (FNot (FDef $"GDO_DISABLE_ALIASING"))); (FNot (FDef $"GDO_WRAP_IS_VISIBLE"))], JEachMacro CFunction (KHole HFuncPad) [KWord (nm "GDO_FUNC_ALIAS"); KOp $"("; KWord ([SH HFunc]); KOp $")"]);
  ([(FAnd (FNot (FDef $"GDO_SEPARATE")) (FNot (FDef $"GDO_DISABLE_ALIASING")))], JEachMacro CObject (KHole HObjPad) [KOp $"*"; KWord (nm "GDO_RAWPTR_" ++ [SH HObj])]);
  ([], JUndef $"GDO_SET_LAST_ERRNO");
  ([], JUndef $"GDO_SNPRINTF")].

(** The template files in /repo/src/templates, line by line (listed in /repo/src/list.h), and what the build makes of them
    (/repo/src/gen_templates_data.c and a C++ compiler).  The texts are copied; nothing is left out.  Definitions only. *)
From Coq Require Import Ascii String List Bool Arith.
From Verif Require Import Str Substitute Data SpecData Options Generate.
Import ListNotations.

(** lines to text: every line of these files ends in a line feed *)
Definition file_of (ls : list str) : str := concat (map (fun l => l ++ [nl]) ls).

(** src/templates/license.h, lines 1-23 *)
Definition lines_license : list str := [
$"/**@";
$" Licensed under the MIT License <http://opensource.org/licenses/MIT>.@";
$" SPDX-License-Identifier: MIT@";
$" Copyright (c) 2023-2026 Carsten Janssen@";
$"@";
$" Permission is hereby  granted, free of charge, to any  person obtaining a copy@";
$" of this software and associated  documentation files (the ""Software""), to deal@";
$" in the Software  without restriction, including without  limitation the rights@";
$" to  use, copy,  modify, merge,  publish, distribute,  sublicense, and/or  sell@";
$" copies  of  the Software,  and  to  permit persons  to  whom  the Software  is@";
$" furnished to do so, subject to the following conditions:@";
$"@";
$" The above copyright notice and this permission notice shall be included in all@";
$" copies or substantial portions of the Software.@";
$"@";
$" THE SOFTWARE  IS PROVIDED ""AS  IS"", WITHOUT WARRANTY  OF ANY KIND,  EXPRESS OR@";
$" IMPLIED,  INCLUDING BUT  NOT  LIMITED TO  THE  WARRANTIES OF  MERCHANTABILITY,@";
$" FITNESS FOR  A PARTICULAR PURPOSE AND  NONINFRINGEMENT. IN NO EVENT  SHALL THE@";
$" AUTHORS  OR COPYRIGHT  HOLDERS  BE  LIABLE FOR  ANY  CLAIM,  DAMAGES OR  OTHER@";
$" LIABILITY, WHETHER IN AN ACTION OF  CONTRACT, TORT OR OTHERWISE, ARISING FROM,@";
$" OUT OF OR IN CONNECTION WITH THE SOFTWARE  OR THE USE OR OTHER DEALINGS IN THE@";
$" SOFTWARE.@";
$"**/"].

(** src/templates/filename_macros.h, lines 1-91 *)
Definition lines_filename_macros : list str := [
$"/*****************************************************************************/";
$"/*                              filename macros                              */";
$"/*****************************************************************************/";
$"";
$"/***";
$"";
$"GDO_LIBNAME(NAME, API)";
$"GDO_LIBNAMEA(NAME, API)";
$"GDO_LIBNAMEW(NAME, API)";
$"    Convenience macro to create versioned library names including double quote marks.";
$"    GDO_LIBNAME(example,1) for example will become ""libexample.1.dylib"" on macOS.";
$"";
$"    NAME: library name without prefix";
$"    API:  API number to add to filename";
$"";
$"GDO_LIBEXT";
$"GDO_LIBEXTA";
$"GDO_LIBEXTW";
$"    Shared library file extension without dot. Useful i.e. on plugins.";
$"";
$"***/";
$"";
$"/* default library filename extension */";
$"#undef GDO_LIBEXTA";
$"#ifdef _WIN32";
$"# define GDO_LIBEXTA  "".dll""";
$"#elif defined(__APPLE__)";
$"# define GDO_LIBEXTA  "".dylib""";
$"#elif defined(_AIX)";
$"# define GDO_LIBEXTA  "".a""";
$"#else /* ELF */";
$"# define GDO_LIBEXTA  "".so""";
$"#endif";
$"";
$"/**";
$" * library name with API number";
$" *";
$" * Examples using GDO_LIBNAME(foo, 1.2) macro:";
$" *";
$" * Windows: libfoo-1.2.dll when using MinGW, otherwise foo-1.2.dll";
$" *";
$" * macOS: libfoo.1.2.dylib";
$" *";
$" * AIX: libfoo.a(shr.o) or libfoo.a(shr_64.o)";
$" * AIX uses archive files without API number.";
$" * These archives typically contain a 32 bit shared object `shr.o'";
$" * and a 64 bit shared object `shr_64.o'.";
$" *";
$" * Android: libfoo.so";
$" * ELF format but without API number.";
$" *";
$" * ELF: libfoo.so.1.2";
$" */";
$"#undef GDO_LIBNAMEA";
$"#ifdef _WIN32";
$"# ifdef __MINGW32__";
$"#  define GDO_LIBNAMEA(NAME, API)  ""lib"" #NAME ""-"" #API "".dll""";
$"# else";
$"#  define GDO_LIBNAMEA(NAME, API)        #NAME ""-"" #API "".dll""";
$"# endif";
$"#elif defined(__APPLE__)";
$"# define GDO_LIBNAMEA(NAME, API)   ""lib"" #NAME ""."" #API "".dylib""";
$"#elif defined(_AIX)";
$"# if defined(__64BIT__) /* IBM XL C */ || defined(__LP64__) /* GCC */";
$"#  define GDO_LIBNAMEA(NAME, API)  ""lib"" #NAME "".a(shr_64.o)""";
$"# else";
$"#  define GDO_LIBNAMEA(NAME, API)  ""lib"" #NAME "".a(shr.o)""";
$"# endif";
$"#elif defined(__ANDROID__)";
$"# define GDO_LIBNAMEA(NAME, API)   ""lib"" #NAME "".so""";
$"#else /* other ELF systems */";
$"# define GDO_LIBNAMEA(NAME, API)   ""lib"" #NAME "".so."" #API";
$"#endif";
$"";
$"/* wide character macros */";
$"#undef GDO_LIBEXTW";
$"#undef GDO_LIBNAMEW";
$"#define GDO_LIBEXTW              L"""" GDO_LIBEXTA";
$"#define GDO_LIBNAMEW(NAME, API)  L"""" GDO_LIBNAMEA(NAME,API)";
$"";
$"/* wide/narrow character default macros */";
$"#undef GDO_LIBEXT";
$"#undef GDO_LIBNAME";
$"#if defined(_WIN32) && defined(_UNICODE)";
$"# define GDO_LIBEXT              GDO_LIBEXTW";
$"# define GDO_LIBNAME(NAME, API)  GDO_LIBNAMEW(NAME, API)";
$"#else";
$"# define GDO_LIBEXT              GDO_LIBEXTA";
$"# define GDO_LIBNAME(NAME, API)  GDO_LIBNAMEA(NAME, API)";
$"#endif";
$""].

(** src/templates/common.h, lines 1-415 *)
Definition lines_common_h : list str := [
$"/*****************************************************************************/";
$"/*                        common macros and headers                          */";
$"/*****************************************************************************/";
$"";
$"";
$"/***";
$"";
$"*** flags ***";
$"";
$"GDO_USE_DLOPEN";
$"    If defined use `dlopen()' API on win32 targets.";
$"    On other targets `dlopen()' is always used.";
$"";
$"GDO_STATIC";
$"    If defined `static inline' linkage is used for all functions (C only).";
$"";
$"GDO_WRAP_FUNCTIONS";
$"    Use actual function wrappers instead of a name alias.";
$"";
$"GDO_ENABLE_AUTOLOAD";
$"    Define this macro if you want to use auto-loading wrapper functions.";
$"    It requires GDO_DEFAULT_LIB to be defined.";
$"";
$"GDO_ENABLE_AUTOLOAD_LAZY";
$"    Same as GDO_ENABLE_AUTOLOAD but only the requested symbol is loaded when its";
$"    wrapper function is called instead of all symbols.";
$"";
$"GDO_USE_MESSAGE_BOX";
$"    Windows only: if GDO_ENABLE_AUTOLOAD was activated this will enable";
$"    error messages from auto-loading to be displayed in MessageBox windows.";
$"";
$"GDO_CONVERT_FILENAME";
$"    Windows only: don't use LoadLibraryExA(), instead convert the filename";
$"    to wchar_t and use LoadLibraryExW() (C only).";
$"";
$"GDO_DISABLE_ALIASING";
$"    Don't use preprocessor macros to alias symbol names.";
$"";
$"GDO_DISABLE_WARNINGS";
$"    Mute diagnostic warnings.";
$"";
$"";
$"*** settings ***";
$"";
$"GDO_DEFAULT_FLAGS";
$"    Override the default flags to use when loading a library.";
$"";
$"GDO_DEFAULT_LIB";
$"    Set a default library name through this macro.";
$"";
$"GDO_WRAP_VISIBILITY";
$"    Set the symbol visibility of wrapped functions. By default wrapped functions";
$"    are not visible and inlined.";
$"";
$"";
$"*** hooks ***";
$"";
$"GDO_HOOK_<function>(...)";
$"    Define a hook macro that will be inserted into a wrap function.";
$"    The hook is placed before the actual function call.";
$"    If you want to call the function inside the macro you must do so using the GDO_RAWPTR_* prefix.";
$"    Parameter names are taken from the function prototype declarations (or it's ""a1, a2, a3"" and so on";
$"    if the header was created with `-param=create').";
$"";
$"    For example if a function declaration is `int sum_of_a_and_b(int val_a, int val_b)':";
$"";
$"    #define GDO_HOOK_sum_of_a_and_b(...) \";
$"      printf(""debug: the sum of %d and %d is %d\n"", \";
$"        val_a, val_b, GDO_RAWPTR_sum_of_a_and_b(__VA_ARGS__))";
$"";
$"    Note: when using GCC variable length argument functions are implemented using";
$"    inline functions, so inlining must be enabled or else linking will later fail.";
$"    On other compilers these functions are implemented using preprocessor macros";
$"    which means there will be some limitations when using hook macros.";
$"***/";
$"";
$"";
$"#ifndef __cplusplus";
$"# include <stdbool.h>";
$"#endif";
$"";
$"#ifdef _WIN32";
$"# ifdef GDO_USE_DLOPEN";
$"#  define GDO_DLFCN_WIN32";
$"# else";
$"#  define GDO_WINAPI";
$"# endif";
$"# include <windows.h>";
$"# include <wchar.h>";
$"#else";
$"# ifdef HAVE_FEATURES_H";
$"#  include <features.h> /* defines macros to identify C library */";
$"# else";
$"#  include <limits.h> /* includes <features.h> indirectly if present */";
$"# endif";
$"#endif";
$"";
$"#ifndef GDO_WINAPI";
$"# include <dlfcn.h>";
$"#endif";
$"";
$"";
$"#ifdef GDO_WINAPI";
$"typedef HMODULE gdo_hmod_t;";
$"#else";
$"typedef void *gdo_hmod_t;";
$"#endif";
$"";
$"";
$"#define GDO_INLINE  static inline";
$"";
$"";
$"#ifdef _WIN32";
$"# define GDO_BUFLEN (32*1024) /* https://learn.microsoft.com/en-us/windows/win32/fileio/maximum-file-path-limitation */";
$"#else";
$"# define GDO_BUFLEN (8*1024)  /* 2x Linux PATH_MAX */";
$"#endif";
$"";
$"";
$"#ifdef _AIX";
$"# define GDO_AIX_LOADQUERY_BUFLEN (16*1024)  /* loadquery() buffer length */";
$"#endif";
$"";
$"";
$"/* flags to use on FormatMessage() */";
$"#ifdef GDO_WINAPI";
$"# define GDO_FORMAT_MESSAGE_FLAGS \";
$"    (FORMAT_MESSAGE_ALLOCATE_BUFFER | \";
$"     FORMAT_MESSAGE_FROM_SYSTEM | \";
$"     FORMAT_MESSAGE_IGNORE_INSERTS | \";
$"     FORMAT_MESSAGE_MAX_WIDTH_MASK)";
$"#endif";
$"";
$"";
$"/* dladdr(3); n/a on Windows (WINAPI) and AIX */";
$"#if !defined(GDO_WINAPI) && \";
$"    !defined(_AIX)";
$"# define GDO_HAVE_DLADDR";
$"#endif";
$"";
$"#ifdef GDO_HAVE_DLADDR";
$"# if !defined(_GNU_SOURCE) && \";
$"     (defined(__GLIBC__) || \";
$"      defined(__UCLIBC__) || \";
$"      defined(__dietlibc__))";
$"#  define GDO_NEED_DLADDR_PROTO";
$"# elif !defined(_NETBSD_SOURCE) && (defined(__NetBSD__) || defined(__minix))";
$"#  define GDO_NEED_DLADDR_PROTO";
$"# endif";
$"#endif";
$"";
$"#if !defined(DLADDR_PROTOTYPE) && defined(GDO_NEED_DLADDR_PROTO)";
$"# define DLADDR_PROTOTYPE";
$"typedef struct {";
$"  const char *dli_fname;";
$"  void       *dli_fbase;";
$"  const char *dli_sname;";
$"  void       *dli_saddr;";
$"} Dl_info;";
$"extern int dladdr(const void *addr, Dl_info *info);";
$"#endif";
$"";
$"";
$"/* dlinfo(3); systems that support dlinfo() with RTLD_DI_LINKMAP request */";
$"#if !defined(GDO_HAVE_DLINFO) && \";
$"    (defined(__GLIBC__) || \";
$"     defined(__FreeBSD__) || \";
$"     defined(__NetBSD__) || \";
$"     defined(__DragonFly__) || \";
$"     defined(__minix) || \";
$"     defined(__sun))";
$"# define GDO_HAVE_DLINFO";
$"#endif";
$"";
$"#ifdef GDO_HAVE_DLINFO";
$"# include <link.h> /* link map */";
$"#endif";
$"";
$"#ifdef GDO_HAVE_DLINFO";
$"# if !defined(_GNU_SOURCE) && defined(__GLIBC__)";
$"#  define GDO_NEED_DLINFO_PROTO";
$"# elif !defined(_NETBSD_SOURCE) && (defined(__NetBSD__) || defined(__minix))";
$"#  define GDO_NEED_DLINFO_PROTO";
$"# endif";
$"#endif";
$"";
$"#if !defined(DLINFO_PROTOTYPE) && defined(GDO_NEED_DLINFO_PROTO)";
$"# define DLINFO_PROTOTYPE";
$"# ifdef __GLIBC__";
$"#  define RTLD_DI_LINKMAP 2  /* Glibc */";
$"# else";
$"#  define RTLD_DI_LINKMAP 3  /* NetBSD libc */";
$"# endif";
$"extern int dlinfo(void *handle, int request, void *info);";
$"#endif";
$"";
$"";
$"/* dlmopen(3); only on Glibc and Solaris/IllumOS */";
$"#if !defined(GDO_HAVE_DLMOPEN) && \";
$"    (defined(__GLIBC__) || \";
$"     defined(__sun))";
$"# define GDO_HAVE_DLMOPEN";
$"#endif";
$"";
$"#ifdef GDO_HAVE_DLMOPEN";
$"# if !defined(_GNU_SOURCE) && defined(__GLIBC__)";
$"#  define GDO_NEED_DLMOPEN_PROTO";
$"# endif";
$"#endif";
$"";
$"#if !defined(DLMOPEN_PROTOTYPE) && defined(GDO_NEED_DLMOPEN_PROTO)";
$"# define DLMOPEN_PROTOTYPE";
$"# define LM_ID_NEWLM -1  /* new namespace */";
$"typedef long int Lmid_t;";
$"extern void *dlmopen(Lmid_t lmid, const char *path, int flags);";
$"#endif";
$"";
$"";
$"/* GCC specific attributes */";
$"#ifdef __GNUC__";
$"# define GDO_GCC_ATTRIBUTE(x)  __attribute__ ((x))";
$"#else";
$"# define GDO_GCC_ATTRIBUTE(x)  /**/";
$"#endif";
$"";
$"";
$"/* set visibility of wrapped functions */";
$"#ifdef GDO_WRAP_VISIBILITY";
$"/* visible as regular functions */";
$"# define GDO_WRAP_DECL  GDO_WRAP_VISIBILITY";
$"# define GDO_WRAP(x)    x";
$"# else";
$"/* declare as prefixed inline functions by default */";
$"# define GDO_WRAP_DECL  static inline";
$"# define GDO_WRAP(x)    GDO_WRAP_##x";
$"#endif";
$"";
$"";
$"/* diagnostic #pragma warnings */";
$"#ifdef __GNUC__";
$"# define _GDO_PRAGMA(x)    _Pragma(#x)";
$"# define GDO_WARNING(MSG)  _GDO_PRAGMA(GCC warning MSG)";
$"#elif defined(_MSC_VER)";
$"# define GDO_WARNING(MSG)  __pragma( message(__FILE__ "": "" MSG) )";
$"#else";
$"# define GDO_WARNING(...)  /**/";
$"#endif";
$"";
$"";
$"/* default library name */";
$"";
$"#if defined(GDO_WINAPI) && defined(_UNICODE)";
$"# define _GDO_TARGET_WIDECHAR";
$"#endif";
$"";
$"/* GDO_DEFAULT_LIBA ?= GDO_HARDCODED_DEFAULT_LIBA */";
$"#if !defined(GDO_DEFAULT_LIBA) && defined(GDO_HARDCODED_DEFAULT_LIBA)";
$"# define GDO_DEFAULT_LIBA  GDO_HARDCODED_DEFAULT_LIBA";
$"#endif";
$"";
$"/* GDO_DEFAULT_LIBW ?= GDO_HARDCODED_DEFAULT_LIBW */";
$"#if !defined(GDO_DEFAULT_LIBW) && defined(GDO_HARDCODED_DEFAULT_LIBW)";
$"# define GDO_DEFAULT_LIBW  GDO_HARDCODED_DEFAULT_LIBW";
$"#endif";
$"";
$"/* GDO_DEFAULT_LIB ?= GDO_DEFAULT_LIBA or GDO_DEFAULT_LIBW */";
$"#ifndef GDO_DEFAULT_LIB";
$"# if defined(GDO_DEFAULT_LIBA) && !defined(_GDO_TARGET_WIDECHAR)";
$"#  define GDO_DEFAULT_LIB  GDO_DEFAULT_LIBA";
$"# elif defined(GDO_DEFAULT_LIBW) && defined(_GDO_TARGET_WIDECHAR)";
$"#  define GDO_DEFAULT_LIB  GDO_DEFAULT_LIBW";
$"# endif";
$"#endif";
$"";
$"/* GDO_DEFAULT_LIBA or GDO_DEFAULT_LIBW ?= GDO_DEFAULT_LIB */";
$"#ifdef GDO_DEFAULT_LIB";
$"# if !defined(GDO_DEFAULT_LIBA) && !defined(_GDO_TARGET_WIDECHAR)";
$"#  define GDO_DEFAULT_LIBA  GDO_DEFAULT_LIB";
$"# endif";
$"# if !defined(GDO_DEFAULT_LIBW) && defined(_GDO_TARGET_WIDECHAR)";
$"#  define GDO_DEFAULT_LIBW  GDO_DEFAULT_LIB";
$"# endif";
$"#endif";
$"";
$"";
$"/* dlopen(3) flags for compatibility with LoadLibrary()";
$" * taken from different implementations of dlfcn.h */";
$"#ifndef RTLD_LAZY";
$"#define RTLD_LAZY 0";
$"#endif";
$"#ifndef RTLD_NOW";
$"#define RTLD_NOW 0";
$"#endif";
$"#ifndef RTLD_GLOBAL";
$"#define RTLD_GLOBAL 0";
$"#endif";
$"#ifndef RTLD_LOCAL";
$"#define RTLD_LOCAL 0";
$"#endif";
$"";
$"#ifndef RTLD_BINDING_MASK";
$"#define RTLD_BINDING_MASK 0";
$"#endif";
$"#ifndef RTLD_CONFGEN";
$"#define RTLD_CONFGEN 0";
$"#endif";
$"#ifndef RTLD_DEEPBIND";
$"#define RTLD_DEEPBIND 0";
$"#endif";
$"#ifndef RTLD_FIRST";
$"#define RTLD_FIRST 0";
$"#endif";
$"#ifndef RTLD_GROUP";
$"#define RTLD_GROUP 0";
$"#endif";
$"#ifndef RTLD_MEMBER";
$"#define RTLD_MEMBER 0";
$"#endif";
$"#ifndef RTLD_MODEMASK";
$"#define RTLD_MODEMASK 0";
$"#endif";
$"#ifndef RTLD_NOAUTODEFER";
$"#define RTLD_NOAUTODEFER 0";
$"#endif";
$"#ifndef RTLD_NODELETE";
$"#define RTLD_NODELETE 0";
$"#endif";
$"#ifndef RTLD_NOLOAD";
$"#define RTLD_NOLOAD 0";
$"#endif";
$"#ifndef RTLD_PARENT";
$"#define RTLD_PARENT 0";
$"#endif";
$"#ifndef RTLD_TRACE";
$"#define RTLD_TRACE 0";
$"#endif";
$"#ifndef RTLD_WORLD";
$"#define RTLD_WORLD 0";
$"#endif";
$"";
$"#ifndef DL_LAZY";
$"#define DL_LAZY RTLD_LAZY  /* compat */";
$"#endif";
$"";
$"";
$"/* LoadLibrary() flags for compatibility with dlopen()";
$" * https://learn.microsoft.com/en-us/windows/win32/api/libloaderapi/nf-libloaderapi-loadlibraryexw */";
$"#ifndef DONT_RESOLVE_DLL_REFERENCES";
$"#define DONT_RESOLVE_DLL_REFERENCES 0";
$"#endif";
$"#ifndef LOAD_IGNORE_CODE_AUTHZ_LEVEL";
$"#define LOAD_IGNORE_CODE_AUTHZ_LEVEL 0";
$"#endif";
$"#ifndef LOAD_LIBRARY_AS_DATAFILE";
$"#define LOAD_LIBRARY_AS_DATAFILE 0";
$"#endif";
$"#ifndef LOAD_LIBRARY_AS_DATAFILE_EXCLUSIVE";
$"#define LOAD_LIBRARY_AS_DATAFILE_EXCLUSIVE 0";
$"#endif";
$"#ifndef LOAD_LIBRARY_AS_IMAGE_RESOURCE";
$"#define LOAD_LIBRARY_AS_IMAGE_RESOURCE 0";
$"#endif";
$"#ifndef LOAD_LIBRARY_SEARCH_APPLICATION_DIR";
$"#define LOAD_LIBRARY_SEARCH_APPLICATION_DIR 0";
$"#endif";
$"#ifndef LOAD_LIBRARY_SEARCH_DEFAULT_DIRS";
$"#define LOAD_LIBRARY_SEARCH_DEFAULT_DIRS 0";
$"#endif";
$"#ifndef LOAD_LIBRARY_SEARCH_DLL_LOAD_DIR";
$"#define LOAD_LIBRARY_SEARCH_DLL_LOAD_DIR 0";
$"#endif";
$"#ifndef LOAD_LIBRARY_SEARCH_SYSTEM32";
$"#define LOAD_LIBRARY_SEARCH_SYSTEM32 0";
$"#endif";
$"#ifndef LOAD_LIBRARY_SEARCH_USER_DIRS";
$"#define LOAD_LIBRARY_SEARCH_USER_DIRS 0";
$"#endif";
$"#ifndef LOAD_WITH_ALTERED_SEARCH_PATH";
$"#define LOAD_WITH_ALTERED_SEARCH_PATH 0";
$"#endif";
$"#ifndef LOAD_LIBRARY_REQUIRE_SIGNED_TARGET";
$"#define LOAD_LIBRARY_REQUIRE_SIGNED_TARGET 0";
$"#endif";
$"#ifndef LOAD_LIBRARY_SAFE_CURRENT_DIRS";
$"#define LOAD_LIBRARY_SAFE_CURRENT_DIRS 0";
$"#endif";
$"";
$"";
$"/* default flags */";
$"#if !defined(GDO_DEFAULT_FLAGS)";
$"# ifdef GDO_WINAPI";
$"#  define GDO_DEFAULT_FLAGS 0";
$"# else";
$"#  define GDO_DEFAULT_FLAGS (RTLD_LAZY | RTLD_MEMBER)";
$"# endif";
$"#endif";
$"";
$"";
$"/* always enable autoload if ""lazy autoload"" was enabled */";
$"#if defined(GDO_ENABLE_AUTOLOAD_LAZY) && !defined(GDO_ENABLE_AUTOLOAD)";
$"# define GDO_ENABLE_AUTOLOAD";
$"#endif";
$"";
$"";
$"/* whether wrapped functions can be used */";
$"%PARAM_SKIP_REMOVE_BEGIN%";
$"#if defined(GDO_ENABLE_AUTOLOAD) && !defined(GDO_DEFAULT_LIB)";
$"# error Auto-loading functions require ""GDO_DEFAULT_LIB"" to be set";
$"#endif";
$"%PARAM_SKIP_USE_BEGIN%";
$"#if defined(GDO_WRAP_FUNCTIONS) || defined(GDO_ENABLE_AUTOLOAD)";
$"# error Auto-loading and wrapped functions cannot be used because ""-param=skip"" was set";
$"#endif";
$"%PARAM_SKIP_END%";
$""].

(** src/templates/common.c, lines 1-186 *)
Definition lines_common_c : list str := [
$"/* common inline routines */";
$"";
$"GDO_INLINE void *_gdo_call_dlsym(gdo_hmod_t handle, const char *symbol)";
$"{";
$"#ifdef GDO_WINAPI";
$"    return (void *)GetProcAddress(handle, symbol);";
$"#else";
$"    return dlsym(handle, symbol);";
$"#endif";
$"}";
$"";
$"";
$"GDO_INLINE bool _gdo_call_dlclose(gdo_hmod_t handle)";
$"{";
$"#ifdef GDO_WINAPI";
$"    return (FreeLibrary(handle) == TRUE);";
$"#else";
$"    return (dlclose(handle) == 0);";
$"#endif";
$"}";
$"";
$"";
$"#if !defined(GDO_WINAPI)";
$"";
$"GDO_INLINE gdo_hmod_t _gdo_call_dlopen(const char *filename, int flags, bool new_namespace)";
$"{";
$"#ifdef GDO_HAVE_DLMOPEN";
$"    if (new_namespace) {";
$"        return dlmopen(LM_ID_NEWLM, filename, flags);";
$"    }";
$"#else";
$"    (void)new_namespace;";
$"#endif";
$"";
$"    return dlopen(filename, flags);";
$"}";
$"";
$"";
$"#ifdef GDO_HAVE_DLADDR";
$"GDO_INLINE bool _gdo_call_dladdr(const void *addr, Dl_info *info)";
$"{";
$"    info->dli_fname = NULL;";
$"";
$"    return (addr && dladdr(addr, info) != 0 && info->dli_fname && info->dli_fname[0] != 0);";
$"}";
$"#endif";
$"";
$"#endif //!GDO_WINAPI";
$"";
$"";
$"#ifdef _AIX";
$"";
$"#include <inttypes.h>";
$"#include <string.h>";
$"#include <sys/ldr.h>";
$"";
$"";
$"/* parse ld_info struct and search for library filename that provides the address of `sym' */";
$"GDO_INLINE const char *_gdo_aix_parse_ldinfo(struct ld_info *info, uint8_t *sym, const char **member)";
$"{";
$"    struct ld_info *cur = info;";
$"";
$"    while (true) {";
$"        uint8_t *text = (uint8_t *)cur->ldinfo_textorg;";
$"        uint8_t *data = (uint8_t *)cur->ldinfo_dataorg;";
$"        uint8_t *text_end = text + cur->ldinfo_textsize;";
$"        uint8_t *data_end = data + cur->ldinfo_datasize;";
$"";
$"        /* check if symbol pointer address lies within current text or data section */";
$"        if ((sym >= text && sym < text_end) || (sym >= data && sym < data_end)) {";
$"            /* found */";
$"            break;";
$"        } else if (cur->ldinfo_next == 0) {";
$"            /* end of linked list */";
$"            return NULL;";
$"        } else {";
$"            /* next entry in linked list */";
$"            cur = (struct ld_info *)((uint8_t *)cur + cur->ldinfo_next);";
$"        }";
$"    }";
$"";
$"    const char *path = cur->ldinfo_filename;";
$"";
$"    if (!path || path[0] == 0) {";
$"        return NULL;";
$"    }";
$"";
$"    /* archive member name after library path (can be empty) */";
$"    *member = path + strlen(path) + 1;";
$"";
$"    return path;";
$"}";
$"";
$"#endif //_AIX";
$"";
$"";
$"#if defined(GDO_HAVE_DLINFO) && defined(__linux__)";
$"";
$"#include <inttypes.h>";
$"#include <stdio.h>";
$"#include <stdlib.h>";
$"#include <string.h>";
$"#include <linux/fs.h>";
$"";
$"#ifdef PROCMAP_QUERY";
$"# include <fcntl.h>";
$"# include <sys/ioctl.h>";
$"# include <unistd.h>";
$"#endif";
$"";
$"";
$"/* try to get the full library path from process map */";
$"GDO_INLINE bool _gdo_fullpath_procmap(struct link_map *lm, char *buf, size_t bufsize)";
$"{";
$"#ifdef PROCMAP_QUERY";
$"";
$"    /* use ioctl() to parse /proc/self/maps */";
$"";
$"    struct procmap_query q;";
$"";
$"    int fd = open(""/proc/self/maps"", O_RDONLY | O_NONBLOCK);";
$"";
$"    if (fd != -1) {";
$"        memset(&q, 0, sizeof(struct procmap_query));";
$"";
$"        q.size          = sizeof(struct procmap_query);";
$"        q.query_flags   = PROCMAP_QUERY_FILE_BACKED_VMA;";
$"        q.query_addr    = (__u64)lm->l_addr;  /* find this address */";
$"        q.vma_name_size = bufsize;     /* in: buffer size; out: saved path length + NUL byte */";
$"        q.vma_name_addr = (__u64)buf;  /* buffer to save pathname */";
$"";
$"        if (ioctl(fd, PROCMAP_QUERY, &q) == 0 && q.vma_name_size > 0) {";
$"            close(fd);";
$"            return true;";
$"        }";
$"";
$"        close(fd);";
$"    }";
$"";
$"    buf[0] = 0;";
$"";
$"#endif //PROCMAP_QUERY";
$"";
$"    /* use getline() and sscanf() to parse /proc/self/maps */";
$"";
$"    FILE *fp = fopen(""/proc/self/maps"", ""r"");";
$"";
$"    if (!fp) {";
$"        return false;";
$"    }";
$"";
$"    uintmax_t start, end;";
$"    char mode[5];";
$"    char *line = NULL, *path = NULL;";
$"    size_t n = 0;";
$"";
$"    while (getline(&line, &n, fp) != -1) {";
$"        /* address start-end         mode offset   device inode      pathname */";
$"        /* 7de29d200000-7de29d228000 r--p 00000000 103:01 2758110    /usr/lib/x86_64-linux-gnu/libc.so.6\n */";
$"        int rv = sscanf(line, ""%jx-%jx %4[rwxsp-] %*u %*u:%*u %*u %m[^\n]"",";
$"                        &start, &end, mode, &path);";
$"";
$"        if (rv == 4 && lm->l_addr >= start && lm->l_addr < end) {";
$"            /* match */";
$"            break;";
$"        }";
$"";
$"        free(path);";
$"        path = NULL;";
$"    }";
$"";
$"    free(line);";
$"    fclose(fp);";
$"";
$"    if (path && (n = strlen(path)) < bufsize) {";
$"        memcpy(buf, path, n + 1);";
$"        free(path);";
$"        return true;";
$"    }";
$"";
$"    free(path);";
$"    return false;";
$"}";
$"";
$"#endif //GDO_HAVE_DLINFO && __linux__";
$""].

(** src/templates/c.h, lines 1-303 *)
Definition lines_c_h : list str := [
$"/*****************************************************************************/";
$"/*                                   C API                                   */";
$"/*****************************************************************************/";
$"";
$"#ifdef _WIN32";
$"# include <tchar.h>";
$"#else";
$"# undef _T";
$"# define _T(x) x";
$"#endif";
$"";
$"/* static/extern declarations */";
$"#ifdef GDO_STATIC";
$"# define GDO_DECL      static inline /* use `inline' to silence compiler warnings */";
$"# define GDO_OBJ_DECL  static";
$"#else";
$"# define GDO_DECL      extern";
$"# define GDO_OBJ_DECL  extern";
$"#endif";
$"";
$"#ifdef _GDO_TARGET_WIDECHAR";
$"typedef wchar_t gdo_char_t;";
$"#else";
$"typedef char    gdo_char_t;";
$"#endif";
$"";
$"";
$"/**";
$" * Enumeration values for use with gdo_load_symbol()";
$" */";
$"enum {";
$"    GDO_LOAD_%%symbol%%,";
$"    GDO_ENUM_LAST";
$"};";
$"";
$"";
$"/**";
$" * Library and symbols handle";
$" */";
$"typedef struct _gdo_handle";
$"{";
$"    gdo_hmod_t handle;        /* handle returned by dlopen()/LoadLibraryEx() */";
$"#ifdef GDO_WINAPI";
$"    DWORD      last_errno;    /* value returned by GetLastError() */";
$"#endif";
$"    bool       free_lib_reg;  /* whether registering the function to automatically */";
$"                              /* free the library upon exit was successful */";
$"";
$"    /* symbol pointers; symbol names MUST be prefixed to avoid macro expansion */";
$"    %%type%% (*GDO_PTR_%%func_symbol%%)(%%args%%);";
$"    %%obj_type%% *GDO_PTR_%%obj_symbol%%;";
$"";
$"    gdo_char_t libpath[GDO_BUFLEN]; /* buffer to save path of loaded library */";
$"    gdo_char_t errbuf[GDO_BUFLEN];  /* buffer for error messages */";
$"";
$"#ifdef GDO_WINAPI";
$"    /**";
$"     * FormatMessage() saves the formatted message string in this buffer;";
$"     * MSDN says this buffer cannot be larger than 64K bytes (not characters!)";
$"     */";
$"    gdo_char_t formatted[(64*1024) / sizeof(gdo_char_t)];";
$"#endif";
$"} gdo_handle_t;";
$"";
$"GDO_OBJ_DECL gdo_handle_t gdo_hndl;";
$"";
$"";
$"/**";
$" * Load a library.";
$" *";
$" * filename:";
$" *   Library filename or path to load. Must not be empty or NULL.";
$" *";
$" * flags:";
$" *   These are passed to the underlying library loading functions.";
$" *";
$" * new_namespace:";
$" *   If true the library will be loaded into a new namespace using dlmopen().";
$" *   This argument is only used on Linux (Glibc) and Solaris/IllumOS.";
$" *";
$" * On success `true' is returned.";
$" * On an error or if the library is already loaded the return value is `false'.";
$" */";
$"#ifdef GDO_DEFAULT_LIB";
$"GDO_DECL bool gdo_load_lib(void);";
$"GDO_DECL bool gdo_load_lib_and_symbols(void);";
$"#endif";
$"GDO_DECL bool gdo_load_lib_name(const gdo_char_t *filename);";
$"GDO_DECL bool gdo_load_lib_name_and_symbols(const gdo_char_t *filename);";
$"GDO_DECL bool gdo_load_lib_args(const gdo_char_t *filename, int flags, bool new_namespace);";
$"";
$"";
$"/**";
$" * Returns `true' if the library was successfully loaded.";
$" */";
$"GDO_DECL bool gdo_lib_is_loaded(void);";
$"";
$"";
$"/**";
$" * Free/release the library.";
$" *";
$" * Internal handle and pointers are only set back to NULL if the underlying calls";
$" * were successful, in which case `true' is returned.";
$" * Return value is also `true' if no library was loaded.";
$" */";
$"GDO_DECL bool gdo_free_lib(void);";
$"";
$"";
$"/**";
$" * Free/release the library.";
$" * Don't check if the underlying calls were successful.";
$" *";
$" * Internal handle and pointers are always set back to NULL.";
$" * Can safely be called even if no library was loaded.";
$" */";
$"GDO_DECL void gdo_force_free_lib(void);";
$"";
$"";
$"/**";
$" * Registers the function `gdo_force_free_lib()' to be called upon the program's exit.";
$" * It's recommended to do this before you attempt to load anything.";
$" *";
$" * It returns `false' if registering the function wasn't successful.";
$" * On success or if a function was already registered the return value is `true'.";
$" */";
$"GDO_DECL bool gdo_enable_autorelease(void);";
$"";
$"";
$"/**";
$" * Load symbols.";
$" *";
$" * symbol_num:";
$" *   Auto-generated enumeration value `GDO_LOAD_<symbol_name>'.";
$" *   For example use `GDO_LOAD_foo' to load the symbol `foo'.";
$" *   The main intention is to check if a certain symbol is present in a";
$" *   library so that you can conditionally enable or disable features.";
$" *";
$" * symbol:";
$" *   Name of the symbol to load.";
$" *";
$" * Returns `true' on success or if the symbol was already loaded.";
$" */";
$"GDO_DECL bool gdo_load_all_symbols(void);";
$"GDO_DECL bool gdo_load_symbol(int symbol_num);";
$"GDO_DECL bool gdo_load_symbol_name(const char *symbol);";
$"";
$"";
$"/**";
$" * Check if symbols were loaded.";
$" */";
$"GDO_DECL bool gdo_all_symbols_loaded(void);";
$"GDO_DECL bool gdo_no_symbols_loaded(void);";
$"GDO_DECL bool gdo_any_symbol_loaded(void);";
$"";
$"";
$"/**";
$" * Returns a pointer to the last saved error string.";
$" * This function doesn't return a null pointer or empty string,";
$" * the message will indicate if no error had occured.";
$" * Do not free the returned pointer!";
$" */";
$"GDO_DECL const gdo_char_t *gdo_last_error(void)";
$"    GDO_GCC_ATTRIBUTE (returns_nonnull);";
$"";
$"";
$"/**";
$" * Return the library path. On error or if no library was loaded NULL is returned.";
$" * Do not free the returned pointer!";
$" *";
$" * On some systems and configurations the path is taken from the loaded symbols";
$" * in which case at least one symbol must have been successfully loaded before";
$" * using this function.";
$" */";
$"GDO_DECL const gdo_char_t *gdo_library_path(void);";
$"";
$"";
$"/**";
$" * Prefixed aliases, useful if GDO_DISABLE_ALIASING was defined.";
$" */";
$"#define GDO_RAWPTR_%%func_symbol_pad%% gdo_hndl.GDO_PTR_%%func_symbol%%";
$"#define GDO_RAWPTR_%%obj_symbol_pad%% gdo_hndl.GDO_PTR_%%obj_symbol%%";
$"%PARAM_SKIP_REMOVE_BEGIN%";
$"";
$"";
$"/*****************************************************************************/";
$"/*                                wrap code                                  */";
$"/*****************************************************************************/";
$"#if defined(GDO_WRAP_FUNCTIONS) || defined(GDO_ENABLE_AUTOLOAD)";
$"";
$"/* we need an actual function for the VA_ARGS macro */";
$"#ifdef __GNUC__";
$"inline __attribute__ ((always_inline)) void _gdo_noop(void) {}";
$"#elif defined(_MSC_VER)";
$"__forceinline void _gdo_noop(void) {}";
$"#else";
$"extern void _gdo_noop(void);";
$"#endif";
$"";
$"";
$"/* by default #define hooks that do nothing */";
$"#ifndef GDO_HOOK_%%func_symbol%%@";
$"#define GDO_HOOK_%%func_symbol%%(...)  _gdo_noop()@";
$"#endif";
$"";
$"";
$"/* right now only GCC supports __builtin_va_arg_pack() */";
$"#if defined(__GNUC__) && \";
$"    !defined(__NO_INLINE__) && \";
$"    defined(__has_builtin)";
$"# if __has_builtin(__builtin_va_arg_pack)";
$"#  define GDO_BUILTIN_VA_ARG_PACK";
$"# endif";
$"#endif";
$"";
$"";
$"/* diagnostic warnings on variable arguments functions */";
$"#if !defined(GDO_DISABLE_WARNINGS)";
$"";
$"/* %%func_symbol%%() */@";
$"#ifdef GDO_HAS_VA_ARGS_%%func_symbol%%@";
$"# ifdef GDO_WRAP_VISIBILITY@";
$"GDO_WARNING(""GDO_WRAP_VISIBILITY defined but wrapper function %%func_symbol%%() can only be used inlined; define GDO_DISABLE_WARNINGS to silence this message"")@";
$"# endif@";
$"#endif@";
$"";
$"#endif //!GDO_DISABLE_WARNINGS";
$"";
$"";
$"GDO_DECL void _gdo_wrap_check_loaded(void *symptr, int load, const gdo_char_t *sym);";
$"";
$"#define _GDO_WRAP_CHECK_LOADED(SYMBOL) \";
$"    _gdo_wrap_check_loaded( (void *)GDO_RAWPTR_##SYMBOL, GDO_LOAD_##SYMBOL, _T( #SYMBOL ) )";
$"";
$"";
$"/**";
$" * GNU inline wrapper function for use with variable arguments";
$" * https://gcc.gnu.org/onlinedocs/gcc/Constructing-Calls.html";
$" * https://gcc.gnu.org/onlinedocs/gcc/Inline.html";
$" *";
$" * __builtin_va_arg_pack() is a GNU extension and will be resolved to the";
$" * additional parameters provided by the `...' argument.";
$" * This requires function inlining optimizations to be enabled.";
$" * The function HAS to be declared `extern inline __attribute__ ((__gnu_inline__))'.";
$" */";
$"@";
$"/* %%func_symbol%%() */@";
$"#ifdef GDO_HAS_VA_ARGS_%%func_symbol%%@";
$"# ifdef GDO_BUILTIN_VA_ARG_PACK@";
$"    /* inline function (always inlined) */@";
$"    extern inline __attribute__ ((__gnu_inline__))@";
$"    %%type%% GDO_WRAP(%%func_symbol%%) (%%args%%) {@";
$"        _GDO_WRAP_CHECK_LOADED( %%func_symbol%% );@";
$"        GDO_HOOK_%%func_symbol%%( %%param_names%%, __builtin_va_arg_pack() );@";
$"        %%return%% GDO_RAWPTR_%%func_symbol%%( %%param_names%%, __builtin_va_arg_pack() );@";
$"    }@";
$"# else /* fall back to using a macro */@";
$"#  define GDO_WRAP_%%func_symbol%%(...) \@";
$"    (_GDO_WRAP_CHECK_LOADED( %%func_symbol%% ),\@";
$"     (GDO_HOOK_%%func_symbol%%( __VA_ARGS__ )),\@";
$"      GDO_RAWPTR_%%func_symbol%%( __VA_ARGS__ ))@";
$"# endif@";
$"#else //!GDO_HAS_VA_ARGS_%%func_symbol%%@";
$"    GDO_WRAP_DECL /* wrapper function */@";
$"    %%type%% GDO_WRAP(%%func_symbol%%) (%%args%%) {@";
$"        _GDO_WRAP_CHECK_LOADED( %%func_symbol%% );@";
$"        GDO_HOOK_%%func_symbol%%( %%param_names%% );@";
$"        %%return%% GDO_RAWPTR_%%func_symbol%%( %%param_names%% );@";
$"    }@";
$"#endif //!GDO_HAS_VA_ARGS_%%func_symbol%%";
$"";
$"#endif //GDO_WRAP_FUNCTIONS ...";
$"/***************************** end of wrap code ******************************/";
$"%PARAM_SKIP_END%";
$"";
$"";
$"/**";
$" * Set function name alias prefix.";
$" */";
$"#if defined(GDO_WRAP_FUNCTIONS) || defined(GDO_ENABLE_AUTOLOAD)";
$"# define GDO_FUNC_ALIAS(x) GDO_WRAP_##x";
$"#else";
$"# define GDO_FUNC_ALIAS(x) GDO_RAWPTR_##x";
$"#endif";
$"";
$"";
$"/**";
$" * Disable aliasing if we saved into separate files and the";
$" * header file was included from the body file.";
$" */";
$"#if  defined(GDO_SEPARATE) && \";
$"    !defined(GDO_INCLUDED_IN_BODY) && \";
$"    !defined(GDO_DISABLE_ALIASING)";
$"";
$"/* function name aliases */";
$"#if !defined(GDO_WRAP_VISIBILITY)";
$"# define %%func_symbol_pad%% GDO_FUNC_ALIAS(%%func_symbol%%)";
$"#endif";
$"";
$"/* object name aliases */";
$"#define %%obj_symbol_pad%% *GDO_RAWPTR_%%obj_symbol%%";
$"";
$"#endif //GDO_SEPARATE ...";
$""].

(** src/templates/c.c, lines 1-989 *)
Definition lines_c_c : list str := [
$"/*****************************************************************************/";
$"/*                           C API implementation                            */";
$"/*****************************************************************************/";
$"";
$"#if defined(_MSC_VER) && defined(GDO_USE_MESSAGE_BOX)";
$"# pragma comment(lib, ""user32.lib"")  /* dependency for MessageBox() */";
$"#endif";
$"";
$"#include <stdio.h>";
$"#include <stdlib.h>";
$"#include <string.h>";
$"";
$"";
$"#ifdef _GDO_TARGET_WIDECHAR";
$"# define GDO_XHS  L""%hs""  /* narrow character string */";
$"#else";
$"# define GDO_XHS  ""%s""";
$"#endif";
$"";
$"";
$"/* linkage */";
$"#ifdef GDO_STATIC";
$"# define GDO_LINKAGE      GDO_DECL";
$"# define GDO_OBJ_LINKAGE  GDO_OBJ_DECL";
$"#else";
$"# define GDO_LINKAGE      /**/";
$"# define GDO_OBJ_LINKAGE  /**/";
$"#endif";
$"";
$"";
$"/* Silence `unused reference' compiler warnings. */";
$"#define GDO_UNUSED_REF(x) (void)(x)";
$"";
$"";
$"#ifndef _countof";
$"# define _countof(array)  (sizeof(array) / sizeof(array[0]))";
$"#endif";
$"";
$"";
$"/* library handle */";
$"GDO_OBJ_LINKAGE gdo_handle_t gdo_hndl;";
$"";
$"";
$"/* forward declarations */";
$"GDO_INLINE void _gdo_load_library(const gdo_char_t *filename, int flags, bool new_namespace);";
$"GDO_INLINE void *_gdo_sym(const char *symbol, const gdo_char_t *msg);";
$"#ifdef GDO_WINAPI";
$"GDO_INLINE HMODULE _gdo_load_library_ex(const gdo_char_t *filename, int flags);";
$"#endif";
$"#if defined(_WIN32) || defined(_AIX)";
$"GDO_INLINE bool _gdo_library_path(void);";
$"#endif";
$"#ifdef GDO_HAVE_DLINFO";
$"GDO_INLINE bool _gdo_libpath_dlinfo(void);";
$"#endif";
$"#ifdef GDO_HAVE_DLADDR";
$"GDO_INLINE bool _gdo_libpath_dladdr(void);";
$"#endif";
$"";
$"";
$"/* strstr() / wcsstr() */";
$"GDO_INLINE const gdo_char_t *_gdo_tcsstr(const gdo_char_t *haystack, const gdo_char_t *needle)";
$"{";
$"#ifdef _WIN32";
$"    return _tcsstr(haystack, needle);";
$"#else";
$"    return strstr(haystack, needle);";
$"#endif";
$"}";
$"";
$"";
$"/* snprintf() / snwprintf() */";
$"#ifdef _WIN32";
$"# define GDO_SNPRINTF(DEST, FORMAT, ...) \";
$"    _sntprintf_s(DEST, _countof(DEST), _TRUNCATE, FORMAT, __VA_ARGS__)";
$"#else";
$"# define GDO_SNPRINTF(DEST, FORMAT, ...) \";
$"    snprintf(DEST, _countof(DEST), FORMAT, __VA_ARGS__)";
$"#endif";
$"";
$"";
$"";
$"/*****************************************************************************/";
$"/*                                save error                                 */";
$"/*****************************************************************************/";
$"#ifdef GDO_WINAPI";
$"# define GDO_SET_LAST_ERRNO(x)  do { gdo_hndl.last_errno = x; } while(0)";
$"#else";
$"# define GDO_SET_LAST_ERRNO(x)  /**/";
$"#endif";
$"";
$"/* save message to error buffer */";
$"GDO_INLINE void _gdo_save_to_errbuf(const gdo_char_t *msg)";
$"{";
$"    if (msg) {";
$"        GDO_SNPRINTF(gdo_hndl.errbuf, _T(""%s""), msg);";
$"    } else {";
$"        gdo_hndl.errbuf[0] = 0;";
$"    }";
$"";
$"#ifdef GDO_WINAPI";
$"    gdo_hndl.formatted[0] = 0;";
$"#endif";
$"}";
$"";
$"#ifdef GDO_WINAPI";
$"";
$"/* clear error buffers */";
$"GDO_INLINE void _gdo_clear_error(void)";
$"{";
$"    gdo_hndl.errbuf[0] = 0;";
$"    gdo_hndl.formatted[0] = 0;";
$"    gdo_hndl.last_errno = 0;";
$"}";
$"";
$"/* save the last system error code; a message for additional information";
$" * can be provided too. */";
$"GDO_INLINE void _gdo_save_error(const gdo_char_t *msg)";
$"{";
$"    gdo_hndl.last_errno = GetLastError();";
$"    _gdo_save_to_errbuf(msg);";
$"}";
$"";
$"/* sets the ""no library was loaded"" error message */";
$"GDO_INLINE void _gdo_set_error_no_library_loaded(void)";
$"{";
$"    gdo_hndl.last_errno = ERROR_INVALID_HANDLE;";
$"    _gdo_save_to_errbuf(_T(""no library was loaded""));";
$"}";
$"";
$"#else";
$"/*********************************** dlfcn ***********************************/";
$"";
$"/* clear error buffers */";
$"GDO_INLINE void _gdo_clear_error(void)";
$"{";
$"    dlerror();";
$"    gdo_hndl.errbuf[0] = 0;";
$"}";
$"";
$"/* save the last message provided by dlerror() */";
$"GDO_INLINE void _gdo_save_error(const gdo_char_t *msg)";
$"{";
$"    GDO_UNUSED_REF(msg);";
$"    _gdo_save_to_errbuf(dlerror());";
$"}";
$"";
$"/* sets the ""no library was loaded"" error message */";
$"GDO_INLINE void _gdo_set_error_no_library_loaded(void)";
$"{";
$"    _gdo_save_to_errbuf(""no library was loaded"");";
$"}";
$"";
$"#endif //!GDO_WINAPI";
$"/*****************************************************************************/";
$"";
$"";
$"";
$"/*****************************************************************************/";
$"/*                load default library with default flags                    */";
$"/*****************************************************************************/";
$"#ifdef GDO_DEFAULT_LIB";
$"GDO_LINKAGE bool gdo_load_lib(void)";
$"{";
$"    return gdo_load_lib_name(GDO_DEFAULT_LIB);";
$"}";
$"#endif";
$"/*****************************************************************************/";
$"";
$"";
$"";
$"/*****************************************************************************/";
$"/*       load default library with default flags and load the symbols        */";
$"/*****************************************************************************/";
$"#ifdef GDO_DEFAULT_LIB";
$"GDO_LINKAGE bool gdo_load_lib_and_symbols(void)";
$"{";
$"    return (gdo_load_lib() && gdo_load_all_symbols());";
$"}";
$"#endif";
$"/*****************************************************************************/";
$"";
$"";
$"";
$"/*****************************************************************************/";
$"/*            load library by filename with default flags                    */";
$"/*****************************************************************************/";
$"GDO_LINKAGE bool gdo_load_lib_name(const gdo_char_t *filename)";
$"{";
$"    return gdo_load_lib_args(filename, GDO_DEFAULT_FLAGS, false);";
$"}";
$"/*****************************************************************************/";
$"";
$"";
$"";
$"/*****************************************************************************/";
$"/*     load library by filename with default flags and load the symbols      */";
$"/*****************************************************************************/";
$"GDO_LINKAGE bool gdo_load_lib_name_and_symbols(const gdo_char_t *filename)";
$"{";
$"    return (gdo_load_lib_name(filename) && gdo_load_all_symbols());";
$"}";
$"/*****************************************************************************/";
$"";
$"";
$"";
$"/*****************************************************************************/";
$"/*                          load the library                                 */";
$"/*****************************************************************************/";
$"GDO_LINKAGE bool gdo_load_lib_args(const gdo_char_t *filename, int flags, bool new_namespace)";
$"{";
$"    _gdo_clear_error();";
$"";
$"    /* consider it an error if the library was already loaded */";
$"    if (gdo_lib_is_loaded()) {";
$"        _gdo_save_to_errbuf(_T(""library already loaded""));";
$"        return false;";
$"    }";
$"";
$"    /* dlfcn: an empty filename will actually return a handle to";
$"     * the main program, but we don't want that */";
$"    if (!filename || *filename == 0) {";
$"        GDO_SET_LAST_ERRNO(ERROR_INVALID_NAME);";
$"        _gdo_save_to_errbuf(_T(""empty filename""));";
$"        return false;";
$"    }";
$"";
$"    _gdo_load_library(filename, flags, new_namespace);";
$"";
$"    if (!gdo_lib_is_loaded()) {";
$"        _gdo_save_error(filename);";
$"        return false;";
$"    }";
$"";
$"    return true;";
$"}";
$"";
$"/* call LoadLibraryEx/dlopen/dlmopen */";
$"GDO_INLINE void _gdo_load_library(const gdo_char_t *filename, int flags, bool new_namespace)";
$"{";
$"#ifdef GDO_WINAPI";
$"";
$"    /* documentation says only backward slash path separators shall";
$"     * be used on LoadLibraryEx() */";
$"";
$"    if (!_tcschr(filename, _T('/'))) {";
$"        /* no forward slash found */";
$"        gdo_hndl.handle = _gdo_load_library_ex(filename, flags);";
$"        return;";
$"    }";
$"";
$"    /* copy filename and replace path separators */";
$"    gdo_char_t *copy = _tcsdup(filename);";
$"";
$"    for (gdo_char_t *p = copy; *p != 0; p++) {";
$"        if (*p == _T('/')) {";
$"            *p = _T('\\');";
$"        }";
$"    }";
$"";
$"    GDO_UNUSED_REF(new_namespace);";
$"    gdo_hndl.handle = _gdo_load_library_ex(copy, flags);";
$"    free(copy);";
$"";
$"#else";
$"";
$"    gdo_hndl.handle = _gdo_call_dlopen(filename, flags, new_namespace);";
$"";
$"#endif //!GDO_WINAPI";
$"}";
$"";
$"#ifdef GDO_WINAPI";
$"# if !defined(_GDO_TARGET_WIDECHAR) && defined(GDO_CONVERT_FILENAME)";
$"GDO_INLINE wchar_t *_gdo_mbstowcs(const char *filename)";
$"{";
$"    wchar_t *wcs;";
$"    size_t len = 0;";
$"    size_t n = 0;";
$"";
$"    /* get length of converted string (including null terminator) */";
$"    if (mbstowcs_s(&len, NULL, 0, filename, _TRUNCATE) == 0 && len > 1) {";
$"        wcs = (wchar_t *)malloc(len * sizeof(wchar_t));";
$"";
$"        /* convert string */";
$"        if (mbstowcs_s(&n, wcs, len, filename, _TRUNCATE) == 0 && n == len) {";
$"            return wcs;";
$"        }";
$"";
$"        free(wcs);";
$"    }";
$"";
$"    return NULL;";
$"}";
$"# endif //!_GDO_TARGET_WIDECHAR && GDO_CONVERT_FILENAME";
$"";
$"GDO_INLINE HMODULE _gdo_load_library_ex(const gdo_char_t *filename, int flags)";
$"{";
$"# if !defined(_GDO_TARGET_WIDECHAR) && defined(GDO_CONVERT_FILENAME)";
$"    /* convert filename to wchar_t and use it on LoadLibraryExW() */";
$"    wchar_t *wcs = _gdo_mbstowcs(filename);";
$"";
$"    if (wcs) {";
$"        HMODULE handle = LoadLibraryExW(wcs, NULL, flags);";
$"        free(wcs);";
$"        return handle;";
$"    }";
$"";
$"    GDO_SET_LAST_ERRNO(ERROR_INVALID_NAME);";
$"    _gdo_save_to_errbuf(""mbstowcs_s: failed to convert filename"");";
$"    return NULL;";
$"# else";
$"    return LoadLibraryEx(filename, NULL, flags);";
$"# endif //!_GDO_TARGET_WIDECHAR && GDO_CONVERT_FILENAME";
$"}";
$"#endif //GDO_WINAPI";
$"/*****************************************************************************/";
$"";
$"";
$"";
$"/*****************************************************************************/";
$"/*                whether the library is currently loaded                    */";
$"/*****************************************************************************/";
$"GDO_LINKAGE bool gdo_lib_is_loaded(void)";
$"{";
$"    return (gdo_hndl.handle != NULL);";
$"}";
$"/*****************************************************************************/";
$"";
$"";
$"";
$"/*****************************************************************************/";
$"/*             free the library handle and set pointers to NULL              */";
$"/*****************************************************************************/";
$"GDO_LINKAGE bool gdo_free_lib(void)";
$"{";
$"    _gdo_clear_error();";
$"";
$"    if (gdo_lib_is_loaded()) {";
$"        if (!_gdo_call_dlclose(gdo_hndl.handle))";
$"        {";
$"#ifdef GDO_WINAPI";
$"            _gdo_save_error(_T(""FreeLibrary()""));";
$"#else";
$"            _gdo_save_error(NULL);";
$"#endif";
$"            return false;";
$"        }";
$"    }";
$"";
$"    gdo_hndl.libpath[0] = 0;";
$"";
$"    /* set pointers back to NULL */";
$"    gdo_hndl.handle = NULL;";
$"    GDO_RAWPTR_%%symbol%% = NULL;";
$"";
$"    return true;";
$"}";
$"/*****************************************************************************/";
$"";
$"";
$"";
$"/*****************************************************************************/";
$"/*    free the library handle and set pointers to NULL (no error checks)     */";
$"/*****************************************************************************/";
$"GDO_LINKAGE void gdo_force_free_lib(void)";
$"{";
$"    _gdo_clear_error();";
$"";
$"    if (gdo_lib_is_loaded()) {";
$"        _gdo_call_dlclose(gdo_hndl.handle);";
$"    }";
$"";
$"    gdo_hndl.libpath[0] = 0;";
$"";
$"    /* set pointers back to NULL */";
$"    gdo_hndl.handle = NULL;";
$"    GDO_RAWPTR_%%symbol%% = NULL;";
$"}";
$"/*****************************************************************************/";
$"";
$"";
$"";
$"/*****************************************************************************/";
$"/*                   automatically free library upon exit                    */";
$"/*****************************************************************************/";
$"GDO_LINKAGE bool gdo_enable_autorelease(void)";
$"{";
$"    _gdo_clear_error();";
$"";
$"    if (!gdo_hndl.free_lib_reg) {";
$"        if (atexit(gdo_force_free_lib) == 0) {";
$"            gdo_hndl.free_lib_reg = true;";
$"        } else {";
$"            _gdo_save_to_errbuf(_T(""atexit(): failed to register `gdo_force_free_lib()'""));";
$"        }";
$"    }";
$"";
$"    return gdo_hndl.free_lib_reg;";
$"}";
$"/*****************************************************************************/";
$"";
$"";
$"";
$"/*****************************************************************************/";
$"/*                    check if ALL symbols were loaded                       */";
$"/*****************************************************************************/";
$"GDO_LINKAGE bool gdo_all_symbols_loaded(void)";
$"{";
$"    if (true";
$"        && GDO_RAWPTR_%%symbol%% != NULL";
$"    ) {";
$"        return true;";
$"    }";
$"";
$"    return false;";
$"}";
$"/*****************************************************************************/";
$"";
$"";
$"";
$"/*****************************************************************************/";
$"/*                    check if NO symbols were loaded                        */";
$"/*****************************************************************************/";
$"GDO_LINKAGE bool gdo_no_symbols_loaded(void)";
$"{";
$"    if (true";
$"        && GDO_RAWPTR_%%symbol%% == NULL";
$"    ) {";
$"        return true;";
$"    }";
$"";
$"    return false;";
$"}";
$"/*****************************************************************************/";
$"";
$"";
$"";
$"/*****************************************************************************/";
$"/*                     check if ANY symbol was loaded                        */";
$"/*****************************************************************************/";
$"GDO_LINKAGE bool gdo_any_symbol_loaded(void)";
$"{";
$"    if (false";
$"        || GDO_RAWPTR_%%symbol%% != NULL";
$"    ) {";
$"        return true;";
$"    }";
$"";
$"    return false;";
$"}";
$"/*****************************************************************************/";
$"";
$"";
$"";
$"/*****************************************************************************/";
$"/*                             load all symbols                              */";
$"/*****************************************************************************/";
$"GDO_LINKAGE bool gdo_load_all_symbols(void)";
$"{";
$"    _gdo_clear_error();";
$"";
$"    if (gdo_all_symbols_loaded()) {";
$"        return true;";
$"    }";
$"";
$"    if (!gdo_lib_is_loaded()) {";
$"        _gdo_set_error_no_library_loaded();";
$"        return false;";
$"    }";
$"";
$"    /* get symbol addresses */";
$"";
$"    /* %%symbol%% */@";
$"    if ((GDO_RAWPTR_%%symbol%% =@";
$"            (%%sym_type%%)@";
$"                _gdo_sym(""%%symbol%%"", _T(""%%symbol%%""))) == NULL) {@";
$"        return false;@";
$"    }@";
$"";
$"    return true;";
$"}";
$"";
$"GDO_INLINE void *_gdo_sym(const char *symbol, const gdo_char_t *msg)";
$"{";
$"    void *ptr = _gdo_call_dlsym(gdo_hndl.handle, symbol);";
$"";
$"    if (!ptr) {";
$"        _gdo_save_error(msg);";
$"    }";
$"";
$"    return ptr;";
$"}";
$"/*****************************************************************************/";
$"";
$"";
$"";
$"/*****************************************************************************/";
$"/*                        load a specific symbol                             */";
$"/*****************************************************************************/";
$"GDO_LINKAGE bool gdo_load_symbol(int symbol_num)";
$"{";
$"    _gdo_clear_error();";
$"";
$"    if (!gdo_lib_is_loaded()) {";
$"        _gdo_set_error_no_library_loaded();";
$"        return false;";
$"    }";
$"";
$"    switch (symbol_num)";
$"    {";
$"    /* %%symbol%% */@";
$"    case GDO_LOAD_%%symbol%%:@";
$"        if (!GDO_RAWPTR_%%symbol%%) {@";
$"            GDO_RAWPTR_%%symbol%% =@";
$"                (%%sym_type%%)@";
$"                    _gdo_sym(""%%symbol%%"", _T(""%%symbol%%""));@";
$"        }@";
$"        return (GDO_RAWPTR_%%symbol%% != NULL);@";
$"";
$"    default:";
$"        break;";
$"    }";
$"";
$"    GDO_SET_LAST_ERRNO(ERROR_NOT_FOUND);";
$"    GDO_SNPRINTF(gdo_hndl.errbuf, _T(""unknown symbol number: %d""), symbol_num);";
$"";
$"    return false;";
$"}";
$"/*****************************************************************************/";
$"";
$"";
$"";
$"/*****************************************************************************/";
$"/*                    load a specific symbol by name                         */";
$"/*****************************************************************************/";
$"GDO_LINKAGE bool gdo_load_symbol_name(const char *symbol)";
$"{";
$"    _gdo_clear_error();";
$"";
$"    if (!gdo_lib_is_loaded()) {";
$"        _gdo_set_error_no_library_loaded();";
$"        return false;";
$"    }";
$"";
$"    if (!symbol || *symbol == 0) {";
$"        GDO_SET_LAST_ERRNO(ERROR_INVALID_PARAMETER);";
$"        _gdo_save_to_errbuf(_T(""empty symbol name""));";
$"        return false;";
$"    }";
$"";
$"    /* check symbol prefix first */";
$"    const char pfx[] = GDO_COMMON_PREFIX;";
$"    const size_t pfxlen = sizeof(pfx) - 1;";
$"";
$"    if (pfxlen == 0 || strncmp(symbol, pfx, pfxlen) == 0) {";
$"        const size_t len = strlen(symbol);";
$"        const char *curr;";
$"        size_t curr_len;";
$"@";
$"        curr = ""%%symbol%%"";@";
$"        curr_len = sizeof(""%%symbol%%"") - 1;@";
$"        if (len == curr_len && strcmp(symbol + pfxlen, curr + pfxlen) == 0) {@";
$"            if (!GDO_RAWPTR_%%symbol%%) {@";
$"                GDO_RAWPTR_%%symbol%% =@";
$"                    (%%sym_type%%)@";
$"                        _gdo_sym(""%%symbol%%"", _T(""%%symbol%%""));@";
$"            }@";
$"            return (GDO_RAWPTR_%%symbol%% != NULL);@";
$"        }";
$"    }";
$"";
$"    GDO_SET_LAST_ERRNO(ERROR_NOT_FOUND);";
$"    GDO_SNPRINTF(gdo_hndl.errbuf, _T(""unknown symbol: "") GDO_XHS, symbol);";
$"";
$"    return false;";
$"}";
$"/*****************************************************************************/";
$"";
$"";
$"";
$"/*****************************************************************************/";
$"/*                   retrieve the last saved error message                   */";
$"/*****************************************************************************/";
$"GDO_LINKAGE const gdo_char_t *gdo_last_error(void)";
$"{";
$"#ifdef GDO_WINAPI";
$"";
$"    /* formatted message was already saved */";
$"    if (gdo_hndl.formatted[0] != 0) {";
$"        return gdo_hndl.formatted;";
$"    }";
$"";
$"    gdo_char_t *buf = NULL;";
$"";
$"    FormatMessage(GDO_FORMAT_MESSAGE_FLAGS,";
$"                  NULL,";
$"                  gdo_hndl.last_errno,";
$"                  MAKELANGID(LANG_NEUTRAL, SUBLANG_DEFAULT),";
$"                  (gdo_char_t *)&buf,";
$"                  0,";
$"                  NULL);";
$"";
$"    if (buf) {";
$"        if (gdo_hndl.errbuf[0] != 0) {";
$"            /* put custom message in front */";
$"            GDO_SNPRINTF(gdo_hndl.formatted, _T(""%s: %s""), gdo_hndl.errbuf, buf);";
$"        } else {";
$"            GDO_SNPRINTF(gdo_hndl.formatted, _T(""%s""), buf);";
$"        }";
$"";
$"        LocalFree(buf);";
$"    } else {";
$"        /* FormatMessage() failed, save the error code */";
$"        if (gdo_hndl.errbuf[0] != 0) {";
$"            /* put custom message in front */";
$"            GDO_SNPRINTF(gdo_hndl.formatted, _T(""%s: error code: %zu""), gdo_hndl.errbuf,";
$"                (size_t)gdo_hndl.last_errno);";
$"        } else {";
$"            GDO_SNPRINTF(gdo_hndl.formatted, _T(""error code: %zu""), (size_t)gdo_hndl.last_errno);";
$"        }";
$"    }";
$"";
$"    return gdo_hndl.formatted;";
$"";
$"#else";
$"";
$"    if (gdo_hndl.errbuf[0] == 0) {";
$"        _gdo_save_to_errbuf(""no error"");";
$"    }";
$"";
$"    return gdo_hndl.errbuf;";
$"";
$"#endif //GDO_WINAPI";
$"}";
$"/*****************************************************************************/";
$"";
$"";
$"";
$"/*****************************************************************************/";
$"/*                        get the loaded library path                        */";
$"/*****************************************************************************/";
$"GDO_LINKAGE const gdo_char_t *gdo_library_path(void)";
$"{";
$"    _gdo_clear_error();";
$"";
$"#if !defined(_WIN32) && !defined(_AIX) && !defined(GDO_HAVE_DLINFO) && !defined(GDO_HAVE_DLADDR)";
$"    _gdo_save_to_errbuf(""function not implemented"");";
$"    return NULL;";
$"#endif";
$"";
$"    if (!gdo_lib_is_loaded()) {";
$"        _gdo_set_error_no_library_loaded();";
$"        return NULL;";
$"    }";
$"";
$"    /* was the library path already saved? */";
$"    if (gdo_hndl.libpath[0] != 0) {";
$"        return gdo_hndl.libpath;";
$"    }";
$"";
$"#if defined(_WIN32) || defined(_AIX)";
$"    if (_gdo_library_path()) {";
$"        return gdo_hndl.libpath;";
$"    }";
$"#endif";
$"";
$"#ifdef GDO_HAVE_DLINFO";
$"    /* prefer dlinfo() over dladdr() */";
$"    if (_gdo_libpath_dlinfo()) {";
$"        return gdo_hndl.libpath;";
$"    }";
$"#endif";
$"";
$"#ifdef GDO_HAVE_DLADDR";
$"    if (_gdo_libpath_dladdr()) {";
$"        return gdo_hndl.libpath;";
$"    }";
$"#endif";
$"";
$"    /* error */";
$"    gdo_hndl.libpath[0] = 0;";
$"";
$"    return NULL;";
$"}";
$"";
$"";
$"#ifdef _WIN32 /* Windows (WINAPI and dlfcn) */";
$"GDO_INLINE bool _gdo_library_path(void)";
$"{";
$"    /* use GetModuleFileName() to get the path */";
$"";
$"# ifdef GDO_WINAPI";
$"";
$"    const gdo_char_t *msg = (sizeof(gdo_char_t) == 1)";
$"        ? _T(""GetModuleFileNameA()"")";
$"        : _T(""GetModuleFileNameW()"");";
$"";
$"    DWORD nSize = GetModuleFileName(gdo_hndl.handle, gdo_hndl.libpath, GDO_BUFLEN);";
$"";
$"    if (nSize == 0 || nSize == GDO_BUFLEN) {";
$"        _gdo_save_error(msg);";
$"        return false;";
$"    }";
$"";
$"# elif defined(GDO_DLFCN_WIN32)";
$"";
$"    /* dlfcn-win32:";
$"     * The handle returned by dlopen() is a `HMODULE' casted to `void *',";
$"     * so we can directly use GetModuleFileNameA() to receive the DLL path. */";
$"";
$"    DWORD nSize = GetModuleFileNameA((HMODULE)gdo_hndl.handle, gdo_hndl.libpath, GDO_BUFLEN);";
$"";
$"    if (nSize == 0) {";
$"        _gdo_save_to_errbuf(""failed to get the library path"");";
$"        return false;";
$"    } else if (nSize == GDO_BUFLEN) {";
$"        _gdo_save_to_errbuf(""buffer is too small to hold the library path"");";
$"        return false;";
$"    }";
$"";
$"# endif";
$"";
$"    return true;";
$"}";
$"#endif //_WIN32";
$"";
$"";
$"#ifdef _AIX /* AIX */";
$"GDO_INLINE bool _gdo_libpath_from_symptr(struct ld_info *info, uint8_t *sym)";
$"{";
$"    const char *path, *member;";
$"    size_t len;";
$"";
$"    if (!sym) {";
$"        return false;";
$"    }";
$"";
$"    member = NULL;";
$"    path = _gdo_aix_parse_ldinfo(info, sym, (const char **)&member);";
$"";
$"    if (!path) {";
$"        return false;";
$"    }";
$"";
$"    /* check for an archive member name */";
$"    if (member && member[0] != 0) {";
$"        len = strlen(path) + strlen(member) + 3; /* + parentheses and NUL byte */";
$"";
$"        if (len > GDO_BUFLEN) {";
$"            return false;";
$"        }";
$"";
$"        snprintf(gdo_hndl.libpath, len, ""%s(%s)"", path, member);";
$"    } else {";
$"        /* path is not an archive */";
$"        len = strlen(path) + 1; /* + NUL byte */";
$"";
$"        if (len > GDO_BUFLEN) {";
$"            return false;";
$"        }";
$"";
$"        memcpy(gdo_hndl.libpath, path, len);";
$"    }";
$"";
$"    return true;";
$"}";
$"";
$"GDO_INLINE bool _gdo_library_path(void)";
$"{";
$"    uint8_t q[GDO_AIX_LOADQUERY_BUFLEN];";
$"";
$"    if (gdo_no_symbols_loaded()) {";
$"        _gdo_save_to_errbuf(""no symbols were loaded"");";
$"        return false;";
$"    }";
$"";
$"    if (loadquery(L_GETINFO, q, sizeof(q)) != -1) {";
$"        struct ld_info *info = (struct ld_info *)q;";
$"";
$"        if (false";
$"            || _gdo_libpath_from_symptr(info, (uint8_t *)GDO_RAWPTR_%%symbol%%)";
$"        ) {";
$"            return true;";
$"        }";
$"    }";
$"";
$"    _gdo_save_to_errbuf(""loadquery() failed to get the library path"");";
$"";
$"    return false;";
$"}";
$"#endif //_AIX";
$"";
$"";
$"#ifdef GDO_HAVE_DLINFO /* dlinfo() (Linux, FreeBSD, ...) */";
$"GDO_INLINE bool _gdo_libpath_dlinfo(void)";
$"{";
$"    /* use dlinfo() to get a link map */";
$"    struct link_map *lm = NULL;";
$"";
$"    _gdo_clear_error();";
$"";
$"    if (dlinfo(gdo_hndl.handle, RTLD_DI_LINKMAP, &lm) == -1) {";
$"        _gdo_save_error(NULL);";
$"        return false;";
$"    }";
$"";
$"    if (!lm->l_name || lm->l_name[0] == 0) {";
$"        _gdo_save_to_errbuf(""dlinfo() failed to get library path"");";
$"        return false;";
$"    }";
$"";
$"# ifdef __linux__";
$"    /* if the path is relative try to get the full library path from /proc/self/maps */";
$"    if (lm->l_name[0] != '/' && _gdo_fullpath_procmap(lm, gdo_hndl.libpath, GDO_BUFLEN)) {";
$"        return true;";
$"    }";
$"# endif";
$"";
$"    size_t len = strlen(lm->l_name) + 1;";
$"";
$"    if (len > GDO_BUFLEN) {";
$"        return false;";
$"    }";
$"";
$"    memcpy(gdo_hndl.libpath, lm->l_name, len);";
$"";
$"    return true;";
$"}";
$"#endif //GDO_HAVE_DLINFO";
$"";
$"";
$"#ifdef GDO_HAVE_DLADDR /* dladdr() (POSIX.1-2024) */";
$"GDO_INLINE bool _gdo_libpath_dladdr(void)";
$"{";
$"    /* use dladdr() to get the library path from a symbol pointer */";
$"";
$"    const char *path = NULL;";
$"    Dl_info info;";
$"";
$"    _gdo_clear_error();";
$"";
$"    if (gdo_no_symbols_loaded()) {";
$"        _gdo_save_to_errbuf(""no symbols were loaded"");";
$"        return false;";
$"    }";
$"";
$"    if (false";
$"        || _gdo_call_dladdr((void *)GDO_RAWPTR_%%symbol%%, &info)";
$"    ) {";
$"        path = info.dli_fname;";
$"    }";
$"";
$"    if (!path) {";
$"        _gdo_save_to_errbuf(""dladdr() failed to get library path"");";
$"        return false;";
$"    }";
$"";
$"    size_t len = strlen(path) + 1;";
$"";
$"    if (len > GDO_BUFLEN) {";
$"        return false;";
$"    }";
$"";
$"    memcpy(gdo_hndl.libpath, path, len);";
$"";
$"    return true;";
$"}";
$"#endif //GDO_HAVE_DLADDR";
$"";
$"/*****************************************************************************/";
$"%PARAM_SKIP_REMOVE_BEGIN%";
$"";
$"";
$"";
$"/*****************************************************************************/";
$"/*                     helper used by wrapper functions                      */";
$"/*****************************************************************************/";
$"#if defined(GDO_WRAP_FUNCTIONS) || defined(GDO_ENABLE_AUTOLOAD)";
$"";
$"#if !defined(__GNUC__) && !defined(_MSC_VER)";
$"void _gdo_noop(void) {}";
$"#endif";
$"";
$"GDO_INLINE void _gdo_print_error(const gdo_char_t *fmt, const gdo_char_t *sym, const gdo_char_t *msg)";
$"{";
$"#ifdef _WIN32";
$"";
$"# ifdef GDO_USE_MESSAGE_BOX";
$"    /* we can safely use gdo_hndl.errbuf, the last error message";
$"     * was saved in gdo_hndl.formatted */";
$"    _sntprintf_s(gdo_hndl.errbuf, GDO_BUFLEN, _TRUNCATE, fmt, sym, msg);";
$"    MessageBox(NULL, gdo_hndl.errbuf, _T(""Error""), MB_OK | MB_ICONERROR);";
$"# else";
$"    _ftprintf_s(stderr, fmt, sym, msg);";
$"    _fputtc(_T('\n'), stderr);";
$"# endif //GDO_USE_MESSAGE_BOX";
$"";
$"#else //!_WIN32";
$"";
$"    fprintf(stderr, fmt, sym, msg);";
$"    fputc('\n', stderr);";
$"";
$"#endif //!_WIN32";
$"}";
$"";
$"/* used by wrapper functions */";
$"GDO_LINKAGE void _gdo_wrap_check_loaded(void *symptr, int load, const gdo_char_t *sym)";
$"{";
$"    const gdo_char_t *msg;";
$"";
$"    /* symbol was already loaded */";
$"    if (symptr != NULL) {";
$"        return;";
$"    }";
$"";
$"#ifdef GDO_ENABLE_AUTOLOAD";
$"    /* set auto-release, ignore errors */";
$"    gdo_enable_autorelease();";
$"";
$"    /* load library */";
$"    if (!gdo_lib_is_loaded()) {";
$"        gdo_load_lib();";
$"    }";
$"";
$"# ifdef GDO_ENABLE_AUTOLOAD_LAZY";
$"    /* load a specific symbol */";
$"    if (gdo_load_symbol(load)) {";
$"        return;";
$"    }";
$"# else";
$"    GDO_UNUSED_REF(load);";
$"";
$"    /* load all symbols */";
$"    if (gdo_load_all_symbols()) {";
$"        return;";
$"    }";
$"# endif";
$"";
$"    msg = gdo_last_error();";
$"";
$"    if (_gdo_tcsstr(msg, GDO_DEFAULT_LIB)) {";
$"        /* library name is already part of error message */";
$"        _gdo_print_error(_T(""error: %s: %s""), sym, msg);";
$"    } else {";
$"        _gdo_print_error(_T(""error: "") GDO_DEFAULT_LIB _T("": %s: %s""), sym, msg);";
$"    }";
$"";
$"    gdo_force_free_lib();";
$"    exit(1);";
$"";
$"#else //!GDO_ENABLE_AUTOLOAD";
$"";
$"    /* don't load anything, print an error message and abort */";
$"";
$"    if (!gdo_lib_is_loaded()) {";
$"        msg = _T(""library not loaded"");";
$"    } else {";
$"        msg = _T(""symbol not loaded"");";
$"    }";
$"";
$"    GDO_UNUSED_REF(load);";
$"    _gdo_print_error(_T(""fatal error: %s: %s""), sym, msg);";
$"";
$"    abort();";
$"";
$"#endif //!GDO_ENABLE_AUTOLOAD";
$"}";
$"";
$"#endif // GDO_WRAP_FUNCTIONS || GDO_ENABLE_AUTOLOAD";
$"/*****************************************************************************/";
$"%PARAM_SKIP_END%";
$"";
$"";
$"#if !defined(GDO_SEPARATE) && \";
$"    !defined(GDO_DISABLE_ALIASING)";
$"";
$"/* aliases to raw function pointers */";
$"#if !defined(GDO_WRAP_IS_VISIBLE)";
$"# define %%func_symbol_pad%% GDO_FUNC_ALIAS(%%func_symbol%%)";
$"#endif";
$"";
$"/* aliases to raw object pointers */";
$"#define %%obj_symbol_pad%% *GDO_RAWPTR_%%obj_symbol%%";
$"";
$"#endif //!GDO_SEPARATE";
$"";
$"#undef GDO_SET_LAST_ERRNO";
$"#undef GDO_SNPRINTF";
$""].

(** src/templates/cxx.hpp, lines 1-514 *)
Definition lines_cxx_h : list str := [
$"#include <iostream>";
$"#include <string>";
$"#ifdef _AIX";
$"# include <inttypes.h>";
$"# include <sys/ldr.h>";
$"#endif";
$"";
$"";
$"/**";
$" * Enumeration values for `load_symbol()' method";
$" */";
$"enum {";
$"    GDO_LOAD_%%symbol%%,";
$"    GDO_ENUM_LAST";
$"};";
$"";
$"";
$"namespace gdo";
$"{";
$"";
$"/**";
$" * Symbol pointers.";
$" * Symbol names must be prefixed to avoid macro expansion.";
$" */";
$"extern %%type%% (*GDO_PTR_%%func_symbol%%)(%%args%%);";
$"extern %%obj_type%% *GDO_PTR_%%obj_symbol%%;";
$"";
$"";
$"/**";
$" * Create versioned library names.";
$" * make_libname(example,1) for example will become ""libexample.1.dylib"" on macOS.";
$" *";
$" * name:";
$" *   library name without prefix";
$" *";
$" * api:";
$" *   API number to add to filename";
$" */";
$"std::string make_libname(const std::string &name, const size_t api);";
$"#ifdef GDO_WINAPI";
$"std::wstring make_libname(const std::wstring &name, const size_t api);";
$"#endif";
$"";
$"";
$"/**";
$" * Default flags to use when loading a library.";
$" */";
$"constexpr const int default_flags = GDO_DEFAULT_FLAGS;";
$"";
$"";
$"/**";
$" * Shared library file extension without dot. Useful i.e. on plugins.";
$" */";
$"constexpr const char    * const libext   = GDO_LIBEXTA;";
$"#ifdef GDO_WINAPI";
$"constexpr const wchar_t * const libext_w = GDO_LIBEXTW;";
$"#endif";
$"";
$"";
$"/**";
$" * Silence `unused reference' compiler warnings.";
$" */";
$"template<typename T>";
$"void UNUSED_REF(T x)";
$"{";
$"    static_cast<void>(x);";
$"}";
$"";
$"";
$"/*****************************************************************************/";
$"/*                          library loader class                             */";
$"/*****************************************************************************/";
$"class dl";
$"{";
$"#if defined(GDO_WRAP_FUNCTIONS) || defined(GDO_ENABLE_AUTOLOAD)";
$"";
$"public:";
$"    using msgcb_t = void (*)(const char *);";
$"";
$"private:";
$"    static void default_message_callback(const char *msg);";
$"    static msgcb_t m_message_callback;";
$"";
$"#endif // GDO_WRAP_FUNCTIONS || GDO_ENABLE_AUTOLOAD";
$"";
$"private:";
$"";
$"    static gdo_hmod_t m_handle;";
$"";
$"#ifdef GDO_WINAPI";
$"    bool m_convert_filename_to_wcs = false;";
$"    std::string m_filename, m_libpath;";
$"    std::wstring m_wfilename, m_wlibpath;";
$"#else";
$"    std::string m_filename, m_libpath;";
$"#endif";
$"";
$"    int m_flags = default_flags;";
$"    bool m_new_namespace = false;";
$"    bool m_free_lib_in_dtor = true;";
$"";
$"    /* std::enable_if and std::is_same combined */";
$"    template<typename T, typename U>";
$"    using enable_if_same_bool = typename std::enable_if<std::is_same<T, U>::value, bool>::type;";
$"";
$"    /* template wrapper around std::to_(w)string */";
$"    template<typename T, typename U, enable_if_same_bool<T, std::string::value_type> = true>";
$"    std::string to_string(U val) {";
$"        return std::to_string(val);";
$"    }";
$"";
$"    template<typename T, typename U, enable_if_same_bool<T, std::wstring::value_type> = true>";
$"    std::wstring to_string(U val) {";
$"        return std::to_wstring(val);";
$"    }";
$"";
$"    /* return char or wchar_t string */";
$"    template<typename T, enable_if_same_bool<T, char> = true>";
$"    const char *get_string(const char *str, const wchar_t *) {";
$"        return str;";
$"    }";
$"";
$"    template<typename T, enable_if_same_bool<T, wchar_t> = true>";
$"    const wchar_t *get_string(const char *, const wchar_t *wstr) {";
$"        return wstr;";
$"    }";
$"";
$"    /* return char or wchar_t */";
$"    template<typename T, enable_if_same_bool<T, std::string::value_type> = true>";
$"    char get_char(char ch, wchar_t) {";
$"        return ch;";
$"    }";
$"";
$"    template<typename T, enable_if_same_bool<T, std::wstring::value_type> = true>";
$"    wchar_t get_char(char, wchar_t wch) {";
$"        return wch;";
$"    }";
$"";
$"#ifdef GDO_WINAPI";
$"";
$"    DWORD m_last_errno = 0;";
$"    std::string m_errmsg, m_formatted;";
$"    std::wstring m_werrmsg, m_wformatted;";
$"";
$"    bool mbs_wcs_conv(size_t *retval, wchar_t *out, size_t size, const char *in);";
$"    bool mbs_wcs_conv(size_t *retval, char *out, size_t size, const wchar_t *in);";
$"";
$"    template<typename T_in, typename T_out>";
$"    bool convert_string(const std::basic_string<T_in> &str_in, std::basic_string<T_out> &str_out);";
$"";
$"    void clear_error();";
$"";
$"    void save_error();";
$"    void save_error(const std::string &msg);";
$"    void save_error(const std::wstring &msg);";
$"";
$"    void set_error_invalid_handle();";
$"";
$"    HMODULE load_library_ex(const std::wstring &filename);";
$"    HMODULE load_library_ex(const std::string &filename);";
$"";
$"    template<typename T, typename U>";
$"    void load_lib(const T &filename);";
$"";
$"    DWORD get_module_filename(wchar_t *buf, DWORD len);";
$"    DWORD get_module_filename(char *buf, DWORD len);";
$"";
$"    template<typename T>";
$"    void get_library_path(std::basic_string<T> &path);";
$"";
$"    void format_message(DWORD msgId, DWORD langId, wchar_t *buf);";
$"    void format_message(DWORD msgId, DWORD langId, char *buf);";
$"";
$"    /* format_error_message */";
$"    template<typename T_in, typename T_out>";
$"    std::basic_string<T_out> format_error_message(const std::basic_string<T_in> &buf_Tin,";
$"                                                  const std::basic_string<T_out> &buf_Tout);";
$"";
$"#else // !GDO_WINAPI";
$"";
$"    std::string m_errmsg;";
$"";
$"    void clear_error();";
$"    void save_error(const std::string &msg = {}); /* `msg' is always ignored */";
$"    void set_error_invalid_handle();";
$"";
$"    void load_lib(const std::string &filename);";
$"";
$"#if defined(GDO_DLFCN_WIN32) || defined(_AIX)";
$"    bool get_library_path(void);";
$"#endif";
$"#ifdef _AIX";
$"    bool aix_libpath(struct ld_info *info, uint8_t *sym);";
$"#endif";
$"#ifdef GDO_HAVE_DLINFO";
$"    bool get_library_path_dlinfo(void);";
$"#endif";
$"#ifdef GDO_HAVE_DLADDR";
$"    bool get_library_path_dladdr(void);";
$"#endif";
$"";
$"#endif // !GDO_WINAPI";
$"";
$"    template<typename T>";
$"    T sym_load(const char *symbol);";
$"";
$"    template<typename T>";
$"    bool load_filename(const T &filename);";
$"";
$"";
$"public:";
$"";
$"    /**";
$"     * Empty constructor";
$"     */";
$"    dl();";
$"";
$"";
$"    /**";
$"     * Constructor. The specified filename will not be loaded yet.";
$"     *";
$"     * filename:";
$"     *   Library filename or path to load. Must not be empty.";
$"     *";
$"     * flags:";
$"     *   These are passed to the underlying library loading functions.";
$"     *";
$"     * new_namespace:";
$"     *   If true the library will be loaded into a new namespace using dlmopen().";
$"     *   This argument is only used on Linux (Glibc) and Solaris/IllumOS.";
$"     *";
$"     * convert:";
$"     *   If true the given library name will be converted to std::wstring and";
$"     *   passed to LoadLibraryExW(), otherwise it will be passed to LoadLibraryExA().";
$"     */";
$"    dl(const std::string &filename, int flags=default_flags, bool new_namespace=false);";
$"#ifdef GDO_WINAPI";
$"    dl(bool convert, const std::string &filename, int flags=default_flags);";
$"    dl(const std::wstring &filename, int flags=default_flags);";
$"#endif";
$"";
$"";
$"    /**";
$"     * Destructor. Will free library handle by default (see also `free_lib_in_dtor()').";
$"     */";
$"    ~dl();";
$"";
$"";
$"    /**";
$"     * Load a library.";
$"     *";
$"     * filename:";
$"     *   Library filename or path to load. Must not be empty.";
$"     *";
$"     * flags:";
$"     *   These are passed to the underlying library loading functions.";
$"     *";
$"     * new_namespace:";
$"     *   If true the library will be loaded into a new namespace using dlmopen().";
$"     *   This argument is only used on Linux (Glibc) and Solaris/IllumOS.";
$"     *";
$"     * convert:";
$"     *   If true the given library name will be converted to std::wstring and";
$"     *   passed to LoadLibraryExW(), otherwise it will be passed to LoadLibraryExA().";
$"     *";
$"     * On success `true' is returned.";
$"     * On an error or if the library is already loaded the return value is `false'.";
$"     */";
$"    bool load(const std::string &filename, int flags=default_flags, bool new_namespace=false);";
$"#ifdef GDO_WINAPI";
$"    bool load(bool convert, const std::string &filename, int flags=default_flags);";
$"    bool load(const std::wstring &filename, int flags=default_flags);";
$"#endif";
$"";
$"";
$"    /**";
$"     * Load the library filename or path specified in the class constructor.";
$"     *";
$"     * On success `true' is returned.";
$"     * On an error or if the library is already loaded the return value is `false'.";
$"     */";
$"    bool load();";
$"";
$"";
$"    /**";
$"     * Load the library filename or path specified in the class constructor";
$"     * and all the symbols.";
$"     *";
$"     * On success `true' is returned.";
$"     * On an error or if the library is already loaded the return value is `false'.";
$"     */";
$"    bool load_lib_and_symbols();";
$"";
$"";
$"    /**";
$"     * Returns `true' if the library was successfully loaded.";
$"     */";
$"    static bool lib_loaded();";
$"";
$"";
$"    /**";
$"     * Returns the flags used on the last attempt to load the library or zero.";
$"     */";
$"    int flags() const;";
$"";
$"";
$"    /**";
$"     * Load symbols.";
$"     *";
$"     * symbol_num:";
$"     *   Auto-generated enumeration value `GDO_LOAD_<symbol_name>'.";
$"     *   For example use `GDO_LOAD_foo' to load the symbol `foo'.";
$"     *";
$"     * symbol:";
$"     *   Name of the symbol to load.";
$"     *";
$"     * Returns `true' on success or if the symbol was already loaded.";
$"     */";
$"    bool load_all_symbols();";
$"    bool load_symbol(int symbol_num);";
$"    bool load_symbol(const char *symbol);";
$"";
$"";
$"    /**";
$"     * Check if symbols were loaded.";
$"     */";
$"    bool all_symbols_loaded() const;";
$"    bool no_symbols_loaded() const;";
$"    bool any_symbol_loaded() const;";
$"";
$"";
$"    /**";
$"     * Free/release the library. Internal handle and pointers are set back to NULL";
$"     * if the underlying calls were successful, in which case `true' is returned.";
$"     * Can safely be called even if no library was loaded.";
$"     *";
$"     * force:";
$"     *   Don't check if the underlying calls were successful.";
$"     *   Internal handle and pointers are always set back to NULL.";
$"     *";
$"     * Return value is `true' if no library was loaded or if `force' was set `true'.";
$"     */";
$"    bool free(bool force=false);";
$"";
$"";
$"    /**";
$"     * Explicitly enable or disable automatic library freeing through class destructor.";
$"     * This is enabled by default.";
$"     *";
$"     * b:";
$"     *   true == enable";
$"     *   false == disable";
$"     */";
$"    void free_lib_in_dtor(bool b);";
$"    bool free_lib_in_dtor() const;";
$"";
$"";
$"#if defined(GDO_WRAP_FUNCTIONS) || defined(GDO_ENABLE_AUTOLOAD)";
$"";
$"    /**";
$"     * Set a custom message callback function to be used if an error";
$"     * occurred in the wrapped functions.";
$"     *";
$"     * cb:";
$"     *   Callback function pointer of type `void (*)(const char *)'.";
$"     *   The function takes an error message as argument.";
$"     *   Setting cb to NULL will enable the default callback function.";
$"     */";
$"    static void message_callback(void (*cb)(const char *msg));";
$"";
$"";
$"    /**";
$"     * Return pointer to currently used message callback function.";
$"     */";
$"    static msgcb_t message_callback();";
$"";
$"#endif // GDO_WRAP_FUNCTIONS || GDO_ENABLE_AUTOLOAD";
$"";
$"";
$"    /**";
$"     * Return the library path.";
$"     * On error or if no library was loaded an empty string is returned.";
$"     *";
$"     * On some systems and configurations the path is taken from the loaded symbols";
$"     * in which case at least one symbol must have been successfully loaded before";
$"     * using this function.";
$"     */";
$"    std::string library_path();";
$"#ifdef GDO_WINAPI";
$"    std::wstring library_path_w();";
$"#endif";
$"";
$"";
$"    /**";
$"     * Return the original filename passed to load.";
$"     * This is not the same as `library_path()'.";
$"     */";
$"#ifdef GDO_WINAPI";
$"    std::string filename();";
$"    std::wstring filename_w();";
$"#else";
$"    std::string filename() const;";
$"#endif";
$"";
$"";
$"    /**";
$"     * Return a string with the last saved error message.";
$"     * The message will indicate if no error had occured.";
$"     * This function doesn't return an empty string.";
$"     */";
$"#ifdef GDO_WINAPI";
$"    std::string error();";
$"    std::wstring error_w();";
$"#else";
$"    std::string error() const;";
$"#endif";
$"";
$"};";
$"/******************************* end of class ********************************/";
$"";
$"} /* end namespace */";
$"";
$"";
$"/**";
$" * Prefixed aliases, useful if GDO_DISABLE_ALIASING was defined.";
$" */";
$"#define GDO_RAWPTR_%%func_symbol_pad%% gdo::GDO_PTR_%%func_symbol%%";
$"#define GDO_RAWPTR_%%obj_symbol_pad%% gdo::GDO_PTR_%%obj_symbol%%";
$"%PARAM_SKIP_REMOVE_BEGIN%";
$"";
$"";
$"/*****************************************************************************/";
$"/*                                wrap code                                  */";
$"/*****************************************************************************/";
$"#if defined(GDO_WRAP_FUNCTIONS) || defined(GDO_ENABLE_AUTOLOAD)";
$"";
$"/* #define empty hooks by default */";
$"#ifndef GDO_HOOK_%%func_symbol%%@";
$"#define GDO_HOOK_%%func_symbol%%(...) /**/@";
$"#endif";
$"";
$"";
$"/* diagnostic warnings on variable arguments functions */";
$"#if !defined(GDO_DISABLE_WARNINGS) && defined(GDO_WRAP_VISIBILITY)";
$"";
$"# ifdef GDO_HAS_VA_ARGS_%%func_symbol%%@";
$"GDO_WARNING(""GDO_WRAP_VISIBILITY defined but wrapper function %%func_symbol%%() can only be used inlined; define GDO_DISABLE_WARNINGS to silence this message"")@";
$"# endif@";
$"";
$"#endif //!GDO_DISABLE_WARNINGS && GDO_WRAP_VISIBILITY";
$"";
$"";
$"namespace gdo {";
$"    namespace wrap {";
$"        void not_loaded(int load, const char *sym);";
$"    }";
$"}";
$"";
$"@";
$"/* %%func_symbol%%() */@";
$"#ifdef GDO_HAS_VA_ARGS_%%func_symbol%%@";
$"    template<typename... Types>@";
$"    %%type%% GDO_WRAP(%%func_symbol%%) (Types... args) {@";
$"        if (!GDO_RAWPTR_%%func_symbol%%) {@";
$"            gdo::wrap::not_loaded(GDO_LOAD_%%func_symbol%%, ""%%func_symbol%%"");@";
$"        }@";
$"        GDO_HOOK_%%func_symbol%%(args...);@";
$"        %%return%% GDO_RAWPTR_%%func_symbol%%(args...);@";
$"    }@";
$"#else@";
$"    GDO_WRAP_DECL@";
$"    %%type%% GDO_WRAP(%%func_symbol%%) (%%args%%) {@";
$"        if (!GDO_RAWPTR_%%func_symbol%%) {@";
$"            gdo::wrap::not_loaded(GDO_LOAD_%%func_symbol%%, ""%%func_symbol%%"");@";
$"        }@";
$"        GDO_HOOK_%%func_symbol%%(%%param_names%%);@";
$"        %%return%% GDO_RAWPTR_%%func_symbol%%(%%param_names%%);@";
$"    }@";
$"#endif //!GDO_HAS_VA_ARGS_%%func_symbol%%";
$"";
$"";
$"#endif //GDO_WRAP_FUNCTIONS ...";
$"/***************************** end of wrap code ******************************/";
$"%PARAM_SKIP_END%";
$"";
$"";
$"/**";
$" * Set function name alias prefix.";
$" */";
$"#if defined(GDO_WRAP_FUNCTIONS) || defined(GDO_ENABLE_AUTOLOAD)";
$"# define GDO_FUNC_ALIAS(x) GDO_WRAP_##x";
$"#else";
$"# define GDO_FUNC_ALIAS(x) GDO_RAWPTR_##x";
$"#endif";
$"";
$"";
$"/**";
$" * Disable aliasing if we saved into separate files and the";
$" * header file was included from the body file.";
$" */";
$"#if  defined(GDO_SEPARATE) && \";
$"    !defined(GDO_INCLUDED_IN_BODY) && \";
$"    !defined(GDO_DISABLE_ALIASING)";
$"";
$"/* function name aliases */";
$"#if !defined(GDO_WRAP_VISIBILITY)";
$"# define %%func_symbol_pad%% GDO_FUNC_ALIAS(%%func_symbol%%)";
$"#endif";
$"";
$"/* object name aliases */";
$"#define %%obj_symbol_pad%% *GDO_RAWPTR_%%obj_symbol%%";
$"";
$"#endif //GDO_SEPARATE ...";
$""].

(** src/templates/cxx.cpp, lines 1-1087 *)
Definition lines_cxx_c : list str := [
$"#if defined(_MSC_VER) && defined(GDO_USE_MESSAGE_BOX)";
$"# pragma comment(lib, ""user32.lib"")  /* dependency for MessageBox() */";
$"#endif";
$"";
$"#include <cstdlib>";
$"#include <cstring>";
$"#include <algorithm>";
$"#include <iostream>";
$"#include <sstream>";
$"#include <stdexcept>";
$"";
$"";
$"#ifdef GDO_WINAPI";
$"# define GDO_SET_LAST_ERRNO(x)  do { m_last_errno = x; } while(0)";
$"#else";
$"# define GDO_SET_LAST_ERRNO(x)  /**/";
$"#endif";
$"";
$"";
$"#if defined(GDO_WRAP_FUNCTIONS) || defined(GDO_ENABLE_AUTOLOAD)";
$"";
$"/* the default message callback function to use */";
$"void gdo::dl::default_message_callback(const char *msg)";
$"{";
$"#if defined(_WIN32) && defined(GDO_USE_MESSAGE_BOX)";
$"    MessageBoxA(NULL, msg, ""Error"", MB_OK | MB_ICONERROR);";
$"#else";
$"    std::cerr << msg << std::endl;";
$"#endif";
$"}";
$"";
$"/* save callback function pointer */";
$"gdo::dl::msgcb_t gdo::dl::m_message_callback = gdo::dl::default_message_callback;";
$"";
$"#endif // GDO_WRAP_FUNCTIONS || GDO_ENABLE_AUTOLOAD";
$"";
$"";
$"/* library handle */";
$"gdo_hmod_t gdo::dl::m_handle = nullptr;";
$"";
$"";
$"/* symbol pointers; symbol names must be prefixed to avoid macro expansion */";
$"%%type%% (*GDO_RAWPTR_%%func_symbol%%)(%%args%%) = nullptr;";
$"%%obj_type%% *GDO_RAWPTR_%%obj_symbol%% = nullptr;";
$"";
$"";
$"/* Create versioned shared library names.";
$" * make_libname(""z"",1) for example will return ""libz.1.dylib"" on macOS */";
$"std::string gdo::make_libname(const std::string &name, const size_t api)";
$"{";
$"#ifdef _WIN32";
$"";
$"# ifdef __MINGW32__";
$"    return ""lib"" + name + '-' + std::to_string(api) + "".dll"";";
$"# else";
$"    return         name + '-' + std::to_string(api) + "".dll"";";
$"# endif";
$"";
$"#elif defined(__APPLE__)";
$"";
$"    return ""lib"" + name + '.' + std::to_string(api) + "".dylib"";";
$"";
$"#elif defined(_AIX)";
$"";
$"    UNUSED_REF(api);";
$"";
$"    if (sizeof(void *) == 8) {";
$"        return ""lib"" + name + "".a(shr_64.o)"";";
$"    } else {";
$"        return ""lib"" + name + "".a(shr.o)"";";
$"    }";
$"";
$"#elif defined(__ANDROID__)";
$"";
$"    UNUSED_REF(api);";
$"    return ""lib"" + name + "".so"";";
$"";
$"#else";
$"";
$"    return ""lib"" + name + "".so."" + std::to_string(api);";
$"";
$"#endif";
$"}";
$"";
$"#ifdef GDO_WINAPI";
$"std::wstring gdo::make_libname(const std::wstring &name, const size_t api)";
$"{";
$"#ifdef __MINGW32__";
$"    return L""lib"" + name + L'-' + std::to_wstring(api) + L"".dll"";";
$"#else";
$"    return          name + L'-' + std::to_wstring(api) + L"".dll"";";
$"#endif";
$"}";
$"#endif //GDO_WINAPI";
$"";
$"";
$"#ifdef GDO_WINAPI";
$"";
$"";
$"bool gdo::dl::mbs_wcs_conv(size_t *retval, wchar_t *out, size_t size, const char *in) {";
$"    return (::mbstowcs_s(retval, out, size, in, _TRUNCATE) == 0);";
$"}";
$"";
$"bool gdo::dl::mbs_wcs_conv(size_t *retval, char *out, size_t size, const wchar_t *in) {";
$"    return (::wcstombs_s(retval, out, size, in, _TRUNCATE) == 0);";
$"}";
$"";
$"";
$"/* convert between char and wchar_t */";
$"template<typename T_in, typename T_out>";
$"bool gdo::dl::convert_string(const std::basic_string<T_in> &str_in, std::basic_string<T_out> &str_out)";
$"{";
$"    size_t len = 0;";
$"    size_t n = 0;";
$"";
$"    if (str_in.empty()) {";
$"        /* empty string in, empty string out */";
$"        str_out.clear();";
$"        return true;";
$"    }";
$"";
$"    /* get length of converted string (including null terminator) */";
$"    if (mbs_wcs_conv(&len, nullptr, 0, str_in.c_str()) && len > 1) {";
$"        /* allocate buffer with zeros */";
$"        str_out.assign(len, 0);";
$"";
$"        /* get pointer to buffer */";
$"        auto buf = const_cast<T_out *>(str_out.data());";
$"";
$"        /* convert string */";
$"        if (mbs_wcs_conv(&n, buf, len, str_in.c_str()) && n == len) {";
$"            return true;";
$"        }";
$"    }";
$"";
$"    /* clear output buffer on error */";
$"    str_out.clear();";
$"";
$"    return false;";
$"}";
$"";
$"";
$"/* clear error */";
$"void gdo::dl::clear_error()";
$"{";
$"    m_last_errno = 0;";
$"    m_errmsg.clear();";
$"    m_werrmsg.clear();";
$"    m_formatted.clear();";
$"    m_wformatted.clear();";
$"}";
$"";
$"";
$"/* save last error (no extra message) */";
$"void gdo::dl::save_error()";
$"{";
$"    clear_error();";
$"    m_last_errno = ::GetLastError();";
$"}";
$"";
$"";
$"/* save last error (narrow char message) */";
$"void gdo::dl::save_error(const std::string &msg)";
$"{";
$"    clear_error();";
$"    m_last_errno = ::GetLastError();";
$"    m_errmsg = msg;";
$"}";
$"";
$"";
$"/* save last error (wide char message) */";
$"void gdo::dl::save_error(const std::wstring &msg)";
$"{";
$"    clear_error();";
$"    m_last_errno = ::GetLastError();";
$"    m_werrmsg = msg;";
$"}";
$"";
$"";
$"/* if m_handle is NULL */";
$"void gdo::dl::set_error_invalid_handle()";
$"{";
$"    clear_error();";
$"    m_last_errno = ERROR_INVALID_HANDLE;";
$"}";
$"";
$"";
$"HMODULE gdo::dl::load_library_ex(const std::wstring &filename) {";
$"    return ::LoadLibraryExW(filename.c_str(), NULL, m_flags);";
$"}";
$"";
$"";
$"HMODULE gdo::dl::load_library_ex(const std::string &filename)";
$"{";
$"    std::wstring wfilename;";
$"";
$"    if (m_convert_filename_to_wcs) {";
$"        if (convert_string<char, wchar_t>(filename, wfilename)) {";
$"            return ::LoadLibraryExW(wfilename.c_str(), NULL, m_flags);";
$"        }";
$"";
$"        m_last_errno = ERROR_INVALID_NAME;";
$"        m_errmsg = ""mbstowcs_s: failed to convert filename"";";
$"        return NULL;";
$"    }";
$"";
$"    return ::LoadLibraryExA(filename.c_str(), NULL, m_flags);";
$"}";
$"";
$"";
$"/**";
$" * load library";
$" *";
$" * According to MSDN only backward slash path separators shall be used,";
$" * so the path is transformed if needed.";
$" */";
$"template<typename T, typename U = typename T::value_type>";
$"void gdo::dl::load_lib(const T &filename)";
$"{";
$"    const auto fwd_slash = get_char<U>('/', L'/');";
$"    const auto bwd_slash = get_char<U>('\\', L'\\');";
$"";
$"    clear_error();";
$"";
$"    if (filename.find(fwd_slash) == T::npos) {";
$"        /* no forward slash found */";
$"        m_handle = load_library_ex(filename);";
$"        return;";
$"    }";
$"";
$"    auto replace = [&] (U &c) {";
$"        if (c == fwd_slash) {";
$"            c = bwd_slash;";
$"        }";
$"    };";
$"";
$"    auto copy = filename;";
$"    std::for_each(copy.begin(), copy.end(), replace);";
$"";
$"    m_handle = load_library_ex(copy);";
$"}";
$"";
$"";
$"DWORD gdo::dl::get_module_filename(wchar_t *buf, DWORD len) {";
$"    return ::GetModuleFileNameW(m_handle, buf, len);";
$"}";
$"";
$"DWORD gdo::dl::get_module_filename(char *buf, DWORD len) {";
$"    return ::GetModuleFileNameA(m_handle, buf, len);";
$"}";
$"";
$"";
$"/* get the module's full path using GetModuleFileName() */";
$"template<typename T>";
$"void gdo::dl::get_library_path(std::basic_string<T> &path)";
$"{";
$"    clear_error();";
$"";
$"    /* was the library path already saved? */";
$"    if (!path.empty()) {";
$"        return;";
$"    }";
$"";
$"    if (!lib_loaded()) {";
$"        set_error_invalid_handle();";
$"        return;";
$"    }";
$"";
$"    T buf[GDO_BUFLEN];";
$"    DWORD nSize = get_module_filename(buf, _countof(buf));";
$"";
$"    if (nSize > 0 && nSize < _countof(buf)) {";
$"        /* success */";
$"        path = buf;";
$"        return;";
$"    }";
$"";
$"    /* error */";
$"    save_error(get_string<T>(""GetModuleFileNameA()"", L""GetModuleFileNameW()""));";
$"}";
$"";
$"";
$"void gdo::dl::format_message(DWORD msgId, DWORD langId, wchar_t *buf) {";
$"    ::FormatMessageW(GDO_FORMAT_MESSAGE_FLAGS, NULL, msgId, langId, buf, 0, NULL);";
$"}";
$"";
$"void gdo::dl::format_message(DWORD msgId, DWORD langId, char *buf) {";
$"    ::FormatMessageA(GDO_FORMAT_MESSAGE_FLAGS, NULL, msgId, langId, buf, 0, NULL);";
$"}";
$"";
$"";
$"/* return a formatted error message */";
$"template<typename T_in, typename T_out>";
$"std::basic_string<T_out> gdo::dl::format_error_message(const std::basic_string<T_in> &msg_Tin,";
$"                                                       const std::basic_string<T_out> &msg_Tout)";
$"{";
$"    std::basic_string<T_out> str, tmp;";
$"    T_out *buf = nullptr;";
$"";
$"    format_message(m_last_errno,";
$"        MAKELANGID(LANG_NEUTRAL, SUBLANG_DEFAULT),";
$"        reinterpret_cast<T_out *>(&buf));";
$"";
$"    if (buf) {";
$"        str = buf;";
$"        ::LocalFree(buf);";
$"    } else {";
$"        /* FormatMessage() failed, save the error code */";
$"        str = get_string<T_out>(""error code: "", L""error code: "");";
$"        str += to_string<T_out>(m_last_errno);";
$"    }";
$"";
$"    /* put custom message in front */";
$"    if (!msg_Tout.empty()) {";
$"        str.insert(0, get_string<T_out>("": "", L"": ""));";
$"        str.insert(0, msg_Tout);";
$"    } else if (!msg_Tin.empty() && convert_string<T_in, T_out>(msg_Tin, tmp)) {";
$"        str.insert(0, get_string<T_out>("": "", L"": ""));";
$"        str.insert(0, tmp);";
$"    }";
$"";
$"    return str;";
$"}";
$"";
$"";
$"#else";
$"/*********************************** dlfcn ***********************************/";
$"";
$"";
$"/* clear error */";
$"void gdo::dl::clear_error()";
$"{";
$"    m_errmsg.clear();";
$"    ::dlerror();";
$"}";
$"";
$"";
$"/* save last error */";
$"void gdo::dl::save_error(const std::string&)";
$"{";
$"    const char *ptr = ::dlerror();";
$"    m_errmsg = ptr ? ptr : """";";
$"}";
$"";
$"";
$"/* if m_handle is NULL */";
$"void gdo::dl::set_error_invalid_handle()";
$"{";
$"    clear_error();";
$"    m_errmsg = ""no library was loaded"";";
$"}";
$"";
$"";
$"/* load library */";
$"void gdo::dl::load_lib(const std::string &filename)";
$"{";
$"    clear_error();";
$"    m_handle = _gdo_call_dlopen(filename.c_str(), m_flags, m_new_namespace);";
$"}";
$"";
$"";
$"/* get library path */";
$"";
$"#ifdef GDO_DLFCN_WIN32";
$"bool gdo::dl::get_library_path(void)";
$"{";
$"    /* dlfcn-win32:";
$"     * The handle returned by dlopen() is a `HMODULE' casted to `void *',";
$"     * so we can directly use GetModuleFileNameA() to receive the DLL path. */";
$"";
$"    char buf[GDO_BUFLEN];";
$"    auto hmod = reinterpret_cast<HMODULE>(m_handle);";
$"    DWORD nSize = ::GetModuleFileNameA(hmod, buf, sizeof(buf));";
$"";
$"    if (nSize == 0) {";
$"        m_errmsg = ""failed to get the library path"";";
$"        return false;";
$"    } else if (nSize == sizeof(buf)) {";
$"        m_errmsg = ""buffer is too small to hold the library path"";";
$"        return false;";
$"    }";
$"";
$"    m_libpath = buf;";
$"";
$"    return true;";
$"}";
$"#endif //GDO_DLFCN_WIN32";
$"";
$"";
$"#ifdef _AIX";
$"bool gdo::dl::aix_libpath(struct ld_info *info, uint8_t *sym)";
$"{";
$"    const char *path, *member;";
$"";
$"    if (!sym) {";
$"        return false;";
$"    }";
$"";
$"    member = nullptr;";
$"    path = _gdo_aix_parse_ldinfo(info, sym, reinterpret_cast<const char **>(&member));";
$"";
$"    if (!path) {";
$"        return false;";
$"    }";
$"";
$"    m_libpath = path;";
$"";
$"    /* archive member name */";
$"    if (member && member[0] != 0) {";
$"        m_libpath += '(';";
$"        m_libpath += member;";
$"        m_libpath += ')';";
$"    }";
$"";
$"    return true;";
$"}";
$"";
$"bool gdo::dl::get_library_path(void)";
$"{";
$"    uint8_t buf[GDO_AIX_LOADQUERY_BUFLEN];";
$"";
$"    if (no_symbols_loaded()) {";
$"        m_errmsg = ""no symbols were loaded"";";
$"        return false;";
$"    }";
$"";
$"    if (loadquery(L_GETINFO, buf, sizeof(buf)) != -1) {";
$"        auto info = reinterpret_cast<struct ld_info *>(buf);";
$"";
$"        if (false";
$"            || aix_libpath(info, reinterpret_cast<uint8_t *>(GDO_RAWPTR_%%symbol%%))";
$"        ) {";
$"            return true;";
$"        }";
$"    }";
$"";
$"    m_errmsg = ""failed to get the library path"";";
$"";
$"    return false;";
$"}";
$"#endif //_AIX";
$"";
$"#ifdef GDO_HAVE_DLINFO";
$"bool gdo::dl::get_library_path_dlinfo(void)";
$"{";
$"    /* use dlinfo() to get a link map */";
$"    struct link_map *lm = nullptr;";
$"";
$"    if (::dlinfo(m_handle, RTLD_DI_LINKMAP, &lm) == -1) {";
$"        save_error();";
$"        return false;";
$"    }";
$"";
$"    if (!lm->l_name || lm->l_name[0] == 0) {";
$"        m_errmsg = ""dlinfo() failed to get library path"";";
$"        return false;";
$"    }";
$"";
$"# ifdef __linux__";
$"    char buf[GDO_BUFLEN];";
$"";
$"    /* if the path is relative try to get the full library path from /proc/self/maps */";
$"    if (lm->l_name[0] != '/' && _gdo_fullpath_procmap(lm, buf, GDO_BUFLEN)) {";
$"        m_libpath = buf;";
$"        return true;";
$"    }";
$"# endif";
$"";
$"    m_libpath = lm->l_name;";
$"";
$"    return true;";
$"}";
$"#endif //GDO_HAVE_DLINFO";
$"";
$"#ifdef GDO_HAVE_DLADDR";
$"bool gdo::dl::get_library_path_dladdr(void)";
$"{";
$"    /* use dladdr() to get the library path from a symbol pointer */";
$"    Dl_info info;";
$"";
$"    if (no_symbols_loaded()) {";
$"        m_errmsg = ""no symbols were loaded"";";
$"        return false;";
$"    }";
$"";
$"    if (false";
$"        || _gdo_call_dladdr(reinterpret_cast<void *>(GDO_RAWPTR_%%symbol%%), &info)";
$"    ) {";
$"        m_libpath = info.dli_fname;";
$"        return true;";
$"    }";
$"";
$"    m_errmsg = ""dladdr() failed to get library path"";";
$"";
$"    return false;";
$"}";
$"#endif //GDO_HAVE_DLADDR";
$"";
$"#endif // !GDO_WINAPI";
$"";
$"";
$"/* load symbol address */";
$"template<typename T>";
$"T gdo::dl::sym_load(const char *symbol)";
$"{";
$"    T ptr = reinterpret_cast<T>(_gdo_call_dlsym(m_handle, symbol));";
$"";
$"    if (!ptr) {";
$"        save_error();";
$"    }";
$"";
$"    return ptr;";
$"}";
$"";
$"";
$"/* load library by filename */";
$"template<typename T>";
$"bool gdo::dl::load_filename(const T &filename)";
$"{";
$"    clear_error();";
$"";
$"    /* consider it an error if the library was already loaded */";
$"    if (lib_loaded()) {";
$"        m_errmsg = ""library already loaded"";";
$"        return false;";
$"    }";
$"";
$"    if (filename.empty()) {";
$"        GDO_SET_LAST_ERRNO(ERROR_INVALID_NAME);";
$"        m_errmsg = ""empty filename"";";
$"        return false;";
$"    }";
$"";
$"    load_lib(filename);";
$"";
$"    if (!lib_loaded()) {";
$"        save_error(filename);";
$"        return false;";
$"    }";
$"";
$"    return true;";
$"}";
$"";
$"";
$"/* c'tor (empty) */";
$"gdo::dl::dl()";
$"{";
$"}";
$"";
$"";
$"/* c'tor (set filename) */";
$"gdo::dl::dl(const std::string &filename, int flags, bool new_namespace)";
$" : m_filename(filename),";
$"   m_flags(flags),";
$"   m_new_namespace(new_namespace)";
$"{";
$"}";
$"";
$"";
$"#ifdef GDO_WINAPI";
$"";
$"/* c'tor (set narrow character filename and whether to convert name) */";
$"gdo::dl::dl(bool convert, const std::string &filename, int flags)";
$" : m_convert_filename_to_wcs(convert),";
$"   m_filename(filename),";
$"   m_flags(flags)";
$"{";
$"}";
$"";
$"";
$"/* c'tor (set wide character filename) */";
$"gdo::dl::dl(const std::wstring &filename, int flags)";
$" : m_wfilename(filename),";
$"   m_flags(flags)";
$"{";
$"}";
$"";
$"#endif //GDO_WINAPI";
$"";
$"";
$"/* d'tor */";
$"gdo::dl::~dl()";
$"{";
$"    if (m_free_lib_in_dtor) {";
$"        free(true);";
$"    }";
$"}";
$"";
$"";
$"/* load library */";
$"bool gdo::dl::load(const std::string &filename, int flags, bool new_namespace)";
$"{";
$"#ifdef GDO_WINAPI";
$"    m_wfilename.clear();";
$"#endif";
$"    m_filename      = filename;";
$"    m_flags         = flags;";
$"    m_new_namespace = new_namespace;";
$"";
$"    return load_filename(m_filename);";
$"}";
$"";
$"";
$"#ifdef GDO_WINAPI";
$"";
$"/* load library */";
$"bool gdo::dl::load(bool convert, const std::string &filename, int flags)";
$"{";
$"    m_convert_filename_to_wcs = convert;";
$"    m_wfilename.clear();";
$"";
$"    m_filename = filename;";
$"    m_flags    = flags;";
$"";
$"    return load_filename(m_filename);";
$"}";
$"";
$"";
$"/* load library (wide characters version) */";
$"bool gdo::dl::load(const std::wstring &filename, int flags)";
$"{";
$"    m_filename.clear();";
$"    m_wfilename = filename;";
$"    m_flags     = flags;";
$"";
$"    return load_filename(m_wfilename);";
$"}";
$"";
$"#endif //GDO_WINAPI";
$"";
$"";
$"/* load library */";
$"bool gdo::dl::load()";
$"{";
$"#ifdef GDO_WINAPI";
$"    if (!m_wfilename.empty()) {";
$"        return load_filename(m_wfilename);";
$"    }";
$"#endif";
$"";
$"    return load_filename(m_filename);";
$"}";
$"";
$"";
$"/* load library and symbols */";
$"bool gdo::dl::load_lib_and_symbols()";
$"{";
$"    return (load() && load_all_symbols());";
$"}";
$"";
$"";
$"/* check if library is loaded */";
$"bool gdo::dl::lib_loaded()";
$"{";
$"    return (m_handle != nullptr);";
$"}";
$"";
$"";
$"/* return the flags used to load the library */";
$"int gdo::dl::flags() const";
$"{";
$"    return m_flags;";
$"}";
$"";
$"";
$"/* load all symbols */";
$"bool gdo::dl::load_all_symbols()";
$"{";
$"    clear_error();";
$"";
$"    if (all_symbols_loaded()) {";
$"        return true;";
$"    } else if (!lib_loaded()) {";
$"        set_error_invalid_handle();";
$"        return false;";
$"    }";
$"";
$"    /* get symbol addresses */";
$"";
$"    /* %%symbol%% */@";
$"    if ((GDO_RAWPTR_%%symbol%% =@";
$"        sym_load<%%sym_type%%>@";
$"            (""%%symbol%%"")) == nullptr) {@";
$"        return false;@";
$"    }@";
$"";
$"    return true;";
$"}";
$"";
$"";
$"/* load a specific symbol */";
$"bool gdo::dl::load_symbol(int symbol_num)";
$"{";
$"    clear_error();";
$"";
$"    if (!lib_loaded()) {";
$"        set_error_invalid_handle();";
$"        return false;";
$"    }";
$"";
$"    switch (symbol_num)";
$"    {";
$"    /* %%symbol%% */@";
$"    case GDO_LOAD_%%symbol%%:@";
$"        if (!GDO_RAWPTR_%%symbol%%) {@";
$"            GDO_RAWPTR_%%symbol%% =@";
$"                sym_load<%%sym_type%%>@";
$"                    (""%%symbol%%"");@";
$"        }@";
$"        return (GDO_RAWPTR_%%symbol%% != nullptr);@";
$"";
$"    default:";
$"        break;";
$"    }";
$"";
$"    GDO_SET_LAST_ERRNO(ERROR_NOT_FOUND);";
$"    m_errmsg = ""unknown symbol number: "" + std::to_string(symbol_num);";
$"";
$"    return false;";
$"}";
$"";
$"";
$"/* load a specific symbol by name */";
$"bool gdo::dl::load_symbol(const char *symbol)";
$"{";
$"    clear_error();";
$"";
$"    if (!lib_loaded()) {";
$"        set_error_invalid_handle();";
$"        return false;";
$"    }";
$"";
$"    if (!symbol || *symbol == 0) {";
$"        GDO_SET_LAST_ERRNO(ERROR_INVALID_PARAMETER);";
$"        m_errmsg = ""empty symbol name"";";
$"        return false;";
$"    }";
$"";
$"    /* check symbol prefix */";
$"    const char pfx[] = GDO_COMMON_PREFIX;";
$"    const size_t pfxlen = sizeof(pfx) - 1;";
$"";
$"    if (pfxlen == 0 || ::strncmp(symbol, pfx, pfxlen) == 0) {";
$"        const size_t len = ::strlen(symbol);";
$"        const char *curr;";
$"        size_t curr_len;";
$"@";
$"        curr = ""%%symbol%%"";@";
$"        curr_len = sizeof(""%%symbol%%"") - 1;@";
$"        if (len == curr_len && ::strcmp(symbol + pfxlen, curr + pfxlen) == 0) {@";
$"            if (!GDO_RAWPTR_%%symbol%%) {@";
$"                GDO_RAWPTR_%%symbol%% =@";
$"                    sym_load<%%sym_type%%>@";
$"                        (""%%symbol%%"");@";
$"            }@";
$"            return (GDO_RAWPTR_%%symbol%% != nullptr);@";
$"        }";
$"    }";
$"";
$"    GDO_SET_LAST_ERRNO(ERROR_NOT_FOUND);";
$"    m_errmsg = ""unknown symbol: "" + std::string(symbol);";
$"";
$"    return false;";
$"}";
$"";
$"";
$"/* check if ALL symbols were loaded */";
$"bool gdo::dl::all_symbols_loaded() const";
$"{";
$"    if (true";
$"        && GDO_RAWPTR_%%symbol%% != nullptr";
$"    ) {";
$"        return true;";
$"    }";
$"";
$"    return false;";
$"}";
$"";
$"";
$"/* check if NO symbols were loaded */";
$"bool gdo::dl::no_symbols_loaded() const";
$"{";
$"    if (true";
$"        && GDO_RAWPTR_%%symbol%% == nullptr";
$"    ) {";
$"        return true;";
$"    }";
$"";
$"    return false;";
$"}";
$"";
$"";
$"/* check if ANY symbol was loaded */";
$"bool gdo::dl::any_symbol_loaded() const";
$"{";
$"    if (false";
$"        || GDO_RAWPTR_%%symbol%% != nullptr";
$"    ) {";
$"        return true;";
$"    }";
$"";
$"    return false;";
$"}";
$"";
$"";
$"/* free library */";
$"bool gdo::dl::free(bool force)";
$"{";
$"    bool rv = true;";
$"";
$"    clear_error();";
$"";
$"    if (lib_loaded()) {";
$"        rv = _gdo_call_dlclose(m_handle);";
$"";
$"        /* always succeed if `force == true` */";
$"        if (force) {";
$"            rv = true;";
$"        }";
$"    }";
$"";
$"    if (!rv) {";
$"#ifdef GDO_WINAPI";
$"        save_error(""FreeLibrary()"");";
$"#else";
$"        save_error();";
$"#endif";
$"        return false;";
$"    }";
$"";
$"    m_libpath.clear();";
$"#ifdef GDO_WINAPI";
$"    m_wlibpath.clear();";
$"#endif";
$"";
$"    /* set pointers back to NULL */";
$"    m_handle = nullptr;";
$"    GDO_RAWPTR_%%symbol%% = nullptr;";
$"";
$"    return true;";
$"}";
$"";
$"";
$"/* whether to free the library in the class destructor */";
$"void gdo::dl::free_lib_in_dtor(bool b)";
$"{";
$"    m_free_lib_in_dtor = b;";
$"}";
$"";
$"bool gdo::dl::free_lib_in_dtor() const";
$"{";
$"    return m_free_lib_in_dtor;";
$"}";
$"";
$"";
$"#if defined(GDO_WRAP_FUNCTIONS) || defined(GDO_ENABLE_AUTOLOAD)";
$"";
$"/* Set a message callback function. */";
$"void gdo::dl::message_callback(gdo::dl::msgcb_t cb)";
$"{";
$"    m_message_callback = cb;";
$"}";
$"";
$"";
$"/* Get a pointer to the message callback function. */";
$"gdo::dl::msgcb_t gdo::dl::message_callback()";
$"{";
$"    if (m_message_callback) {";
$"        return m_message_callback;";
$"    }";
$"";
$"    return default_message_callback;";
$"}";
$"";
$"#endif // GDO_WRAP_FUNCTIONS || GDO_ENABLE_AUTOLOAD";
$"";
$"";
$"#ifdef GDO_WINAPI";
$"";
$"/* get path of loaded library */";
$"std::string gdo::dl::library_path()";
$"{";
$"    get_library_path<char>(m_libpath);";
$"    return m_libpath;";
$"}";
$"";
$"std::wstring gdo::dl::library_path_w()";
$"{";
$"    get_library_path<wchar_t>(m_wlibpath);";
$"    return m_wlibpath;";
$"}";
$"";
$"";
$"/* retrieve the last error */";
$"std::string gdo::dl::error()";
$"{";
$"    if (m_formatted.empty()) {";
$"        m_formatted = format_error_message<wchar_t, char>(m_werrmsg, m_errmsg);";
$"    }";
$"";
$"    return m_formatted;";
$"}";
$"";
$"std::wstring gdo::dl::error_w()";
$"{";
$"    if (m_wformatted.empty()) {";
$"        m_wformatted = format_error_message<char, wchar_t>(m_errmsg, m_werrmsg);";
$"    }";
$"";
$"    return m_wformatted;";
$"}";
$"";
$"";
$"/* get the unmodified filename passed to load the library */";
$"std::string gdo::dl::filename()";
$"{";
$"    if (m_filename.empty() && !m_wfilename.empty()) {";
$"        convert_string<wchar_t, char>(m_wfilename, m_filename);";
$"    }";
$"";
$"    return m_filename;";
$"}";
$"";
$"std::wstring gdo::dl::filename_w()";
$"{";
$"    if (m_wfilename.empty() && !m_filename.empty()) {";
$"        convert_string<char, wchar_t>(m_filename, m_wfilename);";
$"    }";
$"";
$"    return m_wfilename;";
$"}";
$"";
$"";
$"#else";
$"/*********************************** dlfcn ***********************************/";
$"";
$"";
$"/* get path of loaded library */";
$"std::string gdo::dl::library_path()";
$"{";
$"    clear_error();";
$"";
$"#if !defined(_AIX) && \";
$"    !defined(GDO_DLFCN_WIN32) && \";
$"    !defined(GDO_HAVE_DLINFO) && \";
$"    !defined(GDO_HAVE_DLADDR)";
$"    m_errmsg = ""function not implemented"";";
$"    return {};";
$"#endif";
$"";
$"    if (!lib_loaded()) {";
$"        set_error_invalid_handle();";
$"        return {};";
$"    }";
$"";
$"    /* was the library path already saved? */";
$"    if (!m_libpath.empty()) {";
$"        return m_libpath;";
$"    }";
$"";
$"#if defined(GDO_DLFCN_WIN32) || defined(_AIX)";
$"    if (get_library_path()) {";
$"        return m_libpath;";
$"    }";
$"#endif";
$"";
$"#ifdef GDO_HAVE_DLINFO";
$"    /* prefer dlinfo() over dladdr() */";
$"    if (get_library_path_dlinfo()) {";
$"        return m_libpath;";
$"    }";
$"#endif";
$"";
$"#ifdef GDO_HAVE_DLADDR";
$"    if (get_library_path_dladdr()) {";
$"        return m_libpath;";
$"    }";
$"#endif";
$"";
$"    /* error */";
$"    return {};";
$"}";
$"";
$"";
$"/* retrieve the last error */";
$"std::string gdo::dl::error() const";
$"{";
$"    return m_errmsg.empty() ? ""no error"" : m_errmsg;";
$"}";
$"";
$"";
$"/* get filename passed to load */";
$"std::string gdo::dl::filename() const";
$"{";
$"    return m_filename;";
$"}";
$"";
$"#endif // !GDO_WINAPI";
$"%PARAM_SKIP_REMOVE_BEGIN%";
$"";
$"";
$"#if defined(GDO_WRAP_FUNCTIONS) || defined(GDO_ENABLE_AUTOLOAD)";
$"namespace gdo";
$"{";
$"    namespace wrap";
$"    {";
$"#ifdef GDO_ENABLE_AUTOLOAD";
$"        auto _loader = dl(GDO_DEFAULT_LIB);";
$"#endif";
$"";
$"        /* used by wrapper functions (assuming symbol was not loaded) */";
$"        void not_loaded(int load, const char *sym)";
$"        {";
$"            std::stringstream sstr;";
$"";
$"            auto msg_callback = dl::message_callback();";
$"";
$"#ifdef GDO_ENABLE_AUTOLOAD";
$"";
$"            /* load library */";
$"            if (!_loader.lib_loaded()) {";
$"                _loader.load();";
$"            }";
$"";
$"# ifdef GDO_ENABLE_AUTOLOAD_LAZY";
$"            /* load a specific symbol */";
$"            if (_loader.load_symbol(load)) {";
$"                return;";
$"            }";
$"# else";
$"            /* load all symbols */";
$"            if (_loader.load_all_symbols()) {";
$"                return;";
$"            }";
$"";
$"            UNUSED_REF(load);";
$"# endif";
$"";
$"            std::string msg = _loader.error();";
$"";
$"            if (msg.find(GDO_DEFAULT_LIBA) != std::string::npos) {";
$"                /* library name is already part of error message */";
$"                sstr << ""error: "" << sym << "": "" << msg;";
$"            } else {";
$"                sstr << ""error: "" GDO_DEFAULT_LIB "": "" << sym << "": "" << msg;";
$"            }";
$"";
$"            msg_callback(sstr.str().c_str());";
$"            std::exit(1);";
$"";
$"#else //!GDO_ENABLE_AUTOLOAD";
$"";
$"            /* don't load anything, print an error message and abort */";
$"";
$"            if (!dl::lib_loaded()) {";
$"                sstr << ""fatal error: "" << sym << "": library not loaded"";";
$"            } else {";
$"                sstr << ""fatal error: "" << sym << "": symbol not loaded"";";
$"            }";
$"";
$"            UNUSED_REF(load);";
$"            msg_callback(sstr.str().c_str());";
$"            std::abort();";
$"";
$"#endif //!GDO_ENABLE_AUTOLOAD";
$"        }";
$"    } /* namespace wrap */";
$"} /* namespace gdo */";
$"";
$"#endif // GDO_WRAP_FUNCTIONS || GDO_ENABLE_AUTOLOAD";
$"%PARAM_SKIP_END%";
$"";
$"";
$"#if !defined(GDO_SEPARATE) && \";
$"    !defined(GDO_DISABLE_ALIASING)";
$"";
$"/* aliases to raw function pointers */";
$"#if !defined(GDO_WRAP_VISIBILITY)";
$"# define %%func_symbol_pad%% GDO_FUNC_ALIAS(%%func_symbol%%)";
$"#endif";
$"";
$"/* aliases to raw object pointers */";
$"#define %%obj_symbol_pad%% *GDO_RAWPTR_%%obj_symbol%%";
$"";
$"#endif //!GDO_SEPARATE";
$"";
$"#undef GDO_SET_LAST_ERRNO"].

(** src/templates/minimal.h, lines 1-115 *)
Definition lines_min_h : list str := [
$"#if defined(_WIN32) && !defined(GDO_USE_DLOPEN)";
$"# define GDO_WINAPI";
$"# include <windows.h>";
$"#else";
$"# include <dlfcn.h>";
$"#endif";
$"";
$"#ifdef GDO_STATIC";
$"# define GDO_LINKAGE  static inline";
$"#else";
$"# define GDO_LINKAGE  /**/";
$"#endif";
$"";
$"";
$"/**";
$" * Library and symbols handle";
$" */";
$"typedef struct gdo_handle";
$"{";
$"#ifdef GDO_WINAPI";
$"    HMODULE handle;";
$"#else";
$"    void *handle;";
$"#endif";
$"";
$"    /* symbol pointers; symbol names must be prefixed to avoid macro expansion */";
$"    %%type%% (*GDO_PTR_%%func_symbol%%)(%%args%%);";
$"    %%obj_type%% *GDO_PTR_%%obj_symbol%%;";
$"";
$"} gdo_handle_t;";
$"";
$"GDO_LINKAGE gdo_handle_t gdo_hndl;";
$"";
$"";
$"/**";
$" * Free library handle without error checks.";
$" * Internal handle and pointers are always set back to NULL.";
$" */";
$"GDO_LINKAGE void gdo_free_library(void)";
$"{";
$"    if (gdo_hndl.handle) {";
$"#ifdef GDO_WINAPI";
$"        FreeLibrary(gdo_hndl.handle);";
$"#else";
$"        dlclose(gdo_hndl.handle);";
$"#endif";
$"    }";
$"";
$"    gdo_hndl.handle = NULL;";
$"    gdo_hndl.GDO_PTR_%%symbol%% = NULL;";
$"}";
$"";
$"";
$"/**";
$" * Load library and all symbols.";
$" *";
$" * filename:";
$" *   Library filename or path to load. Must not be empty or NULL.";
$" *";
$" * Returns NULL on success and an error message if loading has failed.";
$" * Do NOT free the returned pointer. Library handle is always freed on an error.";
$" */";
$"GDO_LINKAGE const char *gdo_load_library_and_symbols(const char *filename)";
$"{";
$"    if (!filename) {";
$"        return ""filename is <NULL>"";";
$"    } else if (!*filename) {";
$"        return ""filename is empty"";";
$"    }";
$"";
$"    /* load library */";
$"#ifdef GDO_WINAPI";
$"    gdo_hndl.handle = LoadLibraryA(filename);";
$"#elif defined(_AIX)";
$"    gdo_hndl.handle = dlopen(filename, RTLD_LAZY | RTLD_MEMBER);";
$"#else";
$"    gdo_hndl.handle = dlopen(filename, RTLD_LAZY);";
$"#endif";
$"";
$"    if (!gdo_hndl.handle) {";
$"        return ""failed to load library"";";
$"    }";
$"";
$"    /* load symbols */";
$"#ifdef GDO_WINAPI";
$"# define _GDO_LOAD_SYM(SYMBOL)  (void *)GetProcAddress(gdo_hndl.handle, SYMBOL)";
$"#else";
$"# define _GDO_LOAD_SYM(SYMBOL)  dlsym(gdo_hndl.handle, SYMBOL)";
$"#endif";
$"@";
$"    /* %%symbol%% */@";
$"    gdo_hndl.GDO_PTR_%%symbol%% =@";
$"        (%%sym_type%%)@";
$"            _GDO_LOAD_SYM(""%%symbol%%"");@";
$"    if (!gdo_hndl.GDO_PTR_%%symbol%%) {@";
$"        gdo_free_library();@";
$"        return ""failed to load symbol: %%symbol%%"";@";
$"    }";
$"";
$"#undef _GDO_LOAD_SYM";
$"";
$"    return NULL;";
$"}";
$"";
$"";
$"#if !defined(GDO_DISABLE_ALIASING)";
$"";
$"/**";
$" * Aliases to raw symbol pointers";
$" */";
$"#define %%func_symbol_pad%%  gdo_hndl.GDO_PTR_%%func_symbol%%";
$"#define %%obj_symbol_pad%%  *gdo_hndl.GDO_PTR_%%obj_symbol%%";
$"";
$"#endif // !GDO_DISABLE_ALIASING";
$""].

(** src/templates/minimal_cxxeh.hpp, lines 1-155 *)
Definition lines_min_cxx : list str := [
$"#include <stdexcept>";
$"#include <string>";
$"";
$"#if defined(_WIN32) && !defined(GDO_USE_DLOPEN)";
$"# define GDO_WINAPI";
$"# include <windows.h>";
$"#else";
$"# include <dlfcn.h>";
$"#endif";
$"";
$"";
$"/***";
$"";
$"A small C++ library loader that throws exceptions on error.";
$"";
$"Usage:";
$"";
$"    try {";
$"        gdo::load_library_and_symbols( LIBNAME(helloworld,0) );";
$"    }";
$"    catch (const gdo::LibraryError &e) {";
$"        std::cerr << ""error: failed to load library: "" << e.what() << std::endl;";
$"        return 1;";
$"    }";
$"    catch (const gdo::SymbolError &e) {";
$"        std::cerr << ""error: failed to load symbol: "" << e.what() << std::endl;";
$"        return 1;";
$"    }";
$"    catch (...) {";
$"        std::cerr << ""an unknown error has occurred"" << std::endl;";
$"        return 1;";
$"    }";
$"";
$"***/";
$"";
$"namespace gdo";
$"{";
$"    /* symbol pointers; symbol names must be prefixed to avoid macro expansion */";
$"    %%type%% (*GDO_PTR_%%func_symbol%%)(%%args%%) = nullptr;";
$"    %%obj_type%% *GDO_PTR_%%obj_symbol%% = nullptr;";
$"";
$"";
$"    /**";
$"     * Library handle";
$"     */";
$"#ifdef GDO_WINAPI";
$"    HMODULE handle = nullptr;";
$"#else";
$"    void *handle = nullptr;";
$"#endif";
$"";
$"";
$"    /**";
$"     * Free library handle without error checks.";
$"     * Internal handle and pointers are always set back to NULL.";
$"     */";
$"    void free_library(void)";
$"    {";
$"        if (handle) {";
$"#ifdef GDO_WINAPI";
$"            ::FreeLibrary(handle);";
$"#else";
$"            ::dlclose(handle);";
$"#endif";
$"        }";
$"";
$"        handle = nullptr;";
$"        GDO_PTR_%%symbol%% = nullptr;";
$"    }";
$"";
$"";
$"    /**";
$"     * An error has occurred trying to load a library.";
$"     */";
$"    class LibraryError : public std::runtime_error";
$"    {";
$"        public:";
$"            LibraryError(const std::string &message) : std::runtime_error(message) {}";
$"            virtual ~LibraryError() {}";
$"    };";
$"";
$"";
$"    /**";
$"     * An error has occurred trying to load a symbol.";
$"     */";
$"    class SymbolError : public std::runtime_error";
$"    {";
$"        public:";
$"            SymbolError(const std::string &message) : std::runtime_error(message) {}";
$"            virtual ~SymbolError() {}";
$"    };";
$"";
$"";
$"    /**";
$"     * Load library and all symbols.";
$"     *";
$"     * filename:";
$"     *   Library filename or path to load. Must not be empty or NULL.";
$"     *";
$"     * If an error occurs the library handle is freed and an exception is thrown.";
$"     */";
$"    void load_library_and_symbols(const char *filename) noexcept(false)";
$"    {";
$"        if (filename == NULL) {";
$"            throw LibraryError(""<NULL>"");";
$"        } else if (*filename == 0) {";
$"            throw LibraryError(""<EMPTY>"");";
$"        }";
$"";
$"        /* load library */";
$"#ifdef GDO_WINAPI";
$"        handle = ::LoadLibraryA(filename);";
$"#elif defined(_AIX)";
$"        handle = ::dlopen(filename, RTLD_LAZY | RTLD_MEMBER);";
$"#else";
$"        handle = ::dlopen(filename, RTLD_LAZY);";
$"#endif";
$"";
$"        if (!handle) {";
$"            throw LibraryError(filename);";
$"        }";
$"";
$"        /* load symbols */";
$"        auto load_symbol = [] (const char *symbol) -> void*";
$"        {";
$"#ifdef GDO_WINAPI";
$"            return reinterpret_cast<void *>(::GetProcAddress(handle, symbol));";
$"#else";
$"            return ::dlsym(handle, symbol);";
$"#endif";
$"        };";
$"@";
$"        /* %%symbol%% */@";
$"        GDO_PTR_%%symbol%% =@";
$"            reinterpret_cast<%%sym_type%%>(@";
$"                load_symbol(""%%symbol%%""));@";
$"        if (!GDO_PTR_%%symbol%%) {@";
$"            free_library();@";
$"            throw SymbolError(""%%symbol%%"");@";
$"        }";
$"    }";
$"";
$"}; /* end namespace */";
$"";
$"";
$"#if !defined(GDO_DISABLE_ALIASING)";
$"";
$"/**";
$" * Aliases to raw symbol pointers";
$" */";
$"#define %%func_symbol_pad%%  gdo::GDO_PTR_%%func_symbol%%";
$"#define %%obj_symbol_pad%%  *gdo::GDO_PTR_%%obj_symbol%%";
$"";
$"#endif // !GDO_DISABLE_ALIASING";
$""].

(** src/templates/plugin.h, lines 1-75 *)
Definition lines_plugin_h : list str := [
$"/* declaration */";
$"#ifdef GDO_STATIC";
$"# define GDO_DECL  static inline";
$"#else";
$"# define GDO_DECL  extern";
$"#endif";
$"";
$"";
$"/**";
$" * If compiling for win32 and `_UNICODE` is defined and `GDO_USE_DLOPEN` is NOT";
$" * defined `gdo_char_t` will become `wchar_t`.";
$" */";
$"#ifdef _GDO_TARGET_WIDECHAR";
$"typedef wchar_t gdo_char_t;";
$"#else";
$"typedef char    gdo_char_t;";
$"#endif";
$"";
$"";
$"/**";
$" * Library and symbols handle";
$" */";
$"typedef struct _gdo_handle";
$"{";
$"    gdo_char_t *filename;  /* copy of module filename */";
$"    gdo_hmod_t  handle;    /* library handle */";
$"";
$"    /* symbol pointers */";
$"    struct _gdo_ptr {";
$"        %%type%% (*%%func_symbol%%)(%%args%%);";
$"        %%obj_type%% *%%obj_symbol%%;";
$"    } ptr;";
$"";
$"} gdo_handle_t;";
$"";
$"";
$"/**";
$" * Plugin handle";
$" */";
$"typedef struct _gdo_plugin";
$"{";
$"    size_t        num;   /* number of elements in `list' */";
$"    gdo_handle_t *list;  /* list of library handles */";
$"";
$"} gdo_plugin_t;";
$"";
$"";
$"/**";
$" * Load from a list of plugin names.";
$" *";
$" * files:";
$" *   array of `gdo_char_t *' filenames to load";
$" *";
$" * num:";
$" *   number of entries in `files'";
$" *";
$" * Returns a pointer to a `gdo_plugin_t' array of `num' entries.";
$" * Always release the result with `gdo_release_plugins()'.";
$" *";
$" * To ensure loading was successful you must check the library handle and function";
$" * pointers of each entry of the returned `gdo_plugin.list' array.";
$" * If `files' is NULL or `num' is 0 a NULL pointer is returned.";
$" */";
$"GDO_DECL gdo_plugin_t *gdo_load_plugins(const gdo_char_t **files, size_t num)";
$"    GDO_GCC_ATTRIBUTE (warn_unused_result);";
$"";
$"";
$"/**";
$" * Release plugins and free resources.";
$" *";
$" * plug:";
$" *   Pointer returned by `gdo_load_plugins()'.";
$" */";
$"GDO_DECL void gdo_release_plugins(gdo_plugin_t *plug);";
$""].

(** src/templates/plugin.c, lines 1-81 *)
Definition lines_plugin_c : list str := [
$"/*****************************************************************************/";
$"/*                            C plugin loader API                            */";
$"/*****************************************************************************/";
$"";
$"#include <string.h>";
$"";
$"#ifdef GDO_WINAPI";
$"# include <tchar.h>";
$"#endif";
$"";
$"/* linkage */";
$"#ifdef GDO_STATIC";
$"# define GDO_LINKAGE  static inline";
$"#else";
$"# define GDO_LINKAGE  /**/";
$"#endif";
$"";
$"#ifdef GDO_WINAPI";
$"# define GDO_LOAD_LIB(x)  LoadLibraryEx(x, NULL, GDO_DEFAULT_FLAGS)";
$"# define GDO_STRDUP       _tcsdup";
$"#else";
$"# define GDO_LOAD_LIB(x)  dlopen(x, GDO_DEFAULT_FLAGS)";
$"# define GDO_STRDUP       strdup";
$"#endif";
$"";
$"";
$"/* load list of plugins */";
$"GDO_LINKAGE gdo_plugin_t *gdo_load_plugins(const gdo_char_t **files, size_t num)";
$"{";
$"    if (!files || num == 0) {";
$"        return NULL;";
$"    }";
$"";
$"    /* allocate struct */";
$"    gdo_plugin_t *plug = (gdo_plugin_t *)malloc(sizeof(gdo_plugin_t));";
$"    plug->num = num;";
$"    plug->list = (gdo_handle_t *)calloc(num, sizeof(gdo_handle_t));";
$"";
$"    for (size_t i = 0; i < num; i++) {";
$"        if (!files[i] || *files[i] == 0) {";
$"            /* empty filename */";
$"            continue;";
$"        }";
$"";
$"        /* copy filename first */";
$"        plug->list[i].filename = GDO_STRDUP(files[i]);";
$"";
$"        /* load plugin */";
$"        if ((plug->list[i].handle = GDO_LOAD_LIB(files[i])) == NULL) {";
$"            continue;";
$"        }";
$"@";
$"        /* load %%symbol%% */@";
$"        plug->list[i].ptr.%%symbol%% =@";
$"            (%%sym_type%%)@";
$"                _gdo_call_dlsym(plug->list[i].handle, ""%%symbol%%"");";
$"    }";
$"";
$"    return plug;";
$"}";
$"";
$"";
$"/* release plugins */";
$"GDO_LINKAGE void gdo_release_plugins(gdo_plugin_t *plug)";
$"{";
$"    if (!plug) {";
$"        return;";
$"    }";
$"";
$"    for (size_t i = 0; i < plug->num; i++) {";
$"        free(plug->list[i].filename);";
$"";
$"        if (plug->list[i].handle) {";
$"            _gdo_call_dlclose(plug->list[i].handle);";
$"        }";
$"    }";
$"";
$"    free(plug->list);";
$"    free(plug);";
$"}";
$""].

(** the files of list.h *)
Definition shipped_text (t : tname) : str :=
  file_of match t with
          | TLicense => lines_license
          | TFilenameMacros => lines_filename_macros
          | TCommonH => lines_common_h
          | TCommonC => lines_common_c
          | TCH => lines_c_h
          | TCC => lines_c_c
          | TCxxH => lines_cxx_h
          | TCxxC => lines_cxx_c
          | TMinH => lines_min_h
          | TMinCxx => lines_min_cxx
          | TPluginH => lines_plugin_h
          | TPluginC => lines_plugin_c
          end.
(** the arrays of templates_data.cpp: the entries dump writes (gen_templates_data.c:40-169), as compiled, and the end mark (163) *)
Definition shipped (t : tname) : list entry :=
  match dump (tfile t) (shipped_text t) with
  | Ok xs => match compiled_all xs with Some l => l ++ [mkentry [] false 0] | None => [] end
  | _ => []
  end.

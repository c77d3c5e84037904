# Formal model of gendlopen — design

Source: `/repo` (darealshinji/gendlopen, pinned commit, read as text only; nothing is built or run).
Prover: Coq 8.16.1, standard library only. Logical root `Verif`, files in `rocq/theories/`.

gendlopen is two programs in one:

1. the **generator** (`src/*.cpp`, `src/lex.l`): reads C prototypes (or a Clang AST), filters them and
   expands templates with them;
2. the **generated loader** (`src/templates/*`): a C / C++ runtime around `dlopen`/`dlsym`/`dlclose`.

Both are modelled. The generator is a pure function from (command line, files) to (output, error); the
runtime is a state machine driven by user calls, with the dynamic loader as an arbitrary oracle.

## Modelling conventions

* `str := list ascii` for `std::string`/`char*` payloads; `ascii` is the 8-bit byte. `char*` strings that
  pass through C APIs end at the first NUL; where that matters the model says so.
* `<ctype.h>` functions are the "C" locale tables (the program never calls `setlocale`); bytes >= 128 are
  in no class. (Passing a negative `char` to `isalnum` is formally undefined; glibc defines it as
  false. The model uses the glibc behaviour and this is listed in the trusted base.)
* `int`/`size_t` counters are `nat`/`Z`/`N` without wrap-around: all counters count bytes or tokens of the
  in-memory input, and cannot reach 2^31 without exhausting memory. Listed in the trusted base.
* Iterators are indices into the token vector. A dereference outside the vector is the separate outcome
  `UB` of the model's result type, never a default value.
* Exceptions (`gendlopen::error`) are the outcome `Err msg`.
* Loops are structural recursion, or recursion on fuel with a separate out-of-fuel outcome that theorems
  exclude explicitly (that is how non-termination of `utils::replace` is exhibited).
* External calls (`dlopen`, `dlsym`, `dlclose`, `dlerror`, `atexit`, file system) are arguments/oracles:
  theorems quantify over all their behaviours. What is assumed of them is only what their return type
  says (e.g. `dlopen` returns null or a handle).
* Every definition cites file and lines. Model files (`*Model.v` or the first part of the layer) hold no
  proofs. Specification vocabulary used by theorem statements is in `Spec*.v`, independent of the model.
* `Properties*.v` files contain only `Theorem C.. / exact lemma / Qed / Print Assumptions` and, beside each, an
  `Example` showing a concrete non-trivial case of the hypotheses.

## What is not modelled

AIX code paths (`_AIX`), the Windows branches of the C++, minimal and plugin templates (those of the C template, with its
message box, are modelled: C80–C83), the date text printed by `note`,
thread interleavings (the templates have no locking and document none), the compiler's reading of the
generated text, except for the C library's functions (we model the runtime templates by hand as state machines, expanding the
`%%...%%` loops for an arbitrary symbol list; for common.c and c.c, C92 proves that the state machine is what the text
means, by a definition of the C used there; for c.h and common.h, C93–C100 prove what the preprocessed header declares, which
macros it leaves, and that the single file's functions, with these macros replaced and read by C's grammar, are those of C92;
the macros and declarations of the system headers, types beyond words with matching brackets, and the C++, minimal and plugin
templates' text are not read), file systems beyond a map from path spellings to files, directories and single links (no aliases of one path, no
other processes, no full disk), the C++ stream buffering, `help.cpp` text, allocation failure (except in plugin.c).

## Plan per property

| id | modelled | proof idea |
|----|----------|-----------|
| C01 | `lex.l` rules as regular expressions, start conditions, longest match / first rule, fuelled by input length | each step's match is non-empty because the catch-all rules match any byte in every start condition; induction on input length |
| C02, C03 | same | characterise the longest match in each comment state by case analysis on the next bytes; induction on the comment body |
| C04 | scanner + `tokenize_stream` | words over the token alphabet: induction over the word list; error propagation through `tokenize` |
| C05 | `tokenize_stream` over an arbitrary token stream | refinement to a declarative statement splitter |
| C06 | depth numbering, erase loops | measure = length; deletion relation on lists; balance counting |
| C07 | `check_pattern` with explicit index checks | lengths arithmetic; UB outcome unreachable under the callers' guards |
| C08, C09, C10 | `check_*`, `check_prototype` | inversion of each pattern; C10 is expected to be refuted by a witness (`check_function` is tried first) |
| C11 | `copy_parameters` | refinement to a top-level comma split, join inverse |
| C12–C14 | `multiple_definitions`, filter passes with the `saved` flag and `std::erase` | list induction, permutation/membership specs |
| C15, C16 | `parameter_names.cpp` | induction over the parameter list with explicit accumulators |
| C17, C18, C20 | `utils::replace` with fuel, `format_prototype` | decreasing number of occurrences / length; subsequence relation |
| C19 | `create_typedefs` | list induction |
| C21–C24, C26 | `substitute.cpp` producing the output text | induction over entries and symbol lists; C24 is expected to be false when a list is empty |
| C25 | `get_lines`, `save_to_file` | induction over bytes; expected to need "no entry ends in `@`" |
| C27 | `get_common_prefix`; C `strncmp` lookup | order-theoretic characterisation |
| C28, C29 | three regex passes written as a left-to-right matcher | list induction |
| C30, C31 | `format_libname`, `quote_lib`, `add_inc`, `add_def` | case analysis on all strings; expected finding for names starting with a/e/n |
| C32, C33 | `opt_parser.h`, `parse_cmdline` | induction over argv |
| C34 | abstract file system map, `open_ofstream`, `generate`'s sequence of opens | frame property over the map |
| C35–C42 | C template as `step` over calls, oracle for the loader | inductive invariant over operation lists |
| C43, C44 | `MinRuntime.v`: minimal.h, minimal_cxxeh.hpp, plugin.c (with allocation failure) over the same world | same; C43 is false for a second load |
| C45, C68–C73 | `CxxRuntime.v`: cxx.hpp and cxx.cpp (dlfcn build): any number of objects, each with its own name, flags, message and path, sharing one handle and pointer table; operations construct, copy, assign, destroy, call any member function, call a wrapper, end the program | invariant over all histories (`CxxFacts.v`), per-method facts (`CxxProps.v`), composition (`CxxRun*.v`); findings in `CxxCounter.v` |
| C46 | `ClangAst.v`: colour stripping, the three `std::regex` patterns as first-match functions, `get_parameters`, `get_declarations`, `parse_clang_ast`; `Frontend.v`: the whole of `gendlopen::tokenize` and `main` | a dump is specified line by line (`SpecClangAst.v`: colours, CR, byte order mark, other nodes in between); the scanner's tokens for every such text, then list induction; findings for overlapping -P and -S and for functions declared through a typedef |
| C47 | `SpecEndToEnd.v`: headers with simple declarations, the loading code of each format written out; the whole program | composition of the layer theorems (scanner, statements, parser, tables, substitution, files) in `EndToEnd.v` (text input, with filters and -line) and `AstRun.v` (Clang AST dumps); the lines of the templates that look up a symbol are found and expanded with a symbolic prefix and symbol (`LoadCode.v`) |
| C48 | names passed on by wrappers | grammar of the parameter names; expected finding for variadic functions |
| C49 | line continuation in the scanner | longest-match lemma of the continuation rules; expected finding for blank lines |
| C50–C55 | C template (`CRuntime.v`): printed messages, path cache, loading by number, pointer stability, what is opened | corollaries of the C35 invariant; C50, C51, C54 are expected to be false |
| C56–C58 | `Data.v`: `get_lines`, `load_from_file`, `save_to_file`, and the build-time `gen_templates_data.c` with a small C string literal decoder as specification | induction over lines; C25, C57, C58 turn out to be false in general |
| C59–C61 | `Options.v`: `opt_parser.h`, `parse_cmdline`, `parse_options`, the setters; items and their spelling as specification | the spelling is a prefix code, so the scan is its only inverse; C59 turns out to be false for `--name` |
| C74 | same as C59–C61 | the last value of each option wins, lists and defines accumulate: induction over items |
| C62–C64 | `Generate.v`: a state monad over files, standard output, template vectors and pointers; `generate`, `save_data`, `create_template_lists`, custom templates, `-dump-templates`; endings: value, error, uncaught exception, undefined behaviour | Hoare-style lemmas per step (`writes`, `does`), invariants over the whole run; C62, C64 and the second line directive of C63 turn out to be false |
| C65–C67 | same; C types as a syntax tree with clang's printing (`SpecClangType.v`) | the text before a declared name contains no closing parenthesis, so the first `(*)` is the declarator's; findings for variadic functions, returned function pointers, pointers to function pointers, redeclarations |
| C75, C77 | `Templates.v`: the twelve template files as data, copied verbatim by a script, and the arrays the build makes from them (`Data.v`) | every line is checked by computation to be cut into words and placeholders in a way for which C20–C26 hold for all prefixes and symbols (`ShippedFacts.v`); then composition with C63 |
| C78 | `Procmap.v`: `_gdo_fullpath_procmap` with the directives of its `sscanf()`; `SpecProcmap.v`: how the kernel prints mappings | reading back printed hexadecimal and decimal fields; expected finding: hexadecimal fields read as decimal |
| C79 | `LexTables.v` (the tables of lex.yy.c, generated from that file), `Scanner.v`: yylex with its match loop, backing up, buffer refills of arbitrary size, NUL bytes, action switch | a bisimulation between table states and derivatives of the rules, found and checked by computation for all 256 bytes (`ScannerDfa.v`); then induction over the input for every way of reading it (`ScannerFacts.v`, `ScannerProps.v`) |
| C80–C83 | `WinRuntime.v`: the WINAPI branches of the C template (handle, pointers, message, code and formatted text, message box), and the message box of the dlfcn-win32 variant | a simulation with `CRuntime.v` in a world that answers alike (`WinSim.v`) carries C35, C36, C38, C39, C41, C52, C53 over (`WinProps.v`); an invariant relates the three parts of the error state (`WinMsg.v`); expected findings: `FreeLibrary() == TRUE`, messages about success, lost reasons, overlapping buffers |
| C84 | the `#define` lines collected by `generate()` (`all_defines` in `Generate.v`) | list induction over the functions; the common prefix from C27 |
| C85 | a reader for the lexical structure of C text (`SpecCText.v`: comments, literals, line joining, conditionals, brackets), applied to the text model of all files | frame lemma (a closed text leaves any surrounding state alone), abstract interpretation of the shipped templates over sets of reader states (computed once, sound for all names, types and prefixes), induction over symbol lists; bracket skeletons for the recorded declarations |
| C86 | print_symbols_to_stdout on top of the text model of the front end; the printed text as a list of header pieces (`SpecSymbols.v`) | the formatter's output is the tokens with some blanks left out, and lexes to the same tokens; sections of lines are pieces of a header; then the header theorem of C47 is applied to the printed text |
| C87 | dump_templates in the state monad with the shipped templates (`SpecProgram.v`) | induction over the list of templates; all shipped entries checked once to be in the class of C25 |
| C88 | main and tokenize in the state monad | case analysis over the phases of the program; the scanner theorem C04 and the statement loop for the message |
| C89 | tokenize_stream and read_input on any text (`SpecStatements`: an input is statements plus an ending) | induction over the tokens with the pending statement as invariant, then the parser specification; refuted for prototypes beginning with struct/union/enum, open comments and open braces: the result equals that of the text without them |
| C90 | The scanner's PRE, PRE_COMMENT, COMMENT and C_COMMENT conditions (lex.l:95-107) | A directive is a list of segments (SpecDirective.v); by induction over the segments the scanner stays in PRE without tokens and is back in INITIAL at the start of a line behind it. Refuted for comments over several lines (general theorem) and for directives behind a comment. |
| C91 | The scanner's OPTION condition (lex.l:73-77), tokenize_stream, parse_options, Frontend.read_input | An option line is a list of words, blanks and continued lines; induction over it gives its tokens; the tokens of a header behind it are the same up to line numbers, which accepted statements do not show. Refuted: bare %option, backslash directly behind a word. |
| C92 | The text of common.c and c.c as filled in by the substitution, a C lexer and preprocessor (SpecCLang), syntax trees with macro replacement (SpecCProg), an interpreter for them with C's undefined behaviour as an outcome (SpecCRun); CRuntime's state machine | The templates are parsed once into trees with holes (CBody, checked by computation); printing commutes with filling in, so the filled text preprocesses to the printed tree for every symbol list; each function is executed symbolically, loops by induction over the symbols; a sequence of calls by induction with CRuntime's invariant |
| C93 | The text of common.h and c.h as filled in by the substitution, preprocessed by SpecCLang; object and function macros by SpecCMacro | The header is read once symbolically (HTemplate, HHeader): the list of its guarded elements is computed for each -param mode and shown to give, for every list of declarations and every set of macros, the preprocessed text (HTemplatePP, HText, HHeader2); the handle is found in that list (HWrapper) and each macro by its last definition (HMacro, HAlias) |
| C94 | As C93; macro replacement with hidden names, arguments, `#` and `##` (SpecCMacro) | Step lemmas for macro replacement (HMacro) applied to the wrapper as it stands in the header (HWrapper, HSingle) |
| C95 | As C93, and the body behind it (C92) | Last definitions of the names and of GDO_FUNC_ALIAS in the header and in the body, then macro replacement (HAlias, HSingle); the two exceptions are proved as `_refuted` |
| C96 | C93 and C92 together, common.c between the two headers in a single file | The four texts are read one after the other and nothing in c.h changes what common.c tests (HOrder); the macros that the header sets are derived from those set from outside (HSingle.target_build, target_offers), then C92 |
| C97 | SpecCRead.v: a reader for C (tokens to expressions, statements, functions; operator levels, casts by type names); SpecCSyntax.v: the names of types where a function stands | every well-formed tree is read back from its tokens (CRead.v, CReadS.v), the generated functions are such trees (CReadCode.v, generated); refuted for a type that a parameter hides |
| C98 | SpecCUse.v: expressions with the library's variables, and what they are meant to be; SpecCMacro.v: macro replacement of tokens | replacement goes token by token (HObject.v) and the result is read by C97's reader; refuted for n[i], n.x, n->x |
| C99 | SpecCWhole.v: which macros are left; SpecCMacro.v: macro replacement; SpecCRead.v: the reader; SpecHeader.v: the single file | a checked condition on functions (CExpand.v) under which replacement of the printed text is the printed text of the replaced tree; the condition holds of all functions of the body, and of those of common.c with common.h's macros alone (CExpandMain.v); joined with C96 and C97 |
| C100 | SpecFile.v: the macros set where the templates begin, what a file holds; Generate.v: the run; SpecCLang.v: the preprocessor | composition of preprocessed texts that end with a whole line, text inside a used group (the include guard), reading of the file name macros for all macro settings (HFile.v); then C77, C96 and C99 with the macros of the text in front (HFileMain.v) |
| C101 | the header and the body written with -separate, the header put in the place of the include line (HFilePair.v) | the frame of the header is read around any text (frame_read), then the library of C99 behind it |
| C102 | filename_macros.h as read by the preprocessor under every macro setting (SpecFileName.v) | each branch gives one definition per macro (exact_def), then the replacement steps of C93; refuted for a library called like one of its aliased functions |
| C103 | the lines of -library, common.h:256-300 and filename_macros.h in the single file, or the header and the body, as a C compiler reads them (SpecDefault.v) | the lines are lexed (HDefault.v), the header leaves these macros alone and adds GDO_DEFAULT_LIB (HDefaults.v), the name may be one of the library's symbols, whose own aliases are followed too (symbol_goes), then replacement steps down to the texts of C102 |
| C104 | lex.l, tokenize_stream, the removal of parentheses, the declaration patterns (Lex.v, Tokenize.v, Parse.v); whole words of a text in SpecNames.v | no match ends inside a word in the initial state (longest match against the identifier rule), so each word token stands alone in the text; the words are followed through statements, patterns and tables (SymbolNames.v); counterexample for digits |
| C105 | the wrappers of C94; what a result is, by C's own rule, in SpecReturn.v | corollary of the proof of C94 for types that are not void in other letters (HReturn.v); counterexample read from a header |
| C76 | nothing new | character classes are kept by every step from tokens to tables (`TablesClean.v`), also for Clang AST dumps with ordinary types (`AstRun.v`); false for the type text of an unnamed structure |

## Trusted base

* Coq's kernel (and `coqchk`), no axioms (each property theorem has `Print Assumptions` below it;
  the expected answer is "Closed under the global context").
* The reading of the C/C++ sources into Gallina (cited line by line), of flex's matching rules
  (longest match, earliest rule), of `std::regex` ECMAScript semantics for the fixed patterns used,
  and of C/C++ library functions (`std::string::find/replace/erase`, `strncmp`, `snprintf`, ...).
* `Templates.v` is a verbatim copy of `src/templates/*` (string literals, one per line).
* The text format of /proc/PID/maps as in `SpecProcmap.v` and `sscanf()` as in `Procmap.v` (C78).
* The file system calls (`std::filesystem::remove/exists`, opening a stream) as described in `Generate.v`.
* The conventions above (counters do not wrap, "C" locale, no allocation failure except in plugin.c).

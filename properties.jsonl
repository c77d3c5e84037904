{"id": "C01", "title": "Scanning is total and loses no byte", "statement": "For every byte string given as input file, scanning finishes: each scanner step consumes at least one byte, the consumed pieces concatenated in order are exactly a prefix of the input (the whole input if scanning ended by end of file), and the flex default rule (which would echo unmatched input to stdout) never fires in any start condition.", "quantifier": "all byte strings, all start conditions the scanner can be in", "why_tests_cant": "An infinite loop, a dropped byte or an unexpected echo would need a specific byte sequence in a specific start condition; the space of byte strings is unbounded.", "anchors": ["src/lex.l", "src/lex.yy.c"]}
{"id": "C02", "title": "Comments are invisible", "statement": "A C comment `/* body */` or a line comment `// body` up to its newline, standing where a token could start, yields no token, no option and no error, whatever its body contains (for the C comment: no `*/`, no `*` followed by a backslash line split; for the line comment: no newline and no backslash), and scanning then goes on with the text after it exactly as if it began there.", "quantifier": "all comment bodies, all following texts", "why_tests_cant": "Comment bodies are arbitrary text containing keywords, braces, quotes, other comment openers; tests try a handful.", "anchors": ["src/lex.l"]}
{"id": "C03", "title": "Preprocessor lines are invisible", "statement": "A line starting (after optional white space) with `#`, without a backslash or comment opener in it, yields no token, and scanning resumes on the next line.", "quantifier": "all such lines, all following texts", "why_tests_cant": "Arbitrary line contents.", "anchors": ["src/lex.l"]}
{"id": "C04", "title": "Illegal characters are always reported", "statement": "If the scanner, in normal mode, reaches a byte that cannot start any token, white space, comment, directive or option, the whole run fails with an error and no symbol list is produced; conversely an input made only of identifiers, the punctuation `* , ( ) [ ] ...`, semicolons and white space never gives a scan error and its token stream is exactly its sequence of words.", "quantifier": "all byte strings", "why_tests_cant": "Every byte value in every context.", "anchors": ["src/lex.l", "src/tokenize.cpp: tokenize_stream, gendlopen::tokenize"]}
{"id": "C05", "title": "Type definitions are skipped, prototypes are not", "statement": "A `struct`/`union`/`enum`/`typedef` statement, with arbitrarily nested braces and any tokens inside, contributes no prototype; every other `;`-terminated non-empty statement contributes exactly its own tokens, in order, and a last statement without `;` is kept too.", "quantifier": "all token streams", "why_tests_cant": "Nesting depth and block contents are unbounded.", "anchors": ["src/tokenize.cpp: tokenize_stream"]}
{"id": "C06", "title": "Removing superfluous parentheses changes nothing else", "statement": "Reducing doubled parentheses in a prototype terminates, only ever deletes parenthesis tokens, deletes as many `(` as `)`, keeps every other token in order, keeps a balanced sequence balanced, and never removes the last pair around anything (`((x))` becomes `(x)`, never `x`).", "quantifier": "all token lists, all nesting depths", "why_tests_cant": "Nested combinations of parentheses are unbounded.", "anchors": ["src/tokenize.cpp: remove_superfluous_parentheses, remove_matching_parentheses, erase_Rparen"]}
{"id": "C07", "title": "Prototype matching never reads outside the token vector", "statement": "For every token vector and every prototype pattern used (function, parenthesised function, pointer-returning function, function pointer, object, array), matching performs no iterator dereference outside the vector: no undefined behaviour can occur.", "quantifier": "all token vectors including empty ones, all patterns", "why_tests_cant": "Out-of-bounds reads depend on the exact length and position of parentheses; sanitizer runs only see the vectors tried.", "anchors": ["src/check_pattern.cpp: check_pattern", "src/parse.cpp: check_prototype", "src/parameter_names.cpp"]}
{"id": "C08", "title": "An accepted prototype is split without losing or inventing tokens", "statement": "Whenever a statement is accepted as function, function pointer, object or array, the reported type, symbol and parameter list put back together with the punctuation of the recognised form give exactly the statement's tokens.", "quantifier": "all token lists accepted by the parser", "why_tests_cant": "Silent loss or shift of a token by one only shows on particular shapes.", "anchors": ["src/parse.cpp: check_function, check_function_pointer, check_function_paren, check_function_paren_pointer, check_object, check_array, copy_parameters"]}
{"id": "C09", "title": "Well-formed prototypes are accepted with the right symbol", "statement": "`type name(params);` with a type made of identifiers and `*` and parenthesised-balanced parameters is accepted as a function called `name` returning `type`; `type name;` is accepted as an object, `type name[..];` as an array; and the other forms are accepted when the type before the parenthesis ends in `*` or is a single identifier.", "quantifier": "all identifiers, all types, all parameter lists", "why_tests_cant": "Infinite family of prototypes.", "anchors": ["src/parse.cpp", "src/check_pattern.cpp"]}
{"id": "C10", "title": "Multi-word types in front of a parenthesised declarator keep their symbol", "statement": "`unsigned int (*fp)(int);` and `unsigned int (foo)(void);` declare `fp` and `foo`; the generator should use these names for every multi-word type.", "quantifier": "all types, all names", "why_tests_cant": "Only certain combinations of type length and declarator form are affected.", "anchors": ["src/parse.cpp: check_prototype", "src/check_pattern.cpp: is_function"]}
{"id": "C11", "title": "Parameter lists split exactly at top-level commas", "statement": "Splitting a parameter token list yields the groups between commas that are outside any parentheses; joining the groups with commas gives back the list; no group contains a top-level comma.", "quantifier": "all token lists", "why_tests_cant": "Nested function pointer parameters of any depth.", "anchors": ["src/parse.cpp: copy_parameters"]}
{"id": "C12", "title": "No two symbols share a name", "statement": "If processing text input succeeds, the functions and objects it reports have pairwise different names; if two prototypes declare the same name the run fails and the error names it.", "quantifier": "all lists of prototypes", "why_tests_cant": "Needs all pairs in any order in lists of any size.", "anchors": ["src/parse.cpp: multiple_definitions, gendlopen::parse"]}
{"id": "C13", "title": "-P and -S select exactly the requested symbols", "statement": "With filters given, the reported symbols are exactly the declared symbols that start with one of the -P strings or equal one of the -S strings, each once, functions and objects each in a fixed order; without filters all declared symbols are reported in input order.", "quantifier": "all prototype lists, all -P/-S lists", "why_tests_cant": "Interaction of two filters with overlaps and duplicates.", "anchors": ["src/parse.cpp: gendlopen::parse (filter)", "src/utils.cpp: is_prefixed"]}
{"id": "C14", "title": "A requested symbol that is missing is always an error", "statement": "If some -S name is declared by no prototype, processing fails and lists exactly the missing names (sorted, without repetition); if no symbol at all is selected processing fails too; otherwise processing does not fail for this reason.", "quantifier": "all prototype lists, all filters", "why_tests_cant": "All subsets of missing names.", "anchors": ["src/parse.cpp: gendlopen::parse", "src/utils.hpp: sort_dedup"]}
{"id": "C15", "title": "Created parameter names are distinct and complete", "statement": "With -param=create a function with n parameters gets the names a1..an, pairwise different, each inserted into its own parameter; the list of names used in the forwarded call is a1, ..., an in order; `...` keeps its place; a parameter list `void` or empty gives no names.", "quantifier": "all parameter lists", "why_tests_cant": "Parameter counts and forms are unbounded.", "anchors": ["src/parameter_names.cpp: create_parameter_names, append_name"]}
{"id": "C16", "title": "Read parameter names are the declared ones", "statement": "With -param=read every parameter either yields a name that is one of its own tokens and an identifier, or the run fails; the names used in the forwarded call are these names in order, and the parameter text is exactly the parameter tokens in order.", "quantifier": "all parameter lists", "why_tests_cant": "Same.", "anchors": ["src/parameter_names.cpp: read_parameter_names, get_parameter_names"]}
{"id": "C17", "title": "Cosmetic formatting only removes blanks", "statement": "Formatting a type or parameter text terminates for every string and only deletes space characters: all non-blank characters stay, in order; afterwards there is no blank after `(`, `*`, `[` or before `)`, `[`, `]`, `,`.", "quantifier": "all strings", "why_tests_cant": "The replacement loop restarts from the beginning; its termination and final shape must hold for all strings.", "anchors": ["src/tokenize.cpp: format_prototype", "src/utils.cpp: replace, strip_spaces"]}
{"id": "C18", "title": "Identifiers cannot be glued together by formatting", "statement": "Cosmetic formatting never joins two words of a declaration into a different identifier or keyword.", "quantifier": "all token sequences", "why_tests_cant": "Depends on which tokens are neighbours.", "anchors": ["src/tokenize.cpp: format_prototype"]}
{"id": "C19", "title": "Typedef names for function pointers and arrays are consistent", "statement": "Each selected function-pointer or array object gets a typedef whose text is its type with `<prefix>_<symbol>__t` inserted at the declarator position, the object's type becomes that name, there are as many typedefs as such objects, in order, and other objects are untouched.", "quantifier": "all object lists", "why_tests_cant": "Unbounded lists and types.", "anchors": ["src/tokenize.cpp: create_typedefs, fptr_typedef, array_typedef"]}
{"id": "C20", "title": "Literal replacement is complete and terminates", "statement": "Replacing a placeholder by text that does not contain the placeholder's first character terminates, replaces every occurrence, leaves every other character unchanged; if the replacement contains the placeholder and the placeholder occurs, the loop never ends.", "quantifier": "all strings", "why_tests_cant": "Termination for all inputs.", "anchors": ["src/utils.cpp: replace"]}
{"id": "C21", "title": "Every template line is expanded once per symbol, in order", "statement": "A template line using function placeholders is written once for each selected function, in order, with all its placeholders filled with that function's data; one using object placeholders once for each object; one using symbol placeholders once for every function then every object; a line without placeholders exactly once, unchanged; mixing classes in a line is an error.", "quantifier": "all template lines, all symbol lists", "why_tests_cant": "All lines times all symbol lists.", "anchors": ["src/substitute.cpp: substitute_line, replace_function_prototypes, replace_object_prototypes, replace_symbol_names"]}
{"id": "C22", "title": "No placeholder survives in the output", "statement": "For every template line of the allowed placeholders, if symbol data contains no `%`, the output contains none of the placeholders.", "quantifier": "all template lines, all symbol lists", "why_tests_cant": "All combinations and adjacency of placeholders.", "anchors": ["src/substitute.cpp"]}
{"id": "C23", "title": "Parameter-skip sections are included exactly under their condition", "statement": "Lines between %PARAM_SKIP_REMOVE_BEGIN% and the next marker appear only when parameter names are not skipped, lines after %PARAM_SKIP_USE_BEGIN% only when they are, lines outside always; marker lines never appear.", "quantifier": "all templates", "why_tests_cant": "All sequences of markers and lines.", "anchors": ["src/substitute.cpp: check_skip_keyword, substitute"]}
{"id": "C24", "title": "Line numbers match the template", "statement": "With -line, every `#line` directive's number is the number of the template line the following output text comes from, and the header's own counter equals the number of lines written so far.", "quantifier": "all templates and symbol lists", "why_tests_cant": "Depends on multi-line entries, skip sections and empty lists.", "anchors": ["src/substitute.cpp: substitute_line", "src/generate.cpp: save_data, line_directive"]}
{"id": "C25", "title": "Template files survive a dump and reload", "statement": "Writing a template (list of possibly multi-line entries) to a file and reading it back gives the same entries and line counts.", "quantifier": "all entry lists", "why_tests_cant": "All byte contents, including trailing continuation characters.", "anchors": ["src/data.cpp: save_to_file, load_from_file", "src/utils.cpp: get_lines, save_to_line"]}
{"id": "C26", "title": "Symbol columns are padded to equal width", "statement": "In a padded column every symbol is followed by exactly as many blanks as needed for all to end at the column of the longest name.", "quantifier": "all symbol lists", "why_tests_cant": "All lengths.", "anchors": ["src/substitute.cpp: get_longest_symbol_size"]}
{"id": "C27", "title": "The common prefix is the longest one", "statement": "The computed common symbol prefix is a prefix of every symbol and every common prefix is a prefix of it; a name lookup that first tests the common prefix and then compares the remainders finds exactly the listed symbols.", "quantifier": "all symbol lists", "why_tests_cant": "All lists, including empty, single and prefix-of-each-other names.", "anchors": ["src/generate.cpp: compare_chars_at, get_common_prefix", "src/templates/c.c: gdo_load_symbol_name"]}
{"id": "C28", "title": "Prefix renaming touches whole identifiers only", "statement": "Renaming `gdo_`/`GDO_`/`gdo` replaces occurrences that begin an identifier (optionally after one underscore) and nothing else; text without such occurrences is unchanged; nothing outside the renamed spots changes.", "quantifier": "all lines, all prefixes", "why_tests_cant": "All contexts.", "anchors": ["src/gendlopen.cpp: replace_prefixes, prefix"]}
{"id": "C29", "title": "Prefix and guard names are identifiers", "statement": "For every -prefix string the derived upper- and lower-case prefixes and the header guard consist only of letters, digits and underscores, have a fixed length relation to the option, and are empty only if the option is.", "quantifier": "all strings", "why_tests_cant": "All byte values.", "anchors": ["src/gendlopen.cpp: prefix", "src/generate.cpp: header_guard_begin", "src/utils.cpp: to_upper, to_lower"]}
{"id": "C30", "title": "Library name modes", "statement": "For every -library value: `nq:x` gives x, a quoted value stays as is, `ext:x` gives the quoted name followed by the extension macro, `api:n:x` the macro call with name and number; anything else the quoted name. Quoting twice equals quoting once.", "quantifier": "all strings", "why_tests_cant": "All strings, any case of the mode.", "anchors": ["src/generate.cpp: quote_lib, format_libname"]}
{"id": "C31", "title": "-D and -include lines", "statement": "`-DNAME=VALUE` gives the definition of NAME with VALUE, `-DNAME` a definition with the default; an include is quoted exactly when not already quoted or bracketed or marked nq.", "quantifier": "all strings", "why_tests_cant": "All strings.", "anchors": ["src/gendlopen.cpp: add_inc, add_def"]}
{"id": "C32", "title": "Command line arguments are consumed exactly once", "statement": "Every command line is processed left to right, each argument being used exactly once as option, option value or file name; an option that takes a value takes it after `=` or from the next argument, a flag never accepts a value, a missing value is an error, `-` is a file name and nothing reads past the end of argv.", "quantifier": "all argument vectors", "why_tests_cant": "All argument vectors.", "anchors": ["src/opt_parser.h: opt_iterate, opt_get_arg, opt_arg_eq", "src/options.cpp: parse_cmdline"]}
{"id": "C33", "title": "Option lookup is unambiguous", "statement": "Exactly the documented option names are accepted (with `-` or, for multi-letter options, `--`), every other option-like argument is rejected as unknown, and the result of processing does not depend on the order of independent options.", "quantifier": "all argument strings", "why_tests_cant": "All strings.", "anchors": ["src/options.cpp: parse_cmdline, parse_options"]}
{"id": "C34", "title": "Existing files are never overwritten without -force", "statement": "Without -force no existing file is modified or removed whatever the combination of output options; with -force only the requested output files are replaced.", "quantifier": "all file systems, all output settings", "why_tests_cant": "All states of the file system.", "anchors": ["src/generate.cpp: open_ofstream, generate"]}
{"id": "C35", "title": "Loaded pointers always belong to the loaded library", "statement": "In the generated C API, after any sequence of calls and whatever the loader answers: if no library is loaded all symbol pointers are null; every non-null pointer is one the loader returned for that symbol name on the current handle.", "quantifier": "all call sequences, all loader behaviours", "why_tests_cant": "Histories of calls and failures are unbounded.", "anchors": ["src/templates/c.c"]}
{"id": "C36", "title": "No leaked or doubly closed library handle (C API)", "statement": "After any sequence of calls, the number of successful opens minus successful closes is 1 if a library is loaded and 0 otherwise; no handle is used after it was closed.", "quantifier": "all call sequences, all loader behaviours", "why_tests_cant": "Same.", "anchors": ["src/templates/c.c: gdo_load_lib_args, gdo_free_lib, gdo_force_free_lib"]}
{"id": "C37", "title": "Failed operations leave the C API unchanged", "statement": "Loading while a library is loaded, or freeing unsuccessfully, changes neither handle nor symbol pointers, and a failing call always leaves a non-empty error message, a succeeding one an empty message.", "quantifier": "all states", "why_tests_cant": "All states.", "anchors": ["src/templates/c.c"]}
{"id": "C38", "title": "all/any/no-symbols-loaded tell the truth", "statement": "The three queries agree with the pointers: all iff every pointer is non-null, none iff every pointer is null, any iff some pointer is non-null; and load_all succeeds iff afterwards all are loaded.", "quantifier": "all states", "why_tests_cant": "All subsets.", "anchors": ["src/templates/c.c: gdo_all_symbols_loaded, gdo_no_symbols_loaded, gdo_any_symbol_loaded, gdo_load_all_symbols"]}
{"id": "C39", "title": "Loading by name finds exactly the known symbols", "statement": "load_symbol_name(s) loads the pointer of the symbol called s if the generator was given such a symbol, fails with an error for every other string (including NULL, empty, and extensions or prefixes of known names), and touches no other pointer.", "quantifier": "all strings, all symbol lists", "why_tests_cant": "All strings.", "anchors": ["src/templates/c.c: gdo_load_symbol_name"]}
{"id": "C40", "title": "Wrapped calls never go through a null pointer", "statement": "A call through a generated wrapper either forwards to a non-null pointer obtained for that very symbol, with the given arguments, or prints an error and terminates the program.", "quantifier": "all states, all loader behaviours, autoload on or off", "why_tests_cant": "Same.", "anchors": ["src/templates/c.h: wrappers", "src/templates/c.c: _gdo_wrap_check_loaded"]}
{"id": "C41", "title": "Automatic release is registered at most once and closes once", "statement": "With automatic release enabled, however often libraries are loaded and freed, the exit handler is registered at most once (as long as registration succeeds), and after it has run no handle is open.", "quantifier": "all call sequences", "why_tests_cant": "All histories.", "anchors": ["src/templates/c.c: gdo_enable_autorelease"]}
{"id": "C42", "title": "Error and path buffers never overflow", "statement": "Every message or path written to the fixed buffers is cut to the buffer size and terminated.", "quantifier": "all message lengths", "why_tests_cant": "Needs over-long loader messages.", "anchors": ["src/templates/c.c: gdo_save_to_errbuf, gdo_lib_path"]}
{"id": "C43", "title": "Minimal loader is all-or-nothing", "statement": "gdo_load_library_and_symbols returns NULL (success) only if the library was opened and every symbol found; on failure the handle is closed and the state is as if nothing was loaded.", "quantifier": "all loader behaviours, all call sequences", "why_tests_cant": "All failure points.", "anchors": ["src/templates/minimal.h"]}
{"id": "C44", "title": "Plugin loading and releasing balance", "statement": "load_plugins opens each listed file once, its result list has as many entries as files; releasing closes each successfully opened handle exactly once.", "quantifier": "all file lists, all loader behaviours", "why_tests_cant": "All subsets of failures.", "anchors": ["src/templates/plugin.c"]}
{"id": "C45", "title": "The C++ class keeps handle and pointers consistent", "statement": "For any sequence of operations on any number of loader objects: no library loaded implies all pointers null, non-null pointers come from the current handle, opens minus closes is 0 or 1.", "quantifier": "all operation sequences over all objects", "why_tests_cant": "All histories.", "anchors": ["src/templates/cxx.cpp", "src/templates/cxx.hpp"]}
{"id": "C46", "title": "Clang AST mode selects the same symbols as text mode", "statement": "For AST input, the declarations selected by -P and -S are exactly those with a matching prefix or name, and missing -S names are exactly the ones reported.", "quantifier": "all AST declaration lists, all filters", "why_tests_cant": "All overlaps of prefixes and names.", "anchors": ["src/clang_ast.cpp: get_declarations, parse_clang_ast"]}
{"id": "C47", "title": "Pipeline composition", "statement": "For a well-formed input of simple prototypes, the generated loader's symbol table (one entry per %%symbol%% line) is exactly the list of declared symbols, so the runtime resolves exactly the declared names.", "quantifier": "all well-formed inputs", "why_tests_cant": "End-to-end over unbounded inputs.", "anchors": ["src/tokenize.cpp", "src/parse.cpp", "src/substitute.cpp", "src/templates/c.c"]}
{"id": "C48", "title": "Names passed on in forwarded calls are identifiers", "statement": "The argument list of the call forwarded by a generated wrapper consists of identifiers separated by commas: the wrapper compiles for every accepted prototype.", "quantifier": "all parameter lists, -param=read and -param=create", "why_tests_cant": "Depends on every combination of parameters, including variadic ones.", "anchors": ["src/parameter_names.cpp: read_parameter_names, create_parameter_names"]}
{"id": "C49", "title": "A line continuation joins only the next line", "statement": "A backslash at the end of a preprocessor line or line comment joins exactly the following line to it; scanning resumes on the line after that one.", "quantifier": "all directive and comment texts, all following lines", "why_tests_cant": "All combinations of blank and non-blank following lines.", "anchors": ["src/lex.l: split"]}
{"id": "C50", "title": "Autoload failures tell the loader's reason", "statement": "When a generated wrapper with autoloading cannot open the default library, the message it prints before ending the program contains the dynamic loader's explanation.", "quantifier": "all states, all loader messages", "why_tests_cant": "All loader behaviours.", "anchors": ["src/templates/c.c: _gdo_wrap_check_loaded, gdo_load_all_symbols, gdo_load_symbol"]}
{"id": "C51", "title": "Any library name is printed safely", "statement": "With autoloading, no default library name (whatever characters it contains) makes a wrapped call undefined.", "quantifier": "all library names", "why_tests_cant": "All strings.", "anchors": ["src/templates/c.c: _gdo_wrap_check_loaded, _gdo_print_error"]}
{"id": "C52", "title": "The library path is that of the loaded library", "statement": "A non-empty path returned by the library-path query was named by the system for the library loaded at that moment, since it was opened; paths of libraries released earlier are never returned.", "quantifier": "all call sequences, all loader behaviours", "why_tests_cant": "The path is cached across calls; all histories matter.", "anchors": ["src/templates/c.c: gdo_library_path, gdo_free_lib, gdo_force_free_lib"]}
{"id": "C53", "title": "Loading by number loads exactly that symbol", "statement": "gdo_load_symbol(n) loads the n-th symbol's pointer and no other, fails with a message for every other number and while no library is loaded.", "quantifier": "all numbers, all states", "why_tests_cant": "All integers.", "anchors": ["src/templates/c.c: gdo_load_symbol"]}
{"id": "C54", "title": "A loaded pointer stays loaded until the library is released", "statement": "Once a symbol pointer is non-null no call other than releasing the library changes it.", "quantifier": "all states, all calls, all loader behaviours", "why_tests_cant": "All histories.", "anchors": ["src/templates/c.c: gdo_load_all_symbols, gdo_load_symbol, gdo_load_symbol_name"]}
{"id": "C55", "title": "The requested library is opened as requested", "statement": "With no library loaded, each loading function opens exactly one library: the file it was given (or the default), with the given (or default) flags, in its own namespace only if asked for and available; null and empty names open nothing and fail.", "quantifier": "all names, flags, states and loader behaviours", "why_tests_cant": "All arguments and histories.", "anchors": ["src/templates/c.c: gdo_load_lib, gdo_load_lib_name, gdo_load_lib_args, _gdo_load_library", "src/templates/common.c: _gdo_call_dlopen"]}
{"id": "C56", "title": "Template lines are read completely", "statement": "Reading a template file gives one entry per logical line: a line ending in `@` (also before a carriage return) is joined with the next one by a line feed, nothing else is dropped or changed, and the entries' line counts add up to the number of lines of the file.", "quantifier": "all file contents", "why_tests_cant": "All byte strings.", "anchors": ["src/utils.cpp: save_to_line, get_lines", "src/gendlopen.cpp: process_custom_template"]}
{"id": "C57", "title": "Built-in templates equal the template files", "statement": "The template data compiled into the program are the entries that would be read from the template file itself.", "quantifier": "all file contents", "why_tests_cant": "All byte strings; escaping in generated string literals.", "anchors": ["src/gen_templates_data.c: dump", "src/utils.cpp: get_lines"]}
{"id": "C58", "title": "Custom templates may have Windows line ends", "statement": "A custom template with carriage returns before its line feeds gives the same output, up to carriage returns, as without them.", "quantifier": "all templates", "why_tests_cant": "All template texts.", "anchors": ["src/utils.cpp: save_to_line", "src/substitute.cpp: check_skip_keyword"]}
{"id": "C59", "title": "Messages name the option as written", "statement": "When an option lacks its value, the error message names the option exactly as it was written on the command line and tells whether the value is missing or empty.", "quantifier": "all argument vectors ending in or containing an option without value", "why_tests_cant": "depends on the way the option is written and on everything in front of it", "anchors": ["src/opt_parser.h: opt_get_arg, _opt_handle_error", "src/options.cpp: parse_cmdline"]}
{"id": "C60", "title": "Options in the input file act like command line options", "statement": "A %option string is accepted exactly when it is one of the documented ones, and then changes the settings exactly as the same option on the command line; one without a value and any other string is an error that names it.", "quantifier": "all option strings, all settings", "why_tests_cant": "all strings must be covered, the accepted set is infinite", "anchors": ["src/options.cpp: parse_options, get_option", "src/help.cpp"]}
{"id": "C61", "title": "Format and parameter modes", "statement": "-format and -param accept exactly their documented words, in any upper or lower case, and reject every other text with a message that names it.", "quantifier": "all strings", "why_tests_cant": "all strings must be covered", "anchors": ["src/gendlopen.cpp: format, parameter_names"]}
{"id": "C62", "title": "A failing run leaves the files as they were", "statement": "If a run ends in an error (output exists and -force is not given, template unreadable, template faulty, output not writable), no file is created, emptied or removed by it and the error is reported as a message.", "quantifier": "all settings, all states of the file system, all environments", "why_tests_cant": "All combinations of failures and files.", "anchors": ["src/generate.cpp: open_ofstream, generate", "src/gendlopen.cpp: process_custom_template", "src/main.cpp"]}
{"id": "C63", "title": "Layout of the generated files", "statement": "A run that completes writes exactly the requested files. The header consists of, in this order: the notice, the license, the begin of the include guard, the file name macros, the extra defines, the include lines, the typedefs, the filled templates of the format and the end of the guard; with -separate the body has the notice, the license, an include line naming the header that lies beside it, and the filled body templates; with output to standard output no file is touched. Every #line directive of the generated file itself tells the true number of the following line.", "quantifier": "all settings, symbol lists, templates, states of the file system", "why_tests_cant": "All combinations of options; line numbers depend on all texts written before.", "anchors": ["src/generate.cpp: generate, save_data, line_directive", "src/data.cpp: create_template_lists"]}
{"id": "C64", "title": "Templates of -templates-path are used", "statement": "With -templates-path the output is made from the templates of the given directory in place of the built-in ones.", "quantifier": "all settings, all template texts", "why_tests_cant": "All template texts and formats.", "anchors": ["src/data.cpp: load_template, create_template_lists", "src/generate.cpp: save_data, generate"]}
{"id": "C65", "title": "Functions read from a Clang AST keep their type", "statement": "For AST input, the return type and parameter list recorded for a function declare exactly the C type clang reported for it, with generated parameter names a1, a2, ... at the right places.", "quantifier": "every function declaration with any return type, any number of parameters, of any C type built from base types, qualified pointers, arrays and function types", "why_tests_cant": "a test dump contains a handful of types; the placement of the generated name depends on the nesting of pointers, arrays and function types in each parameter", "anchors": ["src/clang_ast.cpp:get_parameters", "src/clang_ast.cpp:gendlopen::get_declarations"]}
{"id": "C66", "title": "Variables read from a Clang AST keep their type", "statement": "For AST input, a variable is recorded with its type, and for function pointers and arrays the generated typedef declares exactly that type.", "quantifier": "every variable declaration of any C type built from base types, qualified pointers, arrays and function types", "why_tests_cant": "tests use a few type spellings; the text search that finds the declarator can hit a parenthesis or bracket that belongs to a nested type", "anchors": ["src/clang_ast.cpp:gendlopen::get_declarations", "src/tokenize.cpp:fptr_typedef", "src/tokenize.cpp:array_typedef", "src/tokenize.cpp:gendlopen::create_typedefs"]}
{"id": "C67", "title": "No symbol is recorded twice from a Clang AST", "statement": "For AST input, the symbol tables never contain two entries with the same name, so the generated code does not define a symbol twice.", "quantifier": "every dump, redeclarations included, and every combination of -P, -S and -ast-all-symbols", "why_tests_cant": "headers redeclare functions; whether a redeclaration is filtered depends on the selection mode", "anchors": ["src/clang_ast.cpp:gendlopen::parse_clang_ast", "src/clang_ast.cpp:gendlopen::get_declarations"]}
{"id": "C68", "title": "C++ loader objects report failures truthfully", "statement": "A member function of the C++ loader class that reports success leaves its object without an error message and one that reports failure leaves a message; a failed call changes no state that matters; other objects' messages are untouched.", "quantifier": "every class configuration, every behaviour of the dynamic loader, every sequence of operations on any number of objects", "why_tests_cant": "The reports depend on the history of calls across objects and on the loader's answers; tests sample a few.", "anchors": ["src/templates/cxx.cpp", "src/templates/cxx.hpp"]}
{"id": "C69", "title": "C++ loader queries and single-symbol loading are exact", "statement": "lib_loaded, all/no/any symbols loaded and error() tell the state truthfully after any history; loading a symbol by number or by name resolves exactly that symbol on the current library and nothing else; numbers and names outside the table are errors and change no pointer.", "quantifier": "every configuration, history, number and name", "why_tests_cant": "Numbers and names range over unbounded sets and the answers depend on the whole history.", "anchors": ["src/templates/cxx.cpp:load_symbol", "src/templates/cxx.cpp:all_symbols_loaded"]}
{"id": "C70", "title": "C++ wrapper functions call the right function or stop with a message", "statement": "Calling a wrapper either calls, with the same arguments, the function that the current library gives for that name, or prints one message that names the symbol and the reason and ends the program. The library's file name cannot make the message undefined.", "quantifier": "every configuration, loader behaviour, history, symbol and argument list", "why_tests_cant": "Depends on history (lazy loading) and on the loader's failures at any point.", "anchors": ["src/templates/cxx.cpp:quick_load", "src/templates/cxx.cpp:print_error"]}
{"id": "C71", "title": "library_path() names the loaded library", "statement": "A non-empty path handed out by library_path() is a path the system gave for the library that is loaded at that moment.", "quantifier": "every sequence of operations on any number of objects, every behaviour of dlinfo, dladdr and the process map", "why_tests_cant": "Paths are cached per object while the handle is shared; the failing histories need two objects and two libraries.", "anchors": ["src/templates/cxx.cpp:library_path"]}
{"id": "C72", "title": "The library lives as long as the program asks", "statement": "A library loaded through the class stays loaded until free() succeeds, until an object that loaded it and has free_lib_in_dtor set is destroyed, or until the program ends; at a normal end it is released.", "quantifier": "every history of construction, copying, assignment, destruction and exit", "why_tests_cant": "Lifetimes of several objects sharing one handle interleave arbitrarily.", "anchors": ["src/templates/cxx.cpp:~dl", "src/templates/cxx.hpp:free_lib_in_dtor"]}
{"id": "C73", "title": "filename() and flags() tell the last request and loading opens it", "statement": "After an object was asked to load a file with given flags, filename() and flags() return exactly these until another request is made of it or it is assigned to, and each successful or failed load attempt opens what was asked exactly once. Before any attempt flags() is zero as documented.", "quantifier": "every history between the request and the query", "why_tests_cant": "Any number of operations on any objects may happen in between.", "anchors": ["src/templates/cxx.cpp:load", "src/templates/cxx.hpp:flags"]}
{"id": "C74", "title": "Options leave exactly the settings they ask for", "statement": "After an accepted command line every setting is what the options say: the last value for single-valued options, all values in the order given for -D, -include, -P and -S, each flag on exactly when it was given; everything not mentioned keeps its value. The first file argument is the input, further ones are ignored.", "quantifier": "all command lines made of documented options and files", "why_tests_cant": "Combinations and repetitions of options are unbounded.", "anchors": ["src/options.cpp: parse_cmdline", "src/gendlopen.hpp", "src/gendlopen.cpp: add_inc, add_def"]}
{"id": "C75", "title": "Every shipped template line is filled in completely", "statement": "For every line of every template that comes with the program, every usable prefix and every set of symbols, the line is written once if it has no placeholder and otherwise once per symbol of its class with every placeholder replaced; no placeholder text remains in the generated code.", "quantifier": "all template lines x all prefixes x all symbol tables", "why_tests_cant": "tests render a few symbol lists with one or two prefixes; a line with a placeholder combination that only misbehaves for pointer types, void returns or long names is not seen", "anchors": ["src/templates/*", "src/substitute.cpp: substitute, substitute_line", "src/gendlopen.cpp: replace_prefixes"]}
{"id": "C76", "title": "Only declaration text reaches the generated code", "statement": "Whatever the input text, the names, types and parameters that are put into the templates consist of the characters of C declarations only (letters, digits, underscore, blanks and * , ( ) [ ] .), every symbol has a name, each name occurs once, and there is at least one symbol. Input text therefore cannot inject quotes, preprocessor directives, line breaks or placeholders.", "quantifier": "all input texts, all option settings", "why_tests_cant": "an injection needs a specific combination of tokens, comments and parameter modes; fuzzing samples only a tiny part", "anchors": ["src/lex.l", "src/tokenize.cpp", "src/parse.cpp: parse", "src/parameter_names.cpp", "src/clang_ast.cpp"]}
{"id": "C77", "title": "Generation succeeds and the output text is determined", "statement": "With the built-in templates, a usable prefix and any symbols, a run with a writable output succeeds and the generated files consist of exactly: note and license, guard, file name macros, defines, includes, typedefs and the filled-in templates of the format; nothing else is written.", "quantifier": "all symbol tables, formats, prefixes, parameter modes and output kinds", "why_tests_cant": "the product of formats, options, prefixes and symbol tables is unbounded", "anchors": ["src/generate.cpp: generate", "src/substitute.cpp", "src/templates/*"]}
{"id": "C78", "title": "The process map gives the path of the right library", "statement": "When the library's full path is taken from the process map, a path that is reported is the name of the mapping that holds the library's load address; if that mapping has a name that fits, it is reported; the two ways to ask the kernel (ioctl and text) agree.", "quantifier": "every list of mappings a 64 bit Linux process can have, every address, buffer size and (for the shape of the answer) every text", "why_tests_cant": "The kernel's text depends on devices, offsets, inode numbers and file names of the machine; a test sees only those of its own host.", "anchors": ["src/templates/common.c:_gdo_fullpath_procmap"]}
{"id": "C79", "title": "The compiled scanner implements the scanner rules", "statement": "The shipped scanner (lex.yy.c: compressed tables, match loop with backing up, buffer refills, NUL handling, line counting, action switch) returns exactly the tokens, texts and line numbers that the rules of lex.l ask for; it reads no table and no buffer out of bounds and always terminates; the result does not depend on how many bytes each read delivers.", "quantifier": "all input files, all ways to split them into reads", "why_tests_cant": "lex.yy.c is what is compiled (the build does not run flex): 262 states times 256 bytes times every position of a buffer boundary cannot be tested", "anchors": ["src/lex.yy.c: yylex, yy_get_next_buffer, yy_get_previous_state, yy_try_NUL_trans", "src/lex.l"]}
{"id": "C80", "title": "On Windows pointers and handle stay consistent", "statement": "For every sequence of API calls of the generated C API built for the Windows API, and every behaviour of LoadLibraryEx(), GetProcAddress() and FreeLibrary(): pointers are null without a library and otherwise the system's latest answers on the current handle; handles are used only while open, nothing is leaked; the queries, loading by name and number, the exit handler and the path behave as on other systems (C35, C36, C38, C39, C41, C52, C53).", "quantifier": "all call sequences, all behaviours of the system, all configurations", "why_tests_cant": "needs every history of calls and every pattern of failing system calls; the project has no tests of the Windows branches", "anchors": ["src/templates/c.c: gdo_load_lib_args, gdo_free_lib, gdo_force_free_lib, _gdo_sym", "src/templates/common.c: _gdo_call_dlclose"]}
{"id": "C81", "title": "On Windows the error message tells what failed and why", "statement": "After a failed call gdo_last_error() returns what the call was about, followed by the system's text for the error code of the failed system call (or its number if there is no text), cut to the buffer; after a success it returns the text for 'no error'; asking repeatedly gives the same text and changes nothing.", "quantifier": "all call sequences, all behaviours of the system, all texts", "why_tests_cant": "the three parts of the error state (message, code, formatted text) must agree after every history", "anchors": ["src/templates/c.c: gdo_last_error, _gdo_save_error, _gdo_save_to_errbuf, _gdo_clear_error, _gdo_load_library_ex"]}
{"id": "C82", "title": "On Windows the requested file is opened once, with backslashes", "statement": "Loading asks the system exactly once, for the requested name with every slash turned into a backslash and nothing else changed, with the requested flags; a null, empty or unconvertible name asks for nothing and fails.", "quantifier": "all states without a library, all operations, names and flags", "why_tests_cant": "all file names", "anchors": ["src/templates/c.c: _gdo_load_library, _gdo_load_library_ex, _gdo_mbstowcs, gdo_load_lib_args"]}
{"id": "C83", "title": "On Windows a wrapped call forwards or ends the program with one message", "statement": "A wrapped function calls the system's answer for its symbol with the arguments given, or the program ends, nothing is called and exactly one message naming the function and the reason is shown (a line or a message box).", "quantifier": "all call sequences, all behaviours of the system, all configurations", "why_tests_cant": "every history and failure pattern; message boxes cannot be tested", "anchors": ["src/templates/c.c: _gdo_wrap_check_loaded, _gdo_print_error, gdo_last_error"]}
{"id": "C84", "title": "The macros in front of the header", "statement": "For every list of functions and objects and all options, what the header defines before its code is: the macros of the -D options; PREFIX_SEPARATE exactly if header and body are separate files; the macros for the library's name; PREFIX_COMMON_PREFIX, a string that begins every symbol name; and PREFIX_HAS_VA_ARGS_name, with value 1, for exactly the functions whose parameter list ends in an ellipsis.", "quantifier": "all symbol lists, all options", "why_tests_cant": "the templates decide by these macros which wrappers exist, so one missing or spurious macro changes the API for one symbol in a list of any length", "anchors": ["src/generate.cpp: gendlopen::generate, get_common_prefix"]}
{"id": "C85", "title": "Generated files are lexically closed", "statement": "For every output format, every set of options, every usable prefix and every header whose declarations have matching brackets, each generated file ends with every comment, string literal, conditional directive and bracket closed, both for a C compiler and for a C++ compiler and whichever of the macros it asks for are defined; so no symbol list and no combination of options lets the generated code swallow or unbalance what follows it.", "quantifier": "all formats, options, prefixes, headers with well-formed declarations, both languages, all macro settings", "why_tests_cant": "the texts are assembled from 20 templates with conditional regions, loops over symbols, optional line directives, guards and user texts; tests compile a few combinations only, and a bracket or #endif missing in one of them is seen only there", "anchors": ["src/generate.cpp: gendlopen::generate", "src/substitute.cpp: gendlopen::substitute", "src/templates/*"]}
{"id": "C86", "title": "Printed symbols are a header that can be read back", "statement": "For every header, -print-symbols prints a text that is itself a header declaring exactly the symbols asked for (arrays and function pointers under the names of type definitions printed in front), and ends with their number; it writes no file. Reading that text with the same options gives the same symbols, so printing them again gives the same text without the type definitions.", "quantifier": "all headers with ordinary declarations, all selections of symbols, all prefixes, parameter modes that keep or skip names", "why_tests_cant": "the printed text goes through the formatter, which removes blanks between tokens; whether every removed blank was unnecessary depends on all pairs of neighbouring tokens", "anchors": ["src/gendlopen.cpp:print_symbols_to_stdout", "src/tokenize.cpp:tokenize", "src/parse.cpp"]}
{"id": "C87", "title": "Dumped templates are complete and can be used again", "statement": "With -dump-templates the program creates the directory when nothing has its name, saves all 12 templates in it, reports each, touches nothing else and ends; every saved file is read back by -templates-path as the template that comes with the program (plus the empty line of C25).", "quantifier": "all directories, file systems and command lines with this option", "why_tests_cant": "the saved text uses continuation marks for entries of several lines; whether every one of the about 3900 template entries survives saving and reading is a statement over all of them and all directory names", "anchors": ["src/data.cpp:dump_templates", "src/data.cpp:save_to_file", "src/data.cpp:load_from_file", "src/options.cpp:parse_cmdline"]}
{"id": "C88", "title": "Nothing is written before the command line and the whole input were accepted", "statement": "Whenever a run changed a file or printed something, its command line was right and its input had been read to the end without an error (apart from options that only print texts or save the templates). A wrong option, no input, an unreadable input, standard input used twice and a wrong input each end the run with a message, and the message for an illegal byte names the input, the byte and its line.", "quantifier": "all command lines, file systems, inputs and kinds of failure", "why_tests_cant": "it is a statement about all ways to fail, at every position of every input", "anchors": ["src/main.cpp:main", "src/tokenize.cpp:tokenize", "src/open_file.cpp:open_file", "src/lex.l:illegal character rule"]}
{"id": "C89", "title": "No declaration of an accepted input is lost without a message", "statement": "If the program accepts an input, every function and object declared in it is among the symbols of the output, unless -P or -S leave it out; no declaration is silently passed over.", "quantifier": "all accepted inputs (other than Clang AST dumps), all parameter modes and filters", "why_tests_cant": "a declaration can be lost at every place of every input; only a statement about all accepted texts excludes it", "anchors": ["src/tokenize.cpp:tokenize_stream", "src/lex.l:C_COMMENT rules", "src/parse.cpp:parse", "README.md:Input format"]}
{"id": "C90", "title": "Preprocessor directives contribute nothing", "statement": "A preprocessor directive in the header, whatever it contains (slashes, backslashes, continued lines, comments), contributes nothing to the declarations that are read: the text behind it is read as if the directive were not there.", "quantifier": "all directives made of text, slashes, backslashes, continued lines and one-line comments, all texts behind them, all line numbers", "why_tests_cant": "the combinations of comments, continued lines and line ends in a directive are unbounded; tests use a handful of defines", "anchors": ["src/lex.l: PRE, PRE_COMMENT, COMMENT, C_COMMENT", "src/tokenize.cpp: tokenize_stream"]}
{"id": "C91", "title": "Option lines act like options given before", "statement": "The words on %option lines (also continued ones) are exactly the options they name, in their order; option lines in front of a header have the same effect as if the options had been set before the header was read, and no effect at all with -ignore-options.", "quantifier": "all option lines made of words, blanks and continued lines, all headers behind them, all settings and inputs", "why_tests_cant": "the layouts of option lines and the headers behind them are unbounded", "anchors": ["src/lex.l: OPTION", "src/tokenize.cpp: tokenize_stream", "src/options.cpp: parse_options"]}
{"id": "C92", "title": "The generated C functions behave as documented", "statement": "The C source the program writes for the library (its function definitions, for any list of ordinary declarations) is, after preprocessing, a C program whose functions, executed by C's rules on any system, return the results, make the dlopen/dlsym/dlclose/dlerror/dlinfo/dladdr/atexit calls and end the program exactly as the properties C35 to C42 and C52 say; no sequence of calls runs into undefined behaviour, unless the library name contains a percent sign.", "quantifier": "all lists of ordinary declarations, all settings of the feature macros on systems with dlfcn.h, all sequences of API calls, all answers of the dynamic linker", "why_tests_cant": "the generated text depends on the unbounded list of symbols and on macros, and its behaviour on the history of calls and on the dynamic linker's answers", "anchors": ["src/templates/c.c", "src/templates/common.c", "src/substitute.cpp: substitute"]}
{"id": "C93", "title": "The header declares a numbered handle with a pointer per symbol", "statement": "The C header written for a library declares, in input order, one number per symbol, a handle structure that holds exactly one pointer per symbol with that symbol's type, and macros through which each symbol's pointer is reached under the symbol's name.", "quantifier": "all lists of ordinary declarations, all modes of -param, all settings of the header's macros on systems with dlfcn.h", "why_tests_cant": "the header text depends on an unbounded list of declarations and on an exponential number of macro settings", "anchors": ["src/templates/c.h", "src/templates/common.h", "src/substitute.cpp: substitute"]}
{"id": "C94", "title": "Wrappers check and forward", "statement": "With GDO_WRAP_FUNCTIONS or autoloading the header defines for every function a wrapper which has the function's return type and parameters, first checks that this function's pointer was loaded (under its own number and name), runs the hook and then calls the pointer with the parameters in order, returning its result unless the function returns nothing; with GDO_WRAP_VISIBILITY the wrapper carries the function's own name.", "quantifier": "all lists of ordinary declarations, all functions in them, all settings of the header's macros on systems with dlfcn.h", "why_tests_cant": "wrappers are the result of nested macro replacement in a text that depends on an unbounded list of declarations", "anchors": ["src/templates/c.h: GDO_WRAP", "src/templates/c.h: _GDO_WRAP_CHECK_LOADED", "src/templates/common.h: GDO_WRAP_DECL"]}
{"id": "C95", "title": "A symbol's name reaches the symbol", "statement": "After including the generated code a function's plain name stands for its wrapper if wrappers are enabled and for the loaded pointer otherwise, and a variable's name stands for the variable the loaded pointer points to.", "quantifier": "all lists of ordinary declarations, all functions and variables in them, all settings of the macros, separate files and a single file", "why_tests_cant": "it depends on the order of macro definitions in the whole text and on combinations of user macros", "anchors": ["src/templates/c.h: GDO_FUNC_ALIAS", "src/templates/c.c:973-987"]}
{"id": "C96", "title": "The single-file library behaves as documented for what the user sets", "statement": "The whole C library, in one file or as a body that includes its header, compiled with macros that only the user and the compiler set, behaves on every system with dlfcn.h and for every sequence of offered calls exactly as C35 to C42 and C52 say: the header derives all other feature macros (dlinfo, dlmopen, dladdr, autoload, default library) consistently, and no call runs into undefined behaviour unless the library name contains a percent sign.", "quantifier": "all lists of ordinary declarations, all sets of user and compiler macros on systems with dlfcn.h, all sequences of API calls, all answers of the dynamic linker", "why_tests_cant": "the behaviour depends on the combination of header and body texts, macros, call history and linker answers", "anchors": ["src/templates/common.h", "src/templates/c.h", "src/templates/c.c", "src/templates/common.c"]}
{"id": "C97", "title": "The generated C functions are read as written", "statement": "For every list of declarations with matching brackets, the functions of the generated C library are, by C's grammar, read from their preprocessed text as exactly the functions whose behaviour C92 describes: no operator, cast, member, index, else or case attaches to anything but what it is meant for.", "quantifier": "All ordinary symbol tables and platform macro settings on POSIX systems, all functions of the generated body", "why_tests_cant": "The reading depends on the user's types, which are pasted into casts, and on names that hide types; tests compile a few fixed libraries only.", "anchors": ["src/templates/c.c", "src/templates/common.c", "src/substitute.cpp:substitute_line"]}
{"id": "C98", "title": "A variable's name stands for the variable wherever it is used", "statement": "After the generated header, a program's expression that uses the library's variables by their names means the same expression with the variables in the loaded library, whatever stands around the names.", "quantifier": "All ordinary symbol tables and macro settings, in one file or in two; all expressions of names, literals, calls, members, indexes, casts, unary and binary operators and assignments", "why_tests_cant": "The names are macros: how the replaced text binds depends on each expression it is used in, which no list of test programs covers.", "anchors": ["src/templates/c.h:300", "src/templates/c.c:983", "src/templates/c.h:181"]}
{"id": "C99", "title": "The single generated file, macros included, means the runtime's functions", "statement": "In the library in one file, and in a body file with the header it includes, each generated function, after the header's and the file's own macros are replaced in it, is read by C's grammar as a function, and these functions together do what the runtime model says for each sequence of calls the header offers.", "quantifier": "All ordinary symbol tables whose types are no macros and not called like a variable of the generated code; all platform macro settings on POSIX systems; all functions; all call sequences", "why_tests_cant": "Whether a macro is replaced depends on all that is defined before it and on the user's types and names; a compiled test sees one library and one set of macros.", "anchors": ["src/templates/c.c:15", "src/templates/c.c:32", "src/templates/c.c:74", "src/templates/c.h", "src/templates/common.h"]}
{"id": "C100", "title": "The file the program writes compiles to the runtime's functions", "statement": "A run that generates one C file (or writes it to standard output) succeeds, and a C compiler that reads the whole written text, with its comments, include guard, file name macros, user's macros, included headers, typedefs and filled templates, gets the loading functions that do what the runtime model says for each sequence of calls the header offers. The text in front of the templates defines only the guard, the file name macros and the user's own options, and hides nothing of the library. Included a second time in the same source, where its include guard is set, the file adds nothing.", "quantifier": "All runs with the shipped templates and the C format into one file or to standard output, with and without an include guard; all ordinary symbol tables; all platform macro settings on POSIX systems; all call sequences", "why_tests_cant": "A test compiles one generated file on one system; that no combination of options and symbols makes the parts of the file disturb each other is a statement about all of them.", "anchors": ["src/generate.cpp:generate", "src/generate.cpp:header_guard_begin", "src/generate.cpp:header_guard_end", "src/generate.cpp:includes", "src/templates/filename_macros.h", "src/templates/common.h", "src/templates/c.c"]}
{"id": "C101", "title": "A generated header and body compile to the runtime's functions", "statement": "A run that generates a C header and a C body in two files succeeds. The header, wherever it is included, is read by a C compiler as the program's own macros, the user's texts and the header's declarations, and included again it adds nothing. The body includes that header by a line of its own, and the body with the header in that place is read as the loading functions that do what the runtime model says for each sequence of calls the header offers.", "quantifier": "All runs with the shipped templates and the C format into two files, with and without an include guard; all ordinary symbol tables; all platform macro settings on POSIX systems; all call sequences", "why_tests_cant": "A test compiles one pair of files on one system; that the header's guard, macros and declarations never disturb the functions in the body is a statement about all options and symbols.", "anchors": ["src/generate.cpp:generate", "src/generate.cpp:include_header", "src/generate.cpp:header_guard_begin", "src/generate.cpp:header_guard_end", "src/templates/common.h", "src/templates/c.h", "src/templates/common.c", "src/templates/c.c"]}
{"id": "C102", "title": "The file name macros give each system's library file names", "statement": "GDO_LIBNAMEA(name, api), GDO_LIBNAMEW and GDO_LIBNAME in a generated header become the name of the shared library file on the compiling system (lib and .so, .dylib, .dll, AIX archive members, Android names without API number; wide on Unicode Windows), and GDO_LIBEXTA, GDO_LIBEXTW and GDO_LIBEXT the file extension. The name given is the one used, even if it is also the name of a macro such as one of the library's aliased functions.", "quantifier": "All platform macro settings, all names and API numbers, all other texts the compiler has read before and after", "why_tests_cant": "Each system compiles a different branch of the macros; a test sees the one of the system it runs on, with the names it tries.", "anchors": ["src/templates/filename_macros.h", "src/templates/c.h:GDO_FUNC_ALIAS"]}
{"id": "C103", "title": "The library given with -library is the one the generated file opens by default", "statement": "After a C compiler has read the whole generated file, or the generated header, or the body that includes it, GDO_DEFAULT_LIB, the library that the loading functions open when none is named, is the text of the file name that -library stands for: for api:NUMBER:NAME the file of that library on the compiling system, for ext:NAME that name with the system's extension, for any other name that name itself. GDO_COMMON_PREFIX is the common beginning of the symbols' names. This holds unless the compiler was given another default library.", "quantifier": "All lists of prototypes, option values (numbers and names that are words, also names of the library's own symbols, other than those of the macros of the file itself, or file names without quotes, backslashes and line ends that do not begin with a, e or n), compiler macros of the systems with dlopen, output files", "why_tests_cant": "The name passes through the program's own text, four levels of macros and the platform's branch of each; a test follows one name on one system.", "anchors": ["src/generate.cpp:format_libname", "src/generate.cpp:gendlopen::generate", "src/templates/common.h:GDO_DEFAULT_LIB", "src/templates/filename_macros.h"]}
{"id": "C104", "title": "Every recorded symbol is a name written in the input", "statement": "Each symbol for which code is generated from a header is a whole word of that header's text: letters, digits and underscores that stand in the text with none of these next to them. It is never put together from two words nor a part of one, whatever comments, directives, parentheses and line ends stand around it. As an identifier of C it does not begin with a digit.", "quantifier": "All texts of headers, option values and options in the input", "why_tests_cant": "The scanner, the statement loop, the removal of parentheses and the declaration patterns all handle the name; tests try a few layouts of a few names.", "anchors": ["src/lex.l:identifier", "src/tokenize.cpp:tokenize_stream", "src/tokenize.cpp:remove_superfluous_parentheses", "src/parse.cpp:check_prototype"]}
{"id": "C105", "title": "A wrapper returns the result of every function that has one", "statement": "The wrapper that the header defines for a function ends by calling the function through its pointer. It returns the result of that call exactly if the function's type is not void.", "quantifier": "All lists of ordinary declarations, all functions in them, all settings of the header's macros on systems with dlfcn.h", "why_tests_cant": "The return is decided from the text of an arbitrary type and reaches the code through a placeholder and nested macros.", "anchors": ["src/substitute.cpp:replace_function_prototypes", "src/templates/c.h: GDO_WRAP"]}

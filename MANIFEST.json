{
 "claims": [
  {
   "property": "C01",
   "status": "proved",
   "theorems": [
    "C01_scanning_total"
   ],
   "note": "The 48 flex rules are modelled by derivatives; longest match / first rule is proved against the declarative meaning of the patterns (pick_spec)."
  },
  {
   "property": "C02",
   "status": "proved",
   "theorems": [
    "C02_c_comment_invisible",
    "C02_line_comment_invisible"
   ],
   "note": ""
  },
  {
   "property": "C03",
   "status": "proved",
   "theorems": [
    "C03_directive_invisible"
   ],
   "note": ""
  },
  {
   "property": "C04",
   "status": "proved",
   "theorems": [
    "C04_text_to_words",
    "C04_illegal_byte_reported",
    "C04_illegal_byte_fails",
    "C04_scan_error_fails",
    "C04_statements_of_lexemes"
   ],
   "note": ""
  },
  {
   "property": "C05",
   "status": "proved",
   "theorems": [
    "C05_statements_collected",
    "C05_options_transparent"
   ],
   "note": ""
  },
  {
   "property": "C06",
   "status": "partial",
   "theorems": [
    "C06_cleanup_partial",
    "C06_cleanup_ends",
    "C06_cleanup_balance_refuted",
    "C06_cleanup_prototype_refuted"
   ],
   "note": "Balance is not kept (finding): parentheses are paired by depth number. Everything else of the claim is proved."
  },
  {
   "property": "C07",
   "status": "proved",
   "theorems": [
    "C07_prototype_matching_in_bounds",
    "C07_parameter_matching_in_bounds",
    "C07_parse_in_bounds"
   ],
   "note": "Out-of-range iterator use is the outcome UB in the model; none of these functions reach it."
  },
  {
   "property": "C08",
   "status": "partial",
   "theorems": [
    "C08_accepted_split_partial",
    "C08_accepted_split_refuted"
   ],
   "note": "The full statement is false of the code: `int f(int a,);` is accepted and the comma dropped. Proved: nothing else is lost or invented."
  },
  {
   "property": "C09",
   "status": "proved",
   "theorems": [
    "C09_wellformed_accepted"
   ],
   "note": ""
  },
  {
   "property": "C10",
   "status": "partial",
   "theorems": [
    "C10_multiword_paren_refuted",
    "C10_multiword_always_misread",
    "C10_multiword_paren_partial"
   ],
   "note": "The full statement is false of the code (finding): a two-word type before a parenthesised declarator makes the last type word the symbol. Proved for one-word and pointer types."
  },
  {
   "property": "C100",
   "status": "proved",
   "theorems": [
    "C100_written_file",
    "C100_written_output",
    "C100_standard_macros"
   ],
   "note": "Joins C77 (the run and its text) with C96 and C99 (what the templates mean). Supposed: no -line, the default prefix, the compiler does not define __cplusplus or the guard, and the texts for -D, -include and typedefs are read the same with any macros set and define only GDO_ options; C100_standard_macros proves the last for runs without -D, -library and typedefs. What the included system headers define is not modelled."
  },
  {
   "property": "C101",
   "status": "proved",
   "theorems": [
    "C101_written_pair",
    "C101_pair_macros"
   ],
   "note": "The header holds the texts of C93 to C95; the body with the header in the place of its include line holds the functions of C96 and C99. Without -line, for the default prefix and POSIX targets."
  },
  {
   "property": "C102",
   "status": "partial",
   "theorems": [
    "C102_file_names_partial",
    "C102_function_name_refuted"
   ],
   "note": "GDO_LIBNAMEA and the extensions: as stated. GDO_LIBNAME and GDO_LIBNAMEW replace macros in their arguments before they make texts of them, so they are right for words that are no macros. Finding: where the library is called like one of its functions (readline), and the wrappers are used, GDO_LIBNAME(readline, 8) is \"libGDO_WRAP_readline.so.8\". Second finding: the comment filename_macros.h:18-21 says that the extension has no dot, but it has one."
  },
  {
   "property": "C103",
   "status": "proved",
   "theorems": [
    "C103_default_file",
    "C103_default_output",
    "C103_default_pair"
   ],
   "note": "For C output with the standard prefix, without -D, -line and typedefs; on systems with dlopen (see usable, C96). A symbol called DECL is left out as the name, for GDO_WRAP_DECL is a macro of the header. Values that begin with a, e or n without a mode are the finding of C30; the mode nq:, where the text may be anything, is proved at text level in C30 only."
  },
  {
   "property": "C104",
   "status": "partial",
   "theorems": [
    "C104_names_written",
    "C104_identifiers_partial",
    "C104_identifiers_refuted"
   ],
   "note": "That each symbol is a whole word of the text is proved without restriction. That it is an identifier is false: int 3(void); is accepted and code for a function called 3 is generated (finding); proved for texts in which no word begins with a digit. For Clang AST dumps see C46 and C65."
  },
  {
   "property": "C105",
   "status": "partial",
   "theorems": [
    "C105_returns_partial",
    "C105_returns_refuted"
   ],
   "note": "False for types written like void in other letters: the type is compared without regard to case, so the wrapper of Void get(int a); drops the result (finding; with a typedef of an integer to Void this is a wrong program). Proved for all other types, with the restrictions of C94."
  },
  {
   "property": "C11",
   "status": "partial",
   "theorems": [
    "C11_groups_partial",
    "C11_groups_refuted"
   ],
   "note": "False only for a trailing comma, which is dropped; proved otherwise."
  },
  {
   "property": "C12",
   "status": "proved",
   "theorems": [
    "C12_no_duplicate_names",
    "C12_duplicates_reported"
   ],
   "note": ""
  },
  {
   "property": "C13",
   "status": "proved",
   "theorems": [
    "C13_selection_exact",
    "C13_unfiltered_complete"
   ],
   "note": ""
  },
  {
   "property": "C14",
   "status": "proved",
   "theorems": [
    "C14_missing_symbol_reported"
   ],
   "note": ""
  },
  {
   "property": "C15",
   "status": "proved",
   "theorems": [
    "C15_created_names",
    "C15_created_with_ellipsis",
    "C15_void_or_empty"
   ],
   "note": "The call names for variadic functions are the subject of C48."
  },
  {
   "property": "C16",
   "status": "proved",
   "theorems": [
    "C16_read_names_own",
    "C16_read_names_declared"
   ],
   "note": ""
  },
  {
   "property": "C17",
   "status": "proved",
   "theorems": [
    "C17_format_only_drops_blanks",
    "C17_format_idempotent"
   ],
   "note": ""
  },
  {
   "property": "C18",
   "status": "proved",
   "theorems": [
    "C18_format_keeps_tokens",
    "C18_format_keeps_token_list"
   ],
   "note": ""
  },
  {
   "property": "C19",
   "status": "proved",
   "theorems": [
    "C19_typedefs_of_input",
    "C19_typedef_reads_back",
    "C19_typedefs_of_objects"
   ],
   "note": ""
  },
  {
   "property": "C20",
   "status": "proved",
   "theorems": [
    "C20_replace_complete",
    "C20_replace_shorter",
    "C20_replace_diverges"
   ],
   "note": ""
  },
  {
   "property": "C21",
   "status": "proved",
   "theorems": [
    "C21_line_expanded",
    "C21_mixed_line_fails",
    "C21_templates_expanded"
   ],
   "note": ""
  },
  {
   "property": "C22",
   "status": "partial",
   "theorems": [
    "C22_no_placeholder_left_partial",
    "C22_touching_placeholders_refuted"
   ],
   "note": "Proved when placeholders are separated by a character that is not a letter, digit or underscore; false when three of them touch (finding: the replacement loop re-scans text it has just written)."
  },
  {
   "property": "C23",
   "status": "proved",
   "theorems": [
    "C23_sections",
    "C23_custom_sections",
    "C23_hidden_line",
    "C23_open_section_carried",
    "C21_templates_expanded"
   ],
   "note": "C21_templates_expanded covers sections that stay open over several templates"
  },
  {
   "property": "C24",
   "status": "partial",
   "theorems": [
    "C24_line_numbers_partial",
    "C24_custom_line_numbers_partial",
    "C24_lines_counted_partial",
    "C24_empty_class_refuted"
   ],
   "note": "False for template lines whose class has no symbols: print_lineno writes a number one too small and does not count the directive (finding). Proved for all other templates."
  },
  {
   "property": "C25",
   "status": "partial",
   "theorems": [
    "C25_dump_and_reload_partial",
    "C25_blank_entry_refuted",
    "C25_blank_line_refuted",
    "C25_trailing_mark_refuted"
   ],
   "note": "False: reading a dumped template adds a blank entry, and so a blank output line; an entry ending in @ is joined with its successor (findings). Proved up to the blank entry for entries without trailing mark."
  },
  {
   "property": "C26",
   "status": "proved",
   "theorems": [
    "C26_columns"
   ],
   "note": ""
  },
  {
   "property": "C27",
   "status": "proved",
   "theorems": [
    "C27_longest",
    "C27_defined",
    "C27_lookup"
   ],
   "note": "For two or more symbols; with fewer the prefix is empty (C27_defined), which the lookup theorem covers. Names hold no NUL character."
  },
  {
   "property": "C28",
   "status": "partial",
   "theorems": [
    "C28_text_cut",
    "C28_rename_words_partial",
    "C28_other_text_unchanged",
    "C28_standalone_pair_refuted",
    "C28_digit_prefix_refuted"
   ],
   "note": "False for two standalone gdo words separated by one character and for prefixes starting with a digit (findings); proved for everything else."
  },
  {
   "property": "C29",
   "status": "proved",
   "theorems": [
    "C29_prefix_names",
    "C29_guard_identifier",
    "C29_plain_prefix"
   ],
   "note": ""
  },
  {
   "property": "C30",
   "status": "partial",
   "theorems": [
    "C30_nq_partial",
    "C30_ext_partial",
    "C30_api_partial",
    "C30_plain_partial",
    "C30_quoted_once",
    "C30_dropped_refuted"
   ],
   "note": "Finding: a -library value without mode that begins with a, e or n in either case (avcodec, expat, ncurses) defines no macro at all; proved as C30_dropped_refuted. The other cases are proved."
  },
  {
   "property": "C31",
   "status": "partial",
   "theorems": [
    "C31_defines_partial",
    "C31_define_refuted",
    "C31_includes"
   ],
   "note": "False for a value that ends in a backslash: it joins the definition with the #endif (finding). Proved for identifiers with one-line values, for all sequences of -D, and for all includes."
  },
  {
   "property": "C32",
   "status": "proved",
   "theorems": [
    "C32_arguments_used_once",
    "C32_one_reading",
    "C32_defined"
   ],
   "note": ""
  },
  {
   "property": "C33",
   "status": "proved",
   "theorems": [
    "C33_documented_accepted",
    "C33_undocumented_rejected",
    "C33_any_order"
   ],
   "note": ""
  },
  {
   "property": "C34",
   "status": "partial",
   "theorems": [
    "C34_no_force_partial",
    "C34_only_outputs",
    "C34_dump_scope",
    "C34_extension_replaced",
    "C34_extension_added",
    "C34_hidden_file",
    "C34_dump_refuted"
   ],
   "note": "Proved for generating. Finding: -dump-templates overwrites existing files without -force. The file system is a map from paths to nodes: two spellings of one path, hard links and chains of links are not modelled, nor are other processes."
  },
  {
   "property": "C35",
   "status": "proved",
   "theorems": [
    "C35_pointers_belong_to_library"
   ],
   "note": "dlfcn variant of the template; symbols without duplicates."
  },
  {
   "property": "C36",
   "status": "partial",
   "theorems": [
    "C36_no_use_after_close",
    "C36_nothing_leaked_partial",
    "C36_forced_release_refuted"
   ],
   "note": "No use after close: proved for all loaders. The balance is proved when the loader never refuses to close, or the program does not force a release; false for forced releases the loader refuses."
  },
  {
   "property": "C37",
   "status": "partial",
   "theorems": [
    "C37_load_twice",
    "C37_failed_load",
    "C37_failed_free",
    "C37_messages_partial",
    "C37_path_messages_partial",
    "C37_long_path_refuted",
    "C37_null_symbol_refuted"
   ],
   "note": "State part proved. Messages: proved if the loader explains its failures and paths fit; false for over-long library paths (no message) and for null-valued symbols (\"no error\")."
  },
  {
   "property": "C38",
   "status": "proved",
   "theorems": [
    "C38_queries",
    "C38_load_all"
   ],
   "note": ""
  },
  {
   "property": "C39",
   "status": "proved",
   "theorems": [
    "C39_known_name",
    "C39_unknown_name"
   ],
   "note": ""
  },
  {
   "property": "C40",
   "status": "proved",
   "theorems": [
    "C40_wrapped_call"
   ],
   "note": "For library names without percent signs when autoloading (see C51)."
  },
  {
   "property": "C41",
   "status": "proved",
   "theorems": [
    "C41_registered_once",
    "C41_released_at_exit",
    "C41_none_open_at_exit"
   ],
   "note": ""
  },
  {
   "property": "C42",
   "status": "proved",
   "theorems": [
    "C42_buffers",
    "C42_defined"
   ],
   "note": ""
  },
  {
   "property": "C43",
   "status": "partial",
   "theorems": [
    "C43_success",
    "C43_failure_partial",
    "C43_reported",
    "C43_loaded_state",
    "C43_calls_defined",
    "C43_history_partial",
    "C43_second_load_leaks_refuted",
    "C43_failed_second_load_refuted"
   ],
   "note": "Proved for every loader behaviour, for minimal.h and minimal_cxxeh.hpp (same steps, failures given as strings or exceptions). False of the code when a program loads while a library is loaded: the first handle is never closed, and a failed second load keeps the old pointers without a handle."
  },
  {
   "property": "C44",
   "status": "proved",
   "theorems": [
    "C44_loaded",
    "C44_no_files",
    "C44_released",
    "C44_balance",
    "C44_defined_partial",
    "C44_out_of_memory_refuted"
   ],
   "note": "Proved for lists whose memory can be allocated. Finding: neither malloc nor calloc is checked, so without memory loading is undefined (C44_out_of_memory_refuted)."
  },
  {
   "property": "C45",
   "status": "partial",
   "theorems": [
    "C45_pointers_belong_to_library",
    "C45_handles",
    "C45_nothing_leaked_partial",
    "C45_forced_release_refuted",
    "C45_defined"
   ],
   "note": "Pointers and use of handles proved for all histories. \"Opens minus closes is 0 or 1\" is false of the code when the loader refuses a forced release (destructor): the handle is forgotten while open. Proved whenever the loader never refuses or nothing is forced."
  },
  {
   "property": "C46",
   "status": "partial",
   "theorems": [
    "C46_selection_partial",
    "C46_selection_actual",
    "C46_all_symbols",
    "C46_nothing_else",
    "C46_selection_overlap_refuted",
    "C46_selection_named_type_refuted"
   ],
   "note": "Exact characterization of selection and of the reported names for every dump (colours, CR LF and byte order mark included). Two findings: a name asked for by both -S and -P is reported as missing although it is declared; a selected function whose type is the name of a function type is dropped silently. The partial theorem excludes exactly these cases."
  },
  {
   "property": "C47",
   "status": "proved",
   "theorems": [
    "C47_tables",
    "C47_lookups",
    "C47_program",
    "C47_ast_program",
    "C47_any_input"
   ],
   "note": "Well-formed simple input: header_with and simple_decl of SpecEndToEnd.v (any comments, directives, type definitions and declarations of the accepted forms, without adjacent opening parentheses), with any -P, -S and -line options; or a Clang AST dump (SpecClangAst.v) with ordinary types. Built-in templates. That the loaders look up one name after another is C35 to C45."
  },
  {
   "property": "C48",
   "status": "partial",
   "theorems": [
    "C48_forwarded_names_partial",
    "C48_forwarded_names_refuted"
   ],
   "note": "Holds with -param=read; false with -param=create on variadic functions (finding)."
  },
  {
   "property": "C49",
   "status": "partial",
   "theorems": [
    "C49_directive_continued_partial",
    "C49_comment_continued_partial",
    "C49_blank_line_refuted"
   ],
   "note": "False when blank lines follow the backslash: they and the next non-blank line are swallowed (finding). Proved when the next line starts with a visible character."
  },
  {
   "property": "C50",
   "status": "partial",
   "theorems": [
    "C50_autoload_reason_lost_refuted",
    "C50_example_refuted"
   ],
   "note": "False of the code in every such run: the symbol-loading call that follows clears the message (finding)."
  },
  {
   "property": "C51",
   "status": "partial",
   "theorems": [
    "C51_percent_in_library_name_refuted",
    "C51_defined_partial"
   ],
   "note": "False: the name is concatenated into a printf format (finding). Proved for names without percent signs."
  },
  {
   "property": "C52",
   "status": "proved",
   "theorems": [
    "C52_path_of_current_library"
   ],
   "note": ""
  },
  {
   "property": "C53",
   "status": "proved",
   "theorems": [
    "C53_by_number"
   ],
   "note": ""
  },
  {
   "property": "C54",
   "status": "partial",
   "theorems": [
    "C54_pointer_stays_partial",
    "C54_pointer_lost_refuted"
   ],
   "note": "False for gdo_load_all_symbols, which asks again for loaded symbols and stores null on failure (finding). Proved for all other calls."
  },
  {
   "property": "C55",
   "status": "proved",
   "theorems": [
    "C55_opens_what_was_asked"
   ],
   "note": ""
  },
  {
   "property": "C56",
   "status": "proved",
   "theorems": [
    "C56_entries_are_logical_lines",
    "C56_lines_add_up"
   ],
   "note": ""
  },
  {
   "property": "C57",
   "status": "partial",
   "theorems": [
    "C57_embedded_template_partial",
    "C57_hex_escape_refuted"
   ],
   "note": "False for bytes that are written as hexadecimal escapes in front of hexadecimal digits (finding). Proved for printable files, up to the empty line behind the last line feed."
  },
  {
   "property": "C58",
   "status": "partial",
   "theorems": [
    "C58_windows_lines_partial",
    "C58_marker_refuted"
   ],
   "note": "False: section markers are not recognised with a carriage return (finding). Proved for the reading of entries."
  },
  {
   "property": "C59",
   "status": "partial",
   "theorems": [
    "C59_message_partial",
    "C59_message_refuted"
   ],
   "note": "False for options written with two dashes: --format is reported as -fformat (finding). Proved for one dash."
  },
  {
   "property": "C60",
   "status": "proved",
   "theorems": [
    "C60_same_effect",
    "C60_lacking_value",
    "C60_unknown"
   ],
   "note": ""
  },
  {
   "property": "C61",
   "status": "proved",
   "theorems": [
    "C61_formats",
    "C61_modes"
   ],
   "note": ""
  },
  {
   "property": "C62",
   "status": "partial",
   "theorems": [
    "C62_existing_output_partial",
    "C62_unreadable_template_partial",
    "C62_header_left_refuted",
    "C62_output_lost_refuted",
    "C62_uncaught_refuted"
   ],
   "note": "False of the code in general: a header stays behind when the body cannot be written; with -force the old output is removed before the new one is known to succeed; -force on a directory ends in an uncaught exception."
  },
  {
   "property": "C63",
   "status": "partial",
   "theorems": [
    "C63_single_file",
    "C63_separate_files",
    "C63_standard_output",
    "C63_body_finds_header",
    "C63_directives_partial",
    "C63_lines_counted_partial",
    "C63_second_directive_refuted"
   ],
   "note": "The layout is proved in full for built-in templates; the second line directive is wrong when a template line is for objects (functions) and there are none (finding, same cause as C24)."
  },
  {
   "property": "C64",
   "status": "partial",
   "theorems": [
    "C64_templates_used_partial",
    "C64_license_ignored_refuted",
    "C64_separate_never_completes_refuted",
    "C64_separate_undefined_refuted"
   ],
   "note": "Findings: license.h and filename_macros.h of the directory are read but the built-in ones are written, because the pointer argument is evaluated before the template is loaded; with -separate the second use of the license dereferences a dangling pointer, and no run completes."
  },
  {
   "property": "C65",
   "status": "partial",
   "theorems": [
    "C65_function_types_partial",
    "C65_functions_read_partial",
    "C65_variadic_refuted",
    "C65_returned_function_pointer_refuted",
    "C65_double_pointer_refuted",
    "C65_no_parameters_refuted"
   ],
   "note": "Holds for functions with a fixed, non-empty parameter list, a base or pointer return type and parameters that are base or pointer types or plain pointers to functions or arrays. Findings: the ellipsis is lost, functions returning function pointers are cut off, the name of a pointer to a function pointer is misplaced, (void) becomes ()."
  },
  {
   "property": "C66",
   "status": "partial",
   "theorems": [
    "C66_plain_variables",
    "C66_pointer_typedefs_partial",
    "C66_array_typedefs_partial",
    "C66_variables_read_partial",
    "C66_double_pointer_refuted",
    "C66_array_refuted"
   ],
   "note": "Holds for base and pointer types, plain pointers to functions and arrays of simple types, and arrays. Findings: pointers to function pointers are recorded as plain objects with an unusable type text; an array of pointers to functions taking function pointers stops the program."
  },
  {
   "property": "C67",
   "status": "partial",
   "theorems": [
    "C67_no_duplicates_partial",
    "C67_no_duplicates_refuted"
   ],
   "note": "Holds for -S alone. Finding: with -P or -ast-all-symbols a redeclared function is recorded twice."
  },
  {
   "property": "C68",
   "status": "partial",
   "theorems": [
    "C68_messages_partial",
    "C68_null_symbol_refuted",
    "C68_load_twice",
    "C68_failed_load",
    "C68_free",
    "C68_path_messages_partial",
    "C68_stale_message_refuted",
    "C68_other_objects"
   ],
   "note": "False of the code when the loader gives null without a reason (symbol with address null), and for library_path() on systems with dlinfo and dladdr, where a message survives success."
  },
  {
   "property": "C69",
   "status": "proved",
   "theorems": [
    "C69_queries",
    "C69_load_all",
    "C69_by_number",
    "C69_by_name",
    "C69_unknown_name"
   ],
   "note": ""
  },
  {
   "property": "C70",
   "status": "partial",
   "theorems": [
    "C70_wrapped_call",
    "C70_reason",
    "C70_open_reason_lost_refuted"
   ],
   "note": "Proved except for the reason when the library cannot be opened: quick_load() then overwrites it with \"no library was loaded\"."
  },
  {
   "property": "C71",
   "status": "partial",
   "theorems": [
    "C71_path_of_current_library_partial",
    "C71_stale_path_refuted"
   ],
   "note": "False of the code when another object replaced the library: the path is cached per object, the handle is shared. Proved for programs in which a library is only released through an object while it is the only one."
  },
  {
   "property": "C72",
   "status": "partial",
   "theorems": [
    "C72_destructor",
    "C72_library_stays_partial",
    "C72_foreign_release_refuted",
    "C72_released_at_exit",
    "C72_as_told"
   ],
   "note": "False of the code: the destructor of any object releases the library any other object loaded."
  },
  {
   "property": "C73",
   "status": "partial",
   "theorems": [
    "C73_last_request",
    "C73_told",
    "C73_opens_what_was_asked",
    "C73_flags_not_zero_refuted"
   ],
   "note": "False of the code only in that flags() is not zero before the first attempt, contrary to cxx.hpp."
  },
  {
   "property": "C74",
   "status": "proved",
   "theorems": [
    "C74_settings"
   ],
   "note": "Added after mutations o20 and o21 (prefixes forgotten, includes reversed) survived."
  },
  {
   "property": "C75",
   "status": "proved",
   "theorems": [
    "C75_every_line",
    "C75_filled",
    "C75_nothing_left"
   ],
   "note": "Templates.v holds the text of /repo/src/templates as data (copied by a script, see DESIGN.md). Usable prefixes: the default, or any non-empty text that does not begin with a digit."
  },
  {
   "property": "C76",
   "status": "partial",
   "theorems": [
    "C76_tables_plain_partial",
    "C76_ast_partial",
    "C76_ast_refuted"
   ],
   "note": "Proved for text input with any options, and for Clang AST dumps whose types are ordinary. False of the code for a dump that holds an unnamed structure, whose type text is taken as it is and holds the path of the header (C76_ast_refuted); repeated names in a dump are C67."
  },
  {
   "property": "C77",
   "status": "proved",
   "theorems": [
    "C77_one_file",
    "C77_two_files",
    "C77_standard_output",
    "C77_macros"
   ],
   "note": "Symbols: any plain ones (C76). Numbers in line directives with -line are the subject of C63."
  },
  {
   "property": "C78",
   "status": "partial",
   "theorems": [
    "C78_right_library",
    "C78_found_partial",
    "C78_letters_missed",
    "C78_found_refuted",
    "C78_same_answer_partial",
    "C78_same_answer_refuted",
    "C78_any_text",
    "C78_for_C71"
   ],
   "note": "A reported path is always that of the right mapping (no restriction). That it is found holds if offset and device have only decimal digits: the code reads these hexadecimal fields with %u, so libraries on e.g. device fd:00 are never found (refuted). Names with a newline are returned as printed by the kernel, with \\012 (refuted)."
  },
  {
   "property": "C79",
   "status": "proved",
   "theorems": [
    "C79_tokens",
    "C79_matches",
    "C79_one_token",
    "C79_any_reads"
   ],
   "note": "For every file and every sequence of read sizes. The buffer is a list: its size and growth, int overflow and read errors are not modelled."
  },
  {
   "property": "C80",
   "status": "partial",
   "theorems": [
    "C80_pointers_belong_to_library",
    "C80_no_use_after_free_partial",
    "C80_nothing_leaked_partial",
    "C80_nonzero_bool_refuted",
    "C80_queries",
    "C80_load_all",
    "C80_by_name",
    "C80_unknown_name",
    "C80_by_number",
    "C80_registered_once",
    "C80_released_at_exit",
    "C80_path_of_current_library",
    "C80_defined"
   ],
   "note": "By a simulation with the model of the dlfcn variant. False in general: FreeLibrary()==TRUE takes a success reported by another nonzero value for a failure, the released handle is kept and used (C80_nonzero_bool_refuted); proved for systems that return only 0 and 1. Forced releases the system refuses leak, as in C36."
  },
  {
   "property": "C81",
   "status": "partial",
   "theorems": [
    "C81_last_error",
    "C81_reports",
    "C81_path_reports",
    "C81_success_text_refuted",
    "C81_conversion_refuted"
   ],
   "note": "Proved which message and code every failure leaves. Not every such message tells the failure: \"library already loaded\" and a failed atexit() are followed by the text for success, and the message about an unconvertible file name is overwritten, with the code of an earlier call."
  },
  {
   "property": "C82",
   "status": "proved",
   "theorems": [
    "C82_opens_what_was_asked"
   ],
   "note": "For single-byte characters."
  },
  {
   "property": "C83",
   "status": "partial",
   "theorems": [
    "C83_wrapped_call",
    "C83_reason_lost_refuted",
    "C83_reason_example_refuted",
    "C83_dlfcn_box_refuted",
    "C83_dlfcn_no_box"
   ],
   "note": "The reason is lost when the library cannot be opened (as C50). With dlfcn-win32 and message boxes the message is copied from a buffer into itself, which is undefined."
  },
  {
   "property": "C84",
   "status": "proved",
   "theorems": [
    "C84_macros"
   ],
   "note": ""
  },
  {
   "property": "C85",
   "status": "proved",
   "theorems": [
    "C85_header",
    "C85_body",
    "C85_tables",
    "C85_program"
   ],
   "note": "Texts copied verbatim from the command line (-D, -include, -library) are required to be closed themselves. Brackets in a group of a conditional have to be the same in all groups, except that __cplusplus is taken as known."
  },
  {
   "property": "C86",
   "status": "proved",
   "theorems": [
    "C86_printed",
    "C86_reread"
   ],
   "note": "Stated for the parameter modes that do not invent names (read and skip); simple_decl and header_with are the classes of C47."
  },
  {
   "property": "C87",
   "status": "proved",
   "theorems": [
    "C87_dumped",
    "C87_usable"
   ],
   "note": "The targets must be writable and must not be links or directories."
  },
  {
   "property": "C88",
   "status": "proved",
   "theorems": [
    "C88_nothing_before_reading",
    "C88_wrong_options",
    "C88_no_input",
    "C88_standard_input_once",
    "C88_unreadable_input",
    "C88_wrong_input",
    "C88_illegal_byte"
   ],
   "note": "Failures while generating are the subject of C62."
  },
  {
   "property": "C89",
   "status": "partial",
   "theorems": [
    "C89_statements_partial",
    "C89_collected_partial",
    "C89_tagged_refuted",
    "C89_open_comment_refuted",
    "C89_open_block_refuted"
   ],
   "note": "Proved for every accepted text: all statements that do not begin with struct, union, enum or typedef become symbols or are left out by -P/-S. The full property is refuted: a prototype beginning with struct/union/enum (struct tm *gmtime(...)) is dropped without a message, and so is everything behind a comment or a brace that is not closed."
  },
  {
   "property": "C90",
   "status": "partial",
   "theorems": [
    "C90_directive_partial",
    "C90_multiline_comment_refuted",
    "C90_behind_comment_refuted"
   ],
   "note": "Proved for directives with one-line comments, continued lines, slashes and backslashes. Refuted in general (findings): with a comment over several lines the rest of the directive is scanned as code (the type of the next declaration becomes \"5 int\" in the example, and this is accepted); a directive behind a comment on the same line is an illegal character."
  },
  {
   "property": "C91",
   "status": "partial",
   "theorems": [
    "C91_words_partial",
    "C91_in_front",
    "C91_empty_line_refuted",
    "C91_backslash_refuted"
   ],
   "note": "Proved for option lines with words behind %option and continued lines set off by a blank. Refuted in general (findings): a bare %option takes the next line for options; a backslash at the end of a word does not continue the line but belongs to the option."
  },
  {
   "property": "C92",
   "status": "proved",
   "theorems": [
    "C92_generated_code"
   ],
   "note": "For the default prefix gdo, without -line, outside Windows and AIX. The header macros _T and GDO_RAWPTR_x are taken from c.h as they are (SpecBody.header_macros), as are the types and constants of the headers; the procmap helper, called by the functions, is the one of C78."
  },
  {
   "property": "C93",
   "status": "proved",
   "theorems": [
    "C93_handle",
    "C93_pointers"
   ],
   "note": "For the default prefix, without -line, outside Windows and AIX."
  },
  {
   "property": "C94",
   "status": "proved",
   "theorems": [
    "C94_wrappers"
   ],
   "note": "Whether the type is void is decided without regard to letter case, see C105. For functions without variable arguments and without a user-defined hook; parameter names are words (which C18 to C21 establish); words of the declaration are none of the macros the header defines; the function is not called DECL. Macros set from outside, such as GDO_WRAP_VISIBILITY itself, are left unexpanded."
  },
  {
   "property": "C95",
   "status": "partial",
   "theorems": [
    "C95_separate",
    "C95_single_partial",
    "C95_visible_refuted",
    "C95_skip_refuted"
   ],
   "note": "Proved for separate files and for single files without visible wrappers. Refuted twice: in a single file with GDO_WRAP_VISIBILITY c.c:978 tests GDO_WRAP_IS_VISIBLE, which nothing sets, so the name stands for GDO_WRAP_x while the wrapper is called x; with -param=skip and GDO_WRAP_FUNCTIONS the name stands for a wrapper that is not generated."
  },
  {
   "property": "C96",
   "status": "proved",
   "theorems": [
    "C96_single_file",
    "C96_body_file",
    "C96_order"
   ],
   "note": "For the default prefix, without -line, outside Windows and AIX; the four templates in the order in which the tool writes them in one file (C96_single_file), and the body file with the header it includes (C96_body_file). Constants and types of the system headers and the header constants GDO_BUFLEN, GDO_DEFAULT_FLAGS, LM_ID_NEWLM and RTLD_DI_LINKMAP are interpreted as in C92."
  },
  {
   "property": "C97",
   "status": "partial",
   "theorems": [
    "C97_code_read_partial",
    "C97_hidden_type_refuted"
   ],
   "note": "Proved with a reader for C tokens (SpecCRead.v: operators by their levels, casts told from brackets by the names of types, declarations, statements, functions) under the condition that no type is called like a variable of the generated functions and that types begin with a name. Without it the statement is false (C97_hidden_type_refuted): with a variable of a type called symbol the generated function gdo_load_symbol_name is not C, because its parameter symbol hides the type. Types in casts are only taken as words with matching brackets."
  },
  {
   "property": "C98",
   "status": "partial",
   "theorems": [
    "C98_separate_partial",
    "C98_single_partial",
    "C98_separate_refuted",
    "C98_single_refuted",
    "C98_one_reading"
   ],
   "note": "Holds where no variable is followed directly by a member or an index (C98_separate_partial, C98_single_partial). False otherwise, for every variable of every library (C98_separate_refuted, C98_single_refuted): the alias is *GDO_RAWPTR_n without brackets, so n[i] is read as *(gdo_hndl.GDO_PTR_n[i]) and n.x as *(gdo_hndl.GDO_PTR_n.x). For an array this reads i arrays further on instead of element i. Words of the expression that are macros of the header, calls through names of library functions, and ++ and -- are not covered."
  },
  {
   "property": "C99",
   "status": "proved",
   "theorems": [
    "C99_single_replaced",
    "C99_body_replaced",
    "C99_one_text"
   ],
   "note": "Joins C92, C96 and C97: before, the macros used inside functions were replaced on syntax trees with the table header_macros; here their text is replaced by the preprocessor rules of SpecCMacro.v with the table that the preprocessed header and the text before the function define, and the result is read by the grammar of SpecCRead.v. The constants in left_alone (SpecCWhole.v) are not replaced since the runs are given their values; macros of the system headers are not in the table."
  }
 ]
}
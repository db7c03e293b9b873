{
 "claims": [
  {
   "property": "C01",
   "status": "proved",
   "theorems": [
    "address_lookup_exact",
    "address_tree_balanced"
   ],
   "note": "AddrProps.v; every sort routine, both address spaces"
  },
  {
   "property": "C02",
   "status": "proved",
   "theorems": [
    "address_range_lookup_exact"
   ],
   "note": "AddrProps.v"
  },
  {
   "property": "C03",
   "status": "proved",
   "theorems": [
    "symbol_at_address_nearest",
    "indexed_symbols"
   ],
   "note": "SymProps.v; every insertion history; what is indexed, and under which name, in indexed_symbols (witness macos_symbol)"
  },
  {
   "property": "C04",
   "status": "proved",
   "theorems": [
    "exact_lookup_is_last_indexed",
    "short_name_lookup_exact",
    "file_symbol_is_last_indexed"
   ],
   "note": "SymProps.v"
  },
  {
   "property": "C05",
   "status": "proved",
   "theorems": [
    "path_lookup_sound_complete"
   ],
   "note": "SymProps.v; queries whose segments contain no colon; the least match in name order is returned"
  },
  {
   "property": "C06",
   "status": "partial",
   "theorems": [
    "parse_always_terminates",
    "parse_never_panics_partial",
    "foreign_character_refused",
    "parse_never_panics_refuted"
   ],
   "note": "ExprProps.v, ExprText.v; termination for every input; panic freedom for ASCII, and where the first non-ASCII character is outside literals; the code panics on non-ASCII string literals (finding)"
  },
  {
   "property": "C07",
   "status": "partial",
   "theorems": [
    "display_roundtrip_partial",
    "display_roundtrip_refuted"
   ],
   "note": "ExprProps.v; proved for ASCII input, refuted for non-ASCII"
  },
  {
   "property": "C08",
   "status": "proved",
   "theorems": [
    "grammar_complete",
    "grammar_sound",
    "grammar_unambiguous",
    "prefix_binds_looser"
   ],
   "note": "ExprProps.v"
  },
  {
   "property": "C09",
   "status": "proved",
   "theorems": [
    "decimal_literal_exact",
    "hex_literal_exact",
    "number_tokens_fit"
   ],
   "note": "ExprProps.v; literals in ASCII inputs"
  },
  {
   "property": "C10",
   "status": "partial",
   "theorems": [
    "whole_input_refuted",
    "accepted_prefix_partial"
   ],
   "note": "ExprProps.v; false of the code: trailing tokens are dropped (finding)"
  },
  {
   "property": "C100",
   "status": "partial",
   "theorems": [
    "opened_file_partial",
    "remap_idempotent",
    "opened_file_refuted"
   ],
   "note": "LoadProps.v; holds when no mapping target lies under a mapping source; the path is mapped twice (refuted, finding); witness ex_separate"
  },
  {
   "property": "C101",
   "status": "proved",
   "theorems": [
    "function_found",
    "function_not_found"
   ],
   "note": "BinaryProps.v, spec BinarySpec.v; witness app_found. Hypotheses: readable units (Rust language attribute), one offset per DIE"
  },
  {
   "property": "C102",
   "status": "proved",
   "theorems": [
    "symbol_found"
   ],
   "note": "BinaryProps.v; witness app_symbol"
  },
  {
   "property": "C103",
   "status": "partial",
   "theorems": [
    "address_located_sound",
    "address_located_partial",
    "address_inside_function_refuted"
   ],
   "note": "BinaryProps.v; located when the line table has a row for exactly this address and only one function covers it; another address inside a function is not located (address_inside_function_refuted in BinaryExample8.v, finding); witness app_attributed"
  },
  {
   "property": "C104",
   "status": "partial",
   "theorems": [
    "variable_found_partial",
    "variable_absent",
    "variables_found",
    "variables_nowhere",
    "plan_agrees",
    "variable_shadowing_refuted"
   ],
   "note": "BinaryVars.v; of several declarations of the same name the earliest is answered (variable_shadowing_refuted in BinaryExample8.v, finding, see C48); witness app_x, app_absent, app_all"
  },
  {
   "property": "C105",
   "status": "partial",
   "theorems": [
    "variable_means_partial",
    "integer_variable_printed_partial",
    "shadowed_value_printed_refuted"
   ],
   "note": "BinarySession.v; for addresses and names as in C103/C104 (shadowed_value_printed_refuted in BinaryExample8.v); witness app_printed, app_fits"
  },
  {
   "property": "C106",
   "status": "proved",
   "theorems": [
    "workspace_type_found",
    "workspace_std_type_found",
    "plain_name_not_found",
    "no_workspace_no_types"
   ],
   "note": "BinaryTypes.v; witness BinaryExample2.v app_order, app_order_unknown, app_well. Hypotheses: well-formed files, members of the module have readable type names; findings: without a detected workspace, and for unqualified names, nothing is found (proved)"
  },
  {
   "property": "C107",
   "status": "partial",
   "theorems": [
    "source_line_located_partial",
    "line_to_address_refuted"
   ],
   "note": "BinaryLines.v; for DWARF 4 line tables; with DWARF 5 tables file indices are off by one (line_to_address_refuted, finding); witness app_lines, app_line, app_line_code"
  },
  {
   "property": "C108",
   "status": "partial",
   "theorems": [
    "functions_listed",
    "functions_answered",
    "all_functions_listed_partial",
    "all_functions_refuted",
    "discover_functions_refuted"
   ],
   "note": "BinaryDiscover.v; the listing of all functions is keyed by displayed name, so of several functions so displayed one is lost (all_functions_refuted, finding); patterns ending in a hash-like name are excluded (discover_functions_refuted); witness app_listed, app_made"
  },
  {
   "property": "C109",
   "status": "partial",
   "theorems": [
    "methods_listed_partial",
    "die_range_found",
    "trait_methods_of_last_module_refuted",
    "one_bad_method_hides_all_refuted"
   ],
   "note": "BinaryMethods.v, ModulePlaces.v; trait methods are searched in the unit's root when no DIE of another namespace follows the type in its unit (trait_methods_of_last_module_refuted, finding); one unresolvable self parameter fails the listing (one_bad_method_hides_all_refuted); witness point_listed in BinaryExample3.v"
  },
  {
   "property": "C11",
   "status": "partial",
   "theorems": [
    "string_literal_content_partial",
    "string_literal_exactly_ascii",
    "unterminated_string_rejected",
    "string_literal_content_refuted"
   ],
   "note": "ExprProps.v, ExprText.v; proved for ASCII, refuted otherwise: after ASCII text a literal is read as written exactly when it is ASCII (string_literal_exactly_ascii, finding)"
  },
  {
   "property": "C110",
   "status": "partial",
   "theorems": [
    "plain_value_printed_partial",
    "found_reads",
    "nested_place_refuted"
   ],
   "note": "BinaryEval.v, PlainSpec.v, PlainProofs.v; proved for fields of variables of struct type, elements of variables of array type or Vecs with sized elements, map entries by key, indices and keys taken from places; a field or element of a place whose type is itself declared (nested structs, arrays in structs), of a reference or of a slice is always refused (nested_place_refuted, finding); witness outer_printed, inner_printed, reference_printed, bag_printed, item_printed, map_printed, entry_printed, nested_refused, slice_refused in BinaryExample4.v"
  },
  {
   "property": "C111",
   "status": "proved",
   "theorems": [
    "all_methods_listed",
    "all_methods_answered"
   ],
   "note": "BinaryReport.v; any function with a first parameter is listed under the type of that parameter; the listing answers whenever every signature is settled; witness app_all_methods in BinaryExample5.v"
  },
  {
   "property": "C112",
   "status": "partial",
   "theorems": [
    "all_functions_analysed_partial",
    "all_methods_answered",
    "all_functions_analysed_refuted"
   ],
   "note": "BinaryReport.v; the report is keyed by displayed name, so of several functions so displayed only one is reported and a function with debug information may be reported to have none (all_functions_analysed_refuted, finding); witness app_report in BinaryExample5.v"
  },
  {
   "property": "C113",
   "status": "partial",
   "theorems": [
    "builtin_method_printed_partial",
    "result_method_refuted"
   ],
   "note": "BinarySynth.v; slices and texts with their length at offset 8; a Result tagged in four bytes always answers is_ok() = true (result_method_refuted, finding); maps have no len (C27); witness items_len, items_capacity, name_is_empty, opt_is_some, both_len, sl_len, err_is_ok in BinaryExample6.v"
  },
  {
   "property": "C114",
   "status": "partial",
   "theorems": [
    "function_call_printed_partial",
    "method_call_printed_partial",
    "nested_argument_refuted"
   ],
   "note": "BinaryCall.v; arguments that are numbers or places (string literals: C126; nested calls run twice: C77); a function name that only one function of the binary ends in; a place whose type is only declared (a nested user type) is passed by address instead of by value (nested_argument_refuted, finding), and a result of unknown size is printed as a number; witness double_printed, sum_printed, address_printed in BinaryExample7.v"
  },
  {
   "property": "C115",
   "status": "proved",
   "theorems": [
    "identifier_read",
    "identifier_characters",
    "white_space_exact",
    "words_decide"
   ],
   "note": "ExprText.v, TypedProps.v; witness identifier_example"
  },
  {
   "property": "C116",
   "status": "proved",
   "theorems": [
    "foreign_character_refused",
    "lengths_are_utf8",
    "slice_is_of_bytes"
   ],
   "note": "ExprText.v; witness foreign_example"
  },
  {
   "property": "C117",
   "status": "proved",
   "theorems": [
    "connections_isolated",
    "connection_is_session",
    "interleaved_session"
   ],
   "note": "ServeProps.v; threads run between reads without being observed: the shared memoization is the subject of C128 (its questions may be interleaved in any order); witnesses interleaved, meets_isolation in ServeExample.v"
  },
  {
   "property": "C118",
   "status": "partial",
   "theorems": [
    "stops_only_when_asked",
    "stop_stops",
    "stop_exactly",
    "shutdown_in_session",
    "stopped_server_is_silent",
    "stop_message",
    "stop_reaches_partial",
    "stop_only_there",
    "stop_success_sent",
    "stop_unsent_reported",
    "host_names_refused",
    "stop_by_name_refuted",
    "stop_effective_refuted"
   ],
   "note": "ServeProps.v, ServeStop.v; stop accepts no host names although start does (stop_by_name_refuted, finding), and reports success although the server goes on when its answer cannot be written (stop_effective_refuted, finding); witnesses meets_stop, stop_by_address in ServeExample.v"
  },
  {
   "property": "C119",
   "status": "partial",
   "theorems": [
    "install_installs_partial",
    "install_writes_offered",
    "install_keeps_lldbinit",
    "install_touches_only",
    "install_asks_first",
    "import_follows_answer",
    "without_home",
    "install_idempotent",
    "last_line_glued_refuted",
    "mention_is_not_import_refuted"
   ],
   "note": "InstallProps.v; when ~/.lldbinit does not end in a line feed the import is glued to its last line, and a line that only mentions the import counts as it (last_line_glued_refuted, mention_is_not_import_refuted in InstallExample.v, findings), hence install_installs_partial supposes neither; a write broken off in the middle is not modelled; witnesses installed, meets_install"
  },
  {
   "property": "C12",
   "status": "partial",
   "theorems": [
    "symbol_path_with_hash_partial",
    "symbol_path_without_hash_partial",
    "symbol_path_refuted"
   ],
   "note": "SymProps.v; exact for balanced segments; `->` inside brackets breaks splitting (finding)"
  },
  {
   "property": "C120",
   "status": "partial",
   "theorems": [
    "functions_command_printed",
    "all_functions_command_printed_partial",
    "all_functions_refuted",
    "discover_functions_refuted"
   ],
   "note": "BinaryCommands.v; `rd functions` alone prints one line per displayed name, so of several functions displayed alike only one (all_functions_refuted, finding); patterns ending in a hash-like name are excluded (discover_functions_refuted, finding); witnesses total_command_listed, total_command, all_command_listed in BinaryExample9.v"
  },
  {
   "property": "C121",
   "status": "partial",
   "theorems": [
    "methods_command_printed_partial",
    "methods_of_value_printed_partial",
    "trait_methods_of_last_module_refuted",
    "one_bad_method_hides_all_refuted"
   ],
   "note": "BinaryCommands.v (types), BinaryValueMethods.v (variables and paths from them); which methods are listed is C109's partial statement (trait methods of a type in the last module of its unit are missed, one unresolvable self parameter fails the listing: findings); types of the workspace outside std, core, alloc and hashbrown; witnesses shop_command in BinaryExample9.v, value_methods in BinaryExample10.v"
  },
  {
   "property": "C122",
   "status": "partial",
   "theorems": [
    "written_type_read_partial",
    "written_type_unique",
    "pointer_means",
    "reference_means",
    "slice_means",
    "array_means",
    "tuple_means",
    "function_means",
    "written_type_read_refuted"
   ],
   "note": "TypeGrammar.v is the grammar; left out are forms the code reads otherwise: fn() gets one nameless parameter, (T) is read as a one-tuple (so &(dyn A + B) is a reference to a tuple), trailing commas add an element, &mut [T] is an array of length 0, closure names are not read (written_type_read_refuted, findings); witnesses u8_written, pointer_example, const_written in TypeGrammarProps.v"
  },
  {
   "property": "C123",
   "status": "partial",
   "theorems": [
    "server_started_if_needed",
    "server_is_started",
    "server_given_time",
    "answering_server_used",
    "no_server_left_behind",
    "connected_to_answering_server",
    "sent_on_connection",
    "unsent_reported",
    "answer_shown",
    "looking_only",
    "status_reported",
    "one_connection",
    "end_of_server_reported",
    "slow_server_reported",
    "server_restarted_refuted"
   ],
   "note": "AutoProps.v, AutoLive.v, AutoEnd.v; witnesses started_and_connected, killed, ended_at_once, killed_after_wait. Everything but the last sentence is proved; that a server which has ended is started again is refuted (the closed connection is kept, finding)"
  },
  {
   "property": "C124",
   "status": "partial",
   "theorems": [
    "modules_indexed_partial",
    "module_index_panics_exactly",
    "nameless_namespace_refuted"
   ],
   "note": "ModulePanic.v; proved for the files rustc writes (every namespace named), with the exact condition under which it panics: a Rust unit with a namespace, inside namespaces only, whose name is missing or unreadable (finding); witness example_indexed. Errors inside gimli's decoding are not modelled"
  },
  {
   "property": "C125",
   "status": "partial",
   "theorems": [
    "mistake_reported",
    "unreadable_expression_reported",
    "unknown_method_reported",
    "wrong_arity_reported_partial",
    "failed_call_reported",
    "failed_method_reported",
    "no_frame_reported",
    "wrong_method_arity_refuted"
   ],
   "note": "BinaryAstray.v; `astray` is the specification of expressions that designate nothing, over the places of C110. A method given the wrong number of arguments is not refused but called (wrong_method_arity_refuted in BinaryExample11.v, finding); for functions it is proved. Fields and elements of structs, tuples, enums, pointers and unresolved user types are left out of 'has none' (what the code refuses there though it exists is C110's finding). Witnesses no_variable, no_field, beyond_array, beyond_vec, no_key, field_of_number, element_of_number, no_function_, unreadable, no_frame, double_fails, sum_fails, too_many, no_method in BinaryExample11.v"
  },
  {
   "property": "C126",
   "status": "proved",
   "theorems": [
    "function_call_with_texts",
    "method_call_with_texts"
   ],
   "note": "BinaryCallText.v; `has_heap` specifies the target's allocator and memory, `text_at` the text as a String or &str; empty texts are outside the statement (LLDB is then asked to write nothing); witnesses greet_printed (a String, a &str and a place) and tag_printed in BinaryExample12.v, on a debugger with a heap (heap_has)"
  },
  {
   "property": "C127",
   "status": "partial",
   "theorems": [
    "nested_expression_printed_partial",
    "argument_call_runs_once_refuted"
   ],
   "note": "BinaryNested.v; `shows` is the specification, a relation over the debugger's states; proved for calls as objects at any depth and for call arguments whose results have a known size; an argument that is a call returning a number of unknown size (no declared result) is run twice (refuted, finding, see also C77). Witnesses chain_printed (origin(i).moved(3).y on a debugger that records what it evaluates) and twice_printed in BinaryExample13.v"
  },
  {
   "property": "C128",
   "status": "partial",
   "theorems": [
    "answers_from_first_readings",
    "answers_of_unchanged_files",
    "questions_answered",
    "rebuild_noticed_refuted",
    "one_version_refuted"
   ],
   "note": "CacheProps.v, CacheExample.v; everything but the last sentence is proved; a connection that has been asked something keeps answering from the old files after a rebuild (rebuild_noticed_refuted, finding), and one asked while the files are being rebuilt mixes versions (one_version_refuted, finding). salsa's own contract (a tracked function is computed once per key) is modelled, not verified; files are replaced, not overwritten under a map; witnesses session_answered, session_ends, second_connection"
  },
  {
   "property": "C129",
   "status": "partial",
   "theorems": [
    "watched_server",
    "unwatched_server_partial",
    "unwatched_server_refuted"
   ],
   "note": "OutProps.v; proved as long as what is written (before and during the session) fits into the pipes, and that otherwise the session hangs at some point; for pipes of every size a repeated failing `rd methods` makes a server that was started on demand hang before answering, and LLDB with it (unwatched_server_refuted, finding; rudy_lldb.py 907-912 never reads the pipes it makes). witnesses quiet_session, panic_hangs"
  },
  {
   "property": "C13",
   "status": "partial",
   "theorems": [
    "function_name_kept_partial",
    "function_name_kept_refuted"
   ],
   "note": "SymProps.v; names like hface are dropped as hashes (finding)"
  },
  {
   "property": "C130",
   "status": "proved",
   "theorems": [
    "command_line_exact",
    "client_words_understood"
   ],
   "note": "CliProps.v; client_starts: these are the words AutoModel's server_command ends with. So with RUDY_PORT=70000, or a RUDY_HOST beginning with a dash, the started server only prints a usage error (port_refused). Witnesses install_spelled, port_spelled"
  },
  {
   "property": "C131",
   "status": "partial",
   "theorems": [
    "installed_found_partial",
    "relative_found_only_there_refuted",
    "space_never_found_refuted"
   ],
   "note": "FindProps.v; proved for a directory with an absolute path without blanks, quotes or backslashes, under the hypotheses of install_installs_partial; with any other relative directory the script is found from the directory of the installation only, and with a space in the path from nowhere (findings; main.rs 209 writes the path as it was given and does not quote it). Witnesses home_found, home_loads, tools_relative, reads_exists"
  },
  {
   "property": "C132",
   "status": "partial",
   "theorems": [
    "shallow_expressions_parsed_partial",
    "short_expressions_parsed_partial",
    "stack_changes_nothing_else",
    "deep_expression_ends_the_server_refuted"
   ],
   "note": "StackProps.v; proved for every expression whose opening brackets and prefix operators number at most a quarter of the stack's frames (less 3); for every stack there is a well-formed expression one character longer than the stack has frames that ends the process, and with it every connection (deep_expression_ends_the_server_refuted, finding: the parser has no limit on nesting, rudy-parser/src/expressions.rs 358-520). Frames of functions that do not recurse are not counted; nor is the recursion of the evaluator over the expression. Witnesses nested_fits, parens_overflow"
  },
  {
   "property": "C133",
   "status": "partial",
   "theorems": [
    "name_reading_bounded_by_nesting_partial",
    "name_read_in_linear_time_partial",
    "counting_changes_nothing",
    "nested_tuples_take_exponential_time_refuted",
    "nested_array_references_take_exponential_time_refuted",
    "reading_is_not_linear_refuted"
   ],
   "note": "TypeCostProps.v; proved for every well-formed name (plain, sound: raw pointers, unsafe fn and unparsed <..> are left out): at most 2^d steps per character, d the number of tuples of two or more and of shared references to arrays on a way down, so one step per character without those. False without the bound on d: types.rs 117-130 reads the first element of (a, b) once as Arity1 and again as ArityN, and &[T; n] is read once as a slice; 2^k steps for names of 6k+2 characters. Witnesses linear_holds, bounded_holds, counted"
  },
  {
   "property": "C14",
   "status": "partial",
   "theorems": [
    "type_matching_exact",
    "type_matching_reflexive",
    "type_matching_symmetric",
    "matching_types_display_alike",
    "type_matching_transitive_partial",
    "type_matching_transitive_refuted",
    "matching_ignores_placement_refuted"
   ],
   "note": "TypesProps.v; not transitive through name-only types, and map types match only with equal field offsets (findings)"
  },
  {
   "property": "C15",
   "status": "proved",
   "theorems": [
    "dereferenced_strips_all",
    "dereferenced_unique",
    "dereferenced_idempotent",
    "dereferenced_of_reference"
   ],
   "note": "TypesProps.v"
  },
  {
   "property": "C16",
   "status": "partial",
   "theorems": [
    "type_size_exact_partial",
    "type_size_unknown_iff_named_only",
    "type_size_aborts_only_on_overflow",
    "array_size_overflow_detected",
    "type_size_covers_refuted"
   ],
   "note": "TypesProps.v; cells (RefCell, Mutex, ...) get the size of the `()` instance (finding)"
  },
  {
   "property": "C17",
   "status": "proved",
   "theorems": [
    "unsigned_integers_read_exactly",
    "signed_integers_read_exactly",
    "all_bytes_are_integers",
    "other_integer_widths_rejected"
   ],
   "note": "DataProps.v"
  },
  {
   "property": "C18",
   "status": "proved",
   "theorems": [
    "array_elements_located",
    "vec_elements_located",
    "slice_elements_located",
    "sequence_positions"
   ],
   "note": "DataProps.v; sequences that fit in the address space"
  },
  {
   "property": "C19",
   "status": "proved",
   "theorems": [
    "hash_map_entries_exact",
    "hash_map_entries_by_count",
    "hash_map_buckets_distinct"
   ],
   "note": "DataProps.v"
  },
  {
   "property": "C20",
   "status": "partial",
   "theorems": [
    "btree_map_in_order_partial",
    "empty_btree_map",
    "btree_map_in_order_refuted"
   ],
   "note": "DataProps.v; every tree with sized keys and values; maps with zero-sized values (BTreeSet) read as empty (finding)"
  },
  {
   "property": "C21",
   "status": "partial",
   "theorems": [
    "enum_variant_selected",
    "enum_variant_shown",
    "implicit_variant_selected_partial",
    "implicit_variant_selected_refuted"
   ],
   "note": "DataProps.v; full for integer discriminants; for implicit ones the offset is added twice (finding)"
  },
  {
   "property": "C22",
   "status": "proved",
   "theorems": [
    "c_enum_read_by_name"
   ],
   "note": "DataProps.v"
  },
  {
   "property": "C23",
   "status": "partial",
   "theorems": [
    "tuple_variant_order_partial",
    "tuple_variant_order_refuted"
   ],
   "note": "DataProps.v; up to ten fields; with eleven the order is lexicographic by name (finding)"
  },
  {
   "property": "C24",
   "status": "partial",
   "theorems": [
    "option_read_partial",
    "option_read_one_byte",
    "option_read_refuted",
    "option_reader_disagrees_refuted",
    "option_reader_agrees_partial"
   ],
   "note": "DataProps.v; only the lowest discriminant byte is consulted (finding)"
  },
  {
   "property": "C25",
   "status": "partial",
   "theorems": [
    "advertised_methods_evaluate",
    "only_advertised_methods_evaluate_partial",
    "only_advertised_methods_evaluate_refuted"
   ],
   "note": "SynthProps.v; every advertised method evaluates (full claim); the converse fails for String::capacity (finding), proved otherwise"
  },
  {
   "property": "C26",
   "status": "proved",
   "theorems": [
    "is_some_opposes_is_none",
    "is_ok_opposes_is_err",
    "is_empty_iff_len_zero"
   ],
   "note": "SynthProps.v; every memory, resolver and layout"
  },
  {
   "property": "C27",
   "status": "partial",
   "theorems": [
    "vec_len_counts_elements",
    "array_len_counts_elements",
    "string_len_counts_bytes",
    "slice_len_counts_elements_partial",
    "str_slice_len_counts_bytes_partial",
    "slice_len_counts_elements_refuted",
    "map_len_unavailable_refuted"
   ],
   "note": "SynthProps.v; Vec, arrays and Strings in full; slices and string slices only when the length field is at offset 8 (hard-coded); maps have no len (findings)"
  },
  {
   "property": "C28",
   "status": "partial",
   "theorems": [
    "array_index_exact",
    "vec_index_exact",
    "array_index_agrees_with_reading_partial",
    "vec_index_agrees_with_reading_partial",
    "index_agrees_with_reading_refuted",
    "named_element_index_fails_refuted"
   ],
   "note": "AccessProps.v; elements known by name only (every user struct) cannot be indexed (finding)"
  },
  {
   "property": "C29",
   "status": "partial",
   "theorems": [
    "slice_index_refuted"
   ],
   "note": "AccessProps.v; false of the code: indexing a slice never succeeds (finding)"
  },
  {
   "property": "C30",
   "status": "proved",
   "theorems": [
    "struct_field_designated",
    "struct_field_agrees_with_reading",
    "field_access_needs_struct",
    "struct_fields_located"
   ],
   "note": "AccessProps.v, DataProps.v"
  },
  {
   "property": "C31",
   "status": "partial",
   "theorems": [
    "map_index_exact_partial",
    "map_index_exact_refuted",
    "map_index_scalar_keys_only"
   ],
   "note": "AccessProps.v; keys that begin or end with a quote are confused (finding)"
  },
  {
   "property": "C32",
   "status": "proved",
   "theorems": [
    "created_string_reads_back",
    "only_text_parameters"
   ],
   "note": "CreateProps.v; every text, allocator, memory and non-overlapping layout; UTF-8 defined in Utf8.v"
  },
  {
   "property": "C33",
   "status": "partial",
   "theorems": [
    "created_str_reads_back_partial",
    "created_str_stays_inside_refuted",
    "created_large_str_refuted",
    "only_text_parameters"
   ],
   "note": "CreateProps.v; proved for 16-byte layouts and texts up to 1 MiB; an offset of 16 is accepted and written outside the block, larger texts are refused after being written (findings)"
  },
  {
   "property": "C34",
   "status": "partial",
   "theorems": [
    "value_order_total",
    "value_order_antisymmetric",
    "value_order_transitive",
    "value_order_equal_up_to_pointer_types",
    "value_order_equal_partial",
    "value_order_equal_refuted"
   ],
   "note": "ValueProps.v; total preorder for all values; pointers of different types at one address compare equal (finding)"
  },
  {
   "property": "C35",
   "status": "partial",
   "theorems": [
    "line_to_address_nearest_partial",
    "position_lookup_nearest_partial",
    "unknown_source_file",
    "line_to_address_refuted"
   ],
   "note": "LinesProps.v; proved for tables numbered the DWARF 4 way; a DWARF 5 file index is taken one too large (finding)"
  },
  {
   "property": "C36",
   "status": "partial",
   "theorems": [
    "address_to_line_exact_partial",
    "mid_row_address_refuted"
   ],
   "note": "LinesProps.v; exact for addresses that begin a row; an address inside a row's range gets no location (finding)"
  },
  {
   "property": "C37",
   "status": "partial",
   "theorems": [
    "line_address_roundtrip_partial",
    "roundtrip_ambiguous_refuted"
   ],
   "note": "LinesProps.v; proved for tables numbered the DWARF 4 way, functions that do not overlap and addresses with one row of a line (unambiguous); where two rows answer an address the wrong line is given (roundtrip_ambiguous_refuted)"
  },
  {
   "property": "C38",
   "status": "proved",
   "theorems": [
    "module_lookup_innermost"
   ],
   "note": "ModuleProps.v"
  },
  {
   "property": "C39",
   "status": "partial",
   "theorems": [
    "die_module_is_enclosing_namespace_partial",
    "foreign_unit_hides_later_units_refuted"
   ],
   "note": "ModuleProps.v; proved for files of compile units with named namespaces; a unit with another root ends the walk and hides the units behind it (finding)"
  },
  {
   "property": "C40",
   "status": "proved",
   "theorems": [
    "walk_shows_pruned_tree",
    "walk_shows_each_once_in_order",
    "walk_reaches_exactly",
    "walk_die_stays_inside"
   ],
   "note": "DieProps.v"
  },
  {
   "property": "C41",
   "status": "proved",
   "theorems": [
    "field_path_sums",
    "field_path_offset_sums",
    "field_path_missing"
   ],
   "note": "ParserProps.v; example ex_path"
  },
  {
   "property": "C42",
   "status": "proved",
   "theorems": [
    "parse_children_first",
    "parse_children_fails",
    "for_each_child_accepted",
    "try_for_each_child_all"
   ],
   "note": "ParserProps.v; example ex_children"
  },
  {
   "property": "C43",
   "status": "partial",
   "theorems": [
    "session_follows_protocol",
    "one_response_each_partial",
    "session_ends",
    "command_answered",
    "every_command_answered_refuted"
   ],
   "note": "ServerProps.v; the grammar `session` holds of every connection; witness polite_session; commands sent while an event is pending are used up unanswered, and a panic or an out-of-turn message closes the connection without a response (findings)"
  },
  {
   "property": "C44",
   "status": "partial",
   "theorems": [
    "session_follows_protocol",
    "scripted_client",
    "unanswered_event_ends_evaluation_partial",
    "unanswered_event_ends_evaluation_refuted"
   ],
   "note": "ServerProps.v, ServerStrict.v; alternation holds always (`exchanges`); that a wrong answer ends the evaluation is proved for expressions whose calls take literals only: variables and calls as arguments swallow the error and go on asking (finding)"
  },
  {
   "property": "C45",
   "status": "proved",
   "theorems": [
    "inspection_only_looks",
    "evaluation_sends_only_permitted"
   ],
   "note": "EvalProps.v; for every client and answer; witnesses in EvalExample.v"
  },
  {
   "property": "C46",
   "status": "proved",
   "theorems": [
    "expansion_ends",
    "expansion_exact",
    "remaining_pointers_are_deep",
    "pointer_free_unchanged"
   ],
   "note": "EvalProps.v; termination in types whose chains of pointers, options, variants and names are bounded (`ends`), which holds of Rust types; witness cyclic_node_shown, types_here_closed"
  },
  {
   "property": "C47",
   "status": "partial",
   "theorems": [
    "unmapped_path_unchanged",
    "mapped_path_rewritten_partial",
    "single_mapping",
    "absolute_path_not_relative",
    "identity_mappings_ignored",
    "remapping_only_replaces_prefixes",
    "mapped_path_rewritten_refuted"
   ],
   "note": "PathProps.v; with several mappings the result of one is mapped again by the next, so two directories cannot be swapped (finding)"
  },
  {
   "property": "C48",
   "status": "partial",
   "theorems": [
    "variable_lookup_partial",
    "variable_lookup_unique",
    "variable_lookup_absent",
    "all_variables_listed",
    "shadowing_refuted"
   ],
   "note": "FnProps.v; with shadowing the earliest declaration is returned (finding)"
  },
  {
   "property": "C49",
   "status": "partial",
   "theorems": [
    "discover_functions_exact",
    "discover_functions_answers",
    "discover_functions_refuted",
    "all_functions_partial",
    "all_functions_refuted"
   ],
   "note": "DiscoverFns.v; witnesses in DiscoverExample.v; functions whose names look like a hash cannot be searched, and discover_all_functions keeps one of several functions displayed alike (findings)"
  },
  {
   "property": "C50",
   "status": "proved",
   "theorems": [
    "self_kind_exact",
    "signature_exact",
    "signature_text",
    "method_described",
    "all_methods_grouped"
   ],
   "note": "FnProps.v, DiscoverProps.v, DiscoverFns.v; witnesses ex_signature, ex_takes, ex_methods, ex_all_methods; parameters are the DW_TAG_formal_parameter children with a type"
  },
  {
   "property": "C51",
   "status": "proved",
   "theorems": [
    "unit_range_is_hull"
   ],
   "note": "LinesProps.v"
  },
  {
   "property": "C52",
   "status": "partial",
   "theorems": [
    "address_lookup_sound",
    "address_lookup_complete_partial",
    "address_lookup_complete_refuted",
    "mid_row_address_refuted"
   ],
   "note": "LinesProps.v; complete only for functions of the file owning the nearest symbol (finding)"
  },
  {
   "property": "C53",
   "status": "partial",
   "theorems": [
    "type_text_total",
    "type_text_no_panic",
    "type_text_roundtrip_partial",
    "type_show_parses",
    "type_show_injective",
    "display_name_parses_partial",
    "display_name_determines",
    "primitive_names_distinct",
    "type_matched_by_its_name_partial",
    "type_matched_by_its_name_refuted",
    "type_text_roundtrip_refuted",
    "display_name_parses_refuted",
    "type_text_no_panic_refuted",
    "written_type_redisplayed_partial"
   ],
   "note": "TypeNameProps.v, TypeRedisplay.v; the round trip holds for every parsed type without raw pointers, unsafe fn, vtable shims and empty names (unparsed <..>/{..} segments: for every type name the grammar of TypeGrammar.v writes); raw pointers, vtable shims and unsafe fn are refuted (finding). Layout names: every layout except raw pointers, fn(), one-tuples, &T with T=str, IndexMap and user names that are no identifier or are std names"
  },
  {
   "property": "C54",
   "status": "partial",
   "theorems": [
    "formatted_exactly_partial",
    "large_array_counted",
    "large_map_counted",
    "counts_distinguish",
    "formatted_exactly_refuted"
   ],
   "note": "FormatProps.v; proved for values whose texts have no line breaks and whose scalars are not empty; a string with a line break is shown changed (finding)"
  },
  {
   "property": "C55",
   "status": "proved",
   "theorems": [
    "index_uses_displayed_value",
    "variable_index_exact",
    "integers_displayed_exactly",
    "displayed_integer_is_index",
    "int_of_text_exact",
    "only_scalars_index"
   ],
   "note": "EvalProps.v; witness variable_index_case"
  },
  {
   "property": "C56",
   "status": "partial",
   "theorems": [
    "frame_variable_located_partial",
    "register_variable_located",
    "no_location_unavailable",
    "unreadable_register_no_address",
    "other_locations_panic_refuted",
    "register_relative_frame_base_panics_refuted",
    "static_location_refuted",
    "cfa_taken_for_stack_pointer_refuted"
   ],
   "note": "LocProps.v; only fbreg/breg forms are handled, others abort or are wrong (findings)"
  },
  {
   "property": "C57",
   "status": "partial",
   "theorems": [
    "display_drops_only_the_hash",
    "displayed_name_is_found_partial",
    "displayed_name_is_found_refuted"
   ],
   "note": "SymProps.v; trait-impl functions cannot be found by their displayed name (finding)"
  },
  {
   "property": "C58",
   "status": "partial",
   "theorems": [
    "vec_methods_report_memory",
    "odd_reply_refused",
    "is_some_reports_nonzero",
    "result_methods_report_tag_partial",
    "result_methods_report_tag_refuted"
   ],
   "note": "SynthProps.v; the Result heuristic is wrong for 4- and 8-byte tags (finding)"
  },
  {
   "property": "C59",
   "status": "proved",
   "theorems": [
    "string_read_exactly",
    "str_read_exactly",
    "string_display_injective",
    "bool_read_exactly",
    "char_read_exactly",
    "utf8_roundtrip"
   ],
   "note": "TextProps.v, Utf8.v"
  },
  {
   "property": "C60",
   "status": "partial",
   "theorems": [
    "pointers_read_their_target_partial",
    "pointer_chains_read_their_end",
    "cells_unreadable_refuted"
   ],
   "note": "TextProps.v; Cell, UnsafeCell and RwLock abort the reader (finding)"
  },
  {
   "property": "C61",
   "status": "partial",
   "theorems": [
    "source_file_designated",
    "source_index_sorted",
    "source_request_answered_partial",
    "line_to_address_refuted"
   ],
   "note": "LinesProps.v, SourceProps.v; the choice of the file is proved in full; the answer part inherits C35's restriction"
  },
  {
   "property": "C62",
   "status": "partial",
   "theorems": [
    "module_found_by_path_partial",
    "foreign_unit_hides_later_units_refuted"
   ],
   "note": "ModuleProps.v; same restriction as C39: units after one that is not a compile unit are not indexed (finding)"
  },
  {
   "property": "C63",
   "status": "proved",
   "theorems": [
    "vec_layout",
    "string_layout",
    "vec_layout_sound"
   ],
   "note": "ResolveProps.v; witnesses ex_vec, ex_string in ResolveExample.v; the type-name parser is a parameter"
  },
  {
   "property": "C64",
   "status": "partial",
   "theorems": [
    "hashmap_layout_partial",
    "hashbrown_layout",
    "hashmap_layout_refuted"
   ],
   "note": "ResolveProps.v, ResolveExample.v; proved when the std map's base is at offset 0; another offset is ignored (finding)"
  },
  {
   "property": "C65",
   "status": "proved",
   "theorems": [
    "btreemap_layout"
   ],
   "note": "ResolveProps.v; witness ex_btreemap"
  },
  {
   "property": "C66",
   "status": "proved",
   "theorems": [
    "struct_fields",
    "user_type_is_alias"
   ],
   "note": "ResolveProps.v; witness ex_struct"
  },
  {
   "property": "C67",
   "status": "partial",
   "theorems": [
    "enum_variants",
    "discriminant_explicit_partial",
    "discriminant_implicit",
    "c_enum_values",
    "discriminant_offset_refuted"
   ],
   "note": "ResolveProps.v, ResolveExample.v; variants in full when all resolve; the discriminant's offset is read from the variant part, not from the discriminant member (finding)"
  },
  {
   "property": "C68",
   "status": "partial",
   "theorems": [
    "smart_pointer_layout_partial",
    "rwlock_panics"
   ],
   "note": "ResolveProps.v; RwLock panics (finding)"
  },
  {
   "property": "C69",
   "status": "proved",
   "theorems": [
    "resolution_deterministic",
    "full_resolution_deterministic"
   ],
   "note": "ResolveProps.v"
  },
  {
   "property": "C70",
   "status": "proved",
   "theorems": [
    "option_layout",
    "result_layout"
   ],
   "note": "ResolveProps.v; witnesses ex_option, ex_result"
  },
  {
   "property": "C71",
   "status": "partial",
   "theorems": [
    "function_type_partial",
    "function_type_refuted",
    "function_type_unresolvable",
    "function_pointer_unknown"
   ],
   "note": "ResolveProps.v, ResolveExample.v; proved for function types without a result; with a result the result type is dereferenced twice, so plain result types fail (refuted, finding); function pointers lose arguments and result; witness ex_procedure, ex_function_pointer"
  },
  {
   "property": "C72",
   "status": "proved",
   "theorems": [
    "pointer_like_layout",
    "slice_layout",
    "str_slice_layout",
    "tuple_layout"
   ],
   "note": "ResolveProps.v; witnesses ex_tuple, ex_slice, ex_str, ex_ref"
  },
  {
   "property": "C73",
   "status": "partial",
   "theorems": [
    "function_index_exact_partial",
    "method_address_indexed_refuted",
    "later_units_indexed_refuted"
   ],
   "note": "FnProps.v; proved for units stating a language; a unit without one ends the indexing, and methods have no address entry because their linkage name is on the declaration DIE (findings)"
  },
  {
   "property": "C74",
   "status": "proved",
   "theorems": [
    "function_variables_exact",
    "stack_variable_found"
   ],
   "note": "FnProps.v; witness in FnExample.v"
  },
  {
   "property": "C75",
   "status": "partial",
   "theorems": [
    "methods_of_type_exact_partial",
    "methods_of_pointer_exact",
    "trait_methods_of_last_module_refuted",
    "one_bad_method_hides_all_refuted"
   ],
   "note": "DiscoverProps.v, DiscoverExample.v; the impl blocks searched are those of the range's DIE, which for the last module of a unit is the unit's root (finding); one unresolvable self parameter fails the whole listing (finding)"
  },
  {
   "property": "C76",
   "status": "proved",
   "theorems": [
    "evaluation_shows_the_target",
    "places_are_found",
    "synthetic_methods_shown"
   ],
   "note": "EvalProps.v; what debug information answers (variable plans, types) is a parameter; witness variable_index_case, cyclic_node_shown"
  },
  {
   "property": "C77",
   "status": "partial",
   "theorems": [
    "each_call_runs_once_partial",
    "runs_bounded",
    "each_call_runs_once_refuted"
   ],
   "note": "EvalCalls.v, EvalExample.v; proved when no call is written inside an argument; an argument call returning a simple value is executed twice (finding)"
  },
  {
   "property": "C78",
   "status": "partial",
   "theorems": [
    "method_result_shown",
    "function_result_shown",
    "method_result_used",
    "function_result_used",
    "arguments_passed",
    "string_argument_passed",
    "str_argument_passed_partial",
    "other_string_arguments_refused",
    "creation_through_client",
    "function_argument_count_checked",
    "method_argument_count_refuted"
   ],
   "note": "EvalCalls.v, EvalCreate.v (string arguments: refinement of C32/C33 over the protocol); the number of arguments of a method call is not checked (finding); &str texts up to 1 MiB with 16-byte layouts (C33)"
  },
  {
   "property": "C79",
   "status": "proved",
   "theorems": [
    "eval_answer_exact"
   ],
   "note": "ServerProps.v; witness eval_answer_case"
  },
  {
   "property": "C80",
   "status": "proved",
   "theorems": [
    "methods_answer_exact"
   ],
   "note": "ServerProps.v; what discovery and type lookup answer is a parameter (C75, C66); witness methods_case"
  },
  {
   "property": "C81",
   "status": "proved",
   "theorems": [
    "functions_answer_exact",
    "unknown_commands_rejected",
    "missing_argument_rejected"
   ],
   "note": "ServerProps.v"
  },
  {
   "property": "C82",
   "status": "proved",
   "theorems": [
    "session_causal"
   ],
   "note": "ServerCausal.v"
  },
  {
   "property": "C83",
   "status": "proved",
   "theorems": [
    "std_type_by_path",
    "user_type_by_path",
    "std_names_meaning",
    "qualified_vec",
    "primitive_names_meaning"
   ],
   "note": "TypeNameProps.v; witness type_name_example, legible_example"
  },
  {
   "property": "C84",
   "status": "proved",
   "theorems": [
    "name_split_lossless",
    "name_split",
    "type_by_name",
    "declared_type_found",
    "user_type_found_by_name",
    "unqualified_name_not_found"
   ],
   "note": "LookupProps.v; witness LookupExample.v: names_file_of, names_ordinary, names_found. Type-name texts the lexer cannot read panic (hypothesis digestible/ordinary_member)"
  },
  {
   "property": "C85",
   "status": "partial",
   "theorems": [
    "std_type_found_by_name_partial",
    "declared_type_found",
    "allocator_not_needed",
    "type_argument_modules_confused_refuted"
   ],
   "note": "LookupProps.v, LookupExample.v; type arguments that are user types are compared by their last path segment only, so an instance for another module's type of the same name may be returned (refuted, finding)"
  },
  {
   "property": "C86",
   "status": "partial",
   "theorems": [
    "source_index_exact",
    "source_index_sorted",
    "line_found_anywhere_partial",
    "line_to_address_refuted"
   ],
   "note": "SourceProps.v; proved for units whose line tables are DWARF 2-4 (DWARF 5 indices are off by one: refuted, finding) and Rust-only files; witness SourceExample.v src_found"
  },
  {
   "property": "C87",
   "status": "partial",
   "theorems": [
    "file_path_designated_partial",
    "file_path_without_directory",
    "nameless_entry_skipped",
    "components_regular",
    "path_text_read",
    "components_join",
    "file_path_designated_refuted"
   ],
   "note": "SourceProps.v; absolute file names are put below their directory (refuted, finding)"
  },
  {
   "property": "C88",
   "status": "proved",
   "theorems": [
    "local_files_exact",
    "no_workspace_no_files",
    "workspace_from_cargo",
    "workspace_from_directory"
   ],
   "note": "SourceProps.v; without a workspace no file is searched (finding); witness src_local, workspace_case"
  },
  {
   "property": "C89",
   "status": "proved",
   "theorems": [
    "client_messages_arrive",
    "bad_line_contained",
    "json_text_roundtrip",
    "json_one_line"
   ],
   "note": "WireProps.v, JsonProps.v; witness SessionExample.v bytes0"
  },
  {
   "property": "C90",
   "status": "proved",
   "theorems": [
    "messages_read_fit",
    "field_order_free",
    "unknown_field_ignored",
    "json_reading_ends"
   ],
   "note": "WireRead.v, JsonProps.v; witness order0, order1"
  },
  {
   "property": "C91",
   "status": "proved",
   "theorems": [
    "server_messages_arrive"
   ],
   "note": "ClientProps.v; witness bytes1"
  },
  {
   "property": "C92",
   "status": "proved",
   "theorems": [
    "events_are_performed",
    "events_are_not_refused"
   ],
   "note": "ClientEvents.v, spec ClientSpec.v (performs, tried, says_call); witness event0, event1, call0"
  },
  {
   "property": "C93",
   "status": "proved",
   "theorems": [
    "answers_have_the_kind"
   ],
   "note": "ClientEvents.v; witness event1"
  },
  {
   "property": "C94",
   "status": "proved",
   "theorems": [
    "error_printed",
    "value_printed",
    "methods_printed",
    "functions_printed"
   ],
   "note": "RdProps.v; witness print0"
  },
  {
   "property": "C95",
   "status": "proved",
   "theorems": [
    "session_end_to_end",
    "typed_value_shown"
   ],
   "note": "SessionProps.v, spec SessionSpec.v (connected, dialogue); witness session0, session0_connected, lldb0_fits, typed0. Assumes the messages fit (64-bit numbers, Unicode), which Rust's and LLDB's types ensure"
  },
  {
   "property": "C96",
   "status": "partial",
   "theorems": [
    "words_decide",
    "typed_expression_partial",
    "typed_words",
    "line_sent",
    "line_not_sent",
    "typed_expression_refuted"
   ],
   "note": "TypedProps.v, TypedWords.v (how a line is cut into words and what is sent for it, exactly; witness line_sent_example); the expression is proved unchanged for texts without string literals (and ASCII); white space in string literals is changed (refuted, finding)"
  },
  {
   "property": "C97",
   "status": "partial",
   "theorems": [
    "connection_follows_target_partial",
    "connection_follows_target_refuted"
   ],
   "note": "RdProps.v; holds while the target stays the same; the connection is kept when the target changes (refuted, finding); witness connections0"
  },
  {
   "property": "C98",
   "status": "partial",
   "theorems": [
    "commands_answered_partial",
    "commands_answered_refuted"
   ],
   "note": "SessionProps.v, SessionExample.v; holds if no handling panics and there is no shutdown; after a panic every later command fails because the dead connection is kept (refuted, finding)"
  },
  {
   "property": "C99",
   "status": "partial",
   "theorems": [
    "binary_opened",
    "binary_missing",
    "binary_unreadable",
    "load_exact",
    "object_file_exact",
    "symbols_exact",
    "debug_files_exact",
    "order_irrelevant_partial",
    "order_irrelevant_refuted"
   ],
   "note": "LoadProps.v, BinaryProps.v; a function name defined in several files depends on the hash-map order (refuted, finding); witness BinaryExample.v app_opened, app_indexed"
  }
 ]
}
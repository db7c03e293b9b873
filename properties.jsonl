{"id": "C01", "title": "Address lookup is exact", "statement": "Looking up an address in the function address index returns every indexed function whose [start,end) range contains that address, each exactly as many times as it was indexed, and nothing else; this holds separately for absolute and for relative (per object file) addresses.", "quantifier": "every list of function ranges (overlapping, nested, duplicated, empty or inverted ranges, any order) and every address", "why_tests_cant": "the answer depends on sort order, tree balance and max_end pruning; a test sees a handful of trees, not every shape", "anchors": ["crates/rudy-dwarf/src/address/mod.rs: AddressTree::new, build_tree, query_address, query_node"]}
{"id": "C02", "title": "Address range lookup is exact", "statement": "Querying the address index with a range [lo,hi) returns exactly the indexed functions whose range overlaps it.", "quantifier": "every list of ranges and every query range", "why_tests_cant": "pruning conditions are only wrong on particular tree shapes", "anchors": ["crates/rudy-dwarf/src/address/mod.rs: AddressTree::query_address_range, query_node_range"]}
{"id": "C03", "title": "Symbol at address is the nearest preceding function symbol", "statement": "Asking a symbol index which function symbol covers an address yields the symbol with the greatest address not above it, and none exactly when every function symbol starts above the address.", "quantifier": "every history of symbol insertions and every address", "why_tests_cant": "must hold for every set of symbols, gaps and ties", "anchors": ["crates/rudy-dwarf/src/symbols/mod.rs: SymbolIndex::function_at_address"]}
{"id": "C04", "title": "Symbol index answers reflect the whole insertion history", "statement": "After indexing any sequence of symbols, an exact-name lookup returns the address and file of the last indexed symbol with that name, and nothing for names never indexed; lookup by short name returns exactly the full names indexed with that short name.", "quantifier": "every finite sequence of symbol insertions and every queried name", "why_tests_cant": "last-writer-wins and cross-map agreement are history properties", "anchors": ["crates/rudy-dwarf/src/symbols/mod.rs: SymbolIndex::get_function, get_functions_by_lookup_name, index_binary, index_mapped_file"]}
{"id": "C05", "title": "Looking a function up by (partial) path is sound and complete", "statement": "find_function_by_name on `a::b::f` returns a function only if that function's last segment is `f` and its module path ends with `a::b`; it fails only if no indexed function satisfies that; an exact match by full path is always among the functions considered.", "quantifier": "every symbol index and every queried path", "why_tests_cant": "soundness/completeness over all indexes and all names", "anchors": ["rudy-db/src/index.rs: find_closest_function", "crates/rudy-dwarf/src/symbols/names.rs: SymbolName::matches_name_and_module"]}
{"id": "C06", "title": "Parsing an expression always terminates with a result or an error", "statement": "parse_expression returns an expression or an error for every input string; it never panics and never loops.", "quantifier": "every input string", "why_tests_cant": "termination and panic freedom over an infinite input space", "anchors": ["crates/rudy-parser/src/expressions.rs: Tokenizer::next_token, Parser::parse, parse_expression"]}
{"id": "C07", "title": "Printing then re-parsing an expression gives the same expression", "statement": "For every expression the parser can produce, parsing its Display text yields that same expression again.", "quantifier": "every expression produced by parse_expression from any input", "why_tests_cant": "structural round trip over unbounded nesting", "anchors": ["crates/rudy-parser/src/expressions.rs: impl Display for Expression, parse_expression"]}
{"id": "C08", "title": "The parser implements the documented grammar", "statement": "The expression accepted from a token sequence is exactly the one given by the grammar: prefix `*`, `&`, `&mut` bind looser than postfix `.field`, `.method(args)` and `[index]`, postfix operators associate to the left, arguments are comma separated; every derivable sequence is accepted.", "quantifier": "every token sequence and every nesting depth", "why_tests_cant": "grammar conformance quantifies over all sentences of an infinite language", "anchors": ["crates/rudy-parser/src/expressions.rs: Parser::parse_unary, parse_postfix, parse_primary, parse_arguments, parse_type_arguments, parse_type_name"]}
{"id": "C09", "title": "Number literals denote their exact value", "statement": "A decimal or 0x/0X literal evaluates to its mathematical value when it fits in u64 and is rejected otherwise; it never wraps.", "quantifier": "every digit string of any length", "why_tests_cant": "overflow boundary over unbounded digit strings", "anchors": ["crates/rudy-parser/src/expressions.rs: Tokenizer::read_number"]}
{"id": "C10", "title": "The whole input is parsed", "statement": "An expression is accepted only if all of the input was consumed: text after a complete expression is reported as an error rather than silently dropped.", "quantifier": "every input string", "why_tests_cant": "a universally quantified rejection property", "anchors": ["crates/rudy-parser/src/expressions.rs: Parser::parse, parse_expression"]}
{"id": "C11", "title": "String literals keep their content", "statement": "A string literal token carries exactly the characters between its quotes (backslash escapes do not end the literal and are kept verbatim).", "quantifier": "every literal content, ASCII or not, at any position of the input", "why_tests_cant": "byte/character index agreement must hold for every prefix and content", "anchors": ["crates/rudy-parser/src/expressions.rs: Tokenizer::read_string, current_char, advance"]}
{"id": "C12", "title": "Symbol paths are decomposed losslessly", "statement": "For a demangled path `m1::\u2026::mk::f[::h<hex>]` whose segments are non-empty, trimmed and bracket-balanced, parse_symbol returns exactly modules [m1..mk], function f and the hash if present; a `::` inside `<\u2026>` never splits a segment.", "quantifier": "every list of well formed segments of any length", "why_tests_cant": "quantifies over all paths and nesting depths", "anchors": ["crates/rudy-parser/src/types.rs: parse_symbol"]}
{"id": "C13", "title": "A hash is only recognised when it is a compiler hash", "statement": "A user function's last path segment is reported as the function name, not dropped as a symbol hash.", "quantifier": "every demangled symbol without a hash suffix", "why_tests_cant": "must hold for every legal function name", "anchors": ["crates/rudy-parser/src/types.rs: parse_symbol"]}
{"id": "C14", "title": "Type matching is a sound equivalence for lookups", "statement": "matching_type is reflexive and symmetric on layouts, and ignores only what is documented (locations, mutability, sizes): two types with different shape never match.", "quantifier": "every pair of layouts of any depth", "why_tests_cant": "equivalence laws quantify over all recursive layouts", "anchors": ["crates/rudy-types/src/lib.rs: Layout::matching_type, PrimitiveLayout::matching_type, StdLayout::matching_type, TypeDefinition::matching_type"]}
{"id": "C15", "title": "Dereferencing a type strips every pointer level", "statement": "dereferenced() never returns a pointer or reference type, is idempotent, and only removes pointer/reference layers.", "quantifier": "every type definition of any pointer depth", "why_tests_cant": "unbounded nesting", "anchors": ["crates/rudy-types/src/lib.rs: TypeDefinition::dereferenced / Layout::dereferenced, as_reference"]}
{"id": "C16", "title": "Type sizes agree with layout", "statement": "size() of an array is element size times length, references and pointers are 8 bytes, fat pointers 16 and struct/enum sizes come from debug info; the computation never overflows silently.", "quantifier": "every layout of any depth", "why_tests_cant": "recursive definition over all layouts", "anchors": ["crates/rudy-types/src/lib.rs: Layout::size, PrimitiveLayout::size, StdLayout::size"]}
{"id": "C17", "title": "Integers are decoded exactly", "statement": "Reading an integer of 1, 2, 4, 8 or 16 bytes yields the two's complement / unsigned little-endian value of exactly those bytes, and any other size is an error; writing a value in little endian and reading it back is the identity.", "quantifier": "every byte content and address", "why_tests_cant": "2^128 values", "anchors": ["rudy-db/src/data.rs: read_primitive_from_memory"]}
{"id": "C18", "title": "Array, slice and Vec elements are located exactly", "statement": "Reading an array of n elements or a Vec/slice with length n yields exactly n pointers, the i-th at base + i*element size with the element type.", "quantifier": "every memory, length, element size and base", "why_tests_cant": "quantifies over all lengths and memories", "anchors": ["rudy-db/src/data.rs: read_primitive_from_memory, read_std_from_memory, extract_vec_info"]}
{"id": "C19", "title": "HashMap reading returns exactly the occupied buckets", "statement": "Reading a HashMap returns one key/value pair per occupied control byte, addressed at the bucket that control byte describes, no bucket twice and none missed when the table's item count equals its number of occupied buckets.", "quantifier": "every control-byte table of any capacity and every memory", "why_tests_cant": "all occupancy patterns of all capacities", "anchors": ["rudy-db/src/data.rs: read_map_entries"]}
{"id": "C20", "title": "BTreeMap reading is the in-order key sequence", "statement": "Reading a BTreeMap returns all entries of the tree, in in-order (sorted) order, each once.", "quantifier": "every well formed B-tree of any height and node occupancy laid out in memory", "why_tests_cant": "unbounded height and fan-out", "anchors": ["rudy-db/src/data.rs: read_map_entries, read_btree_node_entries"]}
{"id": "C21", "title": "The active enum variant is the one selected by the discriminant", "statement": "Reading an enum selects the variant whose discriminant value equals the value in memory, or the variant without explicit discriminant if none is equal, and fails if there is neither.", "quantifier": "every variant list, discriminant width and memory", "why_tests_cant": "all niche/tagged encodings", "anchors": ["rudy-db/src/data.rs: read_enum, read_c_enum"]}
{"id": "C22", "title": "C-like enums read back the declared name", "statement": "Reading a C-style enum yields the name of the first enumerator with the stored value and an error/unknown for undeclared values.", "quantifier": "every enumerator list and stored value", "why_tests_cant": "all widths, signs and values", "anchors": ["rudy-db/src/data.rs: read_c_enum"]}
{"id": "C23", "title": "Tuple variants keep their field order", "statement": "The entries shown for a tuple-like enum variant are in declaration order (__0, __1, __2, \u2026).", "quantifier": "every number of fields", "why_tests_cant": "order only breaks for particular field counts", "anchors": ["rudy-db/src/data.rs: read_enum"]}
{"id": "C24", "title": "Option values are read as Some exactly when they hold a value", "statement": "Reading an Option yields None exactly when its full discriminant is the None discriminant; it agrees with is_some()/is_none().", "quantifier": "every discriminant width, niche and memory content", "why_tests_cant": "all memory contents", "anchors": ["rudy-db/src/data.rs: read_option_from_memory", "rudy-db/src/synthetic_methods.rs: evaluate_option_method"]}
{"id": "C25", "title": "Every advertised synthetic method can be evaluated", "statement": "Each method listed for a type by get_synthetic_methods is accepted by evaluate_synthetic_method on that type (it is never reported unknown or unsupported).", "quantifier": "every layout and every listed method", "why_tests_cant": "cross-function agreement over all layouts", "anchors": ["rudy-db/src/synthetic_methods.rs: get_synthetic_methods, evaluate_synthetic_method"]}
{"id": "C26", "title": "Synthetic predicates are consistent", "statement": "On the same value is_some is the negation of is_none, is_ok the negation of is_err, and is_empty holds exactly when len is 0.", "quantifier": "every memory and every type offering these methods", "why_tests_cant": "all memory contents", "anchors": ["rudy-db/src/synthetic_methods.rs: evaluate_vec_method, evaluate_string_method, evaluate_option_method, evaluate_result_method, evaluate_map_method, evaluate_slice_method, evaluate_array_method"]}
{"id": "C27", "title": "len() agrees with the displayed elements", "statement": "For Vec, String, array, slice and map values, the number reported by len() is the number of elements obtained by reading the value.", "quantifier": "every memory and layout", "why_tests_cant": "agreement of two independent readers on all memories", "anchors": ["rudy-db/src/synthetic_methods.rs: evaluate_synthetic_method", "rudy-db/src/data.rs: read_from_memory"]}
{"id": "C28", "title": "Indexing an array or Vec is bounds checked and agrees with reading", "statement": "v[i] on an array or Vec succeeds exactly for i < len and designates the same address as the i-th element shown when the value is read.", "quantifier": "every memory, length and index", "why_tests_cant": "all indices and lengths", "anchors": ["rudy-db/src/debug_info.rs: DebugInfo::index_array_or_slice"]}
{"id": "C29", "title": "Indexing a slice works", "statement": "s[i] on a `&[T]` value succeeds for i < len and designates ptr + i*size.", "quantifier": "every slice value", "why_tests_cant": "universally quantified over memories", "anchors": ["rudy-db/src/debug_info.rs: index_array_or_slice, extract_slice_info"]}
{"id": "C30", "title": "Field access designates the declared field", "statement": "value.f on a struct yields the address base + offset and type of the first declared field named f, and fails if there is none or the value is not a struct; the address is the one shown when the struct is read.", "quantifier": "every struct layout, base address and field name", "why_tests_cant": "all layouts", "anchors": ["rudy-db/src/debug_info.rs: DebugInfo::get_struct_field"]}
{"id": "C31", "title": "Map indexing returns the value stored under the key", "statement": "map[key] returns the value pointer of the first entry whose key reads as that key, and fails when no key matches.", "quantifier": "every map content and key", "why_tests_cant": "all contents", "anchors": ["rudy-db/src/debug_info.rs: DebugInfo::index_map, values_equal"]}
{"id": "C32", "title": "A String created for a call argument reads back unchanged", "statement": "After create_typed_value for a String parameter, reading a String at the returned address gives the original text, with capacity = length, and no memory outside the two fresh allocations changed.", "quantifier": "every text, every String layout with non-overlapping fields, every allocator and memory", "why_tests_cant": "memory framing over all memories", "anchors": ["rudy-db/src/debug_info.rs: create_owned_string_with_layout, create_typed_value"]}
{"id": "C33", "title": "A &str created for a call argument reads back unchanged and stays in its allocation", "statement": "After create_typed_value for a &str parameter, reading a &str at the returned address gives the original text and every write lies inside the allocated block.", "quantifier": "every text, layout offsets, allocator and memory", "why_tests_cant": "memory framing over all memories", "anchors": ["rudy-db/src/debug_info.rs: create_str_slice_with_layout"]}
{"id": "C34", "title": "Values are totally ordered", "statement": "The ordering on values is total, transitive and antisymmetric up to equality, so sorting map keys is well defined; values comparing Equal are equal.", "quantifier": "every pair/triple of nested values", "why_tests_cant": "order laws over all recursive values", "anchors": ["rudy-db/src/outputs.rs: impl Ord for Value, impl PartialOrd for Value"]}
{"id": "C35", "title": "Source line to address picks the nearest following line", "statement": "Resolving file:line yields an address whose line is the smallest line >= the requested one that has code in that file, and fails exactly if there is none; across several debug files the overall nearest is chosen.", "quantifier": "every line table, every set of compilation units and every requested line", "why_tests_cant": "minimality over all tables", "anchors": ["crates/rudy-dwarf/src/address/resolution.rs: location_to_address", "rudy-db/src/query.rs: lookup_position"]}
{"id": "C36", "title": "Address to source line returns the row of that address", "statement": "Resolving an address yields the file/line of a non-end_sequence line-table row at exactly that address inside the function's unit, and nothing if there is none.", "quantifier": "every line table and address", "why_tests_cant": "all tables", "anchors": ["crates/rudy-dwarf/src/address/resolution.rs: address_to_location"]}
{"id": "C37", "title": "Line to address and back is the identity on lines with code", "statement": "If file:line has code, resolving it to an address and resolving that address gives back a row of that same line.", "quantifier": "every line table with unambiguous addresses", "why_tests_cant": "composition of two searches over all tables", "anchors": ["crates/rudy-dwarf/src/address/resolution.rs: location_to_address, address_to_location"]}
{"id": "C38", "title": "Module of a DIE is the innermost enclosing namespace", "statement": "Looking up the module of a DIE offset returns the range containing that offset, the one with the greatest start, and nothing if no range contains it.", "quantifier": "every module range list produced by the index and every offset", "why_tests_cant": "binary search + backward scan over all range lists", "anchors": ["crates/rudy-dwarf/src/modules.rs: ModuleIndex::find_by_offset, find_by_path"]}
{"id": "C39", "title": "Module ranges recorded for a compilation unit nest like its namespaces", "statement": "The ranges recorded while walking a unit carry the namespace path enclosing every DIE, so that each DIE offset resolves to its own namespace path.", "quantifier": "every DIE forest", "why_tests_cant": "quantifies over all trees", "anchors": ["crates/rudy-dwarf/src/modules.rs: ModuleRangeBuilder::visit_namespace, visit_die"]}
{"id": "C40", "title": "Walking a unit visits each reachable DIE exactly once in order", "statement": "The DIE walker visits exactly the DIEs all of whose ancestors were descended into, once each, in file order, whatever subtrees the visitor skips.", "quantifier": "every DIE forest and every skip decision", "why_tests_cant": "cursor skipping bugs depend on tree shape", "anchors": ["crates/rudy-dwarf/src/visitor.rs: DieWalker::walk_unit, walk_children, next_sibling, peek"]}
{"id": "C41", "title": "Field-path offsets are the sum of member offsets", "statement": "Following a path of members yields the sum of the members' data offsets and the final member's type; it fails when any member is missing.", "quantifier": "every DIE tree and every path", "why_tests_cant": "all depths", "anchors": ["crates/rudy-dwarf/src/parser/primitives.rs: FieldPath, field_path_offset"]}
{"id": "C42", "title": "Collecting children applies each parser to the first child it accepts", "statement": "parse_children gives each sub-parser the first child it accepts, fails exactly if some sub-parser accepts no child, and for_each_child returns the results of all accepted children in order.", "quantifier": "every child list and every sub-parser set", "why_tests_cant": "combinator law over all parsers", "anchors": ["crates/rudy-dwarf/src/parser/children.rs: parse_children, for_each_child, try_for_each_child", "crates/rudy-dwarf/src/parser/combinators.rs"]}
{"id": "C43", "title": "Every client command gets exactly one response", "statement": "In any session, each command message the server reads is answered by exactly one Complete or Error message, after all events of that command, until the session ends; the server sends nothing unsolicited.", "quantifier": "every sequence of client messages including malformed lines, disconnects and unexpected messages", "why_tests_cant": "protocol histories are unbounded", "anchors": ["rudy-lldb/src/server.rs: ClientConnection::run_server_loop, handle_command, init, send_event_request"]}
{"id": "C44", "title": "Events and event responses alternate strictly", "statement": "While evaluating a command the server sends one event and reads exactly one message before sending the next; any non-EventResponse message or disconnect aborts the request with an error rather than being used as data.", "quantifier": "every evaluation and every client behaviour", "why_tests_cant": "all interleavings of client replies", "anchors": ["rudy-lldb/src/server.rs: send_event_request", "rudy-lldb/src/evaluator.rs: RemoteDataAccess"]}
{"id": "C45", "title": "Inspecting values never changes the target", "statement": "Evaluating an expression that contains no method or function call sends only read requests: no memory write, allocation or execution event.", "quantifier": "every expression and every debug information answer", "why_tests_cant": "absence of effects over all expressions", "anchors": ["rudy-lldb/src/evaluator.rs: EvalContext::evaluate, evaluate_to_ref"]}
{"id": "C46", "title": "Value expansion terminates on cyclic data", "statement": "Expanding a value for display follows at most 8 pointer levels, so it terminates on cyclic or self-referential structures, and values without pointers are shown in full unchanged.", "quantifier": "every memory graph including cycles", "why_tests_cant": "termination on infinite unfoldings", "anchors": ["rudy-lldb/src/evaluator.rs: read_pointer_recursive, pointer_to_result"]}
{"id": "C47", "title": "Source path remapping only rewrites matching prefixes", "statement": "A path under a mapped source prefix is rewritten to the target prefix with the remainder unchanged; a path matching no mapping is unchanged; remapping with identical source and target is the identity.", "quantifier": "every source map and path", "why_tests_cant": "all maps, including overlapping ones", "anchors": ["crates/rudy-dwarf/src/lib.rs: DwarfDb::remap_path"]}
{"id": "C48", "title": "A variable lookup returns the variable in scope", "statement": "get_variable_at_pc returns the parameter or local with the requested name visible at that pc, preferring the innermost/latest declaration when a name is shadowed.", "quantifier": "every function, variable list and name", "why_tests_cant": "all shadowing configurations", "anchors": ["rudy-db/src/debug_info.rs: DebugInfo::get_variable_at_pc, get_all_variables_at_pc"]}
{"id": "C49", "title": "Function discovery by pattern is sound and complete", "statement": "discover_functions(pattern) returns exactly the indexed functions whose full name equals the pattern or ends with ::pattern (or whose name equals it), each once, none lost.", "quantifier": "every index and pattern", "why_tests_cant": "collisions only occur for particular indexes", "anchors": ["rudy-db/src/function_discovery.rs: discover_functions, function_matches_pattern, discover_all_functions"]}
{"id": "C50", "title": "Method classification follows the self parameter", "statement": "A function is reported as a method of a type with the self kind (self, &self, &mut self) given by its first parameter's type, and as associated function otherwise; its signature prints all parameters in order.", "quantifier": "every parameter list and type", "why_tests_cant": "all types", "anchors": ["crates/rudy-dwarf/src/function/mod.rs: SelfType::from_param_type, FunctionSignature::print_sig"]}
{"id": "C51", "title": "Compilation-unit address range covers all its ranges", "statement": "The address range attributed to a unit is the smallest interval covering all of its ranges and absent exactly when it has none.", "quantifier": "every list of ranges in any order", "why_tests_cant": "min/max over all lists", "anchors": ["crates/rudy-dwarf/src/die/utils.rs: to_range"]}
{"id": "C52", "title": "Looking up an address across debug files returns a function containing it", "statement": "lookup_address returns a location whose function contains the address, whenever any debug file has one.", "quantifier": "every set of debug files and address", "why_tests_cant": "all overlap configurations", "anchors": ["rudy-db/src/query.rs: lookup_address", "rudy-db/src/index.rs: find_all_by_address"]}
{"id": "C53", "title": "Type names round-trip through display", "statement": "The display name of a parsed type re-parses (segment and generic structure) to the same type; distinct primitive types have distinct names.", "quantifier": "every type of any nesting", "why_tests_cant": "unbounded nesting", "anchors": ["crates/rudy-parser/src/types.rs: impl Display for Type, as_layout", "crates/rudy-types/src/lib.rs: display_name"]}
{"id": "C54", "title": "Formatted values keep every element", "statement": "Formatting an array or map of at most ten entries shows every entry in order, indented one level per nesting; larger collections show exactly their count.", "quantifier": "every value of any nesting", "why_tests_cant": "all nested values", "anchors": ["rudy-lldb/src/evaluator.rs: format_value, indent"]}
{"id": "C55", "title": "Integer indices computed from variables use the variable's value", "statement": "Using an integer variable as index uses exactly the value displayed for it, and negative or non-numeric values are rejected rather than wrapped.", "quantifier": "every integer value", "why_tests_cant": "all values", "anchors": ["rudy-lldb/src/evaluator.rs: evaluate_to_int, read_integer_from_memory"]}
{"id": "C56", "title": "Stack variable locations are frame base plus offset", "statement": "A variable located by DW_OP_fbreg is resolved to the frame base register plus its signed offset (wrapping modulo 2^64), and unsupported location forms are reported as unavailable rather than a wrong address.", "quantifier": "every register content and offset", "why_tests_cant": "all values", "anchors": ["crates/rudy-dwarf/src/expressions.rs"]}
{"id": "C57", "title": "A function's displayed name designates it", "statement": "The displayed name of a symbol is its demangled path without the trailing hash, and looking up a function by its own displayed name succeeds.", "quantifier": "every demangled path and every symbol index containing it", "why_tests_cant": "holds or fails by the shape of each path (generics, trait impls), an infinite space", "anchors": ["crates/rudy-dwarf/src/symbols/names.rs: impl Display for SymbolName", "rudy-db/src/index.rs: find_closest_function"]}
{"id": "C58", "title": "Synthetic methods report the state stored in memory", "statement": "len, capacity, is_empty report the numbers stored in the Vec or String header; is_some/is_none report whether the discriminant is nonzero; is_ok/is_err report the stored variant; a reply of the debugger that is no word is refused instead of being reported as a number.", "quantifier": "every memory, base address and layout", "why_tests_cant": "all memory contents, tag widths and offsets", "anchors": ["rudy-db/src/synthetic_methods.rs: evaluate_vec_method, evaluate_option_method, evaluate_result_method"]}
{"id": "C59", "title": "Text, booleans and characters are shown exactly", "statement": "A String or &str holding the UTF-8 encoding of a text is shown as exactly that text in quotes, so different texts are shown differently; a bool is true exactly when its byte is nonzero; a char is shown exactly when the word is a Unicode scalar value.", "quantifier": "every memory, text, layout offsets and address", "why_tests_cant": "all texts including every multi-byte encoding", "anchors": ["rudy-db/src/data.rs: read_primitive_from_memory, read_std_from_memory"]}
{"id": "C60", "title": "Values behind pointers are shown unchanged", "statement": "A pointer, reference, Box, Rc, Arc, RefCell, Mutex, Cell, UnsafeCell or RwLock is shown with the contents of the value it designates, through any chain of such pointers; only the type name changes.", "quantifier": "every memory, every chain length and every inner type", "why_tests_cant": "arbitrarily long chains over all memories", "anchors": ["rudy-db/src/data.rs: read_primitive_from_memory, read_std_from_memory"]}
{"id": "C61", "title": "The source file a request designates", "statement": "A request for a location in FILE:LINE is answered in FILE itself if that is the path of a source file, otherwise in the first source file, in the order of paths, whose path ends with the components of FILE, and it is refused as not found exactly when there is none.", "quantifier": "every set of indexed source files and every requested path", "why_tests_cant": "all sets of paths, all orders of indexing", "anchors": ["rudy-db/src/debug_info.rs: find_address_from_source_location"]}
{"id": "C62", "title": "A module is found by its path with all its parts", "statement": "Looking a module up by path finds it exactly if some namespace of a Rust unit has that path or lies below it, and lists every namespace DIE of exactly that path, over all units, in file order.", "quantifier": "every file of units, every namespace forest and every path", "why_tests_cant": "all forests of namespaces, repeated over any number of units", "anchors": ["crates/rudy-dwarf/src/modules.rs: ModuleIndex::find_by_path, ModuleRangeBuilder::visit_namespace"]}
{"id": "C63", "title": "Vec and String layouts are the ones DWARF describes", "statement": "Resolving a type named as a Vec yields the length, data-pointer and capacity offsets that are the sums of the member offsets along len, buf.inner.ptr and buf.inner.cap.__0, and the element type that its parameter T resolves to; a String yields those of its vec member. Conversely a Vec layout is only reported when these members exist.", "quantifier": "every DIE tree, every offset, every nesting and every element type", "why_tests_cant": "all compilers' layouts; a test compiles with one", "anchors": ["crates/rudy-dwarf/src/parser/vec.rs: vec", "crates/rudy-dwarf/src/types/resolution.rs: resolve_string_type, resolve_as_builtin_type"]}
{"id": "C64", "title": "Hash map layouts are the ones DWARF describes", "statement": "Resolving a HashMap yields the offsets of bucket mask, control pointer and item count as the sums along base.table.table (or table.table for hashbrown's own map), the pair's size and the key and value offsets within a pair, and the key and value types.", "quantifier": "every DIE tree and every key and value type", "why_tests_cant": "all layouts, any offset of any intermediate member", "anchors": ["crates/rudy-dwarf/src/parser/hashmap.rs: hashbrown_map", "crates/rudy-dwarf/src/types/resolution.rs: resolve_map_type"]}
{"id": "C65", "title": "B-tree map layouts are the ones DWARF describes", "statement": "Resolving a BTreeMap yields the offsets of length, root, height, node, keys, vals, len and edges that the members of the map, of the root reference and of the leaf and internal node types have.", "quantifier": "every DIE tree and every key and value type", "why_tests_cant": "all layouts, found through Option and NonNull wrappers", "anchors": ["crates/rudy-dwarf/src/parser/btreemap.rs: btree_map"]}
{"id": "C66", "title": "Structs are resolved to exactly their members", "statement": "A struct of the program resolves to its name, size, alignment and exactly its members, in order, each with its name, offset and type; resolution fails when one of these is missing.", "quantifier": "every struct DIE with any number of members", "why_tests_cant": "all numbers, names, offsets and types of members", "anchors": ["crates/rudy-dwarf/src/types/resolution.rs: resolve_struct_type, resolve_type_offset"]}
{"id": "C67", "title": "Enums are resolved to exactly their variants and discriminant", "statement": "An enum of the program resolves to all its variants, in order, with their names, discriminant values and types, and to the kind and offset of the discriminant member; a C-like enum resolves to all its enumerators with their values.", "quantifier": "every enum DIE with any number of variants and any discriminant placement", "why_tests_cant": "all variants and all placements of the tag", "anchors": ["crates/rudy-dwarf/src/parser/enums.rs: enum_def, enum_discriminant, enum_variant, c_enum_def"]}
{"id": "C68", "title": "Smart pointer and cell layouts are the ones DWARF describes", "statement": "Box, Rc, Arc, Mutex, RefCell, Cell, UnsafeCell and RwLock resolve to the offset of the pointer or of the value inside the wrapper, for Rc and Arc also that of the value inside the counted allocation, and to the type of the value.", "quantifier": "every DIE tree and every inner type", "why_tests_cant": "all layouts of wrappers and all inner types", "anchors": ["crates/rudy-dwarf/src/types/resolution.rs: resolve_smart_ptr_type"]}
{"id": "C69", "title": "Resolving a type has one answer, tied to its DIE", "statement": "However deep the resolution has to recurse, the type found for a DIE is the same, and it carries that DIE as its location.", "quantifier": "every DIE tree, type and recursion depth", "why_tests_cant": "arbitrarily deep types", "anchors": ["crates/rudy-dwarf/src/types/resolution.rs: resolve_type_offset, shallow_resolve_type"]}
{"id": "C70", "title": "Option and Result layouts are the ones DWARF describes", "statement": "Option and Result resolve to their name and size, the discriminant of their variant part, and the offset and type of the payload of Some, respectively of Ok and Err.", "quantifier": "every DIE tree and every payload type", "why_tests_cant": "all niches, offsets and payload types", "anchors": ["crates/rudy-dwarf/src/parser/option.rs: parse_option_entry, option_def", "crates/rudy-dwarf/src/parser/result.rs: result_def"]}
{"id": "C71", "title": "Function types are resolved to their result and arguments", "statement": "A function type resolves to the type of its result, if it has one, and the types of its arguments in order.", "quantifier": "every subroutine DIE, result and argument types", "why_tests_cant": "all result and argument types", "anchors": ["crates/rudy-dwarf/src/types/resolution.rs: resolve_type_offset, resolve_primitive_type"]}
{"id": "C72", "title": "Pointers, arrays, slices and tuples are resolved component by component", "statement": "Pointers, references and arrays resolve to the type they refer to; slices and str to the offsets of data_ptr and length; a tuple to exactly its fields' offsets and types in order.", "quantifier": "every DIE tree and every component type", "why_tests_cant": "all arities, offsets and component types", "anchors": ["crates/rudy-dwarf/src/types/resolution.rs: resolve_primitive_type, resolve_tuple_type"]}
{"id": "C73", "title": "The function index is exact", "statement": "Indexing a file records exactly the functions of its Rust units that are linked under a symbol of the file, at module or type level, each under the symbol's name with its DIE; each one with code gets the address range the symbol's address and its DWARF range give.", "quantifier": "every list of units, DIE trees, symbol table and relocation mode", "why_tests_cant": "all nestings, duplicate names and symbol tables", "anchors": ["crates/rudy-dwarf/src/function/index.rs: function_index, visit_function"]}
{"id": "C74", "title": "The variables of a function are exactly those it declares", "statement": "Resolving a function's variables returns the parameters and the local variables declared in it and in its nested blocks, in order, each with the name, type and position its DIE states; a declaration that cannot be read is left out and hides no other.", "quantifier": "every DIE tree, depth of blocks and mixture of readable and unreadable declarations", "why_tests_cant": "unbounded nesting and any faulty declarations", "anchors": ["crates/rudy-dwarf/src/function/variables.rs: resolve_function_variables, VariableVisitor, variable"]}
{"id": "C75", "title": "The methods listed for a type are those of its DIEs and impl blocks", "statement": "Listing the methods of a type returns, in order, the functions declared in the type's DIEs in every file that has its module, then the functions of its module's impl blocks that take such an object, then its synthetic methods; each with the name, parameters, result, self kind, address and text its DIE and symbol state.", "quantifier": "every set of files, DIE trees, symbol index and type", "why_tests_cant": "all module nestings, impl blocks and faulty declarations", "anchors": ["rudy-db/src/function_discovery.rs: discover_methods_for_type, find_matching_type_dies, discover_direct_methods, discover_trait_impl_methods", "crates/rudy-dwarf/src/parser/functions.rs: function_parser"]}
{"id": "C76", "title": "What evaluation shows is what the target holds", "statement": "Evaluating an expression made of variables, field accesses, indexing, parentheses and literals against a stopped target succeeds exactly when the expression denotes a place or literal there, and shows the value found in memory at that place, with its type; the target is as before.", "quantifier": "every expression, debug information, memory and register contents", "why_tests_cant": "all expressions over all memories", "anchors": ["rudy-lldb/src/evaluator.rs: evaluate, evaluate_to_ref, evaluate_variable_to_ref, evaluate_field_access_to_ref, evaluate_index, pointer_to_result"]}
{"id": "C77", "title": "A call written once is executed once", "statement": "Evaluating an expression executes each method or function call written in it at most once, whatever the client answers.", "quantifier": "every expression and every client behaviour", "why_tests_cant": "all nestings of calls and all replies", "anchors": ["rudy-lldb/src/evaluator.rs: convert_expression_to_method_arg_typed, execute_real_method, evaluate_function_call"]}
{"id": "C78", "title": "Calls pass the written arguments and show the reply", "statement": "A method or function call is executed at the discovered address, on the object's address, with one argument per written argument in order (numbers as written, places by address and size), and its result is shown as replied: simple values as they are, other results by the memory at the returned address.", "quantifier": "every call, argument list and client reply", "why_tests_cant": "all argument lists and replies", "anchors": ["rudy-lldb/src/evaluator.rs: evaluate_method_call, execute_real_method, evaluate_function_call, convert_expression_to_method_arg_typed"]}
{"id": "C79", "title": "The eval command answers with the value of the expression", "statement": "With a client that answers events from a stopped target, `eval` or `print` with words that parse (joined by blanks) to an expression without calls is answered by Complete carrying the value and type the expression stands for at the current program counter, and by Error exactly when it stands for none.", "quantifier": "every argument list, debug information, memory and register contents", "why_tests_cant": "all expressions over all memories, through the protocol", "anchors": ["rudy-lldb/src/server.rs: handle_command, send_event_request", "rudy-lldb/src/evaluator.rs: evaluate"]}
{"id": "C80", "title": "The methods command lists the methods of the named type or value", "statement": "`methods X` lists, in order and each once, the discovered methods of the type named X when X is a path, a generic, a word that is not a local variable, or no expression; otherwise those with a self parameter of the type of the value X stands for; it is answered by Error exactly when there is no such type or value.", "quantifier": "every argument text, debug information and stopped target", "why_tests_cant": "all texts and targets", "anchors": ["rudy-lldb/src/server.rs: handle_methods_command"]}
{"id": "C81", "title": "Other commands answer without touching the target", "statement": "`functions` lists exactly what function discovery returns (everything without an argument, else for the first argument), unknown commands and missing arguments are answered by an error naming the problem; none of these sends an event.", "quantifier": "every command name and argument list", "why_tests_cant": "all texts", "anchors": ["rudy-lldb/src/server.rs: handle_command, handle_functions_command"]}
{"id": "C82", "title": "What the server sends depends only on what it has read", "statement": "Two clients that send the same lines at first get the same messages up to the point where one of them stops sending; lines sent later never change earlier messages, and lines after the server ended the connection change nothing.", "quantifier": "every pair of line sequences with a common beginning and every pattern of failing writes", "why_tests_cant": "hyperproperty over unbounded protocol histories", "anchors": ["rudy-lldb/src/server.rs: run_server_loop, send_event_request, read_next_message"]}
{"id": "C83", "title": "Qualified type names: standard library paths give the standard types, other paths stand for themselves", "statement": "Parsing a type name below std, core, alloc or hashbrown, at any module depth, whose last segment is a known standard type gives that standard type with the parsed generic arguments; below any other root the name stands for itself (last segment with its arguments), even when the standard library has a type of that name.", "quantifier": "every module path of identifiers, every last segment and every list of readable type arguments of any nesting", "why_tests_cant": "unbounded paths and nesting", "anchors": ["crates/rudy-parser/src/types.rs: Path::as_typedef", "crates/rudy-dwarf/src/types: TypeName::parse"]}
{"id": "C84", "title": "A user type is found by its fully qualified name", "statement": "lookup_type_by_name takes a name apart at its module path (type arguments staying with the name) and returns the description of the first type, over the debug files and in file order, that is declared directly in a namespace of exactly that path and whose name matches; in modules outside the standard library that is the first type named exactly as asked, None being returned only when no such type is declared; names without a path are never found.", "quantifier": "every list of debug files with any DIE trees, every module path and every name of any length and nesting", "why_tests_cant": "unbounded DIE trees, files, paths and type arguments", "anchors": ["rudy-db/src/index.rs: resolve_type", "rudy-db/src/debug_info.rs: lookup_type_by_name", "crates/rudy-dwarf/src/types/index.rs: find_type_by_name"]}
{"id": "C85", "title": "A standard type is found by its fully qualified name and type arguments", "statement": "Looking up a standard type (Vec, Option, HashMap, Box, ...) returns an instance of that type with the type arguments asked for, without having to name the allocator; a declared instance of the very name is never missed.", "quantifier": "every list of debug files with any DIE trees, every std module path and every list of type arguments", "why_tests_cant": "unbounded DIE trees and nesting of type arguments", "anchors": ["rudy-db/src/index.rs: resolve_type", "crates/rudy-dwarf/src/types/index.rs: find_type_by_name", "crates/rudy-types/src/lib.rs: matching_type"]}
{"id": "C86", "title": "Source positions are resolved over the whole binary", "statement": "find_address_from_source_location considers every debug file: a source path is known exactly when a Rust unit of some debug file lists it, together with exactly the debug files listing it; the requested path (or else the first known path, in path order, ending with it) is looked up in all of them and the address of its nearest line at or after the requested one is returned, None only if there is none.", "quantifier": "every list of debug files with any number of units, file tables and line rows; every source map; every request text and line", "why_tests_cant": "unbounded files, tables and paths", "anchors": ["rudy-db/src/index.rs: debug_index", "crates/rudy-dwarf/src/file/index.rs: index_debug_file_sources", "rudy-db/src/debug_info.rs: find_address_from_source_location", "rudy-db/src/query.rs: lookup_position"]}
{"id": "C87", "title": "Source paths are those the debug information designates", "statement": "The path reported for a line-table entry is its name taken relative to its directory, itself relative to the compilation directory, rewritten by the source map; paths are compared by components, and reading a path's text back gives the path.", "quantifier": "every directory, name, compilation directory and source map", "why_tests_cant": "unbounded texts", "anchors": ["crates/rudy-dwarf/src/die/utils.rs: file_entry_to_path", "crates/rudy-dwarf/src/lib.rs: remap_path"]}
{"id": "C88", "title": "Types are searched in the workspace's own debug files", "statement": "The debug files searched for types and methods are exactly those, in order, listing a source below the workspace root or relative to `.`; the workspace root is the directory of the manifest cargo names, otherwise the nearest ancestor of the current directory that has a Cargo.toml.", "quantifier": "every list of debug files, current directory, file system and cargo output", "why_tests_cant": "unbounded directory depth and file lists", "anchors": ["rudy-db/src/index.rs: debug_index", "crates/rudy-dwarf/src/file/mod.rs: detect_cargo_root"]}
{"id": "C89", "title": "What the LLDB client sends is what the server reads", "statement": "Whatever messages the Python client writes to the socket - commands with any arguments, event responses with any data, texts with any Unicode characters, quotes, control characters or line breaks - the server reads exactly those messages, in order, whatever follows; a line that is not a message is reported as one bad line and does not affect the lines after it.", "quantifier": "every sequence of client messages and every continuation of the byte stream", "why_tests_cant": "unbounded message lists, texts and byte streams; JSON escaping, UTF-8 and serde decoding composed", "anchors": ["rudy-lldb/python/rudy_lldb.py: _send_message", "rudy-lldb/src/server.rs: read_next_message", "rudy-lldb/src/protocol.rs: ClientMessage, EventResponseData"]}
{"id": "C90", "title": "Reading messages is robust", "statement": "From any bytes whatever, the server acts only on messages whose texts are Unicode, whose numbers fit 64 bits and whose memory contents are bytes; the order of the fields of a message does not matter and unknown fields are ignored; reading always ends.", "quantifier": "every byte sequence; every message object with its fields in any order and any unknown fields", "why_tests_cant": "arbitrary hostile byte streams", "anchors": ["rudy-lldb/src/protocol.rs: ClientMessage, EventResponseData, MethodCallResult", "rudy-lldb/src/server.rs: read_next_message"]}
{"id": "C91", "title": "What the server sends is what the LLDB client reads", "statement": "Whatever events, results and errors the server writes, with texts of any Unicode characters, the Python client reads exactly those messages, one per line, in order.", "quantifier": "every sequence of server messages", "why_tests_cant": "unbounded message lists and texts", "anchors": ["rudy-lldb/src/server.rs: write_message", "rudy-lldb/src/protocol.rs: ServerMessage, EventRequest", "rudy-lldb/python/rudy_lldb.py: _read_message"]}
{"id": "C92", "title": "Each event is carried out by LLDB exactly as named", "statement": "For every event the client either performs exactly the LLDB operation the event names, once, with the given addresses, names, sizes and data, and answers with what LLDB gave; or it answers with an error, having at most tried that very operation. A method or function call becomes a C expression that casts the given address to a function of the given argument types (receiver first, blocks passed by value through one struct definition per size) and applies it to the given values. What LLDB can do is not refused.", "quantifier": "every event, every behaviour and every state of LLDB", "why_tests_cant": "LLDB's behaviour and arguments lists are arbitrary", "anchors": ["rudy-lldb/python/rudy_lldb.py: _handle_event, _handle_execute_method, _handle_execute_function, _handle_read_memory, _handle_read_register_by_index, _handle_write_memory, _handle_allocate_memory"]}
{"id": "C93", "title": "Answers are of the kind the server expects", "statement": "The client answers every event, and each answer is either an error or of the kind the server expects for that event, so that no event ever fails with a protocol mismatch.", "quantifier": "every event, every behaviour and every state of LLDB", "why_tests_cant": "LLDB's behaviour is arbitrary", "anchors": ["rudy-lldb/python/rudy_lldb.py: _handle_event", "rudy-lldb/src/evaluator.rs: RemoteDataAccess"]}
{"id": "C94", "title": "rd prints exactly the response", "statement": "rd prints an error as `Error: <text>`; a value as its type and its text; for methods a header with the type, then every non-synthetic method's signature in order with whether it is callable (or a note that there is none), then the synthetic ones; for functions their number and one line each with module path, name, signature and whether it is callable.", "quantifier": "every response", "why_tests_cant": "unbounded lists and texts", "anchors": ["rudy-lldb/python/rudy_lldb.py: rudy_command"]}
{"id": "C95", "title": "A session over the socket gives what the commands mean", "statement": "For any debug information, any behaviour of LLDB and any sequence of commands, the client and the server talking over the connection have exactly one outcome: each command's response is that of the command's handling run directly against LLDB (which continues in the resulting state), in order, until the client leaves, the server panics or is shut down, after which commands fail; in particular what rd prints for a typed expression without calls is the value it stands for in the stopped target.", "quantifier": "every debug information, LLDB behaviour, command sequence and number of events", "why_tests_cant": "unbounded interaction of two programs over byte streams", "anchors": ["rudy-lldb/python/rudy_lldb.py: send_command, RudyConnection", "rudy-lldb/src/server.rs: run_server_loop, handle_command, send_event_request"]}
{"id": "C96", "title": "The expression typed is the expression evaluated", "statement": "For `rd <command> <text>` (or its one-letter form), the server evaluates the expression <text> stands for, however it is spaced.", "quantifier": "every command word, text and spacing", "why_tests_cant": "unbounded texts and spacing", "anchors": ["rudy-lldb/python/rudy_lldb.py: rudy_command", "rudy-lldb/src/server.rs: handle_command", "crates/crates/rudy-parser/src/expressions.rs: parse_expression"]}
{"id": "C97", "title": "Commands use the debug information of the selected target", "statement": "Every rd command that is sent goes to a connection opened for the executable of the currently selected target.", "quantifier": "every history of targets, connection failures and commands", "why_tests_cant": "arbitrary histories", "anchors": ["rudy-lldb/python/rudy_lldb.py: _get_connection"]}
{"id": "C98", "title": "A failing command does not affect later ones", "statement": "Every command of a session is answered, whatever became of the earlier ones.", "quantifier": "every command sequence, debug information and LLDB behaviour", "why_tests_cant": "arbitrary histories", "anchors": ["rudy-lldb/python/rudy_lldb.py: send_command, _get_connection", "rudy-lldb/src/server.rs: run_server_loop"]}
{"id": "C99", "title": "The debug files of a binary and their symbols", "statement": "Opening a binary uses exactly its own file and those object files (or archive members) its debug map names that exist, each once under the last number naming it; the symbols indexed are exactly those of the binary and of these files; a missing binary is an error and an unreadable one has no symbols. For a function name with one symbol the answer does not depend on the order in which files are visited.", "quantifier": "every file system, object map, archive and symbol table, every visiting order", "why_tests_cant": "unbounded files; hash-map order", "anchors": ["rudy-db/src/index.rs: debug_index, index_debug_files, index_symbol_map", "crates/rudy-dwarf/src/file/mod.rs: load, File::build"]}
{"id": "C100", "title": "The file that is read is the mapped one", "statement": "The file loaded for a path is the one the configured path mapping sends that path to.", "quantifier": "every path, path mapping and file system", "why_tests_cant": "arbitrary mappings", "anchors": ["crates/rudy-dwarf/src/file/mod.rs: File::build, load", "rudy-db/src/database.rs: remap_path"]}
{"id": "C101", "title": "Functions of a binary found by name", "statement": "DebugInfo::find_function_by_name, from the stored files: a path names the function whose name ends in it (the least such name), and the answer is its full name, the address of its symbol, the size of its code and the names and types of its parameters in declaration order; nothing is found exactly when no function symbol has that ending.", "quantifier": "every binary, object files, name", "why_tests_cant": "unbounded debug information", "anchors": ["rudy-db/src/debug_info.rs: find_function_by_name, resolve_function", "rudy-db/src/index.rs: find_closest_function"]}
{"id": "C102", "title": "Other symbols of a binary found by name", "statement": "DebugInfo::find_symbol_by_name answers the last indexed of the least symbol whose last path segment is the text given, and nothing exactly when there is none.", "quantifier": "every binary and name", "why_tests_cant": "unbounded symbol tables", "anchors": ["rudy-db/src/debug_info.rs: find_symbol_by_name"]}
{"id": "C103", "title": "Addresses of a binary located", "statement": "DebugInfo::address_to_location, from the stored files: for every address inside the code of a function the answer is that function with the file and line its line table states for it; and every answer given is of that form.", "quantifier": "every binary and address", "why_tests_cant": "unbounded debug information", "anchors": ["rudy-db/src/debug_info.rs: address_to_location", "rudy-db/src/query.rs: lookup_address"]}
{"id": "C104", "title": "Variables of a binary at an address", "statement": "DebugInfo::get_variable_at_pc / get_all_variables_at_pc, from the stored files: for a name declared in the function around the address the answer is the name, its frame address and its complete type of the innermost visible declaration; all variables are the parameters and the locals declared on an earlier line; outside any function there is none.", "quantifier": "every binary, address, register values and name", "why_tests_cant": "unbounded debug information", "anchors": ["rudy-db/src/debug_info.rs: get_variable_at_pc, get_all_variables_at_pc"]}
{"id": "C105", "title": "From the stored files to the printed value", "statement": "Typing `rd eval x` in LLDB for an integer variable of the function the program is stopped in prints the type and the number of the variable's bytes in the target's memory: from the files on disk, through loading, indexing, variable lookup, evaluation and the connection, to the printed lines, for every memory content.", "quantifier": "every binary, process state, integer type and byte content", "why_tests_cant": "composition of all parts over unbounded inputs", "anchors": ["rudy-lldb/src/server.rs", "rudy-lldb/src/evaluator.rs: evaluate", "rudy-db/src/debug_info.rs: DebugInfo", "rudy-lldb/python/rudy_lldb.py"]}
{"id": "C106", "title": "Types of a binary found by name", "statement": "DebugInfo::lookup_type_by_name, from the stored files: a user type named by its full path is the first type of that very name declared in that module over the debug files of the workspace, and the answer is the complete description of that type; a standard type likewise with its type arguments; nothing exactly when no such type is declared.", "quantifier": "every binary, workspace, path mapping and type name", "why_tests_cant": "unbounded debug information", "anchors": ["rudy-db/src/debug_info.rs: lookup_type_by_name", "rudy-db/src/index.rs: debug_index"]}
{"id": "C107", "title": "Source positions of a binary resolved", "statement": "DebugInfo::find_address_from_source_location, from the stored files: the address answered for FILE:LINE is where code of the source meant is loaded, of the nearest line at or after LINE with code in any debug file; none is answered exactly when no source is meant or no such line has code.", "quantifier": "every binary, path mapping, file name and line", "why_tests_cant": "unbounded debug information", "anchors": ["rudy-db/src/debug_info.rs: find_address_from_source_location", "rudy-db/src/query.rs"]}
{"id": "C108", "title": "Functions of a binary listed by pattern", "statement": "DebugInfo::discover_functions, from the stored files: for a pattern of path segments the answer lists exactly the functions whose name ends in it, each once, with its name, the address of its symbol, its module path and the signature its debug information declares; discover_all_functions lists every function.", "quantifier": "every binary and pattern", "why_tests_cant": "unbounded symbol tables and debug information", "anchors": ["rudy-db/src/debug_info.rs: discover_functions, discover_all_functions", "rudy-db/src/function_discovery.rs"]}
{"id": "C109", "title": "Methods of a type of a binary are listed", "statement": "For a type declared in a debug file of an opened binary, the listing of its methods contains, in this order: every function declared inside a struct entry of the same type in any namespace of the same path in any debug file; every method taking such an object declared in the impl blocks beside the type; and the built-in methods of its layout. Each carries the name, parameters, result and address its debug entry and symbol say, and nothing else is listed.", "quantifier": "every binary, every debug file and unit tree, every type", "why_tests_cant": "quantifies over all unit trees, module nestings and symbol tables", "anchors": ["rudy-db/src/debug_info.rs: discover_methods_for_type", "rudy-db/src/function_discovery.rs: discover_methods_for_type, find_matching_type_dies, discover_trait_impl_methods", "crates/rudy-dwarf/src/modules.rs: find_by_offset, find_by_path"]}
{"id": "C110", "title": "An expression over plain types prints what memory holds", "statement": "From the stored files and the stopped target to the printed lines: evaluating a path of field accesses, indexings and map look-ups from a variable of the current function prints the type of that place and the value its bytes hold, to the depth that is shown: numbers, booleans, texts, structs with every field, arrays, slices and Vecs with every element, Strings, Options, enums, Box/Rc/Arc/Mutex/RefCell contents, hash and B-tree maps with every entry, types declared elsewhere in the unit and values behind references. An index may be a literal or a place holding an integer, a key a literal or a place holding a text.", "quantifier": "every binary, memory content, variable and path of fields, indices and keys over these types", "why_tests_cant": "quantifies over all memories, type nestings and paths", "anchors": ["rudy-lldb/src/evaluator.rs: pointer_to_result, read_pointer_recursive, evaluate_field_access_to_ref, evaluate_index_to_ref", "rudy-db/src/debug_info.rs: get_struct_field, index_array_or_slice", "rudy-db/src/data.rs: read_from_memory"]}
{"id": "C111", "title": "All methods of a binary, grouped by the type they take", "statement": "Asking for all methods of a binary returns, for every type name, exactly the functions of the workspace whose signature is declared in the debug files and whose first parameter has that type, each once, with the name, parameters, result and address its entry and symbol say; a type with no method is absent.", "quantifier": "every binary, symbol table and set of debug files", "why_tests_cant": "quantifies over all unit trees and symbol tables", "anchors": ["rudy-db/src/debug_info.rs: discover_all_methods", "rudy-db/src/function_discovery.rs: discover_all_methods"]}
{"id": "C112", "title": "The report on every function says what is known of it", "statement": "The diagnostic report has one entry for every function symbol, and each entry is right: a signature when the function is declared in an indexed file of the workspace, an error when its declaration cannot be read, no debug information when no file declares it, and unindexed when its file is outside the workspace.", "quantifier": "every binary, symbol table and set of debug files", "why_tests_cant": "quantifies over all unit trees and symbol tables", "anchors": ["rudy-db/src/debug_info.rs: discover_all_methods_debug", "rudy-db/src/function_discovery.rs: discover_all_functions_debug"]}
{"id": "C113", "title": "A built-in method prints what memory holds", "statement": "From the stored files and the stopped target to the printed lines: evaluating len, capacity or is_empty of a Vec, String, slice, text or array, is_some or is_none of an Option, and is_ok or is_err of a Result at any place of the current frame prints the method's type and the answer the target's bytes give, running no code of the target.", "quantifier": "every binary, memory content and place of the frame", "why_tests_cant": "quantifies over all memories, type layouts and paths", "anchors": ["rudy-lldb/src/evaluator.rs: evaluate_method_call", "rudy-db/src/synthetic_methods.rs: evaluate_synthetic_method, evaluate_result_method", "rudy-db/src/debug_info.rs: get_variable_at_pc"]}
{"id": "C114", "title": "Calling a function or method runs it once and prints its result", "statement": "From the stored files and the stopped target to the printed lines: evaluating name(arguments) or object.method(arguments) makes LLDB evaluate exactly one C expression, which calls the function of that name at its address with the arguments (numbers as numbers, places by value, the object by address), and prints the declared type of the result and the value the target's memory holds for it after the call.", "quantifier": "every binary, target state, function, method and list of arguments", "why_tests_cant": "quantifies over all binaries, memories, signatures and argument lists", "anchors": ["rudy-lldb/src/evaluator.rs: evaluate_function_call, execute_real_method, convert_expression_to_method_arg_typed", "rudy-db/src/function_discovery.rs: discover_functions", "rudy-lldb/python/rudy_lldb.py: _handle_execute_function, _handle_execute_method"]}
{"id": "C115", "title": "Words and white space of an expression are cut as the language says", "statement": "At any position of an expression preceded by ASCII text, a word made of letters, digits and underscores that does not begin with a digit is read as one identifier, ending exactly before the first other character; white space is exactly the set of characters Unicode calls White_Space; and how much white space stands between words does not change the meaning of an expression without string literals.", "quantifier": "every input text and position", "why_tests_cant": "all texts, positions and characters; unit tests cover a few spellings", "anchors": ["crates/rudy-parser/src/expressions.rs: Tokenizer, next_token, skip_whitespace, read_identifier"]}
{"id": "C116", "title": "A character foreign to the language is refused", "statement": "An expression in which a character that is neither ASCII nor white space occurs outside string literals is answered by an error: it is never misread as another expression and never panics, wherever the character stands and whatever follows it.", "quantifier": "every input text", "why_tests_cant": "all texts and positions of the character", "anchors": ["crates/rudy-parser/src/expressions.rs: parse_expression, Tokenizer, next_token"]}
{"id": "C117", "title": "Connections do not disturb one another", "statement": "Several clients may be connected to one server at a time, and their messages may arrive in any order, interleaved in the middle of each other's commands, with any of them disconnecting, sending nonsense or making the server panic at any point: what a connection is sent is exactly what it would have been sent had it been the only one.", "quantifier": "every schedule of connections, messages, disconnections and write failures", "why_tests_cant": "quantifies over all interleavings of any number of connections", "anchors": ["rudy-lldb/src/server.rs: run_server, ClientConnection, run_server_loop, send_event_request"]}
{"id": "C118", "title": "The server stops when asked and only then", "statement": "The server ends only because a client sent it the shutdown command or because connections can no longer be accepted: no error, panic or disconnection of any connection ends it. `rudy-lldb stop` sends that command to the address it is given, and to no other; the server then ends, whatever its other connections are doing, and sends nothing more.", "quantifier": "every schedule, host and port", "why_tests_cant": "quantifies over all schedules and points of interruption, and over all host texts", "anchors": ["rudy-lldb/src/main.rs: stop_server", "rudy-lldb/src/server.rs: run_server, init, run_server_loop"]}
{"id": "C119", "title": "Installing puts the script in place and keeps the user's files", "statement": "`rudy-lldb install` writes the script that the newest rudy-lldb release offers into the directory it is given, completely, and makes LLDB import it by a line in ~/.lldbinit; everything ~/.lldbinit held is kept; an existing script is overwritten only with consent, and the import is added unless it is declined; no other file is touched, a failing installation leaves ~/.lldbinit as it was; installing again changes nothing.", "quantifier": "every directory, content of the files, answer typed and answer of the web", "why_tests_cant": "quantifies over all file contents, directories, typed answers and release lists", "anchors": ["rudy-lldb/src/main.rs: install_lldb_client"]}
{"id": "C120", "title": "The functions command lists the binary's functions", "statement": "From the stored files to the printed lines: typing `rd functions path::name` prints how many functions of the binary have a name ending in that path and one line for each, with its full name, the signature its debug information declares and whether it can be called; `rd functions` alone prints one line for every function of the binary, in order of their names. The target is left alone.", "quantifier": "every binary and pattern", "why_tests_cant": "composition of all parts over unbounded symbol tables and debug information", "anchors": ["rudy-lldb/src/server.rs: handle_functions_command", "rudy-db/src/debug_info.rs: discover_functions, discover_all_functions", "rudy-lldb/python/rudy_lldb.py"]}
{"id": "C121", "title": "The methods command lists the methods of a type", "statement": "From the stored files to the printed lines: typing `rd methods path::Type` for a type of the workspace prints one line for every method of that type, with its signature and whether it can be called, and apart from them the built-in methods of its layout; typing `rd methods <expression>` for a variable of the current function, a field or an element prints those of the type of that place which take a self parameter. The target is left alone.", "quantifier": "every binary, workspace, type, stopped target and expression", "why_tests_cant": "composition of all parts over unbounded debug information", "anchors": ["rudy-lldb/src/server.rs: handle_methods_command", "rudy-db/src/debug_info.rs: lookup_type_by_name, discover_methods_for_type", "rudy-lldb/python/rudy_lldb.py"]}
{"id": "C122", "title": "Type names are read as the language writes them", "statement": "A type name, written with any white space between its words and marks, is read as the type Rust's grammar says: paths with type and constant arguments, qualified and impl-numbered segments, references, raw pointers (const and mut kept apart), slices, arrays with their length, tuples, function pointers with their parameters and result, trait objects and never; what a compound name means is the compound of what its parts mean, and no text writes two types.", "quantifier": "every type and every way of spacing its text", "why_tests_cant": "unbounded nesting and spacing", "anchors": ["crates/rudy-parser/src/types.rs: Type, parse_type, as_layout", "crates/rudy-dwarf/src/symbols/names.rs: TypeName::parse"]}
{"id": "C123", "title": "rd starts the server when it is needed, and only then", "statement": "Typing an rd command starts a server process only when rd has no connection, automatic starting is switched on (RUDY_AUTOSTART unset or 1/true/on/yes in any case) and the server was looked for at RUDY_HOST:RUDY_PORT and did not answer; at most one process per command, on that address. A connection is made only to a server that has just answered, for the selected target's executable, and in a whole session at most one succeeds. A server that was started but did not come up has ended or been killed when the command returns, and this and what it has written is shown. The command is sent or the failure is reported. rd alone and rd status start, connect and send nothing. (That a server that has gone away is started again does not hold: the old connection is kept.)", "quantifier": "every machine (whether and when the server answers, processes end, connections succeed), every configuration, every sequence of typed lines and targets", "why_tests_cant": "tests would have to arrange every order of server start-up, exit and connection failure", "anchors": ["rudy-lldb/python/rudy_lldb.py"]}
{"id": "C124", "title": "Indexing the modules of a file does not crash", "statement": "Asking for the module of a DIE, or for the DIEs of a module, of any debug file ends with an answer; the thread does not panic, whatever compilation units the file holds.", "quantifier": "every debug file: any units, trees of entries, attributes and padding", "why_tests_cant": "the claim ranges over all debug information; a test sees the files one compiler version wrote", "anchors": ["crates/rudy-dwarf/src/modules.rs", "crates/rudy-dwarf/src/visitor.rs"]}
{"id": "C125", "title": "What designates nothing is reported, not invented", "statement": "From the stored files and the stopped target to the printed text: evaluating an expression that designates nothing prints an error and nothing else, and leaves the target as it is: a name the current function does not declare, a field its struct does not have, an element at or beyond the end of an array or Vec, a key no entry of the map has, a field or element of a type that has none, a function or method the binary does not have, a function or method given the wrong number of arguments, an expression with such a part, text that is no expression, and anything starting at a variable while no frame is selected. When LLDB cannot carry out a call, an error is printed and nothing else has been done than that one attempt.", "quantifier": "every binary, target state, memory content and expression", "why_tests_cant": "quantifies over all binaries, memories and nestings of expressions", "anchors": ["rudy-lldb/src/evaluator.rs: evaluate, evaluate_variable_to_ref, evaluate_field_access_to_ref, evaluate_index_to_ref, evaluate_function_call, evaluate_method_call", "rudy-db/src/debug_info.rs: get_variable_at_pc, get_struct_field, index_array_or_slice, index_map, discover_functions", "rudy-lldb/src/server.rs: handle_command", "rudy-lldb/python/rudy_lldb.py"]}
{"id": "C126", "title": "A text written in a call reaches the callee", "statement": "From the stored files and the stopped target to the printed text: when an argument of a called function or method is a non-empty string literal and its parameter is a String or a &str (of at most 1 MiB), then at the moment of the call the target's memory holds, at the address that is passed, a value of that type whose bytes, length (and capacity) are those of the text, along with the other texts of the call; nothing that was in memory before has changed and the program still stands where it stopped; one call is made, with these values and the other arguments in their order, and its result is printed.", "quantifier": "every binary, target state, allocator behaviour, function or method, and list of arguments mixing texts, numbers and places", "why_tests_cant": "quantifies over all texts, all allocators and all interleavings of allocations and writes in the target", "anchors": ["rudy-lldb/src/evaluator.rs: evaluate_function_call, evaluate_method_call", "rudy-db/src/debug_info.rs: create_typed_value", "rudy-lldb/python/rudy_lldb.py"]}
{"id": "C127", "title": "Calls may stand inside expressions: each runs once, in order, and its result can be looked into", "statement": "From the stored files and the stopped target to the printed text: rd eval takes expressions in which calls of functions and methods stand as the object of a field, of an index or of another call, and as arguments. The calls are evaluated by LLDB one after the other, the object before the arguments, the arguments from left to right, each once and in the state the ones before left; each is given the address of its object's result and the values of its arguments; the printed lines are the type and the value found, in the final state, at the place the expression designates.", "quantifier": "every binary, target state, debugger that changes state with each evaluation, and expression of any depth", "why_tests_cant": "quantifies over all nestings of calls, fields, indexes and arguments and over every sequence of states the target goes through", "anchors": ["rudy-lldb/src/evaluator.rs: evaluate_to_ref, evaluate_method_call_to_ref, evaluate_function_call_to_ref, convert_expression_to_method_arg_typed", "rudy-lldb/python/rudy_lldb.py"]}
{"id": "C128", "title": "What was asked before does not change an answer", "statement": "The connections of a server share one database that remembers what was computed. Every answer on a connection is nevertheless the one that a computation made from scratch gives, on the contents which the connection's files had when it first read each of them: neither earlier questions, nor their order, nor other connections, nor later changes to the files have any influence, and every question that ends is answered. From the moment the files no longer change, a new connection is answered from the files as they are, and refused exactly when the binary does not exist. A binary rebuilt while a connection is open is noticed by it.", "quantifier": "every history of connections and questions on any connections, in any order, and every change of the files at any moments, also in the middle of a question", "why_tests_cant": "quantifies over all histories of queries and file changes; a stale or mixed-up cache entry only shows in particular orders", "anchors": ["rudy-db/src/database.rs: DebugDatabaseImpl, load_binary, get_sync_ref", "rudy-db/src/index.rs: debug_index", "crates/rudy-dwarf/src/file/mod.rs: File, Binary, DebugFile, load", "crates/rudy-dwarf/src/symbols/mod.rs: index_symbol_map", "rudy-lldb/src/server.rs: run_server"]}
{"id": "C129", "title": "Nobody has to read what the server writes about itself", "statement": "The server answers the same whether or not somebody reads its standard output and error, to which it logs failures and panics: a server started on demand from LLDB, whose output goes into pipes that nobody reads, answers every session exactly as one started in a terminal.", "quantifier": "every session of every length, everything written before by any connection, every shape of log lines and panic messages, every further output of the libraries, and pipes of every capacity", "why_tests_cant": "quantifies over all histories and pipe capacities; a test stops long before a pipe is full", "anchors": ["rudy-lldb/src/server.rs: run_server_loop, handle_methods_command", "rudy-lldb/src/main.rs: main", "rudy-lldb/python/rudy_lldb.py: _start_server"]}
{"id": "C130", "title": "The server's command line means what was written", "statement": "The server binary started with some words runs `start`, `stop` or `install` with given settings exactly when the words are that subcommand followed by a spelling of settings: each option once, in any order, as --name value, --name=value, -n value, -nvalue or -n=value, flags as --name or bundled behind one dash, a value in a word of its own not looking like an option, a port being decimal digits with an optional sign and between 0 and 65535; what is not said has its documented default (port 5737, host 127.0.0.1, directory ~/.lldb, no flags); anything else runs nothing. In particular the words the LLDB client starts a server with are understood as its configured port and host if and only if the port is between 0 and 65535 and the host does not look like an option, and never as anything else.", "quantifier": "every list of words, every order and mixture of spellings, every bundle of flags, every configured port and host", "why_tests_cant": "an if-and-only-if over all word lists; a test tries a few", "anchors": ["rudy-lldb/src/main.rs: Args, Command, main", "rudy-lldb/python/rudy_lldb.py: _start_server"]}
{"id": "C131", "title": "An LLDB started later finds the installed script", "statement": "After `rudy-lldb install` has reported success with the import added, an LLDB started by the user in any directory imports the script that was installed.", "quantifier": "every directory given, every HOME, every text of ~/.lldbinit, every current directory of the installer and of LLDB", "why_tests_cant": "quantifies over the pairs of directories the installer and LLDB are started in, and over all directory names; a test has one of each", "anchors": ["rudy-lldb/src/main.rs: install_lldb_client"]}
{"id": "C132", "title": "An expression, however deeply nested, is parsed or refused, and the server goes on", "statement": "Parsing an expression on the server's thread ends with the expression or an error, never with the process: whatever the nesting of brackets and prefix operators in the text, the stack of the thread is enough.", "quantifier": "every expression text, every size of the thread's stack", "why_tests_cant": "quantifies over every stack size and over texts longer than any test's; running out of stack kills the test process instead of failing a test", "anchors": ["crates/rudy-parser/src/expressions.rs: Parser::parse_unary, parse_postfix, parse_primary, parse_arguments, parse_type_arguments, parse_type_name", "rudy-lldb/src/server.rs: run_server"]}
{"id": "C133", "title": "A type name is read in time proportional to its length", "statement": "Reading a type name starts reading a type at most a fixed number of times per character of the name, however its generics, tuples, references, arrays and function types are nested.", "quantifier": "every type name; the number of times the parser enters Type::parse, attempts given up included", "why_tests_cant": "a bound on the growth of the work is about all lengths and nestings; a test measures some names, and short ones are fast under any growth", "anchors": ["crates/rudy-parser/src/types.rs: parse_type, Type, Tuple, Slice, RefType, GenericArgs", "crates/rudy-dwarf/src/symbols/names.rs: TypeName::parse"]}

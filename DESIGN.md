# Formal model of samscott89/rudy in Rocq

## Layout

`rocq/theories/<Area>Model.v` holds executable Gallina definitions, each citing the file and lines it
models; `<Area>Spec.v` the independent specification; `<Area>Proofs.v` the lemmas; `<Area>Props.v` only the
property theorems (each `exact lemma`), the non-vacuity `Example`s and `Print Assumptions`.

## Conventions

* Outcomes: `Ok`, `Err` (anyhow error), `Panic` (Rust panic, including checked-arithmetic overflow in a
  dev build and `unimplemented!`), so panics are visible in statements.
* Strings are lists of Unicode scalar values; bytes are `Z` in 0..255; u64/usize/i128 are `Z`, with explicit range
  conditions where the code can overflow.
* Unbounded recursion that is not structural uses fuel; running out is a distinct outcome which
  the theorems exclude.

## Properties: what is modelled and how it is proved

| id | property | model area | approach |
|---|---|---|---|
| C01 | Address lookup is exact | Addr | AddressTree as binary tree with max_end; induction on build and query; Permutation with List.filter |
| C02 | Address range lookup is exact | Addr | same tree, range query; Permutation with filter of overlapping ranges |
| C03 | Symbol at address is the nearest preceding function symbol | Sym | ordered map by address as association list; characterise greatest key <= a |
| C04 | Symbol index answers reflect the whole insertion history | Sym | fold of insertions; invariant relating the four maps to the history |
| C05 | Looking a function up by (partial) path is sound and complete | Sym | BTreeMap in key order as sorted assoc list; find; soundness and completeness |
| C06 | Parsing an expression always terminates with a result or an error | Expr | tokenizer over code points with byte offsets, explicit Panic; fuel bound proved sufficient; non-ASCII panic is a refutation |
| C07 | Printing then re-parsing an expression gives the same expression | Expr | Display model; parse(display e)=e by induction over well-formed expressions; parser output is well formed |
| C08 | The parser implements the documented grammar | Expr | inductive grammar relation, soundness and completeness of the recursive descent parser |
| C09 | Number literals denote their exact value | Expr | digit-string value spec; read_number equals it or errors |
| C10 | The whole input is parsed | Expr | expected refuted: witness `a b` |
| C11 | String literals keep their content | Expr | ASCII positive theorem; non-ASCII refuted |
| C12 | Symbol paths are decomposed losslessly | Sym | parse_symbol state machine; theorem on joined well-formed segments |
| C13 | A hash is only recognised when it is a compiler hash | Sym | expected refuted: witness last segment `hadd` |
| C14 | Type matching is a sound equivalence for lookups | Types | layouts as nested inductive; reflexivity, symmetry by size induction; transitivity refuted |
| C15 | Dereferencing a type strips every pointer level | Types | structural recursion |
| C16 | Type sizes agree with layout | Types | recursive size function with Panic for unimplemented branches |
| C17 | Integers are decoded exactly | Data | byte lists, little-endian decode/encode, two's complement |
| C18 | Array, slice and Vec elements are located exactly | Data | read over abstract memory |
| C19 | HashMap reading returns exactly the occupied buckets | Data | control-byte loop; permutation/filter spec on bucket indices |
| C20 | BTreeMap reading is the in-order key sequence | Data | memory-layout predicate for B-trees, in-order list; zero-sized values refuted |
| C21 | The active enum variant is the one selected by the discriminant | Data | variant selection |
| C22 | C-like enums read back the declared name | Data | enumerator selection |
| C23 | Tuple variants keep their field order | Data | BTreeMap string ordering of __i keys; expected refuted for > 10 fields, positive for <= 10 |
| C24 | Option values are read as Some exactly when they hold a value | Data | expected refuted (low byte only); positive for discriminants < 256 |
| C25 | Every advertised synthetic method can be evaluated | Synth | case analysis on layouts |
| C26 | Synthetic predicates are consistent | Synth | case analysis on layouts and memory; Result high-bit heuristics examined |
| C27 | len() agrees with the displayed elements | Synth | agreement between two readers |
| C28 | Indexing an array or Vec is bounds checked and agrees with reading | DebugInfo | index function over memory |
| C29 | Indexing a slice works | DebugInfo | expected refuted: extract_slice_info never matches what read returns |
| C30 | Field access designates the declared field | DebugInfo | find over field list |
| C31 | Map indexing returns the value stored under the key | DebugInfo | find over entries |
| C32 | A String created for a call argument reads back unchanged | DebugInfo | state-passing memory with writes; frame lemma |
| C33 | A &str created for a call argument reads back unchanged and stays in its allocation | DebugInfo | as C32; expected refuted for offsets allowed past the allocation |
| C34 | Values are totally ordered | Value | nested value comparison; total preorder proved, antisymmetry refuted |
| C35 | Source line to address picks the nearest following line | Lines | fold over rows; minimality |
| C36 | Address to source line returns the row of that address | Lines | find over rows |
| C37 | Line to address and back is the identity on lines with code | Lines | composition under functional line table |
| C38 | Module of a DIE is the innermost enclosing namespace | Modules | partition point and backward scan over sorted ranges |
| C39 | Module ranges recorded for a compilation unit nest like its namespaces | Modules | walker over DIE forest with offset bookkeeping |
| C40 | Walking a unit visits each reachable DIE exactly once in order | Walk | cursor over preorder (depth,die) list modelling gimli; walker; equality with recursive traversal |
| C41 | Field-path offsets are the sum of member offsets | Dies | DIE tree with attributes; fold of member offsets |
| C42 | Collecting children applies each parser to the first child it accepts | Dies | parsers as functions DIE -> result |
| C43 | Every client command gets exactly one response | Server | grammar `session` of the log of a connection (turns = line, exchanges, final response; endings); simulation of the loop; refutations for panics and commands sent while an event is pending |
| C44 | Events and event responses alternate strictly | Server | `exchange` grammar: one event, one line; `strict` programs: first unfit answer is the last; refuted for arguments that are places or calls |
| C45 | Inspecting values never changes the target | Proc, IoData, Eval | evaluator as a tree of questions to the client (`prog`), so every client behaviour is covered; `permitted` events by induction on the expression |
| C46 | Value expansion terminates on cyclic data | Eval | expansion = relation `unfolded 8`; pointers left are at least 8 levels away; termination for every client from type conditions `closed`/`ends` (never out of the model's recursion budget) |
| C47 | Source path remapping only rewrites matching prefixes | Paths | paths as component lists; strip_prefix |
| C48 | A variable lookup returns the variable in scope | Vars | list search; shadowing expected refuted |
| C49 | Function discovery by pattern is sound and complete | Discover | filter over the index entries (each name once, last indexed); text and details related to the function's DIE by `presents`; name collisions and hash-like names refuted |
| C50 | Method classification follows the self parameter | Fn, Discover | self kind as an iff with the resolved first parameter; record `describes` relating a DIE to the reported method |
| C51 | Compilation-unit address range covers all its ranges | Lines | fold min/max |
| C52 | Looking up an address across debug files returns a function containing it | Lines | concatenation over files |
| C53 | Type names round-trip through display | TypeText, TypeName | lexer + unsynn combinators + Display; `parse_show` by induction on types via a token relation; soundness invariant of the parser gives the round trip; layouts: every nameable layout has a written type with that name and shape |
| C54 | Formatted values keep every element | Format | separate line-based specification `shown`; text = its lines joined; line breaks inside texts and empty last entries refuted |
| C55 | Integer indices computed from variables use the variable's value | Eval | `number` relation; text-to-integer exact (`written_number`); a[i] = a[z] for the displayed z |
| C56 | Stack variable locations are frame base plus offset | Loc | location expression evaluation |
| C57 | A function's displayed name designates it | Sym | display strips exactly the hash; lookup completeness composed with it; trait-impl paths refuted |
| C58 | Synthetic methods report the state stored in memory | Synth | serves: memory holds header words / tag at offsets; method result computed; Result heuristic refuted for wide tags |
| C59 | Text, booleans and characters are shown exactly | Text | concrete UTF-8 encoder and lossy decoder with a roundtrip theorem; readers composed with it |
| C60 | Values behind pointers are shown unchanged | Text | inductive `designates` relation for one pointer, induction over chains |
| C61 | The source file a request designates | Lines | choice over the indexed paths characterised; composed with C35 |
| C62 | A module is found by its path with all its parts | Modules | module tree as fold of add_entry over the namespaces in file order |
| C63 | Vec and String layouts are the ones DWARF describes | Resolve | DIE-tree relation `follows` (sum of offsets along member names), soundness and completeness of the container parser against it |
| C64 | Hash map layouts are the ones DWARF describes | Resolve | same, for the hashbrown table; nonzero offset of `base` refuted |
| C65 | B-tree map layouts are the ones DWARF describes | Resolve | same, through Option and NonNull |
| C66 | Structs are resolved to exactly their members | Resolve | iff with Forall2 over the DW_TAG_member children; budget lemma for the recursive calls |
| C67 | Enums are resolved to exactly their variants and discriminant | Resolve | Forall2 over the variants; discriminant offset refuted by a concrete unit |
| C68 | Smart pointer and cell layouts are the ones DWARF describes | Resolve | one clause per wrapper; RwLock proved to panic |
| C69 | Resolving a type has one answer, tied to its DIE | Resolve | fuel monotonicity of the recursion (rle/ple preorders) |
| C70 | Option and Result layouts are the ones DWARF describes | Resolve | variant selection by name in the variant part |
| C71 | Function types are resolved to their result and arguments | Resolve | refuted: result type dereferenced twice |
| C72 | Pointers, arrays, slices and tuples are resolved component by component | Resolve | iff for tuples; follows for slices |
| C73 | The function index is exact | Fn | visitor fold over the pruned unit trees; index = last linked function per name, addresses = list in file order |
| C74 | The variables of a function are exactly those it declares | Fn | visitor fold over the function's tree, declarations filtered by tag; Forall2 with `var_says` |
| C75 | The methods listed for a type are those of its DIEs and impl blocks | Discover | list equation: direct methods per module DIE, impl-block methods of the type's scope, synthetic methods; two findings as refutations |
| C76 | What evaluation shows is what the target holds | Eval | denotational relations `place`, `number`, `text`, `shows_as` against a stopped client; outcome Ok iff denoted; interactive reading refines the fixed-memory reading models |
| C77 | A call written once is executed once | EvalCalls | count execution events on every path of the question tree; bound `worst e`; equals number of calls when no call is inside an argument; otherwise refuted |
| C78 | Calls pass the written arguments and show the reply | EvalCalls | decomposition of the trace of a successful call; `passed` relation for arguments; method argument count unchecked (refuted) |
| C79 | The eval command answers with the value of the expression | Server | replay of the recorded answers against the stopped client, then C76 |
| C80 | The methods command lists the methods of the named type or value | Server | relation `lists_methods` on the parsed text, local-variable question and place; iff with the response |
| C81 | Other commands answer without touching the target | Server | case analysis on the command; iff with discovery's answer; no events in the replay |
| C82 | What the server sends depends only on what it has read | Server | lock-step simulation of two runs until the shorter input ends; logs only grow |
| C83 | Qualified type names: standard library paths give the standard types, other paths stand for themselves | TypeName | printed path re-parses (C53), then case analysis of path_layout |
| C84 | A user type is found by its fully qualified name | Lookup | search = first_of over the members of the namespaces of the path (composition with C62); names by C83 |
| C85 | A standard type is found by its fully qualified name and type arguments | Lookup | as C84 with std_named heads; counterexample computed on a concrete unit |
| C86 | Source positions are resolved over the whole binary | Source, Lines | fold invariants give the index as `filter (listing p)`; composition with C36's nearest-line theorem, rows listing a path imply the file is indexed under it |
| C87 | Source paths are those the debug information designates | Source, Path | components of a joined text = join of components (induction on pieces); counterexample for absolute names |
| C88 | Types are searched in the workspace's own debug files | Source | filter = selects; induction on the directory from the end for the nearest manifest |
| C89 | What the LLDB client sends is what the server reads | Json, Wire | JSON printer/reader round trip by induction on values; lines contain no line feed; serde decoding evaluated per message |
| C90 | Reading messages is robust | Wire | invariant of the JSON reader (texts stay Unicode), range checks of the decoders; permutation lemmas for fields |
| C91 | What the server sends is what the LLDB client reads | Wire, Client | as C89 with serde_json's writer and Python's reader |
| C92 | Each event is carried out by LLDB exactly as named | Client | inductive specification `performs`; both directions by case analysis; call text by list induction |
| C93 | Answers are of the kind the server expects | Client | case analysis of the handlers |
| C94 | rd prints exactly the response | Client (Rd) | evaluation of the printer on encoded responses, list lemmas |
| C95 | A session over the socket gives what the commands mean | Session | two stream programs connected; existence by construction, uniqueness by lock-step induction on the handling program; composed with C79, C89, C91 |
| C96 | The expression typed is the expression evaluated | Typed | the lexer reads words independently (induction on total word length); refuted for string literals |
| C97 | Commands use the debug information of the selected target | Session | induction over histories; counterexample with two targets |
| C98 | A failing command does not affect later ones | Session | induction on dialogues; counterexample: a panic, then a harmless command |
| C99 | The debug files of a binary and their symbols | Load, Binary | file map as sorted assoc list, fold invariants; symbols by the history of C04; order independence by permutation; counterexample for a name in two files |
| C100 | The file that is read is the mapped one | Load | remap is idempotent when targets lie outside sources; counterexample otherwise |
| C101 | Functions of a binary found by name | Binary | composition of C05 (names), C73 (function index), C74 (variables) over the opened files |
| C102 | Other symbols of a binary found by name | Binary | invariant of the symbol index (SymProps) |
| C103 | Addresses of a binary located | Binary | composition of symbol addresses, function ranges and line rows; both directions |
| C104 | Variables of a binary at an address | BinaryVars | composition of C101, C103 and variable lookup (FnProps) |
| C105 | From the stored files to the printed value | BinarySession | composition of C99, C104 with the evaluator, the wire and rd's printer (C79, C95, C94) |
| C106 | Types of a binary found by name | BinaryTypes | composition of C84/C85 (lookup over module trees) with the module index of each file and the workspace filter |
| C107 | Source positions of a binary resolved | BinaryLines | composition of C86/C87 (sources and lines) with the function index of each file |
| C108 | Functions of a binary listed by pattern | BinaryDiscover | composition of C49 (discovery) with the function index of each file |
| C109 | Methods of a type of a binary are listed | BinaryMethods | composition of C75 with the module ranges and namespaces of each file (ModulePlaces: the DIE recorded for a range) |
| C110 | An expression over plain types prints what memory holds | PlainSpec, PlainProofs, BinaryEval | induction on the value found in memory (PlainProofs), a path denotation over the unit's DIEs, composed with C105's session |
| C111 | All methods of a binary, grouped by the type they take | DiscoverReport, BinaryReport | composition of the signature reader with the function index of each file; both directions |
| C112 | The report on every function says what is known of it | DiscoverReport, BinaryReport | case analysis of every symbol against the files; a counterexample where displayed names collide |
| C113 | A built-in method prints what memory holds | BinarySynth | the place found as in C110, the method's reads run against the target's memory, composed with C105's session |
| C114 | Calling a function or method runs it once and prints its result | BinaryCall | the callee looked up as in C108 or C109, each argument converted by running the evaluator on its place (C110), one ExecuteFunction or ExecuteMethod event answered as C92 says, the result read in the state after it, composed with C105's session |
| C115 | Words and white space of an expression are cut as the language says | ExprText, TypedProps | character classes compared with explicit lists; the tokenizer run on any text whose part before the word is ASCII |
| C116 | A character foreign to the language is refused | ExprText | induction over the tokens before the foreign character, each cut at or before it; slices are at byte positions equal to character positions because what precedes is ASCII |
| C117 | Connections do not disturb one another | ServeModel, ServeProps, ServeExample | threads that block at reads, fed by an arbitrary schedule of events; induction over the schedule with the invariant that thread i is the fold of its own inputs; a lone thread fed all its lines equals run_session (the model of C43 and C44) by induction over the command's program |
| C118 | The server stops when asked and only then | ServeModel, ServeProps, ServeStop, ServeExample | invariant over schedules: no thread is waiting inside a shutdown command, so only a shutdown message makes one exit; std's socket address parser modelled for IPv4 and characterised exactly (which host texts are accepted, and as what) |
| C119 | Installing puts the script in place and keeps the user's files | InstallModel, InstallProps, InstallExample | files as a map from paths to bytes, the web and the typed answers as parameters, the release list as JSON text read by the model of C57; case analysis of one run, and of a second run on its result |
| C120 | The functions command lists the binary's functions | BinaryCommands, BinaryExample9 | C108's listing composed with the server's command handling and C105's session: the answer of one command whose handler needs no events |
| C121 | The methods command lists the methods of a type | BinaryCommands, BinaryValueMethods, BinaryExample9, BinaryExample10 | C106 finds the type's DIE, C109 lists its methods, composed with the server's command handling and C105's session; for expressions C110's places give the type |
| C122 | Type names are read as the language writes them | TypeGrammar, TypeGrammarProofs, TypeGrammarProps | a grammar over token trees and a separate relation between token trees and texts, both written without the parser; induction over the parser's depth with the follow set of a type |
| C123 | rd starts the server when it is needed, and only then | LLDB client | AutoModel.v models the configuration, _ensure_server_running, _start_server, _get_connection and rudy_command over an arbitrary machine, as a trace of actions; AutoProps.v: theorems about every trace (what precedes and follows a started process, a connection, a sent command), and about sessions by induction; AutoEnd.v: what is shown when the started server does not come up; AutoLive.v: the converse (a server that is needed is started, given its time and used as soon as it answers); the missing restart is refuted. |
| C124 | Indexing the modules of a file does not crash | Modules | ModulePanic.v: the walk of module_index ends early inside a unit only at the unwraps; exact characterisation by induction over DIE trees (namespaces reached through namespaces), for good files no panic, refuted by a nameless namespace |
| C125 | What designates nothing is reported, not invented | BinaryAstray, BinaryExample11 | an inductive specification of expressions that designate nothing, over C110's relation of places; induction over it: the evaluation ends with an error in every mode (as a place, a value, an index, a key), having sent only requests that change nothing; composed with C105's session for the printed text; calls LLDB fails at are followed through the client's handler |
| C126 | A text written in a call reaches the callee | BinaryCallText, BinaryExample12 | the specification is a target with a heap (malloc takes unused memory, writes change what they write, both leave the stop alone) and the bytes of a text as a value of the parameter's type; the allocations and writes of creating a text are followed one by one through the client, a text being kept by whatever later texts do; induction over the arguments; then C114's call in the state reached |
| C127 | Calls may stand inside expressions: each runs once, in order, and its result can be looked into | BinaryNested, BinaryExample13 | a big-step relation over the debugger's states (reaches / calls / indexes / keys / sends, mutually inductive) is the specification; mutual induction over it follows the evaluator in each mode through the client, the stop being the same in every state; composed with C105's session; the refutation runs a call argument of unknown result size |
| C128 | What was asked before does not change an answer | CacheModel, CacheSpec, CacheProofs, CacheProps, CacheExample | the database as numbered inputs and tables of remembered answers, the rest of the code as an arbitrary computation that asks it for the index, for units, or calls tracked functions; the disk is an arbitrary function of time that may change between any two accesses; invariant: every remembered answer means the same in every view that agrees with the files loaded so far; the last sentence is refuted (rebuild_noticed_refuted) |
| C129 | Nobody has to read what the server writes about itself | OutModel, OutProps | the session of ServerModel with the two log calls of server.rs, panic messages and the libraries' output (a parameter) written to two pipes that take some sequences of writes (a parameter); with readers it is ServerModel's session (watched_server); induction over the rounds shows that without readers a session is the same or hangs, and the same as long as what is written fits; refuted by repeating a failing `methods` command |
| C130 | The server's command line means what was written | CliModel, CliProps | clap's parser for the declared options as a function on word lists; the specification is an inductive relation listing the spellings of settings; equivalence for any table of options with distinct names by induction on the number of words (spelled_scan) and on the spelling (scan_spelled), defaults by membership; then the words of AutoModel's server_command |
| C131 | An LLDB started later finds the installed script | InstallModel, FindProps | what LLDB makes of ~/.lldbinit is the specification: words separated by blanks (how quotes are read is a parameter), files relative to its current directory; proved for absolute directories without blanks, quotes or backslashes; refuted for every relative directory (found from the installer's directory only) and for a directory with a space |
| C132 | An expression, however deeply nested, is parsed or refused, and the server goes on | StackModel, StackProps | the parser of ExprModel with a count of stack frames, None when there is none left; a mutual induction (fits) bounds the frames needed by four times the nesting tokens, another (agrees) shows that the stack changes nothing but whether there is an answer; refuted by a run of stars as long as the stack |
| C133 | A type name is read in time proportional to its length | TypeCostModel, TypeCostProps | the parser of TypeTextModel with a count of the entries of Type::parse; agreement combinator by combinator (counting_changes_nothing); with at most d nested tuples of two or more and references to arrays the count is at most 2^d times the number of tokens (induction on the fuel, as in parse_tk) and these at most the characters (tokenize_count); refuted without d by nested tuples, whose first element is read once as a one-element and once as a longer tuple, and by nested references to arrays, read once as slices: 2^k for 6k+2 characters |

## Trusted base

* Coq 8.16.1's kernel (no kernel check is switched off, no plugins, no `native_compute` in proofs; `vm_compute` is used, so the
  kernel's bytecode machine is trusted too).
* Axioms: none. `Print Assumptions` follows every property theorem in its file and prints "Closed under the global
  context" for each of them; `vcheck` repeats this over all theorems. The seven constants `Coq.ssr.ssrunder.Under_rel.*` that
  a listing of the loaded environment shows belong to Coq's own standard library (an opaque module type loaded with ssreflect's
  `under`); no theorem here depends on them.
* That the model says what the code says. Each definition cites the lines it models and names its simplifications; `seeded/LOG.jsonl`
  records the wrong programs the theorems were tried against.
* The behaviour, taken from documentation and source, of the libraries the code calls, modelled or left as parameters:
  * *parameters*, so the theorems hold for all behaviours: `sort_by_key` (any function that sorts, `sorts`), rustc_demangle
    (`externals`), formatting and recognising floats, hash-map iteration order (`order`), IPv6 socket-address syntax, the stored files
    (`fs`), the memory, registers and API of LLDB (`debugger`), answers of an arbitrary client (`prog`), the schedule of connections, the
    web, console and file permissions of `install`, processes and sockets of the auto-start (`machine`);
  * *modelled concretely*: UTF-8 and `from_utf8_lossy` (Utf8.v), `BTreeMap` as a sorted association list (OMap.v), `std::path`
    components and `join` (PathModel.v), IPv4 `SocketAddr` syntax (ServeModel.v), JSON text as serde_json and Python's `json` write and
    read it (JsonModel.v; numbers that overflow, such as 1e999, are accepted as text; Python decodes strictly where the model decodes
    lossily, on bytes the server never sends), serde's derived decoding (WireModel.v), proc_macro2's lexer and unsynn 0.1's combinators
    (TypeTextModel.v), gimli's DIE cursor, attribute access, line rows and the location-expression operations that compilers emit
    (DieModel.v, LinesModel.v, LocModel.v), Python's `split`, `lower`, `strip` and `print`.
  * Constants: the host is a 64-bit little-endian Unix (`size_of::<usize>() = 8`).

## What is modelled

| code | model |
|---|---|
| crates/rudy-parser/src/expressions.rs | ExprModel |
| crates/rudy-parser/src/types.rs | TypeTextModel (type names), SymModel (`parse_symbol`) |
| crates/rudy-types/src/lib.rs | TypesModel |
| crates/rudy-dwarf/src/address/mod.rs | AddrModel |
| crates/rudy-dwarf/src/address/resolution.rs, die/utils.rs, die/navigation.rs | LinesModel, SourceModel, ParserModel |
| crates/rudy-dwarf/src/die/mod.rs, die/cu.rs, die/unit.rs | ParserModel, ModuleModel |
| crates/rudy-dwarf/src/visitor.rs | DieModel |
| crates/rudy-dwarf/src/modules.rs | ModuleModel |
| crates/rudy-dwarf/src/parser/*.rs | ParserModel (combinators, children, primitives), ResolveModel (containers, enums), DiscoverModel (functions) |
| crates/rudy-dwarf/src/types/*.rs | ResolveModel, LookupModel |
| crates/rudy-dwarf/src/function/*.rs | FnModel, LinesModel |
| crates/rudy-dwarf/src/expressions.rs | LocModel |
| crates/rudy-dwarf/src/symbols/*.rs | SymModel, LoadModel (`index_symbol_map`) |
| crates/rudy-dwarf/src/file/*.rs, src/lib.rs | LoadModel, SourceModel, PathModel |
| rudy-db/src/database.rs, index.rs, query.rs | LoadModel, SourceModel, LookupModel, LinesModel |
| rudy-db/src/data.rs | DataModel (fixed memory), IoDataModel (through events) |
| rudy-db/src/debug_info.rs | BinaryModel (every public query over the opened files), AccessModel, CreateModel |
| rudy-db/src/function_discovery.rs | DiscoverModel |
| rudy-db/src/synthetic_methods.rs | SynthModel |
| rudy-db/src/outputs.rs | ValueModel |
| rudy-lldb/src/evaluator.rs | EvalModel, ProcModel, IoDataModel |
| rudy-lldb/src/server.rs | ServerModel (one connection), ServeModel (all of them) |
| rudy-lldb/src/protocol.rs | ProcModel, WireModel, JsonModel |
| rudy-lldb/src/main.rs | ServeModel (stop), InstallModel (install), CliModel (the command line), OutModel (where the log goes) |
| rudy-lldb/python/rudy_lldb.py | ClientModel, SessionModel, AutoModel, WireModel |

The parts are composed: BinaryModel builds the debug information from the stored files, and the theorems of Binary*.v go from those
files and the bytes of the stopped target to the lines printed in LLDB.

## What is not modelled

* Decoding of object-file and DWARF bytes (crates `object` and `gimli`): a file is its symbol table and its units' DIE trees, line tables
  and location expressions. DIEs are identified by their offset alone where the code uses file and offset (hypothesis `apart`).
* mmap (a file overwritten in place changes under the map); the inside of salsa (its contract is CacheModel's: a tracked function is computed
  once per key; C128 then shows that the other models may treat queries as functions of the files); tracing output.
* Threads between two reads of their socket (a connection's thread is atomic there), allocation failure, stack overflow by deep
  recursion other than the expression parser's (StackModel, C132; elsewhere the fuel theorems say that the recursion ends).
* clap itself (CliModel states what it does with these declarations; the text of messages and of help is left out), HTTP transport, the banner of `__lldb_init_module`, RUDY_DEBUG output, exceptions raised by LLDB's
  own calls other than those the client handles; register-relative frame bases beyond their panic.
* xtask, benches, test utilities and examples.

## Findings

Each is stated and proved in the model as a theorem named `*_refuted` or described in the note of its claim (MANIFEST.json).

* **Symbols.** The order in which files are indexed depends on a hash map, and the answer with it (C99). `->` inside `<..>` breaks
  `parse_symbol`; a last segment such as `hface` is taken for a hash (C13); functions of trait implementations are not found by their displayed
  name (C57); `find_symbol_by_name` takes only the bare last segment (C102).
* **Loading.** `File::build` remaps the path and `load` remaps the result again (C100).
* **Type names.** Raw pointers are displayed as `* constT`, which does not read back (C53); `fn()` is read with one argument of empty name,
  `(T)` as a one-tuple, empty text, `Vec<>` and trailing commas as empty paths; `unsafe fn` loses `unsafe`; closure names are not read; text that
  cannot be lexed panics; user types named like a standard one are taken for it; `&mut [T]` becomes a reference to an array of length zero.
* **Lookup by name.** Unqualified names are never found; type arguments of standard types are compared by their last segment; without a cargo
  workspace no type is found (C84-C88).
* **Sources.** Absolute file names of line tables get the directory prepended; DWARF 5 file numbers are off by one; only rows at exactly the address
  match (C36, C87, C103).
* **Discovery.** Hash-like names cannot be searched; listings keyed by displayed name lose collisions; trait methods of types in the last
  module of a unit are missed and one unresolvable `self` fails the listing (C49, C75, C109, C112, C121).
* **Expressions.** Non-ASCII literals panic or lose characters; tokens after the expression are dropped (C06, C10, C11).
* **Reading values.** Sizes of cells use the `<()>` instance; the offset of an implicit enum discriminant is added twice; tuple variants with more than
  ten fields are reordered; `Str`, tuples, `Result`, `Cell`, `RwLock` panic (`unimplemented`); only the low byte of an Option's discriminant
  is used; BTreeSets read as empty; slices cannot be indexed (C16, C21-C24, C29).
* **DWARF types.** User types nested in other types stay aliases, so their fields cannot be reached (C110's nested_place_refuted); the discriminant
  offset is read from the variant part; a function's result type is dereferenced twice; the offset of a hash map's `base` is dropped;
  arrays only use DW_AT_count; RwLock panics (C64, C67, C68, C71).
* **Modules and variables.** A unit whose root is not a compile unit ends the walk; a namespace without a readable name panics (C124); shadowed variables show the earliest one (C48).
* **Database.** A connection that has been asked something never notices that its files were rebuilt; object files are not checked against the
  debug map's time stamps, so versions may be mixed (C128).
* **Evaluation and server.** `is_ok()` of a Result with a wide tag always says true (C58); a call inside an argument is executed again for each
  level (C77), end to end in C127; the number of method arguments is not checked (C78); a panic closes the connection without a response, and a command sent while an
  event is pending is swallowed (C43, C98); `&str` arguments may be written outside their block (C33); strings with line breaks are
  re-indented (C54).
* **LLDB client.** Words are split at white space and rejoined by single spaces, which changes string literals (C96); the connection is never
  reset, neither after the server has closed it (C123) nor when the target changes (C97); a register number is used as a set index (C92);
  f32 arguments are passed as C doubles; a method is called with whatever number of arguments was typed, a function only with its own (C125).
* **Started on demand.** The server's output goes into pipes that are read only if it fails to start; once they are full (some hundred failed
  `rd methods`, or panics, or object files that are missing) the server hangs, and LLDB with it (C129).
* **stop.** Host names are refused; success is reported without waiting for the answer (C118).
* **install.** With a relative directory (or HOME unset) the import is found only from the directory of the installation; with a space in the path it is found nowhere (C131).
* **stack.** The expression parser recurses without a limit: a long enough run of `*`, `&`, `(` or `[` in one expression overflows the thread's stack and ends the server with all its connections (C132).
* **command line.** RUDY_PORT outside 0..65535, or a RUDY_HOST beginning with a dash, makes the server started on demand print a usage error and exit (C130).
* **install.** A `.lldbinit` without final newline gets the import glued to its last line; a comment mentioning the script counts as the import
  (C119).
* **tuples.** The type parser reads the first element of a tuple twice (once for `Arity1`, once for `ArityN`), and `&[T; n]` reads `T` twice (once as a slice), so nested tuples take exponential time: `((((u8, u8), u8), u8), u8)` and on doubles per level (nested_tuples_take_exponential_time_refuted).

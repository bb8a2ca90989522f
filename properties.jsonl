{"id": "C01", "title": "Line records of a FUNC are the inserted lines, stably sorted, with sizes that tile the function", "statement": "After a function's line table is finalised with the function's start and size, the line records written under its FUNC record are exactly the inserted (address, line, file) triples in stable address order; every record but the last has as size the distance to the next record; the last one reaches exactly to the function end when it starts before it (and the end fits in 32 bits), and has size 0 otherwise. Finalising never panics and never underflows, with or without overflow checks.", "quantifier": "every sequence of line insertions (any addresses, unsorted or duplicated), every function start and size", "why_tests_cant": "The code keeps an incremental 'already sorted' flag and relies on it for the absence of u32 underflow; only a proof covers every insertion order.", "anchors": ["src/line.rs: Lines::add_line, Lines::finalize, Lines::compute_len, Lines::ensure_order"]}
{"id": "C02", "title": "Address lookup in a finalised line table gives the right source line", "statement": "For every address of the function at or after the first line record, exactly one line record of non-zero size contains it, and it is the last-inserted one among the inserted lines with the greatest start address not above that address. Addresses below the first record or at/after the end of the table are in no record.", "quantifier": "every insertion sequence, every function range, every address", "why_tests_cant": "A consumer (stack walker) looks up arbitrary addresses; tests look at a few tables.", "anchors": ["src/line.rs: Lines::finalize, Lines::compute_len"]}
{"id": "C03", "title": "Finalising inline address ranges preserves coverage and merges maximally", "statement": "For every inline call site, finalising keeps for every code address the number of ranges of that site which contain it, leaves the ranges sorted by address, leaves no two neighbouring ranges that abut, neither adds nor drops a site, and does not panic as long as every range ends within the 32-bit address space; beyond that bound the length addition can overflow.", "quantifier": "every sequence of (site, range) insertions, every address", "why_tests_cant": "Merging is done by an in-place de-duplication with a mutating predicate; the number of shapes (chains, overlaps, duplicates, empty ranges) is unbounded.", "anchors": ["src/line.rs: Lines::add_inline, Lines::ensure_order"]}
{"id": "C04", "title": "INLINE records are written once per call site, ordered by start address then depth", "statement": "The text written for a function contains exactly one INLINE record per recorded call site, carrying its depth, call line, call file, origin and all its ranges; records are ordered by (address of first range, depth); they all precede the line records; writing never panics because no recorded call site is without a range.", "quantifier": "every function line table obtainable through the insertion API", "why_tests_cant": "Ordering plus completeness over arbitrary site/range sets.", "anchors": ["src/line.rs: impl Display for Lines, write_inline_record, write_line_record"]}
{"id": "C05", "title": "Insertion order is irrelevant when start addresses are distinct", "statement": "If no two lines have the same address and no two ranges of the same call site have the same address, any reordering of the insertions produces the same finalised table.", "quantifier": "every pair of insertion sequences that are permutations of each other", "why_tests_cant": "The collector's recursion inserts in an order the comments call irrelevant; that is a claim over all permutations.", "anchors": ["src/line.rs: Lines::add_line, Lines::add_inline, Lines::finalize", "src/collector.rs: collect_function_with_inlines_recursive (comment at 193-194)"]}
{"id": "C06", "title": "One FUNC per start address, first one wins, 'm' marks exactly the shared ones", "statement": "After collecting the functions of an object, there is a FUNC record at 32-bit address a exactly when some function with non-zero address truncates to a; it describes the first such function in debug-info order; it carries the 'm' (multiple) marker exactly when at least two such functions exist. Functions at address 0 never produce a record.", "quantifier": "every list of functions reported by the debug-info reader", "why_tests_cant": "Depends on arbitrary lists with repeated addresses and truncation collisions.", "anchors": ["src/collector.rs: Collector::collect_function, Collector::collect_functions"]}
{"id": "C07", "title": "Collecting public symbols never damages or hides a FUNC", "statement": "Adding the symbol table of an object keeps every record that was there, with its address, size, kind and line table unchanged; only on Windows may a FUNC at the same address as a public symbol get its name and parameter size from that symbol, and only a PUBLIC record can acquire the 'm' marker. New records are PUBLIC and non-synthetic.", "quantifier": "every existing symbol table and every list of public symbols", "why_tests_cant": "Arbitrary interleavings of addresses, sizes, names.", "anchors": ["src/collector.rs: Collector::collect_publics"]}
{"id": "C08", "title": "No PUBLIC is placed inside a preceding sized symbol", "statement": "A public symbol whose address lies strictly inside the [start, start+size) range of the closest preceding record is never added; one that is not inside, not a compiler constant, and whose address is free is always added with its address and size.", "quantifier": "every symbol table without 32-bit overflow of start+size, every list of public symbols", "why_tests_cant": "Range query over an arbitrary evolving ordered map.", "anchors": ["src/symbol.rs: ContainsSymbol::is_inside_symbol", "src/collector.rs: Collector::collect_publics"]}
{"id": "C09", "title": "Placeholder functions only fill holes", "statement": "Turning PE exception data into placeholder FUNC records leaves all existing records untouched, adds at most one synthetic FUNC per exception entry, only at an address that has no record and is not inside the closest preceding record, with size end-begin; entries with end < begin or unreadable entries are ignored.", "quantifier": "every symbol table, every list of exception entries", "why_tests_cant": "Arbitrary lists of possibly malformed entries.", "anchors": ["src/collector.rs: Collector::collect_placeholder_functions"]}
{"id": "C10", "title": "The containment test is exact, or the 32-bit end address overflows", "statement": "The test 'is this address inside a symbol' answers yes exactly when the closest record strictly before the address has start+size above the address, provided start+size does not exceed 2^32-1. When it does exceed it, a build with overflow checks aborts and a release build answers with the wrapped sum.", "quantifier": "every symbol table, every address, both overflow-check modes", "why_tests_cant": "The overflowing inputs are a tiny corner of a 2^64 space.", "anchors": ["src/symbol.rs: is_inside_symbol"]}
{"id": "C11", "title": "Synthetic section / trailing symbols never replace anything", "statement": "For an ELF object one synthetic PUBLIC is added at every executable section start that has no record, and nothing else changes; for PE/PDB objects exactly one synthetic PUBLIC is added right after the last record (or one byte after it if it has size 0) provided the address fits in 32 bits, and none if there is no record at all; the name mentions the module unless it is empty.", "quantifier": "every symbol table, section list and module name", "why_tests_cant": "Arbitrary tables, including sections colliding after truncation and last symbols at the top of the address space.", "anchors": ["src/symbol.rs: add_executable_section_symbols, append_dummy_symbol_pe_pdb"]}
{"id": "C12", "title": "At most one record per address, written in increasing address order", "statement": "In everything this tool builds - functions, placeholders, publics, section symbols, merges of any number of objects - each record is filed under its own start address, no two FUNC/PUBLIC records have the same address, and they are written in strictly increasing address order.", "quantifier": "every object and every history of collection steps and merges", "why_tests_cant": "Inductive invariant over unbounded histories.", "anchors": ["src/symbol.rs: Symbols", "src/collector.rs", "src/object_info.rs: ObjectInfo::from_object, ObjectInfo::merge, impl Display for ObjectInfo"]}
{"id": "C13", "title": "The inline walk terminates and never duplicates or invents an inline range", "statement": "For every function tree, collecting it terminates; the INLINE ranges contributed at nesting depth d are ranges of the lines of inlined functions at depth d+1 with that function's name, each used at most once; if every inlined line lies inside a non-empty line of its caller and caller lines are sorted and disjoint, every one of them is used.", "quantifier": "every tree of functions and inlined functions, every way of breaking ties in the unstable sort", "why_tests_cant": "Unbounded trees and interleavings of line and inline ranges, including malformed debug info.", "anchors": ["src/collector.rs: collect_function_with_inlines_recursive"]}
{"id": "C14", "title": "Inline stacks are reproduced at every address", "statement": "For well-formed debug info, at every code address covered by the function the written records give back the inline stack of the debug info: at each depth exactly the INLINE record naming the inlined function with the caller's line and file, and the line record holding the innermost line and file.", "quantifier": "every well-formed function tree (sorted disjoint lines at each level, inlined lines nested inside caller lines), every address", "why_tests_cant": "Statement about all addresses of all trees; the de-duplication of equal consecutive lines makes it fail for discontiguous inlined code, which tests with contiguous inlines do not show.", "anchors": ["src/collector.rs: collect_function_with_inlines_recursive", "src/line.rs: Lines::finalize"]}
{"id": "C15", "title": "A line of the caller is never lost next to an inlined call", "statement": "Every address covered by a line of a function and by none of its inlined calls is attributed to that line, whatever the shape of the inline ranges.", "quantifier": "every function with sorted disjoint lines and arbitrary inline ranges", "why_tests_cant": "Only malformed overlap (an inline range that spills over a caller line boundary) breaks it; see the refutation.", "anchors": ["src/collector.rs: collect_function_with_inlines_recursive, skip loop 331-338"]}
{"id": "C16", "title": "Without inlines, the line table agrees with the debug info", "statement": "With inline collection off and lines sorted by address, looking up any address of the function in the written table gives the line and file of the last debug-info line with a non-zero line number starting at or before that address; line 0 never appears.", "quantifier": "every sorted list of debug-info lines, every address", "why_tests_cant": "De-duplication of equal neighbours must be invisible to lookups for all lists.", "anchors": ["src/collector.rs: collect_function_without_inlines"]}
{"id": "C17", "title": "FILE numbering is dense and every file reference resolves", "statement": "In the records of a freshly processed object every file number occurring in a line or INLINE record is the number of a FILE record, FILE records are numbered 0,1,2,... without gaps and every FILE record corresponds to exactly one source path.", "quantifier": "every sequence of functions collected from an object, inlines on or off", "why_tests_cant": "Two-level numbering (provisional and final ids) has to stay in lock-step through every history.", "anchors": ["src/source.rs: SourceFiles::get_id, SourceFiles::get_true_id", "src/collector.rs", "src/object_info.rs: Display"]}
{"id": "C18", "title": "A file number always denotes the path of its own source location", "statement": "The number given to a source location resolves to the (mapped) path computed from its compilation directory, directory and name; two locations get the same number exactly when they have the same path; numbers never change later. This relies on equal string addresses meaning equal strings; without that the answer can be the path of another file.", "quantifier": "every history of lookups, every assignment of memory addresses to strings that is consistent", "why_tests_cant": "The lookup is keyed by raw pointers, so correctness depends on the whole history of allocations.", "anchors": ["src/source.rs: SourceFiles::get_id, SourceFiles::get_path, cast_ptr"]}
{"id": "C19", "title": "Source paths: absolute directories are kept, relative ones are placed under the compilation directory", "statement": "The path of a source location is dir/name if dir is absolute, compdir/dir/name if dir is relative and compdir is not empty; an invalid UTF-8 compilation directory is read as latin-1.", "quantifier": "every platform, compilation directory, directory and file name", "why_tests_cant": "Corner cases: empty directory, empty compilation directory, drive letters, mixed separators.", "anchors": ["src/source.rs: SourceFiles::get_path, path_to_string", "src/platform.rs: is_absolute_path, join_paths"]}
{"id": "C20", "title": "Joining paths puts exactly one separator at the seam", "statement": "Joining two path fragments yields left without trailing separators, one separator, right without leading separators; the result is absolute when left is non-empty and absolute; joining is associative for Unix-style platforms; the Windows joiner uses '/' exactly when the left side starts with '/'.", "quantifier": "every platform and every pair (triple) of strings", "why_tests_cant": "Unbounded strings, separator runs.", "anchors": ["src/platform.rs: join_paths, is_absolute_path"]}
{"id": "C21", "title": "Path normalisation removes every '.' and '..', is idempotent, and is lexically correct for absolute paths", "statement": "A normalised path has no '.', '..' or empty component; normalising twice changes nothing; for an absolute path the result is absolute and is the result of lexically resolving the components, never climbing above the root. For relative paths that climb above their start the leading '..' are dropped, so the meaning changes.", "quantifier": "every path", "why_tests_cant": "Unbounded component lists.", "anchors": ["src/utils.rs: normalize_path"]}
{"id": "C22", "title": "Inline origins are numbered once per function name, densely and cleanly", "statement": "Asking for the number of an inlined function returns the same number every time for the same name and different numbers for different names; number i is the i-th INLINE_ORIGIN record, whose text is the demangled name without any ASCII control character; numbers never change when more names are added.", "quantifier": "every history of requests, every demangler", "why_tests_cant": "History property.", "anchors": ["src/inline_origins.rs: InlineOrigins::get_id, get_list, demangle_and_sanitize"]}
{"id": "C23", "title": "Merging inline origins keeps every origin resolvable", "statement": "Merging two origin lists keeps the first list's numbering, and the returned renumbering sends each number of the second list to a position of the merged list holding the same text; no number is out of range.", "quantifier": "every pair of lists", "why_tests_cant": "Three branches (either empty, both non-empty) with index arithmetic.", "anchors": ["src/inline_origins.rs: merge_inline_origins"]}
{"id": "C24", "title": "Merging refuses different debug ids and otherwise succeeds", "statement": "Merging two objects fails exactly when their debug ids differ; merging two freshly processed objects with the same debug id never panics, keeps the debug id, and is not affected by the iteration order of hash maps except for the numbering of files.", "quantifier": "every pair of freshly processed objects, every hash-map iteration order", "why_tests_cant": "Indexing into renumbering tables can panic; covers every pair of objects.", "anchors": ["src/object_info.rs: ObjectInfo::merge", "src/source.rs: SourceMap::merge", "src/symbol.rs: remap_lines, remap_inlines"]}
{"id": "C25", "title": "Merging preserves source attribution", "statement": "After merging two freshly processed objects every line record and INLINE record still denotes the same address, size, line number, source path, and inlined function name as in the object it came from, and no inline range is lost.", "quantifier": "every pair of freshly processed objects that used the same path mapping, every hash-map iteration order", "why_tests_cant": "Renumbering must be right and injective for all file sets.", "anchors": ["src/source.rs: SourceMap::merge", "src/symbol.rs: remap_lines, remap_inlines", "src/object_info.rs: merge"]}
{"id": "C26", "title": "Merging three or more objects preserves source attribution", "statement": "The attribution guarantee of a two-object merge holds for any number of objects with the same debug id merged one after the other.", "quantifier": "every list of objects and every arrival order", "why_tests_cant": "Needs three objects with particular sizes and disjoint file sets: the merged file table forgets the reverse index of the files it appended.", "anchors": ["src/source.rs: SourceMap::merge (ref_to_id not extended, 180-190)", "src/dumper.rs: consumer"]}
{"id": "C27", "title": "Merged symbol set: which record wins at each address", "statement": "In a merge the record at an address is determined by: keep the record of the object with more records; a FUNC of the other object replaces a PUBLIC and is marked 'm'; a real PUBLIC replaces a synthetic record; a PUBLIC is dropped when it lies inside the closest preceding record of the merged table; a name clash marks the kept record 'm'; anything else is added when the address is free. No record of the larger object disappears.", "quantifier": "every pair of symbol tables, every address", "why_tests_cant": "The outcome at one address depends on the whole merged prefix of the table.", "anchors": ["src/object_info.rs: ObjectInfo::merge 233-281"]}
{"id": "C28", "title": "A real FUNC is never lost in a merge", "statement": "If either object has a non-synthetic FUNC at an address, the merged object has at that address a non-synthetic FUNC with the line table of one of them.", "quantifier": "every pair of objects with the same debug id", "why_tests_cant": "Only fails when the larger object has a placeholder FUNC (PE exception data) at that address - a rare combination.", "anchors": ["src/object_info.rs: ObjectInfo::merge 262-281"]}
{"id": "C29", "title": "Merging keeps all unwind information", "statement": "The CFI text of the merged object consists of the complete CFI text of both objects, the first one followed by a line break if needed; if one is empty the other is used unchanged.", "quantifier": "every pair of CFI texts", "why_tests_cant": "Boundary cases on emptiness and trailing newline.", "anchors": ["src/object_info.rs: ObjectInfo::merge 217-225"]}
{"id": "C30", "title": "Merging keeps identity information", "statement": "The merged object has a code id if either object has one (the larger object's when both have), keeps the platform, cpu and debug id, and takes the file name of the smaller object when that one has no debug info.", "quantifier": "every pair of objects", "why_tests_cant": "Depends on which side is picked as 'larger'.", "anchors": ["src/object_info.rs: ObjectInfo::merge 210-215, 283-289"]}
{"id": "C31", "title": "The written symbol file can be parsed back", "statement": "Parsing the written text line by line with the Breakpad grammar yields exactly the MODULE, INFO, FILE, INLINE_ORIGIN, FUNC, INLINE, line, PUBLIC and STACK records of the object, in order and with all fields, provided names and paths contain no line break.", "quantifier": "every object whose names contain no line break", "why_tests_cant": "Round-trip over all objects.", "anchors": ["src/object_info.rs: impl Display for ObjectInfo", "src/symbol.rs: impl Display for Symbol", "src/line.rs: impl Display for Lines"]}
{"id": "C32", "title": "INLINE_ORIGIN lines are well-formed for every input name", "statement": "Whatever bytes the debug info has as names of inlined functions, each origin is written on one line with a non-blank name.", "quantifier": "every name, every demangler", "why_tests_cant": "Arbitrary strings including control characters and blanks.", "anchors": ["src/inline_origins.rs: demangle_and_sanitize", "src/object_info.rs: Display 67-74"]}
{"id": "C33", "title": "FUNC, PUBLIC and FILE lines are well-formed for every input name", "statement": "Whatever names the debug info has, each FUNC, PUBLIC and FILE record occupies exactly one line of the output.", "quantifier": "every name", "why_tests_cant": "Names with line breaks are rare in tests; function, public and file names are not sanitised.", "anchors": ["src/symbol.rs: impl Display for Symbol", "src/object_info.rs: Display 63-65", "src/collector.rs: demangle"]}
{"id": "C34", "title": "Windows C-decorated names are decoded exactly", "statement": "For every base name without '@' and every size n < 2^32: '_f@n' (stdcall), '@f@n' (fastcall) and 'f@@n' (vectorcall) are decoded to (f, n), '_f' (cdecl) to (f, no size), and names with none of these decorations are returned unchanged; names with ':' or '(' are never touched. Decoding panics exactly on names whose first character is not ASCII and that are not vectorcall-decorated.", "quantifier": "every string", "why_tests_cant": "All strings, including '+', overflow of the size, repeated '@', multi-byte first character.", "anchors": ["src/symbol.rs: ParsedWinFuncName::parse_unknown, parse_c_decorated"]}
{"id": "C35", "title": "Compiler-generated suffixes are stripped maximally, nothing else is", "statement": "Symbol name fixing removes exactly the longest suffix made of compiler decorations (.cold, .llvm.123, [clone ...], ...), replaces every MSVC anonymous namespace by the canonical spelling, leaves other names untouched, and is idempotent.", "quantifier": "every string", "why_tests_cant": "Regular-expression semantics over all strings.", "anchors": ["src/common.rs: fix_symbol_name, normalize_anonymous_namespace"]}
{"id": "C36", "title": "Compiler constants never become symbols", "statement": "No public symbol named like a string or floating-point constant (??_C..., __real@..., __xmm@..., __ymm@...) contributes a record or changes one.", "quantifier": "every symbol list", "why_tests_cant": "All names.", "anchors": ["src/symbol.rs: should_skip_symbol", "src/collector.rs: collect_publics"]}
{"id": "C37", "title": "Path-mapping templates expand as documented", "statement": "A mapping destination is split into literal text and {actions} losslessly; on a matching path each action is replaced by its variable, digest or regex group and the literal text is copied; unbalanced braces are literal; an unknown action is rejected when the mapping is built; a missing group makes the rule not apply.", "quantifier": "every template, variable set and path", "why_tests_cant": "Index arithmetic over all templates.", "anchors": ["src/mapping.rs: PathMappingGenerator::new, PathMappingGenerator::apply"]}
{"id": "C38", "title": "Mapping rules are tried in a fixed precedence and memoised transparently", "statement": "A path is mapped by the first applicable rule in the order: file rules restricted to file lists, unrestricted file rules, command-line rules; command-line variables override file variables; answering from the memo is indistinguishable from recomputing as long as the mapped files do not change; failures and misses are not memoised.", "quantifier": "every rule set, every history and interleaving of lookups", "why_tests_cant": "History property over shared memo.", "anchors": ["src/mapping.rs: PathMappings::new, get_mappings, get_mappings_from_file, map"]}
{"id": "C39", "title": "Mapping arguments are validated", "statement": "A variable is split at its first '='; a variable without '=' is rejected; different numbers of sources and destinations are rejected; otherwise every pair becomes one rule in order.", "quantifier": "every argument vector", "why_tests_cant": "All argument lists, including the empty destination list with no sources.", "anchors": ["src/mapping.rs: get_variables, get_mappings"]}
{"id": "C40", "title": "Symbol-server strings are parsed per the srv* grammar", "statement": "A configuration is a list of entries separated by ';' or newline; 'srv*store' and 'srv*cache*store' (any case, blanks trimmed) give one server each in order, bare 'srv' gives the default store, everything else is ignored; '~' is expanded in the cache path only. Without --symbol-server the string is the content of ~/.dump_syms/config; if there is no such file, no server is used.", "quantifier": "every configuration string", "why_tests_cant": "All strings.", "anchors": ["src/cache.rs: parse_srv, parse_sympath, correct_path, read_config_from_str"]}
{"id": "C41", "title": "Symbol-server cache: a later lookup returns what the download returned, without network", "statement": "After a lookup that downloaded data through a server with a cache, a later lookup for the same file and id returns the same bytes from the cache without using the network; empty and 'Symbol Not Found' responses are never cached or returned.", "quantifier": "every file system state, server response and later lookup with an unchanged file system", "why_tests_cant": "History property over file system and network responses.", "anchors": ["src/cache.rs: search_file, search_in_cache, fetch_data, copy_in_cache"]}
{"id": "C42", "title": "An interrupted cache write is never mistaken for a symbol file", "statement": "If the process dies while writing a downloaded file into the cache, later lookups do not return the truncated data.", "quantifier": "every crash point of the write", "why_tests_cant": "Crash points.", "anchors": ["src/cache.rs: copy_in_cache 139-144, search_in_cache"]}
{"id": "C43", "title": "Concurrent server probing picks an available URL under every completion order", "statement": "The URL that is downloaded is one that answered the probe with status 200; if none did nothing is downloaded; the candidate URLs are, for each server in order, the plain and the compressed name.", "quantifier": "every completion order of the concurrent probes, every set of responses", "why_tests_cant": "All schedules.", "anchors": ["src/cache.rs: check_data, check_if_file_exists, get_jobs, fetch_data"]}
{"id": "C44", "title": "check-cfi is all-or-nothing", "statement": "If CFI is required and the object has no CFI text, storing fails and no file or directory is created or changed; otherwise each requested destination receives the complete text.", "quantifier": "every output selection, object and file system state", "why_tests_cant": "All combinations of output kinds.", "anchors": ["src/dumper.rs: store"]}
{"id": "C45", "title": "The symbol-store path identifies the module", "statement": "The store path is DIR/NAME.pdb-style-base/ID/NAME.sym; for names and ids without path separators, different (name, id) pairs get different paths, and the id is always its own path component.", "quantifier": "every pair of names and ids", "why_tests_cant": "Injectivity over all strings.", "anchors": ["src/utils.rs: get_base, get_path_for_sym", "src/dumper.rs: store"]}
{"id": "C46", "title": "Several files: nothing is written before every input has been merged", "statement": "With any number of worker threads and any interleaving, when the first module is stored, every input file has been processed and merged into the results.", "quantifier": "every number of files and threads, every schedule", "why_tests_cant": "All interleavings of an unbounded system.", "anchors": ["src/dumper.rs: several_files, consumer, send_store_jobs"]}
{"id": "C47", "title": "Several files: every module is stored at most once, and exactly once on clean completion", "statement": "Under every interleaving each group of input files with the same debug id gives at most one stored module, which is the merge of all of them in some order; if the run completes with no failed worker every group is stored exactly once.", "quantifier": "every number of files and threads, every schedule, every result of processing a file", "why_tests_cant": "All interleavings.", "anchors": ["src/dumper.rs: several_files, consumer, send_store_jobs"]}
{"id": "C48", "title": "Several files: the run always completes", "statement": "Processing several readable, valid files completes and stores every module, whatever the schedule and number of jobs.", "quantifier": "every number of files and threads, every schedule", "why_tests_cant": "A lost-update race on the remaining-files counter and a self-blocking bounded queue only show under particular schedules or job counts.", "anchors": ["src/dumper.rs: consumer 435-449, send_store_jobs, several_files"]}
{"id": "C49", "title": "Several files: a failing input is reported and does not hang the run", "statement": "If an input file cannot be processed the run still terminates.", "quantifier": "every schedule, every set of failing files", "why_tests_cant": "Error paths under schedules.", "anchors": ["src/dumper.rs: consumer 416-417, 435-449"]}
{"id": "C50", "title": "Several files: blocked runs have only the known causes", "statement": "In a run where every file can be processed and every module stored, the only ways to block are: the remaining-files counter was decremented to zero by racing workers, or a single worker fills the queue by itself, or there are no workers.", "quantifier": "every reachable state of every run", "why_tests_cant": "Characterisation over all reachable states.", "anchors": ["src/dumper.rs: consumer, several_files"]}
{"id": "C51", "title": "Architecture selection in fat Mach-O files", "statement": "A file with one object is dumped whatever the requested architecture; otherwise the first readable object of the requested architecture is dumped and it is an error if there is none.", "quantifier": "every archive and architecture", "why_tests_cant": "All archives.", "anchors": ["src/mac.rs: from_macho"]}
{"id": "C52", "title": "The PE found for a PDB always has the PDB's debug id", "statement": "Looking for the PE next to a PDB tries dll, dl_, exe, ex_ in this order and returns only a parsable file whose debug id equals the PDB's, under its uncompressed name; the returned bytes parse, so the dump cannot panic on them.", "quantifier": "every directory content", "why_tests_cant": "All file system contents.", "anchors": ["src/windows/utils.rs: find_pe_for_pdb", "src/dumper.rs: get_pdb_object_info"]}
{"id": "C53", "title": "The PDB for a PE is searched in the documented order", "statement": "The PDB named in a PE is taken from: the recorded path, the PE's directory (plain then compressed), next to the working directory, then symbol-server caches and servers; an empty name gives no PDB.", "quantifier": "every PE name, file system and server configuration", "why_tests_cant": "All combinations.", "anchors": ["src/windows/utils.rs: get_pe_pdb_buf, os_specific_try_to_find_pdb, try_to_find_pdb"]}
{"id": "C54", "title": "Command line: output and job selection", "statement": "-o and -s select file, store, both, or standard output ('-' also means standard output); a job count that is not a number means one job per CPU; extra INFO lines are accepted exactly when they are an upper-case keyword followed by a space; --list-arch decides between listing and dumping; only errors are logged unless one of the other levels is named exactly.", "quantifier": "every command line", "why_tests_cant": "All argument strings.", "anchors": ["src/main.rs: main, get_extra_info", "src/dumper.rs: FileOutput::from"]}
{"id": "C55", "title": "Processing one object is deterministic and free of panics on in-range data", "statement": "From the parsed debug info, collecting functions, placeholders, publics, minidebuginfo publics and section symbols terminates without panicking when no address computation overflows 32 (64) bits and names on Windows start with an ASCII character, and the resulting object satisfies all the reference-resolution invariants used by merging and writing.", "quantifier": "every parsed object", "why_tests_cant": "Composition of all the collection steps.", "anchors": ["src/object_info.rs: ObjectInfo::from_object"]}
{"id": "C56", "title": "Modules are stored inside the store directory", "statement": "Storing a module in a directory only creates or changes files inside that directory, whatever name the input file gives itself.", "quantifier": "every module name, debug id and file system", "why_tests_cant": "The name comes from untrusted input (ELF soname, Mach-O install name).", "anchors": ["src/dumper.rs: store", "src/utils.rs: get_path_for_sym", "src/object_info.rs: from_object, file_name_only"]}
{"id": "C57", "title": "The file format decides what is dumped", "statement": "An ELF file is dumped as a Linux module and a Mach-O file as a Mac module under the file's own name; a PDB is combined with the PE found next to it; a PE is dumped from its PDB under the PDB's name when that is found and usable, else from itself under the PDB name it records; anything else is an error. The module's debug id is that of the given file.", "quantifier": "every input, file system and server configuration", "why_tests_cant": "All combinations of format, recorded name and PDB found.", "anchors": ["src/dumper.rs: get_object_info, get_pdb_object_info, get_pe_pdb_object_info, get_pe_object_info"]}
{"id": "C58", "title": "Processing one file delivers its symbols or reports failure", "statement": "If processing one file returns success then the complete symbol file of the module loaded from it is at every selected destination and, with --check-cfi, it has unwind information; if the file cannot be loaded nothing is written to any destination. With a debug id (preferred) or code id the file is fetched from caches and servers under that id; without an id the file at the given path is processed; a mapping that was not understood or a missing architecture is reported; with no server configured loading changes no file.", "quantifier": "every configuration, input and file system", "why_tests_cant": "All configurations and failures.", "anchors": ["src/dumper.rs: single_file, get_from_id, store"]}
{"id": "C59", "title": "A dSYM bundle stands for its only DWARF file", "statement": "Reading a directory with exactly one entry in Contents/Resources/DWARF gives that file's contents; any other directory is refused, never resolved to one of several files.", "quantifier": "every directory content", "why_tests_cant": "All directory contents.", "anchors": ["src/utils.rs: read_file, get_mac_bundle"]}
{"id": "C60", "title": "--list-arch lists every architecture", "statement": "Listing prints the name of the file and the architectures of all the objects in it in file order, separated by commas, with the right plural.", "quantifier": "every Mach-O file", "why_tests_cant": "All numbers of objects, also unreadable ones.", "anchors": ["src/mac.rs: print_macho_architectures"]}
{"id": "C61", "title": "Several modules and one destination", "statement": "When several modules are written to the same destination all of them are there afterwards: on standard output one after another.", "quantifier": "every list of modules", "why_tests_cant": "All module lists.", "anchors": ["src/dumper.rs: store, several_files"]}
{"id": "C62", "title": "The exit status for one file tells whether the symbols were written", "statement": "With one input file the exit status is 0 only if the complete symbol file, with the extra INFO lines and the generator line unless disabled, was written to the selected destinations; a file that cannot be loaded gives a non-zero status and nothing on the destinations; an invalid INFO line gives a non-zero status before anything is read or written.", "quantifier": "every command line with one file, input and file system", "why_tests_cant": "Composition of all steps from the command line to the destination.", "anchors": ["src/main.rs: main", "src/action.rs: single_file", "src/dumper.rs: single_file"]}
{"id": "C63", "title": "Several files give one complete module per debug id", "statement": "When every file can be processed and storing works, a run on several files that ends has stored exactly one module per debug id, made from all the files with that id: it holds only records of those files at their addresses, every file and origin reference resolves, no function of any file is lost (placeholders aside), and the written text reads back with the CFI lines of all of them.", "quantifier": "every list of files, number of jobs and schedule, any number of files per debug id", "why_tests_cant": "All schedules and merge orders.", "anchors": ["src/dumper.rs: several_files, consumer, send_store_jobs", "src/object_info.rs: ObjectInfo::merge"]}
{"id": "C64", "title": "The result for several files does not depend on the schedule", "statement": "Two runs on the same files that end store the same modules, whatever the number of jobs and the interleaving of the workers.", "quantifier": "every list of files and pair of schedules", "why_tests_cant": "A race that changes the output shows up rarely and looks like a valid symbol file.", "anchors": ["src/dumper.rs: consumer", "src/object_info.rs: ObjectInfo::merge"]}
{"id": "C65", "title": "--list-arch for several files keeps order and stops at the first failure", "statement": "The lists of several files are printed in command-line order; the first file that cannot be listed ends the program with a non-zero status whatever follows, after the lists of the files before it; no file is changed. One file behaves like a list of one.", "quantifier": "every list of files", "why_tests_cant": "All positions of the failing file.", "anchors": ["src/action.rs: several_files", "src/main.rs: main"]}
{"id": "C66", "title": "The exit status for several files tells whether the symbols were written", "statement": "With several files the exit status is 0 if every file can be processed and stored, and not 0 if some file cannot be processed; 1 only results from a bad path mapping or architecture.", "quantifier": "every configuration, list of files and schedule", "why_tests_cant": "All failures at all points of all schedules.", "anchors": ["src/dumper.rs: several_files", "src/main.rs: main"]}
{"id": "C67", "title": "The MODULE and INFO lines and the CFI text come from the right object", "statement": "A processed module has the debug id and architecture of the main object and the platform and PE name of the call; its code id is the PE's when there is a PE with one, else the main object's, in upper case; its CFI text is the PE's when the PE has unwind information, else the main object's when that has; its name is the part after the last slash of the ELF soname or Mach-O install name, else of the main file's name; it counts as stripped exactly when the main object has no debug information.", "quantifier": "every main object, optional PE and platform", "why_tests_cant": "Every combination of ids and unwind information present in none, one or both of the files.", "anchors": ["src/object_info.rs: ObjectInfo::from_object, get_stack_info, file_name_only"]}
{"id": "C68", "title": "No address is lost and no record is made up", "statement": "After processing an object every function at a non-zero address has a FUNC record at it; every exception table entry, every public symbol (also those of minidebuginfo, constants excepted) has a record at its address or lies inside one; every executable ELF section has a record at its start. A synthetic PUBLIC record only occurs at the start of an executable ELF section or just after the last record of a PE or PDB, and every PE or PDB with records has the latter.", "quantifier": "every object", "why_tests_cant": "All layouts of functions, publics, exception entries and sections.", "anchors": ["src/collector.rs: collect_placeholder_functions, collect_publics", "src/symbol.rs: get_compressed_minidebuginfo, add_executable_section_symbols, append_dummy_symbol_pe_pdb", "src/object_info.rs: ObjectInfo::from_object"]}
{"id": "C69", "title": "A compressed file stands for the file it was made from", "statement": "Reading a file that is no cabinet gives its bytes; reading a cabinet gives the first member, in any folder, whose name is that of the cabinet with the last letter of its extension restored (pd_ to pdb, dl_ to dll, ex_ to exe, db_ to dbg), and never another member; without such a readable member the program stops.", "quantifier": "every archive, file name and directory", "why_tests_cant": "All member lists, duplicated and nested names, and extensions.", "anchors": ["src/utils.rs: read_file, read_cabinet, get_corrected_path, get_cabinet_files"]}
{"id": "C70", "title": "A reader of the symbol file finds what the debug info says", "statement": "Processing an object, writing the symbol file and reading it back, one finds for a function of well-formed debug info: its demangled name, exactly one record for every inlined call at an address with the inlined function and the file and line of the call from the outside in, no inlined call elsewhere, and the source file and line of the address. With inlines switched off there are no inlined calls and the line is that of the last line record at or before the address. After merging two files one finds for each function what one finds in the symbol file of one of them.", "quantifier": "every well-formed debug info, every address, every object and environment", "why_tests_cant": "The whole chain from inline trees over numbering, sorting, merging and printing to parsing has to agree at every address.", "anchors": ["src/object_info.rs: ObjectInfo::from_object, Display, ObjectInfo::merge", "src/collector.rs: collect_functions", "src/line.rs: Lines", "src/source.rs: SourceFiles"]}
{"id": "C71", "title": "The same file given twice changes only the 'm' markers and repeats origins and CFI", "statement": "Merging a processed object with itself (the same file named twice on the command line) succeeds and loses nothing: the same addresses have the same kind of record with the same name, size, parameter size, line table and INLINE records, and the FILE table is unchanged. The only differences are that every FUNC gets the 'm' marker, and that the INLINE_ORIGIN list and the CFI text are written twice. In particular the symbol file is not the same as for the file given once.", "quantifier": "For every processed object, every iteration order of the path index, both build modes (with overflow checks: record ends fit 32 bits).", "why_tests_cant": "Needs every record of every object to be compared; tests merge two different fixtures.", "anchors": ["src/object_info.rs: ObjectInfo::merge", "src/source.rs: SourceMap::merge", "src/inline_origins.rs: merge_inline_origins"]}
{"id": "C72", "title": "The line table of a function without inlined calls is exact and has no redundant record", "statement": "For a function without inlined calls (or when inlines are not collected, ignoring lines numbered 0), whose lines are in address order and numbered below 2^32, the line records of its FUNC are exactly the first lines of the runs of lines with the same number and path, with their addresses, numbers and files. Hence no two records in a row have the same line number and file number. Line numbers that agree only in their low 32 bits can give such a pair.", "quantifier": "For every object, every function of it that meets these conditions, every path environment and sort.", "why_tests_cant": "Quantifies over all line programs, in particular over runs that continue over several lines and over different spellings of one path.", "anchors": ["src/collector.rs: collect_function_without_inlines, collect_function_with_inlines_recursive"]}
{"id": "C73", "title": "The digest in a mapped path is the SHA-512 of the source file", "statement": "{digest} and {DIGEST} stand for the SHA-512 (FIPS 180-4) of the contents of the file, as 128 hexadecimal digits in lower and upper case, whatever the path it is reached by; a source path that cannot be read is reported as an error.", "quantifier": "every file contents (below 2^128 bits), path and file system", "why_tests_cant": "All contents, in particular all block boundaries.", "anchors": ["src/mapping.rs: get_digest", "src/utils.rs: read"]}
{"id": "C74", "title": "The command line is understood as documented", "statement": "The arguments are accepted exactly if they are documented spellings of documented options (--name value, --name=value, -c value, -cvalue, -c=value, switches, files anywhere, everything behind -- a file), no option or switch that may be given once is given twice, and there is at least one file; then every setting has the value given, or its documented default (the architecture of the build, verbosity error). --help, -h, --version and -V behind acceptable arguments show their text. Everything else is a usage error: an unknown option, a missing value, a value for a switch, a repetition, no file. The spelling and the place of the files do not matter.", "quantifier": "every list of arguments and every build architecture", "why_tests_cant": "Unbounded argument lists with every mixture of spellings.", "anchors": ["src/main.rs: cli, main", "src/common.rs: get_compile_time_arch"]}
{"id": "C75", "title": "From the arguments to the exit status", "statement": "The exit status is 0, 1, 2 or 101. It is 2 exactly for arguments that are not acceptable, and then nothing was written. One file with well-formed INFO lines and without --list-arch is dumped with exactly the settings on the command line: output and store, symbol server, ids, architecture, CFI check, inlines, path mapping. Unless several files are dumped, the program ends in exactly one way. Several files are dumped with the same settings by as many jobs as asked for. The path mapping never makes the program panic, except for a mapping file that is a directory.", "quantifier": "every argument list, file system, network and behaviour of the libraries", "why_tests_cant": "Unbounded argument lists, and the settings go through three layers before they have an effect.", "anchors": ["src/main.rs: main", "src/action.rs: Action::action", "src/dumper.rs: Config, single_file, several_files"]}
{"id": "C76", "title": "The source paths in the symbol file are mapped as the command line says", "statement": "If the program ends with status 0 for one file, the text written to the output reads back as the debug info of the file (C70; of the PDB that is found for a PE file), where every source path is what the first rule that applies makes of it: the rules of the mapping file that list files, its other rules, the rules of the command line, with variables of the command line before those of the file. A path no rule applies to stays as it is, without rules all paths do. Inlined calls are there exactly with --inlines.", "quantifier": "every argument list naming one file, every debug info with writable names, every rule list, file system and regex engine", "why_tests_cant": "Needs all combinations of rules, variables and debug info; tests map a few paths.", "anchors": ["src/main.rs: main", "src/dumper.rs: single_file", "src/mapping.rs: PathMappings, map", "src/source.rs: SourceFiles::get_id"]}
{"id": "C77", "title": "Source files are looked up on disk only for files of this machine's own kind", "statement": "The path of a source location is the one the debug info gives (C19). If the dumped file is of the kind of the machine dump_syms runs on, and is not an executable made with MinGW, the path is replaced by the real path if that exists, else by the path without dots; otherwise it stays as it is, and then neither the disk nor the kind of the machine matters: any two machines produce the same symbols. In all cases only the paths that occur in the debug info matter.", "quantifier": "every object, platform, machine and disk", "why_tests_cant": "Tests run on one machine; a disk that has one of the source files changes the result.", "anchors": ["src/object_info.rs: canonicalize", "src/source.rs: SourceFiles::get_path", "src/platform.rs: is_target"]}
{"id": "C78", "title": "Without the feature http nothing remote is used", "statement": "A build without the feature http ignores the debug id, the code id, the symbol server, the network and the search settings: it reads the file given. ELF, PDB and Mach-O files are dumped as the other build dumps them without ids. A PE file is dumped from itself, as the other build does if it finds no usable PDB; a PDB that lies beside it is not used.", "quantifier": "every file, configuration, machine and disk", "why_tests_cant": "The tests run with the default features.", "anchors": ["src/dumper.rs: get_pe_pdb_object_info, get_from_id (not http)"]}
{"id": "C79", "title": "Names are shown cleaned and demangled", "statement": "The name of a function is shown without the decorations of the compiler and with the anonymous namespace written one way (C35); unless it is in C it is then demangled, and stays cleaned if that fails. The name of an inlined function is the same without its control characters. The name of a public is shown as it is if no language is recognised in it; otherwise it is cleaned and demangled the same way. In each case exactly one text is possible.", "quantifier": "every name, language and demangler", "why_tests_cant": "Unbounded names and every mixture of languages, decorations and failures of the demangler.", "anchors": ["src/collector.rs: demangle, demangle_str", "src/inline_origins.rs: demangle_and_sanitize, demangle", "src/common.rs: fix_symbol_name"]}
{"id": "C80", "title": "Workers that share the symbol store do not disturb each other", "statement": "No file is processed once storing has begun, so the threads do what C46-C50 and C63-C66 say although the file system changes. With a store directory in which there is room for every module that can result, at any time of any run no storing has failed, every module that has been stored is complete in its own file DIR/NAME/ID/NAME.sym, and nothing else has changed but the files and new directories of modules being stored, whatever the interleaving of creating directories, creating files and writing pieces. A run that ends has stored a complete module for every input file.", "quantifier": "every interleaving of the operations of any number of workers, every list of files, every division of the texts into writes", "why_tests_cant": "Races between create_dir_all, File::create and writes of different workers depend on the scheduler.", "anchors": ["src/dumper.rs: store, get_writer_for_sym, consumer, send_store_jobs, several_files"]}
{"id": "C81", "title": "Several modules on standard output come out one after the other", "statement": "Dumping several modules to standard output or standard error prints pieces each of which belongs to one module, and the pieces of a stored module are its text in order. The text of a module is not interrupted by another: every text is a contiguous part of what is printed.", "quantifier": "every interleaving of any number of workers, every list of files, every division of the texts into writes", "why_tests_cant": "Interleavings on the stream depend on the scheduler and on the sizes of the texts.", "anchors": ["src/dumper.rs: store, get_writer_for_sym, consumer"]}
{"id": "C82", "title": "One output file has the text of one module", "statement": "When several files are dumped with -o FILE the file has the complete text of a module that was dumped. If all files have the same debug id, the one module that results is stored as if there were no other threads, for every output.", "quantifier": "every interleaving of any number of workers and every list of files", "why_tests_cant": "Two workers that write the same file at the same time; depends on the scheduler.", "anchors": ["src/dumper.rs: store, get_writer_for_sym, consumer", "src/main.rs: main"]}
{"id": "C83", "title": "Dumping several files with --store, from the command line to the store", "statement": "For arguments that name several files and a store, if every file gives a module and the store has room: when the program ends its exit status is 0, nothing is printed, and for every file the store has the complete text of the module made of it and the other files with its debug id, in DIR/NAME/ID/NAME.sym; nothing else has changed but downloads and new directories above these files. A file whose debug id no other has gives, byte for byte, what a run of the program for it alone with the same options gives. With at least two jobs, or one module only, there is a run that ends.", "quantifier": "every argument list, machine, disk and schedule", "why_tests_cant": "Unbounded argument lists and schedules; the exit status and the files depend on all of them.", "anchors": ["src/main.rs: main", "src/action.rs: Action::action", "src/dumper.rs: several_files, consumer, store"]}
{"id": "C84", "title": "No run goes on for ever without getting anywhere", "statement": "Dumping several files never makes infinitely many steps, whatever the schedule. When no thread can make a step and every file gave a module and the store has room, either the program has ended and all workers have ended without an error, or it hangs; and it hangs only if there is no worker, a single worker, or nothing has been stored because the counter of files was got wrong.", "quantifier": "every schedule, number of jobs and list of files", "why_tests_cant": "Unbounded runs; hanging cannot be observed by a test that ends.", "anchors": ["src/dumper.rs: several_files, consumer, poison_queue, send_store_jobs"]}
{"id": "C85", "title": "Lookups on symbol servers at the same time do not disturb each other", "statement": "Workers that look up files on symbol servers at the same time share the caches. Whatever the interleaving of their operations (looking into a cache, reading from it, downloading, creating directories and the file, writing pieces), every lookup gives the data that it gives when nobody else is at work. When all of them have ended, a file that was downloaded is complete in the cache.", "quantifier": "every interleaving of the operations of any number of lookups, every list of servers and caches, every division of the data into writes", "why_tests_cant": "Races between Path::exists, File::create and writes of different workers depend on the scheduler and the network.", "anchors": ["src/cache.rs: search_file, search_in_cache, fetch_data, copy_in_cache", "src/dumper.rs: consumer"]}
{"id": "C86", "title": "One unreadable file among several makes the program fail", "statement": "When several files are named and one of them cannot be processed, the program ends and its exit status is not 0; and nothing is written for any of the files, neither to the store nor to the output file or stream.", "quantifier": "every argument list, machine, disk and schedule, and every output", "why_tests_cant": "Whether the program ends and with which status depends on the number of jobs, the number of bad files and the schedule.", "anchors": ["src/dumper.rs: several_files, consumer, poison_queue", "src/main.rs: main"]}
{"id": "C87", "title": "What one file has downloaded does not change what another one gives", "statement": "When several files are dumped and their PDBs are downloaded from symbol servers into caches, every file gives the module that it gives when it is processed first, whatever files have been processed before it, as long as no input file lies beside a place where a PDB is kept and no PDB is looked for there. Only directories and downloaded PDBs are added to the file system, and a store apart from the caches has in the end the modules of all files.", "quantifier": "every list of files, servers, caches, answers of the network and order of the files", "why_tests_cant": "Needs all orders in which files are processed and all contents of caches; tests have no symbol server and one file.", "anchors": ["src/windows/utils.rs: get_pe_pdb_buf, find_pe_for_pdb, try_to_find_pdb", "src/cache.rs: search_file, copy_in_cache", "src/dumper.rs: several_files, get_object_info"]}
{"id": "C88", "title": "Dumping a file again leaves the files as they are", "statement": "Without symbol servers, the module a file gives depends only on the files at the places that are looked at for it: the file itself, for a PDB the PE files beside it, for a PE file the recorded PDB. When a file has been dumped and nothing has been written at these places, dumping it again with the same settings succeeds, leaves every file and directory as it is, and writes to the standard streams what the first run wrote. The same holds for several files and --store if every file has a debug id of its own.", "quantifier": "every file, machine, disk, output (file, stream, store, both) and set of settings", "why_tests_cant": "Needs all disks and all outputs; tests dump each file once into a fresh directory.", "anchors": ["src/dumper.rs: single_file, store, get_writer_for_sym, get_object_info", "src/windows/utils.rs: get_pe_pdb_buf, find_pe_for_pdb, try_to_find_pdb", "src/main.rs: main"]}
{"id": "C89", "title": "The program removes nothing", "statement": "However the program ends, and at every moment while several files are dumped, every directory that was there is still a directory, every file that was there is still a file (its contents may be replaced), everything is in a directory if that was so before, and what was on the standard streams is still there, followed by what was added.", "quantifier": "every argument list, machine, disk, network and schedule, every exit status", "why_tests_cant": "Needs all disks, failures and moments; tests look at the output of runs that succeed.", "anchors": ["src/main.rs: main", "src/dumper.rs: single_file, several_files, store, get_writer_for_sym", "src/cache.rs: copy_in_cache"]}
{"id": "C90", "title": "The program writes only where it is told to", "statement": "However the program ends, whatever fails, and at every moment while several files are dumped: apart from what is downloaded, the file system is as before except at the output file, at the store files of the modules dumped and at new directories above these. Standard output and standard error get nothing unless the output goes there. Wrong arguments, help and a list of architectures leave all files alone. Module names and debug ids must be directory entries: a module called '..' is written beside the store.", "quantifier": "every argument list, machine, disk, network and schedule, every exit status", "why_tests_cant": "Needs all places of all disks and all failures; tests look at the file they expect.", "anchors": ["src/main.rs: main", "src/dumper.rs: store, get_writer_for_sym, several_files, single_file"]}
{"id": "C91", "title": "What is downloaded replaces nothing and is kept in the caches only", "statement": "Whatever is downloaded while a file (or several, in any order) is processed, everything that was there before stays as it was; what is new is a file at cache/base/id/name of one of the caches of the servers named by the argument or the configuration file, where name and id are those of the file asked for by id or of a PDB recorded in a PE file, or a directory above one. Without servers nothing changes. Together with C90 this is all the program does to the file system, so that every file that was there and is no output file and no store file of a dumped module keeps its contents. Ids must be directory entries: a --debug-id with '..' is kept outside the cache.", "quantifier": "every file, disk, network, order in which probes end and set of settings; ids that are directory entries", "why_tests_cant": "Needs all disks and all answers of all servers; tests use an empty cache and one server.", "anchors": ["src/cache.rs: search_file, search_in_cache, get_jobs, fetch_data, copy_in_cache, get_sym_servers", "src/dumper.rs: get_from_id, single_file", "src/windows/utils.rs: get_pe_pdb_buf"]}
{"id": "C92", "title": "A download that panics leaves nothing but new files in the caches", "statement": "Also when processing a file panics during or after a download (a directory or the file cannot be made, the disk is full, the archive lacks the file), everything that was on the disk stays as it was and what is new is at cache/base/id/name of one of the caches of the named servers, for what was asked for, or a directory above it. What a full disk leaves there is taken for the file by the next lookup, which answers with it and asks no server.", "quantifier": "every file, disk, network, order in which probes end, set of settings and point of failure; ids that are directory entries", "why_tests_cant": "Needs a failure at every point of a download; tests never let the disk fail.", "anchors": ["src/cache.rs: copy_in_cache, fetch_data, search_file", "src/dumper.rs: get_from_id, single_file", "src/windows/utils.rs: get_pe_pdb_buf"]}

{"id": "C01", "title": "Rounding a size up gives the least multiple", "statement": "AlignUpTo<N>(n) and AlignUp(n, b) return the smallest multiple of the block size that is not below n, as long as that multiple is representable in 64 bits.", "quantifier": "every 64-bit n; every power of two N >= 8 (AlignUpTo); every non-zero 64-bit block size b (AlignUp)", "why_tests_cant": "2^64 inputs per alignment; the bit trick and the boolean multiplication are right only because of a carry argument that must hold at every boundary.", "anchors": ["align/align.hpp: AlignUpTo, AlignUp"]}
{"id": "C02", "title": "Size literals denote the exact byte count", "statement": "A literal d1..dk_KB / _MB / _GB equals the decimal number times 1024, 1024^2, 1024^3 whenever that product fits in 64 bits, and a literal containing a non-digit is rejected.", "quantifier": "every sequence of characters of every length", "why_tests_cant": "the literal text is unbounded; wrap-around only appears for long literals.", "anchors": ["memory.hpp: is_digit, stoi_impl, operator\"\"_KB, operator\"\"_MB, operator\"\"_GB"]}
{"id": "C03", "title": "Arena allocations never overlap", "statement": "The byte ranges returned by AllocateAligned, AllocateAlignedAndAddCleanup, Create, CreateArray and the arena's memory_resource since the last Reset are pairwise disjoint and disjoint from the arena's own block headers and cleanup records (requests with alignment at most 8).", "quantifier": "every sequence of arena operations of any length, every request size, every Options value with the stated alignment, every behaviour of block_alloc that returns fresh memory or null", "why_tests_cant": "overlap depends on the whole history of requests and on how block_alloc places memory; tests sample a handful of histories.", "anchors": ["arena/arena.cc: Arena::allocateAligned, Arena::newBlock, Block::AlignPos", "arena/arena.hpp: Block::alloc, Block::alloc_cleanup, need_create_new_block, AllocateAligned, AllocateAlignedAndAddCleanup"]}
{"id": "C04", "title": "Arena allocations stay inside memory obtained from block_alloc", "statement": "Every byte range returned by the arena lies inside one block obtained from block_alloc that has not been given back, and is at least as large as requested.", "quantifier": "every history, every request size up to the stated overflow bound, every option value", "why_tests_cant": "needs an invariant relating pos, limit, size over all histories and all block size policies.", "anchors": ["arena/arena.cc: newBlock, allocateAligned", "arena/arena.hpp: has_enough_space, Block::alloc"]}
{"id": "C05", "title": "Arena pointers are aligned", "statement": "Every pointer returned for a request with alignment A (8, 16 or 32) is a multiple of A, and every cleanup record is 8-aligned, provided block_alloc returns 8-aligned memory and block sizes are multiples of 8.", "quantifier": "every history, every request up to the stated overflow bound, every block address", "why_tests_cant": "alignment of pos and limit is an inductive invariant of the history.", "anchors": ["arena/arena.cc: Block::AlignPos", "arena/arena.hpp: align_size, alloc_cleanup"]}
{"id": "C06", "title": "Over-aligned arena requests stay inside the block", "statement": "A request with alignment 16 or 32 is served from inside the block, like an 8-aligned one.", "quantifier": "every history, request size and block address", "why_tests_cant": "only fails when a fresh block is sized exactly for the request and its header leaves the position misaligned; depends on block address and size policy.", "anchors": ["arena/arena.cc: Arena::newBlock, Arena::allocateAligned, Block::AlignPos"]}
{"id": "C07", "title": "Cleanups run exactly once and in reverse order", "statement": "Every destructor or cleanup registered with the arena (Create, Own, AllocateAlignedAndAddCleanup) since the last Reset is run exactly once by the next Reset or by destruction, newest first, and nothing else is run.", "quantifier": "every history of registrations spread over any number of blocks", "why_tests_cant": "order and multiplicity depend on the block chain and the packed cleanup area for arbitrarily long histories.", "anchors": ["arena/arena.hpp: Block::run_cleanups, alloc_cleanup, addCleanup, RegisterDestructor, Own, Reset, ~Arena, free_all_blocks, free_blocks_except_head"]}
{"id": "C08", "title": "Blocks are returned to block_dealloc exactly once", "statement": "Over the life of an arena every block obtained from block_alloc is passed to block_dealloc exactly once: Reset returns all but the oldest block, destruction returns the rest.", "quantifier": "every history of allocations, Resets, moves and final destruction", "why_tests_cant": "leaks and double frees are history dependent.", "anchors": ["arena/arena.hpp: free_all_blocks, free_blocks_except_head, Reset, ~Arena, Arena(Arena&&)"]}
{"id": "C09", "title": "SpaceAllocated is the total size of held blocks", "statement": "After any operation SpaceAllocated() equals the sum of the sizes of the blocks the arena currently holds.", "quantifier": "every history including Resets and failed allocations", "why_tests_cant": "the counter is updated incrementally in five places; drift accumulates over histories.", "anchors": ["arena/arena.hpp: SpaceAllocated, _space_allocated, free_blocks_except_head", "arena/arena.cc: newBlock"]}
{"id": "C10", "title": "Allocation failure is clean", "statement": "If block_alloc returns null, the request returns null, no hook is reported for it, and earlier allocations, pending cleanups, SpaceAllocated and SpaceRemains are unchanged.", "quantifier": "every state and every request at which block_alloc fails", "why_tests_cant": "needs a failing allocator at every reachable state.", "anchors": ["arena/arena.cc: newBlock, allocateAligned", "arena/arena.hpp: Create, CreateArray, AllocateAlignedAndAddCleanup"]}
{"id": "C11", "title": "New blocks follow the size policy", "statement": "A freshly obtained block holds its header plus the request, the first block has at least suggested_init_block_size bytes, and a later block has normal_block_size, a rounded-up size, huge_block_size or exactly the needed size according to the request class.", "quantifier": "every request size and every Options value (no overflow)", "why_tests_cant": "piecewise policy over 64-bit sizes with several boundaries.", "anchors": ["arena/arena.cc: Arena::newBlock"]}
{"id": "C12", "title": "Arena hooks report exactly what happened", "statement": "The metrics hooks receive one newblock call per block obtained with its size and ordinal, one allocation call per successful allocation with the bytes taken, one reset call per Reset and one destruction call per destruction, with used/wasted space adding up to the space held.", "quantifier": "every history", "why_tests_cant": "accounting identities over arbitrary histories.", "anchors": ["arena/arena.hpp: ArenaMetrics hooks in init, Reset, ~Arena, AllocateAligned, Create", "arena/arena.cc: newBlock"]}
{"id": "C13", "title": "Reset keeps the oldest block and makes it empty", "statement": "After Reset the arena holds exactly its first block, SpaceRemains() is its full capacity, no cleanup is pending, and later allocations are served as by a fresh arena holding that block.", "quantifier": "every history before the Reset", "why_tests_cant": "state after Reset must not depend on the history.", "anchors": ["arena/arena.hpp: Reset, free_blocks_except_head", "arena/arena.cc: Block::Reset"]}
{"id": "C14", "title": "Moving an arena transfers everything once", "statement": "After move construction the new arena holds all blocks, cleanups and counters of the old one, the old one holds nothing, and destroying both runs each cleanup and frees each block exactly once.", "quantifier": "every history before and after the move", "why_tests_cant": "history dependent ownership.", "anchors": ["arena/arena.hpp: Arena(Arena&&), ~Arena"]}
{"id": "C15", "title": "Arena::check classifies pointers correctly", "statement": "check(p) reports the header, the used block area, the cleanup area, unused space or not-contained exactly according to where p lies in the blocks held.", "quantifier": "every pointer value and every history", "why_tests_cant": "boundary comparisons over all addresses and all block chains.", "anchors": ["arena/arena.cc: Arena::check"]}
{"id": "C16", "title": "CreateArray reserves room for every element", "statement": "CreateArray<T>(n) returns null or a range of at least n*sizeof(T) bytes inside a held block.", "quantifier": "every n and sizeof(T)", "why_tests_cant": "fails only when n*sizeof(T) wraps.", "anchors": ["arena/arena.hpp: CreateArray"]}
{"id": "C17", "title": "Allocation histogram classifies every size", "statement": "Each reported allocation increments exactly the bucket whose interval contains its size, so the bucket counts always add up to the number of allocations not above the largest bound; lifetimes likewise.", "quantifier": "every sequence of reported sizes and durations", "why_tests_cant": "sums over arbitrary histories and all sizes.", "anchors": ["arena/metrics.hpp: increase_alloc_size_counter, increase_destruct_lifetime_counter, kAllocBucketSize, kDestructBucketSize"]}
{"id": "C18", "title": "Reporting to the global metrics neither loses nor double counts", "statement": "For every interleaving of threads updating their local metrics and reporting them, the global totals plus the unreported local totals equal the sum of everything recorded.", "quantifier": "every number of threads, every schedule, every interleaving of the individual counter additions of a report", "why_tests_cant": "schedules are unbounded.", "anchors": ["arena/metrics.hpp: report_to_global_metrics, reset, probes"]}
{"id": "C19", "title": "Metrics probes agree with the arena's history", "statement": "With the metrics hooks installed, the counters equal the facts of the arena history: number of allocations, bytes allocated, blocks, resets, destructions, used and wasted bytes.", "quantifier": "every arena history", "why_tests_cant": "composition of two stateful components over all histories.", "anchors": ["arena/metrics.hpp: metrics_probe_on_arena_*", "arena/arena.hpp: hook calls"]}
{"id": "C20", "title": "Rendering metrics never faults", "statement": "GlobalArenaMetrics::string() can be called in every reachable state.", "quantifier": "every history including the empty one", "why_tests_cant": "needs every reachable counter state.", "anchors": ["arena/metrics.hpp: GlobalArenaMetrics::string"]}
{"id": "C21", "title": "stdb_vector behaves like a sequence", "statement": "After any sequence of vector operations with arguments not referring into the vector, size(), operator[], iteration and emptiness agree with the abstract sequence obtained by applying the same operations to a list.", "quantifier": "every operation history, every element value, every sizeof(T), each of the three element classes (relocatable, movable, copy-only)", "why_tests_cant": "unbounded histories and three different code paths per operation.", "anchors": ["container/stdb_vector.hpp: stdb_vector, core"]}
{"id": "C22", "title": "stdb_vector never touches memory outside its buffer", "statement": "No operation reads, writes, constructs or destroys outside the allocated buffer, and reads only constructed elements; start <= finish <= edge always holds.", "quantifier": "every history, every element class", "why_tests_cant": "memory safety is a property of all histories.", "anchors": ["container/stdb_vector.hpp: core::allocate, realloc_with_old_data, realloc_and_emplace_back, move_forward, move_backward, erase, insert, resize"]}
{"id": "C23", "title": "Every element is destroyed exactly once", "statement": "Over the life of a vector each element object constructed in its buffer is destroyed exactly once and no other object is destroyed.", "quantifier": "every history and element class", "why_tests_cant": "construct/destroy balance over all histories and the three code paths.", "anchors": ["container/stdb_vector.hpp: destroy_range, move_range_without_overlap, realloc_with_move, move_forward, move_backward, erase"]}
{"id": "C24", "title": "Vector growth is geometric", "statement": "When full, the next capacity is strictly larger, at least about 1.5 times the old one, and n push_backs move O(n) elements in total.", "quantifier": "every capacity, element size and number of push_backs", "why_tests_cant": "amortised bound over all n.", "anchors": ["container/stdb_vector.hpp: compute_next_capacity, compute_new_capacity, push_back"]}
{"id": "C25", "title": "push_back and emplace_back accept references into the vector", "statement": "push_back(v[i]) and emplace_back(v[i]) append the value v[i] had before the call even when the buffer is reallocated.", "quantifier": "every vector state, every index, full or not", "why_tests_cant": "needs the dangling-reference order of realloc_and_emplace_back in every state.", "anchors": ["container/stdb_vector.hpp: push_back, emplace_back, realloc_and_emplace_back"]}
{"id": "C26", "title": "insert, emplace, resize and assign accept references into the vector", "statement": "insert(pos, v[i]), emplace(pos, v[i]), resize(n, v[i]) and assign(n, v[i]) use the value v[i] had before the call.", "quantifier": "every state, position and index", "why_tests_cant": "aliasing matters only for some relative positions and capacities.", "anchors": ["container/stdb_vector.hpp: insert, emplace, resize, assign"]}
{"id": "C27", "title": "erase removes exactly the range and returns the following element", "statement": "erase(pos), erase(first,last), erase(value), erase_if(pred) remove exactly the designated elements, keep the order of the others, and return the position after the removed range, or the number of removed elements.", "quantifier": "every state, position, range, value and predicate, each element class", "why_tests_cant": "all states and ranges; hand written compaction loops.", "anchors": ["container/stdb_vector.hpp: erase, erase_if, std::erase, std::erase_if"]}
{"id": "C28", "title": "reserve, shrink_to_fit and resize respect capacity promises", "statement": "reserve(n) makes capacity at least n without changing contents; no reallocation happens while size stays within capacity; shrink_to_fit keeps contents; resize changes only the tail.", "quantifier": "every state and n below the overflow bound", "why_tests_cant": "all sizes and states.", "anchors": ["container/stdb_vector.hpp: reserve, shrink_to_fit, resize, compute_new_capacity"]}
{"id": "C29", "title": "Copies of vectors are independent, moves leave an empty source", "statement": "Copy construction and copy assignment give an equal vector whose later changes never affect the source; move construction, move assignment and swap transfer contents and leave the source empty (swap: exchanged).", "quantifier": "every pair of states and every later history", "why_tests_cant": "independence is over all later histories.", "anchors": ["container/stdb_vector.hpp: core copy/move constructors and assignments, swap"]}
{"id": "C30", "title": "assign replaces the whole contents", "statement": "assign(n, v), assign(first, last) and assign(initializer_list) leave exactly the given elements, including when the range is empty.", "quantifier": "every old state and every new sequence", "why_tests_cant": "edge cases relative to capacity and emptiness.", "anchors": ["container/stdb_vector.hpp: assign"]}
{"id": "C31", "title": "get_writebuffer and fill stay within the buffer and append", "statement": "get_writebuffer(n) returns a writable range of n elements at the end inside the buffer; fill appends n elements without touching existing ones.", "quantifier": "every state and every n", "why_tests_cant": "depends on size, capacity and n together.", "anchors": ["container/stdb_vector.hpp: get_writebuffer, fill"]}
{"id": "C32", "title": "Vector comparison is the lexicographic order", "statement": "== holds iff both sequences are equal, and <=> is the lexicographic order of the element order; it is a total order when the element order is.", "quantifier": "all pairs and triples of vectors", "why_tests_cant": "universally quantified order laws.", "anchors": ["container/stdb_vector.hpp: operator==, operator<=>"]}
{"id": "C33", "title": "The three string representations are unambiguous", "statement": "For every size and capacity the 24-byte object decodes to the category, size and capacity that was stored: inline up to 23 characters, medium up to 254, refcounted above.", "quantifier": "every content, size and capacity below 2^62", "why_tests_cant": "bit packing of size and category in the last byte for all values.", "anchors": ["string/string.hpp: string_core::category, size, capacity, smallSize, setSmallSize, MediumLarge::setCapacity, initSmall, initMedium, initLarge"]}
{"id": "C34", "title": "Strings have value semantics under any sharing", "statement": "For any number of string objects and any history of construction, copy, move, assignment, swap, mutation through the mutating operations and destruction, every object reads as the abstract character sequence obtained by applying the same operations to independent values.", "quantifier": "every number of objects, every history, both build modes (with and without the small-string optimisation)", "why_tests_cant": "copy-on-write sharing makes correctness depend on the history of all objects.", "anchors": ["string/string.hpp: string_core, basic_string"]}
{"id": "C35", "title": "String memory is freed exactly once and never used afterwards", "statement": "In every history no operation reads or writes freed or foreign memory, each heap buffer is freed exactly once, the stored reference count equals the number of string objects sharing the buffer, and when all strings are destroyed no buffer remains.", "quantifier": "every history over any number of strings when allocations succeed", "why_tests_cant": "heap safety over all histories.", "anchors": ["string/string.hpp: RefCounted, destroyMediumLarge, unshare, reserveLarge, reserveMedium, reserveSmall, checkedRealloc"]}
{"id": "C36", "title": "Strings are always null terminated with size <= capacity", "statement": "After every operation c_str()[size()] is 0, size() <= capacity(), and the buffer has room for capacity()+1 characters.", "quantifier": "every history", "why_tests_cant": "invariant over all histories and three representations.", "anchors": ["string/string.hpp: c_str, expandNoinit, shrink, isSane"]}
{"id": "C37", "title": "A failed allocation leaves strings usable", "statement": "If an allocation fails during a string operation, an exception is reported and every string object can still be read and destroyed.", "quantifier": "every state and every failing allocation", "why_tests_cant": "needs a failing allocator at each allocation point.", "anchors": ["string/string.hpp: checkedMalloc, checkedRealloc, smartRealloc, reserveMedium, reserveLarge"]}
{"id": "C38", "title": "Substring search finds the first and last occurrence", "statement": "find(needle, pos, n) returns the least index >= pos at which the needle occurs or npos; rfind returns the greatest index <= pos or npos.", "quantifier": "every haystack, needle, start position and length", "why_tests_cant": "hand written skip loop; correctness for all inputs.", "anchors": ["string/string.hpp: basic_string::find, rfind"]}
{"id": "C39", "title": "Character set searches are exact", "statement": "find_first_of, find_last_of, find_first_not_of and find_last_not_of return the extreme index whose character is (not) in the set, or npos.", "quantifier": "every string, set and start position", "why_tests_cant": "all inputs; unsigned index arithmetic at both ends.", "anchors": ["string/string.hpp: find_first_of, find_last_of, find_first_not_of, find_last_not_of"]}
{"id": "C40", "title": "String comparison is a total order consistent with equality and hash", "statement": "compare and all relational operators agree with the lexicographic order on unsigned characters with shorter-prefix-first; equality implies equal hashes.", "quantifier": "all pairs and triples of strings", "why_tests_cant": "order laws are universally quantified.", "anchors": ["string/string.hpp: compare, operator==, operator<, operator<=, std::hash"]}
{"id": "C41", "title": "append and assign accept pieces of the string itself", "statement": "s.append(s.data()+i, n), s += s, s.assign(s, i, n) give the result computed from the old value even when the buffer is reallocated.", "quantifier": "every string state, offset and length within the string", "why_tests_cant": "aliasing with reallocation happens only at some sizes and capacities.", "anchors": ["string/string.hpp: append, assign, operator+="]}
{"id": "C42", "title": "insert and replace accept pieces of the string itself", "statement": "insert(pos, s) and replace(pos, n, s) with s referring into the string give the result computed from the old value.", "quantifier": "every state, position and range", "why_tests_cant": "aliasing at every relative position.", "anchors": ["string/string.hpp: insertImpl, replaceImpl, replaceAliased"]}
{"id": "C43", "title": "insert, erase, replace, resize, substr compute the standard result", "statement": "Each editing operation yields prefix ++ new ++ suffix exactly, for arguments not referring into the string, and a position beyond size() raises out_of_range leaving the string unchanged.", "quantifier": "every string, position, count and argument", "why_tests_cant": "all positions, representation changes and shared states.", "anchors": ["string/string.hpp: insert, erase, replace, resize, substr, enforce"]}
{"id": "C44", "title": "Concurrent copies and destruction of shared strings are safe", "statement": "When several threads copy, mutate and destroy their own string objects that share one buffer, in every interleaving of the atomic reference count operations the buffer is freed exactly once, after the last use, and only a sole owner writes to it.", "quantifier": "every number of threads and every schedule of the atomic steps", "why_tests_cant": "schedules cannot be enumerated by tests.", "anchors": ["string/string.hpp: RefCounted::incrementRefs, decrementRefs, refs, unshare, mutableDataLarge"]}
{"id": "C45", "title": "Writing through data() affects only that string", "statement": "Writing a character through the pointer returned by the non-const data() changes only that string object.", "quantifier": "every sharing state", "why_tests_cant": "only wrong for large shared strings.", "anchors": ["string/string.hpp: basic_string::data"]}
{"id": "C46", "title": "contains agrees with find", "statement": "contains(sv) is true exactly when the characters of the view occur in the string.", "quantifier": "every string and every view, terminated or not, with or without embedded zeros", "why_tests_cant": "depends on bytes after the view.", "anchors": ["string/string.hpp: contains"]}
{"id": "C47", "title": "getline reads exactly one line of any length", "statement": "getline(is, s, d) stores the characters up to the delimiter or end of input and consumes exactly those and the delimiter.", "quantifier": "every input, delimiter and initial capacity", "why_tests_cant": "chunked reading loop with growing capacity.", "anchors": ["string/string.hpp: getlineImpl, getline"]}
{"id": "C48", "title": "reserve and capacity", "statement": "reserve(n) gives capacity at least n and never changes contents; appending within capacity of an unshared string does not reallocate; shrink_to_fit keeps contents.", "quantifier": "every state and n", "why_tests_cant": "all representation transitions.", "anchors": ["string/string.hpp: reserve, reserveSmall, reserveMedium, reserveLarge, shrink_to_fit"]}
{"id": "C49", "title": "Concatenation operators", "statement": "Every overload of operator+ returns the concatenation of the operands' values, reusing a moved operand's buffer when possible, without changing const operands.", "quantifier": "every pair of operands in every representation", "why_tests_cant": "overload and capacity dependent paths.", "anchors": ["string/string.hpp: operator+"]}
{"id": "C50", "title": "Formatted extraction reads one word", "statement": "operator>> skips leading whitespace, reads up to width characters up to the next whitespace and leaves the rest.", "quantifier": "every input and width", "why_tests_cant": "all inputs.", "anchors": ["string/string.hpp: operator>>"]}
{"id": "C51", "title": "Arena strings have value semantics", "statement": "Strings using an arena allocator behave as independent character sequences under any history, as ordinary strings do.", "quantifier": "every history over any number of strings with one arena allocator", "why_tests_cant": "separate copy of the code with different deallocation rules.", "anchors": ["string/arena_string.hpp: arena_string_core, basic_arena_string"]}
{"id": "C52", "title": "Arena strings never release arena memory to the heap", "statement": "A string whose characters live in an arena never passes them to another allocator, and a string never keeps characters owned by a resource other than its allocator.", "quantifier": "every history including swap and aliased replace", "why_tests_cant": "ownership over histories.", "anchors": ["string/arena_string.hpp: swap, destroyMediumLarge, replaceAliased"]}
{"id": "C53", "title": "Unrecognised arguments are kept in order", "statement": "After parse_args, the raw argument vector is the program name followed by exactly the arguments not consumed as options or option values, in their original order; invalid_args is the same list without the program name.", "quantifier": "every argument vector and every set of options", "why_tests_cant": "arbitrary argument lists.", "anchors": ["optparse/optparse.cc: parse_args, process_opt, handle_opt, get_raw_argc, get_raw_argv, invalid_args"]}
{"id": "C54", "title": "Option names resolve uniquely", "statement": "After any sequence of add_option calls no two options share a name, and a duplicate name is reported; an argument matching a registered name is resolved to that option.", "quantifier": "every sequence of option declarations", "why_tests_cant": "arbitrary declaration sequences.", "anchors": ["optparse/optparse.cc: add_option, find_opt, validate"]}
{"id": "C55", "title": "Actions store what the command line says", "statement": "Store keeps the last value, Append keeps all values in order, StoreTrue/StoreFalse set the flag, Count counts occurrences.", "quantifier": "every argument vector", "why_tests_cant": "order and repetition of options are unbounded.", "anchors": ["optparse/optparse.cc: handle_opt, process_opt", "optparse/optparse.hpp: ValueStore"]}
{"id": "C56", "title": "Command line beats environment beats default", "statement": "The value of an option is the command-line value if given, otherwise the environment value if present, otherwise the default.", "quantifier": "every combination of arguments, environment and defaults", "why_tests_cant": "precedence over all combinations.", "anchors": ["optparse/optparse.cc: parse_args"]}
{"id": "C57", "title": "Every argument is consumed at most once and parsing terminates", "statement": "parse_args visits each argument exactly once, removes only arguments it recognised, and never reads beyond the argument list.", "quantifier": "every argument vector and option set", "why_tests_cant": "iterator arithmetic under erasure for all inputs.", "anchors": ["optparse/optparse.hpp: ArgList", "optparse/optparse.cc: parse_args, handle_opt"]}
{"id": "C58", "title": "name=value splitting and list splitting are exact", "statement": "An argument name=value is split at the first '='; a list value is split at every separator with surrounding blanks removed, and joining gives back the original up to blanks.", "quantifier": "every argument string", "why_tests_cant": "all strings.", "anchors": ["optparse/optparse.cc: extract_opt_name, extract_opt_value, split, trim_string"]}
{"id": "C59", "title": "Vector move-forward/backward compaction is overlap safe", "statement": "Shifting elements left or right inside the buffer by any distance preserves their values and order.", "quantifier": "every buffer, position and distance, each element class", "why_tests_cant": "overlap direction matters for all distances.", "anchors": ["container/stdb_vector.hpp: core::move_forward, move_backward"]}
{"id": "C60", "title": "Out-of-range access is rejected", "statement": "string at(), substr, erase, insert, replace, compare with pos > size() throw out_of_range and change nothing; vector at() in safe mode never returns a non-element.", "quantifier": "every state and position", "why_tests_cant": "all positions.", "anchors": ["string/string.hpp: enforce, at", "container/stdb_vector.hpp: at"]}
{"id": "C61", "title": "Option texts are read as the values they spell", "statement": "The text of an Int or Long option is read as the decimal number it starts with, blanks before it skipped, taken to the nearest end of the range if outside; Bool is whether that number is not zero; a Choice is accepted iff it is one of the choices; a String is the text itself.", "quantifier": "every text and option type", "why_tests_cant": "all texts; numbers of any length, signs, blanks and trailing characters.", "anchors": ["optparse/optparse.cc: parse_string, parse_value"]}
{"id": "C62", "title": "A parser can be used again", "statement": "After parse_args returned, calling it again gives the same values, the same unrecognised arguments and the same options as on a parser that was never used.", "quantifier": "every parser made by its public operations and every pair of argument vectors", "why_tests_cant": "state left over from the first call over all argument vectors.", "anchors": ["optparse/optparse.cc: parse_args, add_usage_option, add_help_option, add_version_option"]}
{"id": "C63", "title": "Typed access gives the value stored", "statement": "get<T> and get_list<T>, with the type of the option, give the value read for it and never end the program.", "quantifier": "every parser, argument vector and option with a destination of its own", "why_tests_cant": "the type stored depends on every path through parsing.", "anchors": ["optparse/optparse.hpp: ValueStore::get, get_list", "optparse/optparse.cc: parse_value, process_opt"]}
{"id": "C64", "title": "Usage and help texts", "statement": "The usage text names every option; the help text has one line per option with all its names and type, help texts starting in one column, as near as possible; the version text is the version set.", "quantifier": "every parser and help text", "why_tests_cant": "column width depends on all options.", "anchors": ["optparse/optparse.cc: format_usage, format_help, format_verison, format_opt_names"]}
{"id": "C65", "title": "parse_args returns exactly when the options are complete and the values can be read", "statement": "With complete options, argc below 2^31 and readable values parse_args returns; whenever it returns these hold.", "quantifier": "every parser and argument vector", "why_tests_cant": "all paths to an exception.", "anchors": ["optparse/optparse.cc: parse_args, Option::validate, process_opt"]}
{"id": "C66", "title": "String overloads agree with their definitions on sequences", "statement": "append, assign, insert, replace and construction with (str, pos, n), a whole string or a const char* have the effect of the same operation on the sequence the argument stands for; a position beyond the end throws out_of_range with every string unchanged. The argument is another string for insert, and for replace of arena strings.", "quantifier": "every history of calls on any number of strings, both kinds and both build modes, and every argument", "why_tests_cant": "clipping of n up to npos, self arguments and shared buffers over all histories.", "anchors": ["string/string.hpp: append, assign, insert, replace overloads, basic_string(const value_type*)"]}
{"id": "C67", "title": "Iterator members return the right position", "statement": "begin, end, insert(p, c), insert(p, n, c), insert(p, first, last), erase(p) and erase(first, last) change the string as on sequences and return an iterator to the right index of that string, into characters no other string shares.", "quantifier": "every history of calls, every string and iterator into it", "why_tests_cant": "reallocation and unsharing move the characters depending on the whole history.", "anchors": ["string/string.hpp: begin, end, insert, erase, insertImpl, insertImplDiscr"]}
{"id": "C68", "title": "Reading a string", "statement": "at, operator[], front, back, copy and iteration in both directions give the characters of the string; at throws out_of_range from size() on, operator[] gives zero at size(), copy clips and throws beyond the end.", "quantifier": "every string of every history, every position and count", "why_tests_cant": "all contents, positions and representations.", "anchors": ["string/string.hpp: at, operator[], front, back, copy, cbegin, rbegin"]}
{"id": "C69", "title": "starts_with and ends_with", "statement": "starts_with(x) holds iff the string begins with x and ends_with(x) iff it ends with x, for a string, view, character or const char*.", "quantifier": "every string and argument", "why_tests_cant": "all lengths, empty arguments and arguments longer than the string.", "anchors": ["string/string.hpp: starts_with, ends_with"]}
{"id": "C70", "title": "Comparison with std::string", "statement": "All comparison operators between a string and a std::string, in either order, give the lexicographic order of the characters.", "quantifier": "every pair of strings", "why_tests_cant": "all contents including prefixes and zeros.", "anchors": ["string/string.hpp: operators with std::basic_string"]}
{"id": "C71", "title": "operator<< writes the string", "statement": "operator<< on a good stream with room appends exactly the characters, padded to the width on the side chosen, and resets the width; a stream that is not good is left with failbit set and nothing written.", "quantifier": "every string and stream state", "why_tests_cant": "sizes beyond 2^31 are out of reach of tests.", "anchors": ["string/string.hpp: operator<<"]}
{"id": "C72", "title": "Conversions keep all characters", "statement": "The conversions to std::string_view and std::string and std::to_string give exactly the characters of the string.", "quantifier": "every string", "why_tests_cant": "strings containing zeros.", "anchors": ["string/string.hpp: operator string_view, toStdString, std::to_string"]}
{"id": "C73", "title": "Iterators stay valid while the string is not modified", "statement": "Writing through an iterator into a string changes that character of that string and no other string, until the string is modified.", "quantifier": "every history of calls between taking the iterator and writing", "why_tests_cant": "copies made in between share the buffer.", "anchors": ["string/string.hpp: begin, basic_string(const basic_string&)"]}
{"id": "C74", "title": "Arena strings on the default resource give back what they took", "statement": "Arena strings on the default memory resource (release builds) give every buffer back exactly once, at the address and with the size it was asked for, when its last user is gone, and none remains when all strings are destroyed.", "quantifier": "every sequence of calls on any number of strings, allocations failing at any point", "why_tests_cant": "sizes given to deallocate are checked by no test allocator, and are computed at several places from the capacity.", "anchors": ["string/arena_string.hpp: destroyMediumLarge, RefCounted::decrementRefs, arena_smartRealloc, unshare"]}
{"id": "C75", "title": "Vectors whose element constructors throw", "statement": "When constructing an element throws, the exception comes out of the call, no element is lost or destroyed twice, and the vector can still be destroyed.", "quantifier": "every reachable vector, every call and number of constructions that succeed before the exception", "why_tests_cant": "the point at which a constructor throws multiplies with sizes, capacities and calls; a destructor run on memory without an object often goes unnoticed.", "anchors": ["container/stdb_vector.hpp: push_back, emplace_back, emplace, insert, assign, resize, constructors, operator=, core, construct_range, copy_range"]}
{"id": "C76", "title": "Vector iterators are positions", "statement": "Iterators of a vector behave as positions in the sequence: begin() is 0, end() is size(), arithmetic, differences, order, indexing, reading and writing are those of positions; range-for visits the elements in order, reverse iteration in reverse; a moved-from iterator is null.", "quantifier": "every reachable vector and every program of iterator expressions between begin() and end()", "why_tests_cant": "unbounded combinations of iterator expressions on vectors of any size, including those without a buffer.", "anchors": ["container/stdb_vector.hpp: IteratorT, begin, end, rbegin, rend"]}
{"id": "C77", "title": "Appending to strings asks for memory logarithmically often", "statement": "A call that appends characters to a string and returns either asks for no memory and keeps the capacity, or asks once and leaves at least 1 + 3/2 of the old capacity; so the number of requests during any series of such calls is logarithmic in the growth of the string, and (except for small strings of debug builds) memory is only asked for when the characters do not fit.", "quantifier": "every reachable string, shared or not, and every series of appending calls with any arguments", "why_tests_cant": "amortised cost is a statement about unboundedly long series of calls; a linear growth policy passes every functional test.", "anchors": ["string/string.hpp: expandNoinit, reserve, append, push_back", "string/arena_string.hpp: expandNoinit, reserve"]}
{"id": "C78", "title": "string() of the global metrics beside reporting threads", "statement": "Called while other threads report, GlobalArenaMetrics::string() shows no percentage above 100 and no counter above what has been recorded; undisturbed it shows every counter under its name, the cumulative percentages, and every map entry.", "quantifier": "every number of threads, every history of probes, every interleaving of reports with any number of string() calls, load by load", "why_tests_cant": "the interleavings between the loads of string() and the additions of a report cannot be enumerated.", "anchors": ["arena/metrics.hpp: GlobalArenaMetrics::string, report_to_global_metrics"]}
{"id": "C79", "title": "reset() of the global metrics beside reporting threads", "statement": "From the moment reset() clears a counter on, the counter and what is unreported add up to what was unreported at that moment and what has been recorded since; undisturbed reset() clears every counter and keeps the entries of the map; string() works after it.", "quantifier": "every number of threads, every history, every interleaving of reports, string() and reset() calls", "why_tests_cant": "the interleavings cannot be enumerated, and lost or doubled counts in the middle of a report are not visible to tests.", "anchors": ["arena/metrics.hpp: GlobalArenaMetrics::reset, string, report_to_global_metrics"]}
{"id": "C80", "title": "An arena holds memory in proportion to what it was asked for", "statement": "Apart from its oldest block and one block of the normal size, an arena holds at most five times the bytes in use; and while block_alloc does not fail, the bytes in use are at most the ranges handed out and cleanups registered since the last Reset, plus 39 bytes for each range, 48 for each cleanup and 32 in all.", "quantifier": "every reachable state, any number of arenas, every sequence of requests, resets, moves and constructions that use the arena", "why_tests_cant": "the block sizes depend on the whole sequence of requests, and an arena that wastes a block per request still passes every functional test.", "anchors": ["arena/arena.cc: newBlock, allocateAligned", "arena/arena.hpp: need_create_new_block, has_enough_space, addCleanup, Reset"]}
{"id": "C81", "title": "The thread checks catch counts used by several threads", "statement": "In builds with CROSS_THREAD_CHECKING, a program that passes all checks never lets two threads use the reference count of a buffer while strings share it; and a program with one thread is never refused.", "quantifier": "every number of threads and strings and every order of constructions, copies, moves, clones, swaps, changes and destructions by any thread", "why_tests_cant": "the checks depend on which thread copied which string first; a copy that misses its tag only shows when another thread happens to destroy it.", "anchors": ["string/string.hpp: string_core copy and move constructor, destructor, swap, cpu_, basic_string::clone", "string/arena_string.hpp: arena_string_core constructors, destructor, swap, cpu_"]}
{"id": "C82", "title": "The global counters under relaxed memory order", "statement": "With the orders the code asks for (relaxed additions, no ordering between counters), every load of string() shows at least everything reported before it happened and nothing reported after it, later loads of a counter show no less, and after joining the reporting threads string() shows the exact totals and shares.", "quantifier": "every number of threads, every program of records, reports and string() calls, every execution the C++ memory model allows for the counters outside the map, without reset()", "why_tests_cant": "a strongly ordered machine never shows the executions that weaker ones and compilers allow.", "anchors": ["arena/metrics.hpp: report_to_global_metrics, GlobalArenaMetrics::string, formatter<atomic<T>>"]}
{"id": "C83", "title": "Cleanups that use the arena", "statement": "A cleanup may use any living arena, also the one whose Reset() or destructor is running it: the call completes, runs exactly the cleanups that were pending when it began and gives every block back that the arena does not keep.", "quantifier": "every reachable state, any number of arenas, every assignment of permitted requests to cleanups", "why_tests_cant": "cleanups normally run destructors that do not allocate; one that does reads a block that was just freed only when the cleanup happens to be kept in an older block.", "anchors": ["arena/arena.hpp: Block::run_cleanups, Block::Reset, Arena::Reset, ~Arena, free_all_blocks, free_blocks_except_head"]}
{"id": "C84", "title": "Strings of wider characters", "statement": "Strings of char16_t, char32_t and wchar_t behave as those of char: inline up to 23 bytes, shared from 255 bytes on, with value semantics, exact reference counts, a terminator within the capacity and no leak; filling writes exactly the characters asked for; equal strings have equal hashes and the hash depends on all characters.", "quantifier": "every width of characters of two or four bytes, every sequence of permitted calls on any number of strings, every behaviour of malloc, every number of characters", "why_tests_cant": "the tests use other characters than char in a single place; the width enters the encoding of size and capacity in the object and every size asked of malloc.", "anchors": ["string/string.hpp: podFill, string_core, RefCounted, basic_string, std::hash<basic_string<char16_t>>, <char32_t>, <wchar_t>"]}
{"id": "C85", "title": "Range calls of stdb_vector copy what the iterators yield", "statement": "stdb_vector(first, last), assign(first, last) and insert(pos, first, last): the elements become T(*first), T(*(first + 1)), ... and nothing but the objects of the range is read. True if T is not relocatable or the iterator not random access, and for contiguous objects of type T; false for other random access iterators (reverse iterators, std::deque, another value type), where the constructor is right for every memory if and only if the objects are one after another, first before end.", "quantifier": "every element kind, element size, iterator (addresses, value size, conversion), memory content, reachable vector and malloc behaviour", "why_tests_cant": "Tests use a few iterator types; which random access iterators are copied wrongly, and that all others are right, is a statement about every placement of the objects.", "anchors": ["container/stdb_vector.hpp:83-90", "container/stdb_vector.hpp:164-181", "container/stdb_vector.hpp:559-570", "container/stdb_vector.hpp:611-631", "container/stdb_vector.hpp:1283-1318"]}
{"id": "C86", "title": "Arena strings in an arena", "statement": "Arena strings and arenas working together: every request of the strings is answered by the arena; the strings behave as independent character sequences whatever else is done with the arenas short of resetting, moving or destroying theirs; bad_alloc occurs only when block_alloc refused the arena a block (or more than 2^62 bytes were asked for); the buffers of the strings lie in blocks their arena holds, aligned to 8, apart from each other, from everything else handed out and from the arena's own records; the characters and the terminator of each string are found in memory within one buffer; no call on a string frees a block or runs a cleanup.", "quantifier": "every number of arenas and strings, every interleaving of calls on the strings (those C51 is proved for) with calls on the arenas, every behaviour of block_alloc that gives fresh aligned blocks, debug and release builds", "why_tests_cant": "tests of arena strings use one arena and short runs; that buffers never overlap other allocations or records is a statement about all interleavings.", "anchors": ["string/arena_string.hpp:59", "string/arena_string.hpp:385", "string/arena_string.hpp:503", "arena/arena.hpp:330-332", "arena/arena.cc:139-154"]}
{"id": "C87", "title": "A parser after parse_args threw", "statement": "However a parse_args call ends (also when it throws because an option is incomplete, a name conflicts or a value is missing), the next call on the same parser gives the values, unrecognised arguments and options it would have given without it; and after every call, also one that threw, the unrecognised arguments kept are arguments of that call, in order, each once.", "quantifier": "every sequence of constructor, declarations, settings and parse_args calls however these ended, all two argument vectors, every environment", "why_tests_cant": "tests stop at the exception; they never parse again with the parser that threw.", "anchors": ["optparse/optparse.cc: OptionParser::parse_args, add_usage_option, add_help_option, add_version_option, Option::validate, handle_opt"]}
{"id": "C88", "title": "Parsers are values", "statement": "OptionParser can be copied and moved: a copy has the options of its source and behaves like it from then on, independently of it, also once the source is destroyed or was moved from.", "quantifier": "any number of parsers, every sequence of constructions, copies, moves, destructions and calls", "why_tests_cant": "copying is only seen to go wrong if an option without a destination is declared before the copy, the first parse_args is on the copy, and the memory of the original has changed by then.", "anchors": ["optparse/optparse.hpp: OptionParser(const OptionParser&), OptionParser(OptionParser&&), Option::_parser", "optparse/optparse.cc: Option::validate"]}
{"id": "C89", "title": "Metrics hooks that use the arena", "statement": "on_arena_init, on_arena_reset and on_arena_destruction get the arena and may use it: every call completes, no memory is lost, given back twice or handed out twice, SpaceAllocated() and cleanups() stay exact, every registered cleanup runs, and the cookie a hook allocated in its arena stays usable. If new memory_resource fails in init(), the arena works all the same.", "quantifier": "every number of arenas, every sequence of calls, every behaviour of block_alloc that gives fresh aligned blocks, and hooks performing any sequence of requests on any living arenas, depending on everything that happened before", "why_tests_cant": "The tests install hooks that only record that they were called; what is left half done at the moment of the call is invisible to them.", "anchors": ["arena/arena.hpp:353-363", "arena/arena.hpp:369-378", "arena/arena.hpp:396-407", "arena/arena.hpp:540-550"]}
{"id": "C90", "title": "Allocation and block hooks that use arenas", "statement": "on_arena_allocation and on_arena_newblock get the cookie, which may lead to the arena, and may use any living arena: the request completes, the client gets an aligned range of its own and its cleanup is registered although the hook used the arena in between, ranges and cleanups of others are untouched, no block is lost and SpaceAllocated() and cleanups() stay exact.", "quantifier": "every number of arenas, every sequence of calls (also constructors that use the arena), every behaviour of block_alloc that gives fresh aligned blocks, and hooks performing any sequence of requests on living arenas, depending on everything that happened before", "why_tests_cant": "The tests' hooks only count; a hook that allocates runs between taking memory from a block and returning it, and between obtaining a block and linking it.", "anchors": ["arena/arena.cc:61-123", "arena/arena.cc:139-154", "arena/arena.hpp:429-509", "arena/arena.hpp:574-585"]}
{"id": "C91", "title": "References returned by add_option", "statement": "A reference returned by add_option refers to the option added: setters through it, in the same expression or later, change that option only, giving each field what was set last and adding the choices to those there; it stays usable while the parser is used.", "quantifier": "every sequence of calls on a parser (also throwing ones), every sequence of setters through any reference returned before, every size of Option from 64 bytes to 128 KiB, up to 2^32 options", "why_tests_cant": "The tests configure every option in the expression that adds it; a reference kept across another add_option reads freed memory without failing.", "anchors": ["optparse/optparse.cc:126-159", "optparse/optparse.cc:200-203", "optparse/optparse.hpp:190-255", "container/stdb_vector.hpp:951-965", "container/stdb_vector.hpp:1380-1395"]}
{"id": "C92", "title": "Constructors that use arenas", "statement": "The constructor that Create or CreateArray calls may use any living arena, the one it is called by included, and build further objects there: the call completes; the object and all objects its constructor built lie in ranges handed out by this call and do not overlap; ranges and cleanups of others are untouched and all arenas stay consistent. CreateArray calls the constructor exactly once for each element, in order, at its address, and not at all if there is no memory; Create registers the destructor after the constructor has returned, so that it runs before every cleanup the constructor registered with the arena.", "quantifier": "every number of arenas, every sequence of calls, every behaviour of block_alloc that gives fresh aligned blocks, every constructor performing requests of at most 2^62 bytes to any nesting depth, deciding by address, index and by what the requests return, and hooks as in C90", "why_tests_cant": "The tests construct a few types that keep the arena or allocate once from it; constructors that obtain new blocks, in other arenas or in the middle of an array, are not tried.", "anchors": ["arena/arena.hpp:429-475", "arena/arena.hpp:574-600", "arena/arena.hpp:676-687", "arena/arena.cc:139-154"]}
{"id": "C93", "title": "ValueStore keeps what it is told", "statement": "After any calls of set, append (one value or a list) and increment, a key has the value last set for it plus one for each increment since, and the list of everything appended to it in order; calls for other keys do not matter. user_set(key) tells whether set or append was called for the key. increment throws exactly if the value is not an int, changing nothing.", "quantifier": "every sequence of calls, every key, every value, exceptions caught in between, as long as no increment exceeds the greatest int", "why_tests_cant": "The tests use a store through a parser, with few keys; append with a list is never called.", "anchors": ["optparse/optparse.hpp:55-108"]}
{"id": "C94", "title": "user_set tells what the user gave", "statement": "After parse_args user_set(dest) is true exactly if the command line gave the option a value.", "quantifier": "every parser and every command line, options with a destination of their own", "why_tests_cant": "The tests read values, never user_set after a parse.", "anchors": ["optparse/optparse.hpp:70", "optparse/optparse.cc:247-268", "optparse/optparse.cc:315-395"]}
{"id": "C95", "title": "parse_args finds exactly what is said, whatever destinations are shared", "statement": "The store parse_args returns has, for every key, exactly what the uses on the command line, in order, then the defaults of options whose destination is not marked by then, and then the environment variables of options whose destination is not marked by then, say: the value of the last one that stores, plus the counts since, and the list of all that append. parse_args returns exactly when the options are complete, every text that is used can be read, and whatever is counted is an int below the greatest.", "quantifier": "every declared parser, with any options sharing destinations, every command line of fewer than 2^31 arguments, every environment", "why_tests_cant": "The tests give every option its own destination; the order of uses, defaults and environment matters only when destinations are shared.", "anchors": ["optparse/optparse.cc:205-271", "optparse/optparse.cc:315-395", "optparse/optparse.cc:430-484", "optparse/optparse.hpp:55-108"]}
{"id": "C96", "title": "Objects are destroyed as their types say", "statement": "An object that Create<T> returned is destroyed exactly once, by the Reset() or the destruction of the arena holding it then (a move takes it along), newest first, if destroying a T does anything and T does not publicly have, or inherit, the create-only tag; otherwise never. An object given to Own() is deleted in the same way. CreateArray<T> accepts exactly the types without destructors.", "quantifier": "every class type with single inheritance, members and tags; every number of arenas and every sequence of calls between creation and end of life; every behaviour of block_alloc that gives fresh aligned blocks", "why_tests_cant": "The tests have two tagged classes destroyed right after being created; inheritance of tags, moves and Resets of other arenas in between are not tried.", "anchors": ["arena/arenahelper.hpp:42-112", "arena/arena.hpp:82-121", "arena/arena.hpp:385-388", "arena/arena.hpp:429-475", "arena/arena.hpp:593-612", "arena/arena.hpp:676-687"]}
{"id": "C97", "title": "Objects are aligned for their type", "statement": "The object Create<T> returns and every element of the array CreateArray<T> returns is at a multiple of alignof(T).", "quantifier": "every type with a size and an alignment the language allows, every reachable state of any number of arenas", "why_tests_cant": "The tests create types of alignment at most 8.", "anchors": ["arena/arena.hpp:429-475", "arena/arena.hpp:561"]}
{"id": "C98", "title": "A range of forward iterators puts what it shows", "statement": "insert, append, replace and assign with two forward iterators that are not pointers put into the text exactly the characters the iterators show before the call, and change no other string.", "quantifier": "every reachable state of any number of strings of both kinds, every character type, both build modes; every finite range whose iterators refer to characters elsewhere, to other strings or to the string itself, in any order; every position", "why_tests_cant": "The tests give such calls iterators of a std::list and move iterators of another string; reverse iterators are only subtracted from each other, never given as a range.", "anchors": ["string/string.hpp:157-164", "string/string.hpp:1122-1128", "string/string.hpp:1338-1342", "string/string.hpp:1371-1374", "string/string.hpp:1434-1437", "string/string.hpp:1518-1544", "string/string.hpp:2030-2057", "string/string.hpp:2098-2107", "string/string.hpp:2127-2155"]}
{"id": "C99", "title": "A null pointer given as a C string is reported", "statement": "A null pointer given to a constructor, member or operator of a string as a C string makes it throw std::logic_error, and no string changes.", "quantifier": "every constructor, member and operator taking a const char* without a length, every state of any number of strings of both kinds, every character type, both build modes, every position", "why_tests_cant": "The tests give a null pointer as a C string to one constructor only.", "anchors": ["string/string.hpp:1114", "string/string.hpp:1334", "string/string.hpp:1365", "string/string.hpp:1392", "string/string.hpp:1480-1482", "string/string.hpp:1505-1507", "string/string.hpp:1575-1611", "string/string.hpp:1623-1693", "string/string.hpp:1725-1751", "string/string.hpp:1758-1761", "string/string.hpp:2294-2362", "string/string.hpp:2400-2495"]}
{"id": "C100", "title": "SpaceRemains() tells whether a request makes the arena ask for a block", "statement": "SpaceRemains() is the number of bytes of the newest block that check() calls unused, and a request makes the arena call block_alloc exactly when it needs more than that: its size rounded up to a multiple of 8, and 16 bytes if a cleanup is registered. Otherwise it succeeds and SpaceRemains() decreases by exactly that.", "quantifier": "every reachable state of any number of arenas, every request whose constructor does not itself use the arena", "why_tests_cant": "The one test reads SpaceRemains() after one allocation and never compares it with the request that follows.", "anchors": ["arena/arena.hpp:416-422", "arena/arena.hpp:284-294", "arena/arena.hpp:566-585", "arena/arena.cc:139-154"]}
{"id": "C101", "title": "Every arena has a memory_resource of its own, equal only to its own", "statement": "Every arena has exactly one memory_resource, which get_memory_resource() returns, no other arena has, get_arena() of which is the arena, and which is deleted exactly once. is_equal of the resources of two arenas is true exactly when they are the same arena, of an arena's resource and one made for an address exactly when the arena is there, and false for resources of other classes.", "quantifier": "every sequence of constructions at any addresses no arena occupies, move constructions and destructions of any number of arenas, addresses used again, operator new failing or not", "why_tests_cant": "The tests compare the resources of two arenas that were never moved, and cannot see a resource deleted twice or not at all.", "anchors": ["arena/arena.hpp:157-162", "arena/arena.hpp:321-349", "arena/arena.hpp:353-363", "arena/arena.hpp:369-378", "arena/arena.hpp:511-515", "arena/arena.hpp:540-550"]}
{"id": "C102", "title": "A null pointer with the length 0 is the empty text", "statement": "The constructor, append, assign, insert, replace, the members that search, compare, starts_with and ends_with given a null pointer and the length 0, as in a default-constructed std::string_view, do what they do with any other empty text: nothing is read there and no assertion fails.", "quantifier": "every state of any number of strings of both kinds, every character type, both build modes, every position, allocations refused at any time", "why_tests_cant": "The tests give no member a null pointer with a length.", "anchors": ["string/string.hpp:201-208", "string/string.hpp:378-391", "string/string.hpp:785-840", "string/string.hpp:1116", "string/string.hpp:1133", "string/string.hpp:1386-1390", "string/string.hpp:1492-1499", "string/string.hpp:1621-1693", "string/string.hpp:1729-1735", "string/string.hpp:1763-1766", "string/string.hpp:1845-1874", "string/string.hpp:1894-1915", "string/string.hpp:2112-2125", "string/arena_string.hpp:145-169"]}

# Design: formal model of stdbio/memory

Subject: the C++ sources in /repo (arena, align, literals, metrics, vector,
string, arena string, option parser).  Everything is modelled by hand in
Coq 8.16.1 as pure, total, computable Gallina; nothing is extracted from or run
against the C++ code.

## Conventions

* 64-bit words are `Z` in `[0, 2^64)`; every C++ addition, subtraction and
  multiplication that can leave the range is written with an explicit
  reduction modulo 2^64.
* Undefined behaviour (out-of-bounds access, use after free, division by zero,
  null dereference, reading a dead object) is a *distinct outcome*, never a
  default value.  A failing `Assert` (debug builds) is another one.
* External calls (block_alloc, malloc, getenv, the clock, user callbacks) are
  oracles: explicit inputs of the step function, universally quantified in the
  theorems.
* `*Model.v` files contain only definitions; `*Spec.v` the independent
  specification; `*Proofs.v` the lemmas; `Prop*.v` only the final theorems,
  each next to an example showing its hypotheses are satisfiable, and
  `Print Assumptions`.
* A property that is false of the code is kept as the full statement, refuted
  by `..._refuted` (a concrete reachable counterexample); the part that does
  hold is proved as `..._partial`.

## Plan per property

| id | model | proof |
|----|-------|-------|
| C01 | `AlignUpTo` with bitwise and/negation on words, `AlignUp` | arithmetic, division lemmas |
| C02 | `stoi_impl` over character lists | induction on the list |
| C03-C05 | arena as block list with addresses, `block_alloc` oracle | invariant over reachable states, live ranges as ghost history |
| C06 | same, over-aligned requests | expected to be refuted; partial theorem for the case where the position is already suitable |
| C07 | cleanup nodes as list per block | invariant relating nodes to history |
| C08-C10, C12-C16 | same model, hook event trace | invariants |
| C11 | `newBlock` size computation | case analysis |
| C17 | bucket counters | induction over history |
| C18 | threads with local counters, report split into single additions | invariant over interleavings |
| C19 | arena hooks feeding metrics | simulation |
| C20 | division in `string()` as partial operation | expected to be refuted for the empty history |
| C80 | the arena model of C03; bytes in use of a block against the requests in the history | invariant over adjacent blocks of the chain, induction over constructions and steps |
| C78, C79 | `string()` and `reset()` load by load and store by store, any number of them beside the threads of C18 | invariant over interleavings; conservation from a store on |
| C21-C23 | vector buffer as cells raw/live/moved-from, three element classes | refinement to lists |
| C24 | `compute_next_capacity` | arithmetic + potential function |
| C25, C26 | references into the buffer as argument | refinement / counterexample |
| C27-C31, C59 | as C21 | refinement; counterexamples for empty range assign, erase result, get_writebuffer |
| C75 | vector calls with a count of constructions before the throw | agreement with C21's model; state after the throw, destroyed |
| C76 | iterators as pointers into the buffer, programs over any number of them | refinement to positions |
| C77 | the requests counted in the heap of the string model (`h_calls`), capacity() | per call, then induction over series of calls |
| C32 | comparison loops | induction |
| C33 | 24-byte union, little-endian words | bit arithmetic |
| C34-C36 | heap of refcounted buffers plus any number of objects | refinement to a map from object to list |
| C37 | malloc oracle that may fail | expected to be refuted (`checkedRealloc` frees the old buffer) |
| C38, C39 | search loops | induction with loop invariants |
| C40 | compare, relational operators, hash oracle | order theory on lists |
| C41, C42 | pointer arguments into the buffer | refinement / counterexample |
| C43, C60 | editing operations | refinement |
| C44 | interleaving model of reference count operations | invariant over schedules |
| C82 | programs of threads, execution graphs with modification orders, happens-before, coherence | sums over prefixes of modification orders / counterexample |
| C83 | the arena model of C03 with cleanups that perform operations; Reset and destructor with those | frame lemma for the cleanup nodes under execution, invariant for the arenas while cleanups run, invariant of whole executions for cleanups using other arenas / counterexamples |
| C84 | the string model with the width of a character as parameter; podFill; hash of wide strings | the proofs of C33-C49, C60, C66-C70, C73 and C77 for all widths; loop invariants / counterexample |
| C85 | iterator ranges of stdb_vector over a memory of bytes | refinement of the calls with lists of values; equivalences with a memory that tells places apart / counterexamples |
| C86 | arena strings and arenas running together | the functions of arena strings as trees of requests answered by the arena; joint invariant over interleavings of calls on strings and arenas |
| C87 | parse_args, also when it throws (optparse.cc:161-271, 430-484) | the functions written with what they have changed when they throw; a parse leaves a parser that prepares to the same options |
| C88 | copies, moves and destruction of parsers (optparse.hpp:165, 184, 327-330) | refinement of values (OptLifeSpec) by objects whose options refer to parsers |
| C89 | the arena model of C03 with hooks that perform operations (arena.hpp:353-378, 396-407, 540-550), and new memory_resource failing | simulation of the run of the hook by a run from a history in which the reset already happened; invariant / counterexamples |
| C90 | the model of C89 with on_arena_allocation and on_arena_newblock performing operations too (arena.cc:61-154, arena.hpp:429-509, 574-585) | the hook's run leaves a taken range alone, shown in a history in which it is handed out already; a run that keeps off an arena is the same with the block linked; invariant / counterexample |
| C91 | references to options and the setters (optparse.cc:126-159, optparse.hpp:190-255), with the capacity of _options (stdb_vector.hpp:951-965, 1380-1395) | invariant: the buffer a reference points into holds all options up to its capacity / counterexample |
| C92 | Create and CreateArray with constructors that are programs over all arenas (arena.hpp:429-475, 676-687), on top of C90 | mutual induction over constructors and the programs they run; objects against the ranges handed out since |
| C93 | the calls of ValueStore (optparse.hpp:55-108), with append of a list | invariant relating the store to the calls that returned |
| C94 | user_set after parse_args (optparse.hpp:70, optparse.cc:247-268) | from the invariant of C55 and C56 / counterexample |
| C95 | parse_args (optparse.cc:205-271) against the calls it makes on the store, options sharing destinations | simulation: processing an option is performing the calls its text means; induction over uses and options |
| C98 | forward iterators as references to single characters; copying one by one | refinement of the calls with lists of characters, induction over the range / counterexamples |
| C99 | pointers that may be null, noexcept, on top of the string and search models | case analysis / refuted for all strings |
| C100 | the arena model of C03, SpaceRemains() and check() | invariant, case analysis over the requests / counterexamples |
| C101 | arenas as objects at addresses that can be used again, and their memory_resource objects (ArenaPmrModel.v) | invariant over all histories of constructions, moves and destructions / counterexamples |
| C102 | the string model with pointers where nothing can be read (StrZeroModel.v) | independence of the pointer by computation; C34; the lemmas of C38-C40 / counterexample |
| C96, C97 | compile-time traits and dispatch (arenahelper.hpp, arena.hpp:593-612, 676-687) on a description of class types; objects followed through moves | induction over types; induction over the steps between creation and end of life |
| C81 | tags (`cpu_`) and buffers of strings, calls by any thread, log of count accesses | invariant over all orders of calls / counterexample |
| C45, C46 | `data()`, `contains` | expected to be refuted; partial |
| C47, C50 | input stream as list with flags | induction |
| C48, C49 | capacity transitions, concatenation | refinement |
| C51, C52 | arena string core with allocator tags | refinement / counterexample |
| C74 | arena strings on the default resource, with the sizes given to deallocate | invariant over histories |
| C66, C67, C73 | overloads and iterators on top of C34's model | refinement; counterexample for iterators kept across a copy |
| C68-C72 | reading, comparing, `operator<<` on an output buffer with room | induction; counterexamples for large sizes and zeros |
| C53-C58, C61-C65 | option parser over lists of strings | induction over argument list |

## Findings

Places where the code does not do what the property (or its own comments) says.
Each is witnessed by a `..._refuted` theorem or an `Example`.

* A1 `AlignUpTo` near 2^64 wraps to a value below its argument
  (`C01_AlignUpTo_unconditional_refuted`); the arena's size computations inherit this.
* A2 `newBlock` sizes a block for the request without the alignment padding;
  a 16- or 32-aligned request that exactly fills a block overruns it when
  `block_alloc` returns memory less aligned than the request
  (`C06_overaligned_refuted`).
* A3 `CreateArray` only logs when `sizeof(T)*n` overflows and goes on with the
  wrapped size (`C16_overflow_refuted`).
* A4 `Reset()` and `SpaceRemains()` on an arena that never allocated dereference
  null (`C13_reset_empty_refuted`).
* A5 `has_enough_space` adds in 64 bits without overflow check. A request near
  2^64 bytes is granted from the current block and moves its position back, so
  that later requests get the block header or bytes already handed out
  (`C03_huge_refuted`, `C16_wrap_refuted`). The theorems assume requests of at
  most 2^62 bytes (`max_request`).
* A6 after a move the new arena's memory_resource still points to the old arena
  object (`C14_resource_refuted`).
* A7 when the cleanup record cannot be stored, `AllocateAlignedAndAddCleanup`
  and `Create` return null but keep the space; the object built by `Create` is
  never destroyed (`C10_cleanup_space_refuted`, `C80_lost_refuted`).
* A8 allocations through the memory_resource are not reported to the
  on_arena_allocation hook (`C12_resource_reports`).
* A9 a cleanup that uses the arena being destroyed or reset: `_last_block` still
  points to a freed block when the cleanups of older blocks run, so an allocation
  there is a use after free (`C83_older_refuted`); a block obtained by a cleanup
  is leaked by the destructor and by Reset() of several blocks (`C83_leak_refuted`,
  `C83_reset_partial`); a cleanup registered by a cleanup is reported as registered
  and never runs (`C83_lost_cleanup_refuted`). None of this happens to cleanups that
  use only other arenas (`C83_elsewhere_*_partial`), nor in Reset() to those kept in
  the oldest block (`C83_reset_oldest_partial`), but cleanups registered meanwhile are not run by it.
* A10 a reset hook that makes its arena obtain a block: Reset() then resets that
  block instead of the one it kept, so SpaceAllocated() counts the new block only
  and the cleanups of the kept block, due at Reset(), are not run by it
  (`C89_reset_grows_refuted`). A destruction hook that allocates from its arena
  leaks the block, and cleanups it registers never run (`C89_destroy_leaks_refuted`).
* A11 a cookie allocated in the arena: Reset() keeps the cookie but hands its
  memory out again (`C89_cookie_reused_refuted`), and on_arena_destruction gets it
  after its block was given back (`C89_cookie_dangles_refuted`).
* A12 newBlock calls on_arena_newblock between block_alloc and linking the block, with
  the predecessor already read. If the hook (through its cookie) makes the same arena
  obtain a block, that block drops out of the chain: counted in SpaceAllocated(), never
  given back, its cleanups never run (`C90_newblock_leaks_refuted`).
* A13 `Create<T>` and `CreateArray<T>` request the default alignment 8 instead of
  `alignof(T)`: objects of a type with a larger alignment are constructed at
  misaligned addresses (`C97_create_refuted`, `C97_array_refuted`).
* A14 the create-only tag is inherited: a class with a destructor of its own that
  publicly derives from a create-only class is not destroyed, even if it has the
  full-managed tag (`C96_inherited_refuted`). A tag declared in a private section
  is not seen at all.
* A15 the comment on `SpaceRemains()` offers it to test whether the arena will allocate
  a new block. It does not count the padding of requests aligned to more than 8
  (`C100_alignment_refuted`), and dereferences null in an arena that has no block yet
  or was moved from (`C100_empty_refuted`).
* A16 because of A6, the resource of an arena that was moved to is equal to that of
  a different arena made later at the old address, so that containers take memory of
  one arena for memory of the other (`C101_equal_refuted`). An arena whose
  `new memory_resource` failed, or that was moved from, has none:
  `get_memory_resource()` fails its assertion, and in release builds returns null
  (`C101_get_refuted`).
* M1 allocation sizes above 2^20 and lifetimes above 1000 ms are counted in no
  bucket, so the last printed percentage can stay below 100 (`C17_one_bucket`).
* M2 `report_to_global_metrics` inserts into a plain `unordered_map` from
  several threads: a data race (`C18_map_race_refuted`, `C18_race_only`).
* M3 the move constructor clears the cookie, and destroying the moved-from
  arena passes the null cookie to the destruction probe, which dereferences it
  (`C19_moved_from_refuted`).
* M4 `GlobalArenaMetrics::string()` divides by zero before the first reported
  allocation or destruction (`C20_string_refuted`), and again after every
  `reset()` (`C79_then_string_refuted`).
* M5 a `reset()` beside `string()` makes it show percentages above 100
  (`C78_reset_refuted`); the loops over the map in `string()` and `reset()` race
  with threads that report a new location (`C78_map_race_refuted`).
* M6 the additions are relaxed, so even without `reset()` string() may show 200 %
  or divide by zero: nothing makes the addition to alloc_count visible before the
  addition to the bucket (`C82_percent_refuted`, `C82_fault_refuted`).
* V1 `assign` of an empty range destroys the elements but keeps the size; the
  next use or destruction touches dead objects (`C30_empty_range_refuted`).
* V2 `assign(0, x)` fails an assertion in `construct_range_with_cref`
  (`C30_zero_refuted`).
* V3 `get_writebuffer(n)` computes the new capacity from `n` instead of
  `size() + n`: the span returned lies outside the buffer
  (`C31_write_buffer_refuted`, `C31_write_buffer_debug_refuted`).
* V4 `erase(first, last)` returns `last`, not the element after the removed
  ones (`C27_range_result_refuted`).
* V5 insert, emplace, resize, assign and erase(value) with an element of the
  vector as argument use a changed or dangling value (`C26_insert_refuted`,
  `C26_full_refuted`, `C27_own_value_refuted`); push_back and emplace_back are
  right (`C25_push_own_element`).  Exactly: with room, insert and emplace use
  what is in the slot after the gap was made (`C26_insert_in_place`; right for
  an element in front of the position, `C26_seen_right`), resize is right, and
  assign is right only for trivially copyable elements; without room the
  reference dangles in all of them (`C26_insert_grows`, `C26_resize_grows`,
  `C26_assign_grows`).  erase(value) compares with whatever lands on the slot
  (`C27_erase_own`), or reads a destroyed object unless the element is the last
  (`C27_erase_own_destroyed`).
* V6 `n * sizeof(T)` is not checked for overflow
  (`C28_reserve_overflow_refuted`), nor is `size + count` in insert
  (`C22_insert_overflow_refuted`); for `sizeof(T)` above 131072 the next
  capacity of an empty vector is 0 (`C24_large_elements_refuted`).
* V7 the malloc of a vector without a buffer is unchecked
  (`C22_reserve_failure_refuted`); when `allocate` throws, the vector is left
  with a null start and stale ends, and push_back has leaked the elements
  (`C22_push_failure_refuted`).
* V8 moved-from elements are never destroyed (`C23_moved_from_refuted`).
* V9 for a type without a move constructor that is copyable the originals leak
  at every reallocation (`C23_copied_refuted`).
* V10 for types made relocatable by `Relocatable<T>` that own something:
  push_back and insert assign to raw memory, copying duplicates ownership
  (`C22_relocatable_refuted`).
* V11 `pop_back` of an empty vector is unchecked (`C22_pop_empty_refuted`).
* V12 below the initial capacity growth can be less than 1.5-fold
  (`C24_small_refuted`).
* V13 element constructors that throw: push_back, emplace_back, growing resize,
  assign(n, x), insert and emplace at the end, assign and copy assignment with a
  new buffer or fewer copies than there were elements, and every insertion for
  types without move constructor leave a vector whose destructor runs on memory
  without objects (`C75_undefined_refuted`, `C75_assignment_partial`);
  `vector(n)`, `vector(n, x)` and the range constructor run into the same during
  their own unwinding (`C75_constructors_refuted`).  The copy constructor and
  insertion in the middle leak what they built or moved away
  (`C75_copy_constructor_partial`, `C75_destroyable_partial`).
* V14 `operator[]` of iterators takes a size_t: `it[-1]` adds 2^64 - 1 elements to
  the pointer, which is undefined although compilers let it wrap
  (`C76_negative_index_refuted`).
* V15 `copy_from_iterator` takes every random access iterator for a pointer if T is
  relocatable and copies the memory from `first.operator->()` on.  A range of
  reverse iterators leaves the elements uninitialised (`C85_reverse_refuted`); of a
  std::deque whatever lies behind its first block is copied (`C85_deque_refuted`);
  objects of another type are not converted, and memory behind them is read if they
  are smaller (`C85_other_type_refuted`).  `C85_exactly` and `C85_conversion` say
  which iterators are right.  std::contiguous_iterator with the same value type
  would be the concept to test for.

* S1 `smartRealloc`/`checkedRealloc`: when growing an unshared medium or large
  string fails, the old buffer is already gone and the string keeps pointing at
  it (`C37_usable_after_bad_alloc_refuted`).
* S2 functions declared noexcept (shrink_to_fit among others) allocate; running
  out of memory there terminates the program (`C37_noexcept_refuted`).
* S3 size computations are not checked: `append(n, c)` with n near 2^64 wraps
  and writes outside the buffer (`C34_value_semantics_refuted`).
* S4 `insert` of a piece of the string itself uses characters already moved, or
  freed memory when the string grows (`C42_insert_own_piece_refuted`,
  `C42_insert_own_piece_grow_refuted`).  PropStringOwn.v says what happens in
  every case: a shared string is right, an unshared one with room gets `taken`
  (never the piece if it is behind the position and no character occurs twice),
  one with a full buffer always reads freed memory, and a string kept in its
  object that outgrows it gets bytes of the object: the address of the new
  buffer, its length and its capacity.  append(first, last) with iterators into
  the string is insert at the end.  Arena strings do the same, but are right
  when a buffer has to grow, as an arena keeps the old one.
* S5 the non-const `data()` does not unshare: writing through it changes other
  strings (`C45_data_write_refuted`).
* S6 in debug builds (small strings off) `capacity()` of a default-constructed
  string is 23 though there is no buffer (`C48_capacity_is_room_refuted`).
* S7 `contains(string_view)` passes `data()` on as a C string and ignores the
  size (`C46_contains_view_refuted`).
* S8 the reference count is a plain `size_t`: with threads, counts get lost, a
  buffer is freed while in use or never (`C44_counting_refuted`,
  `C44_freed_once_refuted`).
* S9 `getline` on a stream that has already failed clears the failure in release
  builds, consumes a line and leaves old characters in the string; in debug
  builds an Assert fails (`C47_failed_stream_refuted`).
* S10 `operator>>` does not reset the field width (`C50_width_reset_refuted`).
* S11 copying a large string makes earlier iterators into it dangerous although
  the string is not modified: writing through one changes both strings, and
  `erase(p)` subtracts pointers into different buffers (`C73_write_refuted`,
  `C67_erase_refuted`).
* S12 `operator<<` converts the size to int32_t: from 2^31 characters on nothing
  of the string is written and badbit is set; from 2^32 on only the first
  characters are written and the stream stays good (`C71_insertion_refuted`,
  `C71_insertion_silent_refuted`).
* S13 `std::to_string` of a string stops at the first zero
  (`C72_to_string_refuted`).
* S14 CROSS_THREAD_CHECKING: the copy constructor tags the copy only if the
  original has no tag yet, so a second copy shares the buffer without a tag and
  any thread may copy and destroy it (`C81_second_copy_unchecked`,
  `C81_ordinary_refuted`); no check is made when a shared string is changed
  (`C81_change_refuted`).
* AS1 arena string `replace` with a piece of the string itself
  (`C51_replace_own_piece_refuted`).
* AS2 arena string `operator=(char)` on a shared string throws logic_error in
  debug builds, since its temporary has no arena (`C51_assign_char_refuted`); `swap` of strings with different arenas
  mixes buffers and allocators (`C52_swap_refuted`).
* Observations without a theorem: `unshare` of arena strings hands
  `decrementRefs` the size of the string instead of that of its buffer (harmless
  since the count is above one there); a `RefCounted` is taken from
  `polymorphic_allocator<char>`, so with alignment 1 (fine with Arena and
  new_delete, which align anyway); `podFill` masks the number of characters with
  the 32-bit constant `~7U` and so leaves more to its second loop than meant
  (harmless, `C84_fill`); `basic_arena_string` of wider characters does not
  compile (`static_cast<char*>` in `ArenaRefCounted::create`).
* S15 `std::hash` of strings of wider characters gives XXH the number of
  characters as the number of bytes: only the first half or quarter of the string
  is hashed, so strings that differ later always collide (`C84_hash_refuted`).
* S16 `replaceImpl` looks for aliasing only with `iterator` and `const_iterator`:
  given reverse iterators of the string itself it overwrites what it has still to
  read. `s.assign(s.rbegin(), s.rend())` makes "abc" "cbc" and reverses no text but
  palindromes (`C98_refuted`, `C98_assign_backwards`); `append` and `insert` with
  them on a full string read the freed buffer (`C98_append_refuted`).
* S17 Null pointers given as C strings: the constructor, `append`, `assign`,
  `insert`, `replace` and `compare` throw `std::logic_error`, but `find` and its
  relatives, `contains` and the comparison operators are noexcept and end the
  program (`C99_find_refuted`, `C99_operators_refuted`); so does `contains` of a
  default-constructed `string_view` (`C99_contains_view_refuted`).  `operator+`
  (except of a temporary on the left), `starts_with` and `ends_with` do not test
  (`C99_plus_refuted`, `C99_starts_refuted`).
* S18 `replace(pos, n, s, 0)` with a null pointer, and so `assign(first, last)` of two
  null pointers, form `&*s1` of it (string.hpp:2115), which is undefined although
  harmless in practice (`C102_replace_refuted`).  The other members do not touch a
  null pointer with the length 0.
* O1 `process_options`: a default value beats the environment variable, since
  defaults are entered first (`C56_env_refuted`).
* O2 `add_option` throws on a name in use after it has registered the option and
  part of its names; every later `parse_args` throws (`C54_after_report_refuted`).
* O3 "--" is accepted as an option name but no argument ever resolves to it, and
  with another prefix and a conflict handler given, "--foo" is accepted but not found (`C54_unresolved_refuted`).
* O4 an Append list stops at the first value that is no valid choice and drops
  the values after it (`C55_append_refuted`).
* O5 Count options are never marked as given, so a default or an environment
  value adds one more (`C55_count_refuted`).
* O6 a StoreTrue flag followed by a positional argument consumes it and becomes
  false; "=true" gives false as well (`C55_flag_refuted`).
* O7 an invalid choice is consumed silently: no value, not reported in
  `invalid_args` (`C57_choice_refuted`).
* O8 blank text for a numeric option yields an uninitialised value
  (`C57_undefined_refuted`).
* O9 `parse_args(vector, argv)` uses the argc of an earlier call; before any such
  call it indexes outside an empty span (`C57_vector_refuted`).
* O10 `split` drops empty pieces (`C58_empty_refuted`).
* O11 with ConflictHandler::Replace two options keep the same name
  (`C54_replace_refuted`).
* O12 `ValueStore::get<T>` is noexcept but uses `std::get`: a flag of a type other
  than bool, given an empty text, or a destination shared by options of different
  types, ends the program (`C63_flag_refuted`, `C63_get_refuted`).
* O13 `format_help` without options dereferences the end of an empty vector; an
  option without a name (accepted by `add_option({})`) makes `format_usage` take
  `front()` of an empty vector (`C64_no_options_refuted`, `C64_no_name_refuted`).
* O14 `format_usage` keeps its text: options added later, also those `parse_args`
  adds, are missing from later usage and help texts (`C64_kept_refuted`).
* O15 `parse_args` calls `add_version_option("")`, which overwrites the version the
  user set (`C64_version_refuted`).
* O16 `split` with an empty separator never ends (`C58_split_nothing_refuted`); the
  parser itself never calls it so.
* O17 (C91) `add_option` returns a reference into a stdb_vector.  It dangles when the
  vector moves: the first option's reference at the second `add_option`, later ones
  when the number of options exceeds 2, 3, 5, 8, 12, ...  (sizeof(Option) is 64 or more,
  so the vector starts with room for one).  The options parse_args adds count, too
  (`C91_kept_refuted`).
* O18 (C88) Every Option keeps a reference to the parser it was declared on
  (optparse.hpp:165), and `OptionParser` can be copied and moved.  `Option::validate`
  follows the reference for every option without a destination.  A function that
  declares options and returns its parser by value (without copy elision), or a
  parser stored in a container that grows, therefore reads a destroyed parser in its
  first parse_args; if the source is still there but was moved from, its long prefix
  is empty and parse_args throws "incomplete option".
* O19 (C94) `ValueStore::user_set` does not tell what the user gave: values from
  defaults and from the environment are entered with `set` and `append` and are marked
  as well, while `increment` marks nothing, so that it is false of every Count option
  (`C94_not_given_refuted`, `C94_count_refuted`).  O1 and O5 are consequences.

## Assumptions of the metrics model

* Probes are atomic (they touch thread_local data only); each addition of a
  report to an atomic counter is a separate step.  A map key "file:line" is an
  abstract number.  Cookies returned by the init hook are fresh heap objects.
* Executions are sequentially consistent, except in C82 (MetricsRelaxModel): there
  an execution is a graph that obeys the coherence rules of C++ for each counter
  and nothing between counters; additions have amounts that depend on the thread
  alone, so no value comes out of thin air.  C78's bound of 100 % depends on
  sequential consistency (machines with total store order are enough).

## Assumptions of the arena model

* `block_alloc` returns memory that is in user space, aligned to A in {8,16,32}
  and disjoint from blocks still held (`good_block_alloc`); it may fail at any
  time.  Block sizes in Options are multiples of 8, `normal_block_size` > 0.
* Requests are at most 2^62 bytes.
* Hooks do not call back into the arena; constructors may (`OCreate`'s body; any
  arenas and any behaviour in C92, ArenaCtorModel), and
  in C83 (ArenaReentModel) cleanup functions, in C89 (ArenaHookModel) the hooks that
  get the arena, in C90 (ArenaCallModel) the others too, may perform any requests, but do not reset, move or destroy arenas.
* `new memory_resource` in the constructor succeeds, except in C89, C90 and C101; `logger_func` and
  `block_dealloc` are installed.

## Assumptions of the vector model

* Element values are integers; constructors, assignments and comparisons of
  elements do not throw, except in VecThrowModel (C75), where constructions from
  arguments do; moves inside the buffer and assignments never do.  Five kinds of element type stand for the type traits
  the code tests.  Each vector has its own buffer; fresh buffers contain no
  objects.  `malloc` never serves 2^63 bytes or more; it may fail at any call.
* Iterator ranges and initializer lists are lists of values outside the vector;
  C85 says for which iterators that is so.  VecRangeModel has a memory of bytes for
  the objects of a range; `last.operator->()` yields an address (of the place
  behind the last object in the iterator's order); the range is outside the vector.
* Iterators (C76) are used while the vector keeps its buffer; std::reverse_iterator
  is taken from the standard.

## Assumptions of the string models

* Characters have one, two or four bytes (`CharType`): char, char16_t, char32_t
  and a wchar_t of four bytes.  Characters are unsigned; the order of wchar_t,
  which is signed on Linux, is not modelled (equality and searching do not
  depend on it).  Streams, writing, `std::hash` of
  char strings, threads and arena strings are modelled for char only.

* Little endian, 64 bit.  Heap blocks are never reused, so a stale
  pointer stays visible.  Pointer arguments are never null (but see C99, C102).
  CROSS_THREAD_CHECKING is off (StrCheckModel, C81, has what it adds).  The number of references to a buffer stays below
  2^64 (each is an object in memory).
* `malloc` may refuse any request (oracle `mal`) and never serves 2^63 bytes or
  more.  Histories allow any number of objects sharing buffers, both build modes
  and both kinds of string; excluded calls are listed in `permitted`.
* Arena strings tell "no arena" by comparing with a default-constructed allocator,
  which means the default resource of that moment; `set_default_resource` is never
  called here, and `do_is_equal` holds only of the same resource (not so of arenas
  that were moved: finding A16).
* Arena strings in an arena (C86): the block numbers of the string model get the
  addresses the arena model returned.  `Arena::memory_resource::do_allocate` returns
  null when memory runs out, although the standard wants an exception; the strings
  test for null (arena_string.hpp:59, 385, 503).  libstdc++ declares
  `memory_resource::allocate` `returns_nonnull`, so a compiler may drop that test;
  the model takes it as written.
* Threads (C44): sequentially consistent; large strings only; allocation
  succeeds there.
* Streams (C47, C50): a list of remaining characters with state bits; no badbit
  from the buffer, exceptions() off, "C" locale, skipws.
* operator<< (C71): the branch for libstdc++, `__ostream_insert` written out; a
  buffer that takes a number of characters and then refuses; exceptions() off.
* Iterators (C67, C73) are pointers into small_ or a block.
* Ranges (C98): an iterator is a reference to one character, made before the call;
  `std::copy` reads and writes one character after the other.  Its operators
  have no effect and do not throw.  The constructor from a range is `assign` on an
  empty string.  States after these calls are not part of `reach`.  Input iterators
  and pointers are operations of StrModel.v (`insert_input`, `UInsertInput`).
* Searching (C38-C40, C46, C68-C70): memory behind a pointer is a partial map from offset
  to byte; the hash is an arbitrary function of the bytes.

## Assumptions of the option parser model

* std::string and containers are lists; argv pointers are positions in it.
  Text to number conversion is written out for Int and Long; for Double it
  is an oracle on the text.
* Exceptions end a call.  What add_option and parse_args leave behind when they
  throw, and copies, moves and destruction of parsers, are modelled for C87 and C88
  (OptLifeModel.v); strings and containers that were moved from are empty, as in
  libstdc++ and libc++.  Calls on a parser that was moved from are not covered.
* Options are numbers, except in C91 (OptRefModel.v), where they are places in a
  buffer and the setters are written out.

## Not modelled

Templates and concepts (overload resolution, type traits), logging text, `fmt` formatters, source locations, C++
memory-model effects weaker than sequential consistency (but see C82), rounding of
floating-point numbers.

## Trusted base

* Coq 8.16.1's kernel and the standard library.
* `Print Assumptions` follows every theorem in `Prop*.v`; each prints "Closed
  under the global context": no axiom is used.  The checker lists seven
  parameters of `Coq.ssr.ssrunder`, which are part of the loaded standard
  library and not used by any theorem.
* That the definitions in `*Model.v` describe the C++ code.  Each cites the lines
  it models and states its simplifications; seeded errors (seeded/LOG.jsonl) test
  that the theorems notice changes to them.

## Status per property

The theorems for each property are in MANIFEST.json.

| id | title | status | note |
|----|-------|--------|------|
| C01 | Rounding a size up gives the least multiple | proved | For every N the static_asserts admit and every n whose result fits 64 bits; the wrap beyond that is exhibited by the _refuted theorem. |
| C02 | Size literals denote the exact byte count | proved |  |
| C03 | Arena allocations never overlap | partial | Requests up to 2^62 bytes. Near 2^64 the size computation wraps and the code hands out overlapping ranges (C03_huge_refuted, finding A5). |
| C04 | Arena allocations stay inside memory obtained from block_alloc | proved | C05_returned_aligned gives the range returned, C04_inside places it, C04_never_faults excludes out-of-block writes. |
| C05 | Arena pointers are aligned | proved | Alignment of cleanup records is part of C04_never_faults: constructing one at a misaligned address is Undef in the model. |
| C06 | Over-aligned arena requests stay inside the block | partial | False as stated (C06_overaligned_refuted, finding A2). Proved when the alignment is at most that of the memory returned by block_alloc. |
| C07 | Cleanups run exactly once and in reverse order | proved | Cleanup functions are assumed not to call back into the arena they are registered with. |
| C08 | Blocks are returned to block_dealloc exactly once | proved | Reset is covered by C13_reset_partial. |
| C09 | SpaceAllocated is the total size of held blocks | proved |  |
| C10 | Allocation failure is clean | partial | Proved for AllocateAligned, CreateArray, Own and the memory_resource; for AllocateAlignedAndAddCleanup and Create a failed registration consumes space (refuted, finding A7). |
| C11 | New blocks follow the size policy | proved | Stated for the operations making one request to a block; the second request of AllocateAlignedAndAddCleanup/Create goes through the same code. |
| C12 | Arena hooks report exactly what happened | proved |  |
| C13 | Reset keeps the oldest block and makes it empty | partial | Needs at least one block held; without one Reset asserts or dereferences null (C13_reset_empty_refuted, finding A4). |
| C14 | Moving an arena transfers everything once | proved | The memory_resource keeps referring to the old arena object (C14_resource_refuted, finding A6). |
| C15 | Arena::check classifies pointers correctly | proved |  |
| C16 | CreateArray reserves room for every element | partial | For products up to 2^62; on 64-bit overflow the code only logs (C16_overflow_refuted, finding A3), and products near 2^64 are granted without room (C16_wrap_refuted, finding A5). |
| C17 | Allocation histogram classifies every size | proved | Sizes above 2^20 (lifetimes above 1000 ms) fall in no bucket (finding M1); the statement is about the others, as the property says. |
| C18 | Reporting to the global metrics neither loses nor double counts | partial | The sum is conserved in every interleaving. The insertion into the shared unordered_map is itself a data race (C18_map_race_refuted, finding M2); executions that reach it are undefined and outside the theorem. |
| C19 | Metrics probes agree with the arena's history | partial | Proved for programs that do not move arenas carrying the metrics hooks; destroying a moved-from one dereferences a null cookie (C19_moved_from_refuted, finding M3). |
| C20 | Rendering metrics never faults | partial | False as stated (C20_string_refuted, finding M4: division by zero). Proved with at least one allocation and one destruction reported. |
| C21 | stdb_vector behaves like a sequence | partial | Refinement to sequences for every permitted call on any number of vectors, all five kinds of element. Excluded calls are listed in VecStatements.allowed and shown to fail in the C22/C26/C27/C30/C31 refutations (findings V1-V12). |
| C22 | stdb_vector never touches memory outside its buffer | partial | No permitted call is undefined or fails an assertion; exclusions are the refuted cases (overflowing sizes, unchecked malloc, relocatable owners, pop_back of an empty vector, broken state after a failed allocate). |
| C23 | Every element is destroyed exactly once | partial | Conservation for all counted kinds; exactly-once for copy-only elements; movable elements: no live object is abandoned but moved-from ones are (C23_moved_from_refuted), and types without a move constructor leak their originals (C23_copied_refuted), findings V8, V9. |
| C24 | Vector growth is geometric | partial | Factor 1.5 holds from the initial capacity on (C24_small_refuted below it); sizeof(T) up to 131072 (C24_large_elements_refuted, finding V6). |
| C25 | push_back and emplace_back accept references into the vector | proved | Both functions, full or not, every kind of element they compile for; push_back of relocatable owners is undefined for another reason (finding V10). |
| C26 | insert, emplace, resize and assign accept references into the vector | partial | False as stated (C26_insert_refuted, C26_full_refuted, finding V5). Proved for arguments outside the vector. For a reference to an own element every case is decided: what insert and emplace find in place of the element (C26_insert_in_place, C26_seen_right), resize in place right (C26_resize_in_place), assign in place right for trivially copyable elements and undefined otherwise (C26_assign_in_place), and undefined or thrown whenever the buffer must grow (C26_insert_grows, C26_resize_grows, C26_assign_grows). |
| C27 | erase removes exactly the range and returns the following element | partial | Contents right for all four forms and every kind; erase(first,last) returns last (C27_range_result_refuted, finding V4) and erase(value) is wrong for an own element (C27_own_value_refuted, finding V5); what it does then is decided in every case (C27_erase_own, C27_erase_own_destroyed). |
| C28 | reserve, shrink_to_fit and resize respect capacity promises | partial | Proved for requests whose byte count does not overflow and, for a vector without a buffer, whose malloc succeeds; C28_reserve_overflow_refuted, C22_reserve_failure_refuted (findings V6, V7). |
| C29 | Copies of vectors are independent, moves leave an empty source | proved |  |
| C30 | assign replaces the whole contents | partial | Proved for non-empty ranges; assign of an empty range and assign(0, x) are wrong (C30_empty_range_refuted, C30_zero_refuted, findings V1, V2). |
| C31 | get_writebuffer and fill stay within the buffer and append | partial | fill proved; get_writebuffer proved when the elements fit, false otherwise (C31_write_buffer_refuted, finding V3). |
| C32 | Vector comparison is the lexicographic order | proved | Element comparison is the order of the integers standing for the values. |
| C33 | The three string representations are unambiguous | proved | Includes the word-wise copy of release builds, whose over-read has no influence on what is stored (C33_words_decode). |
| C34 | Strings have value semantics under any sharing | partial | Refinement to independent sequences for every history of permitted calls, any sharing, both build modes, failing allocations. Excluded: insert of a piece of the string itself (C42) and counts of 2^62 and more (C34_value_semantics_refuted, finding S3). |
| C35 | String memory is freed exactly once and never used afterwards | partial | Counts, liveness and absence of leaks in every state; no undefined behaviour except after a failed realloc. Same exclusions as C34. |
| C36 | Strings are always null terminated with size <= capacity | proved |  |
| C37 | A failed allocation leaves strings usable | partial | False as stated: a failed realloc leaves the string dangling (C37_usable_after_bad_alloc_refuted, finding S1) and noexcept functions terminate (C37_noexcept_refuted, finding S2). Proved for every other failing allocation that throws. |
| C38 | Substring search finds the first and last occurrence | proved | All overloads reduce to the ones stated; a null pointer as argument is the subject of C99. |
| C39 | Character set searches are exact | proved |  |
| C40 | String comparison is a total order consistent with equality and hash | proved | Characters are compared as unsigned bytes (memcmp); hash is any function of the characters and the size. |
| C41 | append and assign accept pieces of the string itself | proved |  |
| C42 | insert and replace accept pieces of the string itself | partial | replace proved; insert is false as stated (findings S4) and characterised: right for a shared string, wrong text in place when the piece starts behind the position, use of the freed buffer when an unshared buffer has to grow, and bytes of the object itself (address, length, capacity) when an inline string outgrows it. |
| C43 | insert, erase, replace, resize, substr compute the standard result | proved | Counts of characters to write below 2^62; positions and lengths to erase are any 64-bit value. |
| C44 | Concurrent copies and destruction of shared strings are safe | partial | Proved when incrementRefs and decrementRefs are single steps (the std::atomic version in the comments, or one cpu). The code uses a plain size_t; with load and store as separate steps the property is false (C44_counting_refuted use after free, C44_freed_once_refuted leak; finding S8). |
| C45 | Writing through data() affects only that string | partial | False for shared strings (C45_data_write_refuted, finding S5); proved for unshared ones. |
| C46 | contains agrees with find | partial | contains(string_view) ignores the size of the view and is false as stated (C46_contains_view_refuted, finding S7); proved for views followed by a zero and without zeros, and for the other overloads. |
| C47 | getline reads exactly one line of any length | partial | Streams that are good when the call starts; on a failed stream the call goes wrong (C47_failed_stream_refuted, finding S9). |
| C48 | reserve and capacity | partial | reserve and shrink_to_fit proved for n < 2^63; appending in place proved except for strings without a buffer in debug builds, where capacity() reports 23 (C48_capacity_is_room_refuted, finding S6). |
| C49 | Concatenation operators | proved | All overloads including a + std::move(a). For a moved left operand with room no memory is requested. |
| C50 | Formatted extraction reads one word | proved | The width stays set after the call, unlike std::string (C50_width_reset_refuted, finding S10); the property does not speak about it. |
| C51 | Arena strings have value semantics | partial | As C34; excluded are also replace with a piece of the string itself and operator=(char) (refuted, findings AS1, AS2). Insert of an own piece is characterised in every case; on an arena it is right when the buffer has to grow. |
| C52 | Arena strings never release arena memory to the heap | partial | False as stated: swap of strings with different arenas and aliased replace (C52_swap_refuted, C51_replace_own_piece_refuted). Proved for one memory resource (an arena, or in release builds the default one) and the calls permitted in C51. |
| C53 | Unrecognised arguments are kept in order | proved | argc below 2^31 (it is an int). The reading of a command line is a grammar in OptSpec.v, total and unambiguous. |
| C54 | Option names resolve uniquely | partial | Proved for histories in which add_option did not throw and the default ConflictHandler::Error. After a reported duplicate the new option stays (C54_after_report_refuted, finding O2); Replace allows sharing by design (last one wins); "--" alone and "--x" with another prefix are accepted but never found (C54_unresolved_refuted, finding O3). |
| C55 | Actions store what the command line says | partial | Proved for options with a destination of their own and uses that give a value. A list stops at the first text that is no choice (C55_append_refuted), Count adds one for a default or environment variable (C55_count_refuted), and a flag followed by another argument takes it as its value (C55_flag_refuted); findings O4 to O6. |
| C56 | Command line beats environment beats default | partial | False: the default comes before the environment (C56_env_refuted, finding O1). Proved: the command line comes first, and the environment is used when there is no default. |
| C57 | Every argument is consumed at most once and parsing terminates | partial | No read beyond the arguments or argv, termination, and one role for each argument are proved for parse_args(int, const char**). A rejected choice is taken away (C57_choice_refuted), the overload taking a vector reads argv out of range (C57_vector_refuted), and other undefined behaviour is possible (C57_undefined_refuted); findings O7 to O9. |
| C58 | name=value splitting and list splitting are exact | partial | Proved for every separator that is not empty. False for empty pieces left out by skip_empty (C58_empty_refuted), which is how the parser calls split; with an empty separator split never ends (C58_split_nothing_refuted). |
| C59 | Vector move-forward/backward compaction is overlap safe | proved | Right shifts of relocatable owners excluded (finding V10). |
| C60 | Out-of-range access is rejected | proved | vector at() is checked by Assert only; in release builds it refers to memory without an element (C60_vector_at_release_refuted). Safe mode is read as assertions on. |
| C61 | Option texts are read as the values they spell | proved | Floating point values are an oracle on the text without blanks. A blank text is undefined behaviour (finding O8). |
| C62 | A parser can be used again | proved | Invalid arguments and option lists are compared too; the version text is not (see C64_version_refuted). |
| C63 | Typed access gives the value stored | partial | Proved for options with a destination of their own and flags of type bool. False otherwise: C63_get_refuted, C63_flag_refuted (finding O12). |
| C64 | Usage and help texts | partial | Texts exact, alignment exact. False: no options or an option without a name is undefined behaviour (C64_no_options_refuted, C64_no_name_refuted), the usage text is kept when options are added (C64_kept_refuted), parse_args forgets the version (C64_version_refuted); findings O13 to O15. |
| C65 | parse_args returns exactly when the options are complete and the values can be read | partial | C65_returns and C65_needed differ in this: the first also asks that counted destinations are not shared (C65_shared_refuted shows why) and that defaults and environment variables can be read even when not needed. C95_exactly closes the gap. |
| C66 | String overloads agree with their definitions on sequences | proved |  |
| C67 | Iterator members return the right position | partial | Proved for iterators into a string whose characters no other string shares, which is what every one of these members returns. False once the string was copied after the iterator was taken (C67_erase_refuted, finding S11). |
| C68 | Reading a string | proved | front and back of an empty string and operator[] beyond size() are outside. |
| C69 | starts_with and ends_with | proved |  |
| C70 | Comparison with std::string | proved |  |
| C71 | operator<< writes the string | partial | Proved below 2^31 characters. False from there on: C71_insertion_refuted, C71_insertion_silent_refuted (finding S12). |
| C72 | Conversions keep all characters | partial | Views and toStdString exact. std::to_string stops at the first zero: C72_to_string_refuted (finding S13). |
| C73 | Iterators stay valid while the string is not modified | partial | Proved while no other string shares the characters. False after a copy: C73_write_refuted (finding S11). |
| C74 | Arena strings on the default resource give back what they took | partial | Counts, no leak and sizes given back proved for all histories of permitted calls; excluded are insert of a piece of the string itself and counts of 2^62 and more. |
| C75 | Vectors whose element constructors throw | partial | For elements with constructors and destructors of their own. False for most calls: C75_undefined_refuted and C75_constructors_refuted show for which exactly (finding V13). Proved: the exception is reported, and after an insertion in the middle (and assign in place once as many elements are copied as there were) the vector can be destroyed, with the exact number of objects that leak. Moves of elements inside the buffer do not throw; the undefined outcome is proved for vectors holding no moved-from object behind their end. |
| C76 | Vector iterators are positions | partial | False for negative indices (C76_negative_index_refuted, finding V14), proved otherwise. |
| C77 | Appending to strings asks for memory logarithmically often | proved | Appending means append, operator+= and push_back with characters or pieces of any string; calls that end in bad_alloc are not counted. |
| C78 | string() of the global metrics beside reporting threads | partial | Proved without reset(), for sequentially consistent executions and histories of fewer than 2^64/100 probes. With reset() beside it a percentage above 100 is possible (C78_reset_refuted), and the loop over the map races with new entries (C78_map_race_refuted); findings M2, M5. |
| C79 | reset() of the global metrics beside reporting threads | partial | The sums and the uninterrupted call are proved. After it string() divides by zero (C79_then_string_refuted, findings M4, M5). |
| C80 | An arena holds memory in proportion to what it was asked for | proved | C80_lost_refuted shows why block_alloc must not have failed: space taken by AllocateAlignedAndAddCleanup before a refused registration stays taken (finding A7). |
| C81 | The thread checks catch counts used by several threads | partial | False of ordinary strings: a copy of a string that is tagged already gets no tag (C81_ordinary_refuted, C81_second_copy_unchecked, finding S14); false of both kinds when another thread changes a string, as unshare is not checked (C81_change_refuted). Proved for arena strings changed only by their own thread, and for ordinary strings if large ones are moreover copied at most once. No false alarm within one thread. |
| C82 | The global counters under relaxed memory order | proved | Executions are graphs with a modification order per counter and coherence (C++ [intro.races]); no order between counters is assumed. C82_percent_refuted and C82_fault_refuted show that the bound of 100 % of C78, which is about interleavings, does not survive: string() can show 200 % or divide by zero without reset(). Not modelled: the map of locations and reset(). |
| C83 | Cleanups that use the arena | partial | False as stated (finding A9): C83_older_refuted (use after free), C83_leak_refuted (block never given back), C83_lost_cleanup_refuted. Proved: Reset() of an arena with one block, the destructor and Reset() of several blocks when only cleanups kept in the newest block use arenas (C83_destroy_partial, C83_reset_partial), exactly which blocks are lost, that the other arenas keep their blocks and gain those they obtained, and that the model agrees with that of the other properties when no cleanup uses an arena (C83_conservative). Reset() of any number of blocks is proved to lose no block when only cleanups kept in the oldest block use arenas (C83_reset_oldest_partial). Cleanups that use only arenas other than the one running them are safe in any block: every call completes, the destructor and Reset() do exactly what they should, and every property in `sound` holds throughout such executions (C83_elsewhere_*_partial). Not covered: Reset() when arena-using cleanups are in the newest and in the oldest block and use their own arena. |
| C84 | Strings of wider characters | partial | False of std::hash (C84_hash_refuted, finding S15): it covers half or a quarter of the characters. The rest is proved, with the calls C34 excludes excluded. The theorems of C33-C38, C39, C41-C43, C45, C46, C48, C49, C60, C66-C70, C73 and C77 hold for all widths as well ([ChT] in their statements). |
| C85 | Range calls of stdb_vector copy what the iterators yield | partial | False of random access iterators that do not refer to contiguous ascending objects of type T (C85_reverse_refuted, C85_deque_refuted, C85_other_type_refuted, finding V15); C85_exactly and C85_conversion say for which they are right. The rest is proved, with the calls C21 excludes excluded. |
| C86 | Arena strings in an arena | proved | The models of C51 and C03 run together; the requests of every function form a tree (StrAskProofs), so the strings behave as with an oracle that gives the answers of the arena. Requests of more than 2^62 bytes count as refused without asking the arena; C86_big_request shows the arena refuses them when block_alloc gives no such blocks. |
| C87 | A parser after parse_args threw | proved | C87_parse says that the parse_args of this model, which keeps what is left after a throw, is that of the other properties. |
| C88 | Parsers are values | partial | False for options without a destination whose first parse_args comes after the parser they were declared on was destroyed (C88_destroyed_refuted: a dangling reference is followed) or moved from (C88_moved_from_refuted: throws); finding O18. Proved for all other sequences, in particular when every option has a destination (C88_with_destinations), which all have after a parse_args that returned (C88_settled). |
| C89 | Metrics hooks that use the arena | partial | False as stated (findings A10, A11): C89_reset_grows_refuted, C89_destroy_leaks_refuted, C89_cookie_reused_refuted, C89_cookie_dangles_refuted. Proved for hooks doing any requests: every call completes (C89_progress), what construction, Reset() and destruction do exactly (C89_init, C89_reset, C89_destroy; of the cleanups the hook registers before the last block it obtained, C89_reset says only that an initial part is run), and that everything holds as long as no reset or destruction hook makes its own arena obtain a block (C89_sound_partial). Not covered: hooks that reset, move or destroy arenas, and cleanups that use arenas at the same time (C83). |
| C90 | Allocation and block hooks that use arenas | partial | False as stated (finding A12): C90_newblock_leaks_refuted: a block that on_arena_newblock makes its own arena obtain is lost. Proved for allocation hooks using any living arenas, their own included, and block hooks using any living arenas but their own, together with the hooks of C89: C90_progress_partial, C90_request_partial, C90_sound_partial; C90_conservative: without such hooks the model is that of C89. Not covered: hooks called by requests of hooks (they are events), hooks that reset, move or destroy arenas, and block hooks that use their own arena without making it grow. |
| C91 | References returned by add_option | partial | False of references kept for later (C91_kept_refuted, finding O17): the second add_option makes the first reference dangle. Proved: exactly how long a reference may be used (C91_valid, C91_dangles), what setters through it do meanwhile (C91_sets), and that setters in the same expression are always right (C91_chain). C91_vector says the capacities are those of the vector model. help() is left out, memory does not run out. |
| C92 | Constructors that use arenas | proved | Constructors are programs that see the result of every request; they do not throw (Create and CreateArray are noexcept), reset, move or destroy arenas. When the record of the destructor cannot be stored Create returns null although the constructor has run: finding A7, C10_cleanup_space_refuted. |
| C93 | ValueStore keeps what it is told | proved | C93_determined: value and list are unique. std::map and std::set are association lists; memory does not run out. An int overflow in increment is undefined behaviour (C93_undefined says when). |
| C94 | user_set tells what the user gave | partial | False as stated (finding O19): C94_not_given_refuted (a default or environment value counts as set by the user), C94_count_refuted (an option that counts never does). Proved: user_set says that there is a value at all, never misses one given, and is exact without a default and an environment text (C94_value_partial, C94_given_partial, C94_count_partial). For options that share a destination see C95: user_set says whether one of the calls marks the key. |
| C95 | parse_args finds exactly what is said, whatever destinations are shared | proved | The calls and the values are unique (C95_determined). C95_store also holds after calls that threw. This is what the code does; that the defaults come before the environment and that counting does not mark is at odds with C56 and C94 (findings O1, O5, O19). |
| C96 | Objects are destroyed as their types say | proved | Types are described by what the traits look at; several direct bases and virtual bases are not modelled. The tag is inherited: C96_inherited_refuted shows a class with a destructor, declaring no tag, that is never destroyed (finding A14). That Create which returns null may have built an object that is never destroyed is finding A7. |
| C97 | Objects are aligned for their type | partial | False of alignments of 16 and more (C97_create_refuted, C97_array_refuted, finding A13): Create and CreateArray request the default alignment 8. Proved for alignments up to 8. |
| C98 | A range of forward iterators puts what it shows | partial | False of ranges that refer to the unshared string itself (finding S16): C98_refuted (assigning "abc" from its reverse iterators gives "cbc"), C98_append_refuted (undefined behaviour). Proved whenever no iterator refers to the string itself or its buffer is shared (C98_shown_partial). Of its own characters: exactly what comes out of assign and replace by at most as many characters, and of insert and append with room (C98_*_in_place), of assign(rbegin(), rend()) for every text (C98_assign_backwards, C98_mirrored_wrong). Not described: own characters when the buffer grows, or replacing by more characters than there were. Iterators whose operators have effects or throw are not modelled. |
| C99 | A null pointer given as a C string is reported | partial | False as stated (finding S17): the members that search, contains and the comparison operators end the program (C99_find_refuted, C99_operators_refuted, C99_contains_view_refuted), operator+ except of a temporary on the left and starts_with and ends_with have undefined behaviour (C99_plus_refuted, C99_starts_refuted), for every string. Proved for the constructor, append, assign, insert, replace, +=, = and + of a temporary (C99_written_partial) and compare (C99_compare). Other pointers: the calls are those of the other properties (C99_text, C99_read_text), and the comparison operators, with the pointer on either side, compare the texts (C99_operators_text). A null pointer with a length of 0: C102. |
| C100 | SpaceRemains() tells whether a request makes the arena ask for a block | partial | False of requests aligned to more than 8, where the padding is not counted (C100_alignment_refuted), and of an arena without a block, where SpaceRemains() dereferences null (C100_empty_refuted): finding A15. Proved for all other requests, and for larger alignments with room for the worst padding. |
| C101 | Every arena has a memory_resource of its own, equal only to its own | partial | False of arenas that were moved to, whose resource names the old address (C101_own_refuted) and so can be equal to that of another arena made there (C101_equal_refuted), and of arenas that were moved from or whose new memory_resource failed, which have none (C101_get_refuted): finding A16. Proved of arenas that were constructed, not moved to, and have one; of all arenas exactly what the resource names and which are equal (C101_origin, C101_equal_origin). That no resource is deleted twice, and each is once the arena having it is destroyed, holds for all arenas. |
| C102 | A null pointer with the length 0 is the empty text | partial | False of replace, which forms &*s1 of the null pointer (C102_replace_refuted, finding S18; compilers are likely to let it pass), and of contains, which takes the length again (C99_contains_view_refuted). Proved for all other calls; the constructor, append and assign do not use the pointer at all (C102_unused, C102_same_partial). |

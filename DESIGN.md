# A Rocq model of ariadne-cps/helper

## 1. Approach

The library is header-only C++20 (plus `src/stack_trace.cpp`).  Each header is modelled by a
shallow embedding: C++ functions become Gallina functions in a small state/exception monad
(`Base.v`) whose results are

* `Ret a s`   – normal return of `a` in state `s`;
* `Exc e s`   – a C++ exception leaving the function, with the state at the throw point;
* `Ub r`      – undefined behaviour (a distinct outcome, with a reason);
* `Abort`     – `abort()` / failed `assert`;
* `Fuel`      – the loop ran out of fuel (never a normal result; theorems exclude it explicitly,
                and divergence theorems say that *every* amount of fuel gives `Fuel`).

The macros of `macros.hpp` and `test.hpp` are text: they are functions from syntax to syntax over a
small C++ statement language with scopes, static locals, exceptions and streams, whose interpreter
(`exec`, MacroModel.v) has the outcomes `Norm`, `Thrown`, `Undef` (undefined behaviour) and `Ill`
(the program does not compile).

Files come in fours: `XModel.v` (definitions only, citing the lines of `/repo` they render),
`XSpec.v` (the independent, short specification), `XProofs.v` (lemmas; some components have
further proof files), `XProps.v` (theorems closed by one `exact`, each followed by
`Print Assumptions`, and `Example`s meeting the hypotheses in a non-trivial case).

Where the unchanged code violates the property as a user would state it, the property text is kept,
a theorem `..._refuted` gives a witness (or shows that *every* instance of a class fails), and the part
that does hold is proved under the suffix `_partial`.  The manifest status is then `partial`.

## 2. Trusted base

* **Coq 8.16.1's kernel** (and the `coqc`/`coqchk` binaries).
* **Axioms: none.**  `Print Assumptions` under every theorem of the `*Props.v` files prints
  "Closed under the global context".  No axiom, parameter, admitted goal, section-less variable, functor,
  module type or plugin occurs in the development.  (Loading the standard library's `ssreflect`-free
  modules also loads `Coq.ssr.ssrunder`, whose abstract constants no theorem depends on.)
* **The reading of the C++ source** as Gallina: each model definition names the file and lines it
  renders.  No tool checks this correspondence; it rests on reading, on the `Example`s, and on the mutation
  tests of section 6.
* **The semantics of the C++ language and standard library** written into the models where the code
  uses them: section 3 lists them.

## 3. What is modelled, how it is simplified, what is not modelled

| source | model | simplifications | not modelled |
|--------|-------|-----------------|--------------|
| lru_cache.hpp (all) | LruModel.v (LruSyncModel.v for threads, LruRefModel.v for arguments that refer into the cache, LruLifeModel.v for the objects made): `std::map` as a sorted association list whose nodes have addresses; every member function | one label order; ages are natural numbers (never near 2^64, since they stay below the capacity); a label comparison that throws in insert counts as a failing put, one that throws in find has no effect | |
| array.hpp 52–221 Array | ArrayModel.v: heap of blocks with raw/constructed cells, byte counts modulo 2^64, a schedule for failing allocations and element operations. FillModel.v: the overloads of fill. AlignModel.v: addresses of the elements, also for SharedArray. ArrListModel.v: lists of arrays | one element type per program; destructors do not throw; generators are functions of the index | `std::initializer_list` lifetime (its elements are a list) |
| array.hpp 223–247 SharedArray | SharedModel.v (SharedSyncModel.v for threads): heap with pointer offsets, default-initialised (indeterminate) scalars | `new T[n]` fails only by schedule; iterators by reading begin..end | |
| array.hpp 249–260 complement | ArrayModel.v | | |
| container.hpp List, Set, Map and functions | ListModel.v, SetModel.v, MapModel.v over StdOrd.v: `std::vector` as list, `std::set`/`std::map` as sorted lists for an arbitrary strict weak order; named variables make aliasing visible. LinkModel.v: which calls of append and concatenate compile. ImageModel.v: apply on a Set. OverModel.v: the choice among the constructors of List, LinkedList and Array for one value, and for a number and a value. LiftModel.v: containers made from containers of other elements. RangeAlgoModel.v: ranges in the standard algorithms. InitModel.v: containers made from braces. FreeModel.v: argument deduction of the functions on lists and sets. CalleeModel.v: what may be passed to apply and elementwise. MakeModel.v: the choice among overloads of make_array, make_list, Map::insert, apply. CallModel.v: apply and elementwise with functions that use the list or point at its elements. BraceModel.v: calls with braced lists. ConvModel.v: conversions between vectors, lists, sets and strings, and Set::remove of them. PrintModel.v: lookup of the printing operators | copying elements does not throw, except in FailModel.v, where every call of a standard container may; 32-bit loop counters are kept | `std::initializer_list` lifetime |
| container.hpp, stlio.hpp printing; stlio.hpp reading | StlioModel.v over StreamModel.v: input stream = consumed text, text to come, state bits; output stream = text, boolalpha. MaskModel.v: the same reading code, and that of words, with an exception mask and the variable read into. OutModel.v: the printing code with state bits, exception mask, width and a device that may fail. FpioModel.v: elements that are floating-point numbers, except negative zero | skipws, "C" locale, no width; element printers/readers arbitrary | flushing; adjustment "internal" |
| binary_word.hpp 91–238 | WordModel.v: `vector<bool>` as list of bits; int and size_t conversions kept. WordAppendModel.v: overloads of append. WordCompareModel.v: the comparisons | `StringType`/`StringStream` (undefined in this repository) taken as std::string/stringstream | |
| range.hpp (all) | RangeModel.v: 64-bit wrapping arithmetic | | |
| iterator.hpp 58–145 | DerefModel.v: PairIterator's dereference and distance_to. PairTextModel.v: operator<< of PairIterators of pointers. AlgoModel.v: which operators there are, and standard algorithms over them. IterModel.v: facade over an arbitrary core; MixModel.v: operators between two classes of iterators; ptrdiff_t in [-2^63,2^63); PairIterator | | operator<< for PairIterators of classes |
| variant.hpp, variant.inl.hpp, metaprogramming.hpp 57–71 | VariantModel.v: the seventeen switch overloads, type lists. VisitModel.v: const and other call operators of the visitor | an alternative is an abstract type with a code | the remaining aliases and concepts of metaprogramming.hpp (renamings of type traits) |
| metaprogramming.hpp 89–113, 180–184 | ArithModel.v: the types of arithmetic expressions for built-in types; CanModel.v: concepts and types for class types | | wchar_t, charN_t, enumerations |
| metaprogramming.hpp 74–77 | ResultModel.v: function types and their parameters | callees are tables of argument types | |
| metaprogramming.hpp 114–131, 172–173 | MetaModel.v: invocability traits over described types | the abilities of the types are a parameter | array and function types as results; other numbers of arguments |
| string.hpp | StringModel.v: to_string of values of printable types; c_str with temporaries. NumStrModel.v: to_string of floating-point numbers, except negative zero. StrAssignModel.v: initialisation and assignment | any change of a string invalidates pointers into it | class_name |
| handle.hpp 62–180 | HandleModel.v (HandleMakeModel.v for the choice of constructor and make_handle, CastModel.v for the choice between the overloads of the casts, ReportModel.v for the text of failing ones): `shared_ptr` heap with counts, raw references, base-subobject relation | Threads: ThreadModel.v, interleaved memory actions, sequential consistency plus explicit data races | |
| writable.hpp 54–98 | WriterModel.v: writers over HandleModel, objects and temporaries; binding rules of stream parameters | `_write` gives a text and does not throw | |
| lazy.hpp | LazyModel.v: over the same heap, function with own and outside state. Functions that call Lazy objects: LazyDepsModel.v. Threads: LazyThreadModel.v, as for handles | functions call Lazy objects only in LazyDepsModel.v, where the variables are not copied; threads only call and read, a call of the function is atomic | |
| stopwatch.hpp | StopwatchModel.v: clock readings as an arbitrary sequence; 64-bit durations; double seconds with round-to-nearest (FloatProofs.v). WatchMoreModel.v: duration<double>, and the time of day as clock | units with 64-bit integral representation, duration<double> | other representations |
| randomiser.hpp | RandomModel.v: engine as state machine, distributions as decision trees over engine outputs. OwnModel.v: ownership through pointers | seeding arbitrary; one translation unit except in RandomUnitsModel.v. Threads: SyncModel.v, interleaved memory actions, sequential consistency plus explicit data races, one mutex | the standard distributions' algorithms (uniformity is not expressible here) |
| macros.hpp | MacroModel.v; UsingModel.v for HELPER_USING_CONSTRUCTORS; ArgsModel.v: how calls are split into arguments; PlaceModel.v: the replacements as statements | values are integers; arguments are parsed expressions (GroupModel.v has them as texts, for HELPER_TEST_WITHIN and the messages); `#e` text passed separately; streams do not fail; operand order a parameter. Threads: SyncModel.v for the reports; an insertion into std::cerr is atomic | HELPER_PRETTY_FUNCTION's text |
| test.hpp 41–578, the `main` of test/*.cpp | TestModel.v; ArgsModel.v and PlaceModel.v as for macros.hpp; NamedModel.v: HELPER_CURRENT_TESTING_CLASS (constant in TestModel.v) | as macros.hpp; flush has no effect. Threads: SyncModel.v for the counter only | |
| test.hpp 599–607 HELPER_CLEAN_TEST_VECTOR | CleanModel.v | destructors do not throw | |
| test.hpp 584–596 HELPER_TEST_GRID_TREE_SUBPAVING_ITERATOR | TreeModel.v | elements are integers; the iterators, whose class is not in this repository, go once through the elements; the number is not negative | |
| tuple.hpp | TupleModel.v: environments of variables; order of assignment a parameter; TupleMoreModel.v: assignments that throw, get_first ... get_fifth | one value type | |
| stack_trace.cpp | TraceModel.v: addresses, symbols, dladdr and demangler as an oracle record; TraceMemModel.v: the blocks allocated, insertions that throw | | |

## 4. Per property

The full statements are in `properties.jsonl`, the theorem names also in `MANIFEST.json`.

| id | property | status | how it is modelled and proved; what is missing | theorems |
|----|----------|--------|------|------|
| C01 | LRUCache behaves as a bounded recency list | proved | Map of nodes; refinement to a recency list by induction over call sequences. Refinement to a recency list for every capacity, strict weak order and call sequence. | `C01_lru_refines_recency_list` |
| C02 | LRU ages are always a permutation of 0..size-1 | proved | Map of nodes; refinement to a recency list by induction over call sequences. Stated through has_label/age/current_size only. | `C02_lru_ages_are_permutation` |
| C03 | LRU put evicts exactly the least recently used label, and only when full | proved | Map of nodes; refinement to a recency list by induction over call sequences. Last use is computed from the observable call history. | `C03_lru_evicts_least_recently_used` |
| C04 | LRU rejected calls throw and leave no trace | proved | Map of nodes; refinement to a recency list by induction over call sequences. Each rejected call returns the unchanged state, so every continuation is the same. | `C04_lru_rejected_calls` |
| C05 | A reference returned by LRU get stays valid until its label is evicted | proved | References are node addresses; invariant over histories. References are node addresses; reading a removed node is an error in the model. | `C05_lru_reference_stays_valid` |
| C06 | LRU put leaves a usable cache when storing the value fails | partial | A failure bit at the insertion inside put; simulation by a list of slots with gaps. The property as stated is false of the code: put ages and evicts before the insertion that can throw; every failure that leaves an element can be continued to undefined behaviour. Proved: the exact behaviour of all histories with failing puts. | `C06_lru_put_failure_refuted`, `C06_every_failure_refuted`, `C06_lru_put_failure_partial`, `C06_lru_failing_histories_partial` |
| C07 | LRU put accepts a value that refers into the cache | partial | References are node addresses; invariant over histories. The property as stated is false of the code when the reference designates the victim; exact condition proved. | `C07_lru_put_reference_refuted`, `C07_lru_put_reference_partial` |
| C08 | Arrays are independent values | partial | Heap of blocks; simulation of the independent-sequences semantics (ArraySpec) by induction over programs, with failures. The code violates the property for a.assign(first,last) with a range inside a itself (refuted for every array of at least two elements). For all other well-formed programs over any number of variables, with all operations and even with failing allocations and element operations, the model returns exactly the outputs and contents of the independent-sequences semantics; excluded are only failing copy assignments and reallocates that change the size (C14). | `C08_independent_values_partial`, `C08_independent_values_refuted` |
| C09 | Array storage is released exactly once and nothing leaks | partial | Heap of blocks; simulation of the independent-sequences semantics (ArraySpec) by induction over programs, with failures. The code violates the property: move assignment leaks the old storage and elements of its target (refuted for every size). Proved: no leak for all programs without move assignment, placement new and failures; in general the leaks are exactly those the sequence semantics counts. | `C09_no_leak_refuted`, `C09_no_leak_partial`, `C09_exact_losses_partial` |
| C10 | Array resize keeps the common prefix, even when the filler is an element of the array itself | proved | Exact result of the member function in every state satisfying the heap invariant. Sizes whose storage operator new can provide; failure cases are in C14. | `C10_resize` |
| C11 | Checked access at() accepts exactly the valid indices | proved | Exact result of the member function in every state satisfying the heap invariant. Reading and writing through at(). | `C11_at`, `C11_at_write` |
| C12 | Array equality is equality of contents | proved | Exact result of the member function in every state satisfying the heap invariant. | `C12_equality` |
| C13 | A failing Array constructor releases what it acquired | partial | Failure schedule at every allocation and element operation; induction over the construction loop. The code violates the property: for every element-creating constructor, length and failing position the block and the elements before it leak. Holds when the allocation itself fails. | `C13_failing_constructor_refuted`, `C13_failing_allocation_partial` |
| C14 | A failing Array assignment or resize leaves the array destructible | partial | Failure schedule at every allocation and element operation; induction over the construction loop. The code violates the property for copy assignment between different sizes and for reallocate: after any failure the destructor is undefined behaviour. Holds for resize (all contents kept) and same-size assignment. | `C14_failing_assignment_refuted`, `C14_failing_reallocate_refuted`, `C14_failing_resize_partial`, `C14_failing_same_size_partial` |
| C15 | Array construction of any size either throws or provides room for all elements | partial | Direct execution in an arbitrary state. The code violates the property: n*sizeof(T) wraps modulo 2^64 (refuted for every element size from 2 bytes on). Holds when n*sizeof(T) is below 2^64. | `C15_enough_storage_refuted`, `C15_enough_storage_partial` |
| C16 | Array assign(first,last) stores the range | partial | Direct execution in an arbitrary state. The code violates the property for every nonempty proper subrange of the array itself (reads freed storage). Holds for ranges outside the array and for ranges of the same length. | `C16_assign_own_range_refuted`, `C16_assign_partial` |
| C17 | Array reallocate(n) yields n default-constructed elements | partial | Direct execution in an arbitrary state. The code violates the property when n equals the present size (nothing happens). Holds when the size changes. | `C17_reallocate_refuted`, `C17_reallocate_partial` |
| C18 | complement(nmax,vars) lists the missing indices | proved | Loop invariant with bounds-checked writes; exact iff. | `C18_complement`, `C18_complement_otherwise`, `C18_twice` |
| C19 | SharedArray copies share elements and the count tracks the sharers | proved | Counting invariant over histories of SharedArray operations. For every history without destruction over fewer than 2^64 variables, scalar and class element types; allocation failures excluded. | `C19_shared_history` |
| C20 | SharedArray destruction is well defined and frees the storage of the last owner | partial | Counting invariant over histories of SharedArray operations. The code violates the property in every state: the destructor decrements the pointer _count and reads out of bounds. No positive part holds. | `C20_destruction_refuted`, `C20_history_refuted`, `C20_failing_constructor_refuted` |
| C21 | List append/concatenate/catenate build the concatenation | proved | Induction over the loops with 32-bit counters; divergence for every amount of fuel. Second theorem: the bound on the length is needed. | `C21_list_append_builds_concatenation`, `C21_list_append_needs_32_bits` |
| C22 | Appending a list to itself doubles it | partial | Induction over the loops with 32-bit counters; divergence for every amount of fuel. False of the code: appending a list to itself iterates over a growing vector. The part that holds is proved. | `C22_list_self_append_refuted`, `C22_list_self_append_partial` |
| C23 | apply and elementwise call f once per element, in order | proved | Induction over the loops with 32-bit counters; divergence for every amount of fuel. Second theorem: with assertions disabled the mismatched call is undefined. | `C23_apply_calls_once_in_order`, `C23_elementwise_ndebug_undefined` |
| C24 | Set operations compute the mathematical set operations | proved | Sorted lists over an arbitrary strict weak order; refinement to predicates. Refinement of programs over set variables, aliased arguments included. | `C24_set_programs_refine_sets` |
| C25 | subset decides inclusion, as a member and as a free function | partial | Sorted lists over an arbitrary strict weak order; refinement to predicates. The free function is right; the member function tests the reverse inclusion. | `C25_member_subset_refuted`, `C25_subset_partial` |
| C26 | restrict, intersection and difference compute intersection and difference | partial | Sorted lists over an arbitrary strict weak order; refinement to predicates. All functions right except the member function restrict, which removes the common elements; right only for the empty set. | `C26_member_restrict_refuted`, `C26_intersection_difference_partial`, `C26_member_restrict_partial` |
| C27 | disjoint decides disjointness | proved | Sorted lists over an arbitrary strict weak order; refinement to predicates. | `C27_disjoint_decides` |
| C28 | unique_elements and duplicate_elements | proved | Sorted lists over an arbitrary strict weak order; refinement to predicates. | `C28_unique_and_duplicate` |
| C29 | make_list and make_set convert faithfully | proved | Sorted lists over an arbitrary strict weak order; refinement to predicates. | `C29_conversions` |
| C30 | Map behaves as a finite function | proved | Sorted association lists; refinement to partial functions. Refinement of programs over map variables, aliased arguments included. | `C30_map_programs_refine_functions` |
| C31 | insert, adjoin and join never overwrite | proved | Sorted association lists; refinement to partial functions. | `C31_map_never_overwrites` |
| C32 | Map lookups throw exactly on absent keys and never change the map | proved | Sorted association lists; refinement to partial functions. | `C32_map_lookups` |
| C33 | restrict_keys, remove_keys, keys and values | partial | Sorted association lists; refinement to partial functions. The code violates the property for a std::set that is not a Set given to restrict_keys: it is cast to Set, which is undefined. Holds for arguments of class Set; remove_keys, keys and values are proved in full. | `C33_map_key_functions`, `C33_restrict_keys_partial`, `C33_std_set_refuted` |
| C34 | Sequence printing has one format | proved | Stream model; structural induction over layouts and inputs. Agreement for arbitrary element printers; exact text for printers that append a text. Pairs and tuples included; which tuples compile is C117. | `C34_sequence_formats`, `C34_map_formats`, `C34_tuple_formats`, `C34_integer_format` |
| C35 | A printed list reads back as the same list | proved | Stream model; structural induction over layouts and inputs. Every layout with blanks, any stream state, any following text; also lists nested to any depth. | `C35_any_element_reader`, `C35_printed_ints_read_back`, `C35_printed_bools_read_back`, `C35_nested_lists_read_back`, `C35_printed_words_read_back` |
| C36 | read_sequence always terminates and never accepts a malformed list | partial | Stream model; structural induction over layouts and inputs. False of the code on blank input or a stream that is not good (indeterminate variable). Everything else proved for all inputs. | `C36_blank_input_refuted`, `C36_read_sequence_total_partial`, `C36_standard_readers_tame`, `C36_read_ints_partial`, `C36_characters_partial` |
| C37 | Printed lists of strings read back | partial | Stream model; structural induction over layouts and inputs. False of the code: every printed non-empty vector of strings throws when read. Holds if a blank follows every string. | `C37_printed_strings_refuted`, `C37_spaced_strings_partial` |
| C38 | BinaryWord operator< is the lexicographic strict total order | proved | Lists of bits and the stream model; induction. | `C38_word_order_lexicographic` |
| C39 | is_prefix and is_subword decide prefix and contiguous-subword inclusion | proved | Lists of bits and the stream model; induction. | `C39_prefix_and_subword` |
| C40 | append, erase_prefix, set_back and bytes | partial | Lists of bits and the stream model; induction. erase_prefix fails for words of 2^31 bits or more (int size); all else proved. | `C40_erase_prefix_refuted`, `C40_modifiers_partial` |
| C41 | Appending a word to itself doubles it | partial | Lists of bits and the stream model; induction. False of the code for every non-empty word. | `C41_self_append_refuted`, `C41_self_append_partial` |
| C42 | A printed word reads back as the same word | proved | Lists of bits and the stream model; induction. | `C42_printed_word_reads_back` |
| C43 | Words written to a stream can be read back one after the other | partial | Lists of bits and the stream model; induction. False of the code at end of text and for empty words; proved for non-empty words each followed by a blank. | `C43_words_in_sequence_refuted`, `C43_words_in_sequence_partial` |
| C44 | Printing a word leaves the stream's formatting state unchanged | partial | Lists of bits and the stream model; induction. False of the code: boolalpha stays set. | `C44_print_changes_format_refuted`, `C44_print_keeps_format_partial` |
| C45 | make_binary_word is defined on every string | partial | Lists of bits and the stream model; induction. False of the code on blank strings; for every other string the result is characterised. | `C45_make_word_blank_refuted`, `C45_make_word_total_partial` |
| C46 | Iterating a Range visits range[0],...,range[size-1] in order | proved | Wrapping 64-bit arithmetic; induction on the size. | `C46_range_for_visits_all`, `C46_range_from_zero` |
| C47 | A range whose start exceeds its stop is empty | partial | Wrapping 64-bit arithmetic; induction on the size. False of the code for b<a, where the unsigned size wraps; proved for a<=b. | `C47_reversed_range_refuted`, `C47_trivial_range_partial` |
| C48 | IteratorFacade turns a lawful core into a lawful random access iterator | proved | Facade over a core record whose laws are hypotheses. | `C48_facade_lawful`, `C48_facade_round_trips` |
| C49 | CodedVariant visits the alternative it was built from | proved | Case analysis over the seventeen overloads; induction over type lists. | `C49_visits_own_alternative`, `C49_limit_is_sixteen` |
| C50 | CodedVariant aborts on a code that is not an alternative | proved | Case analysis over the seventeen overloads; induction over type lists. | `C50_unknown_code_aborts` |
| C51 | Type-list predicates | proved | Case analysis over the seventeen overloads; induction over type lists. | `C51_type_lists` |
| C52 | Handles are values: writing through one is never seen through another | proved | shared_ptr heap with counts; refinement to independent variables, invariant over programs with references. | `C52_handles_are_values` |
| C53 | A reference obtained from a handle stays valid while the handle is not assigned or destroyed | partial | shared_ptr heap with counts; refinement to independent variables, invariant over programs with references. Every non-const access clones, so a second access leaves the first reference dangling; proved for a reference used before the next access. | `C53_second_access_refuted`, `C53_held_reference_partial` |
| C54 | Writing through a held reference affects only its own handle | partial | shared_ptr heap with counts; refinement to independent variables, invariant over programs with references. False when a reference is held across a copy, or obtained by dynamic_handle_extract; proved when the reference is used at once. | `C54_write_seen_by_copy_refuted`, `C54_extracted_write_refuted`, `C54_held_write_partial` |
| C55 | dynamic_handle_cast and dynamic_handle_extract succeed exactly on the right dynamic type | proved | shared_ptr heap with counts; refinement to independent variables, invariant over programs with references. | `C55_extract_exactly`, `C55_cast_exactly` |
| C56 | Lazy evaluates its function at most once successfully | proved | Heap model and stateful function; simulation over histories. For functions that do not return a null pointer (then dereferencing is undefined). | `C56_at_most_once`, `C56_evaluated_for_good` |
| C57 | A throwing Lazy function is retried and leaves the Lazy unevaluated | proved | Heap model and stateful function; simulation over histories. | `C57_throwing_is_retried` |
| C58 | Copies of a Lazy | proved | Heap model and stateful function; simulation over histories. | `C58_copies`, `C58_copy_of_evaluated` |
| C59 | Stopwatch measures from the last restart to the last click | proved | Clock oracle; exact integer and rational arithmetic, double rounding (FloatProofs.v). For units with a 64-bit integral representation; when the count overflows 64 bits the behaviour is undefined. | `C59_last_restart_to_last_click`, `C59_always_measured`, `C59_reading_has_no_effect` |
| C60 | Stopwatch durations are non-negative and within one unit of the elapsed time | proved | Clock oracle; exact integer and rational arithmetic, double rounding (FloatProofs.v). For units that are a whole number of clock ticks. | `C60_within_one_unit`, `C60_non_decreasing`, `C60_units` |
| C61 | elapsed_seconds has the clock's precision | partial | Clock oracle; exact integer and rational arithmetic, double rounding (FloatProofs.v). False of the code: the double is computed from the truncated duration; proved up to the unit D and double rounding, and with the precision of the clock for std::chrono::duration<double>. | `C61_precision_refuted`, `C61_unit_precision_partial`, `C61_double_partial` |
| C62 | Randomisers draw from their interval and share one generator | proved | Engine as state machine, induction over interleavings of draws. For one translation unit (RANDOM_GENERATOR is static in the header) and distributions meeting the standard's contract that values lie in the interval. | `C62_in_interval`, `C62_fresh_output`, `C62_runs` |
| C63 | Assertion macros throw exactly when the condition is false | partial | Macro expansion and interpreter; execution equations for all arguments and states. False of the code: a condition naming the macro's local variable reads it uninitialised, and a failing HELPER_ASSERT_EQUAL evaluates its operands twice. Proved for conditions not naming the local variable, and for HELPER_ASSERT_EQUAL on operands without effects. | `C63_plain_macros_partial`, `C63_debug_precondition_partial`, `C63_message_macros_partial`, `C63_assert_equal_partial`, `C63_assert_equal_evaluations`, `C63_ndebug`, `C63_captured_name_refuted`, `C63_assert_equal_refuted`, `C63_values_partial`, `C63_only_values_partial` |
| C64 | HELPER_WARN_ONCE and HELPER_DEPRECATED report once per call site | proved | Macro expansion and interpreter; execution equations for all arguments and states. Each occurrence in a scope of its own; single-threaded. | `C64_once_per_site`, `C64_first_execution_warns`, `C64_later_executions_silent` |
| C65 | A guarded HELPER_WARN_ONCE reports only when its guard holds | partial | Macro expansion and interpreter; execution equations for all arguments and states. False of the code: the macro is two statements. Proved when the macro is put in braces. | `C65_guarded_does_not_compile_refuted`, `C65_guard_ignored_refuted`, `C65_braced_partial` |
| C66 | The failure counter counts exactly the failed checks | partial | Macro expansion and interpreter; induction over test programs, exact equations for each check. Refuted as stated: CALL and THROWS let exceptions outside std::exception escape uncounted, COMPARE with side effects miscounts, and a variable named ok is captured. Proved for all programs without these (names of their own, only std exceptions, effect-free COMPARE/predicate arguments), fewer than 2^31 checks. | `C66_counter_is_tally_refuted`, `C66_counter_is_tally_partial` |
| C67 | A test executable exits with status 0 iff no check failed | partial | Macro expansion and interpreter; induction over test programs, exact equations for each check. Refuted for 256 failures: the exit status is the count modulo 256. Proved: the status is the number of failed checks modulo 256, hence exact below 256 failures, for the programs of C66. | `C67_exit_zero_iff_passed_refuted`, `C67_status_partial`, `C67_exit_zero_iff_passed_partial` |
| C68 | Checks evaluate the tested expression once | partial | Macro expansion and interpreter; induction over test programs, exact equations for each check. Refuted: failing checks evaluate again for the messages, COMPARE also when passing. Proved: one evaluation for passing ASSERT/CHECK/SAME/SAME_AS/EQUAL/EQUALS/NOT_EQUAL/LESS/WITHIN, for throwing conditions, and for failing ASSERT. C68_all_evaluations_partial gives the exact sequence of evaluations of every check. | `C68_evaluated_once_refuted`, `C68_passing_once_partial`, `C68_throwing_once_partial`, `C68_assert_once_partial`, `C68_within_once_partial`, `C68_all_evaluations_partial` |
| C69 | Assigning to make_lpair/make_ltuple assigns every component | proved | Environments of variables; induction over the component list, for every assignment order. For every order in which the elements are assigned; values of one type, assignment does not throw. | `C69_lpair_assigns`, `C69_ltuple_assigns`, `C69_ltuple_from_ltuple`, `C69_lpair_from_lpair` |
| C70 | Swapping through lvalue tuples | partial | Environments of variables; induction over the component list, for every assignment order. False of the code for all different variables: both end up with the same value. Holds with make_pair on the right. | `C70_lpair_swap_refuted`, `C70_ltuple_swap_refuted`, `C70_make_pair_swap_partial` |
| C71 | stack_trace prints one line per frame and has defined behaviour | partial | Oracle record; induction over frames. False of the code: a frame without a symbol name is undefined behaviour. Proved when every frame known to dladdr has a name, and that this is necessary; for the memory see C132. | `C71_nameless_frame_refuted`, `C71_one_line_per_frame_partial`, `C71_defined_iff_named_partial`, `C71_no_memory_partial`, `C71_disabled` |
| C72 | HELPER_FAIL_MSG and HELPER_NOT_IMPLEMENTED always throw | proved | Macro expansion and interpreter; execution equations for all arguments and states. A message mentioning a variable called ss does not compile (or would name the macro's stream). | `C72_fail_msg`, `C72_not_implemented`, `C72_reserved_name` |
| C73 | HELPER_NOTIFY, HELPER_WARN and HELPER_ERROR write exactly one report | proved | Macro expansion and interpreter; execution equations for all arguments and states. | `C73_reports` |
| C74 | An object is alive exactly while some Handle owns it | proved | shared_ptr heap with counts; refinement to independent variables, invariant over programs with references. | `C74_alive_while_owned` |
| C75 | Checks report failures, and only failures, on standard error | proved | Macro expansion and interpreter; induction over test programs, exact equations for each check. | `C75_reports` |
| C76 | A failing construction is a failed check, and testing goes on | partial | Macro expansion and interpreter; induction over test programs, exact equations for each check. The code violates the property: after the trial construction inside try the variable is constructed again outside it. Proved: exactly what the macros do. | `C76_failing_construction_refuted`, `C76_two_constructions_partial`, `C76_plain_construction_partial` |
| C77 | Static checks count a failure exactly when the compile-time condition is false | proved | Macro expansion and interpreter; induction over test programs, exact equations for each check. | `C77_static_checks`, `C77_static_reports` |
| C78 | A writer's temporary prints the object by its writer as long as both exist | proved | Handle heap extended by objects and temporaries; invariant over programs. | `C78_printed_at_once`, `C78_kept_temporary`, `C78_assignment_dangles` |
| C79 | Every class with a _write function can be inserted into a stream | partial | Binding rules for reference parameters; case analysis over declarations. The code violates the property for the usual _write(ostream&) const: IsWritable tries it on a stream rvalue. Proved: exactly for which declarations it holds. | `C79_usual_write_refuted`, `C79_agreement_partial`, `C79_table_partial` |
| C80 | HELPER_CLEAN_TEST_VECTOR deletes every object once and nulls the vector | partial | Heap of objects; induction over the vector. The code violates the property for every vector with a repeated pointer (double delete). Holds otherwise. | `C80_clean_vector_refuted`, `C80_clean_vector_partial` |
| C81 | A PairIterator moves its components in step | proved | Two lawful cores; induction over the steps. distance_to is not defined and dereference does not compile in the code; they are not modelled. | `C81_pair_in_step`, `C81_pair_equal` |
| C82 | LRUCaches are values | proved | Variables holding caches; simulation by the recency lists of C01. A moved-from std::map is empty, and so is one whose copy assignment failed, as in libstdc++. | `C82_lru_caches_are_values` |
| C83 | Threads with handles of their own do not notice each other | proved | Statements split into memory actions, interleaved by an arbitrary schedule; a thread-local view with weakest preconditions and a global counting invariant (ThreadLogic.v), refinement of each thread by its sequential run (ThreadMain.v). Sequentially consistent interleaving, which the C++ memory model gives to race-free programs; use counts atomic as in std::shared_ptr. | `C83_threads_as_if_alone`, `C83_wait_free`, `C83_actions` |
| C84 | Several threads may read through one handle | partial | Statements split into memory actions, interleaved by an arbitrary schedule; a thread-local view with weakest preconditions and a global counting invariant (ThreadLogic.v), refinement of each thread by its sequential run (ThreadMain.v). The code violates the property for handles that are not const: every such access replaces the object by a clone. Holds for const accesses. | `C84_nonconst_access_refuted`, `C84_nonconst_reads_refuted`, `C84_const_access_partial` |
| C85 | The log of a test states the source texts and the values compared | proved | Texts written out in LogSpec.v; the exact evaluation lemmas behind C68 and C75 specialised to expressions with steady values. Expressions of checks are assumed to have values without effects (their evaluation order and repetition is C68). The construction macros are covered by C76 without their texts. | `C85_checks`, `C85_static_checks`, `C85_messages`, `C85_blocks`, `C85_values`, `C85_throwing` |
| C86 | An LRUCache in front of a function is transparent | proved | A client loop over the calls of the model, simulated by a recency list of labels; stack distances for C87, a potential function and a lazy version of the strategy for C88, and explicit sequences of requests on which its bound is reached (LruTightProofs.v). | `C86_memoisation` |
| C87 | Which requests an LRUCache answers without evaluation | proved | A client loop over the calls of the model, simulated by a recency list of labels; stack distances for C87, a potential function and a lazy version of the strategy for C88, and explicit sequences of requests on which its bound is reached (LruTightProofs.v). | `C87_hit_iff_recent`, `C87_every_request_answered`, `C87_larger_cache_no_worse` |
| C88 | The cache is competitive with every other way to choose what to keep | proved | A client loop over the calls of the model, simulated by a recency list of labels; stack distances for C87, a potential function and a lazy version of the strategy for C88, and explicit sequences of requests on which its bound is reached (LruTightProofs.v). The strategy starts empty and holds each label just requested. | `C88_competitive`, `C88_reached`, `C88_best_factor` |
| C89 | Several threads may call one Lazy | partial | The accesses of a call as program points, interleaved by an arbitrary schedule; an invariant per thread and one of the shared state. Threads only call and read; a call of the function is one step. The code violates the property: two concurrent first calls race on the pointer, evaluate the function twice and leave a dangling reference. Holds when every Lazy is evaluated beforehand or called by one thread only. | `C89_evaluated_twice_refuted`, `C89_two_callers_refuted`, `C89_one_caller_partial`, `C89_steps` |
| C90 | Lazy objects may depend on each other | proved | Functions are pieces of code that may call Lazy objects; induction on the rank of the dependencies, with an invariant of the slots and the log of the functions called. C90_same_call and C90_same_start tie the model to LazyModel.v. C90_reentrant_twice shows the limit: a function that calls its own Lazy conditionally is evaluated twice. | `C90_evaluated_once`, `C90_order_irrelevant`, `C90_cycle`, `C90_same_call`, `C90_same_start`, `C90_reentrant_twice` |
| C91 | Words, lists and sets may themselves be elements, keys and labels | proved | Lexicographic order as a relation between lists (a common beginning, then the first difference); laws by induction; the refinements of C24 and C30 read with equality in place of equivalence. The lexicographic orders of std::vector, std::set and std::pair are modelled after the standard. | `C91_plain_sets`, `C91_plain_maps`, `C91_words`, `C91_lists`, `C91_pairs` |
| C92 | Containers stay usable when an element throws | proved | Every call that may throw consumes one entry of an arbitrary schedule; a Hoare logic with two postconditions (normal, exceptional) and an account of the schedule; programs related to sets of executions of the abstract functions. C92_same_sets and C92_same_maps tie the model to SetModel.v and MapModel.v. Assumes the guarantees of the standard containers for single-element calls. Excludes Set::restrict (C26), a list appended to itself (C22) and lists of 2^32 elements (C21). | `C92_sets`, `C92_maps`, `C92_lists`, `C92_same_sets`, `C92_same_maps` |
| C93 | Threads drawing random numbers get what they would get one after the other | partial | A call is a tree of accesses to shared memory; the accesses of all threads are interleaved by an arbitrary schedule; one client mutex. One invariant for all three: under the mutex the shared state is that of a sequential run of the completed calls, or the call in progress leads from there. Completion by induction on the trees. Uninterrupted calls are proved equal to those of RandomModel.v. The code violates the property: the engine of RANDOM_GENERATOR is raced for by any two threads that draw. Holds when all calls are made with one mutex held or by one thread. | `C93_refuted`, `C93_same_output_refuted`, `C93_threads_partial` |
| C94 | Failed checks are counted whatever thread makes them | partial | A call is a tree of accesses to shared memory; the accesses of all threads are interleaved by an arbitrary schedule; one client mutex. One invariant for all three: under the mutex the shared state is that of a sequential run of the completed calls, or the call in progress leads from there. Completion by induction on the trees. Uninterrupted calls are proved equal to those of RandomModel.v. The code violates the property: the counter is a plain int, so threads race for it and increments get lost. Holds when checks are made with one mutex held or by one thread, and while no check fails. | `C94_refuted`, `C94_failures_partial`, `C94_passing_partial` |
| C95 | A one-time warning appears once and reports come out whole, whatever threads cause them | partial | A call is a tree of accesses to shared memory; the accesses of all threads are interleaved by an arbitrary schedule; one client mutex. One invariant for all three: under the mutex the shared state is that of a sequential run of the completed calls, or the call in progress leads from there. Completion by induction on the trees. Uninterrupted calls are proved equal to those of RandomModel.v. The code violates the property: the flag is a plain static bool, and a report is several insertions. Holds when reports are made with one mutex held or by one thread; reports other than one-time ones are free of data races anyway. | `C95_refuted`, `C95_once_partial`, `C95_warnings_partial` |
| C96 | Threads sharing an LRU cache get what they would get one after the other | partial | The same framework; the members of the cache as accesses to the tree and to each age. Uninterrupted calls are those of LruModel.v, whence the recency list of C01; a second invariant for threads that only read. The code violates the property: get writes the ages of all elements, so two gets race, and may leave ages that make a later put undefined. Holds when all calls are made with one mutex held or by one thread, and for has_label, age and the sizes without a mutex. | `C96_refuted`, `C96_broken_refuted`, `C96_mutex_partial`, `C96_lookers_partial` |
| C97 | Randomisers work across translation units | partial | The initialisations of the units and the calls as one sequence of operations; the unit whose generator a randomiser uses is an arbitrary function. Induction over the sequence, with the relation of C62 between draws and engine outputs; simulation by RandomModel.v for one unit. The code violates the property: RANDOM_GENERATOR is static, so there is one for each translation unit, and get() uses that of whatever unit the linker took its instantiation from, which need not be initialised yet. Holds for each generator separately when all draws come after the initialisation, and as in C62 with one translation unit. | `C97_too_early_refuted`, `C97_used_twice_refuted`, `C97_ready_partial`, `C97_main_partial`, `C97_one_home_partial` |
| C98 | Lists can be read from streams that throw | proved | The code of C35, C36 and C42 again, on a state of stream and variable, each stream operation checked against the mask; C98_without_mask proves it equal to the earlier model when the mask is empty. Induction on the loops; success transferred from the earlier model. Undefined behaviour remains only for masks without failbit, as in C36, which is stated exactly. push_back is assumed not to fail (C92). | `C98_reading_lists`, `C98_readers`, `C98_success_unaffected`, `C98_printed_lists_read_back`, `C98_without_mask` |
| C99 | Words can be read from streams that throw | partial | The code of C35, C36 and C42 again, on a state of stream and variable, each stream operation checked against the mask; C98_without_mask proves it equal to the earlier model when the mask is empty. Induction on the loops; success transferred from the earlier model. The code violates the property: every word at the end of the text throws when the stream throws on eofbit or failbit. Holds for words followed by another character; every other input characterised. | `C99_last_word_refuted`, `C99_word_followed_partial`, `C99_any_input_partial` |
| C100 | Printing to a failing stream writes a beginning of the text, or all of it | proved | OutModel.v: the printing code as computations on a stream with state bits, exception mask, width and an arbitrary device. [sends] (OutSpec.v) says a computation prints given pieces in turn until one is refused; it is closed under sequencing, and the printers are sequences. C100_unfailing: with a device that takes everything this is the earlier model, for all printers. Copying an item while printing is assumed not to throw. What a device loses after taking it (flushing) is outside the model. | `C100_lists`, `C100_pairs_tuples_maps`, `C100_items`, `C100_good_stream`, `C100_other_stream`, `C100_mask`, `C100_unfailing` |
| C101 | A width set on the stream applies to what is printed | partial | OutModel.v: the printing code as computations on a stream with state bits, exception mask, width and an arbitrary device. [sends] (OutSpec.v) says a computation prints given pieces in turn until one is refused; it is closed under sequencing, and the printers are sequences. C100_unfailing: with a device that takes everything this is the earlier model, for all printers. The code violates the property for every list, set, pair and longer word and every width above one: the padding goes to the first piece printed. What happens instead is stated; the width is used up. | `C101_width_refuted`, `C101_width_partial` |
| C102 | An object may be owned through the interface it is used through | partial | OwnModel.v: the class table of the two headers with classes of the user, the language rule for delete, and programs that create, draw from and release randomisers of RandomModel.v. Destruction order by induction along the bases; the programs by an invariant, with a simulation by RandomModel.v for the values drawn. The code violates the property for randomisers, every one of them: RandomiserInterface has no virtual destructor. Holds for WritableInterface and WriterInterface, and for randomisers that are variables or owned through their own class, by shared_ptrs created with it, or through a user class with a virtual destructor. | `C102_writable_partial`, `C102_interface_refuted`, `C102_owned_partial` |
| C103 | IsInvocable and IsInvocableReturning agree with the concepts | partial | MetaModel.v: types as far as the traits look at them; calls, conversions and assignments of a program as a parameter; the language rules for scalars, void and pointers to members. Case analysis. The code violates the property: IsInvocable is false for every pointer to member, IsInvocableReturning for void and every scalar result type, and true for references that cannot be bound. The concepts are right; so are the traits for other callables and for classes assigned what converts to them. | `C103_concepts_partial`, `C103_invocable_partial`, `C103_invocable_refuted`, `C103_scalar_refuted`, `C103_reference_refuted`, `C103_class_partial` |
| C104 | to_string(x) is the text os << x appends | partial | StringModel.v: a type of printable values, printed by the operators of StlioModel.v and WordModel.v on a new stream. The text is the rendering of a list of pieces (StringSpec.v), by induction on values; a piece depends on boolalpha exactly if it is a bool. The code violates the property exactly where a bool is printed to a boolalpha stream, or after a word, whose printing leaves boolalpha set. Holds in all other cases. | `C104_insertion_refuted`, `C104_insertion_partial`, `C104_to_str_partial`, `C104_pair_refuted`, `C104_pair_partial`, `C104_list_partial`, `C104_read_back_partial` |
| C105 | The pointer returned by c_str(s) is valid while s lives unchanged | partial | StringModel.v: programs over string variables of two classes and pointer variables; temporaries end with their statement. Invariants over runs. The code violates the property for every std::string (converted to a temporary String) and for results of to_string. Holds for variables of class String, and for all strings within one statement. | `C105_string_partial`, `C105_at_once_partial`, `C105_std_string_refuted`, `C105_to_string_refuted` |
| C106 | A handle made from an object holds a copy of that object | partial | HandleMakeModel.v: overload resolution among the constructors of Handle by static type and category, and make_handle, on the handles of HandleModel.v. By cases on the overload; slicing for every instance. The code violates the property for every object passed as a copyable class it is derived from (or moved as any such class): it is sliced. Holds for objects passed as what they are, as the interface, or as lvalues of classes that cannot be copied. | `C106_slicing_refuted`, `C106_whole_object_partial` |
| C107 | make_handle<T>(args...) does what T(args...) does | partial | HandleMakeModel.v: overload resolution among the constructors of Handle by static type and category, and make_handle, on the handles of HandleModel.v. By cases on the overload; slicing for every instance. The code violates the property: rvalues are passed on as lvalues, so nothing is ever moved from and classes that only take rvalues cannot be made. Holds for lvalues; the object is the same if copying and moving make the same. | `C107_forwarding_refuted`, `C107_move_only_refuted`, `C107_lvalues_partial`, `C107_same_value_partial` |
| C108 | Several threads may copy SharedArrays that share their elements | partial | SharedSyncModel.v: the members of SharedArray as trees of accesses to the state of SharedModel.v, in the interleaving semantics of SyncModel.v. A call made alone is the function of SharedModel.v; with a mutex by the generic invariant of SyncProofs.v and the representation invariant of C19; readers by the generic lemma of LruSyncProofs.v; the race by a schedule for every instance. ApartProofs.v: threads that own different locations run as if alone (a simulation of every thread by its run without the others). The code violates the property for any two threads that copy sharers of one array: the count is not atomic. Holds with a mutex around all calls or one thread, for threads that only read, and without a mutex for threads whose variables share no elements with those of other threads. | `C108_race_refuted`, `C108_freed_refuted`, `C108_mutex_partial`, `C108_readers_partial`, `C108_apart_partial` |
| C109 | HELPER_TEST_WITHIN compares the values of its arguments | partial | GroupModel.v: the texts of macros and arguments as sequences of operands and operators, the grouping of operators by a stack machine, types and values of the resulting trees. GroupSpec.v has the C++ grammar as an inductive relation; the machine is sound and complete for it (so the grammar is unambiguous and total on texts). The theorems then follow from the levels of the operators in the arguments. The code violates the property for every expected value a-b or a+b and for conditional arguments, since the arguments are not put in parentheses. Holds for expressions without operators looser than + -, expected values without operators looser than * /, tolerances without operators looser than shifts. | `C109_grouping`, `C109_levels`, `C109_values`, `C109_unary_values`, `C109_within_partial`, `C109_minus_refuted`, `C109_plus_refuted`, `C109_conditional_tolerance_refuted`, `C109_conditional_expected_refuted` |
| C110 | Failure messages show the values of the arguments | partial | GroupModel.v: the texts of macros and arguments as sequences of operands and operators, the grouping of operators by a stack machine, types and values of the resulting trees. GroupSpec.v has the C++ grammar as an inductive relation; the machine is sound and complete for it (so the grammar is unambiguous and total on texts). The theorems then follow from the levels of the operators in the arguments. The code violates the property for every argument with an operator looser than + -: part of it is shown or it does not compile. Holds for arguments with + - and tighter operators, and for messages put together with <<. | `C110_equal_partial`, `C110_message_partial`, `C110_second_refuted`, `C110_first_refuted`, `C110_first_conditional_refuted`, `C110_chosen_message_refuted` |
| C111 | An LRUCache in front of a recursive function is transparent | proved | LruRecSpec.v: the bodies of a recursive function as trees of calls, their outcomes without a cache as an inductive relation, and the client with the cache over the calls of the model. A finished computation has a unique size; everything put while a computation of size n runs has a smaller one, so its own label cannot have appeared. Invariant: what is stored is what the function yields; for the last theorem, that nothing has been evicted as long as few labels were evaluated. Equivalent labels must have the same function body (an Example shows that this is needed). | `C111_never_wrong`, `C111_ends`, `C111_evaluates_once` |
| C112 | List<T>(x) is the list with the one element x | partial | OverModel.v: implicit conversions and their ranks, overload resolution by [over.match.best], and the viable constructors of the three classes. By cases on the types; the conversions of classes are arbitrary. The code violates the property: for elements of a class type and an arithmetic x, and for x of type size_t, List<T>(x) has x default elements; for other arithmetic conversions, and size_t itself, it does not compile. Holds for x of type T or promoted to it, for implicit conversion between arithmetic types, and for braces where they compile. | `C112_own_type_partial`, `C112_promoted_partial`, `C112_promotions_partial`, `C112_implicit_partial`, `C112_implicit_own_type_partial`, `C112_braces_partial`, `C112_narrowing_partial`, `C112_class_refuted`, `C112_size_refuted`, `C112_own_size_refuted`, `C112_conversion_refuted` |
| C113 | Containers made from n and x contain n copies of x | partial | OverModel.v: implicit conversions and their ranks, overload resolution by [over.match.best], and the viable constructors of the three classes. By cases on the types; the conversions of classes are arbitrary. The code violates the property: Array<T>(n,x) does not compile for n and x of one type (so make_array not for unsigned int), and calls x if it can be called; LinkedList<T>(n,x) compiles only for n and x of one type. Otherwise it holds; for List always. | `C113_list`, `C113_array_partial`, `C113_array_same_type_refuted`, `C113_array_generator_refuted`, `C113_linked_partial`, `C113_linked_refuted`, `C113_make_list`, `C113_make_array_partial`, `C113_make_array_refuted` |
| C114 | accept calls the visitor as the caller would | partial | VisitModel.v: the call of the visitor through const_cast, on the switch of VariantModel.v. By cases on the operators of the class. The code violates the property for every const visitor whose class has a call operator that is not const: that one is called, and if it writes, the visitor is changed, or the behaviour undefined if it was defined const. Holds for other visitors. | `C114_own_visitor_partial`, `C114_const_operator_partial`, `C114_silent_operator_partial`, `C114_overloaded_refuted`, `C114_const_object_refuted` |
| C115 | make_array and make_list of a sequence contain its elements | partial | MakeModel.v: the overloads of make_array, make_list, Map::insert and apply under the rules of OverModel.v, with derived-to-base conversions and partial ordering. By cases on the argument types. The code violates the property for every List and every other sequence but std::vector and Array (make_array), std::vector and Set (make_list): the result has the sequence as its one element. make_list(Array) does not compile. | `C115_make_array_partial`, `C115_make_list_partial`, `C115_single_value`, `C115_make_array_refuted`, `C115_make_list_refuted`, `C115_make_list_array_refuted` |
| C116 | Map::insert takes every key and value that convert | partial | MakeModel.v: the overloads of make_array, make_list, Map::insert and apply under the rules of OverModel.v, with derived-to-base conversions and partial ordering. By cases on the argument types. The code violates the property: k and v of one type that is not both K and T choose the overload for iterators, and m.insert({k,v}) is always ambiguous. Holds otherwise. | `C116_two_arguments_partial`, `C116_same_type_refuted`, `C116_braces_refuted` |
| C117 | Containers of things that print, print | partial | PrintModel.v: lookup of operator<< by order of declaration and associated namespaces, nested to any depth. PrintSpec.v says which types occur where; equivalence by induction on types. The code violates the property for all tuples of standard types (write_tuple is not found) and for standard containers in pairs, Arrays, linked lists and containers with an earlier operator. The exact condition is proved. | `C117_exact_partial`, `C117_unqualified_partial`, `C117_helper_containers_partial`, `C117_tuple_refuted`, `C117_order_refuted` |
| C118 | apply(f,l) works for every list | partial | MakeModel.v: the overloads of make_array, make_list, Map::insert and apply under the rules of OverModel.v, with derived-to-base conversions and partial ordering. By cases on the argument types. The code violates the property for every unqualified call with a list that is not const: std::apply is the better match and does not compile. | `C118_const_partial`, `C118_qualified_partial`, `C118_unqualified_refuted` |
| C119 | A class with HELPER_USING_CONSTRUCTORS is made as its base is, and copied as a whole | partial | UsingModel.v: the five constructors, their ranks for an argument of each kind and category, the choice and the object made. By cases; Base is abstract. The code violates the property: the forwarding constructor is the better match for every object that is not const and for objects of derived classes, and copies the Base only; and it makes every construction an implicit conversion. Holds for other arguments, and for copies of const objects and temporaries. | `C119_arguments_partial`, `C119_many_arguments_partial`, `C119_copy_partial`, `C119_copy_refuted`, `C119_derived_refuted`, `C119_explicit_refuted` |
| C120 | BinaryWord::append appends the symbols its argument denotes | partial | WordAppendModel.v: overload resolution for append; what a text denotes is given by the model of C42-C45. By cases. The code violates the property for every text: string literals and characters convert to bool and append one 1, std::string does not compile. Holds for bool, bits, numbers and words. | `C120_symbols_partial`, `C120_literal_refuted`, `C120_character_refuted`, `C120_string_refuted` |
| C121 | What get returns can be passed on | partial | LruRefModel.v: arguments as references to nodes of the cache of LruModel.v; put reads them after the erasure. Simulation of the by-value specification by an invariant on ages (a result of get is among the youngest); undefined runs are exhibited for every capacity. The code violates the property at every capacity: put erases the oldest element before it copies label and value. Holds if the arguments of each put designate fewer elements than the capacity; the exact condition for one put is proved. | `C121_every_capacity_refuted`, `C121_programs_partial`, `C121_exact_partial` |
| C122 | Iterators made with IteratorFacade serve the standard library | partial | AlgoModel.v: the operators the facade declares, as a table, and the algorithms written over the operations of IterModel.v. The required expressions are transcribed from the standard in AlgoSpec.v. Algorithms by induction on the distance, lower_bound with the invariant of binary search. The code violates the property for random access: it++, it--, n+it and it[n] do not compile, nor it->m if dereference returns a value. Everything else required compiles, and the algorithms modelled are right. | `C122_random_access_refuted`, `C122_expressions_partial`, `C122_arrow_refuted`, `C122_algorithms_partial` |
| C123 | The check of a subpaving's iterator counts every difference | partial | TreeModel.v: the loop of the macro over the statements of MacroModel.v and TestModel.v, with its local variables as a scope, so that capture is visible. Induction on the elements, with the value of an arithmetic expression unaffected by the scopes; the count is then related to the positions that differ. The code violates the property: a number held in a variable called elements_count is captured by the macro's own variable, and the check then always passes; an expression for p that makes a temporary is evaluated twice and its iterators dangle; the number is evaluated for every element. Holds for objects and arithmetic expressions over other names. | `C123_captured_name_refuted`, `C123_temporary_refuted`, `C123_effects_refuted`, `C123_counts_partial`, `C123_passes_partial`, `C123_missing_partial` |
| C124 | Array fill(x) fills with copies of x | partial | FillModel.v: overload resolution (OverModel.v) between the function for a value and the template for an iterator, followed by the corresponding member function of ArrayModel.v; the choice is computed for all types, the contents come from the lemmas about filling loops. The code violates the property: for any type of x but T the template for iterators is the better match. A number of another type does not compile, and a pointer that converts to T, like a string literal for Array<std::string>, is read as a sequence, beyond its end if the array is longer. Holds for x of type T. | `C124_own_type_partial`, `C124_other_types_refuted`, `C124_pointers_refuted` |
| C125 | Array(first,last) holds the elements of the range, for iterators of any type | partial | FillModel.v: overload resolution (OverModel.v) between the function for a value and the template for an iterator, followed by the corresponding member function of ArrayModel.v; the choice is computed for all types, the contents come from the lemmas about filling loops. The code violates the property for an array whose elements are iterators of the very type of first: _uninitialized_fill(first) is then the function for values, and every element becomes a copy of first. Holds for iterators of all other types. | `C125_range_partial`, `C125_range_refuted` |
| C126 | results that point at elements of the list stay usable | partial | CallModel.v: a store that says which addresses hold living objects; the copy that apply's loop makes lives for one turn. By induction on the list. The code violates the property in apply: its loop copies each element into a local variable and calls f with that, so every result that points at its argument dangles, for every list. Holds for elementwise of one and two lists. | `C126_elementwise_partial`, `C126_elementwise2_partial`, `C126_apply_refuted` |
| C127 | apply and elementwise call f for the elements the list has at the call | partial | CallModel.v: the function is a program over the list, which counts the changes of its size; iterators taken before a change are invalid. By induction on the programs and on the number of turns; the endless loop is shown for every amount of fuel. The code violates the property: with apply a change of size makes behaviour undefined; with elementwise appending makes the loop endless, and removing ends it half way or, from an odd size, misses the end; assignments are seen by later calls. Holds for functions that only read the list; with assignments, both functions go by the current elements. | `C127_reading_partial`, `C127_assigning_partial`, `C127_assigning_refuted`, `C127_apply_refuted`, `C127_appending_refuted`, `C127_removing_even_refuted`, `C127_removing_odd_refuted` |
| C128 | functions of List and Set take braced lists of any length | partial | BraceModel.v: the conversions of a braced list to T, std::vector<T> and std::set<T> with their ranks, and overload resolution (OverModel.v) between the functions; the sets are those of SetModel.v. The choice is computed for all types and lengths, the contents come from the lemmas about sets. The code violates the property: for numbers append({}) appends a zero and remove({}) removes the zero; where a T can be made from the braces by a conversion, the call is ambiguous; disjoint with braces never compiles. Holds for append and remove otherwise, and for concatenate, adjoin and subset always. | `C128_append_partial`, `C128_remove_partial`, `C128_append_empty_refuted`, `C128_remove_empty_refuted`, `C128_ambiguous_refuted`, `C128_concatenate_partial`, `C128_adjoin_partial`, `C128_subset_partial`, `C128_disjoint_refuted` |
| C129 | Sequences written with any delimiters read back with the same delimiters | partial | StlioModel.v, whose functions take the delimiters as arguments. The condition on delimiters and list under which reading succeeds is stated in DelimSpec.v and proved sufficient and necessary, by induction on the list with the state of the stream after each item. The code violates the property for some delimiters: reading skips blanks, so none of the three may be one; a digit is read as part of an item; a separator equal to the closing delimiter, or a closing minus sign before a negative first item, ends the list early. Holds for all other delimiters, and for no list where one of these applies: the condition is exact. | `C129_read_back_partial`, `C129_exactly_refuted`, `C129_blank_refuted` |
| C130 | dynamic_handle_cast can be called for every handle | partial | CastModel.v: the declarations of dynamic_handle_cast and dynamic_handle_extract with their parameters, and overload resolution between them as far as they need it: conversion to a base, added const, more specialised template. By cases over the types and value categories of the argument. The code violates the property: for a Handle itself the call is ambiguous or does not link, and for a D with a non-const interface it does not compile. It can be built exactly for arguments of classes derived from Handle and a D with const interface. | `C130_can_be_built_partial`, `C130_handle_itself_refuted`, `C130_nonconst_interface_refuted` |
| C131 | dynamic_handle_extract gives write access only to what may be written | partial | CastModel.v: the declarations of dynamic_handle_cast and dynamic_handle_extract with their parameters, and overload resolution between them as far as they need it: conversion to a base, added const, more specialised template. By cases over the types and value categories of the argument. Every call can be built, and const handles and temporaries give const references; but a non-const variable of type Handle<const I> gives a reference to non-const. | `C131_can_be_built`, `C131_reaches_object`, `C131_const_reference_partial`, `C131_const_interface_refuted` |
| C132 | stack_trace frees what it allocates | partial | TraceMemModel.v: stack_trace with a heap of blocks, a demangler that may find no memory, and insertions that throw; blocks that are read after release or released twice are undefined behaviour. Induction over the frames, with the invariant that only the strings are allocated between frames; the text is related to TraceModel.v. The code violates the property if std::cerr throws: every exception leaves the strings of backtrace_symbols behind. If the function returns, every block has been freed once; and every use of a string is before its release. The text is that of C71. | `C132_nothing_left_partial`, `C132_defined_partial`, `C132_text_partial`, `C132_exception_refuted`, `C132_first_insertion_refuted` |
| C133 | Any number of translation units may include any of the headers | partial | UnitsModel.v: for each header what it includes, the names it uses that are not declared by its own includes, and what it defines that is not inline, a template or in a class; include guards, compilation of a unit and linking. The graph of includes is closed by a number of steps that is proved to be enough. The code violates the property: test.hpp defines variables that are not inline, so two units that include it do not link; binary_word.hpp uses StringType and StringStream, which no header declares. Every other program links. | `C133_builds_partial`, `C133_named_partial`, `C133_test_twice_refuted`, `C133_binary_word_refuted` |
| C134 | get_first, ..., get_fifth are the elements of a tuple | proved | TupleMoreModel.v: elements that are objects or references, value categories, and the functions as calls of std::get; assignment one element after the other in a given order, each of which may throw. By cases for the functions, and by induction on the order for the assignment. | `C134_object`, `C134_exists`, `C134_assignable`, `C134_assigns`, `C134_moves`, `C134_lifetime` |
| C135 | An assignment to make_ltuple or make_lpair that throws leaves the variables as they were | partial | TupleMoreModel.v: elements that are objects or references, value categories, and the functions as calls of std::get; assignment one element after the other in a given order, each of which may throw. By cases for the functions, and by induction on the order for the assignment. The code violates the property: elements assigned before the one that throws keep their new values. What each variable holds afterwards is proved for every order and every element that throws. | `C135_stops_partial`, `C135_quiet_partial`, `C135_pair_partial`, `C135_tuple_refuted`, `C135_pair_refuted` |
| C136 | A macro takes any expression as an argument | partial | ArgsModel.v: how the preprocessor splits the arguments of a call, for every macro the number of its parameters and the macros it hands them on to. The condition on the texts in ArgsSpec.v is proved to be exact by induction over the tokens. The code violates the property: commas in angle brackets or braces separate arguments, and some macros hand their arguments on to other macros, where commas of macros in them count. Exactly the accepted calls are characterised; arguments in parentheses are always accepted, and the variadic macros accept everything. | `C136_accepted_partial`, `C136_arguments_partial`, `C136_parentheses_partial`, `C136_variadic_partial`, `C136_template_refuted`, `C136_braces_refuted`, `C136_handed_on_refuted` |
| C137 | A macro called with a semicolon behind it is one statement | partial | PlaceModel.v: a parser of statements, the replacement of every macro as statements, functions of clients and their execution. Reading back what was printed is proved by induction on statements with enough fuel; what clients mean is defined on their functions without looking at tokens. The code violates the property: no macro with a semicolon may stand before an else, and of the macros with several statements only the first depends on a condition before them. Holds everywhere else, and for single blocks without the semicolon before an else. | `C137_one_statement_partial`, `C137_single_partial`, `C137_else_refuted`, `C137_guard_refuted`, `C137_construct_refuted` |
| C138 | The message of a failed static check names the class under test | partial | NamedModel.v: programs of checks, tests of classes, calls and exceptions, with the variable that holds the class. Compared with a semantics that passes the class down instead, by induction on programs. The code violates the property: the name is not restored at the end of HELPER_TEST_CLASS, so a check after the test of another class, in the same test or outside of all tests, is said to belong to the class whose test began last. Holds if no check comes after the test of another class. | `C138_class_named_partial`, `C138_nested_refuted`, `C138_after_refuted`, `C138_thrown_refuted` |
| C139 | All comparisons of binary words agree | proved | WordCompareModel.v: the operators of std::vector<bool> as the loops of the standard algorithms beside the member operator< of WordModel.v, and which of them is chosen. Both loops are related to the lexicographic order of WordSpec.v. | `C139_operators`, `C139_agree` |
| C140 | apply and elementwise take every function that can be called with the elements | partial | CalleeModel.v: overload resolution for arguments that are temporaries, variables or const, on const objects or not; the bodies of apply and elementwise as calls that must be found. By cases on what is passed, for any number of arguments by induction. The code violates the property: elementwise takes no function by name and no object whose call operator is not const; neither takes functions that return references or const objects; the type of the results is that for temporaries, though f is called with variables, and apply calls the overload for variables that may be changed. Holds for one function that takes its arguments by value or const reference and returns an object. | `C140_apply_partial`, `C140_elementwise_partial`, `C140_apply_exact_partial`, `C140_elementwise_exact_partial`, `C140_name_refuted`, `C140_mutable_refuted`, `C140_reference_refuted`, `C140_temporary_refuted`, `C140_variable_refuted` |
| C141 | The elements of an array are where objects of their type may be | partial | AlignModel.v: addresses, what operator new guarantees of them, and the constructions one after the other. Divisibility of powers of two; for the refutation an address is given for every type. The code violates the property for Array: it calls operator new without the alignment of the type. Holds for types that need no more than the default alignment, and for SharedArray. | `C141_array_partial`, `C141_shared_partial`, `C141_overaligned_refuted` |
| C142 | ResultOf<F(AS...)> is InvokeResult<F,AS...> | partial | ResultModel.v: types, how a function type adjusts those of its parameters, and callees as tables. By cases on types; for the refutation a callee is given for every type that is adjusted. The code violates the property: F(AS...) is the type of a function, which cannot return a function or array, and whose parameters lose const and become pointers; F(void) has no parameters. Holds for all other types. | `C142_same_partial`, `C142_function_refuted`, `C142_adjusted_refuted`, `C142_void_refuted` |
| C143 | Setting the system's clock does not change what a stopwatch measures | partial | WatchMoreModel.v: the clock as the sum of real time and what the time of day differs from it by, over StopwatchModel.v. Elapsed times are invariant under shifts; the refutation is for all readings, and gives a change for each duration. The code violates the property with libstdc++, whose high_resolution_clock is the system_clock: any change of the time of day between start and click adds to the duration, which may become anything, also negative. Holds if the time of day is not set, or with libc++, whose high_resolution_clock is the steady_clock. | `C143_not_set_partial`, `C143_set_refuted`, `C143_anything_refuted` |
| C144 | Set::remove removes what contains finds | partial | ConvModel.v: types as a grammar, conversions by recursion on the target type with overload resolution among the constructors, values as nested sequences with their lexicographic order, over SetModel.v. By induction on types (a conversion never lowers the nesting of sets) and cases on overloads. The code violates the property: for a vector the overload for sequences is the better match, so that from a Set<List<T>> a std::vector<T> is not removed, but the lists of one of its items are, and for a Set<Set<T>> the call does not compile; and static_cast makes items of a base class, as in Set<String>::remove of a vector of std::string, undefined behaviour. Holds for all other types. | `C144_value_partial`, `C144_items_partial`, `C144_set_partial`, `C144_lists_refuted`, `C144_sets_refuted`, `C144_base_refuted` |
| C145 | Vectors and lists with the same elements convert alike | partial | ConvModel.v: types as a grammar, conversions by recursion on the target type with overload resolution among the constructors, values as nested sequences with their lexicographic order, over SetModel.v. By induction on types (a conversion never lowers the nesting of sets) and cases on overloads. The code violates the property for the target List<List<T>>: a std::vector<T> becomes a list of one-element lists, a List<T> the only element. Holds for all other targets. | `C145_same_partial`, `C145_set_partial`, `C145_lists_refuted` |
| C146 | A failed cast says what could not be converted to what | partial | ReportModel.v: write_error and the failing ends of the casts as computations on the streams of OutModel.v, with the classes of HandleModel.v. By the calculus of pieces of OutProofs.v; the wrong static type by comparing lengths of lines. The code violates the property: in place of the static type it always writes the type of a pointer (typeid(i) instead of typeid(BI)); and an exception of _write or of the stream takes the place of std::bad_cast. The rest of the line, silence on success and the exception are as stated, in every state of a stream that does not throw. | `C146_reported_partial`, `C146_static_type_refuted`, `C146_any_stream_partial`, `C146_never_returns_partial`, `C146_write_throws_refuted`, `C146_stream_throws_refuted` |
| C147 | A list of arrays releases the arrays removed from it | partial | ArrListModel.v: the operations of libstdc++ on a vector of arrays, as programs of operations on the arrays of ArrayModel.v. Each leads from one list of sequences to the next (ArrListSpec.v), by induction on shifts and on the loop of remove_if; the losses by C09_exact_losses_partial. The code violates the property: move assignment forgets the storage of its target, so that erasing an array that is not the last, remove_if followed by erase, and assigning a temporary lose arrays. Exactly the arrays lost are determined for all programs; contents are right. Reallocation of the list and failing allocations are not included. | `C147_erase_refuted`, `C147_assign_refuted`, `C147_values_partial`, `C147_losses_partial`, `C147_lossless_partial` |
| C148 | A container made from a braced list contains the members | partial | InitModel.v: the two phases of list-initialisation over the conversions and overload resolution of OverModel.v, with narrowing of constants. By cases on the braces; the rank of a list by induction. The code violates the property: Set<int>{1.5,1.7} is {1} (the constructor template takes members of one type and converts them silently), LinkedList has no constructor from an initializer list, so that LinkedList<int>{3,4} is three times 4, and a number that does not convert to T is a number of elements for List and Array, as for std::vector. For List and Array with members that convert, and Set with members of type T or of several types, it holds. | `C148_sequences_partial`, `C148_sets_partial`, `C148_set_refuted`, `C148_number_refuted`, `C148_copies_refuted`, `C148_linked_one_refuted`, `C148_linked_two_refuted`, `C148_linked_more_refuted` |
| C149 | Functions that are not members take what the members take | partial | FreeModel.v: template argument deduction from two arguments, over the types of ConvModel.v. By cases on the types; a type is not its own element. The code violates the property: the functions deduce T from both arguments, so that contains takes only x of type T, join only a Set, remove no element, and catenate no std::vector and nothing that converts. The exact types are determined, and for them the functions do what the members do. | `C149_disjoint_partial`, `C149_subset_partial`, `C149_exact_partial`, `C149_contains_partial`, `C149_contains_refuted`, `C149_join_partial`, `C149_join_refuted`, `C149_remove_partial`, `C149_remove_refuted`, `C149_catenate_partial`, `C149_catenate_refuted` |
| C150 | Containers convert as their elements do | partial | LiftModel.v: what the compiler knows of the conversion of elements, the constructor templates with their constraints, overload resolution among them and their bodies. By cases on the kind of conversion; nesting by induction on the depth. The code violates the property: a Set from a vector and a Map have no explicit conversion, a LinkedList converts implicitly when its elements do so only explicitly, the traits of Array and LinkedList say yes for elements that do not convert, the constraints ask for a conversion from a temporary but the bodies convert a constant, and an implicit conversion of a container uses an explicit one of the elements. For conversions of elements of the usual kinds List, Array and Set from a set are right, nested lists too. | `C150_sequences_partial`, `C150_sets_partial`, `C150_implicit_partial`, `C150_linked_partial`, `C150_nested_partial`, `C150_explicit_refuted`, `C150_linked_refuted`, `C150_traits_refuted`, `C150_temporary_refuted`, `C150_variable_refuted`, `C150_choice_refuted` |
| C151 | The standard algorithms accept ranges | partial | RangeAlgoModel.v: the operators of RangeIterator, what algorithms need of their iterators, and the loops of those that compile. By computation on the tables; the loops by induction on the distance. The code violates the property: the iterators have neither it++ nor == nor the types of an iterator, so that no container can be made from a range and only algorithms with a plain loop compile. Those compute the right results when start is at most stop. | `C151_requirements_refuted`, `C151_algorithms_refuted`, `C151_results_partial` |
| C152 | A reference to an element of an array follows the element | proved | ArrayModel.v with the invariant of C08. Every computation either keeps the members of a variable or a released block released (a predicate closed under sequencing and loops); the statements that touch the variable itself by the exact results of ArrayProofs.v; programs by induction. For the programs to which C08 gives a result: not those with a copy assignment or reallocate to another size that fails (C14), nor assign from a range of the array itself to another size (C16). Nothing is claimed for elements of an array to which another one was moved (they are leaked, C09). | `C152_references` |
| C153 | A cache owns exactly one copy of each label and value it holds | proved | LruLifeModel.v: the constructions of line 92 in order, each of which may throw, with the destructions of unwinding; destroying what is not there is undefined. Each construct either changes the counts by fixed numbers or throws and changes nothing; room, insertion and calls by composition; histories by induction. For as long as the calls are defined: a put after a failed put into a full cache is not (C06). The values put are the caller's own, not references into the cache (C07). | `C153_owns_its_contents`, `C153_made`, `C153_same_calls` |
| C154 | Iterators and const iterators made with IteratorFacade can be mixed | partial | MixModel.v: overload resolution for friends (found through either operand) and members over two classes and any conversions, on IterModel.v. By cases over classes and conversions; the values by the laws of C48. The comparisons hold, being friends. operator- is a member, so that a const_iterator cannot be subtracted from an iterator; with conversions both ways the comparisons are ambiguous instead (C154_refuted, for every choice of conversions). | `C154_compare`, `C154_minus_partial`, `C154_refuted`, `C154_whatever_compiles` |
| C155 | Arithmetic expressions over two types have the type ArithmeticType | proved | ArithModel.v: integral promotion and the usual arithmetic conversions over arbitrary widths. On promoted types they are a join (commutative, associative, idempotent: by cases over the types and the three comparisons of widths); the type of an expression is the least upper bound of the promoted types of its operands, by induction. C155_room states the conversions by the values a type has, for every pair of types and all widths. Without wchar_t, charN_t and enumerations. An expression without an operator is not promoted (C155_leaf). | `C155_order_and_grouping`, `C155_arithmetic_type`, `C155_closed`, `C155_room` |
| C156 | CanAdd<A1,A2> holds exactly when there is a SumType<A1,A2> | partial | CanModel.v: binding of lvalues and xvalues to the five kinds of parameters, choice of the best operator. The choice agrees with the rules of the language, stated separately in CanSpec.v. Operators that do not distinguish the two are chosen alike; witnesses for the others. The concepts use lvalues, the types xvalues: they differ for operators that take only one of them, for abstract classes, and for operators that take by value what can only be moved. They agree otherwise. | `C156_refuted`, `C156_agree_partial`, `C156_one_operator`, `C156_by_the_rules` |
| C157 | A String is initialised and assigned as a std::string is | partial | StrAssignModel.v: overload resolution over the assignment operators and constructors of both classes; by cases. Initialisation agrees. String's own assignment operators hide those of std::string: characters and string_views cannot be assigned, and s=0, an error for std::string, compiles and is undefined. | `C157_refuted`, `C157_number_refuted`, `C157_zero_refuted`, `C157_assign_partial`, `C157_initialise` |
| C158 | The printed text of a container determines its contents | partial | UniqueSpec.v: types as shapes, values and printers by recursion over the shape, with the printers of StlioModel.v and WordModel.v. Each printer appends something that tells the value if what follows begins with a character that ends an item, by induction over shape and list; the stream is threaded through, since printing a word changes the format of later truth values. Proved for numbers, truth values and binary words. The code violates the property for strings, which are not quoted: ["a,b"] prints as ["a","b"], [""] as []. Holds for strings that are not empty and contain no comma, colon, blank or closing bracket. | `C158_numbers`, `C158_strings_refuted`, `C158_tidy_partial`, `C158_followed_partial` |
| C159 | A cache with more room knows what a cache with less room knows | partial | LruRoomProofs.v: over the recency lists of LruSpec.v, by C01. Invariant: the items of the smaller cache are a subsequence of those of the larger, and it is full or has the same. The calls that refute it are constructed for every two capacities, by induction. The code violates the property for every two capacities from 2 on: put of a label that is there throws and does not make it younger, so the larger cache, which still had the label, may forget it before the smaller one. Holds if the larger cache accepts every put; and, except for the values, if the smaller capacity is 1. | `C159_every_capacity_refuted`, `C159_accepted_partial`, `C159_room_for_one` |
| C160 | Binary words with a common prefix are consecutive in their order | proved | WordTreeProofs.v: over the functions of WordModel.v, through the lexicographic order of C38 and the prefixes of C39; by induction on the prefix. | `C160_prefix_first`, `C160_consecutive`, `C160_apart`, `C160_segment` |
| C161 | Iterators made with IteratorFacade can be traversed backwards | proved | RevModel.v: libstdc++'s reverse_iterator over the operators of IterModel.v, and the expressions it uses. By the laws of the core; the loop by induction on the distance. reverse_iterator is that of libstdc++. The core's dereference returns a reference to something outside the iterator, as the standard requires. | `C161_expressions`, `C161_backwards`, `C161_operators` |
| C162 | LinkedList::append and concatenate add what they are given | partial | LinkModel.v: overload resolution of OverModel.v for append and concatenate of List and LinkedList, and the members of the parameter that their bodies use. By cases over the conversions; what is added is stated by positions (LinkSpec.v). Holds for List. For LinkedList, append(m) and concatenate(m) never compile, as they use t[i], which std::list does not have; and append(x) for a number x that the class T takes is ambiguous, as x also converts to a LinkedList with x elements. | `C162_list`, `C162_list_sequence`, `C162_linked_partial`, `C162_linked_refuted`, `C162_linked_sequence_refuted`, `C162_concatenate_refuted` |
| C163 | apply(f,s) is the set of the results | partial | ImageModel.v: the loop of apply over adjoin of SetModel.v, and the implicit conversions of the result type to the parameter of adjoin. By induction on the set, with ListSpec.v's calls for the order of the calls. The code violates the property. The body adjoins f(x), for which adjoin wants a set: the call compiles exactly if the result type converts implicitly to a std::set of itself, and then returns the union of these sets. | `C163_compiles_refuted`, `C163_union_partial`, `C163_image_partial`, `C163_image_refuted` |
| C164 | A PairIterator can be dereferenced and measured as its components can | partial | DerefModel.v: the conversions to pointer types, the body of dereference, and which functions of the class have definitions. By cases; that no type of elements is that of pointers to pointers to them, by the depth of the types. The code violates the property. The result type is a pair of pointers to the iterators, so dereference compiles only for iterators whose elements convert to pointers to such iterators; distance_to is declared but not defined. const is not modelled. | `C164_dereference_partial`, `C164_elements_partial`, `C164_dereference_refuted`, `C164_distance_refuted` |
| C165 | Assignable<T,F> holds exactly if a T may be assigned an F | partial | AssignModel.v: std::is_assignable for types with built-in assignment and for classes given by their assignment operators. AssignSpec.v says when a variable may be assigned. By the characterisation of the best viable operator. The code violates the property. std::is_assignable<T,F> asks whether an rvalue of type T may be assigned, unless T is a reference: the concepts are false for every number, enumeration and pointer type. Assignment operators that are const or templates are not modelled. | `C165_reference_partial`, `C165_class_partial`, `C165_const`, `C165_same_concepts`, `C165_builtin_refuted`, `C165_lvalues_refuted`, `C165_rvalues_refuted` |
| C166 | A printed list of floating-point numbers reads back as the same list | partial | FpioModel.v: printf %.*g and strtod for the values of a floating-point type, the finite ones as integers in units of the least positive value. FpioSpec.v: values of the type, numbers with few significant digits, and values closest to such numbers. Rounding by characterising the nearest integer multiple; the list by C35's lemma for any element reader. The code violates the property. The precision of the stream, 6 by default, is not set: numbers with more significant digits are changed; infinities and NaN are printed but not read. Negative zero is not modelled. | `C166_few_digits_partial`, `C166_decimals_partial`, `C166_precision_partial`, `C166_refuted`, `C166_range_refuted`, `C166_nonfinite_refuted` |
| C167 | to_string of a floating-point number is a numeral for it | partial | NumStrModel.v: to_string with the inserter of FpioModel.v. NumStrSpec.v: a grammar of decimal numerals with their values, and how far these are from a number. The text is analysed as for C166; equal texts from the uniqueness of the P digits and the exponent. The code violates the property. to_string uses a new stream, with precision 6, which cannot be changed: the text is the best numeral with 6 digits, within one part in 200000, exact for numbers with at most 6 significant digits; others share their text. Negative zero is not modelled. | `C167_numeral_partial`, `C167_stream_partial`, `C167_distinct_refuted`, `C167_nonfinite_refuted`, `C167_stream_refuted` |
| C168 | Which of equivalent elements a set function keeps | partial | SetModel.v, with its programs over set variables. SetKeepSpec.v: the earliest and the second of equivalent elements of a list, as positions. The loops are shown to be folds of insert and filters (SetProofs.v); membership by induction on the list; programs by a refinement of functions from values to the elements kept. The code violates the part about intersection with a list. intersection(s,l) takes the elements of the list, its second argument, unlike intersection of two sets. The rest holds. | `C168_two_sets_partial`, `C168_from_list_partial`, `C168_duplicates_partial`, `C168_programs_partial`, `C168_list_refuted`, `C168_overloads_refuted` |
| C169 | The text of a PairIterator tells where it points | partial | PairTextModel.v: the overload of the standard inserters for each kind of pointer; addresses in the notation of libstdc++. PairTextSpec.v: reading hexadecimal numbers, by the standard library of Coq. Texts are split at the comma, which no address contains. The code violates the property. Holds for pointers to objects other than characters, which print their addresses. A pointer to characters prints these up to the next NUL, which is undefined if there is none, and a pointer to volatile objects prints 1. Null pointers to characters, stream flags other than the default and iterators of class types are not modelled. | `C169_addresses_partial`, `C169_distinct_partial`, `C169_characters_refuted`, `C169_end_refuted`, `C169_volatile_refuted` |

## 5. Findings: behaviour of the unchanged code that violates a stated property

* LRUCache::put ages and evicts before the insertion that can throw (C06); its argument may be the evicted value (C07).
* Array: move assignment leaks (C09); a throwing constructor leaks storage and elements (C13); copy assignment or `reallocate` to another size that throws leaves an array whose destruction is undefined (C14); `n*sizeof(T)` wraps (C15); `assign` from the array's own range reads freed storage (C08, C16); `reallocate(n)` with the present size keeps the old elements (C17).
* SharedArray: `--_count` in the destructor decrements the pointer, so every destruction is undefined (C20).
* `l.append(l)` never ends (C22); member `Set::subset` tests the reverse inclusion (C25); member `Set::restrict` removes instead of keeping (C26).
* Reading sequences: blank input leaves an indeterminate variable (C36); printed strings do not read back (C37).
* BinaryWord: `erase_prefix` beyond 2^31 bits (C40), self append (C41), words read in sequence (C43), boolalpha stays set (C44), blank strings (C45).
* A reversed range has a huge size (C47).
* Handle: every non-const access clones, so references dangle (C53); references held across copies write through (C54); threads reading through one non-const handle race (C84).
* Lazy: concurrent first calls race, evaluate twice and leave a dangling reference (C89).
* Global state and threads: the random generator's engine (C93), the counter of failed checks (C94) and the flags of one-time warnings (C95) are raced for. LRUCache::get writes all ages, so concurrent gets race and can make a later put erase end() (C96).
* RANDOM_GENERATOR is one object per translation unit, and draws may use that of another unit before its initialisation (C97).
* elapsed_seconds loses the clock's precision (C61).
* Macros: captured local names and double evaluation (C63), unguarded second statement (C65); test macros: escaped exceptions and captured names (C66), exit status modulo 256 (C67), repeated evaluation (C68), construction twice, the second time outside `try` (C76).
* IsWritable is false for the usual `_write(ostream&)` (C79); assigning to a Writer leaves its temporaries dangling (C78); HELPER_CLEAN_TEST_VECTOR deletes repeated pointers twice (C80).
* Reading a word that ends the text throws if the stream throws on failure (C99).
* A width set on the stream pads the opening bracket only (C101).
* RandomiserInterface has no virtual destructor: a randomiser owned through it cannot be deleted (C102).
* IsInvocableReturning is false for every scalar result type, IsInvocable for pointers to members (C103).
* c_str of a std::string or of a to_string dangles after the statement (C105); to_string prints bools by name after a word (C104).
* Handle's constructors slice an object that is passed as a copyable base class of it (C106).
* make_handle does not forward: rvalue arguments are copied (C107).
* Copying SharedArrays in two threads races for the count; a lost increment leads to a premature delete (C108).
* HELPER_TEST_WITHIN(x, a-b, t) checks |x-a-b|; HELPER_TEST_WITHIN(x, y, c ? t1 : t2) always passes for non-zero t1, t2 (C109). HELPER_ASSERT_EQUAL and the macros with messages insert their arguments without parentheses (C110).
* `restrict_keys(m,s)` casts its std::set parameter to Set: undefined for a std::set that is not a Set (C33).
* List<T>(x) has x default elements, not the element x, if x is a size_t or T is a class and x a number; List<double>(3) and List<size_t>(n) do not compile (C112). Array<int>(3,7) and make_array(7u) do not compile; LinkedList<double>(3,0.5) does not compile (C113).
* make_list and make_array of a List make a sequence with the List as its one element (C115). m.insert({k,v}) is ambiguous for every Map, and Map<int,double>::insert(1,2) does not compile (C116). No std::tuple of numbers can be printed, since write_tuple is not found from namespace std; nor a std::pair or List holding a std::set (C117). apply(f,l) without Helper:: chooses std::apply unless l is const (C118).
* HELPER_USING_CONSTRUCTORS: copying an object that is not const copies the Base only and resets the other members; explicit constructors become implicit conversions (C119). w.append("0101") and w.append('0') append a single 1 (C120).
* cache.put(cache.get(a),cache.get(b)) on a full cache may read what it has just erased, at every capacity (C121).
* IteratorFacade claims std::random_access_iterator_tag but lacks it++, it--, n+it and it[n] (C122).
* HELPER_TEST_GRID_TREE_SUBPAVING_ITERATOR(expected,p,elements_count) always passes, since the macro has a variable of that name (C123).
* Array<std::string>::fill("xy") assigns the characters of the literal to the elements, one each, and reads beyond the literal if the array has more than three elements; Array<double>::fill(1) does not compile (C124).
* Array<char const*>(first,last) holds copies of the pointer first (C125).
* apply calls f with a copy that ends with the turn of the loop, so that results which point at their argument dangle; elementwise does not (C126). Neither protects against functions that change the list (C127).
* For a List<int> l, l.append({}) appends a zero, and for a Set<int> s, s.remove({}) removes the zero; s.disjoint({1,2}) is ambiguous and does not compile (C128).
* read_sequence cannot read what write_sequence printed if a delimiter is a blank or a digit, if separator and closing delimiter are the same, or if the closing delimiter is a minus sign and the first item negative (C129).
* dynamic_handle_cast cannot be called for a Handle itself: handle.hpp:51-52 declare overloads that are not defined, and 115-116 declare others that are not defined either and match equally well; nor for a class D with a non-const interface (C130).
* dynamic_handle_extract gives a reference to non-const from a variable of type Handle<const I> (C131).
* stack_trace leaks the strings of backtrace_symbols, and a demangled name, if an insertion into std::cerr throws (C132).
* test.hpp:41-43,56 define variables that are not inline: two translation units that include it do not link. binary_word.hpp uses StringType and StringStream, and HELPER_NOT_IMPLEMENTED (macros.hpp:147) uses StringType, which no header declares (C133).
* make_ltuple(x,y)=t leaves some variables assigned and others not, if an assignment throws (C135).
* Macros reject template arguments and braced lists with commas, unless they are in parentheses; HELPER_FAIL_MSG, HELPER_ASSERT_MSG, HELPER_PRECONDITION_MSG, HELPER_DEBUG_ASSERT_MSG and HELPER_ASSERT_EQUAL also reject macros that expand to a comma (C136).
* "if(c) HELPER_ASSERT(x); else ..." is a syntax error, for every macro; "if(c) HELPER_TEST_CONSTRUCT(...);" constructs whatever c is (C137).
* HELPER_TEST_CLASS does not restore HELPER_CURRENT_TESTING_CLASS, so messages may name the wrong class (C138).
* elementwise(f,l) does not compile if f is the name of a function or a mutable lambda; neither it nor apply does if f returns a reference. An overload for temporaries determines the type of their results, though it is not the one called: results may be converted silently (C140).
* Array<T> ignores the alignment of T: placement new at a wrong address if T needs more than 16 (C141).
* ResultOf<F(A)> is not InvokeResult<F,A> if A is const, an array, a function or void, and does not exist if F is a function (C142).
* With libstdc++ a Stopwatch reads the system_clock: durations are wrong, perhaps negative, if the time of day is set meanwhile (C143).
* s.remove(v) for a Set<List<T>> s and a std::vector<T> v removes the lists of one item of v, not v. For a Set<String> and a vector of std::string it is undefined: the items are cast to String (C144).
* A List<List<T>> made from a std::vector<T> has as many elements as the vector, made from a List<T> it has one (C145).
* A failed dynamic_handle_cast reports the static type as a pointer type ("PK..."), because write_error is given typeid(i) (C146).
* l.erase(l.begin()) on a List<Array<T>> of two or more arrays loses the storage of the array erased, as do l[i]=Array<T>(...) and the erase-remove idiom (C147).
* Set<int>{1.5,1.7} compiles and is {1}; LinkedList<int>{3} has three elements 0, and LinkedList<int>{3,4} is three times 4 (C148).
* contains(s,x) for a Set<String> s and a std::string x, join(s,t) for a std::set t and catenate(l,v) for a std::vector v do not compile, though the members take them (C149).
* Set<T>(std::vector<TT>) and Map<K,T>(std::map<K,TT>) do not exist if TT converts to T only explicitly; LinkedList<T> converts implicitly then (C150).
* std::is_constructible<Array<T>,Array<TT>> and std::is_convertible<List<TT>,LinkedList<T>> are true for all T and TT, though the constructors do not compile when TT does not convert to T (C150).
* std::vector<size_t>(begin(r),end(r)), List, Array and Set of a Range, std::find and std::distance do not compile (C151).
* IteratorFacade::operator-(I const&) is a member: a const_iterator cannot be subtracted from an iterator, though they can be compared
  in either order (C154).
* CanAdd and its relatives use lvalues where SumType and its relatives use xvalues, so that each may hold without the other; and an abstract
  class satisfies none of the concepts (C156).
* The assignment operators of String hide those of std::string: s='c' and s=string_view do not compile, while s=0 does, and is undefined (C157).
* Strings are not quoted when containers are printed: List<String>({"a,b"}) and List<String>({"a","b"}) print alike, and so do a list of an
  empty string and an empty list (C158).
* After the same calls a larger LRUCache may lack a label that a smaller one has, because a rejected put does not make the label younger
  (C159).
* CodedVariant::accept calls the visitor through const_cast: a const visitor may be changed (C114).
* Neither LinkedList::append(list) nor concatenate compiles, and append(x) is ambiguous for numbers that a class takes (C162);
  apply(f,s) for a Set compiles only if the results convert to sets of themselves, and unites these (C163).
* PairIterator::dereference does not compile for iterators over numbers, pointers to numbers or pointers to pointers, and
  PairIterator::distance_to has no definition (C164).
* Assignable<T,F> is false for all numbers, enumerations and pointers T, since it asks about rvalues (C165).
* Printed lists of floating-point numbers lose all but six digits, unless the user sets the precision (C166);
  to_string of floating-point numbers always does, so that 1000000 and 1000001 have the same text (C167).
* Swapping by make_lpair loses a value (C70); nameless stack frames are undefined (C71).

## 6. Mutation tests

`seeded/LOG.jsonl` has one line per edit of a model definition, made in a scratch copy that was
rebuilt with every theorem: the definition, the edit (`from`, `to`), the claims it breaks, the theorems that
no longer prove, and the theorems that were tightened because they had still proved.  Equivalent edits
and edits that break only proof scripts are annotated where this was noticed.

What an entry shows: `failed` lists the theorems whose proof, as it stands, uses a statement that no longer checks.  That is
weaker than a proof that the theorem is false of the edited model; a proof script may break although the statement
could be proved again.  For about two thirds of the entries with failed theorems an `Example` fails too, which confirms
that the behaviour in a concrete case changed; the others are not confirmed in this way.  For edits generated automatically
`breaks` is not an independent judgement: it lists the properties of the theorems that failed.

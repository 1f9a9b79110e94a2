{"id": "C01", "title": "LRUCache behaves as a bounded recency list", "statement": "A cache constructed with capacity m>0 answers every sequence of has_label, get, age, put, current_size and maximum_size calls exactly as an idealised recency list would: get moves the label to the front and returns its value, put pushes the new label to the front and drops the last one when the list already has m entries, age is the position in the list, and a call whose precondition fails throws and changes nothing.", "quantifier": "every capacity m with 0<m<2^64, every label type with a strict weak order, every value type, every finite sequence of calls", "why_tests_cant": "A unit test runs a handful of fixed sequences on capacities up to 4; agreement with the recency list must hold after every history.", "anchors": ["include/lru_cache.hpp: LRUCache::{LRUCache,has_label,get,age,put,current_size,maximum_size}"]}
{"id": "C02", "title": "LRU ages are always a permutation of 0..size-1", "statement": "After any history the ages reported for the labels that are present are pairwise different and are exactly the numbers 0..current_size()-1, and current_size() never exceeds maximum_size().", "quantifier": "every reachable cache state", "why_tests_cant": "It is an invariant over unbounded histories; one broken step at some depth is enough to break eviction later.", "anchors": ["include/lru_cache.hpp: LRUCache::get, LRUCache::put"]}
{"id": "C03", "title": "LRU put evicts exactly the least recently used label, and only when full", "statement": "A successful put on a cache that is not full evicts nothing; on a full cache it removes exactly the one label whose last successful get or put is the oldest; every other label keeps its value.", "quantifier": "every history followed by every successful put", "why_tests_cant": "'Oldest use' is a property of the complete history, not of one state a test can set up.", "anchors": ["include/lru_cache.hpp: LRUCache::put"]}
{"id": "C04", "title": "LRU rejected calls throw and leave no trace", "statement": "Construction with capacity 0, get or age of an absent label and put of a present label throw std::runtime_error; after such a call every later call answers as if it had not been made.", "quantifier": "every reachable state, every label, every continuation", "why_tests_cant": "Absence of a side effect has to be checked against every later observation.", "anchors": ["include/lru_cache.hpp: LRUCache::get, LRUCache::age, LRUCache::put", "include/macros.hpp: HELPER_ASSERT_MSG, HELPER_PRECONDITION"]}
{"id": "C05", "title": "A reference returned by LRU get stays valid until its label is evicted", "statement": "The reference returned by get(l) can be read after any later sequence of calls and still yields the value l was put with, as long as l has not been evicted in between.", "quantifier": "every history, every label, every later sequence of calls not evicting it", "why_tests_cant": "Dangling references show up only for particular interleavings of evictions and reads, and often only under a sanitizer.", "anchors": ["include/lru_cache.hpp: LRUCache::get"]}
{"id": "C06", "title": "LRU put leaves a usable cache when storing the value fails", "statement": "If copying the label or value or allocating the node throws inside put, the exception propagates and the cache is afterwards still a correct LRU cache (ages 0..size-1, no undefined behaviour on later calls).", "quantifier": "every reachable state, every put that throws while storing, every continuation", "why_tests_cant": "It ranges over crash points inside put and over everything done afterwards.", "anchors": ["include/lru_cache.hpp: LRUCache::put"]}
{"id": "C07", "title": "LRU put accepts a value that refers into the cache", "statement": "put(l,v) stores the current content of v even when v is a reference previously returned by get on the same cache.", "quantifier": "every reachable state, every live reference into the cache, every absent label", "why_tests_cant": "Needs the one configuration in which the referenced element is the one being evicted.", "anchors": ["include/lru_cache.hpp: LRUCache::put, LRUCache::get"]}
{"id": "C08", "title": "Arrays are independent values", "statement": "Any program over several Array variables built from the constructors (default, size, size and value, initializer list, iterator range, generator, conversion, copy, move), copy assignment, move assignment, swap, resize, reallocate, fill, assign, element assignment and destruction computes, for each variable, the contents the same program would compute on independent finite sequences: no operation on one variable changes another one, and no operation reads, writes or frees storage it does not own.", "quantifier": "every finite program over any number of array variables, every element type, no allocation or element failure", "why_tests_cant": "Aliasing and ownership errors need particular combinations of operations on several variables.", "anchors": ["include/array.hpp: Array"]}
{"id": "C09", "title": "Array storage is released exactly once and nothing leaks", "statement": "When all Array variables of a program have been destroyed every block obtained from operator new has been released exactly once and every element constructed has been destroyed exactly once.", "quantifier": "every finite program over array variables", "why_tests_cant": "Leaks have no functional effect and double frees need particular histories.", "anchors": ["include/array.hpp: Array::~Array, Array::operator=(Array&&), Array::operator=(const Array&), Array::resize, Array::reallocate"]}
{"id": "C10", "title": "Array resize keeps the common prefix, even when the filler is an element of the array itself", "statement": "After a.resize(n) or a.resize(n,t) the array has n elements; those at positions below the old size are unchanged, the others equal T() or the value t had before the call; t may be a reference to an element of a.", "quantifier": "every array, every n, every value or element reference t", "why_tests_cant": "Aliasing of t with storage released by the call, for every size.", "anchors": ["include/array.hpp: Array::resize"]}
{"id": "C11", "title": "Checked access at() accepts exactly the valid indices", "statement": "a.at(i) returns the i-th element if i<a.size() and throws std::out_of_range otherwise; it never touches memory outside the array.", "quantifier": "every array, every index of type size_t", "why_tests_cant": "All indices up to 2^64-1 and all sizes.", "anchors": ["include/array.hpp: Array::at"]}
{"id": "C12", "title": "Array equality is equality of contents", "statement": "a==b holds iff a and b have equal size and equal elements at all positions, a!=b is its negation, and the comparison reads only elements of the two arrays.", "quantifier": "all pairs of arrays over any element type whose != decides equality", "why_tests_cant": "Quantifies over all pairs of sequences.", "anchors": ["include/array.hpp: Array::operator==, Array::operator!="]}
{"id": "C13", "title": "A failing Array constructor releases what it acquired", "statement": "If constructing an element throws inside an Array constructor, all elements already constructed are destroyed and the storage is released before the exception leaves the constructor.", "quantifier": "every constructor, every length, every position of the failure", "why_tests_cant": "Ranges over crash points.", "anchors": ["include/array.hpp: Array::Array, Array::_uninitialized_fill"]}
{"id": "C14", "title": "A failing Array assignment or resize leaves the array destructible", "statement": "If allocation or an element copy throws inside copy assignment, resize or reallocate, the array can afterwards still be read, assigned to and destroyed without undefined behaviour; resize moreover leaves the old contents in place.", "quantifier": "every array, every argument, every position of the failure", "why_tests_cant": "Ranges over crash points and all continuations.", "anchors": ["include/array.hpp: Array::operator=(const Array&), Array::resize, Array::reallocate"]}
{"id": "C15", "title": "Array construction of any size either throws or provides room for all elements", "statement": "Array(n,...) for any n of type size_t either throws std::bad_alloc or yields an array of n elements in storage of at least n*sizeof(T) bytes.", "quantifier": "every n below 2^64, every element size", "why_tests_cant": "Fails only for gigantic n where the byte count wraps.", "anchors": ["include/array.hpp: Array::uninitialized_new, Array::Array, Array::max_size"]}
{"id": "C16", "title": "Array assign(first,last) stores the range", "statement": "After a.assign(first,last) the array equals the sequence [first,last) as it was before the call, whatever its length and wherever it is stored.", "quantifier": "every array, every valid forward range, including ranges inside the array itself", "why_tests_cant": "Aliased ranges of every length.", "anchors": ["include/array.hpp: Array::assign, Array::resize, Array::fill"]}
{"id": "C17", "title": "Array reallocate(n) yields n default-constructed elements", "statement": "After a.reallocate(n) the array has n elements, all equal to T().", "quantifier": "every array, every n", "why_tests_cant": "Quantifies over all old sizes, in particular the one equal to n.", "anchors": ["include/array.hpp: Array::reallocate"]}
{"id": "C18", "title": "complement(nmax,vars) lists the missing indices", "statement": "For strictly increasing vars with entries below nmax, complement returns exactly the indices of [0,nmax) not in vars, in increasing order; outside that precondition it never returns normally a wrong answer silently (it always leaves defined behaviour or throws).", "quantifier": "every nmax and every vars", "why_tests_cant": "All index sets; the failing inputs write outside the result array.", "anchors": ["include/array.hpp: complement"]}
{"id": "C19", "title": "SharedArray copies share elements and the count tracks the sharers", "statement": "For every history of constructions, copies, assignments and element writes, all copies of one SharedArray see the same elements, unrelated ones are unaffected, the storage stays allocated while someone refers to it and is released when the last one is reassigned.", "quantifier": "every finite history over any number of SharedArray variables (without destruction)", "why_tests_cant": "Reference counting is an invariant over histories.", "anchors": ["include/array.hpp: SharedArray"]}
{"id": "C20", "title": "SharedArray destruction is well defined and frees the storage of the last owner", "statement": "Destroying a SharedArray decrements the share count and frees the storage exactly when no other copy remains.", "quantifier": "every state, every destruction order", "why_tests_cant": "Undefined behaviour may be silent in a test run.", "anchors": ["include/array.hpp: SharedArray::~SharedArray"]}
{"id": "C21", "title": "List append/concatenate/catenate build the concatenation", "statement": "l.append(x), l.append(v), l.concatenate(v), catenate(l1,l2) and catenate(l,x) yield the elements of the first argument followed by those of the second, in order, leaving the const arguments unchanged.", "quantifier": "all lists of fewer than 2^32 elements on the right, all element types", "why_tests_cant": "All lengths, including the wrap-around of the 32-bit loop counter.", "anchors": ["include/container.hpp: List::append, List::concatenate, catenate"]}
{"id": "C22", "title": "Appending a list to itself doubles it", "statement": "l.append(l) and l.concatenate(l) terminate and leave l followed by a copy of itself.", "quantifier": "every list", "why_tests_cant": "A non-terminating call cannot be exhibited by a finished test; must hold for all lists.", "anchors": ["include/container.hpp: List::append, List::concatenate"]}
{"id": "C23", "title": "apply and elementwise call f once per element, in order", "statement": "apply(f,l), elementwise(f,l) and elementwise(f,l1,l2) call f exactly once per position in increasing order, also when f has side effects, and return the list of its results; elementwise on two lists of different length fails its assertion before any call of f.", "quantifier": "all lists, all (stateful) functions", "why_tests_cant": "Quantifies over all functions with side effects.", "anchors": ["include/container.hpp: apply, elementwise"]}
{"id": "C24", "title": "Set operations compute the mathematical set operations", "statement": "Starting from any sequence of insert, adjoin, remove(element), remove(set), remove(list) and join, contains(x) holds exactly for the elements the mathematical operations predict, and iteration yields each element once in increasing order.", "quantifier": "every history, every element type with a strict weak order", "why_tests_cant": "Invariant and refinement over histories.", "anchors": ["include/container.hpp: Set::{contains,adjoin,remove}, join, contains"]}
{"id": "C25", "title": "subset decides inclusion, as a member and as a free function", "statement": "subset(s1,s2) and s1.subset(s2) both hold iff every element of s1 is an element of s2.", "quantifier": "all pairs of sets", "why_tests_cant": "All pairs of sets.", "anchors": ["include/container.hpp: Set::subset, subset"]}
{"id": "C26", "title": "restrict, intersection and difference compute intersection and difference", "statement": "restrict(r,s), r.restrict(s), intersection(r,s), intersection(r,list) contain exactly the elements of r that are in s; remove(r,s), r.remove(s) and difference(r,s) exactly those that are not; all of them also when both arguments are the same object.", "quantifier": "all pairs of sets, including aliased ones", "why_tests_cant": "All pairs; iterator invalidation while erasing.", "anchors": ["include/container.hpp: Set::restrict, Set::remove, restrict, remove, intersection, difference"]}
{"id": "C27", "title": "disjoint decides disjointness", "statement": "The member and free functions disjoint, on sets and lists, hold iff the two collections have no common element.", "quantifier": "all pairs of collections", "why_tests_cant": "All pairs of collections.", "anchors": ["include/container.hpp: Set::disjoint, disjoint"]}
{"id": "C28", "title": "unique_elements and duplicate_elements", "statement": "unique_elements(l) holds iff no two positions of l hold equivalent elements, and duplicate_elements(l) contains exactly the elements occurring at least twice; it is empty iff unique_elements(l).", "quantifier": "all lists", "why_tests_cant": "All lists.", "anchors": ["include/container.hpp: unique_elements, duplicate_elements"]}
{"id": "C29", "title": "make_list and make_set convert faithfully", "statement": "make_list(s) is the strictly increasing list of the elements of s, make_set(l) contains exactly the elements of l, and make_set(make_list(s)) equals s.", "quantifier": "all sets and lists", "why_tests_cant": "All sets and lists.", "anchors": ["include/container.hpp: make_list, make_set, Set::operator List"]}
{"id": "C30", "title": "Map behaves as a finite function", "statement": "For every sequence of operator[], assignment through it, insert, adjoin, remove_keys, get, value, has_key, the map answers as a partial function updated by the corresponding operations, and keys()/values() list it in increasing key order.", "quantifier": "every history, every key type with a strict weak order", "why_tests_cant": "Refinement over histories.", "anchors": ["include/container.hpp: Map"]}
{"id": "C31", "title": "insert, adjoin and join never overwrite", "statement": "m.insert, insert(m,k,v), m.adjoin(m2) and join(m,m2) leave the value of every key already present in m unchanged and add the missing ones from the argument.", "quantifier": "all maps, all keys", "why_tests_cant": "All pairs of maps.", "anchors": ["include/container.hpp: Map::insert, Map::adjoin, join, insert"]}
{"id": "C32", "title": "Map lookups throw exactly on absent keys and never change the map", "statement": "get(k), value(k) and the const operator[] return the value stored for k if there is one and otherwise throw std::runtime_error; the map is unchanged; the non-const operator[] instead adds k with a default value.", "quantifier": "all maps, all keys", "why_tests_cant": "All maps and keys.", "anchors": ["include/container.hpp: Map::get, Map::value, Map::operator[]"]}
{"id": "C33", "title": "restrict_keys, remove_keys, keys and values", "statement": "restrict_keys(m,s) is the restriction of m to the keys in s, for every std::set s, remove_keys(s) removes exactly those, keys() is the domain and values() is aligned with keys().", "quantifier": "all maps, all sets", "why_tests_cant": "All maps and sets.", "anchors": ["include/container.hpp: restrict_keys, Map::remove_keys, Map::keys, Map::values"]}
{"id": "C34", "title": "Sequence printing has one format", "statement": "Array, SharedArray, vector/List and linked lists print as '[' items separated by ',' ']', sets as '{' items separated by ',' '}', maps as '{ ' k:v items separated by ', ' ' }'; write_sequence and the hand-written operators agree on all inputs, empty ones included; integers among the items appear as decimal numerals without superfluous zeros.", "quantifier": "all sequences and element printers", "why_tests_cant": "All lengths; boundary handling at first and last element.", "anchors": ["include/container.hpp: operator<<", "include/stlio.hpp: write_sequence, write_map_sequence, write_pointer_sequence, write_tuple"]}
{"id": "C35", "title": "A printed list reads back as the same list", "statement": "Printing a vector with operator<< and reading the text with operator>> (read_sequence) yields an equal vector, consumes exactly the printed text and leaves the stream usable, for integers, bools and non-empty binary words.", "quantifier": "all vectors, any text following the closing bracket, any whitespace allowed by the format", "why_tests_cant": "Round trip over all values and continuations.", "anchors": ["include/stlio.hpp: read_sequence, operator>>", "include/container.hpp: operator<<"]}
{"id": "C36", "title": "read_sequence always terminates and never accepts a malformed list", "statement": "On every input text read_sequence either returns after reading '[' items separated by ',' ']' or throws std::ios_base::failure; it never loops and never depends on an indeterminate value.", "quantifier": "all input texts", "why_tests_cant": "All byte strings; termination.", "anchors": ["include/stlio.hpp: read_sequence"]}
{"id": "C37", "title": "Printed lists of strings read back", "statement": "Printing a vector of std::string without whitespace and reading it back yields the same vector.", "quantifier": "all vectors of non-empty strings without whitespace, ',' or ']'", "why_tests_cant": "All vectors.", "anchors": ["include/stlio.hpp: read_sequence", "include/container.hpp: operator<<"]}
{"id": "C38", "title": "BinaryWord operator< is the lexicographic strict total order", "statement": "w<v iff w is a proper prefix of v or w has a 0 where v has a 1 at the first difference; it is irreflexive, transitive and total, so BinaryWord can be used as a key of Set and Map.", "quantifier": "all pairs/triples of words", "why_tests_cant": "All words.", "anchors": ["include/binary_word.hpp: BinaryWord::operator<"]}
{"id": "C39", "title": "is_prefix and is_subword decide prefix and contiguous-subword inclusion", "statement": "w.is_prefix(b) iff b=w+t for some t; w.is_subword(b) iff b=s+w+t for some s,t; no out-of-range bit is read.", "quantifier": "all pairs of words", "why_tests_cant": "All pairs of words.", "anchors": ["include/binary_word.hpp: BinaryWord::is_prefix, BinaryWord::is_subword"]}
{"id": "C40", "title": "append, erase_prefix, set_back and bytes", "statement": "append adds the symbol or (different) word at the end; erase_prefix(k) drops the first min(k,size) bits (none for k<=0); set_back changes only the last bit of a non-empty word; bytes() is the least number of 8-bit bytes holding the word.", "quantifier": "all words, all int arguments", "why_tests_cant": "All words and all ints.", "anchors": ["include/binary_word.hpp: BinaryWord::{append,erase_prefix,set_back,bytes}"]}
{"id": "C41", "title": "Appending a word to itself doubles it", "statement": "w.append(w) terminates and yields w+w.", "quantifier": "all words", "why_tests_cant": "A hanging call cannot be exhibited by a finished test.", "anchors": ["include/binary_word.hpp: BinaryWord::append"]}
{"id": "C42", "title": "A printed word reads back as the same word", "statement": "make_binary_word(to_string(w)) equals w for every word, the empty one included, and the two accepted formats '[0,1,..]' and '01..' give the same word.", "quantifier": "all words", "why_tests_cant": "Round trip over all words.", "anchors": ["include/binary_word.hpp: operator<<, operator>>, make_binary_word"]}
{"id": "C43", "title": "Words written to a stream can be read back one after the other", "statement": "Writing any sequence of words separated by blanks and reading as many words back yields the same sequence and every read reports success.", "quantifier": "all sequences of words", "why_tests_cant": "All sequences; stream state after each read.", "anchors": ["include/binary_word.hpp: operator<<, operator>>"]}
{"id": "C44", "title": "Printing a word leaves the stream's formatting state unchanged", "statement": "After os << w the stream formats every later value as it would have before.", "quantifier": "all words, all stream states", "why_tests_cant": "The effect shows only on later, unrelated output.", "anchors": ["include/binary_word.hpp: operator<<"]}
{"id": "C45", "title": "make_binary_word is defined on every string", "statement": "make_binary_word(s) returns a word or throws for every string s, without undefined behaviour or looping.", "quantifier": "all strings", "why_tests_cant": "All strings, including blank ones.", "anchors": ["include/binary_word.hpp: make_binary_word, operator>>"]}
{"id": "C46", "title": "Iterating a Range visits range[0],...,range[size-1] in order", "statement": "A range-for over range(a,b) visits exactly range[0], range[1], ..., range[size()-1], terminates, and for a<=b these are a,a+1,...,b-1.", "quantifier": "all a,b of type size_t", "why_tests_cant": "All pairs of 64-bit values.", "anchors": ["include/range.hpp: Range, RangeIterator, range"]}
{"id": "C47", "title": "A range whose start exceeds its stop is empty", "statement": "For a>b, range(a,b) has size 0 and iterating it visits nothing.", "quantifier": "all a>b of type size_t", "why_tests_cant": "All pairs.", "anchors": ["include/range.hpp: Range::size, RangeIterator"]}
{"id": "C48", "title": "IteratorFacade turns a lawful core into a lawful random access iterator", "statement": "If equal, distance_to and advance of the core describe positions on a line, then ==,!=,<,<=,>,>= are the order of positions, it+n, it-n, +=, -=, ++, -- move by exactly n, -n, 1, -1, and a+(b-a)==b, (a+n)-n==a; for forward iterators it++ returns the old position.", "quantifier": "all cores satisfying the stated laws, all positions and offsets whose arithmetic fits ptrdiff_t", "why_tests_cant": "Algebraic laws over all positions and offsets.", "anchors": ["include/iterator.hpp: IteratorFacade, IteratorCoreAccess"]}
{"id": "C49", "title": "CodedVariant visits the alternative it was built from", "statement": "For up to 16 alternatives with pairwise different codes, accept(v) on a variant built from alternative T calls v exactly once, with T, and holds_alternative<U> is true iff U is T.", "quantifier": "all lists of at most 16 distinct codes, all visitors", "why_tests_cant": "Seventeen hand-written overloads, all positions.", "anchors": ["include/variant.hpp: CodedVariant, holds_alternative", "include/variant.inl.hpp: coded_visit"]}
{"id": "C50", "title": "CodedVariant aborts on a code that is not an alternative", "statement": "accept on a variant built from a code that no alternative has terminates the program by abort and never calls the visitor.", "quantifier": "all lists of alternatives, all other codes", "why_tests_cant": "All codes outside the list.", "anchors": ["include/variant.inl.hpp: coded_visit"]}
{"id": "C51", "title": "Type-list predicates", "statement": "IsOneOf<T,TS...> holds iff T occurs in TS, AreAllSame<TS...> iff all types are equal, IndexOf<T,TS...>::N is the first position of T and is not defined when T does not occur.", "quantifier": "all type lists", "why_tests_cant": "All lengths of template argument packs.", "anchors": ["include/metaprogramming.hpp: IsOneOf, AreAllSame, IndexOf"]}
{"id": "C52", "title": "Handles are values: writing through one is never seen through another", "statement": "In every program that creates, copies, moves, assigns and destroys handles, reads through them, and writes through the reference obtained immediately before from a non-const access, each handle behaves as an independent variable holding a value, without undefined behaviour.", "quantifier": "every finite program over any number of handles", "why_tests_cant": "Copy-on-write sharing is a property of histories over several handles.", "anchors": ["include/handle.hpp: Handle"]}
{"id": "C53", "title": "A reference obtained from a handle stays valid while the handle is not assigned or destroyed", "statement": "A reference returned by h.reference()/ref()/pointer() refers to h's current value as long as h is neither assigned, moved from nor destroyed.", "quantifier": "every program holding references across other accesses", "why_tests_cant": "Needs particular interleavings; dangling references may read plausible values.", "anchors": ["include/handle.hpp: Handle::reference, Handle::make_unique"]}
{"id": "C54", "title": "Writing through a held reference affects only its own handle", "statement": "A write through a reference obtained from h is not visible through any other handle, also if copies of h are made between obtaining and using the reference, and also for references obtained by dynamic_handle_extract.", "quantifier": "every program", "why_tests_cant": "Needs particular interleavings.", "anchors": ["include/handle.hpp: Handle::reference, dynamic_handle_extract"]}
{"id": "C55", "title": "dynamic_handle_cast and dynamic_handle_extract succeed exactly on the right dynamic type", "statement": "They return the very same object when its dynamic type provides the requested type (directly, or through a Wrapper for extract) and throw std::bad_cast otherwise, leaving the handle unchanged.", "quantifier": "all handles, all dynamic types, all requested types", "why_tests_cant": "All combinations of types.", "anchors": ["include/handle.hpp: dynamic_handle_cast, dynamic_handle_extract, dynamic_pointer_extract"]}
{"id": "C56", "title": "Lazy evaluates its function at most once successfully", "statement": "However often a Lazy is called, its function is called at most once after which it returned normally; every call returns the same object; before the first call the function has not been called.", "quantifier": "every sequence of calls, every stateful function returning objects or throwing", "why_tests_cant": "All call sequences and functions.", "anchors": ["include/lazy.hpp: Lazy::operator()"]}
{"id": "C57", "title": "A throwing Lazy function is retried and leaves the Lazy unevaluated", "statement": "If the function throws, the exception propagates, nothing is cached and the next call calls the function again.", "quantifier": "every sequence of outcomes", "why_tests_cant": "All interleavings of failures and successes.", "anchors": ["include/lazy.hpp: Lazy::operator()"]}
{"id": "C58", "title": "Copies of a Lazy", "statement": "A copy made after evaluation shares the evaluated object and never calls the function; a copy made before evaluation evaluates on its own; destroying one copy never invalidates the object of another.", "quantifier": "every history over any number of copies", "why_tests_cant": "All histories.", "anchors": ["include/lazy.hpp: Lazy"]}
{"id": "C59", "title": "Stopwatch measures from the last restart to the last click", "statement": "duration() is the time between the last restart (or construction) and the last click after it, truncated towards zero to the unit D, and zero if there was no click since; reading it has no effect.", "quantifier": "every sequence of restart/click/duration calls, every sequence of clock readings", "why_tests_cant": "All sequences and clock values.", "anchors": ["include/stopwatch.hpp: Stopwatch"]}
{"id": "C60", "title": "Stopwatch durations are non-negative and within one unit of the elapsed time", "statement": "If the clock never goes backwards, every duration is non-negative, non-decreasing over successive clicks and less than one unit D below the real elapsed time.", "quantifier": "every sequence of calls, every non-decreasing sequence of clock readings", "why_tests_cant": "All sequences.", "anchors": ["include/stopwatch.hpp: Stopwatch::duration"]}
{"id": "C61", "title": "elapsed_seconds has the clock's precision", "statement": "elapsed_seconds() returns the elapsed time in seconds up to the resolution of the clock, for every unit D.", "quantifier": "every unit, every elapsed time", "why_tests_cant": "All elapsed times and units.", "anchors": ["include/stopwatch.hpp: Stopwatch::elapsed_seconds"]}
{"id": "C62", "title": "Randomisers draw from their interval and share one generator", "statement": "Every value returned by get() lies in the interval given at construction, and in any interleaving of get() on several randomisers each draw consumes fresh output of the common generator, never reusing output consumed by another draw.", "quantifier": "every interleaving of calls, every seed", "why_tests_cant": "Probabilistic coverage only; all seeds and interleavings.", "anchors": ["include/randomiser.hpp: RandomiserBase::get, UniformIntRandomiser, UniformRealRandomiser, RANDOM_GENERATOR"]}
{"id": "C63", "title": "Assertion macros throw exactly when the condition is false", "statement": "HELPER_ASSERT, HELPER_ASSERT_MSG, HELPER_PRECONDITION(_MSG) and HELPER_ASSERT_EQUAL evaluate their condition once, do nothing else when it holds, and otherwise throw std::runtime_error whose text contains the location and the condition; the DEBUG variants do the same, and evaluate nothing at all under NDEBUG.", "quantifier": "all conditions, including ones with side effects", "why_tests_cant": "All expressions with side effects.", "anchors": ["include/macros.hpp: HELPER_ASSERT, HELPER_ASSERT_MSG, HELPER_PRECONDITION, HELPER_ASSERT_EQUAL, HELPER_DEBUG_ASSERT"]}
{"id": "C64", "title": "HELPER_WARN_ONCE and HELPER_DEPRECATED report once per call site", "statement": "Each textual occurrence writes its message the first time it is executed and never again, independently of other occurrences.", "quantifier": "every execution order of any number of occurrences", "why_tests_cant": "All execution orders.", "anchors": ["include/macros.hpp: HELPER_WARN_ONCE, HELPER_DEPRECATED"]}
{"id": "C65", "title": "A guarded HELPER_WARN_ONCE reports only when its guard holds", "statement": "if(c) HELPER_WARN_ONCE(msg); writes nothing when c is false.", "quantifier": "all guards and states", "why_tests_cant": "Depends on the expansion, not on a value.", "anchors": ["include/macros.hpp: HELPER_WARN_ONCE, HELPER_DEPRECATED"]}
{"id": "C66", "title": "The failure counter counts exactly the failed checks", "statement": "After any sequence of HELPER_TEST_* checks, HELPER_TEST_FAILURES equals the number of checks that failed: comparison checks with the wrong result, THROWS/FAIL checks without the expected exception, TRY/CALL blocks left by an exception; warnings and skips do not count.", "quantifier": "all test programs", "why_tests_cant": "All programs built from the macros.", "anchors": ["include/test.hpp: HELPER_TEST_*"]}
{"id": "C67", "title": "A test executable exits with status 0 iff no check failed", "statement": "main returns HELPER_TEST_FAILURES; the status seen by ctest is 0 exactly when no check failed.", "quantifier": "all numbers of failures", "why_tests_cant": "Needs test programs with particular numbers of failures.", "anchors": ["include/test.hpp: HELPER_TEST_FAILURES", "test/test_array.cpp: main"]}
{"id": "C68", "title": "Checks evaluate the tested expression once", "statement": "HELPER_TEST_EQUALS(e,x) and its siblings evaluate e exactly once, so that testing an expression with side effects does not change what is tested.", "quantifier": "all expressions with side effects", "why_tests_cant": "All stateful expressions.", "anchors": ["include/test.hpp: HELPER_TEST_EQUALS, HELPER_TEST_CHECK, HELPER_TEST_COMPARE, HELPER_TEST_ASSERT"]}
{"id": "C69", "title": "Assigning to make_lpair/make_ltuple assigns every component", "statement": "make_lpair(x,y)=p and make_ltuple(x1,..,xn)=t set the variables to the components of the value on the right, for pairwise different variables, and change nothing else.", "quantifier": "all tuples of variables and values", "why_tests_cant": "All lengths and values.", "anchors": ["include/tuple.hpp: make_lpair, make_ltuple"]}
{"id": "C70", "title": "Swapping through lvalue tuples", "statement": "make_lpair(x,y)=make_lpair(y,x) exchanges x and y.", "quantifier": "all values", "why_tests_cant": "All values.", "anchors": ["include/tuple.hpp: make_lpair"]}
{"id": "C71", "title": "stack_trace prints one line per frame and has defined behaviour", "statement": "stack_trace() writes exactly one line per stack frame (at most 128) to standard error for every symbol table, without undefined behaviour; when disabled it writes nothing.", "quantifier": "all call stacks, all results of dladdr and demangling", "why_tests_cant": "Depends on stripped or static symbols not present in a test.", "anchors": ["src/stack_trace.cpp: stack_trace"]}
{"id": "C72", "title": "HELPER_FAIL_MSG and HELPER_NOT_IMPLEMENTED always throw", "statement": "HELPER_FAIL_MSG(msg) always throws std::runtime_error whose text is the location followed by the text of msg, the expressions of msg being evaluated exactly once; HELPER_NOT_IMPLEMENTED always throws std::runtime_error naming the enclosing function, without any other effect.", "quantifier": "all messages (not using the macro's reserved local name ss), locations and states", "why_tests_cant": "All messages with side effects; a test sees one message.", "anchors": ["include/macros.hpp: HELPER_FAIL_MSG, HELPER_NOT_IMPLEMENTED"]}
{"id": "C73", "title": "HELPER_NOTIFY, HELPER_WARN and HELPER_ERROR write exactly one report", "statement": "Each of the three macros evaluates the expressions of its message exactly once, in order, and writes heading, message text and newline to standard error; it has no other effect, and an exception thrown by the message passes through.", "quantifier": "all messages and states", "why_tests_cant": "Messages with effects and exceptions; the suite does not look at standard error.", "anchors": ["include/macros.hpp: HELPER_NOTIFY, HELPER_WARN, HELPER_ERROR"]}
{"id": "C74", "title": "An object is alive exactly while some Handle owns it", "statement": "After any program of handle operations (copies, moves, assignments, casts, non-const accesses, held references, failing allocations) an object is alive iff at least one handle holds it: nothing is leaked and no handle holds a destroyed object.", "quantifier": "all programs of handle operations, all allocation failures", "why_tests_cant": "All interleavings of sharing, detaching and destruction.", "anchors": ["include/handle.hpp: Handle"]}
{"id": "C75", "title": "Checks report failures, and only failures, on standard error", "statement": "A unit test check that is completed writes nothing to standard error if its condition holds; otherwise it writes a text starting with ERROR: FILE:LINE: FUNCTION: (WARNING: for HELPER_TEST_CHECK_WARN) and ending with a newline.", "quantifier": "all fifteen checks, all expressions not using the macros' reserved names, all states", "why_tests_cant": "The check macros are the test harness; no test examines what they print.", "anchors": ["include/test.hpp: HELPER_TEST_ASSERT ... HELPER_TEST_EQUIVALENT_TYPE"]}
{"id": "C76", "title": "A failing construction is a failed check, and testing goes on", "statement": "HELPER_TEST_DECLARE, HELPER_TEST_NAMED_CONSTRUCT and HELPER_TEST_ASSIGN_CONSTRUCT count a construction that throws as a failure and let the test go on; otherwise they declare the variable, evaluating the initialiser once. HELPER_TEST_CONSTRUCT and HELPER_TEST_DEFAULT_CONSTRUCT have the effect of the plain declaration.", "quantifier": "all initialisers not mentioning the declared variable, all states", "why_tests_cant": "The macros are the test harness; no test constructs an object whose constructor throws or counts constructions.", "anchors": ["include/test.hpp: HELPER_TEST_DECLARE, HELPER_TEST_CONSTRUCT, HELPER_TEST_DEFAULT_CONSTRUCT, HELPER_TEST_NAMED_CONSTRUCT, HELPER_TEST_ASSIGN_CONSTRUCT"]}
{"id": "C77", "title": "Static checks count a failure exactly when the compile-time condition is false", "statement": "HELPER_TEST_STATIC_ASSERT, HELPER_TEST_CONCEPT, HELPER_TEST_SAME_TYPE and HELPER_TEST_EQUIVALENT_TYPE have no effect but output when the condition is true; otherwise they add one failure and report it, with the place of the check, on standard error.", "quantifier": "all conditions and states", "why_tests_cant": "The macros are the test harness; no test examines a failing static check.", "anchors": ["include/test.hpp: HELPER_TEST_STATIC_ASSERT, HELPER_TEST_CONCEPT, HELPER_TEST_SAME_TYPE, HELPER_TEST_EQUIVALENT_TYPE"]}
{"id": "C78", "title": "A writer's temporary prints the object by its writer as long as both exist", "statement": "os << w(x) writes exactly what the writer held by w writes for x. A temporary w(x) that is kept prints, whatever is done to other writers and objects in between, the present value of x by the writer it was made from, as long as some Writer variable still holds that writer and x exists; otherwise printing is undefined (so assigning to a Writer that does not share its writer invalidates its temporaries).", "quantifier": "all programs over writer variables, objects and temporaries, all failures of allocation", "why_tests_cant": "All interleavings of sharing, assignment and destruction with the life of the temporary.", "anchors": ["include/writable.hpp: Writer, WriterInterface, WritableTemporary"]}
{"id": "C79", "title": "Every class with a _write function can be inserted into a stream", "statement": "The templated operator<< takes part for a class exactly when t._write(os) is well formed for a constant t and an output stream os, and then it compiles and calls it.", "quantifier": "all declarations of _write (access, constness, kind of stream parameter)", "why_tests_cant": "A class for which the operator is not viable cannot appear in a test that compiles.", "anchors": ["include/writable.hpp: has_write, IsWritable, operator<<"]}
{"id": "C80", "title": "HELPER_CLEAN_TEST_VECTOR deletes every object once and nulls the vector", "statement": "For every vector of pointers to objects made by new (null and repeated pointers allowed) the macro deletes each object pointed to exactly once, leaves all other objects alone and sets every entry to NULL.", "quantifier": "all vectors of pointers", "why_tests_cant": "All vectors, in particular repeated pointers.", "anchors": ["include/test.hpp: HELPER_CLEAN_TEST_VECTOR"]}
{"id": "C81", "title": "A PairIterator moves its components in step", "statement": "After any sequence of advances within the ranges of both components, each component has moved by the sum of the steps; two PairIterators are equal iff both components are, so those started from the same one are equal iff they moved by the same sum.", "quantifier": "all lawful component iterators, all sequences of steps", "why_tests_cant": "All component iterators and histories.", "anchors": ["include/iterator.hpp: PairIterator"]}
{"id": "C82", "title": "LRUCaches are values", "statement": "In any program over cache variables (construction, copy, move, assignment, self-assignment, destruction, calls) every variable behaves like its own least-recently-used list: copies are independent, moving transfers the contents and leaves an empty cache of the same capacity; a copy that fails leaves its source alone and, if it was an assignment, a valid empty cache.", "quantifier": "all programs over cache variables, all label orders", "why_tests_cant": "All interleavings of calls on copies and moved-from caches.", "anchors": ["include/lru_cache.hpp: LRUCache"]}
{"id": "C83", "title": "Threads with handles of their own do not notice each other", "statement": "If every thread modifies only its own handles, and only reads or copies handles that no thread modifies (although the handles may share objects), then in every interleaving there is no undefined behaviour and no data race, every thread gets the outputs it gets when running alone and ends, after a bounded number of its own steps, with its handles having the values they have when it runs alone, unmodified common handles keep their values, and nothing is leaked.", "quantifier": "all numbers of threads, programs over handles, interleavings, sharing at the start, failing allocations", "why_tests_cant": "Interleavings cannot be enumerated by tests; a race may never show.", "anchors": ["include/handle.hpp: Handle, handle_cast, dynamic_handle_cast, pointer_extract", "include/handle.hpp: Handle::_make_unique"]}
{"id": "C84", "title": "Several threads may read through one handle", "statement": "If no thread modifies the object behind a handle, any number of threads may access it through that handle without data race or undefined behaviour.", "quantifier": "all numbers of threads, interleavings, const and non-const accesses", "why_tests_cant": "A race may never show in a test.", "anchors": ["include/handle.hpp: Handle::operator->, Handle::operator*, Handle::reference, Handle::_make_unique"]}
{"id": "C85", "title": "The log of a test states the source texts and the values compared", "statement": "For every check macro and all values of its expressions, the text added to cout is exactly the announcement with the source texts followed by the confirmation or by the complaint with the values, and the text added to cerr is empty if the check is passed and otherwise exactly one report with file, line, function, source texts and values; likewise the logs of messages, static checks, calls, blocks, assignments and expected exceptions are exactly determined by their source texts, values and exceptions.", "quantifier": "all checks, source texts, values, states, places and exceptions", "why_tests_cant": "Tests look at the log of a few failures, if at all; that every failure is reported with its own texts and values concerns all of them.", "anchors": ["include/test.hpp: HELPER_TEST_CLASS, HELPER_TEST_CALL, HELPER_TEST_TRY, HELPER_TEST_THROWS, HELPER_TEST_CHECK, HELPER_TEST_EQUAL, HELPER_TEST_COMPARE, HELPER_TEST_STATIC_ASSERT"]}
{"id": "C86", "title": "An LRUCache in front of a function is transparent", "statement": "Serving requests by has_label(l) ? get(l) : (v=f(l), put(l,v), v) with one cache never throws and answers every request with f(l), whatever was evicted in between.", "quantifier": "all capacities, request sequences, label orders and functions respecting the order's equivalence", "why_tests_cant": "All request sequences; stale or exchanged values may need a long history of evictions.", "anchors": ["include/lru_cache.hpp: LRUCache::has_label, LRUCache::get, LRUCache::put"]}
{"id": "C87", "title": "Which requests an LRUCache answers without evaluation", "statement": "Used in that way, a cache of capacity m answers a request from its contents exactly if the label was requested before and fewer than m different labels were requested since; so a larger cache answers every request from its contents that a smaller one does, and evaluates the function no more often.", "quantifier": "all capacities, request sequences and label orders", "why_tests_cant": "All request sequences and pairs of capacities; other replacement rules (first in, first out) violate it only on special sequences.", "anchors": ["include/lru_cache.hpp: LRUCache::has_label, LRUCache::get, LRUCache::put"]}
{"id": "C88", "title": "The cache is competitive with every other way to choose what to keep", "statement": "For every sequence of requests and every strategy of keeping at most h<=m labels, even one knowing the future, with F requests for labels it does not hold, an LRUCache of capacity m evaluates the function at most m/(m-h+1)*F+m times; and no smaller factor than m/(m-h+1) will do.", "quantifier": "all request sequences, capacities, and strategies including clairvoyant ones", "why_tests_cant": "Quantifies over all strategies and all sequences.", "anchors": ["include/lru_cache.hpp: LRUCache::has_label, LRUCache::get, LRUCache::put"]}
{"id": "C89", "title": "Several threads may call one Lazy", "statement": "Lazy::operator() is const, so several threads may call the same Lazy object at the same time: its function returns successfully at most once, every call that returns gives the same object, the references stay valid, and there is no data race or undefined behaviour.", "quantifier": "any number of threads and Lazy objects, every interleaving of their memory accesses, every function", "why_tests_cant": "Interleavings are not controllable in a test; the window between the null test and the reset is small.", "anchors": ["include/lazy.hpp: Lazy::operator()"]}
{"id": "C90", "title": "Lazy objects may depend on each other", "statement": "If the functions of Lazy objects call other Lazy objects, and none depends on itself, then every sequence of calls terminates; a function that has returned an object is not called again; only Lazy objects that are needed are evaluated; all successful calls of one Lazy return the same object; and if the functions only call each other and return, the values returned do not depend on the order of the calls. Lazy objects depending on each other in a circle do not return.", "quantifier": "all numbers of Lazy objects, functions, acyclic dependencies (which may depend on values), exceptions and sequences of calls", "why_tests_cant": "Tests evaluate a single Lazy whose function calls no other.", "anchors": ["include/lazy.hpp: Lazy::operator()"]}
{"id": "C91", "title": "Words, lists and sets may themselves be elements, keys and labels", "statement": "operator< of BinaryWord, and the lexicographic order of List, Set and std::pair whenever their elements are so ordered, are strict weak orders under which exactly the equal values are equivalent, to any depth of nesting. So Set<BinaryWord>, Set<Set<T>>, Map<List<T>,V> and LRUCache<BinaryWord,V> behave, after every sequence of calls, like plain sets, partial functions and caches, with no notion of order.", "quantifier": "all words, lists and pairs, all sequences of calls, all depths of nesting", "why_tests_cant": "An order that is inconsistent on some triple of words corrupts a tree only after particular insertions; tests use Set<int> and a few words.", "anchors": ["include/binary_word.hpp: BinaryWord::operator<", "include/container.hpp: Set, Map", "include/lru_cache.hpp: LRUCache"]}
{"id": "C92", "title": "Containers stay usable when an element throws", "statement": "If copying or comparing an element, or an allocation, throws inside a function of List, Set or Map, the exception reaches the caller, the containers stay valid and only the target differs: a function returning a new container leaves everything unchanged; inserting, removing and looking up one element has no effect; adjoin, remove and restrict have dealt with the elements before some point of the order and no others; append has appended a beginning; m[k]=v leaves the map unchanged or with k at the default value. Further calls work as if this were an ordinary state.", "quantifier": "all programs of calls, element types with a strict weak order, and all sequences of failures at any point of any call", "why_tests_cant": "A test cannot make an arbitrary copy or allocation inside the library throw, nor cover all failure points of all programs.", "anchors": ["include/container.hpp: List, Set, Map and their functions"]}
{"id": "C93", "title": "Threads drawing random numbers get what they would get one after the other", "statement": "When several threads construct randomisers and call get(), each from its own randomisers or from shared ones, no data race occurs, every value is the one the calls would give one after the other in some order respecting each thread, and the draws use up the output of the one generator with nothing used twice; this holds without a mutex.", "quantifier": "all programs of the threads, all schedules, engines, seeds and distributions", "why_tests_cant": "Races depend on schedules a test does not control; a repeated output of the engine looks like chance.", "anchors": ["include/randomiser.hpp: RANDOM_GENERATOR, RandomiserBase::get"]}
{"id": "C94", "title": "Failed checks are counted whatever thread makes them", "statement": "When several threads execute test macros, HELPER_TEST_FAILURES ends up increased by exactly the number of failed checks of all threads, and the exit status of main reports it; this holds without a mutex.", "quantifier": "all programs of the threads and all schedules", "why_tests_cant": "A lost increment needs a particular interleaving and makes the test program report too few failures.", "anchors": ["include/test.hpp: HELPER_TEST_FAILURES and the macros that increment it"]}
{"id": "C95", "title": "A one-time warning appears once and reports come out whole, whatever threads cause them", "statement": "However many threads come by a use of HELPER_WARN_ONCE or HELPER_DEPRECATED, and in whatever order, it reports exactly once; and the text of a report on std::cerr is not mixed with other reports.", "quantifier": "all programs of the threads, all schedules and messages", "why_tests_cant": "Duplicated or torn reports need a particular interleaving.", "anchors": ["include/macros.hpp: HELPER_WARN_ONCE, HELPER_DEPRECATED, HELPER_WARN, HELPER_NOTIFY, HELPER_ERROR"]}
{"id": "C96", "title": "Threads sharing an LRU cache get what they would get one after the other", "statement": "When several threads call the members of one LRUCache, no data race and no undefined behaviour occurs, every result is the one the calls would give one after the other in some order respecting each thread, and the cache stays a recency list; this holds without a mutex for get, which looks like a read access.", "quantifier": "all programs of the threads, schedules, label and value types, sizes and earlier histories of the cache", "why_tests_cant": "Races depend on schedules a test does not control; the ages broken by one show only in a much later put.", "anchors": ["include/lru_cache.hpp: LRUCache::get, LRUCache::put, LRUCache::has_label, LRUCache::age"]}
{"id": "C97", "title": "Randomisers work across translation units", "statement": "In a program of several translation units that include randomiser.hpp, in whatever order they are initialised, randomisers can be drawn from in initialisers of static variables and in main, and all draws share one generator, no output of which is used twice.", "quantifier": "all programs, orders of initialisation, choices of instantiations by the linker, engines, seeds and distributions", "why_tests_cant": "The order of initialisation and the instantiation kept are chosen by the linker; a test program has one translation unit.", "anchors": ["include/randomiser.hpp: RANDOM_GENERATOR, RandomGenerator::RandomGenerator, RandomiserBase::get"]}
{"id": "C98", "title": "Lists can be read from streams that throw", "statement": "Reading a list into a vector from a stream with any exception mask either gives a list really read or throws ios_base::failure, leaving in the vector the items read before the failure and nothing of its old content; with failbit in the mask nothing is undefined, whatever the input, for lists of lists too; a read that succeeds without a mask gives the same with one, so printed lists read back.", "quantifier": "all masks, streams, texts, old contents, element readers that only move forward, depths of nesting", "why_tests_cant": "A test tries some inputs with some masks; what an exception in the middle leaves behind depends on where it is thrown.", "anchors": ["include/stlio.hpp: read_sequence, operator>>(istream&,vector&)"]}
{"id": "C99", "title": "Words can be read from streams that throw", "statement": "Reading a word from a stream that throws on failure reads the same word as from a stream that does not throw; on other input it throws ios_base::failure, leaving in the word only bits read.", "quantifier": "all masks, streams, texts and old contents", "why_tests_cant": "A test tries some words with some masks, usually none.", "anchors": ["include/binary_word.hpp: operator>>(istream&,BinaryWord&)"]}
{"id": "C100", "title": "Printing to a failing stream writes a beginning of the text, or all of it", "statement": "Whatever the device behind an output stream does (take only part of a text, throw), printing a list, array, set, map, pair, tuple or word leaves on it a beginning of the text; all of it if the stream is good afterwards; the stream throws as its exception mask says and only then; nothing is written to a stream that is not good.", "quantifier": "all devices, exception masks, stream states, contents, printers of the items with the same property, depths of nesting", "why_tests_cant": "Tests print to string streams, which take everything.", "anchors": ["include/stlio.hpp: write_sequence, write_map_sequence, write_tuple, operator<<", "include/container.hpp: operator<<", "include/binary_word.hpp: operator<<"]}
{"id": "C101", "title": "A width set on the stream applies to what is printed", "statement": "After os << std::setw(w), printing a list, set, pair or word pads it as a whole to w characters; what is printed next is not padded.", "quantifier": "all widths, fill characters, adjustments left and right, contents", "why_tests_cant": "No test sets a width; the property speaks of all widths and contents.", "anchors": ["include/container.hpp: operator<<", "include/stlio.hpp: write_sequence, operator<<", "include/binary_word.hpp: operator<<"]}
{"id": "C102", "title": "An object may be owned through the interface it is used through", "statement": "Releasing a unique_ptr (or delete of a pointer) to RandomiserInterface, WritableInterface or WriterInterface destroys the object it owns, whatever its class: the destructor of the class and those of its bases run once each, and the behaviour is defined.", "quantifier": "all classes derived from the interfaces, in any number of steps; all programs creating, drawing from and releasing randomisers", "why_tests_cant": "Deleting through a base without virtual destructor usually seems to work; no test can show the behaviour to be defined.", "anchors": ["include/randomiser.hpp: RandomiserInterface, RandomiserBase, UniformRealRandomiser, UniformIntRandomiser", "include/writable.hpp: WritableInterface, WriterInterface"]}
{"id": "C103", "title": "IsInvocable and IsInvocableReturning agree with the concepts", "statement": "IsInvocable<F,A>::value is true exactly if an F can be invoked with an A, and IsInvocableReturning<R,F,A>::value exactly if moreover the result converts to R, as the concepts Invocable and InvocableReturning say.", "quantifier": "all types R, F, A and all programs defining their calls, conversions and assignments", "why_tests_cant": "The traits speak about all types; a test instantiates a few.", "anchors": ["include/metaprogramming.hpp: IsInvocable, IsInvocableReturning, Invocable, InvocableReturning"]}
{"id": "C104", "title": "to_string(x) is the text os << x appends", "statement": "os << x appends to_string(x) to the stream; the to_string of a pair, list or set consists of the to_strings of its parts; a list of integers can be read back from its to_string.", "quantifier": "all values built from integers, bools, texts, words, lists, sets, maps and pairs, to any depth; streams with and without boolalpha", "why_tests_cant": "A test compares some texts; the property speaks of all nestings.", "anchors": ["include/string.hpp: to_string, to_str", "include/stlio.hpp: operator<<", "include/container.hpp: operator<<", "include/binary_word.hpp: operator<<"]}
{"id": "C105", "title": "The pointer returned by c_str(s) is valid while s lives unchanged", "statement": "After p = c_str(s), reading p gives the text of s as long as s is neither changed nor destroyed.", "quantifier": "all programs creating, changing and destroying strings of class String and std::string, taking pointers and reading them", "why_tests_cant": "Reading a dangling pointer usually still gives the text in a test.", "anchors": ["include/string.hpp: String, c_str, to_string"]}
{"id": "C106", "title": "A handle made from an object holds a copy of that object", "statement": "Handle<I> h(x) holds an object of the dynamic type and value of x, whatever reference to it x is; an lvalue x is left as it was.", "quantifier": "all class hierarchies that copy properly, all objects, all static types of the expression x, lvalues and rvalues, all states of the other handles", "why_tests_cant": "A test passes some objects as what they are; overload resolution depends on the static type and on traits of the class.", "anchors": ["include/handle.hpp: Handle::Handle"]}
{"id": "C107", "title": "make_handle<T>(args...) does what T(args...) does", "statement": "make_handle<T>(args...) holds the object that T(args...) makes, and the arguments are afterwards what they are after T(args...): those passed as rvalues are moved from, the others unchanged.", "quantifier": "all classes T and their constructors, all argument lists with any of them rvalues", "why_tests_cant": "A copy instead of a move gives the same object in most tests; the property speaks of all classes.", "anchors": ["include/handle.hpp: make_handle"]}
{"id": "C108", "title": "Several threads may copy SharedArrays that share their elements", "statement": "Threads may copy and assign SharedArrays, each to variables of its own, and read and write elements, without data races; afterwards each share count is the number of sharers.", "quantifier": "all numbers of threads, all their programs, all interleavings, all states", "why_tests_cant": "The race is lost only in rare schedules, and the consequence (a premature delete) comes much later.", "anchors": ["include/array.hpp: SharedArray"]}
{"id": "C109", "title": "HELPER_TEST_WITHIN compares the values of its arguments", "statement": "HELPER_TEST_WITHIN(expression,expected,tolerance) reports success exactly when the value of expression differs from the value of expected by at most the value of tolerance, whatever expressions the arguments are.", "quantifier": "all integer expressions of any operators and depth as arguments, all values of their variables", "why_tests_cant": "The verdict depends on how the text of the arguments groups with the text of the macro; a test only passes some texts, and a wrong check may pass.", "anchors": ["include/test.hpp: HELPER_TEST_WITHIN"]}
{"id": "C110", "title": "Failure messages show the values of the arguments", "statement": "The message of a failed HELPER_ASSERT_EQUAL ends with the values of its two arguments, and that of HELPER_ASSERT_MSG and the other macros with a message ends with the value of the message argument; both accept every expression that can be compared or printed.", "quantifier": "all integer expressions of any operators and depth as arguments, all messages put together from texts and such expressions", "why_tests_cant": "Messages appear only on failure, and depend on how the text of the arguments groups with the text of the macro.", "anchors": ["include/macros.hpp: HELPER_ASSERT_EQUAL, HELPER_ASSERT_MSG, HELPER_PRECONDITION_MSG, HELPER_FAIL_MSG"]}
{"id": "C111", "title": "An LRUCache in front of a recursive function is transparent", "statement": "A function that asks the cache first, otherwise computes its value by calling itself for other labels, and then puts the value, gives the outcomes (values and exceptions) it would give without the cache, and ends whenever it would end without it; no call of the cache is ever rejected or undefined, whatever the capacity. If the cache has room for all labels evaluated, no label is evaluated to a value twice.", "quantifier": "all recursive functions (any number of calls, depending on earlier answers, handling exceptions or not), all label orders, all capacities, all sequences of requests", "why_tests_cant": "During the computation of one label other labels are put and evicted, so the state between the check and the put is arbitrary; put throws if the label has appeared meanwhile.", "anchors": ["include/lru_cache.hpp: LRUCache::has_label, LRUCache::get, LRUCache::put"]}
{"id": "C112", "title": "List<T>(x) is the list with the one element x", "statement": "For every x that converts to T, List<T>(x), the conversion of x to List<T>, and List<T>{x} give the list whose only element is x.", "quantifier": "all arithmetic types and all classes as T and as type of x, whatever conversions the classes have", "why_tests_cant": "The constructor is chosen by the types: a test tries some, and the constructor that takes a size accepts the same arguments silently.", "anchors": ["include/container.hpp: List::List(T const&), the constructors inherited by List from std::vector"]}
{"id": "C113", "title": "Containers made from n and x contain n copies of x", "statement": "List<T>(n,x), Array<T>(n,x) and LinkedList<T>(n,x) contain n copies of x for every n that converts to size_t and every x that converts to T; make_list(x) and make_array(x) contain x alone.", "quantifier": "all arithmetic types and all classes as T and as types of n and x, whatever conversions the classes have", "why_tests_cant": "The constructor is chosen by the types; the template for two iterators takes any two arguments of one type.", "anchors": ["include/container.hpp: LinkedList, make_list, make_array", "include/array.hpp: Array(size_t,ValueType), Array(size_t,G), Array(ForwardIterator,ForwardIterator)"]}
{"id": "C114", "title": "accept calls the visitor as the caller would", "statement": "CodedVariant::accept(v) has the effect and result of v(t) for the alternative t held, v being const or not as in the call of accept; a const visitor is not changed.", "quantifier": "all visitor classes with a const call operator, one that is not const, or both; all visitors, const or not; all alternatives", "why_tests_cant": "accept takes the visitor as const and casts the const away; whether this shows depends on the visitor class and on how the visitor was defined.", "anchors": ["include/variant.inl.hpp: CodedVariant::accept"]}
{"id": "C115", "title": "make_array and make_list of a sequence contain its elements", "statement": "For every sequence s (std::vector, List, Array, SharedArray, std::set, Set, std::list, LinkedList), make_array(s) and make_list(s) contain the elements of s in order; for any other value they contain the value.", "quantifier": "all classes of sequences, all elements", "why_tests_cant": "The overload is chosen by the class of the argument; with auto the wrong choice compiles, and the test only tries a Set.", "anchors": ["include/container.hpp: make_array, make_list"]}
{"id": "C116", "title": "Map::insert takes every key and value that convert", "statement": "For every k that converts to K and v that converts to T, m.insert(k,v) and m.insert({k,v}) compile and insert the converted pair if the key is absent.", "quantifier": "all arithmetic types and all classes as K, T and as types of k and v, whatever conversions the classes have", "why_tests_cant": "A call that does not compile cannot appear in a test; which calls compile depends on overloads inherited from std::map.", "anchors": ["include/container.hpp: Map::insert, using std::map<K,T>::insert"]}
{"id": "C117", "title": "Containers of things that print, print", "statement": "Every type built from printable types by the containers of Helper and of the standard library, pairs and tuples can be inserted into a stream.", "quantifier": "all types, nested to any depth, from clients that use namespace Helper or not", "why_tests_cant": "Infinitely many types; an operator that is not found shows only when a client compiles.", "anchors": ["include/container.hpp: operator<<", "include/stlio.hpp: operator<< for pairs and tuples, write_tuple, write_sequence"]}
{"id": "C118", "title": "apply(f,l) works for every list", "statement": "A client's call apply(f,l) gives the list of the results of f for every List l, const or not, named or temporary.", "quantifier": "all functions, all lists, qualified and unqualified calls", "why_tests_cant": "The choice between the library's apply and std::apply depends on the argument's category; a call that does not compile cannot be in a test.", "anchors": ["include/container.hpp: apply"]}
{"id": "C119", "title": "A class with HELPER_USING_CONSTRUCTORS is made as its base is, and copied as a whole", "statement": "A class that declares HELPER_USING_CONSTRUCTORS(Class,Base) is made from arguments as Base is made from them, with its further members initialised by default; a copy made from an object of the class, or of a class derived from it, equals the original (or its part of that class); and exactly those conversions are implicit that are so for Base.", "quantifier": "all classes with further members, all bases, all argument types, const or not, lvalues and rvalues", "why_tests_cant": "The macro is not used in the tests; the constructor chosen depends on the category of the argument, and a wrong copy differs only in members that were changed.", "anchors": ["include/macros.hpp: HELPER_USING_CONSTRUCTORS"]}
{"id": "C120", "title": "BinaryWord::append appends the symbols its argument denotes", "statement": "w.append(x) appends the symbols that x denotes: a bool, a bit of a word, 0 or 1 as number or digit, a BinaryWord, or a text that BinaryWord(x) accepts.", "quantifier": "all words, all arguments of these types", "why_tests_cant": "A call with a text or digit compiles and appends something, which is right for some of them.", "anchors": ["include/binary_word.hpp: BinaryWord::append, BinaryWord::BinaryWord(const StringType&)"]}
{"id": "C121", "title": "What get returns can be passed on", "statement": "For a cache whose labels and values have one type, calls such as cache.put(cache.get(a),cache.get(b)), in which what get returns is an argument of another call of the same cache, do the same as with copies of the values.", "quantifier": "all capacities, all programs of calls nested to any depth, both orders of evaluating arguments", "why_tests_cant": "The reference designates an element that the call itself may erase; the test only gets values and drops them.", "anchors": ["include/lru_cache.hpp: LRUCache::get, LRUCache::put"]}
{"id": "C122", "title": "Iterators made with IteratorFacade serve the standard library", "statement": "An iterator made with IteratorFacade supports every expression the standard requires of the category it claims, and std::distance, std::advance, a for loop and std::lower_bound on it give what they should.", "quantifier": "all cores satisfying the facade's requirements, both traversal tags, all ranges and predicates", "why_tests_cant": "The tests use a handful of the operators; a missing one shows only when an algorithm that needs it is compiled.", "anchors": ["include/iterator.hpp: IteratorFacade"]}
{"id": "C123", "title": "The check of a subpaving's iterator counts every difference", "statement": "HELPER_TEST_GRID_TREE_SUBPAVING_ITERATOR(expected,p,n) adds to HELPER_TEST_FAILURES one for each of the first n positions where the element iterated over differs from the one expected, and one if there are not n elements; so it passes exactly if the elements are the n expected ones.", "quantifier": "all sequences of elements and expected elements, all numbers n, all expressions for p and n", "why_tests_cant": "The check is itself part of the testing library, and is used by none of its tests; a check that always passes looks like success.", "anchors": ["include/test.hpp: HELPER_TEST_GRID_TREE_SUBPAVING_ITERATOR"]}
{"id": "C124", "title": "Array fill(x) fills with copies of x", "statement": "For an Array<T> a and any x that converts to T, a.fill(x) compiles and makes every element of a the value of x converted to T.", "quantifier": "all element types, all types of x, all lengths", "why_tests_cant": "Which function is called is decided by overload resolution for each type; a test tries one, usually T itself.", "anchors": ["include/array.hpp: Array::fill(const ValueType&)", "include/array.hpp: Array::fill(InputIterator)"]}
{"id": "C125", "title": "Array(first,last) holds the elements of the range, for iterators of any type", "statement": "For iterators of any type whose elements convert to T, Array<T>(first,last) holds the elements from first to last converted to T; for iterators whose elements do not convert to T it does not compile.", "quantifier": "all element types, all types of iterators, all ranges", "why_tests_cant": "Which function is called is decided by overload resolution for each type; tests use iterators whose type is not that of the elements.", "anchors": ["include/array.hpp: Array::Array(ForwardIterator,ForwardIterator)", "include/array.hpp: Array::_uninitialized_fill"]}
{"id": "C126", "title": "results that point at elements of the list stay usable", "statement": "If f takes its argument by reference and returns a pointer or reference to it, or something that holds one, the results of apply(f,l), elementwise(f,l) and elementwise(f,l1,l2) point at the elements of the lists and can be used as long as those exist.", "quantifier": "all lists, all functions that return a value of their own or the address of an argument, per argument", "why_tests_cant": "Reading a dangling pointer usually still finds the old value in a test, and only the lifetime of the loop's variable tells the difference.", "anchors": ["include/container.hpp: apply", "include/container.hpp: elementwise"]}
{"id": "C127", "title": "apply and elementwise call f for the elements the list has at the call", "statement": "apply(f,l) and elementwise(f,l) call f once for each element l has when they are called, in order, and hold the results, also if f reads l, assigns to its elements, appends to it or removes from it meanwhile.", "quantifier": "all lists, all programs of reads, assignments, appends and removals as f", "why_tests_cant": "The iterators that a change of size invalidates often keep working until the storage moves; tests pass functions of the element only.", "anchors": ["include/container.hpp: apply", "include/container.hpp: elementwise"]}
{"id": "C128", "title": "functions of List and Set take braced lists of any length", "statement": "For values x1,...,xn that convert to T without narrowing, l.append({x1,...,xn}), catenate(l,{x1,...,xn}) and l.concatenate({x1,...,xn}) append exactly these n values to a List<T>; for a Set<T>, s.remove({x1,...,xn}) removes them, s.adjoin({x1,...,xn}) adds them, s.subset({x1,...,xn}) and s.disjoint({x1,...,xn}) test them; for every n, zero included.", "quantifier": "all element types, all types and numbers of values, all lists and sets", "why_tests_cant": "Which function is called is decided by overload resolution for each type and length; tests pass lists of two or three numbers, if any.", "anchors": ["include/container.hpp: List::append", "include/container.hpp: catenate", "include/container.hpp: List::concatenate", "include/container.hpp: Set::remove", "include/container.hpp: Set::adjoin", "include/container.hpp: Set::subset", "include/container.hpp: Set::disjoint"]}
{"id": "C129", "title": "Sequences written with any delimiters read back with the same delimiters", "statement": "What write_sequence(os,first,last,opening,closing,separator) prints for a sequence of integers, read_sequence(is,v,opening,closing,separator) reads back as the same sequence, leaving the stream usable after the closing delimiter, whatever the three characters are.", "quantifier": "all triples of characters, all sequences of integers in the range of their type, any text that follows", "why_tests_cant": "There are 2^24 triples of characters and infinitely many sequences; tests use the default delimiters.", "anchors": ["include/stlio.hpp: write_sequence", "include/stlio.hpp: read_sequence"]}
{"id": "C130", "title": "dynamic_handle_cast can be called for every handle", "statement": "A call dynamic_handle_cast<D>(h) compiles and links, and calls the function defined in handle.hpp, for every handle h and every handle class D that is made from a handle.", "quantifier": "all types and value categories of the argument, const and non-const interfaces, qualified and unqualified calls", "why_tests_cant": "A test is one call that does compile; calls that cannot be built cannot be in a test at all.", "anchors": ["include/handle.hpp: dynamic_handle_cast"]}
{"id": "C131", "title": "dynamic_handle_extract gives write access only to what may be written", "statement": "A call dynamic_handle_extract<T>(h) can be built for every handle h, and its result is a reference to non-const only if h is not const and the interface of the handle is not const.", "quantifier": "all types and value categories of the argument", "why_tests_cant": "Which overload is chosen is decided for each combination of types at compile time; a test covers the combinations it spells out.", "anchors": ["include/handle.hpp: dynamic_handle_extract"]}
{"id": "C132", "title": "stack_trace frees what it allocates", "statement": "stack_trace() frees every block of memory it obtains exactly once, whether it returns or an insertion into std::cerr throws, whether or not the demangler finds memory, and reads the strings only while they exist.", "quantifier": "all stacks, all results of dladdr and of the demangler, all insertions that throw", "why_tests_cant": "Leaks are not visible to a unit test, and it would have to make std::cerr throw at each insertion on each stack.", "anchors": ["src/stack_trace.cpp: stack_trace"]}
{"id": "C133", "title": "Any number of translation units may include any of the headers", "statement": "A program whose translation units include any of the headers of the library, in any order, compiles and links if its own definitions do.", "quantifier": "all programs, all sets and orders of included headers", "why_tests_cant": "A test is one program, with one translation unit; the program that does not link is not among the tests.", "anchors": ["include/test.hpp: HELPER_TEST_FAILURES", "include/binary_word.hpp: BinaryWord", "include/macros.hpp"]}
{"id": "C134", "title": "get_first, ..., get_fifth are the elements of a tuple", "statement": "get_first(t), ..., get_fifth(t) exist exactly if the tuple has so many elements, and give the element itself: it can be assigned through it exactly if the element may be written, nothing else changes, it is moved from only if the tuple is an rvalue that has the object to give away, and the result can be used after the tuple is gone exactly if the element is a reference.", "quantifier": "all tuples of objects, lvalue and rvalue references; lvalue, const and rvalue arguments; all values", "why_tests_cant": "Tests read one tuple of values; reference elements, rvalues and lifetimes are combinations of types, and use after the lifetime cannot be observed reliably.", "anchors": ["include/tuple.hpp: get_first", "include/tuple.hpp: get_second", "include/tuple.hpp: get_third", "include/tuple.hpp: get_fourth", "include/tuple.hpp: get_fifth"]}
{"id": "C135", "title": "An assignment to make_ltuple or make_lpair that throws leaves the variables as they were", "statement": "If the assignment of an element throws in make_ltuple(x1,...,xn)=t or make_lpair(x,y)=p, and leaves its own variable as it was, all variables have the values they had before.", "quantifier": "all numbers of variables, all values, all orders of assignment, every element that throws", "why_tests_cant": "Needs types whose assignment throws at a chosen element, for every element and every order a library may choose.", "anchors": ["include/tuple.hpp: make_ltuple", "include/tuple.hpp: make_lpair"]}
{"id": "C136", "title": "A macro takes any expression as an argument", "statement": "Each macro may be called with any expressions, types and statements for its parameters, as a function may: the call is accepted, and each parameter stands for the argument written for it.", "quantifier": "all macros of macros.hpp and test.hpp, all arguments made of names, commas, parentheses, brackets, braces and angle brackets, all uses of macros in them", "why_tests_cant": "The arguments are texts of unbounded size and nesting; a call that is not accepted does not compile and so cannot be part of a test.", "anchors": ["include/macros.hpp: HELPER_ASSERT", "include/macros.hpp: HELPER_ASSERT_EQUAL", "include/macros.hpp: HELPER_FAIL_MSG", "include/test.hpp: HELPER_TEST_CALL", "include/test.hpp: HELPER_TEST_STATIC_ASSERT"]}
{"id": "C137", "title": "A macro called with a semicolon behind it is one statement", "statement": "A macro that is used as a statement, followed by a semicolon, may stand wherever a statement may, as a branch of an if with or without else in particular, and does all it does exactly if that statement is executed.", "quantifier": "all functions made of plain statements, blocks, if, else and calls of the macros, nested to any depth; all values of the conditions", "why_tests_cant": "Infinitely many functions; those that are not parsed do not compile and cannot be tests, and those parsed differently from what is meant do.", "anchors": ["include/macros.hpp: HELPER_ASSERT", "include/macros.hpp: HELPER_NOT_IMPLEMENTED", "include/test.hpp: HELPER_TEST_CONSTRUCT", "include/test.hpp: HELPER_TEST_DECLARE"]}
{"id": "C138", "title": "The message of a failed static check names the class under test", "statement": "The class named in the message of a failed HELPER_TEST_STATIC_ASSERT, _CONCEPT, _SAME_TYPE or _EQUIVALENT_TYPE is the one whose HELPER_TEST_CLASS the check is run by; ??? if it is run by none.", "quantifier": "all nestings and sequences of tests of classes, calls, checks and exceptions", "why_tests_cant": "Tests do not read their own messages, and there are infinitely many ways to nest and to leave the tests of classes.", "anchors": ["include/test.hpp: HELPER_TEST_CLASS", "include/test.hpp: HELPER_CURRENT_TESTING_CLASS", "include/test.hpp: HELPER_TEST_STATIC_ASSERT"]}
{"id": "C139", "title": "All comparisons of binary words agree", "statement": "<, >, <=, >=, == and != of binary words, and of a word and a std::vector<bool>, are those of one total order, the lexicographic one: exactly one of <, == and > holds, and the other three are negations.", "quantifier": "all pairs of words and vectors, all six operators", "why_tests_cant": "Infinitely many pairs; < is the word's own operator, and the others are inherited, so they agree only if two separate algorithms do on every pair.", "anchors": ["include/binary_word.hpp: BinaryWord::operator<", "include/binary_word.hpp: BinaryWord"]}
{"id": "C140", "title": "apply and elementwise take every function that can be called with the elements", "statement": "If f(x1,...,xk) may be written for elements of k const lists and gives an object or a reference to one, elementwise(f,l1,...,lk), and apply(f,l) if k is 1, compile, call just that overload of f for each element, and return a List of the objects it gives, without further conversion.", "quantifier": "functions by name, pointers to functions, const and other function objects with any number of call operators; arguments taken by value or any kind of reference; all types of results; any number of lists", "why_tests_cant": "The functions a client may pass are infinitely many types, and those that are not accepted do not compile, so that no test contains them.", "anchors": ["include/container.hpp: apply", "include/container.hpp: elementwise", "include/metaprogramming.hpp: ResultOf"]}
{"id": "C141", "title": "The elements of an array are where objects of their type may be", "statement": "Array<T> and SharedArray<T> construct their elements at addresses that are multiples of the alignment of T.", "quantifier": "all sizes and alignments of T, all numbers of elements, all addresses an allocation function may return", "why_tests_cant": "Which addresses are returned is up to the allocation function; a test may find its storage aligned by chance, and what happens if it is not is undefined.", "anchors": ["include/array.hpp: Array::uninitialized_new", "include/array.hpp: SharedArray"]}
{"id": "C142", "title": "ResultOf<F(AS...)> is InvokeResult<F,AS...>", "statement": "For all types F and AS, ResultOf<F(AS...)> exists exactly if InvokeResult<F,AS...> does, and is the same type.", "quantifier": "all types of callees and arguments, all that they may return", "why_tests_cant": "Infinitely many types; where the first does not exist a test does not compile.", "anchors": ["include/metaprogramming.hpp: ResultOf", "include/metaprogramming.hpp: InvokeResult"]}
{"id": "C143", "title": "Setting the system's clock does not change what a stopwatch measures", "statement": "duration() is the time that passed between the last start and the last click after it, also if the time of day of the system is set in between.", "quantifier": "all programs over any number of stopwatches, all units, all clock readings and all changes of the time of day", "why_tests_cant": "A test cannot set the system's clock, and which clock high_resolution_clock is depends on the standard library.", "anchors": ["include/stopwatch.hpp: Stopwatch::restart", "include/stopwatch.hpp: Stopwatch::click", "include/stopwatch.hpp: Stopwatch::duration"]}
{"id": "C144", "title": "Set::remove removes what contains finds", "statement": "Whenever s.contains(x) compiles, s.remove(x) does, and it removes just the element that s.contains(x) finds; if x is a sequence that does not convert to an element, it removes what s.contains finds for each of its items.", "quantifier": "all types of elements and arguments made from numbers, strings, vectors, lists and sets; all sets and arguments", "why_tests_cant": "The types are infinitely many; calls that do not compile cannot be in a test, and undefined behaviour may look right.", "anchors": ["include/container.hpp: Set::remove", "include/container.hpp: Set::contains", "include/container.hpp: List"]}
{"id": "C145", "title": "Vectors and lists with the same elements convert alike", "statement": "Whatever a std::vector<T> converts to, a List<T> with the same elements does too, and conversely, and to the same value.", "quantifier": "all element types and target types made from numbers, strings, vectors, lists and sets; all values", "why_tests_cant": "Infinitely many types.", "anchors": ["include/container.hpp: List", "include/container.hpp: Set"]}
{"id": "C146", "title": "A failed cast says what could not be converted to what", "statement": "A dynamic_handle_cast or dynamic_handle_extract that fails writes to std::cerr one line with the function, the object as it prints itself, its static type, its dynamic type and the type asked for, and throws std::bad_cast; one that succeeds writes nothing.", "quantifier": "all class hierarchies, objects, types asked for, _write functions, all states and buffers of std::cerr", "why_tests_cant": "The tests only catch the exception; the text depends on hierarchies and on a stream that may be in any state.", "anchors": ["include/handle.hpp: write_error", "include/handle.hpp: dynamic_handle_cast", "include/handle.hpp: dynamic_handle_extract"]}
{"id": "C147", "title": "A list of arrays releases the arrays removed from it", "statement": "When a List<Array<T>> has been destroyed, the storage and the elements of all arrays that ever were in it have been released, whatever was inserted, erased, removed, swapped or assigned in between; and the list always contains the right sequences.", "quantifier": "all sequences of operations on lists, all sizes and contents of arrays", "why_tests_cant": "Lost storage is not observable by a test, and which operations lose some depends on positions.", "anchors": ["include/array.hpp: Array::operator=(Array&&)", "include/container.hpp: List"]}
{"id": "C148", "title": "A container made from a braced list contains the members", "statement": "List<T>{x1,...,xn}, and the same for Array, Set and LinkedList, contains x1,...,xn if they convert to T without loss, and does not compile otherwise.", "quantifier": "all element types, all members of arithmetic and class types, constant or not", "why_tests_cant": "Which constructor is chosen depends on the types of all members; a test compiles finitely many of them, and a test that should not compile cannot be written as one.", "anchors": ["include/container.hpp: List, LinkedList, Set (constructors)", "include/array.hpp: Array (constructors)"]}
{"id": "C149", "title": "Functions that are not members take what the members take", "statement": "contains(s,x), disjoint(s,x), subset(s,x), join(s,x), remove(s,x) and catenate(l,x) can be called with every x that s.contains, s.disjoint, s.subset, s.adjoin, s.remove and l.append can be called with, and do the same (subset: as in C25).", "quantifier": "all types of numbers, strings, vectors, lists and sets, nested to any depth, and all values", "why_tests_cant": "The set of types is infinite, and a test with a call that does not compile cannot be built.", "anchors": ["include/container.hpp: contains, disjoint, subset, join, remove, catenate", "include/container.hpp: Set, List (members)"]}
{"id": "C150", "title": "Containers convert as their elements do", "statement": "For every container C (List, LinkedList, Array, Set, Map in its values) a C<TT> converts to a C<T> implicitly if TT does to T, only explicitly if TT does so, and not otherwise, as the type traits say; the result has the converted elements.", "quantifier": "all element types and conversions between them, all containers, lists nested to any depth, all contents", "why_tests_cant": "The element types form an infinite set; a test that should not compile cannot be part of a test program, and a type trait that answers wrongly is only seen with the types for which it does.", "anchors": ["include/container.hpp: List, LinkedList, Set, Map (constructor templates)", "include/array.hpp: Array (conversion constructors)", "include/metaprogramming.hpp: ConvertibleTo, ExplicitlyConvertible"]}
{"id": "C151", "title": "The standard algorithms accept ranges", "statement": "begin(r) and end(r) of a Range are input iterators: the standard algorithms on input iterators and the constructors of containers from two iterators accept them and compute with the numbers from start to stop-1.", "quantifier": "all ranges, all operations passed to the algorithms, a list of algorithms and constructors", "why_tests_cant": "A call that does not compile cannot be tested; for those that compile the results depend on unboundedly many ranges and operations.", "anchors": ["include/range.hpp: RangeIterator", "include/range.hpp: begin, end"]}
{"id": "C152", "title": "A reference to an element of an array follows the element", "statement": "A reference to an element of an Array stays a reference to that element, whatever is done to other arrays or to the elements and whatever fails, until the array is destroyed, reallocated, resized, or assigned from an array or a range of another size; from then on it dangles. After a move or a swap of arrays it refers to the element of the array that has the elements now.", "quantifier": "all programs of operations on arrays whose results are defined (see C08), before and after the reference is taken, with any failures", "why_tests_cant": "Whether a reference still designates the element, and not freed or other storage that happens to hold the value, cannot be observed by a test, and the programs are unboundedly many.", "anchors": ["include/array.hpp: Array::operator[]", "include/array.hpp: Array::resize, Array::operator=, Array::swap, Array::assign, Array::reallocate"]}
{"id": "C153", "title": "A cache owns exactly one copy of each label and value it holds", "statement": "Between two calls on an LRUCache, whatever was called and whatever copy, move, comparison or allocation threw, exactly one label, one value and one node made by the cache exist per element; destroying the cache destroys each of them once. A put that returns copies the label twice and the value twice and moves the value twice (copies it instead if it cannot be moved); get, age, has_label and the sizes make no objects. A put that fails leaves the cache as it was, or with the room made (C06).", "quantifier": "all programs of calls on a cache, all labels, values and orders of the labels, every combination of the points at which a call can throw", "why_tests_cant": "The points of failure and the histories are unboundedly many, and a leaked or doubly destroyed copy is visible only to instrumented types at the failure concerned.", "anchors": ["include/lru_cache.hpp: LRUCache::put, AgeValuePair", "include/lru_cache.hpp: LRUCache::get, LRUCache::age, LRUCache::has_label"]}
{"id": "C154", "title": "Iterators and const iterators made with IteratorFacade can be mixed", "statement": "For two classes of random access iterators made with IteratorFacade, of which one converts to the other at the same position (iterator to const_iterator), every comparison and difference of an iterator and a const_iterator, in either order, compiles and gives the answer for their positions.", "quantifier": "all pairs of lawful iterator classes (C48), all conversions between them, all positions, the six comparisons and the difference, both orders", "why_tests_cant": "Tests instantiate some operators for some classes; an operator that does not compile for mixed operands is met only by the program that needs it.", "anchors": ["include/iterator.hpp: IteratorFacade<I,Val,RandomAccessTraversalTag,Ref> operator==, !=, <, <=, >, >=, operator-"]}
{"id": "C155", "title": "Arithmetic expressions over two types have the type ArithmeticType", "statement": "For built-in arithmetic types the type of an expression with +, -, *, / and negation depends only on which types its operands have, not on the operators, the order, the grouping or the number of operands; every such expression over values of X1 and X2, in which both occur, has the type ArithmeticType<X1,X2>; and that type is closed under the operators. It is a floating type if X1 or X2 is; otherwise it has all values of X1 and X2, unless it is unsigned because the upper half of an unsigned type is needed for the values of one of them, and then it has all their values that are not negative.", "quantifier": "all expressions, all built-in arithmetic types, all implementations (widths of the integer types, signedness of char) the language allows", "why_tests_cant": "Expressions are unboundedly many and the widths depend on the implementation; tests see one implementation.", "anchors": ["include/metaprogramming.hpp: ArithmeticType, SumType, DifferenceType, ProductType, QuotientType, NegationType"]}
{"id": "C156", "title": "CanAdd<A1,A2> holds exactly when there is a SumType<A1,A2>", "statement": "HasEquality, CanAdd, CanSubtract, CanMultiply and CanDivide hold for two types exactly when EqualsType, SumType, DifferenceType, ProductType and QuotientType of them exist.", "quantifier": "all pairs of class types and all sets of operators for them", "why_tests_cant": "The operators a user may declare are arbitrarily many; the disagreement shows only for the combination of types and operators concerned.", "anchors": ["include/metaprogramming.hpp: HasEquality, CanAdd, CanSubtract, CanMultiply, CanDivide", "include/metaprogramming.hpp: EqualsType, SumType, DifferenceType, ProductType, QuotientType"]}
{"id": "C157", "title": "A String is initialised and assigned as a std::string is", "statement": "String s=x; and s=x; for a String s compile exactly when they do for a std::string s, and give the same text.", "quantifier": "all texts, characters and numbers, and values x of String, std::string, const char*, std::string_view, char, int, braced characters, nullptr and the literal 0", "why_tests_cant": "An expression that does not compile cannot appear in a test, and one that compiles where it should not is undefined.", "anchors": ["include/string.hpp: String"]}
{"id": "C158", "title": "The printed text of a container determines its contents", "statement": "If two values of one type, built with Array, SharedArray, List, std::list, Set, Map, Pair and Tuple from numbers, truth values, binary words and strings, print alike to the same stream, they are equal; and the text tells where a value ends if a separator follows.", "quantifier": "all types so built, nested to any depth; all values; both settings of boolalpha", "why_tests_cant": "Injectivity is about all pairs of values of all nested types; tests compare single texts.", "anchors": ["include/container.hpp: operator<< for Array, SharedArray, vector, list, set, map", "include/stlio.hpp: operator<< for pair, tuple", "include/stlio.hpp: write_sequence", "include/binary_word.hpp: operator<<"]}
{"id": "C159", "title": "A cache with more room knows what a cache with less room knows", "statement": "After the same calls, a cache of larger capacity has every label that a cache of smaller capacity has, with the same value and no smaller age.", "quantifier": "all label orders, all capacities, all sequences of calls of has_label, get, age, put, current_size and maximum_size", "why_tests_cant": "It compares two caches over unboundedly long histories; the difference needs a put of a label that only the larger cache still has.", "anchors": ["include/lru_cache.hpp: LRUCache::put", "include/lru_cache.hpp: LRUCache::get, LRUCache::has_label, LRUCache::age"]}
{"id": "C160", "title": "Binary words with a common prefix are consecutive in their order", "statement": "A word is not greater than any word it is a prefix of; a word between two words with the prefix p has the prefix p; if neither of p and q is a prefix of the other, words with the prefix p compare to words with the prefix q as p does to q. Hence the words of a Set<BinaryWord> with a given prefix are a segment.", "quantifier": "all words, all sets of words", "why_tests_cant": "It relates operator< and is_prefix on all triples of words of any length.", "anchors": ["include/binary_word.hpp: BinaryWord::operator<", "include/binary_word.hpp: BinaryWord::is_prefix"]}
{"id": "C161", "title": "Iterators made with IteratorFacade can be traversed backwards", "statement": "For a lawful core, std::reverse_iterator over a random access iterator made with IteratorFacade has every operator required of a random access iterator; a loop from make_reverse_iterator(last) to make_reverse_iterator(first) visits the elements of [first,last) from the last to the first; and moving, indexing, subtracting and comparing reverse_iterators mean the same for the reversed sequence.", "quantifier": "all cores, positions, ranges and distances", "why_tests_cant": "All lawful cores and all positions; the test's iterators are only incremented, and reverse_iterator needs operators that forward traversal does not.", "anchors": ["include/iterator.hpp: IteratorFacade::operator--, IteratorFacade::operator-, IteratorFacade::operator-=, IteratorFacade::operator+=", "include/iterator.hpp: IteratorFacade::operator*, comparison operators"]}
{"id": "C162", "title": "LinkedList::append and concatenate add what they are given", "statement": "For a List<T> and for a LinkedList<T> l, l.append(x) compiles and adds x for every x that converts to T; l.append(m) and l.concatenate(m) compile and add the elements of m in order for every list m of the same type.", "quantifier": "all element types, all types of arguments and conversions between them, all lists", "why_tests_cant": "No test calls the functions of LinkedList, and members of a template are compiled only when called; which values can be appended is a question about all pairs of types.", "anchors": ["include/container.hpp: List::append, List::concatenate", "include/container.hpp: LinkedList::append, LinkedList::concatenate, LinkedList(unsigned int)"]}
{"id": "C163", "title": "apply(f,s) is the set of the results", "statement": "For a Set s, apply(f,s) calls f once for every element of s, in increasing order, and returns the Set of the results; if a call throws, apply throws the same.", "quantifier": "all functions, with or without side effects, all result types with a strict weak order, all sets", "why_tests_cant": "No test applies a function to a Set; whether the function compiles depends on the result type, and a call that does not compile cannot be in a test.", "anchors": ["include/container.hpp: apply(F&&, Set<T> const&)", "include/container.hpp: Set::adjoin"]}
{"id": "C164", "title": "A PairIterator can be dereferenced and measured as its components can", "statement": "For all iterators it1 and it2, PairIterator(it1,it2).dereference() gives the pair of *it1 and *it2, and distance_to gives the number of steps between two of them.", "quantifier": "all types of iterators and elements", "why_tests_cant": "No test uses PairIterator; members of a template are compiled only when called, and whether they compile depends on the types.", "anchors": ["include/iterator.hpp: PairIterator::dereference, PairIterator::Reference", "include/iterator.hpp: PairIterator::distance_to"]}
{"id": "C165", "title": "Assignable<T,F> holds exactly if a T may be assigned an F", "statement": "Assignable<T,F>, AssignableFrom<T,F> and AssignableTo<F,T> hold exactly if a variable of type T may be assigned a value of type F.", "quantifier": "all types: with built-in assignment, and classes with any set of assignment operators, deleted or ref-qualified or not; const types; references", "why_tests_cant": "The concepts speak about all types; a test instantiates a few, and the disagreement depends on whether T is a class.", "anchors": ["include/metaprogramming.hpp: Assignable, AssignableFrom, AssignableTo"]}
{"id": "C166", "title": "A printed list of floating-point numbers reads back as the same list", "statement": "What operator<< prints for a list of floating-point numbers, operator>> reads as the same list, whatever the precision of the stream.", "quantifier": "all lists of values (finite or not) of all floating-point types with b bits of significand, values below 2^emax and a least value of 2^-E; all precisions from 1; all streams and texts behind the list", "why_tests_cant": "Tests use lists of small or round numbers, whose six digits suffice; the numbers that are changed are changed without an error.", "anchors": ["include/container.hpp: operator<< for std::vector", "include/stlio.hpp: read_sequence, operator>> for std::vector"]}
{"id": "C167", "title": "to_string of a floating-point number is a numeral for it", "statement": "to_string(x) is a decimal numeral for the floating-point number x, so that different numbers have different texts, and os << x appends to_string(x).", "quantifier": "all values, finite or not, of all floating-point types with b bits of significand, values below 2^emax and a least value of 2^-E; all streams and precisions", "why_tests_cant": "Tests print a few round numbers; the claim is about all values of the type, and about pairs of values that differ in a digit that is dropped.", "anchors": ["include/string.hpp: to_string, to_str"]}
{"id": "C168", "title": "Which of equivalent elements a set function keeps", "statement": "Where elements can be told apart although neither is less than the other, join, intersection and difference give the elements of their first argument (join adds those of the second that are equivalent to none of the first), Set(l) gives the earliest of equivalent elements of l, duplicate_elements(l) the second of them; so intersection(s,l) with a list l is intersection(s,Set(l)).", "quantifier": "all strict weak orders, all sets, all lists", "why_tests_cant": "Tests compare sets of numbers or strings, whose equivalent elements are equal, so the choice is never visible; the claim is about all orders, sets and lists.", "anchors": ["include/container.hpp: join, intersection, difference, Set, duplicate_elements"]}
{"id": "C169", "title": "The text of a PairIterator tells where it points", "statement": "os << e for a PairIterator e of two pointers into arrays always succeeds, and two such iterators over the same arrays have the same text exactly if they are equal.", "quantifier": "all pairs of pointers to elements or the ends of arrays of objects, of volatile objects or of characters; all contents of the arrays", "why_tests_cant": "A test prints one iterator; the claim compares all pairs of positions in all arrays, and includes the end, where printing characters reads beyond the array.", "anchors": ["include/iterator.hpp: operator<<(ostream&, const PairIterator&)"]}

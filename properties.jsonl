{"id": "C01", "title": "sort returns an ordered permutation", "statement": "sort! / sort on a vector, called with a test that is a strict weak ordering, returns a vector that has exactly the same elements (with multiplicity) and in which no later element is test-smaller than an earlier one; this holds for the stable and for the unstable algorithm.", "quantifier": "every vector of every length and every strict weak ordering", "why_tests_cant": "the behaviour depends on the length (small-sort cut-off, recursion shape) and on the position of equal keys; tests sample only some vectors.", "anchors": ["sources/dylan/sort.dylan: insertion-sort!, merge!, merge-sort!, median-of-three, partition!, quick-sort!, sort!, sort"]}
{"id": "C02", "title": "stable sort keeps equal elements in order", "statement": "sort!(v, stable: #t) keeps test-equivalent elements in their original relative order.", "quantifier": "every vector and every strict weak ordering", "why_tests_cant": "stability only shows on particular arrangements of equal keys at every merge split.", "anchors": ["sources/dylan/sort.dylan: insertion-sort!, merge!, merge-sort!"]}
{"id": "C03", "title": "unchecked vector access in the quick sort stays inside the vector", "statement": "the quick sort, whose inner loops run without bounds checks, terminates and never reads or writes outside the given range when the test is a strict weak ordering.", "quantifier": "every vector, every range and every strict weak ordering", "why_tests_cant": "an out-of-range read happens only for particular pivots; a test run may read a neighbouring word and still look right.", "anchors": ["sources/dylan/sort.dylan: partition!, median-of-three, quick-sort!"]}
{"id": "C04", "title": "a deque behaves as a double-ended sequence", "statement": "after any history of push, push-last, pop, pop-last, element-setter, size-setter, reverse!, and remove!, the elements seen through element, size, first, last and iteration are exactly those of the mathematical sequence obtained by the same history; popping an empty deque signals an error and changes nothing.", "quantifier": "every operation history of every length", "why_tests_cant": "growth and re-centering happen at history-dependent moments.", "anchors": ["sources/dylan/deque.dylan: grow!, push, push-last, pop, pop-last, element, element-setter, trusted-size-setter, copy-sequence, forward-iteration-protocol"]}
{"id": "C05", "title": "deque storage accesses stay inside the representation", "statement": "every slot index the deque operations touch without a bounds check lies inside the allocated representation.", "quantifier": "every operation history", "why_tests_cant": "an off-by-one at the buffer ends is only reached by some histories.", "anchors": ["sources/dylan/deque.dylan: deque-push, deque-push-last, grow!, make-room-at-first!, make-room-at-last!"]}
{"id": "C06", "title": "a table behaves as a finite map", "statement": "after any history of element-setter, remove-key!, remove-all-keys! and element on a <table>, element(t,k,default: d) returns the value most recently stored for a key equal to k and not removed since, else d; size equals the number of such keys.", "quantifier": "every operation history, every key-test and hash function that agree, and every point at which the garbage collector invalidates address-based hashes", "why_tests_cant": "collisions, deletions markers, growth and rehash interact; tests cover only few histories and cannot schedule the collector.", "anchors": ["sources/dylan/table.dylan: gethash, puthash, element, element-setter, remove-key!, rehash-table, rehash-into-copy, remove-all-keys!"]}
{"id": "C07", "title": "a table probe always terminates and finds a free slot", "statement": "for every entry count the table implementation can choose, and every hash, the probe sequence visits every slot before repeating, and a table always keeps at least one empty slot, so lookup of an absent key stops.", "quantifier": "every hash value, table size from the size list, and history", "why_tests_cant": "a non-coprime stride/size pair would hang only for specific hashes.", "anchors": ["sources/dylan/table.dylan: $entry-counts, $secondary-strides, primary-index, secondary-stride, next-index, $grow-threshold"]}
{"id": "C08", "title": "table iteration visits each entry exactly once", "statement": "iterating a table that is not modified yields every key/element pair exactly once.", "quantifier": "every table state reachable by any history", "why_tests_cant": "depends on the placement of empty and deleted slots.", "anchors": ["sources/dylan/table.dylan: forward-iteration-protocol, make-iteration-state, next-state"]}
{"id": "C09", "title": "equal keys hash equally", "statement": "strings equal under the table test have equal hash ids: = strings for <string-table>, case-insensitively equal strings for <case-insensitive-string-table> and symbols; collection hashes do not depend on iteration order where declared unordered.", "quantifier": "every pair of strings", "why_tests_cant": "the hash samples only some characters of long strings; a counterexample is a specific pair.", "anchors": ["sources/dylan/hashing.dylan: string-hash, case-insensitive-string-hash, merge-hash-ids", "sources/dylan/table.dylan: case-insensitive-equal", "sources/dylan/symbol-table.dylan"]}
{"id": "C10", "title": "symbols are interned", "statement": "as(<symbol>, s1) == as(<symbol>, s2) exactly when s1 and s2 are equal ignoring alphabetic case, however many other symbols have been interned in between.", "quantifier": "every history of interning requests", "why_tests_cant": "needs all histories of table growth.", "anchors": ["sources/dylan/symbol-table.dylan: intern-symbol, lookup, case-insensitive-string-equal"]}
{"id": "C11", "title": "a range agrees with its arithmetic progression", "statement": "element, size, member?, first, last, reverse, copy-sequence and iteration on a range all describe the one sequence from, from+by, from+2by, ... bounded by to:/below:/above:/size:.", "quantifier": "every from, by, bound and size", "why_tests_cant": "sign and remainder combinations are unbounded.", "anchors": ["sources/dylan/range.dylan: make, element, size, member?, last, reverse!, copy-sequence, forward-iteration-protocol"]}
{"id": "C12", "title": "range intersection is set intersection", "statement": "intersection(r1, r2) contains exactly the integers that are members of both ranges.", "quantifier": "every pair of ranges", "why_tests_cant": "number-theoretic; small samples cannot cover all step pairs.", "anchors": ["sources/dylan/range.dylan: intersection"]}
{"id": "C13", "title": "integer division functions satisfy their defining equations", "statement": "floor/, ceiling/, round/ and truncate/ return q, r with n = q*d + r and with the rounding rule of each function; modulo and remainder agree with them.", "quantifier": "every n and every non-zero d", "why_tests_cant": "the sign/half cases form an infinite domain.", "anchors": ["sources/dylan/number.dylan: floor/, ceiling/, round/, truncate/", "sources/dylan/integer.dylan: truncate/, floor/, modulo, remainder"]}
{"id": "C14", "title": "fixed-precision integers give the exact result or signal overflow", "statement": "+, -, *, negative, abs and ash on <integer> return the mathematically exact value whenever it is representable and signal overflow otherwise; bitwise operations agree with two's complement.", "quantifier": "every pair of representable integers", "why_tests_cant": "word-size domain (2^124 pairs).", "anchors": ["sources/dylan/integer.dylan: +, -, *, negative, ash, logand, logior, logxor, lognot, bit-field-extract, bit-field-deposit"]}
{"id": "C15", "title": "exponentiation, gcd and lcm", "statement": "b ^ n equals n-fold multiplication; gcd(a,b) is the greatest common divisor and lcm(a,b) the least common multiple.", "quantifier": "every integer pair", "why_tests_cant": "infinite domain; sign cases.", "anchors": ["sources/dylan/integer.dylan: ^, gcd, lcm"]}
{"id": "C16", "title": "integer/string conversion round-trips", "statement": "string-to-integer(integer-to-string(n, base: b, size: s), base: b) = n, and integer-to-string pads to at least the requested size.", "quantifier": "every integer, base 2..36 and size", "why_tests_cant": "all values including the minimum integer in every base.", "anchors": ["sources/common-dylan/format.dylan: integer-to-string, string-to-integer"]}
{"id": "C17", "title": "bit-set operations are the set operations", "statement": "member?, set-add(!), set-remove(!), set-union(!), set-intersection(!), set-difference(!), set-complement(!), =, size and empty? on <bit-set> agree with mathematical (finite or co-finite) sets of natural numbers.", "quantifier": "every pair of sets reachable by any history", "why_tests_cant": "word boundaries, pads and different vector sizes combine without bound.", "anchors": ["sources/collections/bit-set.dylan", "sources/collections/bit-vector.dylan"]}
{"id": "C18", "title": "bit-set iteration enumerates exactly the members", "statement": "forward iteration over a bit-set yields its members in increasing order, backward iteration those of a finite set in decreasing order, with none missing and none extra.", "quantifier": "every set", "why_tests_cant": "stale bits past the vector size show only after particular operation histories.", "anchors": ["sources/collections/bit-set.dylan: bs-fip-*, bs-bip-*"]}
{"id": "C19", "title": "bit-vector operations are pointwise", "statement": "bit-vector-and/or/xor/andc2/not (and their destructive forms) compute the pointwise operation on the two vectors extended by their pads; fill! changes exactly the bits in [start,end); bit-count counts.", "quantifier": "every pair of bit vectors of any sizes and pads", "why_tests_cant": "sizes relative to the word size.", "anchors": ["sources/collections/bit-vector.dylan"]}
{"id": "C20", "title": "subtype? is sound for instance?", "statement": "if subtype?(t1, t2) then every object that is an instance of t1 is an instance of t2, for types built from classes, singletons, unions, limited integers and subclass types.", "quantifier": "every pair of types and every object", "why_tests_cant": "unboundedly nested type terms.", "anchors": ["sources/dylan/type.dylan", "sources/dylan/union.dylan", "sources/dylan/singleton.dylan", "sources/dylan/subclass.dylan", "sources/dylan/limited-integer.dylan"]}
{"id": "C21", "title": "subtype? is reflexive and transitive", "statement": "subtype? is a preorder on type terms.", "quantifier": "every triple of types", "why_tests_cant": "unboundedly nested type terms.", "anchors": ["sources/dylan/type.dylan", "sources/dylan/union.dylan", "sources/dylan/singleton.dylan", "sources/dylan/subclass.dylan", "sources/dylan/limited-integer.dylan"]}
{"id": "C22", "title": "disjoint-types? is sound", "statement": "if disjoint-types?(t1, t2) then no object is an instance of both (this is what makes sealed domains safe).", "quantifier": "every pair of types and every object", "why_tests_cant": "unboundedly nested type terms.", "anchors": ["sources/dylan/type.dylan: disjoint-types?, disjoint-types-1?", "sources/dylan/union.dylan", "sources/dylan/limited-integer.dylan", "sources/dylan/singleton.dylan"]}
{"id": "C23", "title": "the class precedence list is a monotone linearization", "statement": "the computed class precedence list starts with the class, contains each (direct or indirect) superclass exactly once and nothing else, keeps the order of every superclass' own precedence list and of the direct superclass list; if no such list exists an inconsistent-precedence error is signalled.", "quantifier": "every finite acyclic class hierarchy", "why_tests_cant": "all hierarchies.", "anchors": ["sources/dylan/class-dynamic.dylan: compute-implementation-class-precedence-list"]}
{"id": "C24", "title": "constant-time subclass test agrees with inheritance", "statement": "subclass?(c1, c2), answered by looking at a recorded position in the reversed precedence list, is true exactly when c2 is in the precedence list of c1.", "quantifier": "every history of class definitions", "why_tests_cant": "positions are patched when later classes put a class at another depth.", "anchors": ["sources/dylan/class.dylan: subiclass?, augment-iclass-rcpl-position-data", "sources/dylan/class-dynamic.dylan: compute-cpl-rcpl-stuff, augment-superior-rcpls"]}
{"id": "C25", "title": "dates map one-to-one to instants", "statement": "the universal day/second computed for a calendar date equals the proleptic Gregorian day count, successive days have successive numbers, and converting back gives the same date; day-of-week agrees.", "quantifier": "every date in the supported range and beyond", "why_tests_cant": "leap-year rules and year boundaries.", "anchors": ["sources/system/date.dylan: compute-universal-time, days-since-1900, canonicalize-date, date-day-of-week"]}
{"id": "C26", "title": "date arithmetic is inverse", "statement": "for a day/time duration x, (d + x) - x = d and (d + x) - d = x; d1 - d2 is zero exactly when d1 = d2; < and = on dates order instants.", "quantifier": "every date and duration", "why_tests_cant": "unbounded combinations of carries, zones and microseconds.", "anchors": ["sources/system/date.dylan: +, -, =, <", "sources/system/durations.dylan"]}
{"id": "C27", "title": "ISO 8601 printing and parsing round-trip", "statement": "make(<date>, iso8601-string: as-iso8601-string(d)) is the date d (same fields and zone) for every whole-second date.", "quantifier": "every valid date and zone offset", "why_tests_cant": "all field combinations.", "anchors": ["sources/system/date.dylan: as-iso8601-string, split-iso8601-string"]}
{"id": "C28", "title": "format-date and parse-date-string are inverse", "statement": "parsing a formatted date with the same format string that prints every field gives back the date.", "quantifier": "every valid date", "why_tests_cant": "zones with minutes and negative offsets.", "anchors": ["sources/system/date.dylan: format-date, parse-date-string"]}
{"id": "C29", "title": "durations have one representation per length", "statement": "two day/time durations (year/month durations) are = exactly when they denote the same length, and < orders lengths; +, -, negation, multiplication agree with length arithmetic.", "quantifier": "every duration", "why_tests_cant": "sign normalization of mixed-sign components.", "anchors": ["sources/system/durations.dylan: canonicalize-duration, encode-day/time-duration, =, <, +, -, *"]}
{"id": "C30", "title": "locator strings round-trip", "statement": "as(<posix-locator>, as(<string>, l)) = l, and parsing a path string and printing it back preserves the denoted path.", "quantifier": "every locator / every string", "why_tests_cant": "all strings, repeated separators, dots, empty parts.", "anchors": ["sources/system/file-system/posix-locators.dylan", "sources/system/locators/utilities.dylan: parse-path, path-to-string"]}
{"id": "C31", "title": "simplify-locator keeps the meaning and is idempotent", "statement": "simplify-locator denotes the same directory (for a tree without symbolic links), contains no self parts, has parent parts only at the front, and simplifying twice changes nothing.", "quantifier": "every path", "why_tests_cant": "all nestings of . and ..", "anchors": ["sources/system/locators/utilities.dylan: simplify-path", "sources/system/locators/locators.dylan: simplify-locator"]}
{"id": "C32", "title": "relative-locator and merge-locators are inverse", "statement": "merge-locators(relative-locator(l, from), from) denotes the same file as l.", "quantifier": "every pair of locators", "why_tests_cant": "all common-prefix shapes.", "anchors": ["sources/system/locators/locators.dylan: relative-locator, merge-locators", "sources/system/locators/utilities.dylan: relative-path"]}
{"id": "C33", "title": "name mangling is injective and reversible", "statement": "demangling a mangled name gives the original name, and distinct (variable, module, library) triples get distinct mangled names.", "quantifier": "every byte string", "why_tests_cant": "all escape sequences and module/library combinations.", "anchors": ["sources/dfmc/mangling/mangling.dylan", "sources/dfmc/mangling/demangling.dylan"]}
{"id": "C34", "title": "the C demangler stays inside its buffers", "statement": "dylan_demangle never writes outside the destination buffer nor reads past the end of the source string, whatever the source bytes.", "quantifier": "every source string and buffer size", "why_tests_cant": "only particular strings at particular buffer sizes overflow.", "anchors": ["sources/lib/run-time/demangle.c: dylan_demangle"]}
{"id": "C35", "title": "split and join are inverse", "statement": "joining the parts returned by split with the separator gives back the sequence; no part of an unlimited split contains the separator; count limits the number of parts.", "quantifier": "every sequence, separator and count", "why_tests_cant": "overlapping separators and boundary positions.", "anchors": ["sources/common-dylan/common-extensions.dylan: split, join"]}
{"id": "C36", "title": "read-write lock exclusion", "statement": "at no time does a thread hold a read-write lock for writing while another thread holds it for reading or writing.", "quantifier": "every schedule of every number of threads using wait-for and release as the API requires", "why_tests_cant": "interleavings.", "anchors": ["sources/dylan/locks.dylan: <read-write-lock>, wait-for, release"]}
{"id": "C37", "title": "locks, semaphores and notifications keep their counts", "statement": "a simple lock has at most one owner, a recursive lock is released only after as many releases as acquisitions by its owner, a semaphore never grants more than initial + releases and never exceeds its maximum, wait-for on a notification gives the lock back to the waiter before it returns.", "quantifier": "every schedule", "why_tests_cant": "interleavings.", "anchors": ["sources/dylan/locks.dylan", "sources/dylan/notification.dylan", "sources/lib/run-time/posix-threads.c"]}
{"id": "C38", "title": "destructive and copying list operations agree", "statement": "size, element, member?, remove, remove!, reverse, reverse!, copy-sequence, concatenate, last on lists compute the sequence functions; the non-destructive ones leave the argument unchanged; size detects circular lists and terminates on every list structure.", "quantifier": "every heap of pairs, circular or not", "why_tests_cant": "aliasing and cycles.", "anchors": ["sources/dylan/list.dylan"]}
{"id": "C39", "title": "a stretchy vector behaves as a growable sequence", "statement": "after any history of add!, element-setter, size-setter, remove!, insert and fill the contents are those of the mathematical sequence; storage accesses stay inside the allocated storage.", "quantifier": "every operation history", "why_tests_cant": "growth moments.", "anchors": ["sources/dylan/stretchy-vector.dylan"]}
{"id": "C40", "title": "sequence and buffered streams deliver exactly what was written", "statement": "reading a stream returns the written elements in order, positions and stream-at-end? agree with the contents, for any history of reads, writes, seeks, whatever the buffer size.", "quantifier": "every operation history and buffer size", "why_tests_cant": "buffer boundary alignments.", "anchors": ["sources/io/streams/sequence-stream.dylan", "sources/io/streams/buffered-stream.dylan", "sources/io/streams/file-stream.dylan"]}
{"id": "C41", "title": "non-local exit runs every cleanup once", "statement": "leaving a block through a non-local exit runs each pending cleanup clause between the exit and the block exactly once, innermost first, and delivers the exit values.", "quantifier": "every nesting and every exit point", "why_tests_cant": "all dynamic nestings.", "anchors": ["sources/lib/run-time/c-run-time-nlx.c", "sources/lib/run-time/llvm-nlx.c"]}
{"id": "C42", "title": "double-width integers compute exactly", "statement": "arithmetic, comparison and shifts on the extended double integers of the big-integers library agree with mathematical integers whenever the result is representable.", "quantifier": "every pair of values", "why_tests_cant": "carry/borrow and sign boundaries of two-word numbers.", "anchors": ["sources/lib/big-integers/double-integer.dylan"]}
{"id": "C43", "title": "generic dispatch calls the most specific applicable method", "statement": "calling a generic function invokes an applicable method such that no other applicable method is more specific; ambiguous methods are never called silently; next-method runs the rest in order.", "quantifier": "every set of methods and every argument list", "why_tests_cant": "all method sets.", "anchors": ["sources/dylan/new-dispatch.dylan", "sources/dylan/generic-function.dylan", "sources/dylan/dispatch-prologue.dylan"]}
{"id": "C44", "title": "a limited collection only holds elements of its element type", "statement": "every element ever visible in a limited deque or limited stretchy vector is an instance of the declared element type: operations that would store anything else signal a type error.", "quantifier": "every element type and every operation history", "why_tests_cant": "an ill-typed element can slip in through any of the growing operations in any order.", "anchors": ["sources/dylan/deque.dylan: push, push-last, element-setter, size-setter, initialize", "sources/dylan/stretchy-vector.dylan: add!, size-setter", "sources/dylan/limited-stretchy-vector.dylan: initialize, element-setter"]}
{"id": "C45", "title": "child and parent locators denote children and parents", "statement": "subdirectory-locator, file-locator and make with directory: and name: denote the named child of the directory's place, and locator-directory / locator-name of a directory that ends in a name give its parent and that name, so that the child named so of the parent is the directory again.", "quantifier": "every directory locator, every list of names and every working directory", "why_tests_cant": "all paths, relative and absolute, with self and parent items.", "anchors": ["sources/system/locators/locators.dylan: subdirectory-locator, file-locator, locator-directory", "sources/system/file-system/posix-locators.dylan: make, locator-name"]}
{"id": "C46", "title": "no lost wake-ups", "statement": "A thread that waits for a read-write lock or a semaphore does not stay asleep when it could have it: while it is asleep, some thread holds the lock in a conflicting way (or the count of the semaphore is zero), or some thread is in the middle of an operation on it and awake.", "quantifier": "every schedule of every number of threads, with time-outs and spurious wake-ups at any moment", "why_tests_cant": "lost wake-ups need one particular interleaving.", "anchors": ["sources/dylan/locks.dylan: wait-for, release", "sources/lib/run-time/posix-threads.c: primitive_wait_for_semaphore, primitive_release_semaphore"]}
{"id": "C47", "title": "iterating over one or several collections", "statement": "do, reduce, reduce1, any?, every?, member?, find-key, size and empty? over one or several collections look at each key that all the collections have exactly once, with the elements of the collections under that key as arguments in the order of the collections; in the order of the keys when one of the collections is a sequence. Calls on collections whose iteration is meant to end do end.", "quantifier": "all vectors, strings, stretchy vectors, deques, lists, finite and infinite ranges and tables, in any number and mixture, and all functions", "why_tests_cant": "the iteration over sequences and tables together skips keys with a loop whose end depends on all contents; only some mixtures are ever tried.", "anchors": ["sources/dylan/collection.dylan: do, reduce, reduce1, any?, every?, member?, find-key", "sources/dylan/multiple-collection.dylan: multiple-collection, forward-iteration-protocol", "sources/dylan/range.dylan: forward-iteration-protocol", "sources/dylan/deque.dylan: forward-iteration-protocol"]}
{"id": "C48", "title": "map-into stores exactly the mapped elements", "statement": "map-into(target, f, source, ...) stores, under every key that the sources have in common and the target can take, f of the elements under that key, leaves every other element of the target as it was, and fills new positions the sources skip with #f; the source may be the target itself.", "quantifier": "all targets and sources of the built-in classes, all functions, whichever of the most specific methods is called", "why_tests_cant": "there are eleven methods, chosen by both classes, with different loops; the wrong ones need particular pairs of classes and sizes.", "anchors": ["sources/dylan/collection.dylan: map-into, map-into-rigid-one, map-into-stretchy-one", "sources/dylan/multiple-collection.dylan: element", "sources/dylan/stretchy-vector.dylan: element-setter"]}
{"id": "C49", "title": "map and map-as build the collection of the results", "statement": "map-as(type, f, c, more...) calls f exactly once for each key the collections have in common, in iteration order, and returns a new collection of the given type holding the results under those keys and nothing else; when there is no such collection (different key tests, keys that a sequence cannot have, a string of non-characters) it signals an error. map uses the class of the first collection (a list for a range). Over an infinite range it signals an error.", "quantifier": "all built-in result types, all lists of collections over which iteration ends, all functions including ones with side effects of their own, all sizes", "why_tests_cant": "results are collected in a chain of 25-word buffers that is reversed in place; what is stored and read depends on the number of results modulo the buffer size, on the order of table keys and on which of eight methods is selected.", "anchors": ["sources/dylan/accumulator.dylan: extend-accumulator, add!, element-setter, invert-accumulator, convert-accumulator-as", "sources/dylan/collection.dylan: map, map-as, map-as-one", "sources/dylan/deque.dylan: map-as-one", "sources/dylan/range.dylan: map-as-one"]}
{"id": "C50", "title": "= on collections compares key tests, keys and elements", "statement": "c1 = c2 on two collections always returns, and is true exactly when they have the same key test and, under every key, either both have an element and the two are = or neither has one. Hence it is an equivalence relation on collections, whatever their classes.", "quantifier": "all pairs of collections of the built-in classes (vectors, strings, stretchy vectors, deques, lists, finite and infinite ranges, tables), all contents and sizes, every equality of elements that is an equivalence", "why_tests_cant": "sixteen methods are selected by the pair of classes and compare in different ways (in parallel, by key, by swapping the arguments); agreement between them, symmetry and transitivity range over all triples of contents and classes.", "anchors": ["sources/dylan/collection.dylan: \\=", "sources/dylan/range.dylan: \\=", "sources/dylan/speed.dylan: \\=", "sources/dylan/string.dylan: \\="]}
{"id": "C51", "title": "subsequence-position finds the count-th occurrence", "statement": "subsequence-position(big, pattern, test: t, count: n) with n at least 1 always returns; it returns the n-th smallest position at which every element of the pattern matches, under t, the element of big that many places further on, counting overlapping occurrences, and #f when there are fewer than n such positions. The answer does not depend on the classes of the two sequences nor on which search algorithm is used.", "quantifier": "all pairs of built-in sequences (vectors, byte strings, stretchy vectors, deques, lists, ranges; an infinite one when the occurrence exists), all contents, patterns, tests and counts", "why_tests_cant": "five algorithms are chosen by class, pattern length and test, among them a Boyer-Moore search whose skip table can jump over an occurrence only for particular combinations of text and pattern.", "anchors": ["sources/dylan/sequence.dylan: subsequence-position", "sources/dylan/vector.dylan: subsequence-position", "sources/dylan/string-speed.dylan: subsequence-position"]}
{"id": "C52", "title": "copy-sequence, fill! and replace-subsequence! touch exactly the elements asked for", "statement": "copy-sequence(s, start: a, end: b) returns a sequence of the class of s with the elements from a up to b and no others; fill!(s, v, start: a, end: b) makes the elements from a up to b v and leaves the others; replace-subsequence!(s, t, start: a, end: b) returns a sequence of the class of s with the elements before a, then all those of t, then those from b on, and changes no object but its result, which is s or new. An end: not given is the size. Bounds that are not in the sequence are an error.", "quantifier": "all vectors, byte strings, stretchy vectors and deques (lists in C38, and here for fill!), all finite sequences inserted, also a sequence into itself, all contents, values and bounds", "why_tests_cant": "there are eight methods with in-place, growing and shrinking cases, overlapping moves in both directions and aliasing; an error at one boundary shows only for particular combinations of sizes and bounds.", "anchors": ["sources/dylan/sequence.dylan: copy-sequence", "sources/dylan/vector.dylan: copy-sequence, fill!, replace-subsequence!", "sources/dylan/string.dylan: copy-sequence", "sources/dylan/deque.dylan: copy-sequence", "sources/dylan/mutable-sequence.dylan: fill!, replace-subsequence!", "sources/dylan/stretchy-vector.dylan: replace-subsequence!", "sources/dylan/array.dylan: fill!"]}
{"id": "C53", "title": "Binary operators group by the language's precedence and associativity", "statement": "However many binary operators an expression has, the compiler's reader groups them as the language says: ^ (right to left), then * and /, + and -, the comparisons, & and |, and := (right to left), the others left to right; the parsed expression has the same operands and operators in the same order, each subexpression's source position covers exactly its operands, :=, & and | become macro calls and the others function calls; and that grouping is the only one.", "quantifier": "every sequence of operands and binary operators, of any length", "why_tests_cant": "the reader folds operators as it meets them on a stack; whether every mixture of rising, equal and falling precedences comes out right depends on sequences of any length.", "anchors": ["sources/dfmc/reader/parser-support.dylan: append-binop!, fold-tighter-binops, fold-one-binop!, binop-fragment, operator-precedence, right-associative?", "sources/dfmc/reader/parser.dylgram: expression, expression-guts", "sources/dfmc/reader/fragments.dylan: position-between"]}
{"id": "C54", "title": "The lexer's tokens are where it says they are", "statement": "On any source text, reading tokens one after another always gives a token or an error report: the lexer never runs on for ever and never reads outside the text. Every token is a nonempty part of the text (except the end marker, which is only given at the end), tokens come in the order of the text without overlapping, and the line and column recorded for the start and the end of each token are those of the text, also after multi-line comments and strings. The transition table is unambiguous.", "quantifier": "every source text of bytes, every number of tokens read before", "why_tests_cant": "the machine has 200 states with backtracking to the last accepting state, saved line starts and counters for nested comments and quotes; whether positions stay right for every text is a statement about all of its paths.", "anchors": ["sources/dfmc/reader/lexer.dylan: get-token, make-transition-table, add-transition, do-state-action", "sources/dfmc/reader/lexer-transitions.dylan: $initial-state"]}
{"id": "C55", "title": "Integer literals denote the number they write", "statement": "A decimal literal with or without a sign, or a #b, #o or #x literal, of any length and with single underscores between groups of digits, is read as one token that covers exactly its characters, and its value is the number its digits write in that radix; if that number is not representable, this is reported and no wrapped value is given.", "quantifier": "every integer literal of any length, every text before and after it (that does not go on with the number), every range of representable integers", "why_tests_cant": "literals can be of any length, next to any text, and overflow is only reported if every partial product is checked.", "anchors": ["sources/dfmc/reader/lexer.dylan: parse-integer, parse-integer-literal, get-token", "sources/dfmc/reader/lexer-transitions.dylan: $initial-state"]}
{"id": "C56", "title": "Whitespace and comments are skipped, and nothing else is", "statement": "Between tokens, the lexer skips whitespace, comments from // to the end of the line, and comments in /* */, which nest and in which // hides the rest of its line: reading a token from before such blanks gives the same as reading it from after them; the text between a token and the one before it is only such blanks; a token never begins with one; and a comment that is never closed is reported.", "quantifier": "every source text, any number and nesting of comments", "why_tests_cant": "comments nest to any depth and contain any text; the lexer counts brackets in side-effecting actions of its state machine.", "anchors": ["sources/dfmc/reader/lexer-transitions.dylan: $initial-state (delimited-comment-*, single-line-comment*)", "sources/dfmc/reader/lexer.dylan: get-token, increment-delimited-comment-start-count, increment-delimited-comment-end-count"]}
{"id": "C57", "title": "String, symbol and character literals denote what they spell", "statement": "A string literal on one line is read as one token from its first quotation mark to its last, and denotes exactly the characters it spells: a printable character stands for itself, a backslash escape for the character the language manual gives, and \\<hex> for the character with that code. A symbol in quotes (#\"...\") and a character literal ('c') follow the same rules; a raw string (#r\"...\") denotes the text between its quotation marks unchanged. Between three or more quotation marks the text may contain shorter runs of quotation marks and line breaks: the indentation of the closing delimiter is taken off every line and the lines are joined with newlines, whatever line breaks the source has. Every string of 8-bit characters can be written this way.", "quantifier": "every source text around the literal, every sequence of characters, escapes and hexadecimal codes, of any length", "why_tests_cant": "the contents are of any length and mix, and two separate parsers (the state machine that finds the end and the decoder) have to agree on every one.", "anchors": ["sources/dfmc/reader/lexer.dylan: make-stringish-literal, make-raw-string-literal, make-character-literal, decode-string, escape-character, hex-escape-character", "sources/dfmc/reader/lexer-transitions.dylan: $initial-state (string-start, drm-string-*, raw-*, quote*)"]}
{"id": "C58", "title": "Floating-point literals spell their number", "statement": "A floating-point literal - an optional sign, digits with a point or an exponent, the exponent marked e, s, d or x in either case with an optional sign - is read as one token of the kind its marker says, whose number is exactly the decimal number it spells when it has at most 18 digits, and otherwise is less than one unit of the eighteenth digit nearer to zero.", "quantifier": "every source text around the literal, every number of digits before and after the point and in the exponent", "why_tests_cant": "the digits and exponents are unbounded, and the digit limit, the point and the exponent interact.", "anchors": ["sources/dfmc/reader/lexer.dylan: parse-fp-literal, atof", "sources/dfmc/reader/lexer-transitions.dylan: $initial-state (decimal-dot, decimal-dot-decimal, fp-e, fp-exp, decimal-e, decimal-exp)"]}
{"id": "C59", "title": "choosing and removing elements", "statement": "choose and choose-by give exactly the elements that pass the test, in order, in a sequence of the class of the one given (a list for a range); remove leaves out all elements equal to the value, or the first count: of them; remove-duplicates leaves no two equal elements, keeping the first of each; intersection and union give the elements of the first sequence that are (are not) equal to one of the second; member? calls the test with the value first.", "quantifier": "every sequence of the built-in classes, every test function, every value and count", "why_tests_cant": "depends on all contents, tests and classes; the methods of the classes differ.", "anchors": ["sources/dylan/sequence.dylan: choose, choose-by, remove, remove-duplicates, intersection, union", "sources/dylan/vector.dylan: member?", "sources/dylan/string-speed.dylan: member?", "sources/dylan/list.dylan: member?"]}
{"id": "C60", "title": "adding, reversing and concatenating", "statement": "add gives a sequence of the same class with one more element, add-new adds only what is not there; reverse and reverse! give the elements in the opposite order; last gives the last element, the default or an error; concatenate and concatenate-as give a sequence of the class asked for with the elements of all the arguments in order, and signal an error if a string cannot hold them.", "quantifier": "every list of sequences of the built-in classes, every result type", "why_tests_cant": "four methods with special cases for empty arguments, single non-empty arguments and mixed classes; any number of arguments.", "anchors": ["sources/dylan/sequence.dylan: concatenate, concatenate-as, concatenate-as-two, add-new, reverse, last", "sources/dylan/vector.dylan: concatenate-as, add, reverse, reverse!", "sources/dylan/string-speed.dylan: concatenate-as", "sources/dylan/deque.dylan: add, concatenate-as-two", "sources/dylan/list.dylan: concatenate-as"]}
{"id": "C61", "title": "format control strings", "statement": "format-to-string writes the text of the control string as it is and, for each directive, the next argument: %s and %c the argument as a message, %= as an object, %d %b %o the number in base 10, 2, 8, %x and %X in base 16 in lower and upper case, %m what the function writes, %% a percent sign; with a width, the output is padded with spaces on the left, or on the right if the width is negative, and never cut.  Unknown directives, a percent sign at the end and arguments of the wrong class are errors.  The format-to-string of common-dylan takes the same control strings without widths and %m, prints hexadecimal in upper case, and signals an error for everything else and for missing arguments.", "quantifier": "every control string, every list of arguments", "why_tests_cant": "ranges over all strings, widths, integers (including the least) and argument lists; the scanner is index arithmetic over the control string.", "anchors": ["sources/io/format.dylan: format-to-string, format, do-dispatch, parse-integer, format-integer, print-message", "sources/common-dylan/format.dylan: print-format, format-to-string, print-pretty-name, print-unique-name", "documentation/source/library-reference/io/format.rst"]}
{"id": "C62", "title": "pseudo-random numbers", "statement": "random(n) for n >= 1 returns a number from 0 to n-1 and ends after at most 55 steps of the generator; the numbers are determined by the seed; an n of zero or less is an error; values that would favour some remainders are passed over; the generator never gets stuck, so random(2) gives both 0 and 1 in any 55 successive calls; every number below n can occur.", "quantifier": "every seed, every sequence of calls with any ranges", "why_tests_cant": "the generator has 54 words of state and a period far beyond testing; ranges over all seeds and histories of calls.", "anchors": ["sources/common-dylan/random.dylan: random, random-29, initialize, lcg-rand", "documentation/source/library-reference/common-dylan/simple-random.rst"]}
{"id": "C63", "title": "byte vectors", "statement": "byte-vector-fill sets exactly the bytes from start up to but not including end; copy-bytes stores the n bytes of the source at their place in the target, changes nothing else, and refuses ranges outside of either; hexstring gives two lowercase hexadecimal digits for each byte; from-hexstring reads digits of either case back, inverts hexstring, refuses strings of odd size and strings that are not hexadecimal, and never reads or writes out of bounds.", "quantifier": "every vector, value, start, end, count and string", "why_tests_cant": "ranges over all vectors and all positions in them, and memory beyond the object is not visible to a test.", "anchors": ["sources/common-dylan/byte-vector.dylan: byte-vector-fill, copy-bytes, hexstring, from-hexstring", "sources/lib/run-time/c-run-time.c: primitive_fill_bytesX, primitive_replace_bytesX", "documentation/source/library-reference/common-dylan/byte-vector.rst"]}
{"id": "C64", "title": "property lists and concatenate!", "statement": "In a property list, whether a list or a vector, get-property returns the value of the first pair with the indicator, or the default; after put-property! get-property returns the new value for the indicator and the old ones for all others, and no object outside of the list is changed; remove-property! removes the indicator, returns the value it had and keeps the other pairs; keyword-sequence and value-sequence give the indicators and values in order; remove-keywords leaves out exactly the pairs with the keywords; a sequence of odd size is an error.  concatenate! on lists that share no pairs gives the elements of all of them in order, in the first non-empty one.", "quantifier": "every property list and every indicator, value and list of keywords; every sequence of lists that share no pairs", "why_tests_cant": "ranges over all contents and shapes of the heap, and the updates are destructive: that nothing else changes is not visible to a test.", "anchors": ["sources/collections/plists.dylan: get-property, do-put-property!, do-remove-property!, keyword-sequence, value-sequence, remove-keywords", "sources/common-dylan/common-extensions.dylan: concatenate!", "documentation/source/library-reference/collections/plists.rst"]}
{"id": "C65", "title": "Multidimensional arrays keep one value for every tuple of subscripts", "statement": "make(<array>, dimensions: dims, fill: x) makes an array with exactly one element for every tuple of subscripts that is in range on every axis, all equal to x, and signals an error if there are too many elements for an <integer>. row-major-index numbers these tuples 0, 1, 2, ... in lexicographic order (last subscript fastest) and signals an error for any other subscripts. After any sequence of aref-setter, element-setter and fill! calls, aref at a tuple returns the last value stored there, whichever of the three operations stored it, element at its row-major index returns the same, and the dimensions are unchanged; calls with a wrong number of subscripts, a subscript out of range or bad bounds signal an error and change nothing; no access falls outside of the array. shallow-copy gives an array with the same dimensions and elements.", "quantifier": "all lists of non-negative dimensions, all fill values, all subscript tuples, all sequences of operations", "why_tests_cant": "The numbering has to be a bijection for every rank and every combination of dimensions, and accesses after the index computation are not checked; tests try a few small shapes. The counterexamples (empty arrays, rank 0, negative dimensions) are shapes that tests leave out.", "anchors": ["sources/dylan/array.dylan: row-major-index, general-row-major-index, two-row-major-index, aref, aref-setter, make, shallow-copy", "sources/dylan/multidimensional-array.dylan: make, element, element-setter, fill!, compute-size-from-dimensions", "sources/dylan/sequence.dylan: element-range-check"]}
{"id": "C66", "title": "Floats are classified, taken apart and scaled exactly", "statement": "integer-length(i) is the least n with -2^n <= i < 2^n. classify-float tells zeros, subnormal, normal, infinite and NaN floats apart. For every finite float other than zero, decode-float returns a significand s with 1/2 <= s < 1, an exponent e and a sign of 1.0 or -1.0 with float = s * 2^e * sign, subnormal floats included. float-precision is the number of significant bits. scale-float(x, n) is x * 2^n exactly whenever that is a float, the infinity of the sign of x if it is too large, and x itself for zeros, infinities and NaNs; it always returns.", "quantifier": "all bit patterns of <single-float> and <double-float>, all scales of absolute value up to 2^60", "why_tests_cant": "There are 2^32 and 2^64 patterns and an unbounded range of scales; the code has separate branches for subnormal floats, overflow and underflow, each doing bit arithmetic on words that only a proof covers entirely.", "anchors": ["sources/common-dylan/numerics.dylan: integer-length, classify-float, decode-float, scale-float, float-precision", "sources/dylan/float.dylan: decode-single-float, encode-double-float, negative?"]}
{"id": "C67", "title": "T-lists are double-ended sequences", "statement": "A <t-list> behaves as a sequence: after any history of push, push-last, pop, pop-last and storing with last-setter, the replies of all calls, size, first, last, element and iteration are those of the sequence of elements, errors are signalled on empty t-lists and for indices outside of it, t-lists that were not involved keep their elements, copies are independent, and append! and concatenate! give the elements of the arguments in order.", "quantifier": "every heap of pairs, every t-list, every element, every index (also negative and beyond the size), every history of calls, every number of arguments to concatenate!", "why_tests_cant": "The last-pair slot must agree with the chain of pairs after every history, and pairs may be shared between t-lists and lists; tests run a few short histories.", "anchors": ["sources/lib/t-lists/t-lists.dylan: push, push-last, pop, pop-last, shallow-copy, append!, concatenate!, as, size, element, element-setter, last, last-setter, forward-iteration-protocol"]}
{"id": "C68", "title": "Collectors collect what is added, in order", "statement": "The collection of a collector holds exactly the values added to it: each value added first stands before all that were there, each value added last after them.  Collectors in use at the same time (nested collecting) do not disturb each other or any other list, and number collectors combine the values in that order.", "quantifier": "every sequence of additions at either end, every interleaving of additions to two collectors, every heap, every associative operation", "why_tests_cant": "The list collector keeps its last pair in the head of a pair that is its own last pair while it is empty; this must hold after every mixture of additions.", "anchors": ["sources/collections/collectors.dylan: collector-protocol"]}
{"id": "C69", "title": "An environment variable is split at its delimiters", "statement": "tokenize-environment-variable gives the non-empty pieces of the string between delimiters, in order, unchanged, for every string and delimiter.", "quantifier": "every string and every delimiter, with any number of delimiters at the start, at the end or next to each other", "why_tests_cant": "Unboundedly many strings; the bounds of each piece depend on all characters before it.", "anchors": ["sources/system/tokenize-variable.dylan: tokenize-environment-variable"]}
{"id": "C70", "title": "Searching a sequence finds the asked-for match", "statement": "position, find-key and find-element give the match in the given part of the sequence that comes after the number of matches to be skipped, and #f or the failure value exactly if there are not so many; the methods for lists and for vectors agree.  difference keeps, in order, the elements that are not members of the second sequence.  fill-table! stores each element under the key before it.", "quantifier": "every sequence, target, test, start, end, skip and count; every pair of sequences; every sequence of keys and elements", "why_tests_cant": "The answer depends on every combination of bounds, skip count and placement of matches, and the methods for lists and vectors are different loops.", "anchors": ["sources/common-dylan/common-extensions.dylan: position, difference, find-element, fill-table!", "sources/dylan/sequence.dylan: find-key"]}
{"id": "C71", "title": "Glob patterns and regular expressions match what they describe", "statement": "The function made from glob patterns is true of exactly the strings that match one of them; a pattern that is not well formed signals an error, and no well-formed pattern does.  The automaton made from a regular expression accepts exactly the strings the expression denotes.  Making the automaton ends, with at most 2^(n+1) states for an expression with n characters and classes, and every transition on a byte leads to a state that was made.", "quantifier": "every list of patterns, every regular expression, every string", "why_tests_cant": "Unboundedly many patterns and strings; the automaton identifies states by a test on lists of positions that is right only if no list ever has a duplicate.", "anchors": ["sources/lib/jam/jam-glob.dylan: parse-glob-pattern, glob-match-function", "sources/lib/jam/regular-expression.dylan: regular-expression-dfa"]}
{"id": "C72", "title": "Regular expressions are read as they are written", "statement": "An expression made of characters, dot, classes, alternatives, sequences, star, plus and question mark, written with only the parentheses that precedence calls for, is read back: the automaton made from what is read accepts exactly the strings the expression matches.  On any string the parser gives an expression or signals an error.", "quantifier": "every expression of any depth, every string", "why_tests_cant": "Expressions nest without bound, and precedence, associativity, escapes and classes interact at every level.", "anchors": ["sources/lib/jam/jam-regular-expression.dylan: parse-regular-expression", "sources/lib/jam/regular-expression.dylan: copy-regular-expression"]}

{
"C01": {
"status": "proved",
"note": "sort! on simple vectors, every strict weak ordering, stable or not; result is a normal return."
},
"C02": {
"status": "proved",
"note": "Every strict weak ordering; equivalent elements keep their relative order."
},
"C03": {
"status": "proved",
"note": "Every sub-range. The claim needs a strict test: C03_nonstrict_test_refuted shows the unchecked scan leaving the vector with <=."
},
"C04": {
"status": "proved",
"note": "Every history incl. copy-sequence, as(<list>), forward iteration. Backward iteration violates the claim: C04_backward_iteration_refuted."
},
"C05": {
"status": "proved",
"note": "No operation history leaves the slots (outcome UB excluded by C04). Backward iteration does: C05_backward_iteration_refuted."
},
"C39": {
"status": "proved",
"note": "Every history on object vectors, and on limited ones whose fill is of the element type. Refuted cases: spare capacity keeps the make fill; add! of a wrong object grows the vector."
},
"C44": {
"status": "partial",
"note": "Proved for deques whose make fill is of the element type; refuted for deque make fill and for stretchy vector size-setter."
},
"C33": {
"status": "partial",
"note": "Names: every byte string. Bindings: injective for lower-case module/library names; round trip for names without '#'. The '#' and upper-case cases are refuted; extracting a method's library demangles it twice (refuted for my_lib)."
},
"C34": {
"status": "partial",
"note": "Proved for ASCII text not ending in a bare K, with no method mark or a large buffer. The unrestricted claim is false: one-byte overflow at a method mark for every buffer size, over-read on KK, table under-read on negative chars."
},
"C17": {
"status": "proved",
"note": "Proved for every history in which no vector of 62 or 63 bits is filled; two refutations: empty-bit-set! on such a vector signals an overflow, element on an infinite set signals a type error."
},
"C18": {
"status": "partial",
"note": "Forward iteration of every finite set proved; infinite sets and backward iteration proved for word-aligned sizes; refuted otherwise, with witnesses."
},
"C19": {
"status": "partial",
"note": "All pointwise operations, element, element-setter, bit-count, make proved; fill! proved outside the offsets 62 and 63 of a word, where it is refuted."
},
"C13": {
"status": "partial",
"note": "floor/, ceiling/, truncate/, modulo and remainder are proved for all arguments; round/ is refuted for odd divisors (round/(3,1) gives 4) and proved in all other cases"
},
"C14": {
"status": "partial",
"note": "+, -, *, negative, abs, comparisons, logical operations, bit fields and shifts proved exact or overflow; the excluded corners (shift by $minimum-integer, bit index beyond the word, over-wide field) are refuted"
},
"C15": {
"status": "partial",
"note": "^ exact or overflow except when the base or result is $minimum-integer; gcd and lcm for non-negative (and most negative) arguments; negative results refuted with witnesses"
},
"C11": {
"status": "partial",
"note": "Proved for every range object: element, size, empty?, last, find-key, member?, iteration both ways, reverse, shallow-copy, add!, equality soundness. make is proved for no bound, size:, to: not more than a step before the start, below:/above: a whole number of steps away, and by: 0. Refuted by witness: below: 10 by: 3 misses 9; range(from: 10, to: 0) has size -9; to: is ignored when below: is later; negative keys into infinite ranges; copy-sequence at the end; = of one-element ranges; three remove! defects. copy-sequence with start inside the range."
},
"C12": {
"status": "partial",
"note": "Proved for every pair of ranges except two unending downward ranges with different steps, where the code is wrong (C12_intersection_downward_refuted)."
},
"C16": {
"status": "proved",
"note": "Exact shape of the printed string, exact result of parsing (value, next key, overflow, no digits), round trip for every <integer>, base, width and case. With a fill character other than 0 the round trip fails (C16_fill_refuted), which is outside the property. The string buffer is a list."
},
"C25": {
"status": "proved",
"note": "Fields are mathematical integers (no <integer> overflow) and the operating system clock is not modelled. The remembered universal slots are recomputed; C25_zone shows that the one exported setter keeps them right."
},
"C26": {
"status": "partial",
"note": "Refuted in full: = and < on dates ignore microseconds (C26_microseconds_refuted), and (d + x) - d need not be = to x although it has its length (C26_add_difference_equal_refuted). (d + x) - x = d holds whenever the intermediate date is in the range of years that make accepts; outside it the second operation signals."
},
"C29": {
"status": "partial",
"note": "Refuted in full: a duration with zero seconds and days and microseconds of opposite signs is left as it is, so = and < fail on it (C29_equal_refuted, C29_less_refuted); / by an integer rounds every field separately (C29_divide_refuted). Multiplication by non-integers is not modelled."
},
"C27": {
"status": "proved",
"note": "Strings are lists of character codes and streams are the text read or written."
},
"C28": {
"status": "partial",
"note": "Proved for formats made of %Y %m %b %d %e %H %k %M %S %n %% and literals when the zone is not printed or is printed before the fields and is not a negative number of minutes with a broken hour. Refuted otherwise: a zone printed last shifts the fields, negative zones with minutes are misread, %B fails near the end of the text, %T is not read, %y is ambiguous."
},
"C35": {
"status": "proved",
"note": "split on a sequence, on an object, with any test, bounds and count; join with and without conjunction; positions unbounded; result classes not modelled."
},
"C30": {
"status": "partial",
"note": "Directory locators: full round trip for legal names; every string is stable under read-print-read (directory, file, either kind). File locators whose base or extension contains a dot do not round-trip (refuted)."
},
"C31": {
"status": "partial",
"note": "Same place, idempotent, parents only in front: proved for every locator made by make. \"No self parts\" is false for a relative locator of the working directory (refuted), and \"/../\" is not simplified to \"/\" (refuted canonical form); canonical form proved for relative locators."
},
"C32": {
"status": "partial",
"note": "merge-locators meaning proved in general; the inverse law proved when both locators are absolute or both relative and from has only names beyond a common prefix; refuted for \".\", \"..\", mixed and directory-less files."
},
"C45": {
"status": "partial",
"note": "Proved for subdirectory-locator, file-locator and locator-directory/locator-name; make with directory:/name: forgets that the directory is relative (refuted); the name of a directory ending in \"..\" is a type error (refuted)."
},
"C23": {
"status": "proved",
"note": "For every history of library loads and run-time class creations."
},
"C24": {
"status": "partial",
"note": "Exact for every history in which each class has a direct superclass, and for every second argument but <object> in any history; refuted for make(<class>, superclasses: #()), and adding several positions at once overruns its vector when the first position is among them."
},
"C22": {
"status": "partial",
"note": "disjoint-types? is sound for all modelled types in worlds whose classes come from library loads and whose singletons are of objects on which = and == agree; run-time classes and content-equal singletons are refuted by witnesses."
},
"C20": {
"status": "partial",
"note": "Proved for all types of the modelled grammar (classes, singletons, unions, limited integers, subclass types) whose right side has no subclass(<class>) and whose limited integers are not inverted; both exclusions are refuted by witnesses. instance? is characterized exactly. Limited collections and functions are not modelled."
},
"C21": {
"status": "partial",
"note": "Reflexive for types without NaN or content-equal singletons that do not mix limited integers with subclass types; transitive under the same conditions without subclass(<class>); the exclusions are refuted by witnesses. Unions are least upper bounds."
},
"C06": {
"status": "partial",
"note": "Refinement of a finite map for every history (all operations, any number of live iterations, growth, in-place and copying rehash, the collector moving objects at any allowed point) on strong tables, single thread. The claim fails when growth fails: C06_failed_growth_refuted."
},
"C07": {
"status": "partial",
"note": "Probe covers every slot for every size of the list and every hash; a strong table always has an empty slot. Refuted for weak tables: C07_weak_refuted (the collector's own deletions are counted nowhere the fullness test looks)."
},
"C08": {
"status": "proved",
"note": "Unmodified iteration yields the map's entries once each; also under arbitrary modification for entries that stay. C08_stored_again_refuted records what is not promised."
},
"C09": {
"status": "proved",
"note": "String, case-insensitive-string and symbol tables: test is equality (up to case), equal keys have equal in-range codes, and the protocol meets the table contract; unordered collection hash is independent of order; value-hashed objects have in-range codes. Address-based object hashing is covered by the abstract contract of C06."
},
"C10": {
"status": "partial",
"note": "Proved for every history of requests by name, with library initialisation and literal loading at any point. Missing: removal of unreferenced symbols by the collector is not modelled; C10_null_refuted shows that before initialisation names are compared only up to a null character."
},
"C38": {
"status": "partial",
"note": "All list operations proved for every heap, sharing included; refuted for replace-subsequence! outside its bounds (corrupts the shared empty list), with end before start, and with the list inserted into itself (both never return). Threads changing a list during an operation are not modelled."
},
"C36": {
"status": "partial",
"note": "Proved for every schedule of disciplined programs: exclusion, no errors, owned? exact, owned-for-reading? true for readers. Refuted: owned-for-reading? is true for threads that hold nothing, and release does not check ownership of a read hold, so a thread that releases what it does not hold breaks exclusion."
},
"C37": {
"status": "partial",
"note": "Proved for every schedule: simple and recursive locks are exclusive and balanced, results of all calls, notification waits return with the lock, semaphores never over-grant, emulated count within its maximum. Refuted: owned? after a notification wait or a foreign release, recursive owned? for a non-holder, maximum of POSIX semaphores not enforced, emulated semaphore deadlocks after a refused release."
},
"C46": {
"status": "partial",
"note": "Proved for read-write locks and POSIX semaphores. Refuted for the emulation of semaphores: a timed wait may consume the signal."
},
"C40": {
"status": "partial",
"note": "sequence streams: every history of documented calls answers as the documentation says (contents and a position); written data comes back, reads are consecutive; eight deviations from the documentation refuted. Buffered file streams: input streams for every history, buffer size and short read; output streams for every history (missing: writing after force-output before the end, refuted), file contents after close and force-output, read back through another buffer size; input-output streams for every history while the file is smaller than the buffer and reads are complete; beyond that refuted in six ways"
},
"C41": {
"status": "partial",
"note": "The C run-time's frame chain with setjmp and longjmp as a machine; programs are higher-order trees of blocks, exits and cleanup clauses. All programs whose cleanup clauses make no exits, and many more, run as the language says. Refuted: an exit that ends inside a cleanup clause run by another exit cancels the latter; a cleanup clause that exits after its body has returned runs twice; an abandoned exit can change the values of one under way; a dead exit procedure is undefined behaviour. Not modelled: exits compiled to gotos, the LLVM back end's unwinder."
},
"C42": {
"status": "partial",
"note": "Representation, comparison, predicates, bitwise operations, negation, shifts (short of the shift by the least integer) are exact, and every sum or difference returned is right. Refuted: spurious overflow of add/subtract near the limits, products beyond 128 bits returned wrong and 0 times a negative number overflowing, division and printing of some negative numbers, integer-length above 64 bits, gcd with zero or equal negative arguments, unsigned words in the C run-time. double/double division and round/ are not implemented in the library."
},
"C43": {
"status": "partial",
"note": "sorted-applicable-methods, the choice of the method at a terminal, and the dispatch cache over all histories of definitions and calls are proved for plain specializers; refuted: nested limited integers, singletons with limited integers, subclass types in unions, content-equal singletons, silent ambiguous calls, dropped methods, redefinition beside unions; not modelled: sealed domains, profiling, removal of methods, the hash tables inside class-keyed discriminators"
},
"C47": {
"status": "partial",
"note": "Every function over every mixture of vectors, strings, stretchy vectors, deques, lists, ranges and tables is proved to look at exactly the common keys, once each, in key order when a sequence takes part. An infinite range together with several tables without a common key is never done (C47_infinite_range_refuted), so the end of the iteration is proved for the other mixtures only. Functions passed are pure."
},
"C48": {
"status": "partial",
"note": "Proved for every target except the cases that fail in the code: a list from a string or from a source that is not a sequence, and a deque that has to grow from anything but one list, range or table. The target may be one of the sources, the heap is otherwise unchanged, and all applicable methods are covered where dispatch is ambiguous. The failing cases have refutations. Not modelled: limited collections, arrays of several dimensions, user-defined collection classes."
},
"C49": {
"status": "proved",
"note": "All built-in result types and sources over which iteration ends; functions with side effects of their own."
},
"C50": {
"status": "partial",
"note": "Proved for all pairs of built-in classes except two kinds, for which it is refuted: a list and a table with another key test than == (the key test is ignored), and two ranges of one element with different steps (the step is compared). Dotted lists and multi-dimensional arrays are not modelled."
},
"C51": {
"status": "partial",
"note": "Proved for all pairs of built-in sequences, tests and counts from 1 on, except an empty pattern with a count beyond the number of positions; that case and counts below 1 are refuted."
},
"C52": {
"status": "partial",
"note": "Proved for vectors, strings, stretchy vectors and deques (fill! also for lists), all contents and bounds. Refuted: inserting a deque into itself, and bounds outside of a deque, which replace-subsequence! does not check."
},
"C53": {
"status": "proved",
"note": ""
},
"C54": {
"status": "proved",
"note": "The whole transition table and its interpreter are modelled (the table is generated from the source text). Recovery after an error and hash literals are not modelled."
},
"C55": {
"status": "proved",
"note": "For every literal and every text around it; the range of representable integers is a parameter (min = -max-1)."
},
"C56": {
"status": "partial",
"note": "Proved for texts of legal characters that end in an end of line and in which no comment bracket is closed right before a slash or a star. Refuted otherwise: C56_tight_close_refuted and C56_early_close_refuted (after an inner */ the next character is not looked at), C56_last_line_refuted (a // comment on a last line without an end of line is read as tokens)."
},
"C57": {
"status": "proved",
"note": "One-line strings, quoted symbols, raw strings and character literals, and strings, symbols and raw strings between three or more quotes (on one line or several), in any context and of any length."
},
"C58": {
"status": "partial",
"note": "The decimal number that atof computes with is proved exact (up to 18 digits) or close; the rounding to binary floating point is not modelled. Refuted for long numbers with negative exponents, leading zeros, a sign and point alone, and underscores in fractions."
},
"C59": {
"status": "partial",
"note": "member?, and intersection and union through it, only for symmetric tests when the sequence searched is a string: member? on a byte string swaps the arguments of the test (refuted). Functions passed have no side effects."
},
"C60": {
"status": "proved",
"note": ""
},
"C61": {
"status": "partial",
"note": "Proved for all well-formed control strings and for all control strings of common-dylan; a width of 0 and a minus sign inside a width violate the documented behaviour (refuted with witnesses)."
},
"C62": {
"status": "partial",
"note": "All parts proved but the last: on 64-bit platforms most numbers below a large range can never occur (refuted with a witness)."
},
"C63": {
"status": "partial",
"note": "fill with an end short of the size, copies that do not overlap, hexadecimal strings proved; refuted: fill changes the byte at end and overruns with the default end, overlapping copies, strings that are not hexadecimal are accepted"
},
"C64": {
"status": "partial",
"note": "all proved for lists and vectors except: remove-property! only if the indicator is not repeated (refuted otherwise: a list keeps the second pair, a vector returns the last value); lists of odd size are not refused (refuted: put-property! sets the head of the empty list)"
},
"C65": {
"status": "partial",
"note": "Proved for dimensions that are non-negative and at least one in number, over all histories of aref-setter, element-setter and fill!. Refuted: shallow-copy of an empty array is an error, an array of rank 0 has no element and aref reads outside of it, negative dimensions are accepted and lead to unchecked accesses. Not modelled: limited arrays, copy-sequence."
},
"C66": {
"status": "partial",
"note": "integer-length, decode-float and classification of singles proved in full; scale-float proved exact for normal arguments, and for subnormal ones up to the largest exponent, and correctly rounded for all finite arguments when the result underflows. Refuted: NaNs with fraction bits only in the low word are classified infinite; float-precision of floats with exponent field 1; scale-float of zero (NaN) and subnormals (infinity) with large scales, of infinities and NaNs."
},
"C67": {
"status": "partial",
"note": "append! and concatenate! for arguments that share no pairs; element and element-setter except at the index that is the size when it is 3 or more, where they are refuted, as are append! of a t-list to itself, independence after append!, repeated current-key and copy-state"
},
"C68": {
"status": "partial",
"note": "proved for list, stretchy and number collectors; the deque collector and the conversion to other classes are covered by C04 and C47 only; refuted that a collection is a snapshot"
},
"C69": {
"status": "proved",
"note": "all strings and delimiters"
},
"C70": {
"status": "partial",
"note": "position on lists and vectors, find-key and find-element on sequences, fill-table! and difference are proved; difference with a string as second sequence only for symmetric tests. Refuted with witnesses: negative start, end behind the end of a vector, #f as a key of fill-table!."
},
"C71": {
"status": "proved",
"note": "For all patterns, expressions, strings and orders in which transitions are gone through. The hash function of the table of states is not modelled."
},
"C72": {
"status": "proved",
"note": "the cache of parsed expressions is not modelled"
}
}
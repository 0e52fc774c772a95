# Formal model of Open Dylan in Rocq (Coq 8.16.1)

## 1. Layout

All Coq files are in `rocq/theories` (logical name `Verif`).  Each component `X`
has up to four files:

* `XModel.v`  – the model: computable Gallina functions, one per function of the
  code, each with a comment citing file and lines in /repo.  No proofs.
* `XSpec.v`   – a small specification that does not use the model's helpers.
* `XProofs.v` – lemmas.
* `XProps.v`  – the property theorems only, each closed by `exact lemma`, followed
  by `Print Assumptions`, with an `Example` showing that the hypotheses are met by
  a concrete non-trivial case.

Names: `..._partial` = only part of the property is proved (the comment says what is
missing); `..._refuted` = the faithful model violates the property; the theorem
exhibits the witness.

## 2. Trusted base

* Coq's kernel (8.16.1), including `vm_compute`.
* No axioms of our own.  `Print Assumptions` below each property theorem; section 5 lists
  the result.
* The reading of /repo into the model: every definition cites the lines.  The code is
  never run.  Simplifications are listed in the comment of each definition and in
  section 4.

## 3. Plan per property

| id | what is modelled | how it is proved |
|----|------------------|------------------|
| C01–C03 | `sort.dylan` on arrays with an explicit out-of-bounds outcome: insertion sort, merge sort, quick sort with median-of-three and partition loops on fuel | loop invariants; the result is a permutation, sorted; merge/insertion sort stable; quick sort never reaches the out-of-bounds or out-of-fuel outcome under a strict weak order; refutation for a non-strict test |
| C04–C05 | `deque.dylan` `<island-deque>` with first/last indices in an array | refinement to `list`, by induction over histories; unchecked accesses are an explicit outcome |
| C06–C08 | `table.dylan` entry vector with empty/deleted markers, probing, rehash, hash-state staleness | invariant + refinement to finite map; coprimality of strides and sizes by computation over the constant lists, orbit lemma by number theory |
| C09–C10 | `hashing.dylan`, `symbol-table.dylan` | algebraic |
| C11–C12 | `range.dylan` | algebraic + number theory; refutations where construction loses elements |
| C13–C15 | `number.dylan`, `integer.dylan` | algebra over Z; tagged words with explicit overflow |
| C16 | `format.dylan` conversions | round trip by digit induction |
| C17–C19 | `bit-vector.dylan`, `bit-set.dylan` with 64-bit words as Z/N | bitwise extensionality lemmas lifted to vectors; iteration as state machine; refutations for stale tail bits |
| C20–C22 | type terms, `instance?`, `subtype?`, `disjoint-types?` dispatch tables | structural induction; refutation for inverted limited-integer bounds |
| C23–C24 | C3 merge; rcpl position tables | induction on merge; invariant over class definition histories |
| C25–C29 | `date.dylan`, `durations.dylan` | arithmetic over Z, refinement to day count; round trip through digit strings; refutations for microseconds, zones |
| C30–C32 | `posix-locators.dylan`, `locators.dylan`, `utilities.dylan` | induction over paths/strings, denotation in a tree |
| C33–C34 | `mangling.dylan`, `demangling.dylan`, `demangle.c` | decoding lemma per character, separators never occur in mangled text; byte-level memory model with out-of-bounds outcome |
| C35 | `split`, `join` | induction on position |
| C36–C37 | lock state machines, small-step over threads | invariant over all schedules |
| C38 | heap of pairs | refinement to `list` with separation of cells |
| C39 | `stretchy-vector.dylan` | refinement to `list` |
| C40 | sequence streams and buffers | refinement to contents + position |
| C41 | abstract machine of the C run-time's exits (frame chain, setjmp/longjmp as a control stack) over higher-order programs | simulation of a denotational meaning, by induction on the program; refutations by computation |
| C42 | double-integer.dylan and the word primitives it calls; immediate and two-word integers | arithmetic modulo 2^64 and 2^128 lifted to Z; refutations by computation |
| C43 | method sorting, the dispatch engine as a tree of discriminators built by misses, add-method | order theory for sorting; an invariant "every path of the engine ends in the terminal of the arguments that take it", kept by every miss; induction over the history; refutations by computation |
| C44 | element types in the deque and stretchy-vector models | invariant over histories |
| C45 | locator children and parents on the model of C30–C32 | induction over paths, denotation in a tree |
| C46 | the lock machines of C36–C37 with sleeping threads | invariant over all schedules |
| C47 | the iteration protocols of the built-in collections, multiple-collection and its three protocols, the reading loops of collection.dylan | for each protocol, position i of the iteration is a closed form; induction on the keys that remain; a refutation by induction on the fuel |
| C48 | the eleven methods of map-into | the loop keeps "stored so far" as an invariant on the target; refutations by computation |
| C49 | accumulators with their buffers as memory; the methods of map-as-one; functions with a state | invariant: the words stored so far and the links of the chain; loop over the chain reverses it; pigeonhole for tables into sequences |
| C50 | the methods of = on the collections of CollModel, selected by the two classes; = on elements is a parameter | induction on the position in the iteration; pigeonhole on keys for tables; refuted for a list and a table with another key test, and for ranges of one element with different steps |
| C51 | the methods of subsequence-position on the sequences of CollModel; the test is a parameter | induction on a measure of what is left to search, with the number of occurrences before the current position as invariant; the skip table never skips an occurrence; refuted for an empty pattern with too large a count, and for counts below 1 |
| C52 | the methods of copy-sequence, fill! and replace-subsequence! on the collections of CollModel, with a heap for aliasing | every loop is shown to write a list at consecutive positions (`splice`), then the pieces are put together position by position; refuted for a deque inserted into itself and for bounds outside of a deque |
| C53 | the stack of pending operators and its folding, function by function | invariant of the stack (pending operators rise, every argument fits between its neighbours), induction over the sequence; uniqueness by induction over the tree: two different roots would each have to bind more tightly than the other |
| C54 | the whole transition table (generated from the source by tools/gen_lextable.py), its interpreter get-token and the literal builders | invariant of the machine (saved position, line and line start belong together; counters are zero between tokens), termination by a measure; table facts by computation over all states |
| C55 | as C54, with parse-integer | paths of the machine for digits and underscores by induction, value of the digits by induction with monotone partial results |
| C56 | as C54 | simulation of the comment states by a reference scanner (pending character, depth), induction over the text; the states of tokens are closed under transitions by computation |
| C57 | as C54 with the decoders of LitModel; the property is an inductive relation between source and contents (StrSpec) | induction over that relation, through the state machine (with its quote counters for the delimiters of three or more quotes, MultiSpec) and through the decoder |
| C58 | as C54 with atof up to the rounding: the sign, mantissa, scale and power of ten it computes with | path through the state machine; induction over the digits; rational arithmetic (QArith).  Refuted: more than 18 digits before the point with a negative exponent; leading zeros use up the limit; a sign and a point without a digit; underscores in fractions.  Not modelled: the final floating-point multiplications |
| C59 | the loops of choose, choose-by, remove, remove-duplicates, intersection, union over the iteration protocols of vectors, strings, stretchy vectors, deques, lists and ranges, and the member? methods (`SelModel.v`) | loops are folds over the list of elements; the folds are computed by induction.  member? on byte strings swaps the arguments of the test: refuted, and the theorems that use it ask for a symmetric test there |
| C60 | add, add-new, reverse, reverse!, last and all methods of concatenate-as (`SelModel.v`) | splicing lemmas for the vector loops, a common invariant for the result being filled through its iteration protocol, and a lemma for the counting loops that find the only non-empty argument |
| C61 | format, do-dispatch, parse-integer, format-integer of io and print-format of common-dylan (`FmtModel.v`) | control strings as pieces (text, directives with fields); the loop is followed piece by piece.  A width of zero is an error and a minus sign inside a width counts as a digit: refuted |
| C62 | the whole of random.dylan with a 61-bit $maximum-integer (`RandModel.v`) | the ring buffer refines a sequence with a linear recurrence; bitwise invariants by induction over the sequence.  That every number can occur is refuted: the upper 32 bits of all values are equal |
| C63 | byte-vector-fill, copy-bytes (bytes and general methods), hexstring, from-hexstring with memory accesses out of bounds as UB (`ByteModel.v`) | splicing lemma; loop invariants; induction over pairs of digits.  Refuted: fill changes the byte at end too, and with the default end overruns the vector; overlapping copies within one vector; from-hexstring takes characters such as ':' for digits |
| C64 | all of plists.dylan on lists (heap of pairs of `ListModel.v`), stretchy and simple vectors, and concatenate! on lists (`PlistModel.v`) | induction over the pairs with heap segments for lists, and over positions for the loops on vectors.  Refuted: with a repeated indicator a list keeps it, and a vector returns the last value; put-property! on a list of odd size sets the head of the empty list |
| C65 | Arrays as dimensions plus list of elements; make, row-major-index (both versions), aref, element, fill!, shallow-copy with <integer> overflow and unsigned range checks | Horner value of the subscripts equals the position in the lexicographic enumeration of all tuples (induction on the dimensions); histories by an invariant; three refutations: shallow-copy of empty arrays, arrays of rank 0, negative dimensions |
| C66 | Floats as bit patterns; integer-length, classify-float, decode-float, float-precision on single and double words, scale-float with IEEE multiplication rounding to nearest even | Field decomposition of patterns, logarithms and disjoint bit-or; exactness of the multiplication when the product is a float; nearest-even rounding of underflowing results for all scales, through the repeated multiplications; induction on fuel for termination; refutations: NaNs classified infinite, precision of the smallest normal floats, scale-float on zeros, subnormals, infinities and NaNs |
| C67 | t-lists on a heap of pairs: the slots first-pair and last-pair, all methods of t-lists.dylan except printing | invariant tl (a proper list whose last pair is last-pair), kept by every call; refinement of any history of calls to a sequence, with a frame condition for all other pairs; refuted: element and element-setter at the index equal to a size of 3 or more (gives #(), stores into the shared empty list), append! of a t-list to itself (circular), growing a t-list after append! changes the appended one, current-key called twice, copies of states |
| C68 | the list collector on a heap of pairs, the stretchy collector with its shifting loop, the number collector | invariant of the collector pair (its head is the last pair, itself if empty) with a frame condition; induction on the additions to two collectors; refuted: the collection is not a snapshot |
| C69 | the loop of tokenize-environment-variable | loop invariant; the pieces are characterised by joining them again, and proved unique |
| C70 | the two loops of position, find-key on sequences, find-element, fill-table!, difference on the collections of CollModel | induction on the loops against the n-th match; the specification counts the matches before the answer; refuted: negative start gives a negative position, an end behind the end signals on vectors but not on lists, a key #f shifts keys and elements |
| C71 | the glob parser, the constructors of regular expressions with their first, last and follow positions on a store of leaves, the transitions, the table of states with its test on lists | induction: each constructor keeps that the paths through the positions read the language of the expression; invariant that no list of positions has duplicates, so that the table's test is equality of sets; induction on the string; for the worklist, the invariant that the states are distinct sets of positions, so at most 2^n, and that each is on the worklist or has all its successors in the table |
| C72 | the four local parsing functions and their loops on the rest of the string; the result is the tree whose making is C71's `build` | a printer with levels as the specification; for each level a lemma about what the parsing function does in front of any rest of the string, induction on the expression; induction on the fuel for termination; C71 for the automaton |

Properties that turn out not to be expressible are recorded here with one line.

## 4. What is and is not modelled

The header of each `XModel.v` is the full list for that component, and the comment of
each definition says where it departs from the lines it cites.  In short:

| model | code | left out |
|-------|------|----------|
| SortModel | dylan/sort.dylan | tests that signal, escape or mutate the vector |
| DequeModel | dylan/deque.dylan | concurrent mutation, `<integer>` overflow of sizes |
| StretchyModel | dylan/stretchy-vector.dylan, limited-stretchy-vector.dylan | overflow of sizes (replace-subsequence! is in SeqOpModel) |
| TableModel | dylan/table.dylan | more than one thread, weak tables |
| HashModel | dylan/hashing.dylan, symbol-table.dylan, string comparison, c-run-time.c interning | object hash of addresses (abstract in TableModel) |
| ListModel | dylan/list.dylan on a heap of pairs | user functions that change pairs |
| RangeModel | dylan/range.dylan for integers | overflow, ranges of other numbers |
| IntModel | dylan/integer.dylan, number.dylan, machine-word primitives (LLVM back end) | floats, 32-bit targets, the C back end |
| DblModel | lib/big-integers/double-integer.dylan and its primitives | floats, lcm, round/, conversions |
| NumStrModel | common-dylan/format.dylan conversions | float printing |
| BitsModel | collections/bit-vector.dylan, bit-set.dylan | size overflow |
| DateModel, DateStrModel | system/date.dylan, durations.dylan | the clock, `<integer>` overflow |
| SplitModel | common-dylan split and join | result classes |
| LocModel | system/locators, posix-locators.dylan | other operating systems' locators |
| ClassModel | dylan/class-dynamic.dylan, class.dylan, define-class.dylan load-time part | slots, redefinition, sealing |
| TypeModel | dylan/type.dylan, union.dylan, singleton.dylan, limited-integer.dylan, subclass.dylan | limited collections and functions |
| DispModel | dylan/discrimination.dylan, dispatch-prologue.dylan, new-dispatch.dylan, generic-function.dylan | sealed domains, accessor methods, call-site caches, profiling, the hash tables inside class-keyed discriminators |
| CollModel | dylan/collection.dylan, multiple-collection.dylan, the iteration protocols, element and element-setter of the built-in collections | user-defined collections; functions with side effects on the collections; the representation of tables and deques (TableModel, DequeModel) |
| AccModel | dylan/accumulator.dylan, map and map-as in dylan/collection.dylan, deque.dylan, range.dylan | limited collection types, multi-dimensional arrays, sets, user-defined types; the loops of `as` from a vector; functions with side effects on the collections |
| EqModel | the methods of = in dylan/collection.dylan, range.dylan, speed.dylan, string.dylan | dotted and circular lists; multi-dimensional arrays; constant ranges (in RangeModel); the hash functions of tables with other key tests |
| SubModel | subsequence-position of dylan/sequence.dylan, vector.dylan, string-speed.dylan | tests with side effects; user-defined iteration protocols; unicode strings (which use the vector method) |
| SeqOpModel | copy-sequence, fill!, replace-subsequence! of dylan/sequence.dylan, vector.dylan, string.dylan, array.dylan, deque.dylan, mutable-collection.dylan, mutable-sequence.dylan, stretchy-vector.dylan | lists (ListModel) and ranges; limited collections; type errors of start: and end: |
| SelModel | dylan/sequence.dylan, vector.dylan, string-speed.dylan, deque.dylan, list.dylan | `as` is its result, not its loop; consed lists are Coq lists; the fast path of member? with == on objects; methods on ranges (C11) and remove, remove-duplicates, reverse, last on lists (C38) |
| FmtModel | io/format.dylan, common-dylan/format.dylan:51-194 | print-object and the names of objects other than strings, characters and integers are a parameter; double integers; format on byte strings only; a stream is the text written |
| RandModel | common-dylan/random.dylan | the default seed (the time of day); threads sharing a generator; 32-bit platforms; the period of the generator |
| ByteModel | common-dylan/byte-vector.dylan, lib/run-time/c-run-time.c | byte-vector-ref, byte-storage-address, copy-bytes between byte vectors and object vectors (165-200) |
| PlistModel | collections/plists.dylan, common-dylan/common-extensions.dylan (concatenate! on lists) | whether remove-keywords returns the same or a new vector; property lists in other kinds of sequence; circular lists |
| ArrModel | sources/dylan/array.dylan, multidimensional-array.dylan | limited element types, memory exhaustion, copy-sequence of vectors, `as`, iteration protocol of arrays |
| FpModel | sources/common-dylan/numerics.dylan | scale-float on doubles works on the whole pattern, not on two words; 32-bit words; floating point traps; the hardware multiplication is the IEEE 754 one, written out in the model |
| TlModel | lib/t-lists/t-lists.dylan | print-object, subclasses of <t-list>, initialization arguments first-pair: and last-pair: given by the user |
| CollectModel | collections/collectors.dylan, system/tokenize-variable.dylan | the collecting macro, conversion to other classes at the end, the deque collector (push and push-last of DequeModel) |
| FindModel | common-dylan/common-extensions.dylan (position, difference, find-element, fill-table!), dylan/sequence.dylan (find-key) | position on deques and ranges, find-element on explicit-key collections, the table itself in fill-table! (the stores are modelled), integer overflow |
| GlobModel | lib/jam/jam-glob.dylan (without jam-builtin-glob), lib/jam/regular-expression.dylan, the accepting state of jam-regular-expression.dylan | the worklist (see DfaModel; here transitions are computed when they are needed), the hash function of the table, the deterministic? option |
| RxModel | lib/jam/jam-regular-expression.dylan: parse-regular-expression | the cache of parsed expressions (a cached node whose follow positions another use has extended is shared), positions in messages |
| DfaModel | lib/jam/regular-expression.dylan: the worklist and the table of states of regular-expression-dfa | the deque (a list), the hash function of the table; the order of the transitions is a parameter |
| BinopModel | dfmc/reader/parser-support.dylan:46-216 and the productions expression, expression-guts of parser.dylgram | what an operand is; fragments without a source position; the generated LALR tables |
| LexTable, LexModel | dfmc/reader/lexer-transitions.dylan (all of it, generated) and lexer.dylan:15-470 | recovery after an invalid token; the fragments' contexts and records |
| LitModel | dfmc/reader/lexer.dylan:740-1062, 1111-1162, 1202-1307 | hash literals (#:name:...), the final floating-point evaluation of atof (only the exact decimal it starts from), ratio literals (always an error), the choice of fragment class |
| MangleModel | dfmc/mangling, run-time/demangle.c | |
| LockModel | dylan/locks.dylan, notification.dylan, run-time/posix-threads.c | thread creation, priorities; memory is sequentially consistent |
| SeqStreamModel, FileStreamModel | io/streams | locks, wrappers, failing system calls |
| NlxModel | run-time/c-run-time-nlx.c and the code the C back end emits for blocks | other back ends, several threads |

Not modelled at all: the compiler (dfmc) apart from mangling, the lexer and the grouping of operators, the IDE (environment, duim,
deuce), the garbage collectors, networking, ODBC, COM, CORBA, the build system.

## 5. Assumptions per theorem

Every theorem in every `*Props.v` file is followed by `Print Assumptions`, and for every
one of them the answer is "Closed under the global context": no axioms, not even those
of the standard library.  (The checker's list of library axioms names the seven
parameters of `Coq.ssr.ssrunder.Under_rel`, a module type of the standard library that is
loaded with ssreflect through std++; no theorem depends on them.)

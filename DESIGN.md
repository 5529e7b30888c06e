# Formal model of utki: design

Subject: cppfw/utki at the pinned commit in `/repo` (read as text, never built or run here).
Tool: Rocq / Coq 8.16.1, standard library only.

## Trusted base

* Coq's kernel (and `vm_compute`, used for finite sweeps and concrete examples).
* Axioms: see "Assumptions" at the end of this file; every property theorem is followed by
  `Print Assumptions`.
* The reading of the C++ code: each Gallina definition cites the file and lines it models. Nothing
  ties the model to the code mechanically. As a check of the reading, `ConfText.v`, `ConfTree.v` and `ConfMisc.v` compute with
  the models what the project's own unit tests (`tests/unit/src`) expect of the code; these are tests, not properties.
* The C++ language and library facts the model relies on, listed per component below.

## Conventions

* `Base.v`: `outcome A = Ok a | Throw e | UB r | Abort | Terminate | Diverge`. `UB` = undefined
  behaviour, `Abort` = `utki::assert` failed (only in a debug build), `Terminate` = `std::terminate`.
  They are distinct results, never assumed away.
* Functions containing `ASSERT`/`utki::assert(..., SL)` in debug-only form take `dbg : bool`. In
  debug a failed assertion is `Abort`; in release it is a no-op and whatever follows is modelled (mostly `UB`).
  A theorem for all `dbg` with an `Ok` result therefore says that no assertion fires.
* Machine integers are `N`/`Z` with explicit `mod 2^n`; `nat` is used for positions, lengths, fuel.
  size_t is 64 bit, unsigned is 32 bit, int is 32 bit (x86-64 ABI). `char` is signed on that ABI;
  where it matters the model is parametrised by it.
* The default build is C++17 (`config/base/base.mk`); code under `#if CFG_CPP >= 20` is modelled as a
  separate variant where it differs observably.
* Loops are structural recursion, or recursion on fuel whose exhaustion is the distinct result
  `Diverge`; theorems show that it does not happen (or, for C41, C44 and C112, that it always happens).
* Files per component X: `XModel.v` (definitions only, citing the code), `XSpec.v` (specification
  independent of the model), `XProofs.v`, `XProps.v` (property theorems, `exact` + `Print
  Assumptions`, and non-vacuity examples).
* When the English contract is false of the code the property states the exact truth, and a theorem
  `..._refuted` carries the witness.

## Plan per property

| property | model | proof |
|---|---|---|
| C01, C02 | `Base64Model`: table, quad, decode over character codes, UB outcomes | independent RFC 4648 bit-stream encoder in `Base64Spec`; induction on groups of three bytes |
| C03, C04 | same | exact case analysis of the tail; induction over quads |
| C05, C06 | `SerialModel`: loops of (de)serialize_le/be over a memory map | closed formula of the byte at each offset; induction on the width |
| C07 | float as (sign, exponent, fraction) fields | bit-field arithmetic |
| C08 | `DeserModel`: span as (buffer, offset, size), ops | step lemma against a "take n bytes" spec, induction over histories |
| C09 | same + serialize functions | induction over the record list |
| C10 | `UnicodeModel`: `to_utf8` with bit operations into a 7-byte array | RFC bit-pattern spec; arithmetic |
| C11, C12 | iterator over span / over C string memory | decode-one-sequence lemma, induction |
| C13, C14, C15 | same, read outside of buffer = UB, shift >= 32 = UB | exact characterisation by induction on the remaining input |
| C16, C17 | `StringModel`: split(delim), join via skip_front view | induction |
| C18 | split(ws) with isspace oracle undefined on negative values | induction |
| C19-C22, C72 | `WrapModel`: the loop of word_wrap over positions | refinement to an abstract machine (five states), then induction over the text |
| C23-C25 | trim, starts_with, ends_with (both modes), make_indentation | induction / arithmetic |
| C26 | `FormatModel`: make_string_va_list with a vsnprintf oracle and va_list state | case analysis over the two iterations |
| C27, C28 | `ParserModel`: string_parser operations | step lemma + induction over histories |
| C29-C32 | `ParserModel`: to_chars/from_chars modelled from their standard contract; to_string, read_number | digit-list arithmetic |
| C33-C39, C71 | `TreeModel`: forest, iterators as the two stacks, operations | path-based specification of pre-order; successor lemma; insertion/erasure on flattenings |
| C40, C41 | `SortModel`: partition and quick_sort on an array | permutation + partition post-condition, well-founded recursion on range length |
| C42-C44 | `SignalModel`: std::list with stable node ids; callbacks as scripts | refinement to a sequence; small-step emission |
| C45-C47 | `SpinModel`: interleaving semantics, memory orders as parameters; happens-before defined on traces | invariants; explicit infinite schedule for starvation |
| C48, C49 | `FlagsModel`: bitset of n flags | refinement to sets |
| C50-C54, C73 | `RaiiModel`, `RefModel`: histories of objects with ownership; reference counts | invariants by induction over histories |
| C55, C57 | `SpanModel`: a region of an array | arithmetic |
| C56 | `DeepModel`: std::equal and std::lexicographical_compare over two element types | induction; specification by the first difference |
| C58, C60-C62 | `UtilModel`: views, iterator helpers, flip_map, contains | induction |
| C59 | `LinqModel`: collections with ownership, what is left of moved-from elements | induction over the collection |
| C63-C65, C70 | `MiscModel`: version, ticks, powers with promotion and overflow, size selectors | arithmetic |
| C66, C67 | `ExceptModel`: exception objects as trees, the four printing functions | induction over the nesting; relation between chains and lists of entries |
| C68 | `EnumModel`: underlying type with promotion; array and zip | induction over the number of items |
| C69 | `DebugModel`: assert_always, assert, ASSERT; and all models that take `dbg` | a relation `agree` between the outcomes of both builds, closed under composition, then one lemma per function |
| C74, C75 | `TreeMoreModel`: the client loop with erase, comparison of trees | nodes still to be visited as a list with depths; the outline determines the nodes |
| C76, C77 | `TextModel`: pointers into one array, containers as data() and size(), streams | induction over the range; fold over the arguments |
| C78, C79 | `LogModel`: standard output with formatting and flushing; malloc heap | case analysis |
| C80, C81 | `MetaModel`: types as terms, overload resolution of index_of | induction over the list of types |
| C82, C83 | `FloatComputeModel`, `FloatTable`: Eisel-Lemire of the bundled fast_float, bit patterns as integers | `FloatSpec`: nearest pattern by the midpoints to its neighbours. The 128-bit table entries are truncated; for each exponent a pair of neighbouring fractions (`FloatCerts`) with denominators beyond 2^64 shows that no 64-bit w falls between the truncated and the exact product; ties by divisibility by powers of 5 |
| C84, C85 | `FloatParseModel`: lexing of numbers, infinity and nan (pointers are the remaining text); `FloatFastModel`: IEEE arithmetic in four rounding modes, with excess precision, tables, fast path | `FloatTextSpec`: grammar of the texts, what they denote; `FloatSpec`. Rounding twice is harmless: the quotient of an integer by a power of ten is too far from every middle |
| C86, C87 | `FloatBigintModel`: stackvec of limbs as a list, `FloatDigitModel`: compute_error, parse_mantissa, digit_comp | `FloatBigintSpec`: value of a list of limbs; exact comparison of the number with the middle between two neighbours; a middle has at most 768 (113) digits, so cutting off is harmless |
| C88-C90 | `FloatFromModel`: from_chars, composed of the models above | the parts composed: which texts reach which path; `FloatFromSpec`: the conversion of a meaning |
| C91, C92 | `FloatCharsModel`: the three wrappers, read_number on top of `ParserModel` | composition |
| C93-C96 | `MathModel`: floating point numbers as a sign and a pattern, multiplication and division with all special cases; integral types of `MiscModel` | `MathSpec`: the real number a pattern stands for. `MathRealProofs` encloses pi (Machin) and ln 2 (series of the exponential function) between rationals; error analysis with two roundings (up to five for the powers) over the reals |
| C97, C98 | `ConstModel`: masks, units; standard streams with descriptors and the open files of a process | bitwise extensionality; induction over the open files |
| C99, C100 | `SortEffModel`: the same algorithm in a state monad that keeps the memory when it fails | one invariant for all loops which counts the comparisons; simulation by `SortModel`; a recursive construction of the worst arrays |
| C101 | `SignalCopyModel`: many signals, copies make new list nodes | nodes of the copy have numbers that no connection returned by connect has |
| C102-C106 | `ConfigModel`: a small preprocessor and the directives of config.hpp and windows.hpp | `ConfigSpec`: tables of macros; one lemma for each part of the header, macros only grow |
| C107 | `LinqEffModel`: the same operations with a world that calls and copies change, keeping the collection when they fail | `LinqEffSpec`: a traversal up to the first failure; induction over the collection; grouping of pairs of keys and elements |
| C108 | `RefMoreModel`: objects with phases of life and the weak_this of std::enable_shared_from_this | invariant: the count is the number of owners, and decides the phase |
| C109 | `RefMoreModel`: comparison operators that may throw inside of noexcept functions | case analysis |
| C110 | `SpinMemModel`: the operations of each thread in order, `SpinMemSpec`: modification order, reads-from, happens-before as in the standard | induction over the modification order; interleaved executions as an instance |
| C111 | `OverloadModel`: viable functions, ranking of conversion sequences, partial ordering of generic lambdas | case analysis; bijections of indices for the order |
| C112 | `SignalModel` | `SignalNestSpec`: mutual inductive relations between the events before and during an emission, an invocation, a callback; induction over the fuel |
| C113 | `SingletonEndModel`: registered destructors, storage of singleton objects, the end of the program | invariant: the object alive is the one in the pointer; the list of destructors is that of the history reversed; cases by the storage of the object left |
| C114 | `TreeMemModel`: nodes with addresses, containers that move their elements; the same operations | simulation of `TreeModel`; the change of one container by its path; addresses that are lost |
| C115 | `ViewModel`: string views as pointers into blocks of memory, the parser and trim on them | simulation of `ParserModel` with the number of characters taken off; invariant: the view of the parser is a rest of the first one |
| C116 | `PlatformModel`: the Android and Microsoft branches of log, assert_always and demangle | comparison with `LogModel` and `DebugModel` |
| C117 | `TreeLoopModel`: loops that erase nodes, on the memory of `TreeMemModel` | induction over the outline still to be visited, as for C74, with C114 for each step |
| C118 | `ViewLoopModel`: collections as sequences of places, range-based for loops over the views | an invariant (the places from the j-th on are those of the start) carried along the loop |
| C119 | `ExceptAllocModel`: the text functions of `ExceptModel` as runs over a list of allocation outcomes; streams with badbit | a relation between runs and outcomes that is closed under sequencing |
| C120 | `ExceptPtrModel`: the text functions with the buffers of the descriptions, programs as sequences of calls | an invariant (buffers of descriptions live and are distinct) with a frame condition, closed under sequencing |
| C121 | `ContainsModel`: std::find, search trees and hash tables with the operations that make them | induction over sequences, trees and histories |

Property numbers follow `properties.jsonl`.

## C++ facts relied on, per component

* base64: `char` signedness is a parameter; a negative `char` used as an index of the 256-entry table is
  converted to a huge size_t, hence `UB`.
* serialisation: memory is a map from addresses to bytes; an `unsigned_type` narrower than int is promoted.
  `reinterpret_cast` between float and uint32_t is given the meaning gcc and clang give it with
  `-fno-strict-aliasing`; by the letter of the standard it is undefined (strict aliasing).
* unicode: reading outside of the buffer or past the terminator is `UB`; a shift by 32 or more is `UB`.
* strings: `std::isspace(int)` is `UB` for values that are neither EOF nor representable as unsigned
  char; the locale overload is the classic locale. std::string_view::substr throws past the end.
* formatting: vsnprintf is an oracle which may give any text (or fail) at each call; a va_list passed to it
  is indeterminate afterwards.
* parser: std::from_chars and std::to_chars for integers follow their description in the standard;
  floating point conversion is an arbitrary function.
* string views (C115): a view is a pointer and a length; indirection through a pointer into freed memory is undefined, arithmetic on it
  is not (implementation-defined in the standard). `data()` of a view made by the default constructor is null.
* Android (C116): `__android_log_write` and `__android_log_assert` add one entry with the characters before the first zero; the
  latter with a null format writes "Assertion failed: " and the condition, and aborts.
* fast_float: every theorem is for every `platform` (`FloatPlatform`): limbs of 64 or of 32 bits, byte order, with and without
  `__uint128_t`, the 128-bit product intrinsics, `__builtin_clzll` (undefined for 0) and `__builtin_add_overflow`, floating
  point evaluation in the type, in double or in the 80-bit long double (FLT_EVAL_METHOD 0, 1, 2), and the branch for
  clang and 32 bits. Combinations that no compiler has are included; a 32-bit platform may have texts longer than its address
  space. Not constant evaluated; a float or double is its bit pattern. Arithmetic on int, int64_t and pointer differences that
  stays far within range is on integers; conversions to int32_t wrap; a shift of a uint64_t by 64 or more is `UB`. With
  FLT_EVAL_METHOD 1 and 2 an assignment to a variable or a return rounds to its type, as the standard has it.
* tree: container iterators of different containers must not be compared; references to children stay
  valid as long as their container is not modified (positions are paths). For C114: std::vector::insert invalidates all iterators if it
  reallocates, else those from the place of insertion on; erase those from the place of erasure on; a moved std::vector keeps its buffer
  and the iterators to its elements, not its end; std::list invalidates only iterators to erased elements.
* sort: iterators are positions. C40 and C41 have comparators that are pure functions; C99 and C100 have comparisons and copies
  of elements that change an arbitrary world and may throw, while moving an element does not throw and leaves an arbitrary value.
* signal: std::list nodes are stable and have an identity; std::function calls are scripts that may look at and change the state of the program,
  connect, disconnect, emit, catch and throw. Iterators to erased nodes are `UB` when used. Copying a list
  makes new nodes; assigning to a list ends its old nodes (implementations may keep them, which the standard does not promise).
* singleton: static objects are destroyed in the reverse order of initialization, `instance` as if it were initialized dynamically
  at an unspecified point; ~unique_ptr deletes its object, and the library may clear the pointer before that (libc++) or not.
* spin lock: sequentially interleaved steps; the order of test_and_set and clear in the schedule is the
  modification order of the flag. Happens-before is defined on traces from program order and
  release/acquire pairs (C46 is about that relation, so a weaker memory order breaks it). C110 does without interleaving:
  trusted are the rules of `SpinMemSpec` (total modification order of the flag, test_and_set reads the value just before its own,
  write-write coherence, visible writes), which are taken from [intro.races], [atomics.order] and [atomics.flag].
* overloaded: the rules of overload resolution for one argument are those of `OverloadModel`, taken from [over.match.best],
  [over.ics.rank] and [temp.deduct.partial]; the implicit conversions between types are arbitrary.
* scope_exit, singleton, references: one thread; std::shared_ptr is a strong count per object;
  std::weak_ptr::lock checks that count; moved-from std::shared_ptr and std::unique_ptr are null.
* linq: what is left of a moved-from element is an arbitrary function of it; std::sort is an arbitrary
  function that returns a sorted permutation. With effects (C107): if std::sort does not succeed, it ends as a call of the
  comparison ended, and the range has arbitrary contents.
* std::enable_shared_from_this: weak_this is set when std::make_shared returns, and not copied by constructors or assignments;
  the count is 0 when the destructor is entered; constructing a std::shared_ptr from an expired or empty weak pointer throws.
* math, enum: conversion to a signed type is modulo 2^width (defined so since C++20, and by all
  compilers before); signed overflow is `UB`; integral promotion to int.
* angles: float, double and long double are the IEEE formats with 24, 53 and 64 bits (x86), expressions are evaluated in
  their type (FLT_EVAL_METHOD 0) without contraction; constants are rounded to nearest.
* exceptions: std::rethrow_if_nested and rethrow_nested terminate when nothing is nested; names of types
  are arbitrary texts; overridden members may throw anything. Allocations fail only in `ExceptAllocModel`: insertion into a stream sets
  badbit, strings throw std::bad_alloc, exception objects come from memory set aside.
* text: memory is one array; data() of an empty container is arbitrary; std::string(nullptr, 0) is empty; strlen
  reads up to the first zero; inserting into a bad stream writes nothing.
* logging: arguments are expressions whose evaluation may have effects; flushing a bad stream does nothing.
* demangle: `__cxa_demangle` gives a new block exactly when its status is 0.
* preprocessor: macros are object-like; an identifier that is not a macro is 0 in a condition; a name is not replaced within its
  own replacement; redefining a macro differently is rejected. The headers of the Apple SDK are taken to be included before.
* types: cv-qualifiers of arrays and functions are left out.
* assertions: `DEBUG` defined or not selects the build; macros expand to nothing in a release build.

## Agreement of debug and release builds (C69)

`agree d r` says: if the debug result `d` is neither `Abort` nor `UB` then `r = d`. The stronger "equal unless
`Abort`" is false for span::subspan and the tree iterators, whose assertions form pointers or compare
iterators that the release build never touches.

## Seeded bugs

`tools/mutate.py` edits a scratch copy of the model, rebuilds, and replaces each proof that fails by
`Admitted` there in order to see which property theorems depend on it. One line per attempt is in
`seeded/LOG.jsonl`. An attempt with no failed property theorem was either harmless (it says so) or led to a
tightened theorem.

## Not modelled

Windows branches outside of config.hpp, windows.hpp and `demangle`, the parts of `fast_float` that utki does not reach (wide characters, other decimal points), allocation failure outside of the exception texts (C119),
real time, threads other than in the spin lock, overload resolution (other than for `overloaded` and `index_of`) and substitution failure, reverse iteration over enum_iterable (it cannot be compiled: crbegin and crend name a type that is not declared, and the iterator has no `--`), the branch of span.hpp in which utki::span is std::span (it is dead code: C103), streams other than as the text written to
them, copying costs and capacities.

## Assumptions

No axioms of our own. `Print Assumptions` says "Closed under the global context" for every property theorem, with the
exception of those of C93, C94 and C96 that speak of real numbers. These use the axioms of the Reals library of Coq
(`ClassicalDedekindReals.sig_not_dec`, `ClassicalDedekindReals.sig_forall_dec`,
`FunctionalExtensionality.functional_extensionality_dep`, and `Classical_Prop.classic` by way of its lemmas). The models
use no functional extensionality (functions such as memories are compared pointwise).
`vm_compute` is used for concrete cases and finite sweeps.

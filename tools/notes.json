{
 "C01": {
  "note": "Encoder in Base64Spec is a bit-string RFC 4648 encoder; decode(encode b) = b for both builds and both char signednesses."
 },
 "C02": {
  "note": "Same for the encoding without padding."
 },
 "C03": {
  "note": "C03_functional is the complete input/output behaviour; the safety claim itself is refuted with witnesses."
 },
 "C04": {
  "note": "Foreign characters act as 'A'; inner '=' acts as 'A'; ignored data for padded strings of length not divisible by 4."
 },
 "C05": {
  "note": "Byte formula, frame, return pointer and round trip for all widths and values."
 },
 "C06": {
  "note": "As C05, big-endian."
 },
 "C07": {
  "note": "float as IEEE fields; reinterpret_cast taken with its gcc/clang meaning (strict aliasing is noted in SerialModel)."
 },
 "C08": {
  "note": "Refinement of every call history to an abstract reader."
 },
 "C09": {
  "note": "Write a list of records, read them back."
 },
 "C10": {
  "note": "Code uses masks and shifts, the specification is arithmetic; surrogates are encoded like any other code point, as in the code."
 },
 "C11": {
  "note": "Both overload families; the C-string result does not depend on what follows the terminator."
 },
 "C12": {
  "note": "Proved as an equivalence: exactly the well-formed byte strings survive."
 },
 "C13": {
  "note": "Exact behaviour of one increment, of any number of increments and of the conversion; unconditional safety is refuted."
 },
 "C14": {
  "note": "Exact set of over-reads; unconditional safety is refuted."
 },
 "C15": {
  "note": "Exact result of both conversions."
 },
 "C55": {
  "note": "Spans are (offset,size) into an array; forming a pointer outside of the array is UB."
 },
 "C57": {
  "note": "Exact, including the empty-span corner cases."
 },
 "C33": {
  "note": "Iterators as the two stacks of the code; positions = pre-order paths followed by end()."
 },
 "C34": {
  "note": "++ and -- as inverse functions on adjacent positions; reverse iteration."
 },
 "C35": {
  "note": "Complete results for every index sequence, the empty one included."
 },
 "C36": {
  "note": "Iterator order = order of positions; ForeignIterator outcomes excluded."
 },
 "C37": {
  "note": "Via the outline (pre-order list of depth and value), which determines the forest."
 },
 "C38": {
  "note": "As C37; erase(end()) is undefined."
 },
 "C39": {
  "note": "Terminate outcome for d >= depth()."
 },
 "C71": {
  "note": "Added with the tree model."
 },
 "C40": {
  "note": "C++17 quick sort on memory with positions; termination by fuel that provably suffices. Comparators are pure functions here, see C99 for others."
 },
 "C41": {
  "note": "For every recursion bound the result is Diverge."
 },
 "C19": {
  "note": "Every line has at most width characters and no newline; width 0 gives the text itself."
 },
 "C20": {
  "note": "The text is the lines in order separated by spaces and newlines only."
 },
 "C21": {
  "note": "No outcome other than Ok; out-of-range iterator use and assertions are modelled as outcomes."
 },
 "C22": {
  "note": "Refuted in general (two witnesses); holds for single-spaced texts with words shorter than the width; longer words are cut in width-sized pieces."
 },
 "C72": {
  "note": "Exact result on single-spaced texts: greedy filling with a lookahead of one character."
 },
 "C16": {
  "note": "For every character type with decidable equality; uniqueness of the decomposition is an equivalence."
 },
 "C17": {
  "note": "join is characterised for every list; split inverts it when no string contains the delimiter."
 },
 "C18": {
  "note": "For every locale classification; undefined behaviour exactly for char values below -1."
 },
 "C23": {
  "note": "Classic locale whitespace; removed parts and maximality."
 },
 "C24": {
  "note": "C++17 ends_with is refuted as a suffix test and characterised exactly."
 },
 "C25": {
  "note": "Product taken modulo 2^32."
 },
 "C26": {
  "note": "vsnprintf is an oracle obeying the C contract (same text in every successful call, may fail in any call). Also: make_string skips va_end of its own va_list when it throws."
 },
 "C58": {
  "note": "zip for any number of collections, also when they changed size after construction of the view."
 },
 "C60": {
  "note": "For any strict weak orders."
 },
 "C61": {
  "note": "For every width of difference_type."
 },
 "C62": {
  "note": "std::find for general containers, find for maps."
 },
 "C27": {
  "note": "One-call lemma for every operation and its lift to call sequences in which the caller catches exceptions; the floating point read_number is covered for every from_chars obeying the stated contract (errors other than the two documented ones would lose input)."
 },
 "C28": {
  "note": "Prefix characterisations; uniqueness of maximal prefixes is proved too."
 },
 "C29": {
  "note": "All unsigned types of 1..126 bits, not only 8..64."
 },
 "C30": {
  "note": "Decimal round trip, and an exact characterisation of the values that survive in the other bases."
 },
 "C31": {
  "note": "Grammar of number texts given as an inductive relation (deterministic, proved); read_number is total on texts."
 },
 "C32": {
  "note": "Digits denote the value, canonical, injective. Types of 127 bits and more (extensions) can overflow the buffer: example."
 },
 "C42": {
  "note": "Callbacks may look at the size, throw and have effects elsewhere. An exception stops the emission and reaches the caller. The debug build aborts when a signal with connections is destroyed."
 },
 "C43": {
  "note": "A parameter type is modelled by what moving from it leaves behind; references leave everything."
 },
 "C44": {
  "note": "Callback bodies are finite scripts over the signal; undefined behaviour is the use of an iterator of an erased list node. Order and completeness are proved here for bodies without nested emission, the other parts for all; C112 has order and completeness with nested emissions."
 },
 "C48": {
  "note": "Programs over any number of flags objects, observed through get, the comparisons, is_set, is_clear, size and printing."
 },
 "C49": {
  "note": "The assertion of get passes for negative values of a signed underlying type: undefined behaviour even in a debug build."
 },
 "C45": {
  "note": "Any number of threads, any interleaving; threads unlock only what they hold (the discipline is stated, and a schedule without it is shown to break exclusion)."
 },
 "C46": {
  "note": "Happens-before is defined on traces from sequenced-before and synchronises-with (release store read by an acquire operation). The memory orders are parameters of the model; that weaker ones do not suffice is proved."
 },
 "C47": {
  "note": "A free lock is acquired by the next attempt; a held one by none; starvation is shown by an explicit infinite schedule."
 },
 "C50": {
  "note": "All histories of construction, release and destruction of any number of scope_exit objects; functions may throw or be empty."
 },
 "C51": {
  "note": "All histories of construction (also failing), inst, is_created and destruction; every allowed operation is shown to be possible."
 },
 "C52": {
  "note": "std::shared_ptr is modelled by reference counts, the specification speaks of references only. Copying a moved-from shared_ref is not caught: it makes another null one."
 },
 "C53": {
  "note": "Any class hierarchy, as a relation between dynamic and target types."
 },
 "C54": {
  "note": "Includes self-assignment and passing through std::unique_ptr."
 },
 "C73": {
  "note": "Weak pointers, locked at any point of any history; make_shared_from on any referred-to object."
 },
 "C56": {
  "note": "Any element type with its own == and <; equality and order hypotheses only where needed, with NaN-like elements as the counterexample."
 },
 "C59": {
  "note": "Lvalue and rvalue collections, moved-from elements tracked; std::sort is any function satisfying its contract. C59_where_by_value records the loss of elements with a by-value predicate."
 },
 "C63": {
  "note": "Lexicographic order specified on (major, minor); also the printed form."
 },
 "C64": {
  "note": "Clock is any non-decreasing count of nanoseconds; exact modulo 2^32 and within one millisecond."
 },
 "C65": {
  "note": "All integral types by signedness and width, with promotion to int; the undefined cases are exact."
 },
 "C66": {
  "note": "Completeness is proved by a relation between chains and entries, for every compiler branch; classes may override to_string by any function, which may throw; four ways in which chains are lost are refuted with witnesses."
 },
 "C67": {
  "note": "Indentation of each entry; the utki::exception case is refuted with a witness."
 },
 "C68": {
  "note": "Items as integers of the underlying type; ++ on the wrapped value, enum_size itself included."
 },
 "C69": {
  "note": "Agreement is proved for every modelled operation which contains an assertion; debug-only computations of subspan and tree iterators may be undefined, hence 'neither aborts nor does anything undefined'."
 },
 "C70": {
  "note": "Whole domain; other arguments do not compile."
 },
 "C74": {
  "note": "The predicate is a pure function of the node; the nodes it is called with are the second result of the loop."
 },
 "C75": {
  "note": "Shape and values are compared through the pre-order outline with depths."
 },
 "C76": {
  "note": "Memory is one array of elements; forming a pointer outside of it is undefined behaviour. The C++26 alias of std::span is not modelled."
 },
 "C77": {
  "note": "A stream is its text, its formatting state and whether it is good. std::string objects are given by their contents."
 },
 "C78": {
  "note": "The Android branch is in C116. 'logcat prints what cat would return' is refuted with a witness."
 },
 "C79": {
  "note": "gcc and clang branch, __cxa_demangle as an arbitrary function within its contract; allocation of the string may fail."
 },
 "C80": {
  "note": "A program that does not compile is None."
 },
 "C81": {
  "note": "'Drop-in replacement for std::remove_cvref' is refuted with a volatile type."
 },
 "C82": {
  "note": "Eisel-Lemire with its 1302-word table; the precision of every table entry is certified by neighbouring fractions that are checked by computation."
 },
 "C83": {
  "note": "For every combination of builtins; the portable versions are not compiled on x86-64 with gcc or clang."
 },
 "C84": {
  "note": "For both byte orders."
 },
 "C85": {
  "note": "float and double arithmetic is the IEEE 754 one (exact result, rounded); FLT_EVAL_METHOD 0, 1 or 2, with the 80-bit long double. The comment above max_mantissa is refuted: entries from index 14 on are smaller than it says."
 },
 "C86": {
  "note": "Every platform: 62 limbs of 64 bits or 125 of 32 bits, with and without the wide integer type and the overflow builtin; a failed try_extend is the result false."
 },
 "C87": {
  "note": "The hypothesis cut_number is what parse_number_string gives for such texts; C88 composes them."
 },
 "C88": {
  "note": "The condition moderate (text of about 2^28 characters at most, or explicit exponent below 2^28) is necessary in some form: C90."
 },
 "C89": {
  "note": "The claim for sixteen digits is refuted, to show that seventeen is sharp."
 },
 "C90": {
  "note": "The witness has about 10^10 characters. It is a text longer than 4 GiB, within the size of a 64-bit address space."
 },
 "C91": {
  "note": "The value of a long double is given by the pattern of the equal double. The claims that the format hex reads hexadecimal digits, and that a long double is the nearest extended number, are refuted."
 },
 "C92": {
  "note": "The claim that numbers beyond the range are told apart from zero is refuted; the source comments on it."
 },
 "C93": {
  "note": "Uses the real numbers of the standard library with their axioms. The claim that the double constant is good enough for long double is refuted."
 },
 "C94": {
  "note": "Uses the real numbers of the standard library with their axioms. Rounding to nearest, FLT_EVAL_METHOD 0. The claims that long double is converted with the accuracy of its format, that a representable result is finite and that the round trip is exact are refuted, as is that a directed rounding mode always bounds the exact angle."
 },
 "C95": {
  "note": "The claims that the sign is kept and that the conversion is monotone are refuted."
 },
 "C96": {
  "note": "Uses the real numbers of the standard library with their axioms. Accuracy and monotonicity in the nearest rounding mode, FLT_EVAL_METHOD 0, no contraction of multiplications. The claims that the result is the nearest number and that the directed modes enclose the powers of negative numbers are refuted."
 },
 "C99": {
  "note": "Comparisons and copies change an arbitrary world and have an arbitrary outcome; moves do not throw. C99_sorted also says that the result is that of the model of C40."
 },
 "C100": {
  "note": "Exact bound and the arrays that attain it; the O(n log n) of std::sort is refuted."
 },
 "C101": {
  "note": "Programs over any number of signals; that copies cannot be emptied is proved for every continuation that uses only connections returned to it."
 },
 "C102": {
  "note": "Predefined macros that are compared must be numbers, directly or through other names."
 },
 "C103": {
  "note": "The last edition is open-ended: any value above 201703 gives 20."
 },
 "C104": {
  "note": "Two expectations are refuted: CFG_CPU_VERSION with Emscripten, and the processor with clang."
 },
 "C105": {
  "note": "That CFG_ENDIANNESS is the byte order of integers is refuted for machines with mixed orders."
 },
 "C106": {
  "note": "windows.h is any header that leaves the guards alone when they are defined."
 },
 "C107": {
  "note": "Calls and copies change an arbitrary world and have an arbitrary outcome; moves do not throw, keys of maps are compared without effects. C107_pure ties it to C59."
 },
 "C108": {
  "note": "One thread. Objects made with new and then taken over by a std::shared_ptr are not modelled."
 },
 "C109": {
  "note": "Comparisons may throw; they do not change the objects."
 },
 "C110": {
  "note": "Threads call lock and unlock in turns and access the data in between. The rules of the memory model used are listed in SpinMemSpec.v; interleaved executions are shown to satisfy them."
 },
 "C111": {
  "note": "Overload resolution for one argument is modelled; functors are not mutable, and no alternative derives from another one."
 },
 "C112": {
  "note": "Callback bodies are finite scripts over the signal and the state of the program. Stack overflow by endless nesting is not modelled: such an emission is Diverge for every number of steps."
 },
 "C113": {
  "note": "A program is a list of initializations, constructions and destructions, followed by the destruction of static objects in reverse order. Whether the unique_ptr is cleared before its object is deleted is a parameter. Use of the pointer after its destruction counts as undefined behaviour."
 },
 "C114": {
  "note": "Addresses are never used again. A node that moves takes the buffer of its children along (moving a value does not throw, otherwise std::vector copies when it grows). What is inserted is not part of the tree itself."
 },
 "C115": {
  "note": "Strings are blocks of memory, views are a pointer and a length. The results are those of ParserModel, so that C27, C28 and C31 carry over. Arithmetic on pointers to freed memory is taken as harmless, indirection is undefined. from_chars is taken to read the whole range it is given."
 },
 "C116": {
  "note": "The functions of the Android NDK are trusted to get C strings and to add one entry per call; how much of a long message the system keeps is not modelled. C116_log is for functions that only append to the stream they are given."
 },
 "C117": {
  "note": "On the memory of C114. The deciding function may change the state of the rest of the program, but not the tree. insert with an rvalue that is a node of the same tree is not modelled (the standard lets the container assume that there is no such alias)."
 },
 "C118": {
  "note": "Collections with bidirectional iterators, as sequences of places. Bodies that append to a list behind the current element are in the model, but not in the theorems about regular loops."
 },
 "C119": {
  "note": "Faults are a list of the outcomes of the allocations in order. Exception objects come from the emergency pool; a to_string that a user overrides is given by its outcome. For chains that end the program even with enough memory nothing is claimed but that what() does not throw."
 },
 "C120": {
  "note": "The calls are those of one thread (C120_writes gives the descriptions they write to), enough memory, no to_string of users. The pointers of other exceptions live as long as the exception objects; destruction of the objects is not modelled. C120_promise_refuted: two calls of what() in a row."
 },
 "C121": {
  "note": "std::find, std::map::find and std::unordered_map::find as in libstdc++ (trees without their colours). Hashes and equality of keys of unordered maps are functions."
 }
}
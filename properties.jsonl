{"id": "C01", "title": "base64_decode inverts the padded RFC 4648 encoding", "statement": "For every byte string, base64_decode applied to its padded RFC 4648 base64 encoding returns exactly that byte string, with no undefined behaviour, no exception and no failing assertion.", "quantifier": "all byte strings of any length", "why_tests_cant": "256^n inputs per length; the three tail lengths interact with the quad counter and the padding stripping.", "anchors": ["src/utki/base64.cpp:base64_decode", "src/utki/base64.cpp:base64_decode_quad", "src/utki/base64.cpp:decode_table"]}
{"id": "C02", "title": "base64_decode inverts the unpadded base64 encoding", "statement": "For every byte string, base64_decode applied to its base64 encoding without the trailing '=' characters returns exactly that byte string.", "quantifier": "all byte strings of any length", "why_tests_cant": "Unbounded input domain; the unpadded tails take code paths that the padded ones do not.", "anchors": ["src/utki/base64.cpp:base64_decode"]}
{"id": "C03", "title": "base64_decode: exact domain of definedness, exceptions and result size", "statement": "For every character string exactly one of the following happens, and which one is decided by the string alone: std::invalid_argument is thrown (iff the string is shorter than 4 and ends with '='); the behaviour is undefined (iff the string ends without '=' and its length is 1 modulo 4, or one of the characters looked up has its top bit set while char is signed); otherwise a byte vector is returned whose size is given by a closed formula of the string's length and number of stripped '='. In a debug build the length-1-modulo-4 case aborts instead. In particular 'base64_decode is memory safe for every input' is false of the code.", "quantifier": "all character strings, signed and unsigned char, debug and release builds", "why_tests_cant": "The bad inputs are silent over-reads which a test normally does not observe; absence of further bad inputs needs all strings.", "anchors": ["src/utki/base64.cpp:base64_decode", "src/utki/base64.hpp:base64_decode"]}
{"id": "C04", "title": "base64_decode does not detect malformed input", "statement": "Characters outside the base64 alphabet are never reported: for every string the result is the same as for the string in which each such ASCII character is replaced with 'A'. A padded string whose length is not a multiple of 4 is accepted and up to the last 3 of its data characters are silently ignored.", "quantifier": "all strings", "why_tests_cant": "The claim is about all malformed strings.", "anchors": ["src/utki/base64.cpp:base64_decode", "src/utki/base64.cpp:decode_table"]}
{"id": "C05", "title": "little-endian serialization", "statement": "serialize_le writes exactly sizeof(value) bytes at the given pointer, byte i being floor(value / 256^i) mod 256, returns the pointer just past them and leaves every other byte of memory unchanged; deserialize_le of those bytes returns the value, and serialize_le of a deserialized value reproduces the bytes. For 8/16/32/64 bit unsigned types.", "quantifier": "all values, all widths 1,2,4,8 bytes, all buffer contents and offsets", "why_tests_cant": "2^64 values; tests sample one 64-bit value.", "anchors": ["src/utki/utility.hpp:serialize_le", "src/utki/utility.hpp:deserialize_le"]}
{"id": "C06", "title": "big-endian serialization", "statement": "The same as C05 for the big-endian functions, with byte i being floor(value / 256^(size-1-i)) mod 256; the big-endian bytes are the reverse of the little-endian bytes and no shift amount reaches the promoted type's width.", "quantifier": "all values, all widths 1,2,4,8 bytes, all buffer contents and offsets", "why_tests_cant": "2^64 values; big-endian 32/64 bit variants are not tested at all.", "anchors": ["src/utki/utility.hpp:serialize_be", "src/utki/utility.hpp:deserialize_be"]}
{"id": "C07", "title": "float serialization preserves every bit pattern and has the IEEE 754 layout", "statement": "serialize_float_le/be write the 4 bytes of the IEEE 754 single precision pattern (sign, 8 bit exponent, 23 bit fraction) in the stated byte order, and deserialize_float_le/be return a float with the same three fields, including NaN payloads, infinities, subnormals and negative zero.", "quantifier": "all 2^32 float bit patterns", "why_tests_cant": "Tests use eight finite values.", "anchors": ["src/utki/utility.hpp:serialize_float_le", "src/utki/utility.hpp:deserialize_float_le", "src/utki/utility.hpp:serialize_float_be", "src/utki/utility.hpp:deserialize_float_be"]}
{"id": "C08", "title": "deserializer: any sequence of reads consumes consecutive slices, never reads out of bounds, and a failed read has no effect", "statement": "For every buffer and every sequence of read_*/skip calls: a call returns iff enough bytes are left, in which case its result is determined by exactly the next bytes and the remaining size drops by exactly the requested size; otherwise it throws std::invalid_argument and the deserializer is unchanged. No call has undefined behaviour, and no assertion of span fires.", "quantifier": "all buffers (shorter than SIZE_MAX), all sequences of operations with arbitrary size_t arguments", "why_tests_cant": "Histories of unbounded length and 64-bit length arguments (comparison overflow, sentinel value SIZE_MAX of subspan).", "anchors": ["src/utki/deserializer.cpp:deserializer", "src/utki/span.hpp:span::subspan"]}
{"id": "C09", "title": "deserializer reads back whatever the serialize functions wrote", "statement": "Serializing any list of integers, floats, strings and raw byte blocks one after another with the serialize functions and then reading it with the matching sequence of deserializer calls gives the same list back, whatever bytes follow, and leaves exactly the following bytes.", "quantifier": "all record lists, all trailing bytes", "why_tests_cant": "Unbounded record lists.", "anchors": ["src/utki/deserializer.cpp:deserializer", "src/utki/utility.hpp:serialize_le", "src/utki/utility.hpp:serialize_be"]}
{"id": "C10", "title": "to_utf8(char32_t) is the UTF-8 encoding", "statement": "For every code point up to 0x7fffffff the returned array holds the (original, up to 6 byte) UTF-8 encoding followed by a zero byte, which for code points up to 0x10ffff is the RFC 3629 encoding; for larger values it holds the empty string. No write goes past the 7 byte array. Distinct code points have encodings neither of which is a prefix of the other.", "quantifier": "all 2^32 char32_t values", "why_tests_cant": "2^32 inputs and a pairwise property.", "anchors": ["src/utki/unicode.cpp:to_utf8"]}
{"id": "C11", "title": "to_utf32 inverts to_utf8", "statement": "For every string of code points in 1..0x7fffffff, to_utf32(to_utf8(s)) = s, through the span overload as well as through the NUL-terminated-string overloads, without reading outside of the buffer.", "quantifier": "all code point strings of any length", "why_tests_cant": "Unbounded strings over 2^31 characters.", "anchors": ["src/utki/unicode.cpp:to_utf8", "src/utki/unicode.cpp:to_utf32", "src/utki/unicode.cpp:utf8_iterator::operator++"]}
{"id": "C12", "title": "to_utf8 inverts to_utf32 on well-formed UTF-8", "statement": "For every byte string that is a concatenation of shortest-form UTF-8 sequences of non-zero code points, to_utf8(to_utf32(b)) = b.", "quantifier": "all well-formed byte strings", "why_tests_cant": "Unbounded strings.", "anchors": ["src/utki/unicode.cpp:to_utf32", "src/utki/unicode.cpp:to_utf8"]}
{"id": "C13", "title": "utf8_iterator over a span: bounds, termination, and the exact set of inputs with undefined behaviour", "statement": "Iterating any byte span with utf8_iterator never reads outside of the span and reaches the end after at most size() increments; incrementing at the end stays at the end. The only undefined behaviour is an over-wide shift, and it occurs exactly when a sequence starting with a byte whose bits 0..6 without bit 6 are 0x3e or 0x3f (0xbe, 0xbf, 0xfe, 0xff) has all its 7 (8) bytes present; hence 'safe for every input' is false of the code.", "quantifier": "all byte spans, all iteration prefixes", "why_tests_cant": "256^n malformed inputs; shift overflow is silent.", "anchors": ["src/utki/unicode.cpp:utf8_iterator", "src/utki/unicode.cpp:to_utf32"]}
{"id": "C14", "title": "utf8_iterator over a NUL-terminated string can run past the terminator", "statement": "On a NUL-terminated string the conversion stays inside the string (including terminator) if the string does not end inside a multi-byte sequence. When the last sequence is truncated and nothing follows the terminator, the behaviour is undefined, with one exception: the terminator completes the sequence and its value is then zero (for example a lone 0xc0). to_utf32(const std::string&) inherits this.", "quantifier": "all byte strings without zero bytes", "why_tests_cant": "Over-read is silent in tests.", "anchors": ["src/utki/unicode.cpp:utf8_iterator", "src/utki/unicode.hpp:to_utf32"]}
{"id": "C15", "title": "zero code points and out-of-range code points are lost", "statement": "to_utf8 of a code point string equals to_utf8 of the string with all zero and all >0x7fffffff code points removed; to_utf32 of a span returns only the code points before the first sequence decoding to zero.", "quantifier": "all code point strings, all byte spans", "why_tests_cant": "Unbounded inputs.", "anchors": ["src/utki/unicode.cpp:to_utf8", "src/utki/unicode.cpp:to_utf32", "src/utki/unicode.hpp:utf8_iterator::is_end"]}
{"id": "C16", "title": "join after split is the identity; split is the unique delimiter-free decomposition", "statement": "split(s,d) is a non-empty list of strings not containing d, with one more element than s has occurrences of d, and join(split(s,d),d) = s.", "quantifier": "all strings over any character type, all delimiters", "why_tests_cant": "Unbounded strings.", "anchors": ["src/utki/string.hpp:split", "src/utki/string.hpp:join"]}
{"id": "C17", "title": "split after join is the identity", "statement": "For every non-empty list of strings none of which contains d, split(join(l,d),d) = l; for the empty list join gives the empty string (whose split is one empty string).", "quantifier": "all lists of strings, all delimiters", "why_tests_cant": "Unbounded lists.", "anchors": ["src/utki/string.hpp:split", "src/utki/string.hpp:join", "src/utki/views.hpp:skip_front"]}
{"id": "C18", "title": "split into words", "statement": "split(s) returns the maximal runs of non-whitespace characters of s in order, and nothing else, provided every char value is acceptable to std::isspace; for a string with a char in -128..-2 (signed char) the call is undefined behaviour.", "quantifier": "all strings", "why_tests_cant": "Unbounded strings; undefined behaviour of isspace on negative values is silent.", "anchors": ["src/utki/string.cpp:split"]}
{"id": "C19", "title": "word_wrap: line width, no line breaks inside lines", "statement": "For width 0 the result is the single input string. For every other width every returned line has at most width characters and contains no newline.", "quantifier": "all strings, all widths", "why_tests_cant": "Unbounded strings and widths; the state machine has three position variables and a flag.", "anchors": ["src/utki/string.cpp:word_wrap"]}
{"id": "C20", "title": "word_wrap: nothing but spaces and newlines is lost, nothing is reordered or invented", "statement": "The lines are consecutive, non-overlapping, in-order substrings of the input; every character of the input that is between two of them (or before the first or after the last) is a space or a newline. In particular the sequence of other characters is preserved exactly.", "quantifier": "all strings, all widths", "why_tests_cant": "Unbounded.", "anchors": ["src/utki/string.cpp:word_wrap"]}
{"id": "C21", "title": "word_wrap: memory safety", "statement": "word_wrap never dereferences an end iterator, never forms a negative length, never throws, and none of its assertions fires.", "quantifier": "all strings, all widths", "why_tests_cant": "Unbounded.", "anchors": ["src/utki/string.cpp:word_wrap"]}
{"id": "C22", "title": "word_wrap can break a word that fits in a line", "statement": "'A word not longer than width is never broken' is false: word_wrap(\"   abcd\",5) gives \"   ab\",\"cd\", and word_wrap(\"abc def\",3) gives \"abc\",\" de\",\"f\". It is true for a text whose lines are words separated by single spaces, when no word is longer than width and no word that is followed by a space is as long as width. If such a text has longer words, of lengths that are not multiples of width unless at the end of their line, then exactly these words are cut, into pieces of width characters and a rest.", "quantifier": "existential for the refutation; all such texts and all widths for the conditional part", "why_tests_cant": "The exact condition quantifies over all inputs.", "anchors": ["src/utki/string.cpp:word_wrap"]}
{"id": "C23", "title": "trim, trim_front, trim_back", "statement": "trim_front (trim_back, trim) removes exactly the maximal whitespace prefix (suffix, both): the input is removed part(s) around the result, the removed parts are whitespace, and the result does not start (end, either) with whitespace.", "quantifier": "all strings", "why_tests_cant": "Unbounded.", "anchors": ["src/utki/string.hpp:trim_front", "src/utki/string.hpp:trim_back", "src/utki/string.hpp:trim"]}
{"id": "C24", "title": "starts_with and ends_with", "statement": "In C++20 mode both decide prefix/suffix exactly, and so does starts_with in C++17 mode. In C++17 mode ends_with answers true only for suffixes, and answers true for a non-empty suffix iff the suffix has no earlier occurrence in the string; e.g. ends_with(\"abab\",\"ab\") is false, so the documented contract is violated.", "quantifier": "all pairs of strings, both language modes", "why_tests_cant": "Unbounded; unit tests miss the repeated-suffix inputs.", "anchors": ["src/utki/string.hpp:starts_with", "src/utki/string.hpp:ends_with"]}
{"id": "C25", "title": "make_indentation", "statement": "make_indentation(depth,size) is depth tabs for size 0, otherwise (depth*size mod 2^32) spaces; hence depth*size spaces iff the product fits 32 bits.", "quantifier": "all pairs of unsigned values", "why_tests_cant": "2^64 inputs; the wrap needs gigabytes of output to observe.", "anchors": ["src/utki/string.cpp:make_indentation"]}
{"id": "C26", "title": "make_string formats results of any length", "statement": "Whatever vsnprintf produces (any length, embedded zeros), make_string returns exactly that text, calling vsnprintf at most twice, never with a consumed va_list, never writing outside the buffer it passes; it throws std::logic_error iff vsnprintf reports an error. When it throws, make_string does not call va_end for the argument list it has started.", "quantifier": "all formatted results of length < 2^31, all formatting oracles obeying the C contract", "why_tests_cant": "Lengths around the internal buffer size and state of va_list across calls.", "anchors": ["src/utki/string.cpp:make_string_va_list"]}
{"id": "C27", "title": "string_parser: every operation splits off a prefix; failures do not lose input", "statement": "For any sequence of operations on a string_parser, the remaining text is always a suffix of the original text; the text returned/skipped by an operation followed by the remaining text is the text before the operation; an operation that throws leaves the remaining text unchanged, except that read_number may have skipped leading whitespace. No operation reads outside of the text.", "quantifier": "all texts, all operation sequences", "why_tests_cant": "Unbounded histories.", "anchors": ["src/utki/string.cpp:string_parser", "src/utki/string.hpp:string_parser"]}
{"id": "C28", "title": "string_parser: what each operation reads", "statement": "read_word returns the maximal prefix free of whitespace, read_word_until(c) free of whitespace and c, read_chars_until(c) free of c, read_chars(n) the first min(n,size) characters; skip_whitespaces removes exactly the maximal whitespace prefix, skip_whitespaces_and_comma the maximal whitespace prefix with at most one comma inside, skip_inclusive_until(c) everything up to and including the first c, skip_inclusive_until_one_of likewise for a set and reports which.", "quantifier": "all texts and arguments", "why_tests_cant": "Unbounded.", "anchors": ["src/utki/string.cpp:string_parser"]}
{"id": "C29", "title": "to_string / read_number round trip for unsigned integers in every base", "statement": "For every unsigned type of 8..64 bits, every value and every base in {2,8,10,16}, read_number applied to (whitespace +) to_string(value,base) followed by any text that cannot continue the number returns value and leaves exactly that text.", "quantifier": "all values, widths, bases, trailing texts", "why_tests_cant": "2^64 values times unbounded trailing texts.", "anchors": ["src/utki/string.hpp:to_string", "src/utki/string.hpp:string_parser::read_number"]}
{"id": "C30", "title": "to_string / read_number round trip for signed integers", "statement": "For signed types read_number inverts to_string in base 10 for every value including the most negative one; in the other bases exactly the values whose magnitude is below both 10 and the base are read back (to_string writes no base prefix for signed types and read_number reads decimal only).", "quantifier": "all values and widths, trailing texts", "why_tests_cant": "2^64 values.", "anchors": ["src/utki/string.hpp:to_string", "src/utki/string.hpp:string_parser::read_number"]}
{"id": "C31", "title": "read_number on arbitrary text", "statement": "On any text: leading whitespace is skipped; std::invalid_argument is thrown iff no number follows; otherwise the longest numeric prefix in the detected base is consumed, and the result is its value if that fits the type and 0 otherwise. At least one character is consumed (the assertion does not fire).", "quantifier": "all texts, all integral widths, signed and unsigned", "why_tests_cant": "Unbounded texts; overflow behaviour.", "anchors": ["src/utki/string.hpp:string_parser::read_number"]}
{"id": "C32", "title": "to_string output is canonical and never truncated", "statement": "to_string never fails for types up to 64 bits in bases 2, 8, 10, 16 (the 128 byte buffer always suffices), the digits denote the value, there is no superfluous leading zero after the prefix, and for a fixed base the function is injective.", "quantifier": "all values, widths and bases", "why_tests_cant": "2^64 values.", "anchors": ["src/utki/string.hpp:to_string"]}
{"id": "C33", "title": "forward traversal visits every node exactly once in pre-order", "statement": "For every forest, incrementing a traversal iterator from begin() visits the nodes in pre-order, each exactly once, and then equals end(); no step has undefined behaviour or fails an assertion.", "quantifier": "all finite forests of any shape", "why_tests_cant": "Infinitely many tree shapes.", "anchors": ["src/utki/tree.hpp:traversal::iterator_internal::operator++", "src/utki/tree.hpp:traversal::begin", "src/utki/tree.hpp:traversal::end"]}
{"id": "C34", "title": "backward traversal is the exact reverse and ++/-- are inverse", "statement": "Decrementing from end() visits the nodes in reverse pre-order down to begin(); for every iterator to a node --(++i) = i, and for every iterator other than begin() ++(--i) = i; reverse iterators enumerate the reverse pre-order.", "quantifier": "all finite forests, all iterator positions", "why_tests_cant": "Infinitely many tree shapes.", "anchors": ["src/utki/tree.hpp:traversal::iterator_internal::operator--", "src/utki/tree.hpp:traversal::rbegin", "src/utki/tree.hpp:traversal::rend"]}
{"id": "C35", "title": "index, make_iterator, is_valid and operator[] agree", "statement": "is_valid(ix) iff ix is the index of a node; make_iterator(ix) throws std::out_of_range iff some component is out of its list's range (the empty index is not rejected by make_iterator although is_valid rejects it); for valid ix, index() of make_iterator(ix) is ix, and dereferencing it gives the node addressed by ix.", "quantifier": "all forests, all index sequences", "why_tests_cant": "Infinitely many.", "anchors": ["src/utki/tree.hpp:traversal::make_iterator_internal", "src/utki/tree.hpp:traversal::is_valid", "src/utki/tree.hpp:traversal::operator[]", "src/utki/tree.hpp:traversal::iterator_internal::index"]}
{"id": "C36", "title": "iterator comparison is the traversal order", "statement": "For two iterators of the same forest, a<b iff a's node comes before b's node in traversal order (end() being last), a==b iff they denote the same position, and >, <=, >= are consistent with these; no comparison of iterators into different containers takes place.", "quantifier": "all forests, all pairs of iterators", "why_tests_cant": "Infinitely many; comparison of foreign container iterators is silent undefined behaviour.", "anchors": ["src/utki/tree.hpp:traversal::iterator_internal::operator<", "src/utki/tree.hpp:traversal::iterator_internal::operator=="]}
{"id": "C37", "title": "insert and insert_after", "statement": "insert(i,t) makes the traversal sequence of the forest the old one with t's nodes inserted right before i's node and returns an iterator to t whose index is the index i had; insert_after(i,t) inserts t's nodes right after the last node of i's subtree and returns an iterator to t. Nothing else changes.", "quantifier": "all forests, all positions including end(), all inserted trees", "why_tests_cant": "Infinitely many.", "anchors": ["src/utki/tree.hpp:traversal::insert", "src/utki/tree.hpp:traversal::insert_after"]}
{"id": "C38", "title": "erase", "statement": "erase(i) removes exactly the nodes of i's subtree from the traversal sequence and returns an iterator to the node that followed them (or end()).", "quantifier": "all forests, all node positions", "why_tests_cant": "Infinitely many.", "anchors": ["src/utki/tree.hpp:traversal::erase"]}
{"id": "C39", "title": "at_level terminates the program instead of throwing", "statement": "at_level(d) returns the ancestor at level d for d < depth(); for d >= depth() the program is terminated, because the documented std::out_of_range leaves a noexcept function.", "quantifier": "all forests, iterators and levels", "why_tests_cant": "A terminating program fails the whole test run; all levels are quantified.", "anchors": ["src/utki/tree.hpp:traversal::iterator_internal::at_level"]}
{"id": "C40", "title": "sort sorts in place", "statement": "In C++17 mode utki::sort(first,last,cmp) terminates for every range and every strict weak order cmp, leaves a sorted permutation in [first,last), does not touch elements outside the range and never accesses memory outside of it.", "quantifier": "all arrays, all subranges, all strict weak orders", "why_tests_cant": "Unbounded arrays and arbitrary comparators.", "anchors": ["src/utki/sort.hpp:quick_sort", "src/utki/sort.hpp:partition", "src/utki/sort.hpp:sort"]}
{"id": "C41", "title": "sort with a reflexive comparator", "statement": "With a comparator that is reflexive on the elements (e.g. <=) the recursion of utki::sort in C++17 mode never ends on any range of two or more equal elements.", "quantifier": "all ranges of length >= 2 of elements equivalent under the comparator", "why_tests_cant": "Non-termination cannot be observed by a finite test.", "anchors": ["src/utki/sort.hpp:quick_sort"]}
{"id": "C42", "title": "signal: emit calls exactly the connected callbacks once each in connection order", "statement": "After any history of connect, disconnect and emit on a signal, emit invokes exactly the callbacks connected and not disconnected, each once, in the order of connection; size() and empty() agree with that; disconnecting one connection leaves the others valid.", "quantifier": "all histories of connect/disconnect/emit with callbacks that do not touch the signal", "why_tests_cant": "Unbounded histories.", "anchors": ["src/utki/signal.hpp:signal"]}
{"id": "C43", "title": "signal: arguments seen by the callbacks", "statement": "Every callback of an emission receives the emitted arguments if the parameter type is a reference or copying and moving it leave the source unchanged; for a by-value parameter type whose move changes the source (std::string) only the first callback receives the emitted value, the others receive the moved-from value.", "quantifier": "all callback lists, all arguments, all parameter types modelled by their move operation", "why_tests_cant": "The unit tests emit without arguments.", "anchors": ["src/utki/signal.hpp:signal::emit"]}
{"id": "C44", "title": "signal: callbacks that use the signal", "statement": "A callback connected during an emission is invoked in that same emission after all others; a callback disconnecting another, not yet invoked one prevents its invocation; a callback disconnecting itself (or the one being invoked) leads to undefined behaviour; a callback that connects a callback like itself makes the emission endless.", "quantifier": "all callback programs", "why_tests_cant": "Use-after-free is silent; non-termination is unobservable.", "anchors": ["src/utki/signal.hpp:signal::emit", "src/utki/signal.hpp:signal::connect", "src/utki/signal.hpp:signal::disconnect"]}
{"id": "C45", "title": "spin_lock: mutual exclusion", "statement": "With every thread calling unlock only while holding the lock, at most one thread at a time is between a completed lock and the next unlock, in every interleaving of any number of threads; the flag is set exactly while some thread holds the lock.", "quantifier": "all numbers of threads, all schedules, all lengths", "why_tests_cant": "Schedules cannot be enumerated.", "anchors": ["src/utki/spin_lock.hpp:spin_lock"]}
{"id": "C46", "title": "spin_lock: acquire/release ordering makes critical sections race free", "statement": "Under release/acquire semantics every access made in a critical section happens after all accesses made in all earlier critical sections, so data guarded by the lock is free of data races and a reader sees the last write. With either ordering weakened to relaxed this fails.", "quantifier": "all schedules, all thread programs accessing guarded data only under the lock", "why_tests_cant": "Depends on hardware reordering not exhibited by x86 test runs.", "anchors": ["src/utki/spin_lock.hpp:spin_lock"]}
{"id": "C47", "title": "spin_lock: no deadlock, no fairness", "statement": "If the lock is free, any thread attempting to lock succeeds in its next step, so some waiting thread can always proceed; but there are infinite schedules in which a thread attempts for ever while others acquire infinitely often.", "quantifier": "all reachable states; existential for starvation", "why_tests_cant": "Liveness over infinite schedules.", "anchors": ["src/utki/spin_lock.hpp:spin_lock"]}
{"id": "C48", "title": "flags behaves as a set of enumerators", "statement": "Any sequence of flags operations is observationally the same as on the set of set flags: construction, set/clear/get/[], set all, clear all, invert, &, |, ^, ~ and their assignments, ==, !=, is_set, is_clear, size and the printed text.", "quantifier": "all enum sizes, all operation sequences", "why_tests_cant": "2^n states for every n.", "anchors": ["src/utki/flags.hpp:flags"]}
{"id": "C49", "title": "flags: values outside of the enumeration", "statement": "set(flag,value) and clear(flag) with an out-of-range value change nothing (release build; they abort in debug build), construction from a list with one throws std::out_of_range, and get and operator[] with one are undefined behaviour (get aborts in debug build, but only for values past the end: a negative value of a signed underlying type passes its assertion).", "quantifier": "all enum sizes, all states, all out-of-range values", "why_tests_cant": "Silent undefined behaviour.", "anchors": ["src/utki/flags.hpp:flags"]}
{"id": "C50", "title": "scope_exit runs its function at most once and never lets an exception out", "statement": "For any history of a scope_exit object the function given at construction is run by the scope_exit exactly once, at destruction, if it was not released before and is not null, and never otherwise; exceptions thrown by it are swallowed; release returns the function on its first call.", "quantifier": "all histories, all functions (returning or throwing)", "why_tests_cant": "All exit paths.", "anchors": ["src/utki/utility.hpp:scope_exit"]}
{"id": "C51", "title": "singleton: at most one live instance", "statement": "In every history of constructing and destroying objects of a singleton class at most one is alive; constructing while one is alive throws std::logic_error and changes nothing; is_created tells whether one is alive and inst returns that one; after destruction a new one can be constructed.", "quantifier": "all histories", "why_tests_cant": "Unbounded histories.", "anchors": ["src/utki/singleton.hpp:intrusive_singleton"]}
{"id": "C52", "title": "shared_ref is never null unless moved from, and keeps the object alive exactly as long as referenced", "statement": "In every history of creating, copying, assigning, converting, moving and destroying shared_refs, a shared_ref that was not moved from refers to a live object; an object is destroyed exactly when its last shared_ref goes away; use of a moved-from shared_ref is undefined behaviour (abort in debug build).", "quantifier": "all histories of any number of references", "why_tests_cant": "Unbounded histories.", "anchors": ["src/utki/shared_ref.hpp:shared_ref", "src/utki/shared_ref.hpp:make_shared"]}
{"id": "C53", "title": "dynamic_reference_cast", "statement": "For a non-moved-from shared_ref it returns a shared_ref to the same object (sharing ownership) iff the object's dynamic type derives from the target type and throws std::bad_cast otherwise.", "quantifier": "all class hierarchies, all histories", "why_tests_cant": "All hierarchies.", "anchors": ["src/utki/shared_ref.hpp:dynamic_reference_cast"]}
{"id": "C54", "title": "unique_ref is the only owner", "statement": "In every history of creating, moving, converting, assigning, releasing and destroying unique_refs, no two own the same object, a unique_ref that was not moved from refers to a live object, and an object is destroyed exactly when its owner is destroyed or overwritten.", "quantifier": "all histories", "why_tests_cant": "Unbounded histories.", "anchors": ["src/utki/unique_ref.hpp:unique_ref"]}
{"id": "C55", "title": "span: subspan, at, operator[], front, back", "statement": "at(i) returns element i or throws std::out_of_range; within bounds subspan(o,n) is the slice of n elements from o and subspan(o) the rest; an out-of-bounds subspan or operator[] aborts in debug; in release it silently yields a span reaching, or an element lying, outside of the span as long as that stays inside the underlying array, and is undefined behaviour beyond it; subspan never throws.", "quantifier": "all spans, offsets and counts (64-bit)", "why_tests_cant": "2^128 argument pairs.", "anchors": ["src/utki/span.hpp:span::subspan", "src/utki/span.hpp:span::at", "src/utki/span.hpp:span::operator[]"]}
{"id": "C56", "title": "deep comparison of spans is a total order", "statement": "deep_equals decides element-wise equality and deep_less_than the lexicographic order; together with the derived comparisons they form a consistent total order when the element order is one.", "quantifier": "all spans over any element type with a total order", "why_tests_cant": "Unbounded.", "anchors": ["src/utki/span.hpp:deep_equals", "src/utki/span.hpp:deep_less_than", "src/utki/span.hpp:deep_greater_or_equals", "src/utki/span.hpp:deep_greater_than", "src/utki/span.hpp:deep_less_or_equals"]}
{"id": "C57", "title": "overlaps", "statement": "For a non-empty span overlaps(s,p) holds iff p is the address of one of its elements; for an empty span the call forms a pointer before the buffer, which is undefined behaviour.", "quantifier": "all spans and pointers", "why_tests_cant": "All addresses.", "anchors": ["src/utki/span.hpp:overlaps"]}
{"id": "C58", "title": "views: skip_front, reverse, zip", "statement": "Iterating skip_front<n>(c) yields the elements after the first n (undefined behaviour if there are less than n), reverse(c) the elements in reverse, zip(c1,...,ck) the tuples of i-th elements for i below the smallest size and never dereferences past the end of any collection.", "quantifier": "all collections, any number of zipped collections", "why_tests_cant": "Unbounded.", "anchors": ["src/utki/views.hpp:skip_front", "src/utki/views.hpp:reverse", "src/utki/views.hpp:zip_view"]}
{"id": "C59", "title": "linq select, where, group_by, order_by", "statement": "select maps in order (with the element's index if asked), where keeps exactly the satisfying elements in order, group_by yields each key once in key order with its elements in original order and loses nothing, order_by yields a permutation sorted by key; the source lvalue is not changed. The functions take their arguments by const reference or value; a where predicate taking its parameter by value on an owned (rvalue) collection makes where keep moved-from elements. An aggregator that owns its collection and is used again holds moved-from elements in place of exactly those it gave away.", "quantifier": "all collections and functions", "why_tests_cant": "Unbounded.", "anchors": ["src/utki/linq.hpp:linq_collection_aggregator"]}
{"id": "C60", "title": "flip_map", "statement": "For every map m, flip_map(m) maps v to k iff k is the first key (in m's order) with m[k]=v; if m's values are distinct flipping twice gives m back.", "quantifier": "all maps", "why_tests_cant": "Unbounded.", "anchors": ["src/utki/utility.hpp:flip_map", "src/utki/utility.hpp:flip_pair"]}
{"id": "C61", "title": "next and prev advance by any size_t", "statement": "next(it,n) (prev(it,n)) returns the iterator n steps further (back), for every n including those exceeding the iterator's difference_type, terminating and never passing an unrepresentable difference to std::next/std::prev.", "quantifier": "all n below 2^64, all difference_type widths", "why_tests_cant": "Needs more than 2^63 elements to test; the test file has a TODO for these functions.", "anchors": ["src/utki/utility.hpp:next", "src/utki/utility.hpp:prev"]}
{"id": "C62", "title": "contains", "statement": "contains(c,v) holds iff some element (for maps: some key) equals v.", "quantifier": "all containers and values", "why_tests_cant": "Unbounded.", "anchors": ["src/utki/utility.hpp:contains"]}
{"id": "C63", "title": "version_duplet ordering", "statement": "to_uint32_t is injective and order preserving: a >= b iff a.to_uint32_t() >= b.to_uint32_t(), and a < b iff a.to_uint32_t() < b.to_uint32_t(); < is a strict total order. Printing a version gives its two numbers in decimal separated by a dot, so that different versions print differently.", "quantifier": "all pairs of versions", "why_tests_cant": "2^64 pairs.", "anchors": ["src/utki/version.hpp:version_duplet"]}
{"id": "C64", "title": "tick counter differences survive wrap-around", "statement": "For two calls of get_ticks_ms the unsigned 32-bit difference of the results is the number of milliseconds between them modulo 2^32, hence exact for intervals shorter than 2^32 ms, wherever the wrap-around falls.", "quantifier": "all pairs of time points", "why_tests_cant": "Needs 49 days of running.", "anchors": ["src/utki/time.cpp:get_ticks_ms"]}
{"id": "C65", "title": "pow2..pow6 and sign", "statement": "For unsigned types of at least int's width powN(x) = x^N modulo 2^width; for signed types of at least int's width powN(x) = x^N whenever representable and undefined otherwise; for int8_t, uint8_t and int16_t the result is always defined and is the power modulo 2^width; for uint16_t large arguments (for pow2 those above 46340) are undefined behaviour because of promotion to int; whatever is returned is the power modulo 2^width. sign(x) is -1 for negative and 1 for all other values.", "quantifier": "all integral types and values", "why_tests_cant": "2^64 values; overflow is silent.", "anchors": ["src/utki/math.hpp:pow2", "src/utki/math.hpp:pow3", "src/utki/math.hpp:pow4", "src/utki/math.hpp:pow5", "src/utki/math.hpp:pow6", "src/utki/math.hpp:sign"]}
{"id": "C66", "title": "exception chains are printed completely and in order", "statement": "to_string(e,indent) and stacked_exception::to_string/what list every exception of the chain exactly once from the outermost to the innermost, one entry per line, for every chain of standard, foreign, throw_with_nested and stacked exceptions that has a nested exception at every nesting level, and current_exception_to_string(indent) does so with only the type name of the exception being handled; a chain whose innermost nested exception is missing terminates the program. Exceptions to this: current_exception_to_string of a stacked_exception prints only its type name; utki::throw_with_nested of a stacked_exception forgets the exception being handled; a stacked_exception wrapped by std::throw_with_nested inside of another one loses what it was wrapped around; with MSVC the type of an exception not derived from std::exception is printed as 'unknown exception'. An exception class that overrides to_string prints itself at the end of a stack; what it throws leaves stacked_exception::to_string, whereas what() never throws and then returns \"std::bad_alloc\" or \"error\".", "quantifier": "all chains of any length and mix of exception kinds", "why_tests_cant": "Unbounded chains.", "anchors": ["src/utki/exception.cpp:to_string", "src/utki/exception.cpp:current_exception_to_string", "src/utki/exception.hpp:stacked_exception"]}
{"id": "C67", "title": "indentation of exception chains", "statement": "Each entry of a printed chain starts with the given indentation for chains made by std::throw_with_nested and for chains made by utki::throw_with_nested over an exception that is not a utki::exception; a utki::exception at the end of a chain of stacked exceptions is printed without indentation.", "quantifier": "all chains", "why_tests_cant": "Unbounded chains.", "anchors": ["src/utki/exception.cpp:exception::to_string", "src/utki/exception.hpp:stacked_exception::to_string"]}
{"id": "C68", "title": "enum_iterable enumerates every enumerator once in order; enum_array is a total map", "statement": "Iterating enum_iterable visits the values 0..enum_size-1 in order exactly once; writing one element of an enum_array changes only that element's reading; zip_with_enum pairs each element with its own enumerator.", "quantifier": "all enum sizes and underlying types that can represent enum_size", "why_tests_cant": "All enum types.", "anchors": ["src/utki/enum_iterable.hpp:enum_iterable", "src/utki/enum_array.hpp:enum_array"]}
{"id": "C69", "title": "debug and release builds agree wherever no assertion fails", "statement": "assert_always returns without effect iff its condition holds and otherwise prints the location and message and aborts (unless the function that prints the message throws: then nothing is printed and the exception leaves assert_always); in a release build ASSERT evaluates nothing. An operation of the library that in a debug build neither aborts nor does anything undefined has the same result in a release build.", "quantifier": "all conditions, messages, locations; all operations and sequences of operations with assertions", "why_tests_cant": "All call sites.", "anchors": ["src/utki/debug.cpp:assert_always", "src/utki/debug.hpp:ASSERT"]}
{"id": "C70", "title": "uint_size and int_size give the smallest sufficient type", "statement": "For every n in 1..8 uint_size<n>::type (int_size<n>::type) is the unsigned (signed) type with the smallest of the sizes 1,2,4,8 that is at least n.", "quantifier": "n in 1..8 (the whole domain)", "why_tests_cant": "Decidable by enumeration; listed for completeness of the numeric layer.", "anchors": ["src/utki/type_traits.hpp:uint_size", "src/utki/type_traits.hpp:int_size"]}
{"id": "C71", "title": "depth and is_last_child", "statement": "depth() of an iterator is the number of nodes on the way from its root down to it; is_last_child() is true iff the node is the last one of the list it is in, and false for end().", "quantifier": "all forests, all iterators", "why_tests_cant": "All shapes and positions.", "anchors": ["src/utki/tree.hpp:iterator_internal::depth", "src/utki/tree.hpp:iterator_internal::is_last_child"]}
{"id": "C72", "title": "word_wrap fills lines greedily, but leaves a line that would be filled exactly", "statement": "For a text whose lines are words separated by single spaces (words that are followed by a space having lengths that are not multiples of width) the result is the following, line by line of the text: a word is put into the current line if a space and the word fit and, unless it is the last word of its line of the text, one more character would fit; otherwise it starts a new line. E.g. word_wrap(\"ab cd ef\",5) gives \"ab\",\"cd ef\" although \"ab cd\" has 5 characters.", "quantifier": "all such texts, all widths from 1 to 2^32-1", "why_tests_cant": "Exact output for all texts of the class; needs induction over the text.", "anchors": ["src/utki/string.cpp:word_wrap"]}
{"id": "C73", "title": "weak pointers and make_shared_from", "statement": "In every history of shared references and weak pointers, locking a weak pointer gives the object it was made from while some shared_ref or std::shared_ptr refers to that object, and null afterwards; weak pointers do not keep objects alive; make_shared_from(o) on a referred-to object gives a shared_ref to that same object that shares ownership.", "quantifier": "all histories of any number of references and weak pointers", "why_tests_cant": "Unbounded histories.", "anchors": ["src/utki/shared.hpp:make_weak", "src/utki/shared.hpp:make_shared_from", "src/utki/shared_ref.hpp:operator std::weak_ptr"]}
{"id": "C74", "title": "erasing nodes while iterating", "statement": "The loop 'for(i = begin(); i != end();) if(pred(*i)) i = erase(i); else ++i;' over a traversal ends, removes exactly the nodes that satisfy pred together with everything below them, keeps the order and structure of all other nodes, and calls pred exactly once, in pre-order, for every node that has no removed ancestor.", "quantifier": "all forests, all predicates on nodes, debug and release builds", "why_tests_cant": "Shapes and predicates are unbounded; each erase changes the structure the next step walks over.", "anchors": ["src/utki/tree.hpp:traversal::erase", "src/utki/tree.hpp:iterator_internal::operator++"]}
{"id": "C75", "title": "comparison of trees", "statement": "operator==(const tree&) is true iff both trees have the same shape and equal values at the same places; for an equality of values that is identity this is identity of trees. An exception of the comparison of two values terminates the program. operator==(const value&) compares the value of the node only.", "quantifier": "all trees, all equality relations on values", "why_tests_cant": "All shapes; differing shapes with the same sequence of values.", "anchors": ["src/utki/tree.hpp:tree::operator=="]}
{"id": "C76", "title": "making spans, and what a span denotes", "statement": "For every valid span, iterating forwards or backwards visits exactly its elements in order or in reverse order, make_vector copies them, and operator<< writes them one after the other (what was written before an exception stays). make_span of a container gives a span of exactly the container's elements, which is null iff the container is empty, whatever data() of an empty container is; the constructors keep data(). A zero-terminated string gives the span of the characters before its first zero. size_bytes is size times the size of an element.", "quantifier": "all memories, spans, containers, element types", "why_tests_cant": "Memory contents and positions are unbounded; data() of empty containers is unspecified.", "anchors": ["src/utki/span.hpp:make_span", "src/utki/span.hpp:make_vector", "src/utki/span.hpp:span", "src/utki/span.hpp:operator<<"]}
{"id": "C77", "title": "text and bytes: make_string, make_string_view, to_char, to_uint8_t, cat", "statement": "make_string of a span, array or vector of char or uint8_t is the string of exactly its bytes, zeros included; make_string_view refers to the same memory; to_uint8_t and to_char denote the same memory and the two views of a byte are equal modulo 256. cat is the concatenation of the texts of its arguments, each under the formatting left by the earlier ones, cut off after the first argument that makes the stream bad.", "quantifier": "all memories, spans and containers; all lists of arguments", "why_tests_cant": "Unbounded contents; state that is carried from one argument to the next.", "anchors": ["src/utki/string.hpp:make_string", "src/utki/string.hpp:make_string_view", "src/utki/string.hpp:cat", "src/utki/span.hpp:to_uint8_t", "src/utki/span.hpp:to_char"]}
{"id": "C78", "title": "logging", "statement": "log with an empty function does nothing; otherwise it calls the function once and then flushes standard output, except that an exception of the function escapes without a flush. logcat appends the texts of its arguments, formatted with whatever formatting standard output has at that time (so, unlike cat, it depends on and changes the formatting of later output), and flushes. log_debug, logcat_debug, run_debug and LOG do the same in a debug build; in a release build LOG does not evaluate its argument, the functions evaluate theirs and do nothing else.", "quantifier": "all functions, arguments, states of standard output, debug and release builds", "why_tests_cant": "Effects of arbitrary callbacks and of stream state.", "anchors": ["src/utki/log.cpp:log", "src/utki/log.hpp:logcat", "src/utki/debug.hpp:log_debug", "src/utki/debug.hpp:run_debug"]}
{"id": "C79", "title": "demangle neither leaks nor frees twice", "statement": "demangle returns the demangled name, or the given name when demangling fails, and leaves the heap of malloc as it was, also when building the resulting string throws.", "quantifier": "all names, all behaviours of __cxa_demangle within its contract, every point of memory exhaustion", "why_tests_cant": "Needs every failure of the demangler and of allocation.", "anchors": ["src/utki/debug.cpp:demangle"]}
{"id": "C80", "title": "index_of and offset_sequence", "statement": "index_of<T, std::variant<...>> compiles iff T occurs exactly once among the alternatives, and then is its position. offset_sequence has as many indices and each is the original one plus the offset.", "quantifier": "all lists of types, all sequences and offsets", "why_tests_cant": "Every instantiation is a separate program.", "anchors": ["src/utki/variant.hpp:index_of", "src/utki/utility.hpp:offset_sequence"]}
{"id": "C81", "title": "type predicates", "statement": "remove_const_reference is std::remove_cvref exactly for types that are not volatile (so it is no drop-in replacement); remove_const_pointer strips one pointer and the constness of what it points to; is_specialization_of holds exactly for unqualified specializations of the template, not for const or reference types; is_scoped_enum holds exactly for scoped enumerations with any qualifiers; is_type_defined and type_or_void see exactly an accessible member 'type'.", "quantifier": "all types built from fundamental types, enumerations, pointers, references, qualifiers and specializations", "why_tests_cant": "Every instantiation is a separate program.", "anchors": ["src/utki/type_traits.hpp:remove_const_reference", "src/utki/type_traits.hpp:is_specialization_of", "src/utki/type_traits.hpp:is_scoped_enum", "src/utki/type_traits.hpp:type_or_void"]}
{"id": "C82", "title": "the decimal to binary core of fast_float is correctly rounded", "statement": "For every 64-bit w and every exponent q, the bits that to_float makes of compute_float(q, w) are those of the double (float) nearest to w*10^q, ties to the even pattern; numbers from halfway between the largest finite number and the next power of two on give infinity, numbers up to half of the smallest positive one give zero. Nothing undefined happens (table accesses, shifts).", "quantifier": "all w < 2^64, all exponents, both formats and signs, all platforms", "why_tests_cant": "2^64 mantissas times 651 exponents; the algorithm relies on a table of truncated powers of five being precise enough in every case.", "anchors": ["src_deps/fast_float/fast_float.h:compute_float", "src_deps/fast_float/fast_float.h:compute_product_approximation", "src_deps/fast_float/fast_float.h:to_float"]}
{"id": "C83", "title": "portable multiplication and bit counting of fast_float", "statement": "leading_zeroes gives the number of zero bits before the first one bit, and full_multiplication the low and high half of the 128-bit product, on every platform; leading_zeroes_generic and umul128_generic, used where the compiler has no builtins, give the same results as the builtins for all arguments.", "quantifier": "all 64-bit arguments (non-zero for the bit count), all platforms", "why_tests_cant": "2^64 and 2^128 arguments.", "anchors": ["src_deps/fast_float/fast_float.h:leading_zeroes_generic", "src_deps/fast_float/fast_float.h:umul128_generic"]}
{"id": "C84", "title": "eight digits at a time", "statement": "The word-parallel test of fast_float accepts exactly the eight-character texts that consist of digits, for signed and all other values of char, and the word-parallel conversion gives the number that the eight digits denote, on little-endian and big-endian processors.", "quantifier": "all eight-character texts, both byte orders", "why_tests_cant": "2^64 words; carries between bytes matter only for rare neighbours.", "anchors": ["src_deps/fast_float/fast_float.h:is_made_of_eight_digits_fast", "src_deps/fast_float/fast_float.h:parse_eight_digits_unrolled"]}
{"id": "C85", "title": "Clinger's fast path is correctly rounded in every rounding mode", "statement": "Whenever from_chars uses its fast path (one floating-point operation on exact operands), the result is the double (float) nearest to mantissa*10^exponent, ties to even, whatever the rounding mode of the thread is. This is so also where floating-point expressions are evaluated in double or in the 80-bit long double and rounded a second time. The run-time test of the rounding mode holds exactly for round to nearest, where it is made (not if expressions are evaluated in long double); no table is accessed out of bounds.", "quantifier": "all mantissas and exponents, the four rounding modes, both formats and signs, all platforms (FLT_EVAL_METHOD 0, 1 and 2)", "why_tests_cant": "Needs every mantissa and exponent in every rounding mode.", "anchors": ["src_deps/fast_float/fast_float.h:from_chars_advanced", "src_deps/fast_float/fast_float.h:rounds_to_nearest", "src_deps/fast_float/fast_float.h:exact_power_of_ten"]}
{"id": "C86", "title": "big integers of fast_float are exact", "statement": "The integers of up to 3968 bits that fast_float uses for long numbers compute exactly: addition and multiplication of a one-limb number, multiplication, multiplication by powers of 2, 5 and 10 whenever the result is below 2^3968, comparison, length in bits, and the leading 64 bits together with whether any of the other bits is one. Results have no leading zero limb, and no limb is accessed out of bounds. This holds with 64-bit limbs and with 32-bit limbs, with and without __uint128_t and __builtin_add_overflow.", "quantifier": "all integers below 2^3968, all exponents, all platforms", "why_tests_cant": "Carries through up to 125 limbs; 2^3968 values.", "anchors": ["src_deps/fast_float/fast_float.h:large_mul", "src_deps/fast_float/fast_float.h:small_add_from", "src_deps/fast_float/fast_float.h:small_mul", "src_deps/fast_float/fast_float.h:bigint"]}
{"id": "C87", "title": "numbers with more than nineteen digits are rounded correctly", "statement": "For a number of any number of digits of which only the first nineteen significant ones fit in the mantissa, compute_error followed by digit_comp gives the double (float) nearest to the exact number, ties to even. 769 digits (114 for float) and the knowledge whether any further digit is not zero determine the result.", "quantifier": "all texts of digits of any length, all decimal exponents, both formats and signs, all platforms", "why_tests_cant": "Unboundedly many digits; the interesting numbers are within 10^-700 of halfway between two neighbours.", "anchors": ["src_deps/fast_float/fast_float.h:digit_comp", "src_deps/fast_float/fast_float.h:positive_digit_comp", "src_deps/fast_float/fast_float.h:negative_digit_comp", "src_deps/fast_float/fast_float.h:compute_error", "src_deps/fast_float/fast_float.h:parse_mantissa"]}
{"id": "C88", "title": "fast_float::from_chars reads the longest number and rounds it correctly", "statement": "from_chars finds the longest beginning of the text that is a number in the grammar of the format (or one of the names of infinity and nan), leaves exactly the rest, and stores the nearest double (float) of the exact number, ties to even, with the sign; the error code says exactly whether the number was rounded to infinity, or to zero without being zero. If there is no such beginning it reports invalid_argument, leaves the whole text and stores nothing. For numbers whose explicit exponent is beyond 2^28 and whose text has about 2^28 characters the value is not specified, but nothing undefined happens and the rest is right.", "quantifier": "all texts, formats, rounding modes, both types, all platforms", "why_tests_cant": "All texts of any length; 2^64 results.", "anchors": ["src_deps/fast_float/fast_float.h:from_chars", "src_deps/fast_float/fast_float.h:from_chars_advanced", "src_deps/fast_float/fast_float.h:parse_number_string", "src_deps/fast_float/fast_float.h:parse_infnan"]}
{"id": "C89", "title": "laws of reading floating point numbers", "statement": "The result of from_chars does not depend on the rounding mode of the thread nor on the platform: width of the limbs, byte order, builtins of the compiler, FLT_EVAL_METHOD. A text of a larger number is not read as a smaller one. A text that denotes a number of the format exactly is read as that number. Any double (float) written with seventeen (nine) correctly rounded significant digits is read back as itself, which is not so for sixteen.", "quantifier": "all texts, rounding modes, platforms, all pairs of numbers, all floating point numbers", "why_tests_cant": "Pairs of texts; 2^64 numbers.", "anchors": ["src_deps/fast_float/fast_float.h:from_chars"]}
{"id": "C90", "title": "explicit exponents are cut off", "statement": "fast_float stops accumulating the explicit exponent once it has reached 2^28: it is replaced by a number of the same sign between 2^28 and itself, and the rest of the conversion is exact for that number. So the claim that every text is rounded correctly is false: 0.00...01e10000000000 with 10^10-1 zeros denotes 1 and is read as zero with a range error.", "quantifier": "all texts", "why_tests_cant": "The shortest wrong texts have hundreds of millions of characters.", "anchors": ["src_deps/fast_float/fast_float.h:parse_number_string"]}
{"id": "C91", "title": "utki::from_chars for float, double and long double", "statement": "Reads the longest number in the grammar of the format: scientific requires an exponent, fixed leaves it, general takes it if there is one. The value is the nearest float, or double; a long double has the value of the nearest double. A range error writes infinity or zero to a float or double and leaves a long double alone. Hexadecimal digits are not read in the format hex, which behaves like fixed, and a long double is not the nearest one. Nothing of this depends on the rounding mode of the thread or on the platform.", "quantifier": "all texts, formats, types, rounding modes, platforms", "why_tests_cant": "All texts.", "anchors": ["src/utki/string.cpp:from_chars", "src/utki/string.cpp:to_fast_float_format"]}
{"id": "C92", "title": "string_parser::read_number for float, double and long double", "statement": "Skips white space and reads the longest number; returns its nearest float or double and leaves what follows the number. If there is none it throws invalid_argument after the white space. Numbers beyond the range, large ones as well, are returned as zero.", "quantifier": "all texts, types, rounding modes, platforms, debug and release builds", "why_tests_cant": "All texts.", "anchors": ["src/utki/string.hpp:string_parser::read_number"]}
{"id": "C93", "title": "The constants pi, two_pi and log_2", "statement": "pi, two_pi and log_2 are the doubles nearest to the real numbers pi, 2 pi and ln 2: every other finite double is farther away. Converted to float they are the nearest floats. Converted to long double, pi is not the nearest long double.", "quantifier": "one statement about real numbers per constant; all other numbers of the format", "why_tests_cant": "The real numbers are not computable values; a test compares with another rounded constant.", "anchors": ["src/utki/math.hpp:pi", "src/utki/math.hpp:two_pi", "src/utki/math.hpp:log_2"]}
{"id": "C94", "title": "deg_to_rad and rad_to_deg for floating point numbers", "statement": "In the nearest rounding mode, for a finite float or double whose conversion does not overflow, the result has the sign of the argument and is within 5/2 roundoffs of the exact angle (x pi / 180, or 180 x / pi) plus the smallest positive number; for long double within 2^-54 of it, and not within 500 roundoffs. NaN, infinities and zeros are kept. The conversions are monotone. They overflow exactly above the largest number divided by pi and by 180, although the angle in radians is representable. Converting to radians and back changes a number by at most 9/2 roundoffs, and is not the identity. Rounding down, the radians of a double that is not negative are not above the exact angle, and rounding up, the degrees are not below it; the other two bounds are false.", "quantifier": "all floats, doubles and long doubles", "why_tests_cant": "There are 2^64 doubles, and the exact angles are irrational.", "anchors": ["src/utki/math.hpp:deg_to_rad", "src/utki/math.hpp:rad_to_deg"]}
{"id": "C95", "title": "deg_to_rad and rad_to_deg for integers", "statement": "With an integral number_type pi is 3. As long as the product is representable, deg_to_rad gives a sixtieth truncated towards zero and rad_to_deg 60 times the argument. Otherwise it is a signed overflow for signed types from int on, is calculated modulo 2^bits for unsigned ones, and the result of rad_to_deg is reduced modulo 2^bits for narrower types. In int8_t, which does not represent 180, deg_to_rad gives results of the opposite sign; for unsigned int it is not monotone.", "quantifier": "all integral types of 32 bits or more, of 16 bits or less; all values", "why_tests_cant": "All values of 64-bit types.", "anchors": ["src/utki/math.hpp:deg_to_rad", "src/utki/math.hpp:rad_to_deg"]}
{"id": "C96", "title": "pow2 to pow6 and sign for floating point numbers", "statement": "In the nearest rounding mode the power of a finite number has the sign of the exact power, and is infinite or within (1 + roundoff)^(k-1) - 1 of it relatively, plus three times the smallest positive number. It is finite if the exact power times (1 + roundoff)^(k-2) is representable. Powers of integers that fit into the mantissa are exact in every rounding mode. The odd powers are monotone, the even ones are in the absolute value. NaN gives NaN and infinities give infinities. The result is not always the nearest number. For numbers that are not negative, the results of rounding down and up enclose the exact power; for negative ones this is false. sign is -1 for the numbers below zero and 1 for all others, NaN and the negative zero included.", "quantifier": "all floats, doubles and long doubles; exponents 2 to 6", "why_tests_cant": "There are 2^64 doubles.", "anchors": ["src/utki/math.hpp:pow2", "src/utki/math.hpp:pow3", "src/utki/math.hpp:pow4", "src/utki/math.hpp:pow5", "src/utki/math.hpp:pow6", "src/utki/math.hpp:sign"]}
{"id": "C97", "title": "bit masks and units", "statement": "For every integer x, x & bit_i_mask is 2^i if bit i of x is set and 0 otherwise; x & byte_mask is x modulo 256, x & lower_nibble_mask is x modulo 16 and x & upper_nibble_mask is the upper nibble of the byte in place. byte_bits and nibble_bits are the widths of these masks. cm_per_inch and mm_per_inch are the doubles nearest to 2.54 and 25.4.", "quantifier": "all integers, signed and unsigned, of any width", "why_tests_cant": "All integers.", "anchors": ["src/utki/type_traits.hpp:byte_bits", "src/utki/type_traits.hpp:byte_mask", "src/utki/type_traits.hpp:lower_nibble_mask", "src/utki/type_traits.hpp:upper_nibble_mask", "src/utki/utility.hpp:mm_per_inch"]}
{"id": "C98", "title": "is_terminal_cerr, is_terminal_cout and is_terminal_cin", "statement": "Each of the three functions returns true exactly if the descriptor of its own stream is open and refers to a terminal; the deprecated names return the same.", "quantifier": "all processes: any descriptors of the streams, any open files", "why_tests_cant": "A test runs with one set of standard streams.", "anchors": ["src/utki/utility.cpp:is_terminal_cerr", "src/utki/utility.cpp:is_terminal_cout", "src/utki/utility.cpp:is_terminal_cin"]}
{"id": "C99", "title": "sort: comparators that throw, have effects or are inconsistent", "statement": "In C++17 mode, whatever the comparator does and answers, utki::sort touches nothing outside of its range, never accesses memory outside of it, and leaves every element of the range in the range exactly once, also when a comparison or the copying of an element throws; such a failure ends it at once and is the only way for it to fail. Only elements of the range are compared, never moved-from ones. If no element is ever said to be before itself it terminates. If it returns and the answers were those of a strict weak order the range is sorted.", "quantifier": "all element types and comparators with arbitrary effects and outcomes, every point at which they may throw, all arrays and subranges", "why_tests_cant": "A test throws at a few points and uses consistent comparators.", "anchors": ["src/utki/sort.hpp:quick_sort", "src/utki/sort.hpp:partition", "src/utki/sort.hpp:iter_swap", "src/utki/sort.hpp:find_if_not", "src/utki/sort.hpp:sort"]}
{"id": "C100", "title": "sort: number of comparisons", "statement": "In C++17 mode utki::sort makes at most n(n+1)-2 comparisons on a range of n >= 1 elements. For every n there is an array of n different elements for which it makes that many and for which its recursion is n calls deep, so that it does not keep to the O(n log n) of std::sort, whose drop-in replacement it is documented to be.", "quantifier": "all arrays, all irreflexive comparators; all n", "why_tests_cant": "A bound for all lengths, and an adversarial input for every length.", "anchors": ["src/utki/sort.hpp:quick_sort", "src/utki/sort.hpp:sort"]}
{"id": "C101", "title": "copies of a signal have the callbacks but not the connections", "statement": "Copying, assigning and moving from a signal (moving copies, as the class has no move operations) give the target the callbacks of the source in the same order, leave the source and all other signals as they are, and call nothing; afterwards what is done to one does not reach the other, and emitting the copy calls its callbacks in order up to the first that throws. No connection made before can be disconnected from the copy (undefined behaviour), and the copied callbacks can never be disconnected by any program: until the copy is assigned to or destroyed it has them, and in a debug build its destruction aborts if there is any.", "quantifier": "all programs over any number of signals, callbacks that throw or not, debug and release", "why_tests_cant": "That no program whatsoever can empty a copied signal is a statement about all continuations.", "anchors": ["src/utki/signal.hpp:signal", "src/utki/signal.hpp:signal::disconnect", "src/utki/signal.hpp:signal::~signal", "src/utki/signal.hpp:signal::emit"]}
{"id": "C102", "title": "config.hpp: operating system and compiler", "statement": "Whatever the compiler predefines, config.hpp is accepted, changes no macro other than CFG_*, DLLEXPORT and UTKI_CPP_STANDARD, and defines all the constants to compare with. CFG_OS, CFG_OS_NAME and CFG_COMPILER are defined and equal exactly one of these constants, as the predefined macros say in the documented order of precedence; the name belongs to the family its comment says (iOS to macOS, Android to Linux, Solaris, FreeBSD and Emscripten to Unix). The version macros are there exactly for the compilers they describe.", "quantifier": "all sets of predefined macros in which those that are compared are numbers", "why_tests_cant": "A test is compiled by one compiler for one system.", "anchors": ["src/utki/config.hpp:CFG_OS", "src/utki/config.hpp:CFG_OS_NAME", "src/utki/config.hpp:CFG_COMPILER"]}
{"id": "C103", "title": "config.hpp: language edition", "statement": "CFG_CPP is the edition of the language: the newest of 11, 14, 17, 20 whose predecessor's __cplusplus (_MSVC_LANG with MSVC) the compiler's exceeds, 3 if there is none. It never decreases as that value grows, and it never exceeds 20, so that code under CFG_CPP >= 26, such as std::span in span.hpp, is never compiled.", "quantifier": "all sets of predefined macros, all values of __cplusplus, also of future compilers", "why_tests_cant": "Values of compilers that do not exist yet.", "anchors": ["src/utki/config.hpp:CFG_CPP", "src/utki/span.hpp:span"]}
{"id": "C104", "title": "config.hpp: processor", "statement": "CFG_CPU, CFG_CPU_BITS, CFG_CPU_VERSION and CFG_CPU_ARM_THUMB_VERSION are what the predefined macros say; CFG_CPU and CFG_CPU_BITS always go together. CFG_CPU_VERSION is not defined with Emscripten. With clang other than Emscripten the processor is never recognised, whatever it is.", "quantifier": "all sets of predefined macros", "why_tests_cant": "A test runs on one processor with one compiler.", "anchors": ["src/utki/config.hpp:CFG_CPU", "src/utki/config.hpp:CFG_CPU_BITS", "src/utki/config.hpp:CFG_CPU_VERSION"]}
{"id": "C105", "title": "config.hpp: byte order and export of symbols", "statement": "CFG_ENDIANNESS is little on Windows and Emscripten; elsewhere it is big exactly if some predefined macro says big, little exactly if one says little and none says big, unknown otherwise. As the order of words of floating point numbers counts too, it is not always the byte order of integers. DLLEXPORT is dllexport or dllimport, depending on _USRDLL, with MSVC on Windows, and empty elsewhere.", "quantifier": "all sets of predefined macros", "why_tests_cant": "A test runs on one processor with one compiler.", "anchors": ["src/utki/config.hpp:CFG_ENDIANNESS", "src/utki/config.hpp:DLLEXPORT"]}
{"id": "C106", "title": "windows.hpp keeps winsock.h out and cleans up", "statement": "On Windows, whether winsock.h was included before or not, windows.hpp includes windows.h in such a way that it does not include winsock.h, leaves the include guards of winsock.h as they were, so that either of winsock.h and winsock2.h can be included later, and leaves no macro max, min or DELETE. Elsewhere it does nothing beyond config.hpp.", "quantifier": "all windows.h that honour the guards, all macros defined before", "why_tests_cant": "A test includes headers in one order.", "anchors": ["src/utki/windows.hpp:_WINSOCKAPI_", "src/utki/windows.hpp:_WINSOCK_H"]}
{"id": "C107", "title": "linq: functions are called once per element, in order, up to the first failure", "statement": "select, where and group_by call the function exactly once for each element, in the order of the collection, and stop at the first call (or copy of an element) that throws; the exception reaches the caller. Elements behind it are untouched, and what is left of those before it is exactly known. order_by gives a permutation sorted by the function, or ends the way some call of the function or copy ended. A collection of the caller is the same afterwards whatever happens. Elements of an owned collection are never copied, except for a group_by function that takes its argument by value.", "quantifier": "all collections, functions and copy constructors with arbitrary effects and exceptions, both kinds of ownership and of parameters", "why_tests_cant": "Tests use pure functions that never throw, and types that can always be copied.", "anchors": ["src/utki/linq.hpp:select", "src/utki/linq.hpp:where", "src/utki/linq.hpp:group_by", "src/utki/linq.hpp:order_by"]}
{"id": "C108", "title": "make_shared_from and make_weak_from over the whole life of an object", "statement": "While some shared_ref or std::shared_ptr owns an object, make_shared_from gives another owner of that very object and changes nothing else; while none does - in its constructor, in its destructor, for automatic and member objects, for copies of owned objects - it throws std::bad_weak_ptr and changes nothing. make_weak_from does the same for classes derived from utki::shared; for those derived from std::enable_shared_from_this it never throws, and what it gives for an object without owner never leads to an object, even if that object is owned later. Weak pointers give the object exactly while it is owned and once expired stay so. Owned objects are complete, and the destructor is entered when the last owner goes.", "quantifier": "all histories of objects, owners and weak pointers, all class hierarchies, debug and release builds", "why_tests_cant": "Depends on where in the life of an object the call happens, and on all owners before.", "anchors": ["src/utki/shared.hpp:make_shared_from", "src/utki/shared.hpp:make_weak_from", "src/utki/shared.hpp:shared"]}
{"id": "C109", "title": "References compare as their objects", "statement": "Comparing a shared_ref or unique_ref with an object or another reference by < and == compares the objects, not the addresses; references to different but equal objects are equal; the order of references is a strict weak order if that of the objects is, so they can be kept in ordered containers. A moved-from reference is caught by the assertion (a null dereference without it). A comparison of objects that throws ends the program.", "quantifier": "all types with comparison operators that may throw, all references", "why_tests_cant": "Ranges over all comparison operators.", "anchors": ["src/utki/shared_ref.hpp:operator<", "src/utki/shared_ref.hpp:operator==", "src/utki/unique_ref.hpp:operator<", "src/utki/unique_ref.hpp:operator=="]}
{"id": "C110", "title": "spin_lock in the memory model of C++, without interleaving", "statement": "In every execution that the C++ memory model allows, of two calls of lock that returned one was followed by its unlock before the other returned, and that unlock happens before the other acquisition. So there is no data race on data accessed between lock and unlock, and each read there yields the last write. Mutual exclusion holds with any memory orders; the rest needs acquire in lock and release in unlock: with any other pair the model allows a data race.", "quantifier": "all finite and infinite executions of any number of threads that satisfy the coherence and atomicity rules of the flag, with arbitrary further synchronization", "why_tests_cant": "Needs reasoning about executions of the memory model that no interleaving and no particular processor shows.", "anchors": ["src/utki/spin_lock.hpp:lock", "src/utki/spin_lock.hpp:unlock"]}
{"id": "C111", "title": "overloaded calls the functor written for the alternative", "statement": "With functors that take T, const T&, auto or const auto&, no type twice and at most one generic one, std::visit passes each alternative to the functor written for its type, or to the generic one if there is none - whatever implicit conversions exist between the alternatives, whatever the order of the functors, for const and non-const lvalue and rvalue variants. A functor taking T by value wins over every generic one; one taking const T& loses to auto& and auto&& exactly in the cases listed. Without generic functor an alternative goes to the functor with the best conversion. Two functors for the same type do not compile. Among several generic functors that take references, which one is called follows from the constness and value category of the variant; auto beside another generic functor that can take the argument is ambiguous. The same holds for functors that take T&, const T& and T&& together with generic ones: constness and value category of the variant decide. An lvalue is never passed to T&&, nor a converted object to T&.", "quantifier": "all lists of functors with the eight usual parameter declarations, all types and implicit conversions, all variants", "why_tests_cant": "Ranges over all types with all conversions between them; the selection happens at compile time.", "anchors": ["src/utki/variant.hpp:overloaded"]}
{"id": "C112", "title": "signal emitted by its own callbacks", "statement": "Callbacks may emit the signal while it is emitted, to any depth, catch the exceptions that come out of this, connect and disconnect. In each of these emissions callbacks are invoked in the order of connection, none twice, only those connected at the time, and all that are connected at its end if it ends normally. It ends with an exception exactly if a callback does not catch or throws one, and the behaviour is undefined exactly if a callback is no longer connected when it returns or disconnects what is not connected. If every callback starts by emitting, the emission never ends.", "quantifier": "all callbacks made of connections, disconnections, emissions, exceptions and state of the program; all depths of nesting", "why_tests_cant": "Ranges over all programs of callbacks; tests emit from outside only.", "anchors": ["src/utki/signal.hpp:emit", "src/utki/signal.hpp:connect", "src/utki/signal.hpp:disconnect"]}
{"id": "C113", "title": "singleton at the end of the program", "statement": "Exactly when a program with a singleton ends well: no automatic singleton object is left when std::exit is called, no singleton object with static storage duration is initialized before the static instance pointer, other static objects initialized before it do not use it in their destructors, and those that call inst there are destroyed before the object is. An object left on the heap is deleted at the end, by the destructor of the std::unique_ptr; with assertions, and a standard library that clears the pointer first, that aborts the program. An automatic object left by std::exit, or a static one initialized too early, is deleted as well, which is undefined behaviour. The documented use, an automatic object in main, always ends well.", "quantifier": "all programs that initialize static objects, make and destroy singleton objects of every storage duration in any order; debug and release builds; standard libraries that clear the pointer before or after deleting", "why_tests_cant": "Depends on the order of initialization of static objects, which is not specified, and happens after main.", "anchors": ["src/utki/singleton.hpp:intrusive_singleton", "src/utki/singleton.hpp:singleton"]}
{"id": "C114", "title": "Iterators kept while a tree changes", "statement": "The iterators returned by insert, insert_after and erase are valid in the changed tree and stand where C37 and C38 say. Of the other iterators, with children in std::vector, exactly those stay valid whose path does not go through the container changed, or goes through an element that does not move (before the place of the change, and no reallocation). One that stood at an element that moved or was erased is undefined in every use; one below an element that moved still gives its node, but moving it is not safe. With children in std::list all iterators except those into the erased subtree stay valid and stand at the same nodes.", "quantifier": "all forests, all positions of insertion and erasure, all other iterators, containers std::vector with and without reallocation and std::list", "why_tests_cant": "Using an invalid iterator often seems to work; the iterators in question are all combinations of two positions in all trees.", "anchors": ["src/utki/tree.hpp:insert", "src/utki/tree.hpp:insert_after", "src/utki/tree.hpp:erase", "src/utki/tree.hpp:operator++"]}
{"id": "C115", "title": "Where the string views of string_parser and trim point", "statement": "The views returned by read_word, read_word_until, read_chars and read_chars_until are consecutive, disjoint pieces of the string given to the parser, nothing is copied; in any program that leaves that string alone they show the same text for ever, whatever happens to the parser and to other strings. Afterwards the parser points behind what was taken off, except that read_word, read_word_until and read_chars_until leave a null view at the end. When the string is gone and characters are left, every operation is undefined, except read_chars, which returns a view that cannot be read, and peek_char(n) past the end, which throws. trim, trim_front and trim_back return the piece of their argument.", "quantifier": "all memories, views, and programs of calls mixed with changes of memory", "why_tests_cant": "Reading freed memory often gives the old text; programs are unbounded.", "anchors": ["src/utki/string.cpp:string_parser::read_word", "src/utki/string.cpp:string_parser::read_chars", "src/utki/string.cpp:string_parser::read_chars_until", "src/utki/string.hpp:trim", "src/utki/string.hpp:read_number"]}
{"id": "C116", "title": "Logging, assertions and demangle on Android and with the Microsoft compiler", "statement": "utki::log with a function that only appends to its stream goes on alike on Android and elsewhere. Elsewhere the text is on standard output as far as the function got; on Android it becomes exactly one entry of the system log, up to the first zero character, and there is none when the function throws. logcat starts with the default formatting there, so its text is that of cat. assert_always ends alike; the line on standard error is one fatal entry instead, without the line end and up to the first zero. demangle with the Microsoft compiler takes one 'class ' off the front and changes nothing else.", "quantifier": "all printing functions, states, conditions, locations and names", "why_tests_cant": "The tests run on one platform; the other branches are never compiled there.", "anchors": ["src/utki/log.cpp:log", "src/utki/debug.cpp:assert_always", "src/utki/debug.cpp:demangle", "src/utki/log.hpp:logcat"]}
{"id": "C117", "title": "Loops that erase nodes while they walk over a tree, in memory", "statement": "The loop 'for(i = begin(); i != end();) if(...) i = erase(i); else ++i;' over trees in vectors and in lists never uses an invalid iterator; it is the recursive walk over the tree, with the effects of the decisions in the same order, also when a decision throws or leaves the loop: the nodes not yet reached stay. With end() called once before the loop that is still so for lists; for vectors the first erasure of a root makes the loop undefined, erasures further down do not. insert and insert_after of a node of the tree itself, given by a const reference, insert a copy of what it was before, also into its own subtree.", "quantifier": "all forests, deciding functions with any effects and outcomes, containers, builds", "why_tests_cant": "Stale iterators often seem to work; decisions and forests are unbounded.", "anchors": ["src/utki/tree.hpp:erase", "src/utki/tree.hpp:end", "src/utki/tree.hpp:insert", "src/utki/tree.hpp:insert_after", "src/utki/tree.hpp:operator++"]}
{"id": "C118", "title": "Loops over views with bodies that change the collections", "statement": "A range-based for loop over skip_front<n>(c), reverse(c) or zip(c1,...,cn) runs its body for the references of the elements in the order of C58, until the body leaves the loop or fails, if the body keeps valid what the iterators stand for: for skip_front and zip the current elements and what follows them, for reverse what comes up to the element visited before (so erasing the current element of a list in a loop over reverse() passes over the next one). Bodies may write to all elements, and the same collection may be given to zip several times. A body that goes on after it has invalidated the current place makes the loop undefined. zip looks at the sizes when the view is made: collections that grow afterwards are visited up to the old smallest size, one that has shrunk below it makes the loop undefined.", "quantifier": "all collections, bodies with any effects and outcomes, sizes, numbers of collections", "why_tests_cant": "Bodies, sizes and the moments of invalidation are unbounded; stale iterators often seem to work.", "anchors": ["src/utki/views.hpp:skip_front", "src/utki/views.hpp:reverse", "src/utki/views.hpp:zip_view", "src/utki/views.hpp:zip"]}
{"id": "C119", "title": "Exception texts in a process that runs out of memory", "statement": "Whichever allocations fail, utki::to_string, stacked_exception::to_string and current_exception_to_string throw std::bad_alloc or return the text they return with enough memory, or what is left of it: parts are cut off, a demangled name is the mangled one, or the text of a stacked_exception inside is std::bad_alloc. No call ends the program that does not with enough memory. what() of a stacked_exception never throws: for a complete chain it gives the text of C66, damaged at most in this way. The damage can be silent: a failure inside an insertion into a stream sets badbit, which nothing looks at, so a text with exceptions of the chain missing is returned.", "quantifier": "all chains of exceptions, indentations, sequences of failing allocations, compilers", "why_tests_cant": "Failing allocations have to be provoked at every one of the unboundedly many places of a chain; tests run with enough memory.", "anchors": ["src/utki/exception.hpp:stacked_exception::what", "src/utki/exception.hpp:stacked_exception::to_string", "src/utki/exception.cpp:to_string", "src/utki/exception.cpp:current_exception_to_string", "src/utki/debug.cpp:demangle"]}
{"id": "C120", "title": "Lifetime of the pointers that what() returns", "statement": "The pointer that what() of a stacked_exception returns can be read, and shows the text of C66, until a call asks the same exception for its what() again; from then on it dangles and reading it is undefined, although what() is a const member function and std::exception promises a pointer that stays valid. Calls that ask: what() and utki::to_string of the exception itself, and printing an exception that holds it by std::throw_with_nested; its to_string(), and what() and to_string() of stacked_exceptions over it, do not. A call writes to the descriptions of the exceptions it asks and to no others, so two threads that hold the same exception race exactly when both ask it. The library itself reads such pointers only while they are valid.", "quantifier": "all objects and chains, sequences of calls with any indentations, compilers", "why_tests_cant": "Buffers given back usually keep their contents for a while, so a dangling pointer shows the right text in tests.", "anchors": ["src/utki/exception.hpp:stacked_exception::what", "src/utki/exception.hpp:stacked_exception::to_string", "src/utki/exception.cpp:to_string", "src/utki/exception.cpp:current_exception_to_string"]}
{"id": "C121", "title": "contains with search trees, hash tables and comparisons that have effects", "statement": "For a std::map, whatever the shape of its tree, contains answers whether there is an equivalent key, with at most one comparison more than the tree is high. For a std::unordered_map, after any insertions, erasures and rehashes, it answers whether an equal key has been inserted and not erased since, provided that equal keys have equal hashes (without this the answer can be wrong); no key is in the table twice. For all other containers, ordered ones like std::set included, it compares the elements with ==, from the first one on until the answer is true. Comparisons may have effects; a failing comparison ends the search with its failure, and nothing is compared afterwards.", "quantifier": "all containers, tree shapes, histories of hash tables, hash functions, comparisons with effects, values", "why_tests_cant": "Shapes, histories and hash functions are unbounded; collisions and failing comparisons are rare in tests.", "anchors": ["src/utki/utility.hpp:contains"]}

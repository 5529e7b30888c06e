#!/usr/bin/env python3
"""Single source of the property list: writes ../properties.jsonl."""
import json, os
P = []
def p(title, statement, quantifier, why, *anchors):
    P.append(dict(id="C%02d" % (len(P)+1), title=title, statement=statement,
                  quantifier=quantifier, why_tests_cant=why, anchors=list(anchors)))

# ---------------------------------------------------------------- base64
p("base64_decode inverts the padded RFC 4648 encoding",
  "For every byte string, base64_decode applied to its padded RFC 4648 base64 encoding returns exactly that byte string, with no undefined behaviour, no exception and no failing assertion.",
  "all byte strings of any length",
  "256^n inputs per length; the three tail lengths interact with the quad counter and the padding stripping.",
  "src/utki/base64.cpp:base64_decode", "src/utki/base64.cpp:base64_decode_quad", "src/utki/base64.cpp:decode_table")
p("base64_decode inverts the unpadded base64 encoding",
  "For every byte string, base64_decode applied to its base64 encoding without the trailing '=' characters returns exactly that byte string.",
  "all byte strings of any length",
  "Unbounded input domain; the unpadded tails take code paths that the padded ones do not.",
  "src/utki/base64.cpp:base64_decode")
p("base64_decode: exact domain of definedness, exceptions and result size",
  "For every character string exactly one of the following happens, and which one is decided by the string alone: std::invalid_argument is thrown (iff the string is shorter than 4 and ends with '='); the behaviour is undefined (iff the string ends without '=' and its length is 1 modulo 4, or one of the characters looked up has its top bit set while char is signed); otherwise a byte vector is returned whose size is given by a closed formula of the string's length and number of stripped '='. In a debug build the length-1-modulo-4 case aborts instead. In particular 'base64_decode is memory safe for every input' is false of the code.",
  "all character strings, signed and unsigned char, debug and release builds",
  "The bad inputs are silent over-reads which a test normally does not observe; absence of further bad inputs needs all strings.",
  "src/utki/base64.cpp:base64_decode", "src/utki/base64.hpp:base64_decode")
p("base64_decode does not detect malformed input",
  "Characters outside the base64 alphabet are never reported: for every string the result is the same as for the string in which each such ASCII character is replaced with 'A'. A padded string whose length is not a multiple of 4 is accepted and up to the last 3 of its data characters are silently ignored.",
  "all strings",
  "The claim is about all malformed strings.",
  "src/utki/base64.cpp:base64_decode", "src/utki/base64.cpp:decode_table")
# ---------------------------------------------------------------- serialization
p("little-endian serialization",
  "serialize_le writes exactly sizeof(value) bytes at the given pointer, byte i being floor(value / 256^i) mod 256, returns the pointer just past them and leaves every other byte of memory unchanged; deserialize_le of those bytes returns the value, and serialize_le of a deserialized value reproduces the bytes. For 8/16/32/64 bit unsigned types.",
  "all values, all widths 1,2,4,8 bytes, all buffer contents and offsets",
  "2^64 values; tests sample one 64-bit value.",
  "src/utki/utility.hpp:serialize_le", "src/utki/utility.hpp:deserialize_le")
p("big-endian serialization",
  "The same as C05 for the big-endian functions, with byte i being floor(value / 256^(size-1-i)) mod 256; the big-endian bytes are the reverse of the little-endian bytes and no shift amount reaches the promoted type's width.",
  "all values, all widths 1,2,4,8 bytes, all buffer contents and offsets",
  "2^64 values; big-endian 32/64 bit variants are not tested at all.",
  "src/utki/utility.hpp:serialize_be", "src/utki/utility.hpp:deserialize_be")
p("float serialization preserves every bit pattern and has the IEEE 754 layout",
  "serialize_float_le/be write the 4 bytes of the IEEE 754 single precision pattern (sign, 8 bit exponent, 23 bit fraction) in the stated byte order, and deserialize_float_le/be return a float with the same three fields, including NaN payloads, infinities, subnormals and negative zero.",
  "all 2^32 float bit patterns",
  "Tests use eight finite values.",
  "src/utki/utility.hpp:serialize_float_le", "src/utki/utility.hpp:deserialize_float_le", "src/utki/utility.hpp:serialize_float_be", "src/utki/utility.hpp:deserialize_float_be")
p("deserializer: any sequence of reads consumes consecutive slices, never reads out of bounds, and a failed read has no effect",
  "For every buffer and every sequence of read_*/skip calls: a call returns iff enough bytes are left, in which case its result is determined by exactly the next bytes and the remaining size drops by exactly the requested size; otherwise it throws std::invalid_argument and the deserializer is unchanged. No call has undefined behaviour, and no assertion of span fires.",
  "all buffers (shorter than SIZE_MAX), all sequences of operations with arbitrary size_t arguments",
  "Histories of unbounded length and 64-bit length arguments (comparison overflow, sentinel value SIZE_MAX of subspan).",
  "src/utki/deserializer.cpp:deserializer", "src/utki/span.hpp:span::subspan")
p("deserializer reads back whatever the serialize functions wrote",
  "Serializing any list of integers, floats, strings and raw byte blocks one after another with the serialize functions and then reading it with the matching sequence of deserializer calls gives the same list back, whatever bytes follow, and leaves exactly the following bytes.",
  "all record lists, all trailing bytes",
  "Unbounded record lists.",
  "src/utki/deserializer.cpp:deserializer", "src/utki/utility.hpp:serialize_le", "src/utki/utility.hpp:serialize_be")
# ---------------------------------------------------------------- unicode
p("to_utf8(char32_t) is the UTF-8 encoding",
  "For every code point up to 0x7fffffff the returned array holds the (original, up to 6 byte) UTF-8 encoding followed by a zero byte, which for code points up to 0x10ffff is the RFC 3629 encoding; for larger values it holds the empty string. No write goes past the 7 byte array. Distinct code points have encodings neither of which is a prefix of the other.",
  "all 2^32 char32_t values",
  "2^32 inputs and a pairwise property.",
  "src/utki/unicode.cpp:to_utf8")
p("to_utf32 inverts to_utf8",
  "For every string of code points in 1..0x7fffffff, to_utf32(to_utf8(s)) = s, through the span overload as well as through the NUL-terminated-string overloads, without reading outside of the buffer.",
  "all code point strings of any length",
  "Unbounded strings over 2^31 characters.",
  "src/utki/unicode.cpp:to_utf8", "src/utki/unicode.cpp:to_utf32", "src/utki/unicode.cpp:utf8_iterator::operator++")
p("to_utf8 inverts to_utf32 on well-formed UTF-8",
  "For every byte string that is a concatenation of shortest-form UTF-8 sequences of non-zero code points, to_utf8(to_utf32(b)) = b.",
  "all well-formed byte strings",
  "Unbounded strings.",
  "src/utki/unicode.cpp:to_utf32", "src/utki/unicode.cpp:to_utf8")
p("utf8_iterator over a span: bounds, termination, and the exact set of inputs with undefined behaviour",
  "Iterating any byte span with utf8_iterator never reads outside of the span and reaches the end after at most size() increments; incrementing at the end stays at the end. The only undefined behaviour is an over-wide shift, and it occurs exactly when a sequence starting with a byte whose bits 0..6 without bit 6 are 0x3e or 0x3f (0xbe, 0xbf, 0xfe, 0xff) has all its 7 (8) bytes present; hence 'safe for every input' is false of the code.",
  "all byte spans, all iteration prefixes",
  "256^n malformed inputs; shift overflow is silent.",
  "src/utki/unicode.cpp:utf8_iterator", "src/utki/unicode.cpp:to_utf32")
p("utf8_iterator over a NUL-terminated string can run past the terminator",
  "On a NUL-terminated string the conversion stays inside the string (including terminator) if the string does not end inside a multi-byte sequence. When the last sequence is truncated and nothing follows the terminator, the behaviour is undefined, with one exception: the terminator completes the sequence and its value is then zero (for example a lone 0xc0). to_utf32(const std::string&) inherits this.",
  "all byte strings without zero bytes",
  "Over-read is silent in tests.",
  "src/utki/unicode.cpp:utf8_iterator", "src/utki/unicode.hpp:to_utf32")
p("zero code points and out-of-range code points are lost",
  "to_utf8 of a code point string equals to_utf8 of the string with all zero and all >0x7fffffff code points removed; to_utf32 of a span returns only the code points before the first sequence decoding to zero.",
  "all code point strings, all byte spans",
  "Unbounded inputs.",
  "src/utki/unicode.cpp:to_utf8", "src/utki/unicode.cpp:to_utf32", "src/utki/unicode.hpp:utf8_iterator::is_end")
# ---------------------------------------------------------------- strings
p("join after split is the identity; split is the unique delimiter-free decomposition",
  "split(s,d) is a non-empty list of strings not containing d, with one more element than s has occurrences of d, and join(split(s,d),d) = s.",
  "all strings over any character type, all delimiters",
  "Unbounded strings.",
  "src/utki/string.hpp:split", "src/utki/string.hpp:join")
p("split after join is the identity",
  "For every non-empty list of strings none of which contains d, split(join(l,d),d) = l; for the empty list join gives the empty string (whose split is one empty string).",
  "all lists of strings, all delimiters",
  "Unbounded lists.",
  "src/utki/string.hpp:split", "src/utki/string.hpp:join", "src/utki/views.hpp:skip_front")
p("split into words",
  "split(s) returns the maximal runs of non-whitespace characters of s in order, and nothing else, provided every char value is acceptable to std::isspace; for a string with a char in -128..-2 (signed char) the call is undefined behaviour.",
  "all strings",
  "Unbounded strings; undefined behaviour of isspace on negative values is silent.",
  "src/utki/string.cpp:split")
p("word_wrap: line width, no line breaks inside lines",
  "For width 0 the result is the single input string. For every other width every returned line has at most width characters and contains no newline.",
  "all strings, all widths",
  "Unbounded strings and widths; the state machine has three position variables and a flag.",
  "src/utki/string.cpp:word_wrap")
p("word_wrap: nothing but spaces and newlines is lost, nothing is reordered or invented",
  "The lines are consecutive, non-overlapping, in-order substrings of the input; every character of the input that is between two of them (or before the first or after the last) is a space or a newline. In particular the sequence of other characters is preserved exactly.",
  "all strings, all widths",
  "Unbounded.",
  "src/utki/string.cpp:word_wrap")
p("word_wrap: memory safety",
  "word_wrap never dereferences an end iterator, never forms a negative length, never throws, and none of its assertions fires.",
  "all strings, all widths",
  "Unbounded.",
  "src/utki/string.cpp:word_wrap")
p("word_wrap can break a word that fits in a line",
  "'A word not longer than width is never broken' is false: word_wrap(\"   abcd\",5) gives \"   ab\",\"cd\", and word_wrap(\"abc def\",3) gives \"abc\",\" de\",\"f\". It is true for a text whose lines are words separated by single spaces, when no word is longer than width and no word that is followed by a space is as long as width. If such a text has longer words, of lengths that are not multiples of width unless at the end of their line, then exactly these words are cut, into pieces of width characters and a rest.",
  "existential for the refutation; all such texts and all widths for the conditional part",
  "The exact condition quantifies over all inputs.",
  "src/utki/string.cpp:word_wrap")
p("trim, trim_front, trim_back",
  "trim_front (trim_back, trim) removes exactly the maximal whitespace prefix (suffix, both): the input is removed part(s) around the result, the removed parts are whitespace, and the result does not start (end, either) with whitespace.",
  "all strings",
  "Unbounded.",
  "src/utki/string.hpp:trim_front", "src/utki/string.hpp:trim_back", "src/utki/string.hpp:trim")
p("starts_with and ends_with",
  "In C++20 mode both decide prefix/suffix exactly, and so does starts_with in C++17 mode. In C++17 mode ends_with answers true only for suffixes, and answers true for a non-empty suffix iff the suffix has no earlier occurrence in the string; e.g. ends_with(\"abab\",\"ab\") is false, so the documented contract is violated.",
  "all pairs of strings, both language modes",
  "Unbounded; unit tests miss the repeated-suffix inputs.",
  "src/utki/string.hpp:starts_with", "src/utki/string.hpp:ends_with")
p("make_indentation",
  "make_indentation(depth,size) is depth tabs for size 0, otherwise (depth*size mod 2^32) spaces; hence depth*size spaces iff the product fits 32 bits.",
  "all pairs of unsigned values",
  "2^64 inputs; the wrap needs gigabytes of output to observe.",
  "src/utki/string.cpp:make_indentation")
p("make_string formats results of any length",
  "Whatever vsnprintf produces (any length, embedded zeros), make_string returns exactly that text, calling vsnprintf at most twice, never with a consumed va_list, never writing outside the buffer it passes; it throws std::logic_error iff vsnprintf reports an error. When it throws, make_string does not call va_end for the argument list it has started.",
  "all formatted results of length < 2^31, all formatting oracles obeying the C contract",
  "Lengths around the internal buffer size and state of va_list across calls.",
  "src/utki/string.cpp:make_string_va_list")
p("string_parser: every operation splits off a prefix; failures do not lose input",
  "For any sequence of operations on a string_parser, the remaining text is always a suffix of the original text; the text returned/skipped by an operation followed by the remaining text is the text before the operation; an operation that throws leaves the remaining text unchanged, except that read_number may have skipped leading whitespace. No operation reads outside of the text.",
  "all texts, all operation sequences",
  "Unbounded histories.",
  "src/utki/string.cpp:string_parser", "src/utki/string.hpp:string_parser")
p("string_parser: what each operation reads",
  "read_word returns the maximal prefix free of whitespace, read_word_until(c) free of whitespace and c, read_chars_until(c) free of c, read_chars(n) the first min(n,size) characters; skip_whitespaces removes exactly the maximal whitespace prefix, skip_whitespaces_and_comma the maximal whitespace prefix with at most one comma inside, skip_inclusive_until(c) everything up to and including the first c, skip_inclusive_until_one_of likewise for a set and reports which.",
  "all texts and arguments",
  "Unbounded.",
  "src/utki/string.cpp:string_parser")
p("to_string / read_number round trip for unsigned integers in every base",
  "For every unsigned type of 8..64 bits, every value and every base in {2,8,10,16}, read_number applied to (whitespace +) to_string(value,base) followed by any text that cannot continue the number returns value and leaves exactly that text.",
  "all values, widths, bases, trailing texts",
  "2^64 values times unbounded trailing texts.",
  "src/utki/string.hpp:to_string", "src/utki/string.hpp:string_parser::read_number")
p("to_string / read_number round trip for signed integers",
  "For signed types read_number inverts to_string in base 10 for every value including the most negative one; in the other bases exactly the values whose magnitude is below both 10 and the base are read back (to_string writes no base prefix for signed types and read_number reads decimal only).",
  "all values and widths, trailing texts",
  "2^64 values.",
  "src/utki/string.hpp:to_string", "src/utki/string.hpp:string_parser::read_number")
p("read_number on arbitrary text",
  "On any text: leading whitespace is skipped; std::invalid_argument is thrown iff no number follows; otherwise the longest numeric prefix in the detected base is consumed, and the result is its value if that fits the type and 0 otherwise. At least one character is consumed (the assertion does not fire).",
  "all texts, all integral widths, signed and unsigned",
  "Unbounded texts; overflow behaviour.",
  "src/utki/string.hpp:string_parser::read_number")
p("to_string output is canonical and never truncated",
  "to_string never fails for types up to 64 bits in bases 2, 8, 10, 16 (the 128 byte buffer always suffices), the digits denote the value, there is no superfluous leading zero after the prefix, and for a fixed base the function is injective.",
  "all values, widths and bases",
  "2^64 values.",
  "src/utki/string.hpp:to_string")
# ---------------------------------------------------------------- tree
p("forward traversal visits every node exactly once in pre-order",
  "For every forest, incrementing a traversal iterator from begin() visits the nodes in pre-order, each exactly once, and then equals end(); no step has undefined behaviour or fails an assertion.",
  "all finite forests of any shape",
  "Infinitely many tree shapes.",
  "src/utki/tree.hpp:traversal::iterator_internal::operator++", "src/utki/tree.hpp:traversal::begin", "src/utki/tree.hpp:traversal::end")
p("backward traversal is the exact reverse and ++/-- are inverse",
  "Decrementing from end() visits the nodes in reverse pre-order down to begin(); for every iterator to a node --(++i) = i, and for every iterator other than begin() ++(--i) = i; reverse iterators enumerate the reverse pre-order.",
  "all finite forests, all iterator positions",
  "Infinitely many tree shapes.",
  "src/utki/tree.hpp:traversal::iterator_internal::operator--", "src/utki/tree.hpp:traversal::rbegin", "src/utki/tree.hpp:traversal::rend")
p("index, make_iterator, is_valid and operator[] agree",
  "is_valid(ix) iff ix is the index of a node; make_iterator(ix) throws std::out_of_range iff some component is out of its list's range (the empty index is not rejected by make_iterator although is_valid rejects it); for valid ix, index() of make_iterator(ix) is ix, and dereferencing it gives the node addressed by ix.",
  "all forests, all index sequences",
  "Infinitely many.",
  "src/utki/tree.hpp:traversal::make_iterator_internal", "src/utki/tree.hpp:traversal::is_valid", "src/utki/tree.hpp:traversal::operator[]", "src/utki/tree.hpp:traversal::iterator_internal::index")
p("iterator comparison is the traversal order",
  "For two iterators of the same forest, a<b iff a's node comes before b's node in traversal order (end() being last), a==b iff they denote the same position, and >, <=, >= are consistent with these; no comparison of iterators into different containers takes place.",
  "all forests, all pairs of iterators",
  "Infinitely many; comparison of foreign container iterators is silent undefined behaviour.",
  "src/utki/tree.hpp:traversal::iterator_internal::operator<", "src/utki/tree.hpp:traversal::iterator_internal::operator==")
p("insert and insert_after",
  "insert(i,t) makes the traversal sequence of the forest the old one with t's nodes inserted right before i's node and returns an iterator to t whose index is the index i had; insert_after(i,t) inserts t's nodes right after the last node of i's subtree and returns an iterator to t. Nothing else changes.",
  "all forests, all positions including end(), all inserted trees",
  "Infinitely many.",
  "src/utki/tree.hpp:traversal::insert", "src/utki/tree.hpp:traversal::insert_after")
p("erase",
  "erase(i) removes exactly the nodes of i's subtree from the traversal sequence and returns an iterator to the node that followed them (or end()).",
  "all forests, all node positions",
  "Infinitely many.",
  "src/utki/tree.hpp:traversal::erase")
p("at_level terminates the program instead of throwing",
  "at_level(d) returns the ancestor at level d for d < depth(); for d >= depth() the program is terminated, because the documented std::out_of_range leaves a noexcept function.",
  "all forests, iterators and levels",
  "A terminating program fails the whole test run; all levels are quantified.",
  "src/utki/tree.hpp:traversal::iterator_internal::at_level")
# ---------------------------------------------------------------- sort
p("sort sorts in place",
  "In C++17 mode utki::sort(first,last,cmp) terminates for every range and every strict weak order cmp, leaves a sorted permutation in [first,last), does not touch elements outside the range and never accesses memory outside of it.",
  "all arrays, all subranges, all strict weak orders",
  "Unbounded arrays and arbitrary comparators.",
  "src/utki/sort.hpp:quick_sort", "src/utki/sort.hpp:partition", "src/utki/sort.hpp:sort")
p("sort with a reflexive comparator",
  "With a comparator that is reflexive on the elements (e.g. <=) the recursion of utki::sort in C++17 mode never ends on any range of two or more equal elements.",
  "all ranges of length >= 2 of elements equivalent under the comparator",
  "Non-termination cannot be observed by a finite test.",
  "src/utki/sort.hpp:quick_sort")
# ---------------------------------------------------------------- signal
p("signal: emit calls exactly the connected callbacks once each in connection order",
  "After any history of connect, disconnect and emit on a signal, emit invokes exactly the callbacks connected and not disconnected, each once, in the order of connection; size() and empty() agree with that; disconnecting one connection leaves the others valid.",
  "all histories of connect/disconnect/emit with callbacks that do not touch the signal",
  "Unbounded histories.",
  "src/utki/signal.hpp:signal")
p("signal: arguments seen by the callbacks",
  "Every callback of an emission receives the emitted arguments if the parameter type is a reference or copying and moving it leave the source unchanged; for a by-value parameter type whose move changes the source (std::string) only the first callback receives the emitted value, the others receive the moved-from value.",
  "all callback lists, all arguments, all parameter types modelled by their move operation",
  "The unit tests emit without arguments.",
  "src/utki/signal.hpp:signal::emit")
p("signal: callbacks that use the signal",
  "A callback connected during an emission is invoked in that same emission after all others; a callback disconnecting another, not yet invoked one prevents its invocation; a callback disconnecting itself (or the one being invoked) leads to undefined behaviour; a callback that connects a callback like itself makes the emission endless.",
  "all callback programs",
  "Use-after-free is silent; non-termination is unobservable.",
  "src/utki/signal.hpp:signal::emit", "src/utki/signal.hpp:signal::connect", "src/utki/signal.hpp:signal::disconnect")
# ---------------------------------------------------------------- spin_lock
p("spin_lock: mutual exclusion",
  "With every thread calling unlock only while holding the lock, at most one thread at a time is between a completed lock and the next unlock, in every interleaving of any number of threads; the flag is set exactly while some thread holds the lock.",
  "all numbers of threads, all schedules, all lengths",
  "Schedules cannot be enumerated.",
  "src/utki/spin_lock.hpp:spin_lock")
p("spin_lock: acquire/release ordering makes critical sections race free",
  "Under release/acquire semantics every access made in a critical section happens after all accesses made in all earlier critical sections, so data guarded by the lock is free of data races and a reader sees the last write. With either ordering weakened to relaxed this fails.",
  "all schedules, all thread programs accessing guarded data only under the lock",
  "Depends on hardware reordering not exhibited by x86 test runs.",
  "src/utki/spin_lock.hpp:spin_lock")
p("spin_lock: no deadlock, no fairness",
  "If the lock is free, any thread attempting to lock succeeds in its next step, so some waiting thread can always proceed; but there are infinite schedules in which a thread attempts for ever while others acquire infinitely often.",
  "all reachable states; existential for starvation",
  "Liveness over infinite schedules.",
  "src/utki/spin_lock.hpp:spin_lock")
# ---------------------------------------------------------------- flags
p("flags behaves as a set of enumerators",
  "Any sequence of flags operations is observationally the same as on the set of set flags: construction, set/clear/get/[], set all, clear all, invert, &, |, ^, ~ and their assignments, ==, !=, is_set, is_clear, size and the printed text.",
  "all enum sizes, all operation sequences",
  "2^n states for every n.",
  "src/utki/flags.hpp:flags")
p("flags: values outside of the enumeration",
  "set(flag,value) and clear(flag) with an out-of-range value change nothing (release build; they abort in debug build), construction from a list with one throws std::out_of_range, and get and operator[] with one are undefined behaviour (get aborts in debug build, but only for values past the end: a negative value of a signed underlying type passes its assertion).",
  "all enum sizes, all states, all out-of-range values",
  "Silent undefined behaviour.",
  "src/utki/flags.hpp:flags")
# ---------------------------------------------------------------- RAII / ownership
p("scope_exit runs its function at most once and never lets an exception out",
  "For any history of a scope_exit object the function given at construction is run by the scope_exit exactly once, at destruction, if it was not released before and is not null, and never otherwise; exceptions thrown by it are swallowed; release returns the function on its first call.",
  "all histories, all functions (returning or throwing)",
  "All exit paths.",
  "src/utki/utility.hpp:scope_exit")
p("singleton: at most one live instance",
  "In every history of constructing and destroying objects of a singleton class at most one is alive; constructing while one is alive throws std::logic_error and changes nothing; is_created tells whether one is alive and inst returns that one; after destruction a new one can be constructed.",
  "all histories",
  "Unbounded histories.",
  "src/utki/singleton.hpp:intrusive_singleton")
p("shared_ref is never null unless moved from, and keeps the object alive exactly as long as referenced",
  "In every history of creating, copying, assigning, converting, moving and destroying shared_refs, a shared_ref that was not moved from refers to a live object; an object is destroyed exactly when its last shared_ref goes away; use of a moved-from shared_ref is undefined behaviour (abort in debug build).",
  "all histories of any number of references",
  "Unbounded histories.",
  "src/utki/shared_ref.hpp:shared_ref", "src/utki/shared_ref.hpp:make_shared")
p("dynamic_reference_cast",
  "For a non-moved-from shared_ref it returns a shared_ref to the same object (sharing ownership) iff the object's dynamic type derives from the target type and throws std::bad_cast otherwise.",
  "all class hierarchies, all histories",
  "All hierarchies.",
  "src/utki/shared_ref.hpp:dynamic_reference_cast")
p("unique_ref is the only owner",
  "In every history of creating, moving, converting, assigning, releasing and destroying unique_refs, no two own the same object, a unique_ref that was not moved from refers to a live object, and an object is destroyed exactly when its owner is destroyed or overwritten.",
  "all histories",
  "Unbounded histories.",
  "src/utki/unique_ref.hpp:unique_ref")
# ---------------------------------------------------------------- span/views/utility
p("span: subspan, at, operator[], front, back",
  "at(i) returns element i or throws std::out_of_range; within bounds subspan(o,n) is the slice of n elements from o and subspan(o) the rest; an out-of-bounds subspan or operator[] aborts in debug; in release it silently yields a span reaching, or an element lying, outside of the span as long as that stays inside the underlying array, and is undefined behaviour beyond it; subspan never throws.",
  "all spans, offsets and counts (64-bit)",
  "2^128 argument pairs.",
  "src/utki/span.hpp:span::subspan", "src/utki/span.hpp:span::at", "src/utki/span.hpp:span::operator[]")
p("deep comparison of spans is a total order",
  "deep_equals decides element-wise equality and deep_less_than the lexicographic order; together with the derived comparisons they form a consistent total order when the element order is one.",
  "all spans over any element type with a total order",
  "Unbounded.",
  "src/utki/span.hpp:deep_equals", "src/utki/span.hpp:deep_less_than", "src/utki/span.hpp:deep_greater_or_equals", "src/utki/span.hpp:deep_greater_than", "src/utki/span.hpp:deep_less_or_equals")
p("overlaps",
  "For a non-empty span overlaps(s,p) holds iff p is the address of one of its elements; for an empty span the call forms a pointer before the buffer, which is undefined behaviour.",
  "all spans and pointers",
  "All addresses.",
  "src/utki/span.hpp:overlaps")
p("views: skip_front, reverse, zip",
  "Iterating skip_front<n>(c) yields the elements after the first n (undefined behaviour if there are less than n), reverse(c) the elements in reverse, zip(c1,...,ck) the tuples of i-th elements for i below the smallest size and never dereferences past the end of any collection.",
  "all collections, any number of zipped collections",
  "Unbounded.",
  "src/utki/views.hpp:skip_front", "src/utki/views.hpp:reverse", "src/utki/views.hpp:zip_view")
p("linq select, where, group_by, order_by",
  "select maps in order (with the element's index if asked), where keeps exactly the satisfying elements in order, group_by yields each key once in key order with its elements in original order and loses nothing, order_by yields a permutation sorted by key; the source lvalue is not changed. The functions take their arguments by const reference or value; a where predicate taking its parameter by value on an owned (rvalue) collection makes where keep moved-from elements. An aggregator that owns its collection and is used again holds moved-from elements in place of exactly those it gave away.",
  "all collections and functions",
  "Unbounded.",
  "src/utki/linq.hpp:linq_collection_aggregator")
p("flip_map",
  "For every map m, flip_map(m) maps v to k iff k is the first key (in m's order) with m[k]=v; if m's values are distinct flipping twice gives m back.",
  "all maps",
  "Unbounded.",
  "src/utki/utility.hpp:flip_map", "src/utki/utility.hpp:flip_pair")
p("next and prev advance by any size_t",
  "next(it,n) (prev(it,n)) returns the iterator n steps further (back), for every n including those exceeding the iterator's difference_type, terminating and never passing an unrepresentable difference to std::next/std::prev.",
  "all n below 2^64, all difference_type widths",
  "Needs more than 2^63 elements to test; the test file has a TODO for these functions.",
  "src/utki/utility.hpp:next", "src/utki/utility.hpp:prev")
p("contains",
  "contains(c,v) holds iff some element (for maps: some key) equals v.",
  "all containers and values",
  "Unbounded.",
  "src/utki/utility.hpp:contains")
p("version_duplet ordering",
  "to_uint32_t is injective and order preserving: a >= b iff a.to_uint32_t() >= b.to_uint32_t(), and a < b iff a.to_uint32_t() < b.to_uint32_t(); < is a strict total order. Printing a version gives its two numbers in decimal separated by a dot, so that different versions print differently.",
  "all pairs of versions",
  "2^64 pairs.",
  "src/utki/version.hpp:version_duplet")
p("tick counter differences survive wrap-around",
  "For two calls of get_ticks_ms the unsigned 32-bit difference of the results is the number of milliseconds between them modulo 2^32, hence exact for intervals shorter than 2^32 ms, wherever the wrap-around falls.",
  "all pairs of time points",
  "Needs 49 days of running.",
  "src/utki/time.cpp:get_ticks_ms")
p("pow2..pow6 and sign",
  "For unsigned types of at least int's width powN(x) = x^N modulo 2^width; for signed types of at least int's width powN(x) = x^N whenever representable and undefined otherwise; for int8_t, uint8_t and int16_t the result is always defined and is the power modulo 2^width; for uint16_t large arguments (for pow2 those above 46340) are undefined behaviour because of promotion to int; whatever is returned is the power modulo 2^width. sign(x) is -1 for negative and 1 for all other values.",
  "all integral types and values",
  "2^64 values; overflow is silent.",
  "src/utki/math.hpp:pow2", "src/utki/math.hpp:pow3", "src/utki/math.hpp:pow4", "src/utki/math.hpp:pow5", "src/utki/math.hpp:pow6", "src/utki/math.hpp:sign")
p("exception chains are printed completely and in order",
  "to_string(e,indent) and stacked_exception::to_string/what list every exception of the chain exactly once from the outermost to the innermost, one entry per line, for every chain of standard, foreign, throw_with_nested and stacked exceptions that has a nested exception at every nesting level, and current_exception_to_string(indent) does so with only the type name of the exception being handled; a chain whose innermost nested exception is missing terminates the program. Exceptions to this: current_exception_to_string of a stacked_exception prints only its type name; utki::throw_with_nested of a stacked_exception forgets the exception being handled; a stacked_exception wrapped by std::throw_with_nested inside of another one loses what it was wrapped around; with MSVC the type of an exception not derived from std::exception is printed as 'unknown exception'. An exception class that overrides to_string prints itself at the end of a stack; what it throws leaves stacked_exception::to_string, whereas what() never throws and then returns \"std::bad_alloc\" or \"error\".",
  "all chains of any length and mix of exception kinds",
  "Unbounded chains.",
  "src/utki/exception.cpp:to_string", "src/utki/exception.cpp:current_exception_to_string", "src/utki/exception.hpp:stacked_exception")
p("indentation of exception chains",
  "Each entry of a printed chain starts with the given indentation for chains made by std::throw_with_nested and for chains made by utki::throw_with_nested over an exception that is not a utki::exception; a utki::exception at the end of a chain of stacked exceptions is printed without indentation.",
  "all chains",
  "Unbounded chains.",
  "src/utki/exception.cpp:exception::to_string", "src/utki/exception.hpp:stacked_exception::to_string")
p("enum_iterable enumerates every enumerator once in order; enum_array is a total map",
  "Iterating enum_iterable visits the values 0..enum_size-1 in order exactly once; writing one element of an enum_array changes only that element's reading; zip_with_enum pairs each element with its own enumerator.",
  "all enum sizes and underlying types that can represent enum_size",
  "All enum types.",
  "src/utki/enum_iterable.hpp:enum_iterable", "src/utki/enum_array.hpp:enum_array")
p("debug and release builds agree wherever no assertion fails",
  "assert_always returns without effect iff its condition holds and otherwise prints the location and message and aborts (unless the function that prints the message throws: then nothing is printed and the exception leaves assert_always); in a release build ASSERT evaluates nothing. An operation of the library that in a debug build neither aborts nor does anything undefined has the same result in a release build.",
  "all conditions, messages, locations; all operations and sequences of operations with assertions",
  "All call sites.",
  "src/utki/debug.cpp:assert_always", "src/utki/debug.hpp:ASSERT")
p("uint_size and int_size give the smallest sufficient type",
  "For every n in 1..8 uint_size<n>::type (int_size<n>::type) is the unsigned (signed) type with the smallest of the sizes 1,2,4,8 that is at least n.",
  "n in 1..8 (the whole domain)",
  "Decidable by enumeration; listed for completeness of the numeric layer.",
  "src/utki/type_traits.hpp:uint_size", "src/utki/type_traits.hpp:int_size")

p("depth and is_last_child",
  "depth() of an iterator is the number of nodes on the way from its root down to it; is_last_child() is true iff the node is the last one of the list it is in, and false for end().",
  "all forests, all iterators",
  "All shapes and positions.",
  "src/utki/tree.hpp:iterator_internal::depth", "src/utki/tree.hpp:iterator_internal::is_last_child")
p("word_wrap fills lines greedily, but leaves a line that would be filled exactly",
  "For a text whose lines are words separated by single spaces (words that are followed by a space having lengths that are not multiples of width) the result is the following, line by line of the text: a word is put into the current line if a space and the word fit and, unless it is the last word of its line of the text, one more character would fit; otherwise it starts a new line. E.g. word_wrap(\"ab cd ef\",5) gives \"ab\",\"cd ef\" although \"ab cd\" has 5 characters.",
  "all such texts, all widths from 1 to 2^32-1",
  "Exact output for all texts of the class; needs induction over the text.",
  "src/utki/string.cpp:word_wrap")
p("weak pointers and make_shared_from",
  "In every history of shared references and weak pointers, locking a weak pointer gives the object it was made from while some shared_ref or std::shared_ptr refers to that object, and null afterwards; weak pointers do not keep objects alive; make_shared_from(o) on a referred-to object gives a shared_ref to that same object that shares ownership.",
  "all histories of any number of references and weak pointers",
  "Unbounded histories.",
  "src/utki/shared.hpp:make_weak", "src/utki/shared.hpp:make_shared_from", "src/utki/shared_ref.hpp:operator std::weak_ptr")
# ---------------------------------------------------------------- additions
p("erasing nodes while iterating",
  "The loop 'for(i = begin(); i != end();) if(pred(*i)) i = erase(i); else ++i;' over a traversal ends, removes exactly the nodes that satisfy pred together with everything below them, keeps the order and structure of all other nodes, and calls pred exactly once, in pre-order, for every node that has no removed ancestor.",
  "all forests, all predicates on nodes, debug and release builds",
  "Shapes and predicates are unbounded; each erase changes the structure the next step walks over.",
  "src/utki/tree.hpp:traversal::erase", "src/utki/tree.hpp:iterator_internal::operator++")
p("comparison of trees",
  "operator==(const tree&) is true iff both trees have the same shape and equal values at the same places; for an equality of values that is identity this is identity of trees. An exception of the comparison of two values terminates the program. operator==(const value&) compares the value of the node only.",
  "all trees, all equality relations on values",
  "All shapes; differing shapes with the same sequence of values.",
  "src/utki/tree.hpp:tree::operator==")
p("making spans, and what a span denotes",
  "For every valid span, iterating forwards or backwards visits exactly its elements in order or in reverse order, make_vector copies them, and operator<< writes them one after the other (what was written before an exception stays). make_span of a container gives a span of exactly the container's elements, which is null iff the container is empty, whatever data() of an empty container is; the constructors keep data(). A zero-terminated string gives the span of the characters before its first zero. size_bytes is size times the size of an element.",
  "all memories, spans, containers, element types",
  "Memory contents and positions are unbounded; data() of empty containers is unspecified.",
  "src/utki/span.hpp:make_span", "src/utki/span.hpp:make_vector", "src/utki/span.hpp:span", "src/utki/span.hpp:operator<<")
p("text and bytes: make_string, make_string_view, to_char, to_uint8_t, cat",
  "make_string of a span, array or vector of char or uint8_t is the string of exactly its bytes, zeros included; make_string_view refers to the same memory; to_uint8_t and to_char denote the same memory and the two views of a byte are equal modulo 256. cat is the concatenation of the texts of its arguments, each under the formatting left by the earlier ones, cut off after the first argument that makes the stream bad.",
  "all memories, spans and containers; all lists of arguments",
  "Unbounded contents; state that is carried from one argument to the next.",
  "src/utki/string.hpp:make_string", "src/utki/string.hpp:make_string_view", "src/utki/string.hpp:cat", "src/utki/span.hpp:to_uint8_t", "src/utki/span.hpp:to_char")
p("logging",
  "log with an empty function does nothing; otherwise it calls the function once and then flushes standard output, except that an exception of the function escapes without a flush. logcat appends the texts of its arguments, formatted with whatever formatting standard output has at that time (so, unlike cat, it depends on and changes the formatting of later output), and flushes. log_debug, logcat_debug, run_debug and LOG do the same in a debug build; in a release build LOG does not evaluate its argument, the functions evaluate theirs and do nothing else.",
  "all functions, arguments, states of standard output, debug and release builds",
  "Effects of arbitrary callbacks and of stream state.",
  "src/utki/log.cpp:log", "src/utki/log.hpp:logcat", "src/utki/debug.hpp:log_debug", "src/utki/debug.hpp:run_debug")
p("demangle neither leaks nor frees twice",
  "demangle returns the demangled name, or the given name when demangling fails, and leaves the heap of malloc as it was, also when building the resulting string throws.",
  "all names, all behaviours of __cxa_demangle within its contract, every point of memory exhaustion",
  "Needs every failure of the demangler and of allocation.",
  "src/utki/debug.cpp:demangle")
p("index_of and offset_sequence",
  "index_of<T, std::variant<...>> compiles iff T occurs exactly once among the alternatives, and then is its position. offset_sequence has as many indices and each is the original one plus the offset.",
  "all lists of types, all sequences and offsets",
  "Every instantiation is a separate program.",
  "src/utki/variant.hpp:index_of", "src/utki/utility.hpp:offset_sequence")
p("type predicates",
  "remove_const_reference is std::remove_cvref exactly for types that are not volatile (so it is no drop-in replacement); remove_const_pointer strips one pointer and the constness of what it points to; is_specialization_of holds exactly for unqualified specializations of the template, not for const or reference types; is_scoped_enum holds exactly for scoped enumerations with any qualifiers; is_type_defined and type_or_void see exactly an accessible member 'type'.",
  "all types built from fundamental types, enumerations, pointers, references, qualifiers and specializations",
  "Every instantiation is a separate program.",
  "src/utki/type_traits.hpp:remove_const_reference", "src/utki/type_traits.hpp:is_specialization_of", "src/utki/type_traits.hpp:is_scoped_enum", "src/utki/type_traits.hpp:type_or_void")
p("the decimal to binary core of fast_float is correctly rounded",
  "For every 64-bit w and every exponent q, the bits that to_float makes of compute_float(q, w) are those of the double (float) nearest to w*10^q, ties to the even pattern; numbers from halfway between the largest finite number and the next power of two on give infinity, numbers up to half of the smallest positive one give zero. Nothing undefined happens (table accesses, shifts).",
  "all w < 2^64, all exponents, both formats and signs, all platforms",
  "2^64 mantissas times 651 exponents; the algorithm relies on a table of truncated powers of five being precise enough in every case.",
  "src_deps/fast_float/fast_float.h:compute_float", "src_deps/fast_float/fast_float.h:compute_product_approximation", "src_deps/fast_float/fast_float.h:to_float")
p("portable multiplication and bit counting of fast_float",
  "leading_zeroes gives the number of zero bits before the first one bit, and full_multiplication the low and high half of the 128-bit product, on every platform; leading_zeroes_generic and umul128_generic, used where the compiler has no builtins, give the same results as the builtins for all arguments.",
  "all 64-bit arguments (non-zero for the bit count), all platforms",
  "2^64 and 2^128 arguments.",
  "src_deps/fast_float/fast_float.h:leading_zeroes_generic", "src_deps/fast_float/fast_float.h:umul128_generic")
p("eight digits at a time",
  "The word-parallel test of fast_float accepts exactly the eight-character texts that consist of digits, for signed and all other values of char, and the word-parallel conversion gives the number that the eight digits denote, on little-endian and big-endian processors.",
  "all eight-character texts, both byte orders",
  "2^64 words; carries between bytes matter only for rare neighbours.",
  "src_deps/fast_float/fast_float.h:is_made_of_eight_digits_fast", "src_deps/fast_float/fast_float.h:parse_eight_digits_unrolled")
p("Clinger's fast path is correctly rounded in every rounding mode",
  "Whenever from_chars uses its fast path (one floating-point operation on exact operands), the result is the double (float) nearest to mantissa*10^exponent, ties to even, whatever the rounding mode of the thread is. This is so also where floating-point expressions are evaluated in double or in the 80-bit long double and rounded a second time. The run-time test of the rounding mode holds exactly for round to nearest, where it is made (not if expressions are evaluated in long double); no table is accessed out of bounds.",
  "all mantissas and exponents, the four rounding modes, both formats and signs, all platforms (FLT_EVAL_METHOD 0, 1 and 2)",
  "Needs every mantissa and exponent in every rounding mode.",
  "src_deps/fast_float/fast_float.h:from_chars_advanced", "src_deps/fast_float/fast_float.h:rounds_to_nearest", "src_deps/fast_float/fast_float.h:exact_power_of_ten")
p("big integers of fast_float are exact",
  "The integers of up to 3968 bits that fast_float uses for long numbers compute exactly: addition and multiplication of a one-limb number, multiplication, multiplication by powers of 2, 5 and 10 whenever the result is below 2^3968, comparison, length in bits, and the leading 64 bits together with whether any of the other bits is one. Results have no leading zero limb, and no limb is accessed out of bounds. This holds with 64-bit limbs and with 32-bit limbs, with and without __uint128_t and __builtin_add_overflow.",
  "all integers below 2^3968, all exponents, all platforms",
  "Carries through up to 125 limbs; 2^3968 values.",
  "src_deps/fast_float/fast_float.h:large_mul", "src_deps/fast_float/fast_float.h:small_add_from", "src_deps/fast_float/fast_float.h:small_mul", "src_deps/fast_float/fast_float.h:bigint")
p("numbers with more than nineteen digits are rounded correctly",
  "For a number of any number of digits of which only the first nineteen significant ones fit in the mantissa, compute_error followed by digit_comp gives the double (float) nearest to the exact number, ties to even. 769 digits (114 for float) and the knowledge whether any further digit is not zero determine the result.",
  "all texts of digits of any length, all decimal exponents, both formats and signs, all platforms",
  "Unboundedly many digits; the interesting numbers are within 10^-700 of halfway between two neighbours.",
  "src_deps/fast_float/fast_float.h:digit_comp", "src_deps/fast_float/fast_float.h:positive_digit_comp", "src_deps/fast_float/fast_float.h:negative_digit_comp", "src_deps/fast_float/fast_float.h:compute_error", "src_deps/fast_float/fast_float.h:parse_mantissa")
p("fast_float::from_chars reads the longest number and rounds it correctly",
  "from_chars finds the longest beginning of the text that is a number in the grammar of the format (or one of the names of infinity and nan), leaves exactly the rest, and stores the nearest double (float) of the exact number, ties to even, with the sign; the error code says exactly whether the number was rounded to infinity, or to zero without being zero. If there is no such beginning it reports invalid_argument, leaves the whole text and stores nothing. For numbers whose explicit exponent is beyond 2^28 and whose text has about 2^28 characters the value is not specified, but nothing undefined happens and the rest is right.",
  "all texts, formats, rounding modes, both types, all platforms",
  "All texts of any length; 2^64 results.",
  "src_deps/fast_float/fast_float.h:from_chars", "src_deps/fast_float/fast_float.h:from_chars_advanced", "src_deps/fast_float/fast_float.h:parse_number_string", "src_deps/fast_float/fast_float.h:parse_infnan")
p("laws of reading floating point numbers",
  "The result of from_chars does not depend on the rounding mode of the thread nor on the platform: width of the limbs, byte order, builtins of the compiler, FLT_EVAL_METHOD. A text of a larger number is not read as a smaller one. A text that denotes a number of the format exactly is read as that number. Any double (float) written with seventeen (nine) correctly rounded significant digits is read back as itself, which is not so for sixteen.",
  "all texts, rounding modes, platforms, all pairs of numbers, all floating point numbers",
  "Pairs of texts; 2^64 numbers.",
  "src_deps/fast_float/fast_float.h:from_chars")
p("explicit exponents are cut off",
  "fast_float stops accumulating the explicit exponent once it has reached 2^28: it is replaced by a number of the same sign between 2^28 and itself, and the rest of the conversion is exact for that number. So the claim that every text is rounded correctly is false: 0.00...01e10000000000 with 10^10-1 zeros denotes 1 and is read as zero with a range error.",
  "all texts",
  "The shortest wrong texts have hundreds of millions of characters.",
  "src_deps/fast_float/fast_float.h:parse_number_string")
p("utki::from_chars for float, double and long double",
  "Reads the longest number in the grammar of the format: scientific requires an exponent, fixed leaves it, general takes it if there is one. The value is the nearest float, or double; a long double has the value of the nearest double. A range error writes infinity or zero to a float or double and leaves a long double alone. Hexadecimal digits are not read in the format hex, which behaves like fixed, and a long double is not the nearest one. Nothing of this depends on the rounding mode of the thread or on the platform.",
  "all texts, formats, types, rounding modes, platforms",
  "All texts.",
  "src/utki/string.cpp:from_chars", "src/utki/string.cpp:to_fast_float_format")
p("string_parser::read_number for float, double and long double",
  "Skips white space and reads the longest number; returns its nearest float or double and leaves what follows the number. If there is none it throws invalid_argument after the white space. Numbers beyond the range, large ones as well, are returned as zero.",
  "all texts, types, rounding modes, platforms, debug and release builds",
  "All texts.",
  "src/utki/string.hpp:string_parser::read_number")
p("The constants pi, two_pi and log_2",
  "pi, two_pi and log_2 are the doubles nearest to the real numbers pi, 2 pi and ln 2: every other finite double is farther away. Converted to float they are the nearest floats. Converted to long double, pi is not the nearest long double.",
  "one statement about real numbers per constant; all other numbers of the format",
  "The real numbers are not computable values; a test compares with another rounded constant.",
  "src/utki/math.hpp:pi", "src/utki/math.hpp:two_pi", "src/utki/math.hpp:log_2")
p("deg_to_rad and rad_to_deg for floating point numbers",
  "In the nearest rounding mode, for a finite float or double whose conversion does not overflow, the result has the sign of the argument and is within 5/2 roundoffs of the exact angle (x pi / 180, or 180 x / pi) plus the smallest positive number; for long double within 2^-54 of it, and not within 500 roundoffs. NaN, infinities and zeros are kept. The conversions are monotone. They overflow exactly above the largest number divided by pi and by 180, although the angle in radians is representable. Converting to radians and back changes a number by at most 9/2 roundoffs, and is not the identity. Rounding down, the radians of a double that is not negative are not above the exact angle, and rounding up, the degrees are not below it; the other two bounds are false.",
  "all floats, doubles and long doubles",
  "There are 2^64 doubles, and the exact angles are irrational.",
  "src/utki/math.hpp:deg_to_rad", "src/utki/math.hpp:rad_to_deg")
p("deg_to_rad and rad_to_deg for integers",
  "With an integral number_type pi is 3. As long as the product is representable, deg_to_rad gives a sixtieth truncated towards zero and rad_to_deg 60 times the argument. Otherwise it is a signed overflow for signed types from int on, is calculated modulo 2^bits for unsigned ones, and the result of rad_to_deg is reduced modulo 2^bits for narrower types. In int8_t, which does not represent 180, deg_to_rad gives results of the opposite sign; for unsigned int it is not monotone.",
  "all integral types of 32 bits or more, of 16 bits or less; all values",
  "All values of 64-bit types.",
  "src/utki/math.hpp:deg_to_rad", "src/utki/math.hpp:rad_to_deg")
p("pow2 to pow6 and sign for floating point numbers",
  "In the nearest rounding mode the power of a finite number has the sign of the exact power, and is infinite or within (1 + roundoff)^(k-1) - 1 of it relatively, plus three times the smallest positive number. It is finite if the exact power times (1 + roundoff)^(k-2) is representable. Powers of integers that fit into the mantissa are exact in every rounding mode. The odd powers are monotone, the even ones are in the absolute value. NaN gives NaN and infinities give infinities. The result is not always the nearest number. For numbers that are not negative, the results of rounding down and up enclose the exact power; for negative ones this is false. sign is -1 for the numbers below zero and 1 for all others, NaN and the negative zero included.",
  "all floats, doubles and long doubles; exponents 2 to 6",
  "There are 2^64 doubles.",
  "src/utki/math.hpp:pow2", "src/utki/math.hpp:pow3", "src/utki/math.hpp:pow4", "src/utki/math.hpp:pow5", "src/utki/math.hpp:pow6", "src/utki/math.hpp:sign")
p("bit masks and units",
  "For every integer x, x & bit_i_mask is 2^i if bit i of x is set and 0 otherwise; x & byte_mask is x modulo 256, x & lower_nibble_mask is x modulo 16 and x & upper_nibble_mask is the upper nibble of the byte in place. byte_bits and nibble_bits are the widths of these masks. cm_per_inch and mm_per_inch are the doubles nearest to 2.54 and 25.4.",
  "all integers, signed and unsigned, of any width",
  "All integers.",
  "src/utki/type_traits.hpp:byte_bits", "src/utki/type_traits.hpp:byte_mask", "src/utki/type_traits.hpp:lower_nibble_mask", "src/utki/type_traits.hpp:upper_nibble_mask", "src/utki/utility.hpp:mm_per_inch")
p("is_terminal_cerr, is_terminal_cout and is_terminal_cin",
  "Each of the three functions returns true exactly if the descriptor of its own stream is open and refers to a terminal; the deprecated names return the same.",
  "all processes: any descriptors of the streams, any open files",
  "A test runs with one set of standard streams.",
  "src/utki/utility.cpp:is_terminal_cerr", "src/utki/utility.cpp:is_terminal_cout", "src/utki/utility.cpp:is_terminal_cin")
p("sort: comparators that throw, have effects or are inconsistent",
  "In C++17 mode, whatever the comparator does and answers, utki::sort touches nothing outside of its range, never accesses memory outside of it, and leaves every element of the range in the range exactly once, also when a comparison or the copying of an element throws; such a failure ends it at once and is the only way for it to fail. Only elements of the range are compared, never moved-from ones. If no element is ever said to be before itself it terminates. If it returns and the answers were those of a strict weak order the range is sorted.",
  "all element types and comparators with arbitrary effects and outcomes, every point at which they may throw, all arrays and subranges",
  "A test throws at a few points and uses consistent comparators.",
  "src/utki/sort.hpp:quick_sort", "src/utki/sort.hpp:partition", "src/utki/sort.hpp:iter_swap", "src/utki/sort.hpp:find_if_not", "src/utki/sort.hpp:sort")
p("sort: number of comparisons",
  "In C++17 mode utki::sort makes at most n(n+1)-2 comparisons on a range of n >= 1 elements. For every n there is an array of n different elements for which it makes that many and for which its recursion is n calls deep, so that it does not keep to the O(n log n) of std::sort, whose drop-in replacement it is documented to be.",
  "all arrays, all irreflexive comparators; all n",
  "A bound for all lengths, and an adversarial input for every length.",
  "src/utki/sort.hpp:quick_sort", "src/utki/sort.hpp:sort")
p("copies of a signal have the callbacks but not the connections",
  "Copying, assigning and moving from a signal (moving copies, as the class has no move operations) give the target the callbacks of the source in the same order, leave the source and all other signals as they are, and call nothing; afterwards what is done to one does not reach the other, and emitting the copy calls its callbacks in order up to the first that throws. No connection made before can be disconnected from the copy (undefined behaviour), and the copied callbacks can never be disconnected by any program: until the copy is assigned to or destroyed it has them, and in a debug build its destruction aborts if there is any.",
  "all programs over any number of signals, callbacks that throw or not, debug and release",
  "That no program whatsoever can empty a copied signal is a statement about all continuations.",
  "src/utki/signal.hpp:signal", "src/utki/signal.hpp:signal::disconnect", "src/utki/signal.hpp:signal::~signal", "src/utki/signal.hpp:signal::emit")
p("config.hpp: operating system and compiler",
  "Whatever the compiler predefines, config.hpp is accepted, changes no macro other than CFG_*, DLLEXPORT and UTKI_CPP_STANDARD, and defines all the constants to compare with. CFG_OS, CFG_OS_NAME and CFG_COMPILER are defined and equal exactly one of these constants, as the predefined macros say in the documented order of precedence; the name belongs to the family its comment says (iOS to macOS, Android to Linux, Solaris, FreeBSD and Emscripten to Unix). The version macros are there exactly for the compilers they describe.",
  "all sets of predefined macros in which those that are compared are numbers",
  "A test is compiled by one compiler for one system.",
  "src/utki/config.hpp:CFG_OS", "src/utki/config.hpp:CFG_OS_NAME", "src/utki/config.hpp:CFG_COMPILER")
p("config.hpp: language edition",
  "CFG_CPP is the edition of the language: the newest of 11, 14, 17, 20 whose predecessor's __cplusplus (_MSVC_LANG with MSVC) the compiler's exceeds, 3 if there is none. It never decreases as that value grows, and it never exceeds 20, so that code under CFG_CPP >= 26, such as std::span in span.hpp, is never compiled.",
  "all sets of predefined macros, all values of __cplusplus, also of future compilers",
  "Values of compilers that do not exist yet.",
  "src/utki/config.hpp:CFG_CPP", "src/utki/span.hpp:span")
p("config.hpp: processor",
  "CFG_CPU, CFG_CPU_BITS, CFG_CPU_VERSION and CFG_CPU_ARM_THUMB_VERSION are what the predefined macros say; CFG_CPU and CFG_CPU_BITS always go together. CFG_CPU_VERSION is not defined with Emscripten. With clang other than Emscripten the processor is never recognised, whatever it is.",
  "all sets of predefined macros",
  "A test runs on one processor with one compiler.",
  "src/utki/config.hpp:CFG_CPU", "src/utki/config.hpp:CFG_CPU_BITS", "src/utki/config.hpp:CFG_CPU_VERSION")
p("config.hpp: byte order and export of symbols",
  "CFG_ENDIANNESS is little on Windows and Emscripten; elsewhere it is big exactly if some predefined macro says big, little exactly if one says little and none says big, unknown otherwise. As the order of words of floating point numbers counts too, it is not always the byte order of integers. DLLEXPORT is dllexport or dllimport, depending on _USRDLL, with MSVC on Windows, and empty elsewhere.",
  "all sets of predefined macros",
  "A test runs on one processor with one compiler.",
  "src/utki/config.hpp:CFG_ENDIANNESS", "src/utki/config.hpp:DLLEXPORT")
p("windows.hpp keeps winsock.h out and cleans up",
  "On Windows, whether winsock.h was included before or not, windows.hpp includes windows.h in such a way that it does not include winsock.h, leaves the include guards of winsock.h as they were, so that either of winsock.h and winsock2.h can be included later, and leaves no macro max, min or DELETE. Elsewhere it does nothing beyond config.hpp.",
  "all windows.h that honour the guards, all macros defined before",
  "A test includes headers in one order.",
  "src/utki/windows.hpp:_WINSOCKAPI_", "src/utki/windows.hpp:_WINSOCK_H")
p("linq: functions are called once per element, in order, up to the first failure",
  "select, where and group_by call the function exactly once for each element, in the order of the collection, and stop at the first call (or copy of an element) that throws; the exception reaches the caller. Elements behind it are untouched, and what is left of those before it is exactly known. order_by gives a permutation sorted by the function, or ends the way some call of the function or copy ended. A collection of the caller is the same afterwards whatever happens. Elements of an owned collection are never copied, except for a group_by function that takes its argument by value.",
  "all collections, functions and copy constructors with arbitrary effects and exceptions, both kinds of ownership and of parameters",
  "Tests use pure functions that never throw, and types that can always be copied.",
  "src/utki/linq.hpp:select", "src/utki/linq.hpp:where", "src/utki/linq.hpp:group_by", "src/utki/linq.hpp:order_by")
p("make_shared_from and make_weak_from over the whole life of an object",
  "While some shared_ref or std::shared_ptr owns an object, make_shared_from gives another owner of that very object and changes nothing else; while none does - in its constructor, in its destructor, for automatic and member objects, for copies of owned objects - it throws std::bad_weak_ptr and changes nothing. make_weak_from does the same for classes derived from utki::shared; for those derived from std::enable_shared_from_this it never throws, and what it gives for an object without owner never leads to an object, even if that object is owned later. Weak pointers give the object exactly while it is owned and once expired stay so. Owned objects are complete, and the destructor is entered when the last owner goes.",
  "all histories of objects, owners and weak pointers, all class hierarchies, debug and release builds",
  "Depends on where in the life of an object the call happens, and on all owners before.",
  "src/utki/shared.hpp:make_shared_from", "src/utki/shared.hpp:make_weak_from", "src/utki/shared.hpp:shared")
p("References compare as their objects",
  "Comparing a shared_ref or unique_ref with an object or another reference by < and == compares the objects, not the addresses; references to different but equal objects are equal; the order of references is a strict weak order if that of the objects is, so they can be kept in ordered containers. A moved-from reference is caught by the assertion (a null dereference without it). A comparison of objects that throws ends the program.",
  "all types with comparison operators that may throw, all references",
  "Ranges over all comparison operators.",
  "src/utki/shared_ref.hpp:operator<", "src/utki/shared_ref.hpp:operator==", "src/utki/unique_ref.hpp:operator<", "src/utki/unique_ref.hpp:operator==")
p("spin_lock in the memory model of C++, without interleaving",
  "In every execution that the C++ memory model allows, of two calls of lock that returned one was followed by its unlock before the other returned, and that unlock happens before the other acquisition. So there is no data race on data accessed between lock and unlock, and each read there yields the last write. Mutual exclusion holds with any memory orders; the rest needs acquire in lock and release in unlock: with any other pair the model allows a data race.",
  "all finite and infinite executions of any number of threads that satisfy the coherence and atomicity rules of the flag, with arbitrary further synchronization",
  "Needs reasoning about executions of the memory model that no interleaving and no particular processor shows.",
  "src/utki/spin_lock.hpp:lock", "src/utki/spin_lock.hpp:unlock")
p("overloaded calls the functor written for the alternative",
  "With functors that take T, const T&, auto or const auto&, no type twice and at most one generic one, std::visit passes each alternative to the functor written for its type, or to the generic one if there is none - whatever implicit conversions exist between the alternatives, whatever the order of the functors, for const and non-const lvalue and rvalue variants. A functor taking T by value wins over every generic one; one taking const T& loses to auto& and auto&& exactly in the cases listed. Without generic functor an alternative goes to the functor with the best conversion. Two functors for the same type do not compile. Among several generic functors that take references, which one is called follows from the constness and value category of the variant; auto beside another generic functor that can take the argument is ambiguous. The same holds for functors that take T&, const T& and T&& together with generic ones: constness and value category of the variant decide. An lvalue is never passed to T&&, nor a converted object to T&.",
  "all lists of functors with the eight usual parameter declarations, all types and implicit conversions, all variants",
  "Ranges over all types with all conversions between them; the selection happens at compile time.",
  "src/utki/variant.hpp:overloaded")
p("signal emitted by its own callbacks",
  "Callbacks may emit the signal while it is emitted, to any depth, catch the exceptions that come out of this, connect and disconnect. In each of these emissions callbacks are invoked in the order of connection, none twice, only those connected at the time, and all that are connected at its end if it ends normally. It ends with an exception exactly if a callback does not catch or throws one, and the behaviour is undefined exactly if a callback is no longer connected when it returns or disconnects what is not connected. If every callback starts by emitting, the emission never ends.",
  "all callbacks made of connections, disconnections, emissions, exceptions and state of the program; all depths of nesting",
  "Ranges over all programs of callbacks; tests emit from outside only.",
  "src/utki/signal.hpp:emit", "src/utki/signal.hpp:connect", "src/utki/signal.hpp:disconnect")
p("singleton at the end of the program",
  "Exactly when a program with a singleton ends well: no automatic singleton object is left when std::exit is called, no singleton object with static storage duration is initialized before the static instance pointer, other static objects initialized before it do not use it in their destructors, and those that call inst there are destroyed before the object is. An object left on the heap is deleted at the end, by the destructor of the std::unique_ptr; with assertions, and a standard library that clears the pointer first, that aborts the program. An automatic object left by std::exit, or a static one initialized too early, is deleted as well, which is undefined behaviour. The documented use, an automatic object in main, always ends well.",
  "all programs that initialize static objects, make and destroy singleton objects of every storage duration in any order; debug and release builds; standard libraries that clear the pointer before or after deleting",
  "Depends on the order of initialization of static objects, which is not specified, and happens after main.",
  "src/utki/singleton.hpp:intrusive_singleton", "src/utki/singleton.hpp:singleton")
p("Iterators kept while a tree changes",
  "The iterators returned by insert, insert_after and erase are valid in the changed tree and stand where C37 and C38 say. Of the other iterators, with children in std::vector, exactly those stay valid whose path does not go through the container changed, or goes through an element that does not move (before the place of the change, and no reallocation). One that stood at an element that moved or was erased is undefined in every use; one below an element that moved still gives its node, but moving it is not safe. With children in std::list all iterators except those into the erased subtree stay valid and stand at the same nodes.",
  "all forests, all positions of insertion and erasure, all other iterators, containers std::vector with and without reallocation and std::list",
  "Using an invalid iterator often seems to work; the iterators in question are all combinations of two positions in all trees.",
  "src/utki/tree.hpp:insert", "src/utki/tree.hpp:insert_after", "src/utki/tree.hpp:erase", "src/utki/tree.hpp:operator++")
p("Where the string views of string_parser and trim point",
  "The views returned by read_word, read_word_until, read_chars and read_chars_until are consecutive, disjoint pieces of the string given to the parser, nothing is copied; in any program that leaves that string alone they show the same text for ever, whatever happens to the parser and to other strings. Afterwards the parser points behind what was taken off, except that read_word, read_word_until and read_chars_until leave a null view at the end. When the string is gone and characters are left, every operation is undefined, except read_chars, which returns a view that cannot be read, and peek_char(n) past the end, which throws. trim, trim_front and trim_back return the piece of their argument.",
  "all memories, views, and programs of calls mixed with changes of memory",
  "Reading freed memory often gives the old text; programs are unbounded.",
  "src/utki/string.cpp:string_parser::read_word", "src/utki/string.cpp:string_parser::read_chars", "src/utki/string.cpp:string_parser::read_chars_until", "src/utki/string.hpp:trim", "src/utki/string.hpp:read_number")
p("Logging, assertions and demangle on Android and with the Microsoft compiler",
  "utki::log with a function that only appends to its stream goes on alike on Android and elsewhere. Elsewhere the text is on standard output as far as the function got; on Android it becomes exactly one entry of the system log, up to the first zero character, and there is none when the function throws. logcat starts with the default formatting there, so its text is that of cat. assert_always ends alike; the line on standard error is one fatal entry instead, without the line end and up to the first zero. demangle with the Microsoft compiler takes one 'class ' off the front and changes nothing else.",
  "all printing functions, states, conditions, locations and names",
  "The tests run on one platform; the other branches are never compiled there.",
  "src/utki/log.cpp:log", "src/utki/debug.cpp:assert_always", "src/utki/debug.cpp:demangle", "src/utki/log.hpp:logcat")
p("Loops that erase nodes while they walk over a tree, in memory",
  "The loop 'for(i = begin(); i != end();) if(...) i = erase(i); else ++i;' over trees in vectors and in lists never uses an invalid iterator; it is the recursive walk over the tree, with the effects of the decisions in the same order, also when a decision throws or leaves the loop: the nodes not yet reached stay. With end() called once before the loop that is still so for lists; for vectors the first erasure of a root makes the loop undefined, erasures further down do not. insert and insert_after of a node of the tree itself, given by a const reference, insert a copy of what it was before, also into its own subtree.",
  "all forests, deciding functions with any effects and outcomes, containers, builds",
  "Stale iterators often seem to work; decisions and forests are unbounded.",
  "src/utki/tree.hpp:erase", "src/utki/tree.hpp:end", "src/utki/tree.hpp:insert", "src/utki/tree.hpp:insert_after", "src/utki/tree.hpp:operator++")
p("Loops over views with bodies that change the collections",
  "A range-based for loop over skip_front<n>(c), reverse(c) or zip(c1,...,cn) runs its body for the references of the elements in the order of C58, until the body leaves the loop or fails, if the body keeps valid what the iterators stand for: for skip_front and zip the current elements and what follows them, for reverse what comes up to the element visited before (so erasing the current element of a list in a loop over reverse() passes over the next one). Bodies may write to all elements, and the same collection may be given to zip several times. A body that goes on after it has invalidated the current place makes the loop undefined. zip looks at the sizes when the view is made: collections that grow afterwards are visited up to the old smallest size, one that has shrunk below it makes the loop undefined.",
  "all collections, bodies with any effects and outcomes, sizes, numbers of collections",
  "Bodies, sizes and the moments of invalidation are unbounded; stale iterators often seem to work.",
  "src/utki/views.hpp:skip_front", "src/utki/views.hpp:reverse", "src/utki/views.hpp:zip_view", "src/utki/views.hpp:zip")
p("Exception texts in a process that runs out of memory",
  "Whichever allocations fail, utki::to_string, stacked_exception::to_string and current_exception_to_string throw std::bad_alloc or return the text they return with enough memory, or what is left of it: parts are cut off, a demangled name is the mangled one, or the text of a stacked_exception inside is std::bad_alloc. No call ends the program that does not with enough memory. what() of a stacked_exception never throws: for a complete chain it gives the text of C66, damaged at most in this way. The damage can be silent: a failure inside an insertion into a stream sets badbit, which nothing looks at, so a text with exceptions of the chain missing is returned.",
  "all chains of exceptions, indentations, sequences of failing allocations, compilers",
  "Failing allocations have to be provoked at every one of the unboundedly many places of a chain; tests run with enough memory.",
  "src/utki/exception.hpp:stacked_exception::what", "src/utki/exception.hpp:stacked_exception::to_string", "src/utki/exception.cpp:to_string", "src/utki/exception.cpp:current_exception_to_string", "src/utki/debug.cpp:demangle")
p("Lifetime of the pointers that what() returns",
  "The pointer that what() of a stacked_exception returns can be read, and shows the text of C66, until a call asks the same exception for its what() again; from then on it dangles and reading it is undefined, although what() is a const member function and std::exception promises a pointer that stays valid. Calls that ask: what() and utki::to_string of the exception itself, and printing an exception that holds it by std::throw_with_nested; its to_string(), and what() and to_string() of stacked_exceptions over it, do not. A call writes to the descriptions of the exceptions it asks and to no others, so two threads that hold the same exception race exactly when both ask it. The library itself reads such pointers only while they are valid.",
  "all objects and chains, sequences of calls with any indentations, compilers",
  "Buffers given back usually keep their contents for a while, so a dangling pointer shows the right text in tests.",
  "src/utki/exception.hpp:stacked_exception::what", "src/utki/exception.hpp:stacked_exception::to_string", "src/utki/exception.cpp:to_string", "src/utki/exception.cpp:current_exception_to_string")
p("contains with search trees, hash tables and comparisons that have effects",
  "For a std::map, whatever the shape of its tree, contains answers whether there is an equivalent key, with at most one comparison more than the tree is high. For a std::unordered_map, after any insertions, erasures and rehashes, it answers whether an equal key has been inserted and not erased since, provided that equal keys have equal hashes (without this the answer can be wrong); no key is in the table twice. For all other containers, ordered ones like std::set included, it compares the elements with ==, from the first one on until the answer is true. Comparisons may have effects; a failing comparison ends the search with its failure, and nothing is compared afterwards.",
  "all containers, tree shapes, histories of hash tables, hash functions, comparisons with effects, values",
  "Shapes, histories and hash functions are unbounded; collisions and failing comparisons are rare in tests.",
  "src/utki/utility.hpp:contains")
root = os.path.join(os.path.dirname(os.path.abspath(__file__)), "..")
with open(os.path.join(root, "properties.jsonl"), "w") as f:
    for x in P:
        f.write(json.dumps(x, ensure_ascii=False) + "\n")
print(len(P))

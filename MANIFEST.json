{
 "claims": [
  {
   "property": "C01",
   "status": "proved",
   "theorems": [
    "C01_padded_roundtrip"
   ],
   "note": "Encoder in Base64Spec is a bit-string RFC 4648 encoder; decode(encode b) = b for both builds and both char signednesses. [Base64Props.v]"
  },
  {
   "property": "C02",
   "status": "proved",
   "theorems": [
    "C02_unpadded_roundtrip"
   ],
   "note": "Same for the encoding without padding. [Base64Props.v]"
  },
  {
   "property": "C03",
   "status": "proved",
   "theorems": [
    "C03_functional",
    "C03_throws_iff",
    "C03_ub_iff",
    "C03_result_size",
    "C03_data_size",
    "C03_total_safety_refuted",
    "C03_high_char_refuted"
   ],
   "note": "C03_functional is the complete input/output behaviour; the safety claim itself is refuted with witnesses. [Base64Props.v]"
  },
  {
   "property": "C04",
   "status": "proved",
   "theorems": [
    "C04_foreign_characters",
    "C04_inner_padding",
    "C04_ignored_data"
   ],
   "note": "Foreign characters act as 'A'; inner '=' acts as 'A'; ignored data for padded strings of length not divisible by 4. [Base64Props.v]"
  },
  {
   "property": "C05",
   "status": "proved",
   "theorems": [
    "C05_serialize_le",
    "C05_serialize_le_needs_room",
    "C05_deserialize_le",
    "C05_write_read",
    "C05_read_write"
   ],
   "note": "Byte formula, frame, return pointer and round trip for all widths and values. [SerialProps.v]"
  },
  {
   "property": "C06",
   "status": "proved",
   "theorems": [
    "C06_serialize_be",
    "C06_serialize_be_needs_room",
    "C06_deserialize_be",
    "C06_write_read",
    "C06_read_write",
    "C06_mirror"
   ],
   "note": "As C05, big-endian. [SerialProps.v]"
  },
  {
   "property": "C07",
   "status": "proved",
   "theorems": [
    "C07_serialize_le",
    "C07_serialize_be",
    "C07_deserialize_le",
    "C07_deserialize_be"
   ],
   "note": "float as IEEE fields; reinterpret_cast taken with its gcc/clang meaning (strict aliasing is noted in SerialModel). [SerialProps.v]"
  },
  {
   "property": "C08",
   "status": "proved",
   "theorems": [
    "C08_history",
    "C08_views"
   ],
   "note": "Refinement of every call history to an abstract reader. [DeserProps.v]"
  },
  {
   "property": "C09",
   "status": "proved",
   "theorems": [
    "C09_records"
   ],
   "note": "Write a list of records, read them back. [DeserProps.v]"
  },
  {
   "property": "C10",
   "status": "proved",
   "theorems": [
    "C10_encoding",
    "C10_too_big",
    "C10_prefix_free"
   ],
   "note": "Code uses masks and shifts, the specification is arithmetic; surrogates are encoded like any other code point, as in the code. [UnicodeProps.v]"
  },
  {
   "property": "C11",
   "status": "proved",
   "theorems": [
    "C11_roundtrip"
   ],
   "note": "Both overload families; the C-string result does not depend on what follows the terminator. [UnicodeProps.v]"
  },
  {
   "property": "C12",
   "status": "proved",
   "theorems": [
    "C12_roundtrip"
   ],
   "note": "Proved as an equivalence: exactly the well-formed byte strings survive. [UnicodeProps.v]"
  },
  {
   "property": "C13",
   "status": "proved",
   "theorems": [
    "C13_iterate",
    "C13_increment",
    "C13_to_utf32_total",
    "C13_to_utf32_ub",
    "C13_safe_refuted"
   ],
   "note": "Exact behaviour of one increment, of any number of increments and of the conversion; unconditional safety is refuted. [UnicodeProps.v]"
  },
  {
   "property": "C14",
   "status": "proved",
   "theorems": [
    "C14_inside",
    "C14_truncated",
    "C14_overrun",
    "C14_safe_refuted"
   ],
   "note": "Exact set of over-reads; unconditional safety is refuted. [UnicodeProps.v]"
  },
  {
   "property": "C15",
   "status": "proved",
   "theorems": [
    "C15_dropped",
    "C15_stops_at_zero"
   ],
   "note": "Exact result of both conversions. [UnicodeProps.v]"
  },
  {
   "property": "C16",
   "status": "proved",
   "theorems": [
    "C16_join_split",
    "C16_unique"
   ],
   "note": "For every character type with decidable equality; uniqueness of the decomposition is an equivalence. [StringProps.v]"
  },
  {
   "property": "C17",
   "status": "proved",
   "theorems": [
    "C17_split_join",
    "C17_join"
   ],
   "note": "join is characterised for every list; split inverts it when no string contains the delimiter. [StringProps.v]"
  },
  {
   "property": "C18",
   "status": "proved",
   "theorems": [
    "C18_words",
    "C18_words_unique",
    "C18_words_ub"
   ],
   "note": "For every locale classification; undefined behaviour exactly for char values below -1. [StringProps.v]"
  },
  {
   "property": "C19",
   "status": "proved",
   "theorems": [
    "C19_width",
    "C19_zero"
   ],
   "note": "Every line has at most width characters and no newline; width 0 gives the text itself. [WrapProps.v]"
  },
  {
   "property": "C20",
   "status": "proved",
   "theorems": [
    "C20_covers"
   ],
   "note": "The text is the lines in order separated by spaces and newlines only. [WrapProps.v]"
  },
  {
   "property": "C21",
   "status": "proved",
   "theorems": [
    "C21_safe"
   ],
   "note": "No outcome other than Ok; out-of-range iterator use and assertions are modelled as outcomes. [WrapProps.v]"
  },
  {
   "property": "C22",
   "status": "proved",
   "theorems": [
    "C22_unbroken_refuted",
    "C22_unbroken",
    "C22_pieces"
   ],
   "note": "Refuted in general (two witnesses); holds for single-spaced texts with words shorter than the width; longer words are cut in width-sized pieces. [WrapProps.v]"
  },
  {
   "property": "C23",
   "status": "proved",
   "theorems": [
    "C23_trim_front",
    "C23_trim_back",
    "C23_trim"
   ],
   "note": "Classic locale whitespace; removed parts and maximality. [StringProps.v]"
  },
  {
   "property": "C24",
   "status": "proved",
   "theorems": [
    "C24_starts_with",
    "C24_ends_with_20",
    "C24_ends_with_17",
    "C24_ends_with_17_refuted"
   ],
   "note": "C++17 ends_with is refuted as a suffix test and characterised exactly. [StringProps.v]"
  },
  {
   "property": "C25",
   "status": "proved",
   "theorems": [
    "C25_indentation",
    "C25_exact"
   ],
   "note": "Product taken modulo 2^32. [StringProps.v]"
  },
  {
   "property": "C26",
   "status": "proved",
   "theorems": [
    "C26_va_list",
    "C26_make_string",
    "C26_make_string_throws"
   ],
   "note": "vsnprintf is an oracle obeying the C contract (same text in every successful call, may fail in any call). Also: make_string skips va_end of its own va_list when it throws. [StringProps.v]"
  },
  {
   "property": "C27",
   "status": "proved",
   "theorems": [
    "C27_step",
    "C27_sequence",
    "C27_read_char",
    "C27_peek"
   ],
   "note": "One-call lemma for every operation and its lift to call sequences in which the caller catches exceptions; the floating point read_number is covered for every from_chars obeying the stated contract (errors other than the two documented ones would lose input). [ParserProps.v]"
  },
  {
   "property": "C28",
   "status": "proved",
   "theorems": [
    "C28_skip_whitespaces",
    "C28_skip_whitespaces_and_comma",
    "C28_read_word",
    "C28_read_word_until",
    "C28_read_chars_until",
    "C28_read_chars",
    "C28_skip_until",
    "C28_skip_until_one_of",
    "C28_maximal_unique"
   ],
   "note": "Prefix characterisations; uniqueness of maximal prefixes is proved too. [ParserProps.v]"
  },
  {
   "property": "C29",
   "status": "proved",
   "theorems": [
    "C29_round_trip"
   ],
   "note": "All unsigned types of 1..126 bits, not only 8..64. [ParserProps.v]"
  },
  {
   "property": "C30",
   "status": "proved",
   "theorems": [
    "C30_round_trip",
    "C30_other_bases"
   ],
   "note": "Decimal round trip, and an exact characterisation of the values that survive in the other bases. [ParserProps.v]"
  },
  {
   "property": "C31",
   "status": "proved",
   "theorems": [
    "C31_read_number",
    "C31_signed_unique",
    "C31_unsigned_unique"
   ],
   "note": "Grammar of number texts given as an inductive relation (deterministic, proved); read_number is total on texts. [ParserProps.v]"
  },
  {
   "property": "C32",
   "status": "proved",
   "theorems": [
    "C32_to_string",
    "C32_injective"
   ],
   "note": "Digits denote the value, canonical, injective. Types of 127 bits and more (extensions) can overflow the buffer: example. [ParserProps.v]"
  },
  {
   "property": "C33",
   "status": "proved",
   "theorems": [
    "C33_forward",
    "C33_steps",
    "C33_distinct",
    "C33_complete"
   ],
   "note": "Iterators as the two stacks of the code; positions = pre-order paths followed by end(). [TreeProps.v]"
  },
  {
   "property": "C34",
   "status": "proved",
   "theorems": [
    "C34_backward",
    "C34_inverse"
   ],
   "note": "++ and -- as inverse functions on adjacent positions; reverse iteration. [TreeProps.v]"
  },
  {
   "property": "C35",
   "status": "proved",
   "theorems": [
    "C35_is_valid",
    "C35_make_iterator",
    "C35_make_empty",
    "C35_index",
    "C35_index_of",
    "C35_subscript_invalid"
   ],
   "note": "Complete results for every index sequence, the empty one included. [TreeProps.v]"
  },
  {
   "property": "C36",
   "status": "proved",
   "theorems": [
    "C36_comparisons"
   ],
   "note": "Iterator order = order of positions; ForeignIterator outcomes excluded. [TreeProps.v]"
  },
  {
   "property": "C37",
   "status": "proved",
   "theorems": [
    "C37_insert",
    "C37_insert_after",
    "C37_insert_after_end",
    "C37_outline_determines"
   ],
   "note": "Via the outline (pre-order list of depth and value), which determines the forest. [TreeProps.v]"
  },
  {
   "property": "C38",
   "status": "proved",
   "theorems": [
    "C38_erase",
    "C38_erase_end"
   ],
   "note": "As C37; erase(end()) is undefined. [TreeProps.v]"
  },
  {
   "property": "C39",
   "status": "proved",
   "theorems": [
    "C39_at_level"
   ],
   "note": "Terminate outcome for d >= depth(). [TreeProps.v]"
  },
  {
   "property": "C40",
   "status": "proved",
   "theorems": [
    "C40_sort",
    "C40_frame",
    "C40_irreflexive"
   ],
   "note": "C++17 quick sort on memory with positions; termination by fuel that provably suffices. Comparators are pure functions here, see C99 for others. [SortProps.v]"
  },
  {
   "property": "C41",
   "status": "proved",
   "theorems": [
    "C41_reflexive_diverges",
    "C41_middle_diverges"
   ],
   "note": "For every recursion bound the result is Diverge. [SortProps.v]"
  },
  {
   "property": "C42",
   "status": "proved",
   "theorems": [
    "C42_emission"
   ],
   "note": "Callbacks may look at the size, throw and have effects elsewhere. An exception stops the emission and reaches the caller. The debug build aborts when a signal with connections is destroyed. [SignalProps.v]"
  },
  {
   "property": "C43",
   "status": "proved",
   "theorems": [
    "C43_reference",
    "C43_value"
   ],
   "note": "A parameter type is modelled by what moving from it leaves behind; references leave everything. [SignalProps.v]"
  },
  {
   "property": "C44",
   "status": "proved",
   "theorems": [
    "C44_connected_only",
    "C44_each_once",
    "C44_connected_during",
    "C44_removed_while_running",
    "C44_endless"
   ],
   "note": "Callback bodies are finite scripts over the signal; undefined behaviour is the use of an iterator of an erased list node. Order and completeness are proved here for bodies without nested emission, the other parts for all; C112 has order and completeness with nested emissions. [SignalProps.v]"
  },
  {
   "property": "C45",
   "status": "proved",
   "theorems": [
    "C45_exclusion"
   ],
   "note": "Any number of threads, any interleaving; threads unlock only what they hold (the discipline is stated, and a schedule without it is shown to break exclusion). [SpinProps.v]"
  },
  {
   "property": "C46",
   "status": "proved",
   "theorems": [
    "C46_happens_before",
    "C46_race_free",
    "C46_last_write",
    "C46_consistent",
    "C46_orders_needed"
   ],
   "note": "Happens-before is defined on traces from sequenced-before and synchronises-with (release store read by an acquire operation). The memory orders are parameters of the model; that weaker ones do not suffice is proved. [SpinProps.v]"
  },
  {
   "property": "C47",
   "status": "proved",
   "theorems": [
    "C47_free",
    "C47_held",
    "C47_relock",
    "C47_starvation"
   ],
   "note": "A free lock is acquired by the next attempt; a held one by none; starvation is shown by an explicit infinite schedule. [SpinProps.v]"
  },
  {
   "property": "C48",
   "status": "proved",
   "theorems": [
    "C48_sets",
    "C48_determined"
   ],
   "note": "Programs over any number of flags objects, observed through get, the comparisons, is_set, is_clear, size and printing. [FlagsProps.v]"
  },
  {
   "property": "C49",
   "status": "proved",
   "theorems": [
    "C49_out_of_range",
    "C49_construction"
   ],
   "note": "The assertion of get passes for negative values of a signed underlying type: undefined behaviour even in a debug build. [FlagsProps.v]"
  },
  {
   "property": "C50",
   "status": "proved",
   "theorems": [
    "C50_scope_exit"
   ],
   "note": "All histories of construction, release and destruction of any number of scope_exit objects; functions may throw or be empty. [RaiiProps.v]"
  },
  {
   "property": "C51",
   "status": "proved",
   "theorems": [
    "C51_singleton",
    "C51_progress",
    "C51_inst_without"
   ],
   "note": "All histories of construction (also failing), inst, is_created and destruction; every allowed operation is shown to be possible. [RaiiProps.v]"
  },
  {
   "property": "C52",
   "status": "proved",
   "theorems": [
    "C52_history",
    "C52_not_null",
    "C52_when",
    "C52_moved_from"
   ],
   "note": "std::shared_ptr is modelled by reference counts, the specification speaks of references only. Copying a moved-from shared_ref is not caught: it makes another null one. [RefProps.v]"
  },
  {
   "property": "C53",
   "status": "proved",
   "theorems": [
    "C53_cast"
   ],
   "note": "Any class hierarchy, as a relation between dynamic and target types. [RefProps.v]"
  },
  {
   "property": "C54",
   "status": "proved",
   "theorems": [
    "C54_history",
    "C54_single_owner",
    "C54_when",
    "C54_moved_from"
   ],
   "note": "Includes self-assignment and passing through std::unique_ptr. [RefProps.v]"
  },
  {
   "property": "C55",
   "status": "proved",
   "theorems": [
    "C55_element_access",
    "C55_at_out_of_range",
    "C55_index_out_of_bounds_debug",
    "C55_index_out_of_array_release",
    "C55_subspan",
    "C55_subspan_rest",
    "C55_subspan_out_of_bounds_debug",
    "C55_subspan_out_of_bounds_release",
    "C55_front",
    "C55_back",
    "C55_empty_front_back_debug"
   ],
   "note": "Spans are (offset,size) into an array; forming a pointer outside of the array is UB. [SpanProps.v]"
  },
  {
   "property": "C56",
   "status": "proved",
   "theorems": [
    "C56_equals",
    "C56_not_equals",
    "C56_less_than",
    "C56_total_order"
   ],
   "note": "Any element type with its own == and <; equality and order hypotheses only where needed, with NaN-like elements as the counterexample. [DeepProps.v]"
  },
  {
   "property": "C57",
   "status": "proved",
   "theorems": [
    "C57_overlaps",
    "C57_overlaps_empty"
   ],
   "note": "Exact, including the empty-span corner cases. [SpanProps.v]"
  },
  {
   "property": "C58",
   "status": "proved",
   "theorems": [
    "C58_skip_front",
    "C58_skip_front_short",
    "C58_reverse",
    "C58_zip_size",
    "C58_zip",
    "C58_zip_shrunk"
   ],
   "note": "zip for any number of collections, also when they changed size after construction of the view. [UtilProps.v]"
  },
  {
   "property": "C59",
   "status": "proved",
   "theorems": [
    "C59_select",
    "C59_select_index",
    "C59_where",
    "C59_where_map",
    "C59_where_by_value",
    "C59_group_by",
    "C59_order_by",
    "C59_left"
   ],
   "note": "Lvalue and rvalue collections, moved-from elements tracked; std::sort is any function satisfying its contract. C59_where_by_value records the loss of elements with a by-value predicate. [LinqProps.v]"
  },
  {
   "property": "C60",
   "status": "proved",
   "theorems": [
    "C60_flip",
    "C60_twice"
   ],
   "note": "For any strict weak orders. [UtilProps.v]"
  },
  {
   "property": "C61",
   "status": "proved",
   "theorems": [
    "C61_next",
    "C61_prev",
    "C61_inverse"
   ],
   "note": "For every width of difference_type. [UtilProps.v]"
  },
  {
   "property": "C62",
   "status": "proved",
   "theorems": [
    "C62_contains",
    "C62_contains_map"
   ],
   "note": "std::find for general containers, find for maps. [UtilProps.v]"
  },
  {
   "property": "C63",
   "status": "proved",
   "theorems": [
    "C63_order",
    "C63_less",
    "C63_total",
    "C63_print",
    "C63_print_injective"
   ],
   "note": "Lexicographic order specified on (major, minor); also the printed form. [MiscProps.v]"
  },
  {
   "property": "C64",
   "status": "proved",
   "theorems": [
    "C64_difference",
    "C64_elapsed"
   ],
   "note": "Clock is any non-decreasing count of nanoseconds; exact modulo 2^32 and within one millisecond. [MiscProps.v]"
  },
  {
   "property": "C65",
   "status": "proved",
   "theorems": [
    "C65_unsigned",
    "C65_signed",
    "C65_narrow",
    "C65_uint16",
    "C65_any",
    "C65_sign"
   ],
   "note": "All integral types by signedness and width, with promotion to int; the undefined cases are exact. [MiscProps.v]"
  },
  {
   "property": "C66",
   "status": "proved",
   "theorems": [
    "C66_to_string",
    "C66_current",
    "C66_no_current",
    "C66_stacked",
    "C66_cases",
    "C66_broken",
    "C66_throw",
    "C66_throw_outside",
    "C66_own",
    "C66_own_what",
    "C66_own_throw",
    "C66_noexcept",
    "C66_current_refuted",
    "C66_throw_refuted",
    "C66_wrapped_refuted",
    "C66_type_refuted"
   ],
   "note": "Completeness is proved by a relation between chains and entries, for every compiler branch; classes may override to_string by any function, which may throw; four ways in which chains are lost are refuted with witnesses. [ExceptProps.v]"
  },
  {
   "property": "C67",
   "status": "proved",
   "theorems": [
    "C67_plain",
    "C67_stack",
    "C67_throw",
    "C67_utki_refuted"
   ],
   "note": "Indentation of each entry; the utki::exception case is refuted with a witness. [ExceptProps.v]"
  },
  {
   "property": "C68",
   "status": "proved",
   "theorems": [
    "C68_iterate",
    "C68_get",
    "C68_set",
    "C68_bad",
    "C68_zip"
   ],
   "note": "Items as integers of the underlying type; ++ on the wrapped value, enum_size itself included. [EnumProps.v]"
  },
  {
   "property": "C69",
   "status": "proved",
   "theorems": [
    "C69_true",
    "C69_false",
    "C69_abort_refuted",
    "C69_assert",
    "C69_macro",
    "C69_macro_agree",
    "C69_span",
    "C69_serialize",
    "C69_deserializer",
    "C69_base64",
    "C69_utf8",
    "C69_tree",
    "C69_flags",
    "C69_references",
    "C69_parser",
    "C69_to_string",
    "C69_string",
    "C69_others"
   ],
   "note": "Agreement is proved for every modelled operation which contains an assertion; debug-only computations of subspan and tree iterators may be undefined, hence 'neither aborts nor does anything undefined'. [DebugProps.v]"
  },
  {
   "property": "C70",
   "status": "proved",
   "theorems": [
    "C70_sizes",
    "C70_domain"
   ],
   "note": "Whole domain; other arguments do not compile. [MiscProps.v]"
  },
  {
   "property": "C71",
   "status": "proved",
   "theorems": [
    "C71_depth_last_child"
   ],
   "note": "Added with the tree model. [TreeProps.v]"
  },
  {
   "property": "C72",
   "status": "proved",
   "theorems": [
    "C72_greedy"
   ],
   "note": "Exact result on single-spaced texts: greedy filling with a lookahead of one character. [WrapProps.v]"
  },
  {
   "property": "C73",
   "status": "proved",
   "theorems": [
    "C73_lock",
    "C73_make_shared_from"
   ],
   "note": "Weak pointers, locked at any point of any history; make_shared_from on any referred-to object. [RefProps.v]"
  },
  {
   "property": "C74",
   "status": "proved",
   "theorems": [
    "C74_erase_where"
   ],
   "note": "The predicate is a pure function of the node; the nodes it is called with are the second result of the loop. [TreeMoreProps.v]"
  },
  {
   "property": "C75",
   "status": "proved",
   "theorems": [
    "C75_equal",
    "C75_identical",
    "C75_throw"
   ],
   "note": "Shape and values are compared through the pre-order outline with depths. [TreeMoreProps.v]"
  },
  {
   "property": "C76",
   "status": "proved",
   "theorems": [
    "C76_iterate",
    "C76_make_vector",
    "C76_make_span",
    "C76_constructors",
    "C76_convert",
    "C76_round_trip",
    "C76_cstr",
    "C76_cstr_unterminated",
    "C76_size_bytes",
    "C76_print",
    "C76_print_throw"
   ],
   "note": "Memory is one array of elements; forming a pointer outside of it is undefined behaviour. The C++26 alias of std::span is not modelled. [TextProps.v]"
  },
  {
   "property": "C77",
   "status": "proved",
   "theorems": [
    "C77_make_string",
    "C77_make_string_container",
    "C77_casts",
    "C77_bytes",
    "C77_cat",
    "C77_cat_texts",
    "C77_cat_truncates"
   ],
   "note": "A stream is its text, its formatting state and whether it is good. std::string objects are given by their contents. [TextProps.v]"
  },
  {
   "property": "C78",
   "status": "proved",
   "theorems": [
    "C78_log",
    "C78_logcat",
    "C78_logcat_bad",
    "C78_debug",
    "C78_logcat_is_cat_refuted"
   ],
   "note": "The Android branch is in C116. 'logcat prints what cat would return' is refuted with a witness. [LogProps.v]"
  },
  {
   "property": "C79",
   "status": "proved",
   "theorems": [
    "C79_demangle"
   ],
   "note": "gcc and clang branch, __cxa_demangle as an arbitrary function within its contract; allocation of the string may fail. [LogProps.v]"
  },
  {
   "property": "C80",
   "status": "proved",
   "theorems": [
    "C80_index_of",
    "C80_offset_sequence"
   ],
   "note": "A program that does not compile is None. [MetaProps.v]"
  },
  {
   "property": "C81",
   "status": "proved",
   "theorems": [
    "C81_remove_const_reference",
    "C81_drop_in_refuted",
    "C81_remove_const_pointer",
    "C81_is_specialization_of",
    "C81_is_scoped_enum",
    "C81_type_or_void"
   ],
   "note": "'Drop-in replacement for std::remove_cvref' is refuted with a volatile type. [MetaProps.v]"
  },
  {
   "property": "C82",
   "status": "proved",
   "theorems": [
    "C82_double_nearest",
    "C82_float_nearest",
    "C82_specification_unique",
    "C82_specification_closest"
   ],
   "note": "Eisel-Lemire with its 1302-word table; the precision of every table entry is certified by neighbouring fractions that are checked by computation. [FloatProps.v]"
  },
  {
   "property": "C83",
   "status": "proved",
   "theorems": [
    "C83_leading_zeroes",
    "C83_leading_zeroes_generic",
    "C83_full_multiplication",
    "C83_umul128_generic"
   ],
   "note": "For every combination of builtins; the portable versions are not compiled on x86-64 with gcc or clang. [FloatProps.v]"
  },
  {
   "property": "C84",
   "status": "proved",
   "theorems": [
    "C84_test",
    "C84_value"
   ],
   "note": "For both byte orders. [FloatFastProps.v]"
  },
  {
   "property": "C85",
   "status": "proved",
   "theorems": [
    "C85_double",
    "C85_float",
    "C85_rounds_to_nearest",
    "C85_table_comment_refuted"
   ],
   "note": "float and double arithmetic is the IEEE 754 one (exact result, rounded); FLT_EVAL_METHOD 0, 1 or 2, with the 80-bit long double. The comment above max_mantissa is refuted: entries from index 14 on are smaller than it says. [FloatFastProps.v]"
  },
  {
   "property": "C86",
   "status": "proved",
   "theorems": [
    "C86_small",
    "C86_large_mul",
    "C86_powers",
    "C86_compare",
    "C86_bits"
   ],
   "note": "Every platform: 62 limbs of 64 bits or 125 of 32 bits, with and without the wide integer type and the overflow builtin; a failed try_extend is the result false. [FloatSlowProps.v]"
  },
  {
   "property": "C87",
   "status": "proved",
   "theorems": [
    "C87_double",
    "C87_float",
    "C87_digits_double",
    "C87_digits_float"
   ],
   "note": "The hypothesis cut_number is what parse_number_string gives for such texts; C88 composes them. [FloatSlowProps.v]"
  },
  {
   "property": "C88",
   "status": "proved",
   "theorems": [
    "C88_double",
    "C88_float",
    "C88_no_number",
    "C88_complete",
    "C88_determined",
    "C88_bits_determined",
    "C88_any_length"
   ],
   "note": "The condition moderate (text of about 2^28 characters at most, or explicit exponent below 2^28) is necessary in some form: C90. [FloatFromProps.v]"
  },
  {
   "property": "C89",
   "status": "proved",
   "theorems": [
    "C89_mode",
    "C89_monotone",
    "C89_exact",
    "C89_round_trip_double",
    "C89_round_trip_float",
    "C89_sixteen_refuted"
   ],
   "note": "The claim for sixteen digits is refuted, to show that seventeen is sharp. [FloatFromProps.v]"
  },
  {
   "property": "C90",
   "status": "proved",
   "theorems": [
    "C90_any_length_refuted",
    "C90_exponent"
   ],
   "note": "The witness has about 10^10 characters. It is a text longer than 4 GiB, within the size of a 64-bit address space. [FloatFromProps.v]"
  },
  {
   "property": "C91",
   "status": "proved",
   "theorems": [
    "C91_found",
    "C91_not_found",
    "C91_total",
    "C91_mode",
    "C91_hex_refuted",
    "C91_hex",
    "C91_long_double_refuted"
   ],
   "note": "The value of a long double is given by the pattern of the equal double. The claims that the format hex reads hexadecimal digits, and that a long double is the nearest extended number, are refuted. [FloatCharsProps.v]"
  },
  {
   "property": "C92",
   "status": "proved",
   "theorems": [
    "C92_found",
    "C92_not_found",
    "C92_total",
    "C92_mode",
    "C92_range_refuted"
   ],
   "note": "The claim that numbers beyond the range are told apart from zero is refuted; the source comments on it. [FloatCharsProps.v]"
  },
  {
   "property": "C93",
   "status": "proved",
   "theorems": [
    "C93_constants",
    "C93_float",
    "C93_long_double_refuted"
   ],
   "note": "Uses the real numbers of the standard library with their axioms. The claim that the double constant is good enough for long double is refuted. [MathProps.v]"
  },
  {
   "property": "C94",
   "status": "proved",
   "theorems": [
    "C94_formats",
    "C94_deg_to_rad",
    "C94_rad_to_deg",
    "C94_long_double",
    "C94_long_double_refuted",
    "C94_special",
    "C94_monotone",
    "C94_overflow",
    "C94_overflow_float",
    "C94_finite_refuted",
    "C94_round_trip",
    "C94_round_trip_refuted",
    "C94_enclosure",
    "C94_enclosure_refuted"
   ],
   "note": "Uses the real numbers of the standard library with their axioms. Rounding to nearest, FLT_EVAL_METHOD 0. The claims that long double is converted with the accuracy of its format, that a representable result is finite and that the round trip is exact are refuted, as is that a directed rounding mode always bounds the exact angle. [MathProps.v]"
  },
  {
   "property": "C95",
   "status": "proved",
   "theorems": [
    "C95_signed",
    "C95_unsigned",
    "C95_narrow",
    "C95_int8",
    "C95_sign_refuted",
    "C95_monotone_refuted"
   ],
   "note": "The claims that the sign is kept and that the conversion is monotone are refuted. [MathProps.v]"
  },
  {
   "property": "C96",
   "status": "proved",
   "theorems": [
    "C96_accuracy",
    "C96_finite",
    "C96_integers",
    "C96_monotone",
    "C96_nearest_refuted",
    "C96_enclosure",
    "C96_enclosure_refuted",
    "C96_sign"
   ],
   "note": "Uses the real numbers of the standard library with their axioms. Accuracy and monotonicity in the nearest rounding mode, FLT_EVAL_METHOD 0, no contraction of multiplications. The claims that the result is the nearest number and that the directed modes enclose the powers of negative numbers are refuted. [MathProps.v]"
  },
  {
   "property": "C97",
   "status": "proved",
   "theorems": [
    "C97_masks",
    "C97_units"
   ],
   "note": "[ConstProps.v]"
  },
  {
   "property": "C98",
   "status": "proved",
   "theorems": [
    "C98_terminals"
   ],
   "note": "[ConstProps.v]"
  },
  {
   "property": "C99",
   "status": "proved",
   "theorems": [
    "C99_safe",
    "C99_terminates",
    "C99_compared",
    "C99_sorted"
   ],
   "note": "Comparisons and copies change an arbitrary world and have an arbitrary outcome; moves do not throw. C99_sorted also says that the result is that of the model of C40. [SortEffProps.v]"
  },
  {
   "property": "C100",
   "status": "proved",
   "theorems": [
    "C100_bound",
    "C100_worst",
    "C100_deep",
    "C100_drop_in_refuted"
   ],
   "note": "Exact bound and the arrays that attain it; the O(n log n) of std::sort is refuted. [SortEffProps.v]"
  },
  {
   "property": "C101",
   "status": "proved",
   "theorems": [
    "C101_copy",
    "C101_defined",
    "C101_independent",
    "C101_emission",
    "C101_connections",
    "C101_stuck"
   ],
   "note": "Programs over any number of signals; that copies cannot be emptied is proved for every continuation that uses only connections returned to it. [SignalCopyProps.v]"
  },
  {
   "property": "C102",
   "status": "proved",
   "theorems": [
    "C102_accepted",
    "C102_os",
    "C102_compiler"
   ],
   "note": "Predefined macros that are compared must be numbers, directly or through other names. [ConfigProps.v]"
  },
  {
   "property": "C103",
   "status": "proved",
   "theorems": [
    "C103_edition",
    "C103_monotone",
    "C103_at_most_20"
   ],
   "note": "The last edition is open-ended: any value above 201703 gives 20. [ConfigProps.v]"
  },
  {
   "property": "C104",
   "status": "proved",
   "theorems": [
    "C104_cpu",
    "C104_version_refuted",
    "C104_clang_refuted"
   ],
   "note": "Two expectations are refuted: CFG_CPU_VERSION with Emscripten, and the processor with clang. [ConfigProps.v]"
  },
  {
   "property": "C105",
   "status": "proved",
   "theorems": [
    "C105_endianness",
    "C105_export",
    "C105_byte_order_refuted"
   ],
   "note": "That CFG_ENDIANNESS is the byte order of integers is refuted for machines with mixed orders. [ConfigProps.v]"
  },
  {
   "property": "C106",
   "status": "proved",
   "theorems": [
    "C106_windows",
    "C106_elsewhere"
   ],
   "note": "windows.h is any header that leaves the guards alone when they are defined. [ConfigProps.v]"
  },
  {
   "property": "C107",
   "status": "proved",
   "theorems": [
    "C107_select",
    "C107_select_index",
    "C107_where",
    "C107_where_any",
    "C107_group_by",
    "C107_order_by",
    "C107_borrowed",
    "C107_owned",
    "C107_pure"
   ],
   "note": "Calls and copies change an arbitrary world and have an arbitrary outcome; moves do not throw, keys of maps are compared without effects. C107_pure ties it to C59. [LinqEffProps.v]"
  },
  {
   "property": "C108",
   "status": "proved",
   "theorems": [
    "C108_owned",
    "C108_unowned",
    "C108_weak_shared",
    "C108_weak_std",
    "C108_lock",
    "C108_expired",
    "C108_life",
    "C108_copy"
   ],
   "note": "One thread. Objects made with new and then taken over by a std::shared_ptr are not modelled. [RefMoreProps.v]"
  },
  {
   "property": "C109",
   "status": "proved",
   "theorems": [
    "C109_compare",
    "C109_moved_from",
    "C109_order"
   ],
   "note": "Comparisons may throw; they do not change the objects. [RefMoreProps.v]"
  },
  {
   "property": "C110",
   "status": "proved",
   "theorems": [
    "C110_exclusion",
    "C110_sections",
    "C110_race_free",
    "C110_last_write",
    "C110_interleaved",
    "C110_orders_needed"
   ],
   "note": "Threads call lock and unlock in turns and access the data in between. The rules of the memory model used are listed in SpinMemSpec.v; interleaved executions are shown to satisfy them. [SpinMemProps.v]"
  },
  {
   "property": "C111",
   "status": "proved",
   "theorems": [
    "C111_visit",
    "C111_order",
    "C111_by_value",
    "C111_const_ref",
    "C111_conversion",
    "C111_twice",
    "C111_generic",
    "C111_auto_ambiguous",
    "C111_reference",
    "C111_no_taker",
    "C111_ref_converts"
   ],
   "note": "Overload resolution for one argument is modelled; functors are not mutable, and no alternative derives from another one. [OverloadProps.v]"
  },
  {
   "property": "C112",
   "status": "proved",
   "theorems": [
    "C112_nested",
    "C112_fuel",
    "C112_endless"
   ],
   "note": "Callback bodies are finite scripts over the signal and the state of the program. Stack overflow by endless nesting is not modelled: such an emission is Diverge for every number of steps. [SignalNestProps.v]"
  },
  {
   "property": "C113",
   "status": "proved",
   "theorems": [
    "C113_end",
    "C113_scoped",
    "C113_exit",
    "C113_static_before",
    "C113_heap"
   ],
   "note": "A program is a list of initializations, constructions and destructions, followed by the destruction of static objects in reverse order. Whether the unique_ptr is cleared before its object is deleted is a parameter. Use of the pointer after its destruction counts as undefined behaviour. [SingletonEndProps.v]"
  },
  {
   "property": "C114",
   "status": "proved",
   "theorems": [
    "C114_load",
    "C114_stands",
    "C114_moves",
    "C114_eq",
    "C114_insert",
    "C114_insert_after",
    "C114_erase",
    "C114_insert_keeps",
    "C114_erase_keeps",
    "C114_insert_stale",
    "C114_erase_stale"
   ],
   "note": "Addresses are never used again. A node that moves takes the buffer of its children along (moving a value does not throw, otherwise std::vector copies when it grows). What is inserted is not part of the tree itself. [TreeMemProps.v]"
  },
  {
   "property": "C115",
   "status": "proved",
   "theorems": [
    "C115_step",
    "C115_history",
    "C115_inside",
    "C115_later",
    "C115_dangling",
    "C115_dangling_read",
    "C115_trim_front",
    "C115_trim_back",
    "C115_trim"
   ],
   "note": "Strings are blocks of memory, views are a pointer and a length. The results are those of ParserModel, so that C27, C28 and C31 carry over. Arithmetic on pointers to freed memory is taken as harmless, indirection is undefined. from_chars is taken to read the whole range it is given. [ViewProps.v]"
  },
  {
   "property": "C116",
   "status": "proved",
   "theorems": [
    "C116_log",
    "C116_empty",
    "C116_logcat",
    "C116_logcat_appends",
    "C116_assert",
    "C116_demangle"
   ],
   "note": "The functions of the Android NDK are trusted to get C strings and to add one entry per call; how much of a long message the system keeps is not modelled. C116_log is for functions that only append to the stream they are given. [PlatformProps.v]"
  },
  {
   "property": "C117",
   "status": "proved",
   "theorems": [
    "C117_loop",
    "C117_cached_list",
    "C117_cached_vector",
    "C117_roots_kept",
    "C117_pure",
    "C117_insert_own",
    "C117_insert_after_own"
   ],
   "note": "On the memory of C114. The deciding function may change the state of the rest of the program, but not the tree. insert with an rvalue that is a node of the same tree is not modelled (the standard lets the container assume that there is no such alias). [TreeLoopProps.v]"
  },
  {
   "property": "C118",
   "status": "proved",
   "theorems": [
    "C118_skip_front",
    "C118_skip_front_short",
    "C118_skip_front_invalid",
    "C118_reverse",
    "C118_reverse_invalid",
    "C118_reverse_erase",
    "C118_zip",
    "C118_zip_short",
    "C118_zip_invalid"
   ],
   "note": "Collections with bidirectional iterators, as sequences of places. Bodies that append to a list behind the current element are in the model, but not in the theorems about regular loops. [ViewLoopProps.v]"
  },
  {
   "property": "C119",
   "status": "proved",
   "theorems": [
    "C119_to_string",
    "C119_method",
    "C119_current",
    "C119_what",
    "C119_complete",
    "C119_memory",
    "C119_silent_refuted",
    "C119_bytes"
   ],
   "note": "Faults are a list of the outcomes of the allocations in order. Exception objects come from the emergency pool; a to_string that a user overrides is given by its outcome. For chains that end the program even with enough memory nothing is claimed but that what() does not throw. [ExceptAllocProps.v]"
  },
  {
   "property": "C120",
   "status": "proved",
   "theorems": [
    "C120_texts",
    "C120_keeps",
    "C120_dangles",
    "C120_writes",
    "C120_thrown",
    "C120_promise_refuted"
   ],
   "note": "The calls are those of one thread (C120_writes gives the descriptions they write to), enough memory, no to_string of users. The pointers of other exceptions live as long as the exception objects; destruction of the objects is not modelled. C120_promise_refuted: two calls of what() in a row. [ExceptPtrProps.v]"
  },
  {
   "property": "C121",
   "status": "proved",
   "theorems": [
    "C121_sequence",
    "C121_map",
    "C121_map_failure",
    "C121_map_comparisons",
    "C121_table",
    "C121_unique",
    "C121_hash_refuted",
    "C121_order_refuted"
   ],
   "note": "std::find, std::map::find and std::unordered_map::find as in libstdc++ (trees without their colours). Hashes and equality of keys of unordered maps are functions. [ContainsProps.v]"
  }
 ]
}
{
 "claims": [
  {
   "property": "C01",
   "status": "partial",
   "theorems": [
    "C01_prefix_topk_partial",
    "C01_C02_answer_unique",
    "C01_first_term_refuted",
    "C01_found_sound",
    "C01_found_missed",
    "C01_known_all",
    "C01_prefix_topk_exact_partial",
    "C01_lost_terms_refuted",
    "C01_prefix_topk_bits_partial"
   ],
   "note": "Exact for every well-formed collection over any containers meeting their contracts and over the bit-level ones, for 1<=k<=15; excluded cases: first term strictly extending the last token (refuted), results larger than the pool (refuted), all-zero vectors (refuted), sizes multiple of 17. The _exact_partial theorems characterise the answers for every query, and every size, including F1 and F23 (C01_found_sound, C01_found_missed: which matches are missed; C01_lost_terms_refuted: what F23 does to the answers). They hold for every k (0: no limit)."
  },
  {
   "property": "C02",
   "status": "partial",
   "theorems": [
    "C02_conjunctive_topk_partial",
    "C02_conjunctive_topk_exact_partial",
    "C02_conjunctive_topk_bits_partial"
   ],
   "note": "Same scope as C01, for conjunctive search. The _exact_partial theorems characterise the answers for every query, including those that run into F1, and every size of the collection (F23), as far as the answer can be reported. They hold for every k (0: no limit)."
  },
  {
   "property": "C03",
   "status": "partial",
   "theorems": [
    "C03_conjunctive_topk_partial",
    "C03_conjunctive_topk_exact_partial",
    "C03_conjunctive_topk_bits_partial"
   ],
   "note": "Exact for every well-formed collection, query, history and containers meeting their contracts, except F1 (first term strictly extending the last token), F11 (zero-only vectors), F13 (pool overflow), F23 (sizes multiple of 17), k outside 1..15. The _bits theorem states it for the containers as implemented on bits. The _exact_partial theorems characterise the answers for every query, including those that run into F1, and every size of the collection (F23), if the answer can be reported and the search does not meet a candidate without a place (overruns) or lost by the dictionary (stumbles, C38_type2_stumble_refuted); otherwise the query is undefined. They hold for every k (0: no limit)."
  },
  {
   "property": "C04",
   "status": "partial",
   "theorems": [
    "C04_conjunctive_topk_partial",
    "C04_conjunctive_topk_exact_partial",
    "C04_conjunctive_topk_bits_partial"
   ],
   "note": "Exact for every well-formed collection, query, history and containers meeting their contracts, except F1 (first term strictly extending the last token), F11 (zero-only vectors), F13 (pool overflow), F23 (sizes multiple of 17), k outside 1..15. The _bits theorem states it for the containers as implemented on bits. The _exact_partial theorems characterise the answers for every query, including those that run into F1, and every size of the collection (F23), as far as the answer can be reported. They hold for every k (0: no limit)."
  },
  {
   "property": "C05",
   "status": "partial",
   "theorems": [
    "C05_conjunctive_topk_partial",
    "C05_first_document_refuted",
    "C05_last_term_refuted",
    "C05_duplicates_refuted",
    "C05_one_block_checked_refuted",
    "C05_conjunctive_topk_exact_partial",
    "C05_blocked_sound",
    "C05_blocked_reported",
    "C05_blocked_unique",
    "C05_blocked_topk",
    "C05_type4_k0_refuted",
    "C05_conjunctive_topk_bits_partial"
   ],
   "note": "Type 4, any block size: never reports a wrong completion or text, ordered, at most k; exact when the terms of the last token lie in one block and (complete tokens in one block) its first document does not match (C05_blocked_topk). Four refutations of the full statement (F5-F8). The _bits theorem states it for the containers as implemented on bits. C05_conjunctive_topk_exact_partial says what is answered for every query, every k including 0, every block size and every collection (F1, F5-F8, F10, F23): the answer follows from the blocks (S_Blocked.blocked_answer), and is reported if it is reportable; otherwise the search is undefined behaviour. C05_blocked_sound, _reported, _unique and _topk say what this means: which matches can be missed and why."
  },
  {
   "property": "C06",
   "status": "partial",
   "theorems": [
    "C06_type2_prefix_topk_partial",
    "C06_type3_prefix_topk_partial",
    "C06_first_completion_refuted",
    "C06_type4_prefix_topk_partial",
    "C06_found_missed",
    "C06_type2_prefix_exact_partial",
    "C06_type3_prefix_exact_partial",
    "C06_type4_prefix_exact_partial",
    "C06_type2_prefix_topk_bits_partial",
    "C06_type3_prefix_topk_bits_partial",
    "C06_type4_prefix_topk_bits_partial"
   ],
   "note": "Types 2, 3 and 4. Exact for every well-formed collection, query, history and containers meeting their contracts, except F1 (first term strictly extending the last token), F11 (zero-only vectors), F13 (pool overflow), F23 (sizes multiple of 17), k outside 1..15. Also excluded: F2 (first completion), refuted at user level. The _bits theorem states it for the containers as implemented on bits. The _exact_partial theorems characterise the answers for every query, and every size, including F1, F2 and F23 (C06_found_missed). They hold for every k (0: no limit)."
  },
  {
   "property": "C07",
   "status": "partial",
   "theorems": [
    "C07_types_agree_partial",
    "C07_types_agree_refuted",
    "C07_type4_agrees_partial",
    "C07_type4_refuted",
    "C07_types23_any_partial",
    "C07_types12_conjunctive_any_partial",
    "C07_types_agree_bits_partial",
    "C07_type4_agrees_bits_partial"
   ],
   "note": "Types 1, 2 and 3 give equal results for every sequence of covered requests; refuted for the first completion (F2). Type 4 agrees on prefix searches and on conjunctive searches under query_exact; refuted otherwise. Types 2 and 3 agree on every query, types 1, 2 and 3 on every conjunctive query, if type 2 answers it (C07_types23_any_partial, C07_types12_conjunctive_any_partial)."
  },
  {
   "property": "C08",
   "status": "partial",
   "theorems": [
    "C08_type1_strings_partial",
    "C08_type23_strings_partial",
    "C08_reportable",
    "C08_type1_strings_any_partial",
    "C08_type23_strings_any_partial",
    "C08_type1_strings_bits_partial",
    "C08_type23_strings_bits_partial"
   ],
   "note": "For any list of up to 15 doc ids the pool reads back exactly the texts, if the buffer has room for them (S_Room: what each extraction overwrites; always so with 256 bytes to spare) and the dictionaries have kept their words and completions (always so unless a size is a multiple of 17, C08_reportable); if not, extraction writes or reads out of bounds (the _strings_any theorems decide which)."
  },
  {
   "property": "C09",
   "status": "partial",
   "theorems": [
    "C09_extract_partial",
    "C09_extract_refuted",
    "C09_extract_exact_partial",
    "C09_extract_exact_partial",
    "C09_reach",
    "C09_wide_partial",
    "C09_wide_refuted",
    "C09_wide_nonvacuous"
   ],
   "note": "Exact for every well-formed vocabulary of any size: stored terms are given back, and the last 16 terms, which the builder drops when their number is a multiple of 17 (F23, refuted), always read out of bounds. C09_extract_exact_partial: extraction is defined exactly if the buffer has room for the bytes it overwrites. The dictionary theorems hold for every positive bucket size (template parameter; 17 stands for BucketSize + 1 = 17 of the default). C09_wide: the 32-bit pointers lose nothing below 4 GiB, and with 4 GiB of headers some term can never be extracted (F54, for every such vocabulary)."
  },
  {
   "property": "C10",
   "status": "partial",
   "theorems": [
    "C10_locate_partial",
    "C10_locate_refuted",
    "C10_locate_exact_partial"
   ],
   "note": "Exact for every size: locate finds exactly the stored terms; those dropped when the number of terms is a multiple of 17 (F23, refuted) are not found. The dictionary theorems hold for every positive bucket size (template parameter; 17 stands for BucketSize + 1 = 17 of the default)."
  },
  {
   "property": "C11",
   "status": "partial",
   "theorems": [
    "C11_locate_prefix_partial",
    "C11_locate_prefix_exact_partial",
    "C11_locate_prefix_refuted",
    "C11_locate_prefix_single_refuted",
    "C11_locate_prefix_any_size_partial"
   ],
   "note": "Exact for every prefix (also with NUL bytes) and every size: the stored terms starting with the prefix, except that the first term is found only by the empty prefix and by itself (F1, refuted); the empty prefix gets all ids. Dropped terms: F23. The dictionary theorems hold for every positive bucket size (template parameter; 17 stands for BucketSize + 1 = 17 of the default)."
  },
  {
   "property": "C12",
   "status": "proved",
   "theorems": [
    "C12_trie_locate_prefix_bits",
    "C12_trie_locate_prefix"
   ],
   "note": "C12_trie_locate_prefix_bits: the trie over Elias-Fano sequences, every well-formed list of completions, every prefix of non-zero ids, 1<=a<=b."
  },
  {
   "property": "C13",
   "status": "proved",
   "theorems": [
    "C13_trie_is_member_bits",
    "C13_trie_is_member"
   ],
   "note": "C13_trie_is_member_bits: the trie over Elias-Fano sequences, every sequence of non-zero ids followed by the terminator."
  },
  {
   "property": "C14",
   "status": "partial",
   "theorems": [
    "C14_extract_partial",
    "C14_extract_refuted",
    "C14_extract_exact_partial"
   ],
   "note": "Exact for every size: stored completions are given back; those dropped when the number is a multiple of 17 (F23, refuted) always read out of bounds. The dictionary theorems hold for every positive bucket size (template parameter; 17 stands for BucketSize + 1 = 17 of the default)."
  },
  {
   "property": "C15",
   "status": "partial",
   "theorems": [
    "C15_locate_prefix_partial",
    "C15_locate_prefix_exact_partial",
    "C15_locate_prefix_refuted",
    "C15_prefix_unchanged_refuted",
    "C15_locate_prefix_any_size_partial"
   ],
   "note": "Exact for every prefix, range and size: the stored continuations, except that the first completion is found only if it is prefix++[a] (F2); prefix unchanged unless no match and a = b, then one token longer (F3). The exceptions are refutations of the full statement; dropped completions: F23. The dictionary theorems hold for every positive bucket size (template parameter; 17 stands for BucketSize + 1 = 17 of the default)."
  },
  {
   "property": "C16",
   "status": "partial",
   "theorems": [
    "C16_locate_partial",
    "C16_locate_refuted",
    "C16_locate_exact_partial",
    "C16_locate_cases"
   ],
   "note": "Exact for every sequence and size: stored completions are located; for any other sequence it is decided by its place among the completions whether the answer is \"not found\" or the code reaches __builtin_unreachable (F4, refuted). The dictionary theorems hold for every positive bucket size (template parameter; 17 stands for BucketSize + 1 = 17 of the default)."
  },
  {
   "property": "C17",
   "status": "partial",
   "theorems": [
    "C17_long_refuted",
    "C17_unsorted_topk_bits_partial",
    "C17_unsorted_topk",
    "C17_unique_refuted",
    "C17_any_k",
    "C17_unique_partial",
    "C17_unique_short",
    "C17_unique_exact_partial"
   ],
   "note": "Exact for every list, range and k>=1, for any correct range-minimum structure and any std heap, and (C17_unsorted_topk_bits_partial) for the compact_vector and cartesian tree as built. Excluded: lists of zeros only (F11: the builder throws), value 2^32-1, 2^30-1 elements or more (F28; C17_long_refuted: the smallest element is missed). The `unique` flag is refuted for short ranges (F19); C17_unique_partial: on ranges longer than k it gives the k smallest distinct values; C17_unique_exact_partial: it does so exactly when the range is longer than k or has no duplicates. C17_any_k: any k and any length of the score buffer."
  },
  {
   "property": "C18",
   "status": "partial",
   "theorems": [
    "C18_minimal_topk_bits_partial",
    "C18_minimal_topk",
    "C18_any_k"
   ],
   "note": "Exact for every cursor-like iterator, and (C18_minimal_topk_bits_partial) for the structures as built. Excluded: all lists starting with doc 0 (F11: the builder throws), 2^30-1 lists or more. C18_any_k: any k and any length of the score buffer."
  },
  {
   "property": "C19",
   "status": "proved",
   "theorems": [
    "C19_heap_topk_bits",
    "C19_heap_topk",
    "C19_any_k"
   ],
   "note": "C19_heap_topk_bits: the inverted index on bits, every family of non-empty increasing lists, any implementation of the std heap algorithms. C19_any_k: any k and any length of the score buffer."
  },
  {
   "property": "C20",
   "status": "partial",
   "theorems": [
    "C20_rmq_leftmost_partial",
    "C20_long_refuted"
   ],
   "note": "Every list with fewer than 2^30-1 elements, on bits (cartesian tree, balanced parentheses, excess minima, rank/select). Refuted for every size from 2^30-1 to 1431655764 (C20_long_refuted, F28): the number of bits wraps in the 32-bit excess type, and a wrong position is answered."
  },
  {
   "property": "C21",
   "status": "proved",
   "theorems": [
    "C21_posting_lists",
    "C21_history",
    "C21_intersects"
   ],
   "note": "The whole index on bits: every non-empty sequence of non-empty non-decreasing lists below a universe < 2^55, total below 2^54 elements; read back by iterating, and after every history of iterator operations; intersects(range)."
  },
  {
   "property": "C22",
   "status": "proved",
   "theorems": [
    "C22_intersection",
    "C22_single_list",
    "C22_intersection_bits"
   ],
   "note": "C22_intersection_bits: the inverted index on bits, any number of terms in any order; also single lists."
  },
  {
   "property": "C23",
   "status": "proved",
   "theorems": [
    "C23_next_geq",
    "C23_duplicates_refuted",
    "C23_beyond_universe_refuted"
   ],
   "note": "Every list, position and x up to the universe, and any x at all while the iterator is not exhausted. Refuted outside the claim: duplicates (position skips), x beyond the universe on an exhausted iterator (position() > size())."
  },
  {
   "property": "C24",
   "status": "partial",
   "theorems": [
    "C24_sequence",
    "C24_next_partial",
    "C24_next_refuted",
    "C24_end_refuted",
    "C24_unsorted_refuted",
    "C24_ranges"
   ],
   "note": "Every non-decreasing sequence of 64-bit values: size, access, range iteration and operator* after ++; next() from begin() exact for all but the last element. next() past the last element, begin()==end and unsorted input are refuted."
  },
  {
   "property": "C25",
   "status": "partial",
   "theorems": [
    "C25_find",
    "C25_find_range",
    "C25_uint_vec_find_range_partial",
    "C25_uint_vec_find_range_refuted",
    "C25_uint_vec_width_partial",
    "C25_uint_vec_width_refuted"
   ],
   "note": "find and ef_sequence range find exact; uint_vec::find_range exact for a<b, refuted for a=b. uint_vec with narrow integers is exact while the largest elements of the groups add up to less than 2^bits (C25_uint_vec_width_partial), and not beyond (F57)."
  },
  {
   "property": "C26",
   "status": "partial",
   "theorems": [
    "C26_build_partial",
    "C26_fitting",
    "C26_build_max_partial",
    "C26_width_64_refuted",
    "C26_all_zero_refuted",
    "C26_set",
    "C26_set_refuted",
    "C26_access_refuted",
    "C26_enumerator_refuted"
   ],
   "note": "All 64-bit values, every width 1..63, operator[], access (width <= 57), enumerator, set. Width 64 evaluates 1<<64 (undefined), all-zero build throws, set of unfitting values disturbs neighbours, access loads outside the vector, enumerator not idempotent: all refuted."
  },
  {
   "property": "C27",
   "status": "partial",
   "theorems": [
    "C27_history_partial",
    "C27_get_bits_64_refuted",
    "C27_size",
    "C27_new",
    "C27_reader",
    "C27_skip_zeros_partial",
    "C27_skip_zeros_refuted",
    "C27_ones",
    "C27_word56_refuted",
    "C27_append",
    "C27_resize_refuted",
    "C27_resize_push_refuted",
    "C27_predecessor1",
    "C27_word64",
    "C27_word56_partial",
    "C27_getter_partial",
    "C27_skip",
    "C27_skip0"
   ],
   "note": "Every legal history of builder operations (push_back, append_bits, set, set_bits, zero_extend, reverse, and append of a builder with its own history) against lists of bits; size, operator[] and get_bits for len < 64. For len = 64 the mask evaluates 1<<64 (undefined, refuted). get_word64, get_word56, bits_getter, predecessor1, readers and unary iterators (next, skip, skip0) proved; skip_zeros after get_bits(64) refuted, resize refuted (F32; unused by the code)."
  },
  {
   "property": "C28",
   "status": "proved",
   "theorems": [
    "C28_roundtrip",
    "C28_padding"
   ],
   "note": "Any stream of integers, each in any code, after any builder history and followed by any bits; also the padding functions."
  },
  {
   "property": "C29",
   "status": "proved",
   "theorems": [
    "C29_darray",
    "C29_rs_bit_vector",
    "C29_select_unique"
   ],
   "note": "darray for ones and zeros, and rs_bit_vector (rank, rank0, select, select0, with or without hints): every bit vector."
  },
  {
   "property": "C30",
   "status": "proved",
   "theorems": [
    "C30_popcount",
    "C30_select_in_word",
    "C30_msb",
    "C30_lsb",
    "C30_msb_lsb_zero",
    "C30_zero",
    "C30_ceil_log2",
    "C30_floor_log2",
    "C30_reverse_bits"
   ],
   "note": "All primitives as written in C++ (bytewise code and the select table, without USE_INTRINSICS/USE_PDEP, where single machine instructions are used instead); the two-argument msb and lsb report 0 by false, and proved so; floor_log2 and reverse_bits are covered too (C30_floor_log2, C30_reverse_bits)."
  },
  {
   "property": "C31",
   "status": "proved",
   "theorems": [
    "C31_split_exists_unique",
    "C31_parse",
    "C31_parse_any"
   ],
   "note": "Model of parse() proved against an independent definition of splitting at spaces. C31_parse_any: for any number of terms, with the terms the dictionary has kept."
  },
  {
   "property": "C32",
   "status": "proved",
   "theorems": [
    "C32_conjunctive_tokens",
    "C32_deduplicate",
    "C32_type1",
    "C32_type2",
    "C32_type3",
    "C32_type4"
   ],
   "note": "All four types, every collection, k, state of memory and session, on any containers: sessions whose conjunctive searches differ only in order and repetition of complete tokens (and in spaces) get equal answers, or the same exception or undefined behaviour. C32_deduplicate, C32_conjunctive_tokens: why, and the same for the specification."
  },
  {
   "property": "C33",
   "status": "proved",
   "theorems": [
    "C33_forward_partial",
    "C33_forward_bits"
   ],
   "note": "C33_forward_bits: Elias-Fano pointers and compact_vector on bits; every list of ids, document and range."
  },
  {
   "property": "C34",
   "status": "partial",
   "theorems": [
    "C34_index_partial",
    "C34_index_any_partial",
    "C34_docid_to_lexid_partial",
    "C34_docid_to_lexid_refuted",
    "C34_docid_to_lexid_exact_partial",
    "C34_index_bits_partial"
   ],
   "note": "The list of doc ids and the doc-to-position map of a built index are mutually inverse; if the number of completions is a multiple of 17 (refuted for 17), on the stored completions only."
  },
  {
   "property": "C35",
   "status": "proved",
   "theorems": [
    "C35_blocks_partial",
    "C35_blocks_bits",
    "C35_bounds"
   ],
   "note": "C35_blocks_bits: for every block size, on bits; postings fit 32 bits."
  },
  {
   "property": "C36",
   "status": "partial",
   "theorems": [
    "C36_blocked_intersection_partial",
    "C36_single_block_refuted",
    "C36_blocked_intersection_bits_partial"
   ],
   "note": "Exact for terms in two or more blocks; for terms in one block exact except that the first document of the block is skipped, which refutes the full statement (F5)."
  },
  {
   "property": "C37",
   "status": "partial",
   "theorems": [
    "C37_type1_session_partial",
    "C37_answer_unique",
    "C37_type2_session_partial",
    "C37_type3_session_partial",
    "C37_type4_session_partial",
    "C37_program_bits_partial",
    "C37_type1_any_partial",
    "C37_type2_any_partial",
    "C37_type3_any_partial",
    "C37_type4_any_partial",
    "C37_any_unique",
    "C37_program_any_bits_partial",
    "C37_program4_any_bits_partial",
    "C37_preprocessed_any_partial",
    "C37_preprocessed_partial",
    "C37_type1_session_bits_partial",
    "C37_type2_session_bits_partial",
    "C37_type3_session_bits_partial",
    "C37_type4_session_bits_partial"
   ],
   "note": "All four types: any sequence of covered requests gets the answers determined by the collection alone (type 4: by the collection and its blocks; sound answers, exact under query_exact). C37_program_bits_partial, C37_program_any_bits_partial, C37_program4_any_bits_partial: from the text of the input files to the answers, on bits. The _any_ theorems cover requests with any query and any k, and collections of any size. C37_preprocessed_any_partial: from the raw input through the preprocessing scripts."
  },
  {
   "property": "C38",
   "status": "partial",
   "theorems": [
    "C38_k_refuted",
    "C38_pool_refuted",
    "C38_type1_partial",
    "C38_type2_partial",
    "C38_type3_partial",
    "C38_type4_partial",
    "C38_type2_overrun_refuted",
    "C38_type2_stumble_refuted",
    "C38_room_refuted",
    "C38_http_k_refuted"
   ],
   "note": "Every k, including 0 (no limit) and k > 15: a request to an index of any type is answered if its answer is reportable (at most 15 results, the result buffer has room, no word and, for types 2, 3 and 4, no completion has been lost; type 2: also no overrun by a further candidate and no lost candidate), and is undefined behaviour otherwise. Refuted for k=0, k=16, for 15 long strings, for 10 strings that would fit the buffer (C38_room_refuted), and for exactly 15 results with type 2 (C38_type2_overrun_refuted), and for a lost candidate (C38_type2_stumble_refuted)."
  },
  {
   "property": "C39",
   "status": "partial",
   "theorems": [
    "C39_topcomp_bits_partial",
    "C39_topcomp_exact_partial",
    "C39_topcomp_loaded_exact_partial",
    "C39_preprocessed_partial",
    "C39_topcomp_loaded_partial",
    "C39_body_json_partial",
    "C39_topcomp_partial",
    "C39_empty_refuted",
    "C39_percent_refuted"
   ],
   "note": "Every non-empty result whose strings contain no percent sign: the body is JSON (independent grammar in S_Json) whose values decode to the reported strings in order, and UTF-8 if they are. Refuted for the empty result (F22) and for percent signs (F29: the body is used as a printf format). C39_topcomp_loaded_partial: the same for a server that loads an index file written by the build tool. C39_topcomp_exact_partial: for every query and every k that fits 32 bits. C39_topcomp_loaded_exact_partial: both together."
  },
  {
   "property": "C40",
   "status": "proved",
   "theorems": [
    "C40_gnu_heap",
    "C40_gnu_defined",
    "C40_gnu_history",
    "C40_iso_contract_refuted",
    "C40_heap_history",
    "C40_heapify"
   ],
   "note": "Any history of push/pop/heapify/make_heap, for every implementation meeting the contract of the std heap algorithms. C40_gnu_*: the contract of the standard heap algorithms is met by those of libstdc++, also after the root has been changed (F24)."
  },
  {
   "property": "C41",
   "status": "partial",
   "theorems": [
    "C41_byte_range_compare_partial",
    "C41_byte_range_compare_same_cstr",
    "C41_nul_free_enough",
    "C41_uint32_range_compare",
    "C41_byte_range_compare_bounded_partial",
    "C41_uint32_range_compare_bounded",
    "C41_byte_range_compare_nul_refuted"
   ],
   "note": "Integer versions proved for all sequences. Byte versions: exactly the pairs that agree up to and including a NUL are compared by length only (refuted), all others correctly; one string without NUL is enough."
  },
  {
   "property": "C42",
   "status": "partial",
   "theorems": [
    "C42_same_replies_partial",
    "C42_correct_partial",
    "C42_locate_refuted",
    "C42_race_exact_partial",
    "C42_threads_partial"
   ],
   "note": "Any number of threads, each making any number of lookups (locate, locate_prefix, extract of both dictionaries), interleaved access by access: two threads can race on a static array if and only if two of them decode a bucket with the same function (C42_race_exact_partial); otherwise all replies are correct in every interleaving (C42_threads_partial). Refuted for lookups by the same function (F21): wrong replies even with atomic accesses. Sequentially consistent memory."
  },
  {
   "property": "C43",
   "status": "partial",
   "theorems": [
    "C43_zero_doc_refuted",
    "C43_type1_exact_partial",
    "C43_type2_exact_partial",
    "C43_type3_exact_partial",
    "C43_type4_exact_partial",
    "C43_bits_partial",
    "C43_duplicate_completions_refuted"
   ],
   "note": "The claim is false (C43_zero_doc_refuted; duplicates: C43_duplicate_completions_refuted). Proved: for every well-formed collection, of any size, building each type yields an index or throws, nothing else, and exactly which: type 1 builds iff some doc id is positive and some term does not occur in document 0; types 2-4 likewise on the completions the builder keeps (F23), type 3 and 4 without the second condition. On bits and from the text of the files: C43_bits_partial."
  },
  {
   "property": "C44",
   "status": "proved",
   "theorems": [
    "C44_mapped",
    "C44_files",
    "C44_large_id_hangs"
   ],
   "note": "Every list of records (32-bit doc ids, non-zero 32-bit token ids), every layout of white space: both ways of reading yield exactly the records and stop. C44_files: the other files too. C44_large_id_hangs: larger ids make the reader loop forever."
  },
  {
   "property": "C45",
   "status": "partial",
   "theorems": [
    "C45_program1_any_partial",
    "C45_program2_any_partial",
    "C45_program3_any_partial",
    "C45_program4_any_partial",
    "C45_type1_partial",
    "C45_type2_partial",
    "C45_type3_partial",
    "C45_type4_partial",
    "C45_program1_partial",
    "C45_program2_partial",
    "C45_program3_partial",
    "C45_program4_partial"
   ],
   "note": "All four types: every index that can be built from a well-formed collection whose dictionary stays below 4 GiB is read back exactly, whatever the object loaded into held, and another process (with other heap and sort functions) answers every session of requests correctly from the file; also the web server. C45_program1..4_any_partial: the same for every query and every k, with the exact answers. Every number in the index is shown to fit the type it is written with. Partial: essentials is not in /repo, so the format (bytes in memory, length-prefixed vectors) is assumed; dictionaries of 4 GiB or more are outside."
  },
  {
   "property": "C46",
   "status": "proved",
   "theorems": [
    "C46_long_word_refuted",
    "C46_long_words_refuted",
    "C46_preprocess",
    "C46_stats",
    "C46_collection",
    "C46_blank_line"
   ],
   "note": "For Python 3 and Python 2 (S_Python), every valid input (distinct ids below 2^32 - 2, 1 to 63 words and at most 128 bytes per completion, lexicographical order of code points or bytes), in any layout with \\n or \\r\\n: the five files hold exactly the one collection the input describes (words in UTF-8; for Python 2, bytes as they are), the numbers of .mapped.stats are exact too (C46_stats: longest completion, trie nodes of each level), and an answer over that collection is an answer over the input. A blank line makes the scripts fail (C46_blank_line). From the input text through preprocessing, build tool, index file and loading to the answers: C37_preprocessed_partial, C37_preprocessed_any_partial, C39_preprocessed_partial. C46_long_word_refuted, C46_long_words_refuted: the limit of 128 is checked on characters, so words of more than 128 bytes get through and are then reported wrongly, not found or make the search write out of bounds (F55); C46_preprocess assumes at most 128 bytes."
  },
  {
   "property": "C47",
   "status": "partial",
   "theorems": [
    "C47_held_out",
    "C47_queries",
    "C47_never_suggested",
    "C47_served_partial",
    "C47_python3_refuted",
    "C47_served_any_partial"
   ],
   "note": "Python 2: whatever random.shuffle does, the query files hold up to n different completions of each length, the collection written is exactly that of the other completions, and (all four types, end to end through build tool, index file and loading, every session of requests that the index answers, also where answers are incomplete) every result is a completion that was not chosen, with its id, and no answer contains a held-out query (C47_served_any_partial). Partial: refuted under Python 3, where filter_dataset.py fails (C47_python3_refuted); the served theorems have the hypotheses of C37_preprocessed_partial and C37_preprocessed_any_partial; at least one completion must remain."
  },
  {
   "property": "C48",
   "status": "partial",
   "theorems": [
    "C48_map_queries_partial",
    "C48_number_unique",
    "C48_empty_line_refuted"
   ],
   "note": "For all files of a well-formed collection and all texts whose lines are not empty: one line per query with the numbers of all its tokens; the numbers are unique and agree with the lists of C49. Partial: tokens outside the dictionary get 4294967294, terms lost by the dictionary (a multiple of 17 terms, F23) are such tokens, an empty line is undefined (C48_empty_line_refuted)."
  },
  {
   "property": "C49",
   "status": "proved",
   "theorems": [
    "C49_ds2i",
    "C49_integers_unique",
    "C49_lists_of_tokens"
   ],
   "note": "For all files of a well-formed collection: the exact contents of both files, decoded by an independent relation; C49_lists_of_tokens connects them with C48."
  },
  {
   "property": "C50",
   "status": "partial",
   "theorems": [
    "C50_load_queries_partial",
    "C50_exact",
    "C50_matches",
    "C50_all",
    "C50_percentage_refuted",
    "C50_empty_line_refuted"
   ],
   "note": "Bounds for every percentage m/2^e (every float in [0,1] is one) with the float rounding modelled exactly; the exact cut when nothing is rounded; no change with 100%; matches are kept. Partial: lines that are empty (undefined, C50_empty_line_refuted) or have 2^24 - 2 bytes or more; more than the documented percentage is kept (C50_percentage_refuted)."
  },
  {
   "property": "C51",
   "status": "partial",
   "theorems": [
    "C51_type1_partial",
    "C51_type2_partial",
    "C51_type3_partial",
    "C51_type4_partial",
    "C51_k0_refuted"
   ],
   "note": "All four types, built, saved and loaded. Partial: the hypotheses of C45_program*_any_partial on the collection and the requests; type 4 for requests it answers as the others; effectiveness with k = 0 writes to memory that is not there (C51_k0_refuted)."
  },
  {
   "property": "C52",
   "status": "partial",
   "theorems": [
    "C52_parentheses_partial",
    "C52_partners",
    "C52_enclosed",
    "C52_parentheses_refuted"
   ],
   "note": "All matching pairs and all enclosed positions, on bits. Partial: the matching parenthesis of the last bit of a word (find_close) or the first bit of a word (find_open) is looked for with a shift by 64, which is undefined (C52_parentheses_refuted); whatever value the shift yields, the answer is right."
  },
  {
   "property": "C53",
   "status": "proved",
   "theorems": [
    "C53_type1",
    "C53_type2",
    "C53_type3",
    "C53_type4",
    "C53_program1",
    "C53_program2",
    "C53_program3",
    "C53_program4"
   ],
   "note": "All four types, from the collection and from the files (build tool, then statistics tool). Not modelled: the conversion to MiB, bits per integer and percentages in double, and the text printed."
  },
  {
   "property": "C54",
   "status": "partial",
   "theorems": [
    "C54_read_partial",
    "C54_history_partial",
    "C54_returns_partial",
    "C54_intersects_partial",
    "C54_intersection_partial",
    "C54_alignment_refuted",
    "C54_universe_refuted"
   ],
   "note": "All integer sizes of 1 to 8 bytes, every history, binary search and scan, intersections. Partial: reads are taken as x86-64 does them; the language calls the misaligned ones undefined (C54_alignment_refuted). The universe has to fit the integer type (C54_universe_refuted)."
  },
  {
   "property": "C55",
   "status": "partial",
   "theorems": [
    "C55_type1_partial",
    "C55_type2_partial",
    "C55_type3_partial",
    "C55_type4_partial",
    "C55_no_error_refuted",
    "C55_silent_refuted"
   ],
   "note": "Every number of bytes, every collection, all four types: what loading does is described exactly (undefined before the words of the last vector, silently wrong words among them, the complete index otherwise). Partial: the full statement is false (C55_no_error_refuted, C55_silent_refuted)."
  },
  {
   "property": "C56",
   "status": "proved",
   "theorems": [
    "C56_type1",
    "C56_type2",
    "C56_type3",
    "C56_type4",
    "C56_type4_unlimited_refuted"
   ],
   "note": "All four types, every query, any two histories, 1 <= k <= k'; types 1-3 also if k' = 0 means no limit (for type 4 that addition is false: C56_type4_unlimited_refuted, F10)."
  },
  {
   "property": "C57",
   "status": "partial",
   "theorems": [
    "C57_typing",
    "C57_token",
    "C57_type1_partial",
    "C57_type2_partial",
    "C57_type3_partial",
    "C57_type4_partial",
    "C57_type4_conj_partial",
    "C57_first_term_refuted",
    "C57_first_completion_refuted",
    "C57_type4_refuted"
   ],
   "note": "Typing on and adding tokens, every query, any two histories. Partial: the full statement is false where the last token becomes the first term (C57_first_term_refuted, F1), for the first completion in prefix searches of types 2, 3, 4 (C57_first_completion_refuted, F2) and for conjunctive searches of type 4 that are not answered exactly (C57_type4_refuted, F6); proved for everything else."
  },
  {
   "property": "C58",
   "status": "partial",
   "theorems": [
    "C58_type1",
    "C58_type2",
    "C58_type3",
    "C58_type4_partial",
    "C58_type4_refuted"
   ],
   "note": "Types 1, 2, 3: proved without condition. Type 4: proved for conjunctive searches that are answered exactly; false otherwise (C58_type4_refuted, F5)."
  },
  {
   "property": "C59",
   "status": "partial",
   "theorems": [
    "C59_type1",
    "C59_type2",
    "C59_type3",
    "C59_type4_partial",
    "C59_type4_refuted",
    "C59_spaces_refuted"
   ],
   "note": "Types 1, 2, 3: proved for both searches and every k, for collections whose terms have no spaces (false otherwise: C59_spaces_refuted). Type 4: proved for prefix searches and for conjunctive searches that are answered exactly; false otherwise (C59_type4_refuted, F5)."
  },
  {
   "property": "C60",
   "status": "proved",
   "theorems": [
    "C60_type1",
    "C60_type2",
    "C60_type3",
    "C60_type4"
   ],
   "note": "All four types."
  },
  {
   "property": "C61",
   "status": "partial",
   "theorems": [
    "C61_type1_partial",
    "C61_type2_partial",
    "C61_type3_partial",
    "C61_type4_partial",
    "C61_new_token_refuted",
    "C61_first_refuted"
   ],
   "note": "Proved for prefix search, and for conjunctive search when no complete token of the query is a new term (C61_new_token_refuted: unknown tokens are ignored, so a new term takes results away). Excluded: F1 (last token = proper prefix of the first term; C61_first_refuted), F2 (the first completion with types 2-4), F23 (sizes that are a multiple of 17), and for type 4 the conjunctive searches that are not exact (F5, F6)."
  },
  {
   "property": "C62",
   "status": "partial",
   "theorems": [
    "C62_extract_behind_refuted",
    "C62_fc_partial",
    "C62_unknown_refuted"
   ],
   "note": "C62_fc_partial: exact results if every query is a term stored by all seven dictionaries. Otherwise undefined behaviour for every input (C62_unknown_refuted, F44): locate's invalid id 2^32 - 1 is given to extract. C62_extract_behind_refuted: extract is undefined for every number behind the last string stored, for every bucket size."
  },
  {
   "property": "C63",
   "status": "partial",
   "theorems": [
    "C63_extract_behind_refuted",
    "C63_ifc_partial",
    "C63_many_refuted"
   ],
   "note": "C63_ifc_partial: exact results if there are at most as many queries as completions stored by each of the seven dictionaries. With more, undefined behaviour for every order (C63_many_refuted, F44). C63_extract_behind_refuted: the same for extract with any number and any bucket size."
  },
  {
   "property": "C64",
   "status": "partial",
   "theorems": [
    "C64_trie_partial",
    "C64_dict_partial"
   ],
   "note": "The full statement is false: the range of the last token counts the terms from 0 and the completions count them from 1 (C64_numbers_refuted, F45), and the integer dictionary changes the query between the runs (C64_runs_refuted, F46). C64_trie_partial and C64_dict_partial say for every input exactly which search each run makes and that its result is exact; nothing is undefined."
  },
  {
   "property": "C65",
   "status": "partial",
   "theorems": [
    "C65_fc_dictionary_partial",
    "C65_first_term_refuted",
    "C65_integer_dictionary_partial",
    "C65_integer_dictionary_refuted",
    "C65_trie"
   ],
   "note": "The full statement is false for the two dictionaries. C65_fc_dictionary_partial: test_fc_dictionary passes exactly when the number of terms is no multiple of 17 (F23) and the first term has one character (F1); it never has undefined behaviour. C65_integer_dictionary_partial / _refuted: test_integer_fc_dictionary passes when the number of completions is no multiple of 17 and reads outside the dictionary otherwise. C65_trie: test_completion_trie always passes."
  },
  {
   "property": "C66",
   "status": "partial",
   "theorems": [
    "C66_type1_starts",
    "C66_type2_starts",
    "C66_type3_starts",
    "C66_type4_starts",
    "C66_type1_partial",
    "C66_type2_partial",
    "C66_type3_partial",
    "C66_type4_partial",
    "C66_first_term_refuted"
   ],
   "note": "C66_type1_starts to C66_type4_starts: every suggestion starts with the query, for every query, every k and every state, without further conditions. The converse is false for queries affected by F1 (C66_first_term_refuted) and F2 and sizes affected by F23; C66_type1_partial to C66_type4_partial give it for all other queries, on collections whose terms contain no spaces (the scripts split at spaces)."
  },
  {
   "property": "C67",
   "status": "partial",
   "theorems": [
    "C67_lists",
    "C67_intersections",
    "C67_forward_partial",
    "C67_forward_refuted"
   ],
   "note": "The two tests of the inverted index are proved to pass on every collection, for all queries of at least two terms. The test of the forward index counts to the number of terms instead of the number of documents: proved to pass when there are at least as many documents as terms, refuted on a collection with three terms and one document (F48). The theorem holds for any queries; C69_queries shows that the generator the test uses gives such queries."
  },
  {
   "property": "C68",
   "status": "partial",
   "theorems": [
    "C68_docs_partial",
    "C68_minimal_partial",
    "C68_ranges",
    "C68_any_ranges",
    "C68_drawn_partial",
    "C68_minimal_refuted",
    "C68_drawn_refuted"
   ],
   "note": "C68_docs_partial: the test of the doc ids passes for all ranges (when all doc ids are 0 the list cannot be built, F11). C68_minimal_partial: the test of the minimal doc ids passes exactly when each random range is longer than 10 or has no duplicates, because topk ignores unique on short ranges (F19): the test passes or fails by chance (F49). C68_ranges: the generator of the test gives only ranges inside the list, for every source of random numbers; C68_any_ranges: it can give any such ranges; C68_drawn_partial and C68_drawn_refuted: the two tests with drawn ranges."
  },
  {
   "property": "C69",
   "status": "partial",
   "theorems": [
    "C69_test_partial",
    "C69_queries",
    "C69_one_term_refuted",
    "C69_test_refuted"
   ],
   "note": "Exact: the test always ends with a verdict, and passes exactly if no query drawn has all its terms in one block whose first document has all of them (F5, F50). C69_queries: the random queries are as the tests need them; with a single term the generator never ends (F51)."
  },
  {
   "property": "C70",
   "status": "partial",
   "theorems": [
    "C70_preprocessed_partial",
    "C70_preprocessed_refuted",
    "C70_test_partial",
    "C70_completions",
    "C70_unmatched_refuted",
    "C70_seven_refuted",
    "C70_no_files_refuted"
   ],
   "note": "C70_test_partial: exactly when the test passes; C70_completions: it passes for completions of the collection as queries when the first completion is the first term and has one character; C70_preprocessed_partial: so it passes on the files preprocess.sh makes of such an input, for both Pythons and every shuffle (C70_preprocessed_refuted: not for every valid input). Refuted in general: the file for seven terms has another name, so that only the first percentage is tried (F52); fails for queries nothing starts with (F53); F1, F2, F23."
  },
  {
   "property": "C71",
   "status": "partial",
   "theorems": [
    "C71_type1",
    "C71_type2",
    "C71_type3",
    "C71_type4_partial",
    "C71_type1_alone_partial",
    "C71_type2_alone_partial",
    "C71_type3_alone_partial",
    "C71_type4_alone_partial",
    "C71_type4_refuted",
    "C71_lost_refuted"
   ],
   "note": "Types 1, 2 and 3: both searches, every k and every size, for every completion that the dictionaries have kept (all of them unless F23 applies); F1 and F2 do not matter here. If no other completion continues it, prefix search of all four types answers with exactly this one result, for every k. Partial: refuted for conjunctive search with type 4 (F5, C71_type4_refuted; C71_type4_partial covers queries answered exactly) and for completions lost by F23 (C71_lost_refuted)."
  },
  {
   "property": "C72",
   "status": "partial",
   "theorems": [
    "C72_type1",
    "C72_type2",
    "C72_type3",
    "C72_type4_partial",
    "C72_doc0_refuted"
   ],
   "note": "Types 1, 2 and 3: every request, every k, every size, both directions, and undefined behaviour on one side exactly if on the other. Partial: type 4 only for prefix search and conjunctive searches answered exactly (F5, C72_type4_partial); and refuted for the building of the index: the doc id 0 is not like the others (F11, C72_doc0_refuted)."
  },
  {
   "property": "C73",
   "status": "partial",
   "theorems": [
    "C73_type1",
    "C73_type2_partial",
    "C73_type3_partial",
    "C73_type4_partial",
    "C73_first_refuted",
    "C73_type4_refuted"
   ],
   "note": "Type 1: both searches, every size and every k; undefined behaviour exactly if the answer cannot be reported. Types 2 and 3: conjunctive search; prefix search lists the best completions, or, unless the first completion is the first term alone, the best ones without the first completion. Partial: that exception is a refutation (F2, C73_first_refuted); conjunctive search with type 4 only if there is one block, otherwise refuted (F6, F7, C73_type4_refuted)."
  },
  {
   "property": "C74",
   "status": "proved",
   "theorems": [
    "C74_type1",
    "C74_type2",
    "C74_type3",
    "C74_type4",
    "C74_sessions"
   ],
   "note": "All four types, without any condition on the index or the state; also when the request goes wrong. (The web server cuts queries to its buffer first, C39.)"
  },
  {
   "property": "C75",
   "status": "proved",
   "theorems": [
    "C75_type1",
    "C75_type2",
    "C75_type3",
    "C75_type4",
    "C75_nothing1",
    "C75_nothing2",
    "C75_nothing3",
    "C75_nothing4"
   ],
   "note": "All four types, any containers, all sizes, k and histories; the answers are the same whatever they are (also undefined behaviour). The proof generalises that of C32."
  },
  {
   "property": "C76",
   "status": "partial",
   "theorems": [
    "C76_type1",
    "C76_type2",
    "C76_type3",
    "C76_type4_partial",
    "C76_type4_refuted",
    "C76_spaces_refuted"
   ],
   "note": "Types 1, 2, 3: every request that answers, every size (C76_type1, C76_type2, C76_type3). Type 4: the texts are right in every answer, order and no repetition for prefix search and for the conjunctive searches the index answers exactly (C76_type4_partial); false for the others (C76_type4_refuted, F7). Words with spaces can make different completions look the same (C76_spaces_refuted); the scripts produce none."
  },
  {
   "property": "C77",
   "status": "partial",
   "theorems": [
    "C77_type1_partial",
    "C77_type2_partial",
    "C77_type3_partial",
    "C77_type4_partial",
    "C77_first_refuted"
   ],
   "note": "Types 1 to 3, where both indexes answer, without the requests about the first term or completion (F1, F2: refuted there, C77_first_refuted) and the sizes of F23. Type 4: prefix searches, and the conjunctive searches that both indexes answer exactly (F5)."
  },
  {
   "property": "C78",
   "status": "partial",
   "theorems": [
    "C78_type1",
    "C78_type2",
    "C78_type3",
    "C78_type4_prefix",
    "C78_type4_partial",
    "C78_type4_refuted"
   ],
   "note": "Types 1 to 3 and the prefix searches of type 4: proved for every well-formed collection, request and history, including whether the index is built at all and whether a request goes wrong (for type 4, also between different block sizes). Conjunctive searches of type 4: proved for exact queries (S_Blocked.query_exact_by) and k >= 1; for the others it is refuted (F56: of two blocks at the same document only the one on top of the heap is asked, so the answer depends on the library)."
  },
  {
   "property": "C79",
   "status": "partial",
   "theorems": [
    "C79_no_markup_partial",
    "C79_text_partial",
    "C79_highlight_partial",
    "C79_spaces",
    "C79_definite",
    "C79_empty_box_refuted",
    "C79_own_tag_refuted"
   ],
   "note": "No markup but <strong> and exact text for every suggestion and every way the matches may cut it; highlighting for words without special characters; nothing in bold for spaces only. Excluded and refuted: an empty box inserts suggestions as raw HTML, which the server's answer to the empty query makes reachable (F58); suggestions that spell the tags <strong>, </strong> (F59). Keywords with special characters go into the regular expression unescaped (F60): what the browser then matches, or whether it throws, is a parameter. jQuery-Autocomplete is not part of the repository."
  },
  {
   "property": "C80",
   "status": "partial",
   "theorems": [
    "C80_typed_partial",
    "C80_long",
    "C80_long_refuted"
   ],
   "note": "Texts of at most 127 bytes with the numbers the page's slider can send (1 to 15): as C39. Longer texts are answered as if nothing had been typed (C80_long, for every collection), which C80_long_refuted shows to be wrong suggestions (F61). The decoding of the URL is mongoose's, which is not in the repository."
  },
  {
   "property": "C81",
   "status": "partial",
   "theorems": [
    "C81_shown_partial"
   ],
   "note": "Composition of C79 and C80, with their exclusions (F58-F61) and those of C39; typed text with special characters or white space other than spaces is excluded. Server bytes and page characters are identified, which holds for ASCII."
  },
  {
   "property": "C82",
   "status": "partial",
   "theorems": [
    "C82_longer",
    "C82_unreported",
    "C82_wrong_refuted"
   ],
   "note": "Bytes behind a complete index are ignored, for all four types (C82_longer). The rest is false: no file whatsoever is reported as damaged (C82_unreported, for every content), and an index file without its last 8 bytes loads and gives wrong answers (C82_wrong_refuted, F62). essentials is an empty submodule, modelled by its documented behaviour; that a stopped program leaves a prefix of the file is an assumption about the file system."
  },
  {
   "property": "C83",
   "status": "partial",
   "theorems": [
    "C83_sent_partial",
    "C83_session_partial",
    "C83_short_partial",
    "C83_unreportable"
   ],
   "note": "Proved: every response equals that of a fresh server and lists what the search finds (C83_session_partial); with completions of at most L bytes and a number of terms that is no multiple of 17, this holds of every request for k suggestions with 1 <= k <= 15 and k * L <= 1664 (C83_short_partial; so for all k up to 15 with L = 110). False otherwise: the first request whose answer cannot be reported is undefined behaviour (C83_unreportable). With percent signs in the collection: C83_sent_partial. Missing: answers with single percent signs (F29), k without a number (C84), no suggestions (not JSON, F22), texts over 127 bytes (F61), F1. Mongoose is not modelled; requests are handled one after the other, as its single-threaded loop does."
  },
  {
   "property": "C84",
   "status": "partial",
   "theorems": [
    "C84_all_requests",
    "C84_every_request_partial",
    "C84_k_refuted"
   ],
   "note": "Every request is classified (C84_all_requests; with what arrives of percent signs, F29. C84_every_request_partial: collections without percent signs): without a number in k an exception that nothing catches, otherwise exactly one answer, which is the response if it can be reported and undefined behaviour if not. So the property is false (C84_k_refuted, F63); it holds of the requests of C83_short_partial. The number in k is specified apart from the model, as strtoull's documentation has it; that an exception thrown in the handler ends the process is C++'s rule, since neither main nor mongoose (C) catches it."
  },
  {
   "property": "C85",
   "status": "partial",
   "theorems": [
    "C85_site_partial",
    "C85_input_partial",
    "C85_affordable"
   ],
   "note": "C85_site_partial: the composition of C46, C44, C45 and C83, with the hypotheses put on the collection the input describes. C85_input_partial: the same with hypotheses on the input and its sorted list of distinct words only (servable, not_first). Missing: inputs whose only id is 0 and those where the completion with the id 0 has every word (F11), completions with percent signs (F29), requests for k suggestions if completions have up to L bytes and k * L > 1664 (F13; none up to k = 8, as valid inputs have at most 190 bytes in a completion: C85_affordable), numbers of distinct words that are multiples of 17 (F23), last words that the first word extends (F1), texts of more than 127 bytes (F61), k outside 1..15 (F10, F63), responses without suggestions are not JSON (F22). The page behind the responses: C81."
  },
  {
   "property": "C86",
   "status": "partial",
   "theorems": [
    "C86_percent",
    "C86_unchanged",
    "C86_determined",
    "C86_percent_refuted"
   ],
   "note": "Characterised exactly (C86_percent): pairs of percent signs are halved, a single percent sign in any suggestion is undefined behaviour, everything else arrives; so the property holds exactly of suggestions without percent signs (C86_unchanged) and is false in general (C86_percent_refuted, F29). mongoose is not part of the repository; its printf-like function is assumed to treat %% as printf does, and any other conversion counts as undefined."
  },
  {
   "property": "C87",
   "status": "proved",
   "theorems": [
    "C87_files",
    "C87_input"
   ],
   "note": "C87_files for any files of a collection and C87_input for the input text. Which memory is read before it is written is part of the model: the variables of the readers (junk) and the members of new objects (fresh). essentials' file format is assumed (C45)."
  },
  {
   "property": "C88",
   "status": "partial",
   "theorems": [
    "C88_typed_out_partial"
   ],
   "note": "C88_typed_out_partial: no condition about the first word is needed here, as a whole word never is a proper beginning of the first word (F1). Missing: inputs that servable excludes, as in C85 (percent signs, F29; k * L > 1664, F13; numbers of distinct words that are multiples of 17, F23; F11), k outside 1..15 (F10, F63), completions of more than 127 bytes (F61)."
  },
  {
   "property": "C89",
   "status": "partial",
   "theorems": [
    "C89_narrow_partial"
   ],
   "note": "C89_narrow_partial: C57 for the whole site, in terms of the input text and the responses. Missing: what C85 excludes (F1, F11, F13, F23, F29, F61); for k suggestions or more nothing is claimed, as others may then take the places of those that are dropped."
  }
 ]
}
{
 "C01": [
  "partial",
  "Exact for every well-formed collection over any containers meeting their contracts and over the bit-level ones, for 1<=k<=15; excluded cases: first term strictly extending the last token (refuted), results larger than the pool (refuted), all-zero vectors (refuted), sizes multiple of 17. The _exact_partial theorems characterise the answers for every query, and every size, including F1 and F23 (C01_found_sound, C01_found_missed: which matches are missed; C01_lost_terms_refuted: what F23 does to the answers). They hold for every k (0: no limit)."
 ],
 "C02": [
  "partial",
  "Same scope as C01, for conjunctive search. The _exact_partial theorems characterise the answers for every query, including those that run into F1, and every size of the collection (F23), as far as the answer can be reported. They hold for every k (0: no limit)."
 ],
 "C03": [
  "partial",
  "Exact for every well-formed collection, query, history and containers meeting their contracts, except F1 (first term strictly extending the last token), F11 (zero-only vectors), F13 (pool overflow), F23 (sizes multiple of 17), k outside 1..15. The _bits theorem states it for the containers as implemented on bits. The _exact_partial theorems characterise the answers for every query, including those that run into F1, and every size of the collection (F23), if the answer can be reported and the search does not meet a candidate without a place (overruns) or lost by the dictionary (stumbles, C38_type2_stumble_refuted); otherwise the query is undefined. They hold for every k (0: no limit)."
 ],
 "C04": [
  "partial",
  "Exact for every well-formed collection, query, history and containers meeting their contracts, except F1 (first term strictly extending the last token), F11 (zero-only vectors), F13 (pool overflow), F23 (sizes multiple of 17), k outside 1..15. The _bits theorem states it for the containers as implemented on bits. The _exact_partial theorems characterise the answers for every query, including those that run into F1, and every size of the collection (F23), as far as the answer can be reported. They hold for every k (0: no limit)."
 ],
 "C05": [
  "partial",
  "Type 4, any block size: never reports a wrong completion or text, ordered, at most k; exact when the terms of the last token lie in one block and (complete tokens in one block) its first document does not match (C05_blocked_topk). Four refutations of the full statement (F5-F8). The _bits theorem states it for the containers as implemented on bits. C05_conjunctive_topk_exact_partial says what is answered for every query, every k including 0, every block size and every collection (F1, F5-F8, F10, F23): the answer follows from the blocks (S_Blocked.blocked_answer), and is reported if it is reportable; otherwise the search is undefined behaviour. C05_blocked_sound, _reported, _unique and _topk say what this means: which matches can be missed and why."
 ],
 "C06": [
  "partial",
  "Types 2, 3 and 4. Exact for every well-formed collection, query, history and containers meeting their contracts, except F1 (first term strictly extending the last token), F11 (zero-only vectors), F13 (pool overflow), F23 (sizes multiple of 17), k outside 1..15. Also excluded: F2 (first completion), refuted at user level. The _bits theorem states it for the containers as implemented on bits. The _exact_partial theorems characterise the answers for every query, and every size, including F1, F2 and F23 (C06_found_missed). They hold for every k (0: no limit)."
 ],
 "C07": [
  "partial",
  "Types 1, 2 and 3 give equal results for every sequence of covered requests; refuted for the first completion (F2). Type 4 agrees on prefix searches and on conjunctive searches under query_exact; refuted otherwise. Types 2 and 3 agree on every query, types 1, 2 and 3 on every conjunctive query, if type 2 answers it (C07_types23_any_partial, C07_types12_conjunctive_any_partial)."
 ],
 "C08": [
  "partial",
  "For any list of up to 15 doc ids the pool reads back exactly the texts, if the buffer has room for them (S_Room: what each extraction overwrites; always so with 256 bytes to spare) and the dictionaries have kept their words and completions (always so unless a size is a multiple of 17, C08_reportable); if not, extraction writes or reads out of bounds (the _strings_any theorems decide which)."
 ],
 "C09": [
  "partial",
  "Exact for every well-formed vocabulary of any size: stored terms are given back, and the last 16 terms, which the builder drops when their number is a multiple of 17 (F23, refuted), always read out of bounds. C09_extract_exact_partial: extraction is defined exactly if the buffer has room for the bytes it overwrites. The dictionary theorems hold for every positive bucket size (template parameter; 17 stands for BucketSize + 1 = 17 of the default). C09_wide: the 32-bit pointers lose nothing below 4 GiB, and with 4 GiB of headers some term can never be extracted (F54, for every such vocabulary)."
 ],
 "C10": [
  "partial",
  "Exact for every size: locate finds exactly the stored terms; those dropped when the number of terms is a multiple of 17 (F23, refuted) are not found. The dictionary theorems hold for every positive bucket size (template parameter; 17 stands for BucketSize + 1 = 17 of the default)."
 ],
 "C11": [
  "partial",
  "Exact for every prefix (also with NUL bytes) and every size: the stored terms starting with the prefix, except that the first term is found only by the empty prefix and by itself (F1, refuted); the empty prefix gets all ids. Dropped terms: F23. The dictionary theorems hold for every positive bucket size (template parameter; 17 stands for BucketSize + 1 = 17 of the default)."
 ],
 "C12": [
  "proved",
  "C12_trie_locate_prefix_bits: the trie over Elias-Fano sequences, every well-formed list of completions, every prefix of non-zero ids, 1<=a<=b."
 ],
 "C13": [
  "proved",
  "C13_trie_is_member_bits: the trie over Elias-Fano sequences, every sequence of non-zero ids followed by the terminator."
 ],
 "C14": [
  "partial",
  "Exact for every size: stored completions are given back; those dropped when the number is a multiple of 17 (F23, refuted) always read out of bounds. The dictionary theorems hold for every positive bucket size (template parameter; 17 stands for BucketSize + 1 = 17 of the default)."
 ],
 "C15": [
  "partial",
  "Exact for every prefix, range and size: the stored continuations, except that the first completion is found only if it is prefix++[a] (F2); prefix unchanged unless no match and a = b, then one token longer (F3). The exceptions are refutations of the full statement; dropped completions: F23. The dictionary theorems hold for every positive bucket size (template parameter; 17 stands for BucketSize + 1 = 17 of the default)."
 ],
 "C16": [
  "partial",
  "Exact for every sequence and size: stored completions are located; for any other sequence it is decided by its place among the completions whether the answer is \"not found\" or the code reaches __builtin_unreachable (F4, refuted). The dictionary theorems hold for every positive bucket size (template parameter; 17 stands for BucketSize + 1 = 17 of the default)."
 ],
 "C17": [
  "partial",
  "Exact for every list, range and k>=1, for any correct range-minimum structure and any std heap, and (C17_unsorted_topk_bits_partial) for the compact_vector and cartesian tree as built. Excluded: lists of zeros only (F11: the builder throws), value 2^32-1, 2^30-1 elements or more (F28; C17_long_refuted: the smallest element is missed). The `unique` flag is refuted for short ranges (F19); C17_unique_partial: on ranges longer than k it gives the k smallest distinct values; C17_unique_exact_partial: it does so exactly when the range is longer than k or has no duplicates. C17_any_k: any k and any length of the score buffer."
 ],
 "C18": [
  "partial",
  "Exact for every cursor-like iterator, and (C18_minimal_topk_bits_partial) for the structures as built. Excluded: all lists starting with doc 0 (F11: the builder throws), 2^30-1 lists or more. C18_any_k: any k and any length of the score buffer."
 ],
 "C19": [
  "proved",
  "C19_heap_topk_bits: the inverted index on bits, every family of non-empty increasing lists, any implementation of the std heap algorithms. C19_any_k: any k and any length of the score buffer."
 ],
 "C21": [
  "proved",
  "The whole index on bits: every non-empty sequence of non-empty non-decreasing lists below a universe < 2^55, total below 2^54 elements; read back by iterating, and after every history of iterator operations; intersects(range)."
 ],
 "C22": [
  "proved",
  "C22_intersection_bits: the inverted index on bits, any number of terms in any order; also single lists."
 ],
 "C23": [
  "proved",
  "Every list, position and x up to the universe, and any x at all while the iterator is not exhausted. Refuted outside the claim: duplicates (position skips), x beyond the universe on an exhausted iterator (position() > size())."
 ],
 "C24": [
  "partial",
  "Every non-decreasing sequence of 64-bit values: size, access, range iteration and operator* after ++; next() from begin() exact for all but the last element. next() past the last element, begin()==end and unsorted input are refuted."
 ],
 "C25": [
  "partial",
  "find and ef_sequence range find exact; uint_vec::find_range exact for a<b, refuted for a=b. uint_vec with narrow integers is exact while the largest elements of the groups add up to less than 2^bits (C25_uint_vec_width_partial), and not beyond (F57)."
 ],
 "C26": [
  "partial",
  "All 64-bit values, every width 1..63, operator[], access (width <= 57), enumerator, set. Width 64 evaluates 1<<64 (undefined), all-zero build throws, set of unfitting values disturbs neighbours, access loads outside the vector, enumerator not idempotent: all refuted."
 ],
 "C27": [
  "partial",
  "Every legal history of builder operations (push_back, append_bits, set, set_bits, zero_extend, reverse, and append of a builder with its own history) against lists of bits; size, operator[] and get_bits for len < 64. For len = 64 the mask evaluates 1<<64 (undefined, refuted). get_word64, get_word56, bits_getter, predecessor1, readers and unary iterators (next, skip, skip0) proved; skip_zeros after get_bits(64) refuted, resize refuted (F32; unused by the code)."
 ],
 "C28": [
  "proved",
  "Any stream of integers, each in any code, after any builder history and followed by any bits; also the padding functions."
 ],
 "C29": [
  "proved",
  "darray for ones and zeros, and rs_bit_vector (rank, rank0, select, select0, with or without hints): every bit vector."
 ],
 "C30": [
  "proved",
  "All primitives as written in C++ (bytewise code and the select table, without USE_INTRINSICS/USE_PDEP, where single machine instructions are used instead); the two-argument msb and lsb report 0 by false, and proved so; floor_log2 and reverse_bits are covered too (C30_floor_log2, C30_reverse_bits)."
 ],
 "C31": [
  "proved",
  "Model of parse() proved against an independent definition of splitting at spaces. C31_parse_any: for any number of terms, with the terms the dictionary has kept."
 ],
 "C32": [
  "proved",
  "All four types, every collection, k, state of memory and session, on any containers: sessions whose conjunctive searches differ only in order and repetition of complete tokens (and in spaces) get equal answers, or the same exception or undefined behaviour. C32_deduplicate, C32_conjunctive_tokens: why, and the same for the specification."
 ],
 "C33": [
  "proved",
  "C33_forward_bits: Elias-Fano pointers and compact_vector on bits; every list of ids, document and range."
 ],
 "C34": [
  "partial",
  "The list of doc ids and the doc-to-position map of a built index are mutually inverse; if the number of completions is a multiple of 17 (refuted for 17), on the stored completions only."
 ],
 "C35": [
  "proved",
  "C35_blocks_bits: for every block size, on bits; postings fit 32 bits."
 ],
 "C36": [
  "partial",
  "Exact for terms in two or more blocks; for terms in one block exact except that the first document of the block is skipped, which refutes the full statement (F5)."
 ],
 "C37": [
  "partial",
  "All four types: any sequence of covered requests gets the answers determined by the collection alone (type 4: by the collection and its blocks; sound answers, exact under query_exact). C37_program_bits_partial, C37_program_any_bits_partial, C37_program4_any_bits_partial: from the text of the input files to the answers, on bits. The _any_ theorems cover requests with any query and any k, and collections of any size. C37_preprocessed_any_partial: from the raw input through the preprocessing scripts."
 ],
 "C38": [
  "partial",
  "Every k, including 0 (no limit) and k > 15: a request to an index of any type is answered if its answer is reportable (at most 15 results, the result buffer has room, no word and, for types 2, 3 and 4, no completion has been lost; type 2: also no overrun by a further candidate and no lost candidate), and is undefined behaviour otherwise. Refuted for k=0, k=16, for 15 long strings, for 10 strings that would fit the buffer (C38_room_refuted), and for exactly 15 results with type 2 (C38_type2_overrun_refuted), and for a lost candidate (C38_type2_stumble_refuted)."
 ],
 "C40": [
  "proved",
  "Any history of push/pop/heapify/make_heap, for every implementation meeting the contract of the std heap algorithms. C40_gnu_*: the contract of the standard heap algorithms is met by those of libstdc++, also after the root has been changed (F24)."
 ],
 "C41": [
  "partial",
  "Integer versions proved for all sequences. Byte versions: exactly the pairs that agree up to and including a NUL are compared by length only (refuted), all others correctly; one string without NUL is enough."
 ],
 "C43": [
  "partial",
  "The claim is false (C43_zero_doc_refuted; duplicates: C43_duplicate_completions_refuted). Proved: for every well-formed collection, of any size, building each type yields an index or throws, nothing else, and exactly which: type 1 builds iff some doc id is positive and some term does not occur in document 0; types 2-4 likewise on the completions the builder keeps (F23), type 3 and 4 without the second condition. On bits and from the text of the files: C43_bits_partial."
 ],
 "C20": [
  "partial",
  "Every list with fewer than 2^30-1 elements, on bits (cartesian tree, balanced parentheses, excess minima, rank/select). Refuted for every size from 2^30-1 to 1431655764 (C20_long_refuted, F28): the number of bits wraps in the 32-bit excess type, and a wrong position is answered."
 ],
 "C39": [
  "partial",
  "Every non-empty result whose strings contain no percent sign: the body is JSON (independent grammar in S_Json) whose values decode to the reported strings in order, and UTF-8 if they are. Refuted for the empty result (F22) and for percent signs (F29: the body is used as a printf format). C39_topcomp_loaded_partial: the same for a server that loads an index file written by the build tool. C39_topcomp_exact_partial: for every query and every k that fits 32 bits. C39_topcomp_loaded_exact_partial: both together."
 ],
 "C44": [
  "proved",
  "Every list of records (32-bit doc ids, non-zero 32-bit token ids), every layout of white space: both ways of reading yield exactly the records and stop. C44_files: the other files too. C44_large_id_hangs: larger ids make the reader loop forever."
 ],
 "C42": [
  "partial",
  "Any number of threads, each making any number of lookups (locate, locate_prefix, extract of both dictionaries), interleaved access by access: two threads can race on a static array if and only if two of them decode a bucket with the same function (C42_race_exact_partial); otherwise all replies are correct in every interleaving (C42_threads_partial). Refuted for lookups by the same function (F21): wrong replies even with atomic accesses. Sequentially consistent memory."
 ],
 "C45": [
  "partial",
  "All four types: every index that can be built from a well-formed collection whose dictionary stays below 4 GiB is read back exactly, whatever the object loaded into held, and another process (with other heap and sort functions) answers every session of requests correctly from the file; also the web server. C45_program1..4_any_partial: the same for every query and every k, with the exact answers. Every number in the index is shown to fit the type it is written with. Partial: essentials is not in /repo, so the format (bytes in memory, length-prefixed vectors) is assumed; dictionaries of 4 GiB or more are outside."
 ],
 "C46": [
  "proved",
  "For Python 3 and Python 2 (S_Python), every valid input (distinct ids below 2^32 - 2, 1 to 63 words and at most 128 bytes per completion, lexicographical order of code points or bytes), in any layout with \\n or \\r\\n: the five files hold exactly the one collection the input describes (words in UTF-8; for Python 2, bytes as they are), the numbers of .mapped.stats are exact too (C46_stats: longest completion, trie nodes of each level), and an answer over that collection is an answer over the input. A blank line makes the scripts fail (C46_blank_line). From the input text through preprocessing, build tool, index file and loading to the answers: C37_preprocessed_partial, C37_preprocessed_any_partial, C39_preprocessed_partial. C46_long_word_refuted, C46_long_words_refuted: the limit of 128 is checked on characters, so words of more than 128 bytes get through and are then reported wrongly, not found or make the search write out of bounds (F55); C46_preprocess assumes at most 128 bytes."
 ],
 "C47": [
  "partial",
  "Python 2: whatever random.shuffle does, the query files hold up to n different completions of each length, the collection written is exactly that of the other completions, and (all four types, end to end through build tool, index file and loading, every session of requests that the index answers, also where answers are incomplete) every result is a completion that was not chosen, with its id, and no answer contains a held-out query (C47_served_any_partial). Partial: refuted under Python 3, where filter_dataset.py fails (C47_python3_refuted); the served theorems have the hypotheses of C37_preprocessed_partial and C37_preprocessed_any_partial; at least one completion must remain."
 ],
 "C48": [
  "partial",
  "For all files of a well-formed collection and all texts whose lines are not empty: one line per query with the numbers of all its tokens; the numbers are unique and agree with the lists of C49. Partial: tokens outside the dictionary get 4294967294, terms lost by the dictionary (a multiple of 17 terms, F23) are such tokens, an empty line is undefined (C48_empty_line_refuted)."
 ],
 "C49": [
  "proved",
  "For all files of a well-formed collection: the exact contents of both files, decoded by an independent relation; C49_lists_of_tokens connects them with C48."
 ],
 "C50": [
  "partial",
  "Bounds for every percentage m/2^e (every float in [0,1] is one) with the float rounding modelled exactly; the exact cut when nothing is rounded; no change with 100%; matches are kept. Partial: lines that are empty (undefined, C50_empty_line_refuted) or have 2^24 - 2 bytes or more; more than the documented percentage is kept (C50_percentage_refuted)."
 ],
 "C51": [
  "partial",
  "All four types, built, saved and loaded. Partial: the hypotheses of C45_program*_any_partial on the collection and the requests; type 4 for requests it answers as the others; effectiveness with k = 0 writes to memory that is not there (C51_k0_refuted)."
 ],
 "C52": [
  "partial",
  "All matching pairs and all enclosed positions, on bits. Partial: the matching parenthesis of the last bit of a word (find_close) or the first bit of a word (find_open) is looked for with a shift by 64, which is undefined (C52_parentheses_refuted); whatever value the shift yields, the answer is right."
 ],
 "C53": [
  "proved",
  "All four types, from the collection and from the files (build tool, then statistics tool). Not modelled: the conversion to MiB, bits per integer and percentages in double, and the text printed."
 ],
 "C54": [
  "partial",
  "All integer sizes of 1 to 8 bytes, every history, binary search and scan, intersections. Partial: reads are taken as x86-64 does them; the language calls the misaligned ones undefined (C54_alignment_refuted). The universe has to fit the integer type (C54_universe_refuted)."
 ],
 "C55": [
  "partial",
  "Every number of bytes, every collection, all four types: what loading does is described exactly (undefined before the words of the last vector, silently wrong words among them, the complete index otherwise). Partial: the full statement is false (C55_no_error_refuted, C55_silent_refuted)."
 ],
 "C56": [
  "proved",
  "All four types, every query, any two histories, 1 <= k <= k'; types 1-3 also if k' = 0 means no limit (for type 4 that addition is false: C56_type4_unlimited_refuted, F10)."
 ],
 "C57": [
  "partial",
  "Typing on and adding tokens, every query, any two histories. Partial: the full statement is false where the last token becomes the first term (C57_first_term_refuted, F1), for the first completion in prefix searches of types 2, 3, 4 (C57_first_completion_refuted, F2) and for conjunctive searches of type 4 that are not answered exactly (C57_type4_refuted, F6); proved for everything else."
 ],
 "C58": [
  "partial",
  "Types 1, 2, 3: proved without condition. Type 4: proved for conjunctive searches that are answered exactly; false otherwise (C58_type4_refuted, F5)."
 ],
 "C59": [
  "partial",
  "Types 1, 2, 3: proved for both searches and every k, for collections whose terms have no spaces (false otherwise: C59_spaces_refuted). Type 4: proved for prefix searches and for conjunctive searches that are answered exactly; false otherwise (C59_type4_refuted, F5)."
 ],
 "C60": [
  "proved",
  "All four types."
 ],
 "C61": [
  "partial",
  "Proved for prefix search, and for conjunctive search when no complete token of the query is a new term (C61_new_token_refuted: unknown tokens are ignored, so a new term takes results away). Excluded: F1 (last token = proper prefix of the first term; C61_first_refuted), F2 (the first completion with types 2-4), F23 (sizes that are a multiple of 17), and for type 4 the conjunctive searches that are not exact (F5, F6)."
 ],
 "C62": [
  "partial",
  "C62_fc_partial: exact results if every query is a term stored by all seven dictionaries. Otherwise undefined behaviour for every input (C62_unknown_refuted, F44): locate's invalid id 2^32 - 1 is given to extract. C62_extract_behind_refuted: extract is undefined for every number behind the last string stored, for every bucket size."
 ],
 "C63": [
  "partial",
  "C63_ifc_partial: exact results if there are at most as many queries as completions stored by each of the seven dictionaries. With more, undefined behaviour for every order (C63_many_refuted, F44). C63_extract_behind_refuted: the same for extract with any number and any bucket size."
 ],
 "C64": [
  "partial",
  "The full statement is false: the range of the last token counts the terms from 0 and the completions count them from 1 (C64_numbers_refuted, F45), and the integer dictionary changes the query between the runs (C64_runs_refuted, F46). C64_trie_partial and C64_dict_partial say for every input exactly which search each run makes and that its result is exact; nothing is undefined."
 ],
 "C65": [
  "partial",
  "The full statement is false for the two dictionaries. C65_fc_dictionary_partial: test_fc_dictionary passes exactly when the number of terms is no multiple of 17 (F23) and the first term has one character (F1); it never has undefined behaviour. C65_integer_dictionary_partial / _refuted: test_integer_fc_dictionary passes when the number of completions is no multiple of 17 and reads outside the dictionary otherwise. C65_trie: test_completion_trie always passes."
 ],
 "C66": [
  "partial",
  "C66_type1_starts to C66_type4_starts: every suggestion starts with the query, for every query, every k and every state, without further conditions. The converse is false for queries affected by F1 (C66_first_term_refuted) and F2 and sizes affected by F23; C66_type1_partial to C66_type4_partial give it for all other queries, on collections whose terms contain no spaces (the scripts split at spaces)."
 ],
 "C67": [
  "partial",
  "The two tests of the inverted index are proved to pass on every collection, for all queries of at least two terms. The test of the forward index counts to the number of terms instead of the number of documents: proved to pass when there are at least as many documents as terms, refuted on a collection with three terms and one document (F48). The theorem holds for any queries; C69_queries shows that the generator the test uses gives such queries."
 ],
 "C68": [
  "partial",
  "C68_docs_partial: the test of the doc ids passes for all ranges (when all doc ids are 0 the list cannot be built, F11). C68_minimal_partial: the test of the minimal doc ids passes exactly when each random range is longer than 10 or has no duplicates, because topk ignores unique on short ranges (F19): the test passes or fails by chance (F49). C68_ranges: the generator of the test gives only ranges inside the list, for every source of random numbers; C68_any_ranges: it can give any such ranges; C68_drawn_partial and C68_drawn_refuted: the two tests with drawn ranges."
 ],
 "C69": [
  "partial",
  "Exact: the test always ends with a verdict, and passes exactly if no query drawn has all its terms in one block whose first document has all of them (F5, F50). C69_queries: the random queries are as the tests need them; with a single term the generator never ends (F51)."
 ],
 "C70": [
  "partial",
  "C70_test_partial: exactly when the test passes; C70_completions: it passes for completions of the collection as queries when the first completion is the first term and has one character; C70_preprocessed_partial: so it passes on the files preprocess.sh makes of such an input, for both Pythons and every shuffle (C70_preprocessed_refuted: not for every valid input). Refuted in general: the file for seven terms has another name, so that only the first percentage is tried (F52); fails for queries nothing starts with (F53); F1, F2, F23."
 ],
 "C71": [
  "partial",
  "Types 1, 2 and 3: both searches, every k and every size, for every completion that the dictionaries have kept (all of them unless F23 applies); F1 and F2 do not matter here. If no other completion continues it, prefix search of all four types answers with exactly this one result, for every k. Partial: refuted for conjunctive search with type 4 (F5, C71_type4_refuted; C71_type4_partial covers queries answered exactly) and for completions lost by F23 (C71_lost_refuted)."
 ],
 "C72": [
  "partial",
  "Types 1, 2 and 3: every request, every k, every size, both directions, and undefined behaviour on one side exactly if on the other. Partial: type 4 only for prefix search and conjunctive searches answered exactly (F5, C72_type4_partial); and refuted for the building of the index: the doc id 0 is not like the others (F11, C72_doc0_refuted)."
 ],
 "C73": [
  "partial",
  "Type 1: both searches, every size and every k; undefined behaviour exactly if the answer cannot be reported. Types 2 and 3: conjunctive search; prefix search lists the best completions, or, unless the first completion is the first term alone, the best ones without the first completion. Partial: that exception is a refutation (F2, C73_first_refuted); conjunctive search with type 4 only if there is one block, otherwise refuted (F6, F7, C73_type4_refuted)."
 ],
 "C74": [
  "proved",
  "All four types, without any condition on the index or the state; also when the request goes wrong. (The web server cuts queries to its buffer first, C39.)"
 ],
 "C75": [
  "proved",
  "All four types, any containers, all sizes, k and histories; the answers are the same whatever they are (also undefined behaviour). The proof generalises that of C32."
 ],
 "C76": [
  "partial",
  "Types 1, 2, 3: every request that answers, every size (C76_type1, C76_type2, C76_type3). Type 4: the texts are right in every answer, order and no repetition for prefix search and for the conjunctive searches the index answers exactly (C76_type4_partial); false for the others (C76_type4_refuted, F7). Words with spaces can make different completions look the same (C76_spaces_refuted); the scripts produce none."
 ],
 "C77": [
  "partial",
  "Types 1 to 3, where both indexes answer, without the requests about the first term or completion (F1, F2: refuted there, C77_first_refuted) and the sizes of F23. Type 4: prefix searches, and the conjunctive searches that both indexes answer exactly (F5)."
 ],
 "C78": [
  "partial",
  "Types 1 to 3 and the prefix searches of type 4: proved for every well-formed collection, request and history, including whether the index is built at all and whether a request goes wrong (for type 4, also between different block sizes). Conjunctive searches of type 4: proved for exact queries (S_Blocked.query_exact_by) and k >= 1; for the others it is refuted (F56: of two blocks at the same document only the one on top of the heap is asked, so the answer depends on the library)."
 ],
 "C79": [
  "partial",
  "No markup but <strong> and exact text for every suggestion and every way the matches may cut it; highlighting for words without special characters; nothing in bold for spaces only. Excluded and refuted: an empty box inserts suggestions as raw HTML, which the server's answer to the empty query makes reachable (F58); suggestions that spell the tags <strong>, </strong> (F59). Keywords with special characters go into the regular expression unescaped (F60): what the browser then matches, or whether it throws, is a parameter. jQuery-Autocomplete is not part of the repository."
 ],
 "C80": [
  "partial",
  "Texts of at most 127 bytes with the numbers the page's slider can send (1 to 15): as C39. Longer texts are answered as if nothing had been typed (C80_long, for every collection), which C80_long_refuted shows to be wrong suggestions (F61). The decoding of the URL is mongoose's, which is not in the repository."
 ],
 "C81": [
  "partial",
  "Composition of C79 and C80, with their exclusions (F58-F61) and those of C39; typed text with special characters or white space other than spaces is excluded. Server bytes and page characters are identified, which holds for ASCII."
 ],
 "C82": [
  "partial",
  "Bytes behind a complete index are ignored, for all four types (C82_longer). The rest is false: no file whatsoever is reported as damaged (C82_unreported, for every content), and an index file without its last 8 bytes loads and gives wrong answers (C82_wrong_refuted, F62). essentials is an empty submodule, modelled by its documented behaviour; that a stopped program leaves a prefix of the file is an assumption about the file system."
 ],
 "C83": [
  "partial",
  "Proved: every response equals that of a fresh server and lists what the search finds (C83_session_partial); with completions of at most L bytes and a number of terms that is no multiple of 17, this holds of every request for k suggestions with 1 <= k <= 15 and k * L <= 1664 (C83_short_partial; so for all k up to 15 with L = 110). False otherwise: the first request whose answer cannot be reported is undefined behaviour (C83_unreportable). With percent signs in the collection: C83_sent_partial. Missing: answers with single percent signs (F29), k without a number (C84), no suggestions (not JSON, F22), texts over 127 bytes (F61), F1. Mongoose is not modelled; requests are handled one after the other, as its single-threaded loop does."
 ],
 "C84": [
  "partial",
  "Every request is classified (C84_all_requests; with what arrives of percent signs, F29. C84_every_request_partial: collections without percent signs): without a number in k an exception that nothing catches, otherwise exactly one answer, which is the response if it can be reported and undefined behaviour if not. So the property is false (C84_k_refuted, F63); it holds of the requests of C83_short_partial. The number in k is specified apart from the model, as strtoull's documentation has it; that an exception thrown in the handler ends the process is C++'s rule, since neither main nor mongoose (C) catches it."
 ],
 "C85": [
  "partial",
  "C85_site_partial: the composition of C46, C44, C45 and C83, with the hypotheses put on the collection the input describes. C85_input_partial: the same with hypotheses on the input and its sorted list of distinct words only (servable, not_first). Missing: inputs whose only id is 0 and those where the completion with the id 0 has every word (F11), completions with percent signs (F29), requests for k suggestions if completions have up to L bytes and k * L > 1664 (F13; none up to k = 8, as valid inputs have at most 190 bytes in a completion: C85_affordable), numbers of distinct words that are multiples of 17 (F23), last words that the first word extends (F1), texts of more than 127 bytes (F61), k outside 1..15 (F10, F63), responses without suggestions are not JSON (F22). The page behind the responses: C81."
 ],
 "C86": [
  "partial",
  "Characterised exactly (C86_percent): pairs of percent signs are halved, a single percent sign in any suggestion is undefined behaviour, everything else arrives; so the property holds exactly of suggestions without percent signs (C86_unchanged) and is false in general (C86_percent_refuted, F29). mongoose is not part of the repository; its printf-like function is assumed to treat %% as printf does, and any other conversion counts as undefined."
 ],
 "C87": [
  "proved",
  "C87_files for any files of a collection and C87_input for the input text. Which memory is read before it is written is part of the model: the variables of the readers (junk) and the members of new objects (fresh). essentials' file format is assumed (C45)."
 ],
 "C88": [
  "partial",
  "C88_typed_out_partial: no condition about the first word is needed here, as a whole word never is a proper beginning of the first word (F1). Missing: inputs that servable excludes, as in C85 (percent signs, F29; k * L > 1664, F13; numbers of distinct words that are multiples of 17, F23; F11), k outside 1..15 (F10, F63), completions of more than 127 bytes (F61)."
 ],
 "C89": [
  "partial",
  "C89_narrow_partial: C57 for the whole site, in terms of the input text and the responses. Missing: what C85 excludes (F1, F11, F13, F23, F29, F61); for k suggestions or more nothing is claimed, as others may then take the places of those that are dropped."
 ]
}
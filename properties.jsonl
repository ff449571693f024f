{"id": "C01", "title": "Type-1 prefix search returns exactly the k best completions", "statement": "For a collection indexed with ef_type1, prefix_topk(query,k) returns the min(k,m) smallest doc ids (best scores) among the m completions whose token list starts with the query's complete tokens followed by a token that extends the query's last token, in increasing order; nothing else is reported and nothing is missed.", "quantifier": "every well-formed collection, every query string, every 1 <= k <= MAX_K", "why_tests_cant": "The input space is unbounded; a test fixes one collection and a handful of queries.", "anchors": ["include/autocomplete.hpp:autocomplete::prefix_topk", "include/completion_trie.hpp:locate_prefix", "include/unsorted_list.hpp:topk"]}
{"id": "C02", "title": "Type-1 conjunctive search returns exactly the k best completions", "statement": "conjunctive_topk(query,k) on ef_type1 returns, in increasing doc id order and without duplicates, the min(k,m) smallest doc ids among the m completions that contain every known complete token of the query (in any order) and at least one token extending the last token of the query.", "quantifier": "every well-formed collection, query and 1 <= k <= MAX_K", "why_tests_cant": "The input space is unbounded; a test fixes one collection and a handful of queries.", "anchors": ["include/autocomplete.hpp:autocomplete::conjunctive_topk", "include/inverted_index.hpp:intersection_iterator_type", "include/compact_forward_index.hpp:intersects"]}
{"id": "C03", "title": "Type-2 conjunctive search is exact", "statement": "conjunctive_topk on ef_type2 (completions kept in a front-coded dictionary of integer sequences) returns the same answer as the declarative definition of C02.", "quantifier": "every well-formed collection, query and 1 <= k <= MAX_K", "why_tests_cant": "The input space is unbounded; a test fixes one collection and a handful of queries.", "anchors": ["include/autocomplete2.hpp:conjunctive_topk", "include/integer_fc_dictionary.hpp:extract"]}
{"id": "C04", "title": "Type-3 conjunctive search is exact", "statement": "conjunctive_topk on ef_type3 (heap of posting lists of the suffix range) returns the same answer as the declarative definition of C02.", "quantifier": "every well-formed collection, query and 1 <= k <= MAX_K", "why_tests_cant": "The input space is unbounded; a test fixes one collection and a handful of queries.", "anchors": ["include/autocomplete3.hpp:conjunctive_topk", "include/autocomplete_common.hpp:heap_topk", "include/min_heap.hpp:min_heap"]}
{"id": "C05", "title": "Type-4 conjunctive search is exact", "statement": "conjunctive_topk on ef_type4 (Bast-Weber blocks) returns the same answer as the declarative definition of C02, for every block configuration c.", "quantifier": "every well-formed collection, every c, query and 1 <= k <= MAX_K", "why_tests_cant": "The input space is unbounded; a test fixes one collection and a handful of queries. The repository has no test of type 4 results at all.", "anchors": ["include/autocomplete4.hpp:conjunctive_topk", "include/blocked_inverted_index.hpp:intersection_iterator_type", "include/blocked_inverted_index.hpp:block_id"]}
{"id": "C06", "title": "Type-2/3/4 prefix search is exact", "statement": "prefix_topk on types 2, 3 and 4 (completions in integer_fc_dictionary) returns the same answer as the declarative definition of C01.", "quantifier": "every well-formed collection, query and 1 <= k <= MAX_K", "why_tests_cant": "The input space is unbounded; a test fixes one collection and a handful of queries.", "anchors": ["include/autocomplete2.hpp:prefix_topk", "include/integer_fc_dictionary.hpp:locate_prefix"]}
{"id": "C07", "title": "All index types agree", "statement": "For the same collection, query and k, the four index types report the same doc ids and the same strings, for prefix and for conjunctive search.", "quantifier": "every collection, query, k and pair of index types", "why_tests_cant": "Equality of four different data structures over all inputs; the project's check_topk tool only compares result counts on a query log.", "anchors": ["include/types.hpp:ef_autocomplete_type1", "include/types.hpp:ef_autocomplete_type4", "src/check_topk.cpp"]}
{"id": "C08", "title": "Reported strings are the completions that were indexed", "statement": "The i-th reported string is exactly the original completion (its tokens separated by one space) of the i-th reported doc id; strings of different results do not overlap or overwrite one another in the result buffer.", "quantifier": "every collection within the declared size limits, every list of up to MAX_K doc ids", "why_tests_cant": "The input space is unbounded; a test fixes one collection and a handful of queries.", "anchors": ["include/autocomplete.hpp:extract_strings", "include/autocomplete2.hpp:extract_completions", "include/scored_string_pool.hpp:scored_string_pool"]}
{"id": "C09", "title": "Dictionary extract inverts the build", "statement": "extract(i) on the term dictionary yields exactly the i-th term of the sorted vocabulary, byte for byte, for every id 1..size.", "quantifier": "every strictly sorted vocabulary of non-empty terms of at most MAX_NUM_CHARS_PER_QUERY bytes, every id; every bucket size (template parameter)", "why_tests_cant": "The input space is unbounded; a test fixes one collection and a handful of queries.", "anchors": ["include/fc_dictionary.hpp:extract", "include/fc_dictionary.hpp:builder", "include/fc_dictionary.hpp:decode"]}
{"id": "C10", "title": "Dictionary locate is exact", "statement": "locate(t) returns i+1 if t is the i-th (0-based) term of the vocabulary and invalid_term_id if t is not in the vocabulary.", "quantifier": "every strictly sorted NUL-free vocabulary and every NUL-free byte string; every bucket size (template parameter)", "why_tests_cant": "The input space is unbounded; a test fixes one collection and a handful of queries. Absent strings are never tested in the repository.", "anchors": ["include/fc_dictionary.hpp:locate", "include/fc_dictionary.hpp:locate_bucket"]}
{"id": "C11", "title": "Dictionary locate_prefix returns exactly the terms with that prefix", "statement": "locate_prefix(p) returns the inclusive 0-based id range of exactly the terms that start with p, and an invalid range if there are none; the empty prefix denotes the whole vocabulary.", "quantifier": "every strictly sorted NUL-free vocabulary and every byte string p; every bucket size (template parameter)", "why_tests_cant": "The input space is unbounded; a test fixes one collection and a handful of queries.", "anchors": ["include/fc_dictionary.hpp:locate_prefix", "include/fc_dictionary.hpp:locate_buckets", "include/fc_dictionary.hpp:left_locate", "include/fc_dictionary.hpp:right_locate"]}
{"id": "C12", "title": "Completion trie locate_prefix is exact", "statement": "On the completion trie, locate_prefix(prefix,[a,b]) returns the half-open range of lexicographic positions of exactly the completions that start with prefix followed by a token id in [a,b], and an invalid range if there are none.", "quantifier": "every lexicographically sorted duplicate-free list of completions, every prefix and range", "why_tests_cant": "The input space is unbounded; a test fixes one collection and a handful of queries.", "anchors": ["include/completion_trie.hpp:locate_prefix", "include/completion_trie.hpp:builder"]}
{"id": "C13", "title": "Completion trie membership is exact", "statement": "is_member(c) on the trie is true exactly for the indexed (terminated) completions.", "quantifier": "every sorted duplicate-free list of completions and every id sequence", "why_tests_cant": "The function is not covered by any test and quantifies over absent sequences.", "anchors": ["include/completion_trie.hpp:is_member"]}
{"id": "C14", "title": "Integer front-coded dictionary extract inverts the build", "statement": "extract(i) of the integer dictionary yields exactly the token ids of the i-th completion in lexicographic order.", "quantifier": "every sorted list of completions of fewer than MAX_NUM_TERMS_PER_QUERY tokens, every position; every bucket size (template parameter)", "why_tests_cant": "The input space is unbounded; a test fixes one collection and a handful of queries.", "anchors": ["include/integer_fc_dictionary.hpp:extract", "include/integer_fc_dictionary.hpp:builder"]}
{"id": "C15", "title": "Integer front-coded dictionary locate_prefix is exact", "statement": "locate_prefix(prefix,[a,b]) of the integer dictionary returns exactly the same range as C12 for the same completions, and leaves the caller's prefix unchanged.", "quantifier": "every sorted duplicate-free list of completions, every prefix and range; every bucket size (template parameter)", "why_tests_cant": "The input space is unbounded; a test fixes one collection and a handful of queries.", "anchors": ["include/integer_fc_dictionary.hpp:locate_prefix", "include/integer_fc_dictionary.hpp:left_locate", "include/integer_fc_dictionary.hpp:right_locate"]}
{"id": "C16", "title": "Integer front-coded dictionary locate is exact and total", "statement": "locate(c) returns the lexicographic position of c if it was indexed and invalid_term_id otherwise.", "quantifier": "every sorted duplicate-free list of completions and every id sequence; every bucket size (template parameter)", "why_tests_cant": "Absent sequences and bucket-boundary cases are unbounded; no test exists.", "anchors": ["include/integer_fc_dictionary.hpp:locate"]}
{"id": "C17", "title": "unsorted_list::topk returns the k smallest values of a range", "statement": "topk([a,b),k) writes the min(k,b-a) smallest values of list[a..b) in non-decreasing order, for any list (duplicates allowed).", "quantifier": "every list of 32-bit ids, every sub-range, every k >= 1", "why_tests_cant": "The input space is unbounded; a test fixes one collection and a handful of queries. Correctness depends on the order in which heap and RMQ operations interleave.", "anchors": ["include/unsorted_list.hpp:topk"]}
{"id": "C18", "title": "Single-term conjunctive search returns the k smallest distinct doc ids", "statement": "For a range of terms, the minimal-doc-id search returns the min(k,m) smallest distinct doc ids of the union of the posting lists of the range, increasing.", "quantifier": "every inverted index, every non-empty term range, every k >= 1", "why_tests_cant": "The input space is unbounded; a test fixes one collection and a handful of queries.", "anchors": ["include/minimal_docids.hpp:topk"]}
{"id": "C19", "title": "heap_topk returns the k smallest distinct doc ids", "statement": "heap_topk over an inclusive range of terms returns the min(k,m) smallest distinct doc ids of the union of their posting lists, increasing.", "quantifier": "every inverted index, every non-empty term range, every k >= 1", "why_tests_cant": "The input space is unbounded; a test fixes one collection and a handful of queries.", "anchors": ["include/autocomplete_common.hpp:heap_topk", "include/min_heap.hpp:sink"]}
{"id": "C20", "title": "Range-minimum queries return the leftmost minimum", "statement": "rmq(a,b) on the succinct structure built over a list returns the leftmost position of a minimum of list[a..b].", "quantifier": "every list and every a <= b < size", "why_tests_cant": "Arbitrary lists; the succinct encoding has word, block and superblock boundaries that small tests do not reach.", "anchors": ["include/succinct_rmq/cartesian_tree.hpp:rmq", "include/succinct_rmq/bp_vector_support.hpp:excess_rmq"]}
{"id": "C21", "title": "Posting lists are read back exactly", "statement": "Iterating over the posting list of a term yields exactly the doc ids of the input file for that term, in order, and size() is their number.", "quantifier": "every collection of strictly increasing posting lists over a universe", "why_tests_cant": "The input space is unbounded; a test fixes one collection and a handful of queries.", "anchors": ["include/inverted_index.hpp:iterator", "include/inverted_index.hpp:builder", "include/ef/compact_ef.hpp:compact_ef"]}
{"id": "C22", "title": "Posting-list intersection is exact", "statement": "The intersection iterator over a set of terms enumerates exactly the doc ids common to all their posting lists, in increasing order, and terminates.", "quantifier": "every family of strictly increasing lists, every set of at least two terms", "why_tests_cant": "Termination and completeness of a leapfrogging loop over arbitrary lists.", "anchors": ["include/inverted_index.hpp:intersection_iterator_type"]}
{"id": "C23", "title": "Elias-Fano next_geq is exact", "statement": "next_geq(x) on a posting iterator moves to the first element >= x not before the current one and returns it, or reports exhaustion by returning the universe.", "quantifier": "every increasing list, every iterator position, every x at least the current value", "why_tests_cant": "All distances (linear scan, sampled skip, end of list) and all skips must be right.", "anchors": ["include/ef/compact_ef.hpp:next_geq"]}
{"id": "C24", "title": "Elias-Fano sequences return what was stored", "statement": "An ef_sequence built from a monotone sequence has the right size, access(i) returns the i-th value, operator[] returns consecutive values, and iteration enumerates the sequence.", "quantifier": "every non-empty monotone sequence (and the two-argument build with its per-range prefix sums)", "why_tests_cant": "The input space is unbounded; a test fixes one collection and a handful of queries.", "anchors": ["include/ef/ef_sequence.hpp:ef_sequence"]}
{"id": "C25", "title": "Searching node arrays is exact", "statement": "find(range,id) on a trie level returns the position of id within the given sibling range or not_found; find(range,[a,b]) returns the half-open range of positions whose value lies in [a,b].", "quantifier": "every strictly increasing sibling range, every id or id range", "why_tests_cant": "The input space is unbounded; a test fixes one collection and a handful of queries.", "anchors": ["include/ef/ef_sequence.hpp:find", "include/uint_vec.hpp:find", "include/util.hpp:find", "include/util.hpp:next_geq"]}
{"id": "C26", "title": "compact_vector returns what was stored", "statement": "A compact_vector built from values that fit its width returns value i from operator[], access, and the enumerator; values that do not fit never disturb other positions.", "quantifier": "every list of 64-bit values, every width, every index", "why_tests_cant": "The input space is unbounded; a test fixes one collection and a handful of queries.", "anchors": ["include/compact_vector.hpp:compact_vector"]}
{"id": "C27", "title": "Bit vectors return the bits that were appended", "statement": "After any sequence of push_back / append_bits / set_bits / zero_extend operations, get_bits(pos,len) returns exactly the corresponding bits, and size() their number.", "quantifier": "every history of builder operations, every position and length <= 64", "why_tests_cant": "A history property: every interleaving of partial-word appends.", "anchors": ["include/bit_vector.hpp:bit_vector_builder", "include/bit_vector.hpp:bit_vector"]}
{"id": "C28", "title": "Integer codes round-trip", "statement": "Reading back a gamma- or delta-coded integer from a bit stream yields the integer written, leaves the reader exactly after the code, for any surrounding bits.", "quantifier": "every n < 2^64 - 1, every position in every stream", "why_tests_cant": "2^64 integers times all bit offsets.", "anchors": ["include/integer_codes.hpp:write_gamma", "include/integer_codes.hpp:read_gamma", "include/integer_codes.hpp:write_delta", "include/integer_codes.hpp:read_delta"]}
{"id": "C29", "title": "Rank and select are exact", "statement": "rank(i) is the number of ones before position i and select(k) is the position of the k-th one, on the rank/select bit vector and on the sampled select index of Elias-Fano.", "quantifier": "every bit vector, every position", "why_tests_cant": "Block, superblock and overflow-list boundaries need vectors of tens of thousands of bits.", "anchors": ["include/succinct_rmq/rs_bit_vector.hpp:rank", "include/succinct_rmq/rs_bit_vector.hpp:select", "include/ef/darray.hpp:select"]}
{"id": "C30", "title": "Word-level primitives are exact", "statement": "popcount(x) is the number of ones of the 64-bit word x, select_in_word(x,k) the position of its k-th one, msb/lsb the position of the extreme ones, ceil_log2 the rounded-up logarithm, floor_log2 the rounded-down one, and reverse_bits the word with its bits in reverse order.", "quantifier": "every 64-bit word and every k below its popcount", "why_tests_cant": "2^64 words; broadword arithmetic tricks.", "anchors": ["include/util.hpp:popcount", "include/util.hpp:select_in_word", "include/util.hpp:msb", "include/util.hpp:ceil_log2"]}
{"id": "C31", "title": "Query parsing separates complete tokens and the last token", "statement": "parse splits the query on runs of spaces: the last maximal token (possibly empty only if the query has no token or ends in no token) is the suffix, all earlier tokens are looked up; with must_find_prefix an unknown token makes parsing fail, otherwise it is skipped.", "quantifier": "every query string and every dictionary", "why_tests_cant": "The input space is unbounded; a test fixes one collection and a handful of queries.", "anchors": ["include/autocomplete_common.hpp:parse", "include/util_types.hpp:byte_range_iterator"]}
{"id": "C32", "title": "Duplicate query tokens do not change the answer", "statement": "Repeating or permuting the complete tokens of a query does not change the result of conjunctive search.", "quantifier": "every query and every rearrangement of its complete tokens", "why_tests_cant": "The input space is unbounded; a test fixes one collection and a handful of queries.", "anchors": ["include/autocomplete_common.hpp:deduplicate", "include/autocomplete.hpp:conjunctive_topk"]}
{"id": "C33", "title": "Forward index answers containment exactly", "statement": "intersects(doc,[a,b]) holds exactly if the completion of that doc contains a token id in [a,b], and the forward iterator returns the tokens of the document in order.", "quantifier": "every forward index, every doc id, every range", "why_tests_cant": "The input space is unbounded; a test fixes one collection and a handful of queries.", "anchors": ["include/compact_forward_index.hpp:compact_forward_index"]}
{"id": "C34", "title": "Doc-id/lex-id translation is a bijection", "statement": "The doc id list used for ranking and the doc-id-to-position map are inverse to each other on the indexed completions.", "quantifier": "every injective assignment of doc ids to completions", "why_tests_cant": "The input space is unbounded; a test fixes one collection and a handful of queries.", "anchors": ["include/building_util.hpp:invert", "include/integer_fc_dictionary.hpp:docid_to_lexid", "include/autocomplete2.hpp:autocomplete2"]}
{"id": "C35", "title": "Blocked index partitions the terms", "statement": "block_id(t) is the unique block whose term interval contains t; each block lists exactly the doc ids containing a term of the interval and, for each, exactly those terms.", "quantifier": "every collection and every c, every term", "why_tests_cant": "The input space is unbounded; a test fixes one collection and a handful of queries.", "anchors": ["include/blocked_inverted_index.hpp:builder", "include/blocked_inverted_index.hpp:block_id", "include/blocked_inverted_index.hpp:block"]}
{"id": "C36", "title": "Blocked intersection enumerates exactly the matching docs", "statement": "The blocked intersection iterator over a set of terms enumerates exactly the doc ids common to their posting lists, increasing.", "quantifier": "every collection, every c, every non-empty set of terms", "why_tests_cant": "All block configurations, including queries whose terms fall into a single block, which no test covers.", "anchors": ["include/blocked_inverted_index.hpp:intersection_iterator_type"]}
{"id": "C37", "title": "Queries do not influence later queries", "statement": "The answer to a query depends only on the index, the query and k, not on which queries were answered before with the same index object.", "quantifier": "every history of queries on one index object", "why_tests_cant": "A history property over the mutable result pool, score buffer and heaps.", "anchors": ["include/scored_string_pool.hpp:clear", "include/autocomplete.hpp:init", "include/unsorted_list.hpp:m_q"]}
{"id": "C38", "title": "No out-of-bounds access for any accepted k", "statement": "A query with any k that the HTTP interface accepts only touches memory inside the score buffer and result pool.", "quantifier": "every k a client can send, every collection", "why_tests_cant": "k is attacker-controlled; the guard is an assert compiled out in release builds.", "anchors": ["src/web_server.cpp:ev_handler", "include/constants.hpp:MAX_K", "include/autocomplete_common.hpp:heap_topk"]}
{"id": "C39", "title": "HTTP response is valid JSON describing the result", "statement": "The response body of /topcomp is a well-formed JSON object whose suggestion values decode to the reported strings, in order, for every result set including the empty one.", "quantifier": "every list of result byte strings", "why_tests_cant": "All byte strings, including quotes, backslashes, control bytes and the empty result.", "anchors": ["src/web_server.cpp:escape_json", "src/web_server.cpp:ev_handler"]}
{"id": "C40", "title": "Min-heap operations keep the minimum on top", "statement": "After building the heap, replacing the top by a larger key and re-heapifying, pushing or popping, the top is a minimum and the multiset of elements is exactly the expected one.", "quantifier": "every sequence of heap operations", "why_tests_cant": "A history property over all shapes of the heap.", "anchors": ["include/min_heap.hpp:min_heap"]}
{"id": "C41", "title": "Lexicographic order is consistent with the comparison functions", "statement": "byte_range_compare and uint32_range_compare are sign-correct total-order comparisons for the lexicographic order, and their bounded versions decide prefix-relative order.", "quantifier": "every pair of sequences and every bound", "why_tests_cant": "The input space is unbounded; a test fixes one collection and a handful of queries.", "anchors": ["include/util_types.hpp:byte_range_compare", "include/util_types.hpp:uint32_range_compare"]}
{"id": "C42", "title": "Concurrent queries on one index do not interfere", "statement": "Two queries running at the same time on the same (const) dictionary give the same answers as when run one after the other.", "quantifier": "every interleaving of two dictionary lookups", "why_tests_cant": "A schedule property.", "anchors": ["include/fc_dictionary.hpp:FC_DICT_LOCATE_INIT", "include/integer_fc_dictionary.hpp:INT_FC_DICT_LOCATE_INIT"]}
{"id": "C43", "title": "Building does not fail on well-formed collections", "statement": "Every well-formed non-empty collection can be indexed without an exception.", "quantifier": "every well-formed collection", "why_tests_cant": "Degenerate but legal collections (e.g. a single completion) are not tested.", "anchors": ["include/compact_vector.hpp:build", "include/unsorted_list.hpp:build"]}
{"id": "C44", "title": "Preprocessing input is read back exactly", "statement": "Reading the .mapped file yields, record by record, the doc id and the zero-terminated token ids that were written, and stops at the end of the file.", "quantifier": "every list of records", "why_tests_cant": "The input space is unbounded; a test fixes one collection and a handful of queries.", "anchors": ["include/util_types.hpp:completion_iterator"]}
{"id": "C45", "title": "A saved index answers like the one that was built", "statement": "Saving an index to a file and loading that file in another process, into any existing object of the same type, gives an index that answers every sequence of requests exactly as the index that was saved.", "quantifier": "every collection, every index type, every prior content of the object loaded into, every sequence of requests", "why_tests_cant": "Every member of every nested container must be visited in the same order and width by saver and loader; a forgotten member shows only on some inputs or only in another process.", "anchors": ["src/build.cpp:build", "src/web_server.cpp:main", "include/completion_trie.hpp:visit", "include/compact_vector.hpp:visit", "include/blocked_inverted_index.hpp:visit"]}
{"id": "C46", "title": "Preprocessing keeps the completions of the input", "statement": "For every input text that lists completions in lexicographical order, one per line, with distinct ids in the first column, the preprocessing scripts write files that hold exactly these completions, in this order and with these ids, over exactly the words that occur; what the indexes answer from these files is what the input text says.", "quantifier": "every list of completions, every layout of the text (white space, line ends), every word of Unicode characters", "why_tests_cant": "Four scripts communicate through files that must agree with each other and with the readers in C++; order of code points against order of bytes, line ends, white space and unused ids matter only on some inputs.", "anchors": ["test_data/preprocess.sh", "test_data/extract_dict.py", "test_data/map_dataset.py", "test_data/build_stats.py", "test_data/build_inverted_and_forward.py", "README.md:Input data format"]}
{"id": "C47", "title": "Held-out queries are never suggested", "statement": "filter_and_preprocess writes up to n completions of each length as queries and leaves exactly these out: the collection it prepares holds all other completions of the input with their ids, and an index built from it never returns a held-out query.", "quantifier": "every input, every n, every outcome of the random shuffles, every query and session afterwards", "why_tests_cant": "The choice is random and the held-out texts are matched by string comparison across files written by different scripts; a leak shows only for particular shuffles and layouts.", "anchors": ["test_data/filter_and_preprocess.sh", "test_data/partition_queries_by_length.py", "test_data/filter_dataset.py"]}
{"id": "C48", "title": "map_queries writes the term numbers of the queries", "statement": "For every line of queries, map_queries writes one line with the numbers of its tokens, in order and separated by tabs: the position of the token in the dictionary, counted from 0; these are the numbers of the lists in the file that output_ds2i_format writes.", "quantifier": "every collection, every layout of its files, every text of queries, every limit on the number of queries", "why_tests_cant": "Splitting at runs of spaces, spaces at the ends, the last line without newline and the lookup of every token must all be right for any text and vocabulary.", "anchors": ["src/map_queries.cpp:parse", "src/map_queries.cpp:main", "include/util_types.hpp:byte_range_iterator", "include/fc_dictionary.hpp:locate"]}
{"id": "C49", "title": "output_ds2i_format writes the posting lists", "statement": "The file .docs holds, as 32-bit integers, 1 and the number of documents, then for every term, in the order of the dictionary, the number of completions containing it and their doc ids in increasing order; .freqs holds a 1 for each.", "quantifier": "every collection, every layout of its files", "why_tests_cant": "The file is only read by other programs; a wrong count or order shifts everything behind it.", "anchors": ["src/output_ds2i_format.cpp:main"]}
{"id": "C50", "title": "Shortened benchmark queries", "statement": "load_queries delivers the first lines of the input, each with all complete tokens and with at least the given percentage, and at least one character, of the last token; so every completion that matches the query matches the shortened query.", "quantifier": "every text, every percentage that is a float in [0,1], every limit on the number of queries", "why_tests_cant": "Depends on floating-point rounding for every length and percentage, on where the last space is, and on line ends.", "anchors": ["benchmark/benchmark_common.hpp:load_queries"]}
{"id": "C51", "title": "Benchmarks count the suggestions", "statement": "The reported number of strings is the number of suggestions for the queries, each counted once although five runs are made; effectiveness reports the number of results of prefix search and the number of results of conjunctive search that are not among them.", "quantifier": "every collection, index type, list of queries and k", "why_tests_cant": "The division by the number of runs is right only if no run is influenced by the runs before it.", "anchors": ["benchmark/benchmark_common.hpp:BENCHMARK", "benchmark/effectiveness.cpp:benchmark"]}
{"id": "C52", "title": "Matching and enclosing parentheses", "statement": "On a vector read as a sequence of parentheses, find_close returns the position of the closing parenthesis that matches a given opening one, find_open the opening one that matches a given closing one, and enclose the opening parenthesis of the innermost pair around a given opening one.", "quantifier": "every bit vector of fewer than 2^31 - 127 bits with any history of the builder, every pair of matching parentheses and every enclosed position", "why_tests_cant": "The search goes through a padded word, a block, a superblock and a tree of minima; which of these finds the partner depends on the distance and on the alignment of both positions and on all excesses in between.", "anchors": ["include/succinct_rmq/bp_vector.hpp:enclose", "include/succinct_rmq/bp_vector_support.hpp:find_close", "include/succinct_rmq/bp_vector_support.hpp:find_open", "include/succinct_rmq/bp_vector_support.hpp:search_min_tree"]}
{"id": "C53", "title": "Reported space is the size of the file", "statement": "The number of bytes an index reports when it is built is the length of the file it is saved to, and the statistics tool reports the same from the file. The parts listed add up to it. The lines under a part add up to the part except for its counters of at most 24 bytes. Every average is taken over the actual number of completions, terms, postings or words of the collection.", "quantifier": "every well-formed collection from which an index of the given type can be built, all four index types", "why_tests_cant": "The space is computed by a second traversal of the members that has to count what saving writes, for every number of levels, blocks and words and every element width.", "anchors": ["include/statistics.hpp:print_stats", "include/autocomplete.hpp:bytes", "include/completion_trie.hpp:bytes", "include/blocked_inverted_index.hpp:bytes", "src/statistics.cpp:print_stats", "src/build.cpp:build"]}
{"id": "C54", "title": "Uncompressed posting lists behave like compressed ones", "statement": "An inverted index instantiated with uncompressed lists of 8- to 64-bit integers gives back every posting list; after any sequence of iterator operations the iterator stands where it should and returns the element there, or the universe at the end; range tests answer whether some element is in the range; and intersections of any terms yield exactly the common doc ids in order.", "quantifier": "every non-empty sequence of non-empty strictly increasing lists, every integer size that holds the universe, every history of iterator operations, every set of terms", "why_tests_cant": "The binary search, its linear tail, the padding and the byte offsets depend on list lengths, positions and neighbours in every combination; the class is not instantiated by any test.", "anchors": ["include/uncompressed_list.hpp:uncompressed_list", "include/inverted_index.hpp:iterator", "include/inverted_index.hpp:intersection_iterator_type", "include/building_util.hpp:push_pad"]}
{"id": "C55", "title": "An index file that was not written to its end is not served", "statement": "If the build tool is stopped, or the disk is full, after any number of bytes of the index file, a program that loads the file either reports an error or has the complete index; it does not answer queries from a part of it.", "quantifier": "every well-formed collection from which an index of the given type can be built, every number of bytes written, all four index types, every previous content of the object loaded into", "why_tests_cant": "There are as many crash points as bytes in the file, and what loading does with a short file depends on which member of which class the file ends in.", "anchors": ["src/build.cpp:build", "src/web_server.cpp:main", "benchmark/benchmark_common.hpp:essentials::load", "include/autocomplete.hpp:visit", "include/autocomplete2.hpp:visit", "include/compact_vector.hpp:visit"]}
{"id": "C56", "title": "Asking for fewer results gives the first of them", "statement": "If a search with some k answers, then the same search with a smaller k (at least 1) answers too, and its results are the first ones of the larger answer, in the same order.", "quantifier": "every well-formed collection, every query, both searches, all four index types, all 1 <= k <= k', any two histories of earlier requests", "why_tests_cant": "The searches stop early by different rules (heaps of ranges, intersections, blocks), so that the results found first depend on the collection, the query and k; a test fixes all three.", "anchors": ["include/autocomplete.hpp:prefix_topk", "include/autocomplete.hpp:conjunctive_topk", "include/autocomplete2.hpp:conjunctive_topk", "include/autocomplete3.hpp:conjunctive_topk", "include/autocomplete4.hpp:conjunctive_topk", "include/unsorted_list.hpp:topk", "include/blocked_inverted_index.hpp:conjunctive_topk"]}
{"id": "C57", "title": "A more specific query narrows the results", "statement": "If the last token of a query is typed on, or (conjunctive search) more complete tokens are added, every result of the new query is a result of the old one, unless the old answer has k results that are all better.", "quantifier": "every well-formed collection, every pair of such queries, both searches, all four index types, every k, any two histories of earlier requests", "why_tests_cant": "It relates the answers to every pair of queries of which one refines the other, on every collection.", "anchors": ["include/autocomplete.hpp:prefix_topk", "include/autocomplete.hpp:conjunctive_topk", "include/autocomplete2.hpp:conjunctive_topk", "include/autocomplete3.hpp:conjunctive_topk", "include/autocomplete4.hpp:conjunctive_topk", "include/fc_dictionary.hpp:locate_prefix", "include/integer_fc_dictionary.hpp:locate_prefix"]}
{"id": "C58", "title": "Conjunctive search finds everything prefix search finds", "statement": "For the same query and k, every result of prefix search is a result of conjunctive search, unless that one has k results that are all better.", "quantifier": "every well-formed collection, every query, all four index types, every k, any two histories of earlier requests", "why_tests_cant": "The two searches use different data structures (completion trie or dictionary, inverted index); that the one covers the other is a fact about all collections and queries.", "anchors": ["include/autocomplete.hpp:prefix_topk", "include/autocomplete.hpp:conjunctive_topk", "include/autocomplete2.hpp:prefix_topk", "include/autocomplete3.hpp:conjunctive_topk", "include/autocomplete4.hpp:conjunctive_topk"]}
{"id": "C59", "title": "A suggestion, taken as the query, is suggested again", "statement": "If a completion is a result of some search and its text is then the query of a search (of either kind, with any k) that answers, the completion is a result again, unless there are k results that are all better.", "quantifier": "every well-formed collection whose terms have no spaces, every query, both searches for either request, every k, all four index types, any two histories of earlier requests", "why_tests_cant": "It relates what one search prints to what parsing and searching make of that text, for every collection, every query and every result.", "anchors": ["include/autocomplete.hpp:prefix_topk", "include/autocomplete.hpp:conjunctive_topk", "include/autocomplete2.hpp:prefix_topk", "include/autocomplete3.hpp:conjunctive_topk", "include/autocomplete4.hpp:conjunctive_topk", "include/autocomplete_common.hpp:parse", "include/integer_fc_dictionary.hpp:locate_prefix"]}
{"id": "C60", "title": "Every search ends", "statement": "A search never runs forever and never throws an exception: every loop of it ends after at most (universe + 2) * (number of terms + 2) + 1 steps. (It may be undefined, see C38.)", "quantifier": "every well-formed collection, all four index types, every sequence of requests (either search, any k, any bytes as the query), after any history", "why_tests_cant": "Termination has to hold for every query on every collection; the loops of the searches (heaps of ranges, intersections that jump forward, unions of blocks) have no counters.", "anchors": ["include/autocomplete.hpp:prefix_topk", "include/autocomplete.hpp:conjunctive_topk", "include/autocomplete2.hpp:conjunctive_topk", "include/autocomplete3.hpp:conjunctive_topk", "include/autocomplete4.hpp:conjunctive_topk", "include/inverted_index.hpp:intersection_iterator_type", "include/blocked_inverted_index.hpp:conjunctive_topk"]}
{"id": "C61", "title": "Adding completions to a collection", "statement": "If completions are added to a collection and the index is built again, a completion that was suggested for a query is still suggested, unless there are k suggestions with better scores; and a completion that was in the collection before is not suggested for a query that did not find it before, unless it had then been displaced by k better ones.", "quantifier": "every pair of well-formed collections with the completions of the one among those of the other (scores, term ids and positions may all change), all four index types, both searches, every query and every k, after any two histories", "why_tests_cant": "It relates two indexes over all pairs of collections and all queries. Every term id, lexicographic position and dictionary bucket may shift when a completion is added.", "anchors": ["include/autocomplete.hpp:prefix_topk", "include/autocomplete.hpp:conjunctive_topk", "include/autocomplete2.hpp:conjunctive_topk", "include/autocomplete3.hpp:conjunctive_topk", "include/autocomplete4.hpp:conjunctive_topk", "include/fc_dictionary.hpp:locate_prefix", "include/integer_fc_dictionary.hpp:locate_prefix"]}
{"id": "C62", "title": "benchmark_fc_dictionary: what is measured", "statement": "For any lines of input, the benchmark of the string dictionary looks up each of the first max_num_queries lines, extracts it again and searches the terms that start with a quarter, a half, three quarters or all of it, five times for each of seven bucket sizes, without undefined behaviour.", "quantifier": "every well-formed collection, every layout of its files, every input and every number of queries", "why_tests_cant": "The program prints times only, never what it found; whether a query is stored depends on each bucket size and on the number of terms.", "anchors": ["benchmark/benchmark_fc_dictionary.cpp:main", "benchmark/benchmark_fc_dictionary.cpp:perf_test", "include/fc_dictionary.hpp:locate", "include/fc_dictionary.hpp:extract", "include/fc_dictionary.hpp:locate_prefix"]}
{"id": "C63", "title": "benchmark_integer_fc_dictionary: what is measured", "statement": "For any number of queries, the benchmark of the integer dictionary extracts the completions 0 to num_queries - 1 in a random order, five times for each of seven bucket sizes, without undefined behaviour.", "quantifier": "every well-formed collection, every layout of its files, every order std::shuffle may choose, every number of queries", "why_tests_cant": "The order is random and only times are printed; the bound on the number of queries depends on the collection and on every bucket size.", "anchors": ["benchmark/benchmark_integer_fc_dictionary.cpp:main", "benchmark/benchmark_integer_fc_dictionary.cpp:perf_test", "include/integer_fc_dictionary.hpp:extract"]}
{"id": "C64", "title": "benchmark_locate_prefix: the searches measured", "statement": "For every query the benchmark searches, in each run, the completions that start with the terms of the query and a term that starts with its last token, with the trie or with the integer dictionary.", "quantifier": "every well-formed collection, every layout of its files, every input without empty lines, every percentage kept of the last token, both types", "why_tests_cant": "The program prints times only, never what it found, so no test sees that other completions were searched for.", "anchors": ["benchmark/benchmark_locate_prefix.cpp:main", "benchmark/benchmark_locate_prefix.cpp:benchmark", "include/autocomplete_common.hpp:parse", "include/completion_trie.hpp:locate_prefix", "include/integer_fc_dictionary.hpp:locate_prefix"]}
{"id": "C65", "title": "The project's own tests of the dictionaries and the trie pass on every collection", "statement": "Run on the files of any well-formed collection, the test programs test_fc_dictionary, test_integer_fc_dictionary and test_completion_trie (build, save, load, then check every term or completion and every non-empty prefix of them) pass.", "quantifier": "every well-formed collection, every layout of its text files, every previous content of the object loaded into, every fuel larger than the file", "why_tests_cant": "The tests are run on one sample collection; whether they would pass on another collection is a statement about every collection.", "anchors": ["test/test_fc_dictionary.cpp", "test/test_integer_fc_dictionary.cpp", "test/test_completion_trie.cpp", "test/test_common.hpp:locate", "test/test_common.hpp:locate_prefix"]}
{"id": "C66", "title": "Prefix search returns the completions whose text starts with the query", "statement": "For a query text q (spaces at the front and repeated spaces do not count), prefix_topk returns the k completions with the smallest doc ids among all completions whose text starts with q; in particular every suggestion starts with what was typed.", "quantifier": "every well-formed collection, every query text, every k, every history of the index object, all four index types", "why_tests_cant": "The index works on numbers of terms and ranges of completions; that this is a search for texts must hold for every pair of query and collection, with every placement of spaces.", "anchors": ["include/autocomplete.hpp:prefix_topk", "include/autocomplete2.hpp:prefix_topk", "include/autocomplete3.hpp:prefix_topk", "include/autocomplete4.hpp:prefix_topk", "include/autocomplete_common.hpp:parse"]}
{"id": "C67", "title": "The project's tests of the inverted and forward index pass on every collection", "statement": "Run on the files of any well-formed collection, the test programs of the project pass: every posting list of a built, saved and loaded inverted index holds the documents of its term, the intersection iterator yields exactly the common documents of any query of two or more terms, and every list of the forward index holds the tokens of its document.", "quantifier": "every well-formed collection, every layout of its files, every content of the object loaded into, every set of queries the random generator may give", "why_tests_cant": "The tests run on one collection and on a few random queries. That they pass on every collection, and for every query, is a claim about all of them.", "anchors": ["test/test_inverted_index.cpp", "test/test_compact_forward_index.cpp", "test/test_common.hpp:gen_random_queries", "include/inverted_index.hpp:intersection_iterator", "include/compact_forward_index.hpp:iterator"]}
{"id": "C68", "title": "The project's test of unsorted_list passes on every collection", "statement": "Run on the files of any well-formed collection, test_unsorted_list passes whatever ranges its random generator gives: the ten smallest doc ids of a range, and the ten smallest distinct minimal doc ids, are those a sort of the range gives.", "quantifier": "every well-formed collection, every layout of its files, every content of the object loaded into, every set of ranges, every std heap", "why_tests_cant": "The test takes 5000 random ranges of one collection; whether it passes depends on the ranges drawn, so a passing run proves nothing about the next one.", "anchors": ["test/test_unsorted_list.cpp", "include/unsorted_list.hpp:topk", "include/parameters.hpp:load"]}
{"id": "C69", "title": "The project's test of the blocked inverted index passes on every collection", "statement": "Run on the files of any well-formed collection, test_blocked_inverted_index passes whatever random queries it draws and whatever the block sizes are: the blocked index finds the same documents for a query as the plain inverted index.", "quantifier": "every well-formed collection, every layout of its files, every set of random queries, every list of block sizes, every std::sort", "why_tests_cant": "The test draws 10000 random queries on one collection; whether it passes depends on the queries drawn, so a passing run says nothing about the next one.", "anchors": ["test/test_blocked_inverted_index.cpp", "test/test_common.hpp:gen_random_queries", "include/blocked_inverted_index.hpp:intersection_iterator", "include/inverted_index.hpp:intersection_iterator"]}
{"id": "C70", "title": "The project's test of prefix search passes on every collection", "statement": "Run on the files of any well-formed collection and of queries chosen from it, test_locate_prefix passes: for every query and every part of its last token, the trie and the integer dictionary find exactly the completions whose text starts with the query.", "quantifier": "every well-formed collection of printable terms, every layout of its files, every set of query files (present or missing), every query in them", "why_tests_cant": "The test is run on one collection with 300 random queries of each length, and one of the files it opens does not exist under that name, so a passing run covers little of what it seems to cover.", "anchors": ["test/test_locate_prefix.cpp", "test/test_common.hpp:locate_prefix", "include/completion_trie.hpp:locate_prefix", "include/integer_fc_dictionary.hpp:locate_prefix", "test_data/partition_queries_by_length.py"]}
{"id": "C71", "title": "Every completion can be found by typing it out", "statement": "If the query is the full text of a completion of the collection (extra spaces do not count), either search suggests that completion, unless there are k suggestions that are all better; and if no other completion starts with that text, prefix search returns exactly that completion.", "quantifier": "every well-formed collection whose terms have no spaces, every completion of it, both searches, every k, all four index types, every history of earlier requests", "why_tests_cant": "It is about every completion of every collection: none may be unreachable, whatever its position in a bucket of the dictionaries and whatever its neighbours.", "anchors": ["include/autocomplete.hpp:prefix_topk", "include/autocomplete.hpp:conjunctive_topk", "include/autocomplete2.hpp:prefix_topk", "include/autocomplete3.hpp:conjunctive_topk", "include/autocomplete4.hpp:conjunctive_topk", "include/fc_dictionary.hpp:locate", "include/fc_dictionary.hpp:locate_prefix", "include/integer_fc_dictionary.hpp:locate_prefix"]}
{"id": "C72", "title": "Only the order of the scores matters", "statement": "If the doc ids (scores) of the completions are replaced by others in the same order, every request is answered with the same completions in the same order, with the new doc ids; and a request goes wrong on the one index exactly if it does on the other.", "quantifier": "every two well-formed collections with the same terms and completions whose doc ids are in the same order (any gaps), every request (both searches, any query, any k), all four index types, every history of earlier requests", "why_tests_cant": "It relates two indexes for every collection and every assignment of scores. A structure that depends on the absolute values of the doc ids (gaps, universe, widths of the compressed lists) can go wrong for one assignment only.", "anchors": ["include/autocomplete.hpp:prefix_topk", "include/autocomplete.hpp:conjunctive_topk", "include/autocomplete2.hpp:conjunctive_topk", "include/autocomplete3.hpp:conjunctive_topk", "include/autocomplete4.hpp:prefix_topk", "include/minimal_docids.hpp", "include/unsorted_list.hpp:topk"]}
{"id": "C73", "title": "An empty query lists the best completions", "statement": "A query without any token (empty or only spaces) is answered, by either search, with the k completions of the collection that have the best scores, in order of the scores; with all of them if there are fewer than k.", "quantifier": "every well-formed collection, every query made of spaces only, both searches, every k, all four index types, every history of earlier requests", "why_tests_cant": "It is the one query in which every completion and every term takes part: the whole range of both dictionaries, the root of the trie, all posting lists. Tests run it on one collection, if at all.", "anchors": ["include/autocomplete.hpp:prefix_topk", "include/autocomplete.hpp:conjunctive_topk", "include/autocomplete2.hpp:prefix_topk", "include/autocomplete3.hpp:conjunctive_topk", "include/autocomplete4.hpp:conjunctive_topk", "include/util_types.hpp", "include/autocomplete_common.hpp:parse"]}
{"id": "C74", "title": "Superfluous spaces in a query do not matter", "statement": "Spaces in front of a query, and a space next to another space, can be added or removed without any effect: the request has the same outcome, results and after-effects.", "quantifier": "every index object of any of the four types (whatever its data), every state left by earlier requests, both searches, every k, every two queries that differ only in such spaces, and sessions of such requests", "why_tests_cant": "Queries are typed freely; the tokenizer works on raw bytes with a cursor, and an error at one combination of leading, inner and trailing spaces is easily missed by examples.", "anchors": ["include/util_types.hpp:byte_range_iterator", "include/autocomplete_common.hpp:parse", "include/autocomplete.hpp:prefix_topk", "include/autocomplete.hpp:conjunctive_topk", "include/autocomplete4.hpp:conjunctive_topk"]}
{"id": "C75", "title": "Words that occur in no completion", "statement": "In a conjunctive search, complete words of the query that occur in no completion are ignored: adding or removing them changes no answer. A prefix search with such a complete word gives an empty answer.", "quantifier": "every collection, every sequence of queries, every k, every history, every index type", "why_tests_cant": "The space of queries with unknown words is unbounded, and an ignored word must not disturb later answers through the buffers the dictionary keeps.", "anchors": ["include/autocomplete_common.hpp:parse", "include/fc_dictionary.hpp:locate", "include/autocomplete.hpp:conjunctive_topk", "include/autocomplete.hpp:prefix_topk", "include/autocomplete4.hpp:conjunctive_topk"]}
{"id": "C76", "title": "A list of suggestions is in order and without repetition", "statement": "Every answer lists its suggestions by increasing doc id (best first), lists no text twice, and each text is that of the completion with the reported doc id.", "quantifier": "every collection whose words have no spaces, every query, every k, every history, every index type", "why_tests_cant": "Repetitions arise from particular combinations of overlapping lists and ranges; a test sees the few it was written for.", "anchors": ["include/autocomplete.hpp:prefix_topk", "include/autocomplete.hpp:conjunctive_topk", "include/autocomplete2.hpp:conjunctive_topk", "include/autocomplete3.hpp:conjunctive_topk", "include/autocomplete4.hpp:conjunctive_topk", "include/scored_string_pool.hpp:iterator"]}
{"id": "C77", "title": "The answer depends on the matching completions only", "statement": "If two collections contain the same completions matching a query, with the same scores, then their indexes give the same answer to it, whatever other completions and words the collections contain. In particular, adding or removing completions that do not match a query does not change its suggestions.", "quantifier": "all pairs of collections, requests and k, query histories, container implementations", "why_tests_cant": "the pairs of collections and the queries are unbounded; tests compare one index with itself", "anchors": ["include/autocomplete.hpp: prefix_topk, conjunctive_topk", "include/autocomplete2.hpp", "include/autocomplete3.hpp", "include/autocomplete4.hpp"]}
{"id": "C78", "title": "The same answers on every platform", "statement": "The answers do not depend on how the C++ standard library implements the heap algorithms and std::sort, whose results on elements that compare equal the standard leaves open, nor on what the memory behind the compressed arrays happens to hold: two builds of the program index the same collections, give the same suggestions to every request after any history, and go wrong on the same requests.", "quantifier": "all collections, pairs of heap and sort implementations meeting the standard, memory contents, requests and k, query histories", "why_tests_cant": "tests run with one standard library and one memory layout; ties that another library would break differently never show", "anchors": ["include/min_heap.hpp: make_heap, push, pop", "include/autocomplete4.hpp: conjunctive_topk", "include/inverted_index.hpp: intersection_iterator", "include/blocked_inverted_index.hpp", "include/bit_vector.hpp: get_word64", "include/compact_vector.hpp: access"]}
{"id": "C79", "title": "The page shows suggestions as text, with the typed words highlighted", "statement": "For every suggestion the page shows exactly its characters, in order, with the typed words (and nothing else) in bold, and no part of a suggestion ever becomes markup of the page.", "quantifier": "all suggestions, all typed texts, all behaviours of the browser's regular expressions on the keywords (for the highlighting: words without special characters)", "why_tests_cant": "five replacements feed each other; whether one undoes or doubles another depends on the characters of every suggestion and on how the matches cut it", "anchors": ["web/topkcomp.js: formatResult", "src/web_server.cpp: ev_handler"]}
{"id": "C80", "title": "The server answers what was typed", "statement": "A request of the page is answered with the suggestions for the text that was typed and the chosen number of suggestions, however long the text is.", "quantifier": "all collections, typed texts of any length, variables k, states left by earlier requests", "why_tests_cant": "the limits of the request buffers only show for long texts, and wrong suggestions look like right ones", "anchors": ["src/web_server.cpp: ev_handler", "web/index.html: showValue", "web/topkcomp.js: params, paramName"]}
{"id": "C81", "title": "From the typed text to highlighted suggestions", "statement": "For a text typed into the page, every suggestion shown is an indexed completion matching it, is shown in full, and has the begun last word and every known typed word in bold.", "quantifier": "all collections, typed texts without special characters, k from 1 to 15, states left by earlier requests, behaviours of the browser's regular expressions within their contract", "why_tests_cant": "server and page are never tested together; the property relates the search, the JSON, the regular expression and the HTML for all texts", "anchors": ["src/web_server.cpp: ev_handler", "web/topkcomp.js: formatResult", "include/autocomplete.hpp: conjunctive_topk"]}
{"id": "C82", "title": "Interrupted builds do not lead to wrong answers", "statement": "If writing the index file is interrupted at any point, loading what is there either reports a failure or yields the complete index; bytes behind a complete index do no harm.", "quantifier": "all collections and index types, all points of interruption, all file contents, all objects loaded into", "why_tests_cant": "every prefix of every index file is a crash state, and most damaged files load without any symptom", "anchors": ["src/build.cpp: build (essentials::save)", "src/web_server.cpp: main (essentials::load)", "benchmark/benchmark_common.hpp", "include/autocomplete.hpp: visit"]}
{"id": "C83", "title": "The server answers every request of every session, as if it were the first", "statement": "Whatever requests the web server has answered before, by whatever clients and in whatever order, it answers the next one exactly as a server just started would, with the best matching completions as JSON; no sequence of requests stops it.", "quantifier": "all collections, all sequences of requests of any length, all query texts (any bytes and any length) and all values of k", "why_tests_cant": "the server keeps buffers between requests and runs forever; tests ask a few queries of a fresh process", "anchors": ["src/web_server.cpp: main, ev_handler", "include/autocomplete.hpp: topk, conjunctive_topk", "include/scored_string_pool.hpp", "web/index.html: slider (k from 1 to 15)"]}
{"id": "C84", "title": "No request stops the server", "statement": "Whatever the variables q and k of a request are (any bytes, any length, absent), the server answers it and goes on; every request has exactly one answer.", "quantifier": "all collections, all pairs of request variables, all earlier requests", "why_tests_cant": "the texts of k that a client can send are unbounded, and one of them suffices to stop a server", "anchors": ["src/web_server.cpp: ev_handler (std::stoull, mg_get_http_var)", "include/autocomplete.hpp: conjunctive_topk"]}
{"id": "C85", "title": "From the input text to the responses of the site", "statement": "A text with completions, run through the preprocessing scripts, the build tool and the web server, makes a site whose every response, in any sequence of requests, lists the best completions of the text that match the request.", "quantifier": "all valid inputs in all layouts, both Pythons, all contents of uninitialised memory and of the object loaded into, all heap and sort implementations, all sequences of requests", "why_tests_cant": "the chain spans four programs and a file format; a test covers one input and a few requests", "anchors": ["test_data/preprocess.sh", "test_data/extract_dict.py", "test_data/map_dataset.py", "test_data/build_inverted_and_forward.py", "src/build.cpp: main", "src/web_server.cpp: main, ev_handler"]}
{"id": "C86", "title": "Suggestions arrive unchanged", "statement": "The suggestions in a response are, character by character, the completions the index answers with.", "quantifier": "all collections, all requests, all suggestions with any bytes", "why_tests_cant": "one character in one completion of a large collection changes a response or stops the server", "anchors": ["src/web_server.cpp: ev_handler (mg_printf_http_chunk), escape_json"]}
{"id": "C87", "title": "Builds are reproducible", "statement": "The same completions always give the same index file, byte for byte, whatever the layout of the input text and of the intermediate files, and whatever uninitialised memory contains.", "quantifier": "all collections, all layouts of their files and of the input text, all contents of uninitialised memory, all four types", "why_tests_cant": "the layouts and the contents of uninitialised memory are not under a test's control", "anchors": ["src/build.cpp: build", "include/parameters.hpp", "include/util_types.hpp: completion_iterator", "test_data/preprocess.sh"]}
{"id": "C88", "title": "Every completion of the input is offered by the site when it is typed out", "statement": "After preprocessing an input text, building the index and starting the server, a request whose text is a completion of the input gets a JSON response that lists this completion, unless k completions with smaller ids match; everything listed matches what was typed.", "quantifier": "all input texts and layouts, all completions in them, all k, all sessions of requests before and after, both versions of Python", "why_tests_cant": "which completions are found depends on all the others (order, shared words and prefixes, blocks of the dictionary), so the property concerns every input text together with each of its lines", "anchors": ["test_data/preprocess.sh", "src/build.cpp: main", "src/web_server.cpp: main, ev_handler", "include/autocomplete.hpp: conjunctive_topk"]}
{"id": "C89", "title": "While a word is being typed, the site only drops suggestions", "statement": "If the response of the site to a request lists fewer than k suggestions, the response to the same request with further characters of the last word lists no others, and no more of them.", "quantifier": "all input texts and layouts, all sessions, all pairs of requests in a session of which one continues the other, in any order", "why_tests_cant": "the pairs of requests, the texts and what the server's buffers hold in between are unbounded", "anchors": ["test_data/preprocess.sh", "src/build.cpp: main", "src/web_server.cpp: main, ev_handler", "include/autocomplete.hpp: conjunctive_topk"]}

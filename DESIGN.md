# Formal model of jermp/autocomplete in Coq 8.16.1

The C++ sources in /repo are read as text only. This file was written before
the proofs and is kept current; the status of every property is in
`MANIFEST.json`.

## Layout of `rocq/theories`

* `Base.v`: outcome type and list/arith lemmas (no model content).
* `M_*.v`  : the model. Computable Gallina, no proofs. Every definition cites file:lines of /repo.
* `S_*.v`  : small independent specifications (what a user would write down).
* `P_*.v`  : proofs (lemmas).
* `T_*.v`  : property theorems only, each closed by `exact`, with `Print Assumptions`
             and a non-vacuity `Example`.

## Modelling conventions

* **Outcomes.** A C++ computation yields `Ok v`, `Exn` (C++ exception), `UB`
  (out-of-bounds access, `__builtin_unreachable`, invalid range, ...) or
  `Fuel` (loop bound of the model exhausted, never a normal-looking value).
  Theorems state that the outcome is `Ok`, hence exclude the other three.
* **Integers.** Words and data are `N`; positions, lengths, ids used as
  indices are `nat`. Wrap-around is written explicitly (`mod 2^64`, `mod 2^8`,
  ...) in the bit-level files and in byte-level encodings. Index arithmetic on
  32/64-bit counters of higher layers is exact; this is faithful when the
  sizes involved fit the C++ types (collections below 2^31 strings).
* **Sentinels.** `global::not_found`, `invalid_range`, `invalid_term_id` become
  `None`, except where the code computes with them.
* **Templates.** `Nodes`, `Pointers`, `ListType`, `RMQ`, `Dictionary`... become
  records of operations. Theorems about a client are stated for the concrete
  instance used by the index types `ef_type1..4` (types.hpp), obtained from a
  general lemma about any instance that meets a spec.
* **Memory.** Static arrays and pools are lists of fixed length; a write outside
  is `UB`. Reads past the end of a bit-vector word array by
  `get_word56`/`access` (8-byte loads at byte offsets) are modelled as reading
  arbitrary bytes: results must not depend on them.
* **std algorithms.** `std::sort`, `std::unique`, `make_heap`, `push_heap`,
  `pop_heap` are represented by one concrete correct implementation or by a
  specification (permutation + order). `pop_heap` is called by the code after
  the key of the top has changed; formally this breaks its precondition but the
  popped top is never compared by libstdc++, so the precondition used is "heap
  below the root".

## Trusted base

Coq's kernel (and `coqchk`); the reading of /repo into `M_*.v`; the specifications in `S_*.v`. `Print Assumptions`
says "Closed under the global context" for every property theorem (section "Assumptions").

### What is modelled

| code | files | notes |
|------|-------|-------|
| util.hpp word primitives | M_Word | pdep/popcount/bsr builtins by their documented meaning; loops of reverse_bits, select_in_word as written |
| bit_vector.hpp: builder, get_bits, get_word56, unary_iterator, bits_iterator | M_Bits | 64-bit words as `N` below 2^64, shifts by 64 or more are UB, the word behind the data is an arbitrary parameter `tail` (8-byte loads may reach into it, F12) |
| integer_codes.hpp gamma/delta | M_Codes | on the bit vector model |
| compact_vector.hpp | M_Cvec | builder, set/push_back/fill, access, operator[], enumerator |
| darray.hpp, rs_bit_vector.hpp | M_Darray, M_Rs | inventory by block and 9-bit subcounts as written |
| ef/ef_sequence.hpp, ef/compact_ef.hpp | M_EfSeq, M_CompactEf, M_CeRange | build, access, iterator, next_geq, intersects, find |
| succinct_rmq: bp_vector.hpp, cartesian_tree.hpp | M_Bp, M_Cart | excess tables by computation, excess_rmq, rmq, build; excesses are `Z` with checked int32 |
| succinct_rmq: bp_vector.hpp, find_open, find_close, enclose | M_Paren | tables m_fwd_pos, m_bwd_pos, m_bwd_min by computation, search in a word by the 8-fold comparison, in a block, in a superblock and in the tree of minima; what a shift by 64 yields is a parameter |
| uncompressed_list.hpp and inverted_index over it | M_Uncomp | integers of 1 to 8 bytes, little-endian loads at byte offsets; whether a misaligned load is undefined is a parameter |
| inverted_index.hpp, blocked_inverted_index.hpp, compact_forward_index.hpp | M_InvIndex, M_Blocked, M_Auto* | records on bits |
| fc_dictionary.hpp, integer_fc_dictionary.hpp | M_Bucket, M_Fc, M_IntFc | byte level, little-endian ids; any positive BucketSize (a class argument that is 16 when not given, as in types.hpp) |
| completion_trie.hpp, unsorted_list.hpp, minimal_docids.hpp, heap/intersection iterators | M_Trie, M_TopK, M_Intersect, M_Iter, M_Heap | over any containers |
| autocomplete.hpp, autocomplete2-4.hpp, autocomplete_common.hpp, scored_string_pool.hpp, parse | M_Auto, M_Auto1, M_Auto2, M_Blocked, M_Parse | |
| the instances of types.hpp | M_Real | the containers above, on bits |
| src/web_server.cpp | M_Web, M_Request | response body, escape_json, query variables, stoull, the loop over requests (one after the other, as in mongoose's single-threaded loop; an exception in the handler ends the program). mongoose is not in /repo: `mg_printf_http_chunk` is assumed to format like printf, `mg_get_http_var` to deliver the decoded variable (k into 16 bytes, q into 128) |
| util_types.hpp completion_iterator, parameters::load, the reading loops of the builders | M_Input, M_Text | std::ifstream with operator>> for uint32_t and std::string in the C locale |
| the `visit` members of all classes, src/build.cpp build and save, essentials::load | M_Stored, M_Save | M_Stored: the members of every object as data, built as in M_Real (P_Stored proves they are the same indexes). essentials is not in /repo: numbers are assumed to be written as their bytes, a vector as its length and elements, other objects by their visit member; at the end of the file reading fails unreported and leaves the bytes of the object as they were; the length of a vector is read into an uninitialised variable, so a file that ends there is UB |
| test_data: preprocess.sh with extract_dict.py, map_dataset.py, build_stats.py, build_inverted_and_forward.py; filter_and_preprocess.sh with partition_queries_by_length.py, filter_dataset.py | M_Prep, M_Filter | for Python 3 (strings are lists of code points, files are UTF-8 with universal newlines) and Python 2 (bytes, files as they are), S_Python; int() only for ASCII digits; random.shuffle: any permutation; the messages printed are left out |
| src/map_queries.cpp, src/output_ds2i_format.cpp, benchmark_common.hpp load_queries | M_Tools | std::getline; float arithmetic of load_queries exactly (products and sums of integers rounded to 24 bits, scaled by a power of two) |
| benchmark_prefix_topk, benchmark_conjunctive_topk, effectiveness: the counts they report | M_Bench | over the loaded indexes; not the times, not the JSON output |
| benchmark_fc_dictionary, benchmark_integer_fc_dictionary, benchmark_locate_prefix: the results of the calls they time | M_BenchDict | not the times, not the JSON output; for an invalid range the sums in the trie's search wrap around in C++, which finds no node either |
| web/topkcomp.js formatResult | M_Page | strings are lists of character codes; any regular expression engine, with a contract for keywords without special characters; jQuery-Autocomplete, which is not in /repo, is assumed to put the result into the page as HTML |
| the `bytes` members of all classes, statistics.hpp, src/statistics.cpp | M_Bytes | the numbers behind the lines printed, not their formatting; essentials::vec_bytes (not in /repo) is taken to be the elements and 8 bytes |
| any number of threads with lookups (alone: any interleaving of them) | M_Conc | every access to the static arrays is one atomic step, sequentially consistent; C++ calls the race undefined |

### What is not modelled

essentials other than save and load (mmap, timers, logger), the file system, compiler and SIMD instruction selection, timing probes, mongoose
networking, the test test_autocomplete (it only prints), memory exhaustion, weak memory. `char` is signed (x86-64) where it matters: the
excess table of bp_vector and escape_json. The 32-bit pointers of the term dictionary are modelled on their own (M_Wide: exact below 4 GiB, F54 above); the indexes of the other
files use dictionaries below 4 GiB (an explicit hypothesis, `small_dict`, where files are written).

### Bounds in the statements

* terms at most 128 bytes, completions 1 to 63 tokens and 128 characters: limits of constants.hpp; k from 1 to 15, except in the
  `_exact` and `_any_` theorems, which hold for every k (0 means no limit).
* universe below 2^32 - 1; fewer than 2^30 - 1 completions and terms (`wf_few`): from there on the 32-bit excesses of the
  range-minimum structure wrap around (F28, C20_long_refuted): the initial value of the superblock minima is the number of bits, 2n + 2 = 2^31.
* numbers of terms and completions not multiples of 17 (F23), first term and first completion (F1, F2), results fitting the
  pool (F13), some non-zero doc id and offset (F11): each exclusion has a `_refuted` theorem.
* `T_Kept.v` drops the condition on the size for the two dictionaries: they behave as dictionaries of the stored strings, and
  reading any other string is undefined; and it decides when locate of an absent completion is undefined (F4).
* the `_exact` and `_any_` theorems (`T_Exact.v`, `T_Fc.v`, `T_IntFc.v`) drop the conditions on the first term, the first
  completion and the sizes: they say what the code answers to every query, in terms of `S_Found.v` (the expected matches less
  those that F1, F2 and F23 lose; C01_found_sound, C01_found_missed and C06_found_missed compare the two). What remains is that
  the answer can be reported (`reportable`: it has at most 15 results, the pool has room for it, and the dictionaries have kept its words and, for types 2
  to 4, its completions) and, for conjunctive search of type 2, that the search meets no candidate that it has no place for
  (`overruns`) or that the dictionary has lost (`stumbles`). The condition is exact: `S_Room.v` says which bytes an extraction
  overwrites, and if the condition does not hold the query is undefined.

## Plan per property

| id | modelled | proof |
|----|----------|-------|
| C01 | parse, fc_dictionary::locate/locate_prefix, completion_trie, unsorted_list::topk, extract_strings; autocomplete.hpp 36-66 | composition of C10-C12, C17, C31; spec = sorted filter of the collection. Expected **false** in full because of F1 (first dictionary term); proved under the hypothesis that the first term does not strictly extend the last token, plus `_refuted` witness |
| C02 | autocomplete.hpp 69-198 with inverted_index intersection and forward index | composition of C11, C18, C19, C22, C33 |
| C03 | autocomplete2.hpp | same |
| C04 | autocomplete3.hpp heap of iterators | loop invariant: heap entries are next positions of suffix lists |
| C05 | autocomplete4.hpp, blocked index | expected refuted (F5-F8); witness by computation; positive parts for the sub-cases that hold; then an exact description of what is answered for every query and k, defects included (S_Blocked.v, `blocked_answer`) |
| C06 | prefix_topk of types 2-4 | via C15; expected refuted because of F2 plus partial theorem |
| C07 | types 1-4 | corollary of C01-C06; refutation witness for 1 vs 2 and 1 vs 4 |
| C08 | scored_string_pool, extract_strings of all types, memory as fixed buffer | invariant over writes; refuted for over-long results (F13), positive under pool-size hypothesis |
| C09 | fc_dictionary builder/write/decode/extract at byte level | invariant of builder; decode inverts write |
| C10 | locate, locate_bucket | binary search invariant |
| C11 | locate_prefix, locate_buckets, left/right_locate | refuted at F1, positive under the guard |
| C12 | completion_trie builder and locate_prefix over level arrays | level arrays related to the forest of the sorted list |
| C13 | is_member | from C12 lemmas |
| C14 | integer_fc builder, write, decode, extract | as C09 |
| C15 | locate_prefix | refuted (F2,F3); positive under the guard |
| C16 | locate | refuted (F4); positive for indexed completions |
| C17 | unsorted_list::topk over any leftmost-or-not RMQ | invariant: queue intervals partition the remaining range |
| C18 | minimal_docids::topk | same, with per-list iterators |
| C19 | heap_topk | heap invariant, strictly increasing lists |
| C20 | cartesian_tree, bp_vector_support, rs_bit_vector | abstract parenthesis argument + block search; long lists (P_Long): the tree of minima is constant, so the search sees only positions outside the middle superblocks |
| C21 | inverted_index builder, iterator over compact_ef | C23/C24 lemmas |
| C22 | intersection_iterator | invariant: no common doc skipped |
| C23 | compact_ef iterator | refinement to (list, position) |
| C24 | ef_sequence build/access/iterator | refinement to list |
| C25 | util::find/next_geq, uint_vec::find, ef_sequence::find; uint_vec also with the arithmetic of UintType (M_Narrow) | binary search invariants; the widest value of a level is the sum of the groups' largest elements |
| C26 | compact_vector | bit-level |
| C27 | bit_vector_builder, bit_vector::get_bits | refinement to `list bool` |
| C28 | gamma/delta + bits_iterator | bit-level |
| C29 | rs_bit_vector, darray | counting lemmas |
| C30 | util.hpp word primitives | bit-level; finite sweeps lifted where the domain is finite |
| C31 | parse, byte_range_iterator | induction on the query |
| C32 | deduplicate + conjunctive_topk of all types | two arrangements parse to ids with the same elements (C31), deduplicate gives the same list, and nothing else of the query is used: the two runs are step by step the same except for the static buffers of locate, which no later request depends on (P_Rearr, S_Rearr) |
| C33 | compact_forward_index | bit-level + loop |
| C34 | invert | permutation argument |
| C35 | blocked_inverted_index builder, block_id | invariant over terms |
| C36 | blocked intersection iterator | refuted for one block (F5); positive for >= 2 blocks |
| C37 | static buffers/pool as state threaded through queries | result independent of buffer contents |
| C38 | score buffer of MAX_K entries; k from web_server | refuted (F10, F13); exact for every k: a request is undefined behaviour exactly if its answer cannot be reported (C38_type1_partial, …) |
| C39 | web_server.cpp response construction, small JSON reader as spec | refuted on the empty result (F22), positive otherwise |
| C40 | min_heap.hpp | heap invariant |
| C41 | util_types.hpp comparisons | induction |
| C42 | static `decoded` buffers as shared memory; any number of threads, each a sequence of lookups, interleaved access by access | refuted by a schedule (F21); a race is reachable iff two threads decode with the same function, else correct replies; no weak memory (race-free programs need none) |
| C43 | compact_vector::build etc. as `Exn` | refuted (F11); the exact condition for each type (S_Build.builds_iff), also from the text of the files |
| C44 | completion_iterator over token streams | induction |
| C45 | visit members as codecs of data records; save then load | every codec is a left inverse on values that fit its types (P_Save); every number of a built index fits (P_Fit, P_Fit2, P_Fit3); composed with C44 and C37 |
| C46 | the four scripts on lists of code points | a row parser that inverts every layout; sorted set of words; UTF-8 keeps the order (code points against bytes); order of texts implies order of id sequences; the dictionary of levels maps each level to its number of trie nodes (a prefix of a sorted list is new exactly where it differs from the row before: P_Levels); forward and inverted lists against `find_doc`; composed with C45 |
| C47 | partition_queries_by_length.py and filter_dataset.py on the same text model, random.shuffle as any permutation | the lists by length are filters of the rows; a shuffled prefix of them is a choice; the lines that remain are a table of the other rows; composed with C46 and C37; T_HeldOut: all four types and every request, from what the answers of S_Found and S_Blocked have in common. Refuted under Python 3 (F35) |
| C48 | map_queries.cpp on the reading model (M_Input) and fc_dictionary model, getline, decimal output | loop over the tokens as for C31, locate exact for the terms the dictionary holds (F23); an empty line is UB (F36) |
| C49 | output_ds2i_format.cpp: reading of .inverted (M_Input), writing of uint32_t (M_Save) | C44 for the lists, little-endian bytes decoded by an independent relation; with C48: numbers of tokens are numbers of lists |
| C50 | load_queries: getline, the search for the last space, float arithmetic | rounding to 24 bits never passes a float and errs by at most 1/2 below 2^24, so the end is where it should be within bounds, exactly if nothing is rounded; matches of the query are matches of the shortened query |
| C51 | the loops of BENCHMARK and effectiveness over a loaded index, std::set_difference | answers are unique (P_Collection.answer_unique), so five runs report five times the same number (C37, C45); merge loop on sorted lists |
| C52 | find_close, find_open, enclose of bp_vector over any bit vector with fewer than 2^31 - 127 bits | S_Paren: balanced sequences by induction, a pair is an opening and a closing parenthesis with a balanced sequence between them; pairs are first returns of the excess, and the search by word, block and tree finds first returns |
| C53 | the bytes() members of all classes over the stored members (M_Stored), print_stats as the numbers behind its lines | every bytes() is the length of what the visit member saves (C45's codecs), by members; the trie loop sums levels; postings counted by swapping the sum over terms and documents. S_Stats says what accurate statistics are |
| C54 | uncompressed_list, push_pad and eat_pad around it, the intersection iterator over it | the index is a sequence of records on bits as for C21; loads are fields of the bits; binary search by invariant; the iterator meets a contract in which next_geq only moves forward, for which C22 is proved |
| C55 | the codecs of C45 on every prefix of the file (S_Cut) | every member is either read completely, or to the end of the file or UB (P_Cut, by members); each class ends in a vector, whose missing length is UB; the last vector of the index is read word by word. Not modelled: pages of the file that reach the disk in another order |
| C56 | the requests of C01–C06 with two values of k (S_Meta: fewer, limited) | types 1–3: the first k of the k' best matches are the k best, and what can be reported of k' results can be reported of k (from the exact outcomes of C38); type 4: the checks made do not depend on k (P_Auto4, traces), only how many results are written |
| C57 | pairs of requests of which one refines the other (S_Meta: refines, includes) | the words found for the longer last token are found for the shorter one, except the first term (F1); then the answers of C38 are compared |
| C58 | prefix and conjunctive search for the same query (S_Meta: both_ways) | a completion that starts with the tokens contains them; then the answers of C38 are compared |
| C59 | two requests, the text of the second being a result of the first (S_Meta: no_spaces, suggested) | the text of a completion is split into its words, which are known because the text was reported; so the completion matches, and the answers of C38 hold it |
| C60 | the requests of C38, loops with an explicit number of steps (S_Ends: ends) | from the exact outcomes of C38: a search answers or is undefined, given that number of steps |
| C61 | two collections and their indexes (S_Grow: grows, no_new_token, is_first) | the exact outcomes of C01-C06 on both sides; words, not ids, are compared, so found sets correspond through `grows` |
| C62 | M_BenchDict (the calls, not the times) | T_BenchDict: loops with the static buffers as invariant; extract behind the last string read off the layout of the last bucket |
| C63 | M_BenchDict, std::shuffle as any permutation | T_BenchDict: as C62 |
| C64 | M_BenchDict on M_Trie, M_IntFc, M_Parse, M_Tools | T_BenchDict: parse stopped at the first unknown token by induction, the runs by induction with the changed queries as state |
| C65 | M_Tests on M_Fc, M_IntFc, M_Trie, M_Save, M_Input | T_Tests: the references of the tests (std::lower_bound and upper_bound over the lines) shown equal to the specification of the ranges, then C09-C16 and C45; loops by induction |
| C66 | S_Starts on the four indexes | T_Starts: the text that starts with the tidied query shown equivalent to the match on words (P_Starts, induction over the words), then C01 and C06 |
| C67 | M_TestIndex (the three test cases: build, sizes, save, load, sizes, check), on M_Input, M_Stored, M_Save, M_InvIndex, M_Intersect | P_TestIndex: the lists read from the files are those of the collection; the loaded index is the built one; std::set_intersection and the intersection iterator give the same list; T_TestIndex |
| C68 | M_TestList (naive_topk, the generator of ranges, the two test cases), on M_TopK, M_Stored, M_Save, M_Input | P_Unique: the loop of topk with unique results emits the minima of a shrinking set; P_TestList: the specification of the k smallest values determines them; T_TestList, T_Unique (C17) |
| C69 | M_TestBlocked (on M_Blocked, M_TestIndex); S_TestBlocked | C67 (the plain intersection) and C36 (the blocked one), compared side by side; example with real containers that fails |
| C70 | M_TestPrefix (on M_BenchDict, M_Tests), M_PrepTest (names of the files of queries); S_TestPrefix, S_PrepTest | order of the texts from the order of the ids; the range of the reference search and the range of the index describe the same completions or not; C64 for the searches, C66 for texts as words; T_PrepTest: with C46 and C47, from the input text |
| C71 | the searches of M_Auto1, M_Auto2, M_Blocked; S_Typed | the words of a completion are the tokens of its text (C59), which meet the exact descriptions of the answers (S_Found); alone: every result starts with the query (C66) |
| C72 | the searches of M_Auto1, M_Auto2, M_Blocked; S_Relabel | the exact descriptions of the answers (S_Found) and of what can be reported only compare doc ids; the answer is unique (C01) |
| C73 | the searches of M_Auto1, M_Auto2, M_Blocked; S_Blank | the empty last token leads to every word (S_Found), so every completion matches; F2 by comparing the first completion with the first term |
| C74 | M_Parse, the searches of M_Auto1, M_Auto2, M_Blocked; S_Spaces | parse is a function of the complete tokens and the last token (P_Spaces.parse_split), which do not change (respaced_split) |
| C75 | the models of the four indexes; same_known, unknown_word in S_Rearr.v | simulation of sessions (as for C32), over the tokens the dictionary knows |
| C76 | the models of the four indexes; tidy in S_Tidy.v | from the exact answers (topk_answer); the text of a completion determines its words |
| C77 | the models of the four indexes; same_matches in S_Local.v | exact answers of the two indexes are the same top-k answer |
| C78 | containers on bits with any two heaps, sorts, tails; S_Platform.same_runs, both_built | from the exact answers (C01-C08 over any containers) and C43; refuted for type 4's inexact conjunctive queries by evaluation of two heaps (F56) |
| C79 | web/topkcomp.js formatResult as functions on lists of character codes, over any regular expression engine (M_Page); S_Page: HTML as shown | the four escapes are one prefix-free code, so restoring the tags commutes with it; then induction over characters and tags; the matches of plain words by induction over the text; refuted by evaluation (F58, F59) |
| C80 | the two mg_get_http_var calls with their buffer sizes in front of M_Web.topcomp (M_Request) | short texts by C02 and the JSON lemmas of C39; long ones by C73's exact answer to the blank query; refuted by evaluation (F61) |
| C81 | M_Request.serve and M_Page.format_result | C80 for the answer, C79 for each suggestion; a matching word occurs in the text of the completion, so its first character cannot be outside of every match |
| C82 | M_Save's loaders on any file, as in C45; S_Crash: prefixes of the file | C45's round trip with any rest; every loader is a composition of loaders that do not throw, by induction over the visited members; refuted by evaluation (F62) |
| C83 | M_Request.serve_all over the index of type 1; S_Session: heard, web_answer, responds | induction over the requests with the invariant of the buffers (P_Auto1), uniqueness of answers, the body as a function of the results |
| C84 | M_Request.serve and M_Web.stoull on any variables; S_Session: begins_with_number, counts, senseless | stoull against the specification of numbers, by induction over white space and digits; C83 for one request; refuted by evaluation (F63) |
| C85 | M_Prep, M_Save, M_Request composed; S_Site: modest, wants, completed, servable, not_first; S_Session: affordable | C46's collection of the input, C45's round trip, C83's sessions with the program's containers; conditions on the input carried over to the collection |
| C86 | M_Web.printf and escape_json on any text; S_Percent: halved, sendable, arrives | induction over the text and over the listing of suggestions; refuted by evaluation (F29) |
| C87 | M_Input's readers and M_Save's codecs, as in C44 and C45 | both builds read the same collection (C44, C46), and saving does not read uninitialised members |
| C88 | as C85; S_SiteTyped: types_out, offers | C85 in terms of the input; the words of the typed text; the typed completion itself matches, so the response has suggestions |
| C89 | as C85; S_SiteNarrow: types_on, lists | C85 in terms of the input; a longer last word has fewer matches; an answer with fewer than k suggestions lists all matches |

## Findings

Each is a theorem unless marked (reading).

| | finding | theorem |
|---|---|---|
| F1 | fc_dictionary::locate_prefix never returns term 0 when the prefix is strictly shorter than it | C11_locate_prefix_refuted, C11_locate_prefix_single_refuted, C01_first_term_refuted |
| F2 | integer_fc_dictionary::locate_prefix has the same defect for completion 0 | C15_locate_prefix_refuted, C06_first_completion_refuted, C07_types_agree_refuted |
| F3 | integer_fc_dictionary::locate_prefix leaves `prefix` with an extra element on one failing path | C15_prefix_unchanged_refuted |
| F4 | integer_fc_dictionary::locate reaches `__builtin_unreachable` for some absent completions | C16_locate_refuted, C16_locate_exact_partial |
| F5 | the blocked intersection iterator with one block skips that block's first document | C36_single_block_refuted, C05_first_document_refuted |
| F6 | autocomplete4 treats the inclusive suffix end as exclusive when collecting blocks | C05_last_term_refuted |
| F7 | autocomplete4 with no complete token may report a document twice | C05_duplicates_refuted |
| F8 | autocomplete4 gives up on a document after one block fails the check | C05_one_block_checked_refuted |
| F9 | uint_vec::find(range,[a,a]) does not check the found value | C25_uint_vec_find_range_refuted |
| F10 | k = 0 (no limit) and k > MAX_K (both accepted by web_server) overrun fixed buffers if there are more than 15 results; conjunctive search of type 2 already with exactly 15 results and a further candidate; type 4 with k = 0 gives up at the first candidate that is not a result | C38_k_refuted, C38_http_k_refuted, C38_type2_overrun_refuted, C05_type4_k0_refuted |
| F11 | compact_vector::build throws on all-zero input, so some one-completion collections cannot be indexed | C26_all_zero_refuted, C43_zero_doc_refuted |
| F12 | compact_vector::access / get_word56 may load past the end of the data | C26_access_refuted, C27_word56_refuted |
| F13 | scored_string_pool can overflow: the spaces between words are not counted by max_string_length (nor, for non-ASCII text, all bytes: map_dataset.py counts characters) | C38_pool_refuted; C38_room_refuted (extraction copies 128 bytes at a time, so that even answers that fit the buffer overflow it); S_Room.v has the exact condition |
| F14 | strncmp stops at NUL: strings agreeing up to a NUL are compared by length. Harmless for the indexes, whose terms have no NUL: queries may contain any byte | C41_byte_range_compare_nul_refuted, C41_byte_range_compare_same_cstr |
| F15 | ef_sequence::iterator::next runs past the data on the last element | C24_next_refuted, C24_end_refuted |
| F16 | bits_iterator::get_bits(64) leaves a stale buffer, which skip_zeros reads again | C27_skip_zeros_refuted |
| F17 | compact_vector::enumerator::operator* is not idempotent | C26_enumerator_refuted |
| F18 | compact_ef next_geq of the current value goes back in lists with duplicates | C23_duplicates_refuted |
| F19 | unsorted_list::topk ignores `unique` when the range is not longer than k | C17_unique_refuted |
| F20 | integer_fc builder on duplicate completions: unsigned underflow | C43_duplicate_completions_refuted |
| F21 | the static decode arrays are shared between concurrent lookups (even of different dictionaries) | C42_locate_refuted |
| F22 | the empty-result HTTP body is not valid JSON | C39_empty_refuted |
| F23 | the dictionary builders drop the last 16 strings when the number of strings is a multiple of 17 (with a bucket size B: the last B, multiples of B + 1) | C09_extract_refuted, C10_locate_refuted, C14_extract_refuted, C34_docid_to_lexid_refuted, C01_lost_terms_refuted (wrong answers, and undefined behaviour on the empty query), C38_type2_stumble_refuted (undefined behaviour although the answer could be reported); T_Kept.v and T_Exact.v for every size |
| F24 | pop_heap is called after the root changed, so the range is not a heap at the root: harmless with libstdc++ (C40_gnu_heap), but not covered by the standard | C40_iso_contract_refuted |
| F25 | width 64: the mask 1 << 64 is undefined | C26_width_64_refuted, C27_get_bits_64_refuted |
| F26 | ef_sequence on an unsorted sequence reads back other values | C24_unsorted_refuted |
| F27 | compact_ef next_geq beyond the universe is undefined | C23_beyond_universe_refuted |
| F28 | range-minimum structure over 2^30 - 1 or more elements: the number of bits wraps in int32 and all superblock minima are negative, so that only the first superblock of a range is searched: wrong positions, and unsorted_list::topk misses the smallest element | C20_long_refuted, C17_long_refuted |
| F29 | web_server.cpp:79 passes the body as the printf format: percent signs in completions are lost or misread the variadic argument | C39_percent_refuted, C86_percent, C86_percent_refuted |
| F30 | a token id of 2^32 or more in .mapped makes completion_iterator loop forever | C44_large_id_hangs |
| F31 | `k=x` in the URL ends the server with an uncaught std::invalid_argument | C38_http_k_refuted |
| F32 | bit_vector_builder::resize keeps the bits beyond the new size (they come back when the vector grows) and does not set the pointer push_back writes through; no caller in /repo | C27_resize_refuted, C27_resize_push_refuted |
| F33 | src/check_topk.cpp and benchmark/benchmark_topk.cpp call a member `topk` that is commented out in all index types; their targets are commented out too, but README.md tells to run benchmark_topk | (reading) |
| F34 | a blank line in the input (also one at the end) makes map_dataset.py fail with IndexError | C46_blank_line |
| F35 | filter_dataset.py imports the module `sets`, which exists only in Python 2, while preprocess.sh runs python3 | C47_python3_refuted |
| F36 | an empty line in the queries: map_queries takes front() of an empty vector, load_queries reads query[2^64-1] (only assertions guard) | C48_empty_line_refuted, C50_empty_line_refuted |
| F37 | load_queries keeps more than the documented percentage of the last token: it counts the space before it and adds one character, or two if there is a single token | C50_percentage_refuted, C50_exact |
| F38 | effectiveness writes the difference into a vector without elements (memory reserved for k scores, none for k = 0) | C51_k0_refuted |
| F39 | map_queries prints 4294967294 for a token that is not in the dictionary, also for the empty token after a space at the end of the line | C48_nonvacuous (reading) |
| F40 | find_close at the last bit of a word and find_open at the first bit of a word shift by 64 (bp_vector_support.hpp:194, 262): undefined, although the result is masked out | C52_parentheses_refuted |
| F41 | uncompressed lists start at any byte, but are read through a pointer to UintType: misaligned reads, undefined in C++ (harmless on x86-64) | C54_alignment_refuted |
| F42 | uncompressed lists convert the universe to UintType: with 8-bit integers and 256 documents the mark of the end is 0, and advancing an intersection runs forever | C54_universe_refuted |
| F43 | loading an index file that ends early never reports an error: if it ends before the words of the last vector, a vector gets an indeterminate length; if it ends among them, the index is served with zeros for the missing words, and answers are wrong or missing | C55_no_error_refuted, C55_silent_refuted |
| F44 | benchmark_fc_dictionary gives the id 2^32 - 1 of a query that is not a term to extract, benchmark_integer_fc_dictionary extracts completions that do not exist if there are more queries than completions: both read behind the dictionary | C62_unknown_refuted, C63_many_refuted |
| F45 | benchmark_locate_prefix searches the range of the last token with the positions of the terms (from 0) instead of their ids (from 1), so the completions searched are those of the terms before; it also ignores the result of parse and searches with the first unknown token as the last one | C64_numbers_refuted |
| F46 | integer_fc_dictionary::locate_prefix leaves an element in its argument if it finds nothing and the range is one term (F3): the runs of benchmark_locate_prefix repeat different searches | C64_runs_refuted |
| F47 | the project's own test_fc_dictionary fails on every collection whose first term has two or more characters (F1) or whose number of terms is a multiple of 17 (F23), and test_integer_fc_dictionary reads outside the dictionary when the number of completions is a multiple of 17: the sample collection (31219 terms, the first is a slash, 42169 completions) has neither | C65_first_term_refuted, C65_integer_dictionary_refuted |
| F48 | test_compact_forward_index counts the documents up to num_terms() (line 28), not num_docs(): with fewer documents than terms it reads behind the pointers, with more it leaves the last documents unchecked | C67_forward_refuted |
| F49 | test_unsorted_list on minimal doc ids fails if one of its 5000 random ranges has at most 10 terms two of which have the same first document (F19): on the sample collection (31219 terms) about three ranges are that short in a run, so the test passes or fails by chance | C68_minimal_partial, C68_minimal_refuted, C68_drawn_refuted |
| F50 | test_blocked_inverted_index fails if one of its 10000 random queries has all its terms in one block whose first document has all of them (F5): it passes or fails by chance | C69_test_partial, C69_test_refuted |
| F51 | gen_random_queries never ends for a collection with a single term, as it draws until a query has two distinct terms: test_inverted_index and test_blocked_inverted_index hang | C69_one_term_refuted |
| F52 | partition_queries_by_length.py writes the queries with seven or more terms to `queries.length=7+`, but test_locate_prefix opens `queries.length=7`, and returns if it cannot: after the first percentage (0), so the other four percentages are never tested. Without any file it passes and checks nothing | C70_seven_refuted, C70_no_files_refuted, C70_seven_nonvacuous |
| F53 | test_locate_prefix fails for a query that no completion starts with: it expects an empty range of positions, but the indexes report 2^64 - 1 for both ends (or, as the range of the last token wraps around to the terminator, a completion) | C70_unmatched_refuted |
| F54 | fc_dictionary keeps 32-bit pointers: in every vocabulary whose bucket headers take 4 GiB or more there is a term that cannot be extracted (its header ends before it begins). Vocabularies of fewer than 2^30 - 1 terms reach that size | C09_wide_refuted, C09_wide_nonvacuous |
| F55 | map_dataset.py (Python 3) counts characters and parameters::load checks that number, but fc_dictionary copies 128 bytes per string and stores lengths in one byte: a word of 66 letters é (132 bytes) passes every check, is suggested with NUL bytes (whatever the buffer held) instead of its last letters and is not found when typed out; one of 128 letters é is never found; both together make a search write out of bounds | C46_long_word_refuted, C46_long_words_refuted |
| F56 | autocomplete4's conjunctive search depends on how std::make_heap orders blocks at the same document: only the block on top is checked (F8), so a matching completion is found with one conforming standard library and missed with another | C78_type4_refuted |
| F57 | uint_vec<uint32_t> as the node array of a trie: the in-range prefix sums are computed in UintType and wrap around once the largest elements of the groups of siblings add up to 2^32; no index type here uses it that way | C25_uint_vec_width_refuted, C25_uint_vec_width_partial |
| F58 | topkcomp.js formatResult returns the suggestion unescaped if nothing is typed, and the server answers the empty query with the best completions: markup in a completion becomes part of the page | C79_empty_box_refuted |
| F59 | formatResult turns every escaped <strong> and </strong> back into a tag, also those of the suggestion itself, which are then not shown | C79_own_tag_refuted |
| F60 | formatResult puts the typed words into a regular expression without escaping them (escapeRegExChars is only used in lookupFilter): typing an open parenthesis throws, a dot highlights everything | hypothesis `ordinary` of C79_highlight_partial |
| F61 | web_server.cpp:44-48: a query of 128 bytes or more does not fit query_buf, mg_get_http_var reports a negative length, and the empty query is answered instead: the best completions of the whole collection are suggested | C80_long, C80_long_refuted |
| F62 | an index file has no checksum or end mark, its size is not checked and failed reads are ignored: a file that an interrupted build has left is loaded, and answers are missing or have the wrong text | C82_wrong_refuted, C82_unreported |
| F63 | web_server.cpp:53: std::stoull throws if the variable k has no number (k=x), and nothing catches the exception: one request ends the server. Negative numbers and those of more than 32 bits wrap: k=-1 asks for 4294967295 suggestions, k=4294967296 for all (F10) | C84_k_refuted, C84_every_request_partial, C38_http_k_refuted |

## Contracts used between layers

* `S_Heap.std_heap`: push_heap/pop_heap/make_heap permute the range and restore the heap property. Theorems
  quantify over every implementation; `P_Heap.sorting_heap_ok` gives one, and `T_GnuHeap.C40_gnu_heap` shows that the algorithms of libstdc++ 13 (bits/stl_heap.h, modelled in `M_GnuHeap.v`) are another.
* `S_Iter.cursor` / `opens`: a posting iterator is a cursor over a strictly increasing list. Theorems of the
  search layer quantify over every such iterator.
* `S_TopK.rmq_ok`: range-minimum structure.
* `S_Containers.containers_ok`, `S_Blocked.bcontainers_ok`: what the compressed containers of an index (node
  sequences, compact vectors, posting lists, range-minimum structure, heaps, offsets and terms of blocks) have to do.
  The theorems about the index types quantify over every implementation; `P_ListContainers.list_containers` and
  `P_BlockFinal.list_bcontainers` (plain lists) show that there is one, and `P_Real.real_containers_ok`, `real_bcontainers_ok` that the
  bit-level containers of types.hpp meet them: the `_bits` theorems of `T_Real.v` are about those. `T_End.v` and
  `T_Build.v` start from the text of the input files.
* `S_Containers.ok_rmq` etc. are stated against `S_*` specifications, not against the models.
* Doc ids, term ids and lexicographic positions are `nat`.

## Tests against wrong programs

`seeded/LOG.jsonl` has one line for each wrong program tried: a definition of the model edited in a scratch copy (`scripts/mutate.py`), the claim this makes
false, the theorems that no longer check, the lemmas and examples that broke on the way, and the theorems tightened because of it. The name of a tuple such as
`all_bits` stands for the theorems of its file: the tuple no longer checks as one of them does not. Where `files_checked` is given, only these theorem files (and
what they need) were rebuilt. A line without failed theorems is an edit that does not change what the program does; its claim says why.

## Assumptions

Every property theorem prints "Closed under the global context". `coqchk` lists seven axioms of the Coq
library module `Coq.ssr.ssrunder` (loaded through `ZifyBool`; no theorem depends on them):
`Under_rel.Over_rel`, `Under_rel.Under_rel`, `Under_rel.Under_relE`, `Under_rel.Under_rel_from_rel`,
`Under_rel.over_rel`, `Under_rel.over_rel_done`, `Under_rel.under_rel_done`.

(** The theorems about the indexes for the containers as implemented on bits: ef_sequence (Elias-Fano with darray),
    compact_vector, cartesian_tree, compact_ef posting lists. What remains abstract are the standard algorithms: [heap] (std::make_heap,
    push_heap, pop_heap), [sort] and [bsort] (std::sort); and [tail], the word behind each bit vector, which
    compact_vector and bit_vector read but never use. The restrictions are those of the theorems without _bits. *)
From Coq Require Import Sorted Permutation.
From Verif Require Import Base S_Order P_Order S_Vocab S_Completions S_Parse S_Iter M_Heap S_Heap M_Iter M_Intersect S_Intersect M_Containers S_Containers M_Auto M_Auto1 S_Collection S_Index.
From Verif Require Import M_Trie S_Trie M_TopK S_TopK M_Auto2 S_Index2 P_Collection P_Auto1 P_Auto23 P_ListContainers M_Blocked S_Blocked M_Real P_Real P_RealTopK P_Heap P_BlockFinal M_CompactEf M_Cart.
From Verif Require Import T_Auto1 T_Auto2 T_Auto4 T_Blocked T_Forward T_TopK.
Local Open Scope nat_scope.

(** C01 (and C08 for type 1). *)
Theorem C01_prefix_topk_bits_partial : forall tail heap sort c,
  (tail < 2 ^ 64)%N -> (forall A, std_heap (heap A)) -> sorts_by_size ce_ops sort ->
  let K := real_containers tail heap sort in
  wf_collection c -> sizes_ok c -> some_doc_positive c -> some_term_not_in_doc0 c ->
  exists x, ac1_build K (files_of c) = Ok x /\
    forall fuel k q ts last s,
    query_fuel c < fuel -> 1 <= k <= MAX_K -> query_split q ts last -> first_term_ok c last -> state1_ok s ->
    exists out, topk_answer c (prefix_match ts last) k out /\
      (fits_pool out ->
       exists s', ac1_prefix_topk K x fuel k q s = Ok s' /\ pool_results (s1_pool s') = Ok out /\ state1_ok s').
Proof. intros tail heap sort c H1 H2 H3 K. exact (C01_prefix_topk_partial K c (real_containers_ok tail heap sort H1 H2 H3)). Qed.

(** C02. *)
Theorem C02_conjunctive_topk_bits_partial : forall tail heap sort c,
  (tail < 2 ^ 64)%N -> (forall A, std_heap (heap A)) -> sorts_by_size ce_ops sort ->
  let K := real_containers tail heap sort in
  wf_collection c -> sizes_ok c -> some_doc_positive c -> some_term_not_in_doc0 c ->
  exists x, ac1_build K (files_of c) = Ok x /\
    forall fuel k q ts last s,
    query_fuel c < fuel -> 1 <= k <= MAX_K -> query_split q ts last -> first_term_ok c last -> state1_ok s ->
    exists out, topk_answer c (conj_match c ts last) k out /\
      (fits_pool out ->
       exists s', ac1_conjunctive_topk K x fuel k q s = Ok s' /\ pool_results (s1_pool s') = Ok out /\ state1_ok s').
Proof. intros tail heap sort c H1 H2 H3 K. exact (C02_conjunctive_topk_partial K c (real_containers_ok tail heap sort H1 H2 H3)). Qed.

(** C03. *)
Theorem C03_conjunctive_topk_bits_partial : forall tail heap sort c,
  (tail < 2 ^ 64)%N -> (forall A, std_heap (heap A)) -> sorts_by_size ce_ops sort ->
  let K := real_containers tail heap sort in
  wf_collection c -> sizes_ok2 c -> some_doc_positive c -> some_term_not_in_doc0 c ->
  exists x, ac2_build K (files_of c) = Ok x /\
    forall fuel k q ts last s,
    query_fuel c < fuel -> 1 <= k <= MAX_K -> query_split q ts last -> first_term_ok c last -> state2_ok s ->
    exists out, topk_answer c (conj_match c ts last) k out /\
      (fits_pool out ->
       exists s', ac2_conjunctive_topk K x fuel k q s = Ok s' /\ pool_results (s2_pool s') = Ok out /\ state2_ok s').
Proof. intros tail heap sort c H1 H2 H3 K. exact (C03_conjunctive_topk_partial K c (real_containers_ok tail heap sort H1 H2 H3)). Qed.

(** C04. *)
Theorem C04_conjunctive_topk_bits_partial : forall tail heap sort c,
  (tail < 2 ^ 64)%N -> (forall A, std_heap (heap A)) -> sorts_by_size ce_ops sort ->
  let K := real_containers tail heap sort in
  wf_collection c -> sizes_ok2 c -> some_doc_positive c ->
  exists x, ac3_build K (files_of c) = Ok x /\
    forall fuel k q ts last s,
    query_fuel c < fuel -> 1 <= k <= MAX_K -> query_split q ts last -> first_term_ok c last -> state2_ok s ->
    exists out, topk_answer c (conj_match c ts last) k out /\
      (fits_pool out ->
       exists s', ac3_conjunctive_topk K x fuel k q s = Ok s' /\ pool_results (s2_pool s') = Ok out /\ state2_ok s').
Proof. intros tail heap sort c H1 H2 H3 K. exact (C04_conjunctive_topk_partial K c (real_containers_ok tail heap sort H1 H2 H3)). Qed.

(** C05. *)
Theorem C05_conjunctive_topk_bits_partial : forall tail heap sort bsort c m,
  (tail < 2 ^ 64)%N -> (forall A, std_heap (heap A)) -> sorts_by_size ce_ops sort -> (forall A key l, Permutation (bsort A key l) l) ->
  let K := real_bcontainers tail heap sort bsort in
  wf_collection c -> sizes_ok2 c -> few_postings c -> some_doc_positive c ->
  exists x, ac4_build K m (files_of c) = Ok x /\
    forall fuel k q ts last s,
    query_fuel c < fuel -> 1 <= k <= MAX_K -> query_split q ts last -> first_term_ok c last -> state2_ok s ->
    exists out, sound_answer c (conj_match c ts last) k out /\
      (query_exact c (bi_bounds K (a4_inverted x)) ts last -> topk_answer c (conj_match c ts last) k out) /\
      (fits_pool out ->
       exists s', ac4_conjunctive_topk K x fuel k q s = Ok s' /\ pool_results (s2_pool s') = Ok out /\ state2_ok s').
Proof. intros tail heap sort bsort c m H1 H2 H3 H4 K. exact (C05_conjunctive_topk_partial K c m (real_bcontainers_ok tail heap sort H1 H2 H3 bsort H4)). Qed.

(** C06. *)
Theorem C06_type2_prefix_topk_bits_partial : forall tail heap sort c,
  (tail < 2 ^ 64)%N -> (forall A, std_heap (heap A)) -> sorts_by_size ce_ops sort ->
  let K := real_containers tail heap sort in
  wf_collection c -> sizes_ok2 c -> some_doc_positive c -> some_term_not_in_doc0 c ->
  exists x, ac2_build K (files_of c) = Ok x /\
    forall fuel k q ts last s,
    query_fuel c < fuel -> 1 <= k <= MAX_K -> query_split q ts last -> first_term_ok c last ->
    first_completion_ok c ts last -> state2_ok s ->
    exists out, topk_answer c (prefix_match ts last) k out /\
      (fits_pool out ->
       exists s', ac2_prefix_topk K x fuel k q s = Ok s' /\ pool_results (s2_pool s') = Ok out /\ state2_ok s').
Proof. intros tail heap sort c H1 H2 H3 K. exact (C06_type2_prefix_topk_partial K c (real_containers_ok tail heap sort H1 H2 H3)). Qed.

Theorem C06_type3_prefix_topk_bits_partial : forall tail heap sort c,
  (tail < 2 ^ 64)%N -> (forall A, std_heap (heap A)) -> sorts_by_size ce_ops sort ->
  let K := real_containers tail heap sort in
  wf_collection c -> sizes_ok2 c -> some_doc_positive c ->
  exists x, ac3_build K (files_of c) = Ok x /\
    forall fuel k q ts last s,
    query_fuel c < fuel -> 1 <= k <= MAX_K -> query_split q ts last -> first_term_ok c last ->
    first_completion_ok c ts last -> state2_ok s ->
    exists out, topk_answer c (prefix_match ts last) k out /\
      (fits_pool out ->
       exists s', ac3_prefix_topk K x fuel k q s = Ok s' /\ pool_results (s2_pool s') = Ok out /\ state2_ok s').
Proof. intros tail heap sort c H1 H2 H3 K. exact (C06_type3_prefix_topk_partial K c (real_containers_ok tail heap sort H1 H2 H3)). Qed.

Theorem C06_type4_prefix_topk_bits_partial : forall tail heap sort bsort c m,
  (tail < 2 ^ 64)%N -> (forall A, std_heap (heap A)) -> sorts_by_size ce_ops sort -> (forall A key l, Permutation (bsort A key l) l) ->
  let K := real_bcontainers tail heap sort bsort in
  wf_collection c -> sizes_ok2 c -> few_postings c -> some_doc_positive c ->
  exists x, ac4_build K m (files_of c) = Ok x /\
    forall fuel k q ts last s,
    query_fuel c < fuel -> 1 <= k <= MAX_K -> query_split q ts last -> first_term_ok c last ->
    first_completion_ok c ts last -> state2_ok s ->
    exists out, topk_answer c (prefix_match ts last) k out /\
      (fits_pool out ->
       exists s', ac4_prefix_topk K x fuel k q s = Ok s' /\ pool_results (s2_pool s') = Ok out /\ state2_ok s').
Proof. intros tail heap sort bsort c m H1 H2 H3 H4 K. exact (C06_type4_prefix_topk_partial K c m (real_bcontainers_ok tail heap sort H1 H2 H3 bsort H4)). Qed.

(** C07. *)
Theorem C07_types_agree_bits_partial : forall tail heap sort c,
  (tail < 2 ^ 64)%N -> (forall A, std_heap (heap A)) -> sorts_by_size ce_ops sort ->
  let K := real_containers tail heap sort in
  wf_collection c -> sizes_ok2 c -> some_doc_positive c -> some_term_not_in_doc0 c ->
  exists x1 x2 x3, ac1_build K (files_of c) = Ok x1 /\ ac2_build K (files_of c) = Ok x2 /\ ac3_build K (files_of c) = Ok x3 /\
  forall fuel rs, query_fuel c < fuel -> Forall (request_ok2 c) rs ->
  exists outs s1 s2 s3,
    session (ac1_request K x1 fuel) (fun s => pool_results (s1_pool s)) rs state1_new = Ok (outs, s1) /\
    session (ac2_request K x2 fuel) (fun s => pool_results (s2_pool s)) rs state2_new = Ok (outs, s2) /\
    session (ac3_request K x3 fuel) (fun s => pool_results (s2_pool s)) rs state2_new = Ok (outs, s3).
Proof. intros tail heap sort c H1 H2 H3 K. exact (C07_types_agree_partial K c (real_containers_ok tail heap sort H1 H2 H3)). Qed.

Theorem C07_type4_agrees_bits_partial : forall tail heap sort bsort c m,
  (tail < 2 ^ 64)%N -> (forall A, std_heap (heap A)) -> sorts_by_size ce_ops sort -> (forall A key l, Permutation (bsort A key l) l) ->
  let K := real_bcontainers tail heap sort bsort in
  wf_collection c -> sizes_ok2 c -> few_postings c -> some_doc_positive c -> some_term_not_in_doc0 c ->
  exists x1 x4, ac1_build K (files_of c) = Ok x1 /\ ac4_build K m (files_of c) = Ok x4 /\
  forall fuel rs, query_fuel c < fuel -> Forall (request_ok4 c) rs ->
    Forall (fun r => rq_conj r = true -> forall ts last, query_split (rq_text r) ts last ->
              query_exact c (bi_bounds K (a4_inverted x4)) ts last) rs ->
  exists outs s1 s4,
    session (ac1_request K x1 fuel) (fun s => pool_results (s1_pool s)) rs state1_new = Ok (outs, s1) /\
    session (ac4_request K x4 fuel) (fun s => pool_results (s2_pool s)) rs state2_new = Ok (outs, s4).
Proof. intros tail heap sort bsort c m H1 H2 H3 H4 K. exact (C07_type4_agrees_partial K c m (real_bcontainers_ok tail heap sort H1 H2 H3 bsort H4)). Qed.

(** C08. *)
Theorem C08_type1_strings_bits_partial : forall tail heap sort c,
  (tail < 2 ^ 64)%N -> (forall A, std_heap (heap A)) -> sorts_by_size ce_ops sort ->
  let K := real_containers tail heap sort in
  wf_collection c -> sizes_ok c -> some_doc_positive c -> some_term_not_in_doc0 c ->
  exists x, ac1_build K (files_of c) = Ok x /\
    forall ds idss scores data,
    Forall2 (is_doc c) ds idss -> length scores = MAX_K -> firstn (length ds) scores = ds -> length data = POOL_SIZE ->
    fits_pool (combine ds (map (text c) idss)) ->
    exists p, ac1_extract K x (length ds) {| p_scores := scores; p_offsets := [0]; p_data := data |} = Ok p /\
      pool_results p = Ok (combine ds (map (text c) idss)).
Proof. intros tail heap sort c H1 H2 H3 K. exact (C08_type1_strings_partial K c (real_containers_ok tail heap sort H1 H2 H3)). Qed.

Theorem C08_type23_strings_bits_partial : forall tail heap sort c,
  (tail < 2 ^ 64)%N -> (forall A, std_heap (heap A)) -> sorts_by_size ce_ops sort ->
  let K := real_containers tail heap sort in
  wf_collection c -> sizes_ok2 c -> some_doc_positive c ->
  exists x, core_build K (files_of c) = Ok x /\
    forall ds idss scores s,
    Forall2 (is_doc c) ds idss -> length scores = MAX_K -> firstn (length ds) scores = ds -> state2_ok s ->
    p_offsets (s2_pool s) = [0] -> fits_pool (combine ds (map (text c) idss)) ->
    exists s', finish x (length ds) scores s = Ok s' /\
      pool_results (s2_pool s') = Ok (combine ds (map (text c) idss)).
Proof. intros tail heap sort c H1 H2 H3 K. exact (C08_type23_strings_partial K c (real_containers_ok tail heap sort H1 H2 H3)). Qed.

(** C33. *)
Theorem C33_forward_bits : forall tail heap sort T lists,
  (tail < 2 ^ 64)%N -> (forall A, std_heap (heap A)) -> sorts_by_size ce_ops sort ->
  let K := real_containers tail heap sort in
  (1 <= N.of_nat T < 4294967296)%N -> Forall (Forall (fun x => (x <= N.of_nat T)%N)) lists ->
  (N.of_nat (length (concat lists)) < 18446744073709551616)%N ->
  exists f, fwd_build K T lists = Ok f /\
    forall d l, nth_error lists d = Some l ->
      (exists pos, fwd_iterator f d = Ok (pos, length l) /\ forall j, j < length l -> fw_data f (pos + j) = Ok (nth j l 0%N)) /\
      (forall a b, exists r, fwd_intersects f d a b = Ok r /\
         (r = true <-> exists x, In x l /\ (N.of_nat a <= x <= N.of_nat b)%N)).
Proof. intros tail heap sort T lists H1 H2 H3 K. exact (C33_forward_partial K T lists (real_containers_ok tail heap sort H1 H2 H3)). Qed.

(** C34. *)
Theorem C34_index_bits_partial : forall tail heap sort c,
  (tail < 2 ^ 64)%N -> (forall A, std_heap (heap A)) -> sorts_by_size ce_ops sort ->
  let K := real_containers tail heap sort in
  wf_collection c -> sizes_ok2 c -> some_doc_positive c ->
  exists x, core_build K (files_of c) = Ok x /\ ul_size (co_docs x) = length (comps c) /\
    forall i, i < length (comps c) ->
    exists d, nth_error (docs c) i = Some d /\ ul_acc (co_docs x) i = Ok d /\ co_lexid x d = Ok (N.of_nat i).
Proof. intros tail heap sort c H1 H2 H3 K. exact (C34_index_partial K c (real_containers_ok tail heap sort H1 H2 H3)). Qed.

(** C35. *)
Theorem C35_blocks_bits : forall tail heap sort bsort u posts m,
  (tail < 2 ^ 64)%N -> (forall A, std_heap (heap A)) -> sorts_by_size ce_ops sort -> (forall A key l, Permutation (bsort A key l) l) ->
  let K := real_bcontainers tail heap sort bsort in
  lists_ok u posts ->
  exists ii, bi_build K m u posts = Ok ii /\
    (forall t, 1 <= t <= length posts -> in_block (bi_bounds K ii) (block_id K ii t) t /\
       forall i, in_block (bi_bounds K ii) i t -> i = block_id K ii t) /\
    (forall i, i < length (bi_bounds K ii) ->
       exists b, open_block K ii i [] = Ok b /\ block_holds K posts u (bi_bounds K ii) i b).
Proof. intros tail heap sort bsort u posts m H1 H2 H3 H4 K. exact (C35_blocks_partial K u posts m (real_bcontainers_ok tail heap sort H1 H2 H3 bsort H4)). Qed.

(** C36. *)
Theorem C36_blocked_intersection_bits_partial : forall tail heap sort bsort u posts m,
  (tail < 2 ^ 64)%N -> (forall A, std_heap (heap A)) -> sorts_by_size ce_ops sort -> (forall A key l, Permutation (bsort A key l) l) ->
  let K := real_bcontainers tail heap sort bsort in
  lists_ok u posts ->
  exists ii, bi_build K m u posts = Ok ii /\
    forall fuel ids, ids <> [] -> increasing ids -> Forall (fun t => 1 <= t <= length posts) ids ->
      (u + 2) * (length ids + 1) < fuel ->
    exists x r, binter_new K ii fuel ids = Ok x /\ yields (binter_stream K ii fuel) x r /\ increasing r /\
      ((forall i, ~ Forall (in_block (bi_bounds K ii) i) ids) -> common_docs posts ids r) /\
      (forall i, Forall (in_block (bi_bounds K ii) i) ids ->
         forall d, In d r <-> Forall (has_term posts d) ids /\ ~ leads (bi_bounds K ii) posts i d).
Proof. intros tail heap sort bsort u posts m H1 H2 H3 H4 K. exact (C36_blocked_intersection_partial K u posts m (real_bcontainers_ok tail heap sort H1 H2 H3 bsort H4)). Qed.

(** C37. *)
Theorem C37_type1_session_bits_partial : forall tail heap sort c,
  (tail < 2 ^ 64)%N -> (forall A, std_heap (heap A)) -> sorts_by_size ce_ops sort ->
  let K := real_containers tail heap sort in
  wf_collection c -> sizes_ok c -> some_doc_positive c -> some_term_not_in_doc0 c ->
  exists x, ac1_build K (files_of c) = Ok x /\ state1_ok state1_new /\
    forall fuel rs s, query_fuel c < fuel -> state1_ok s -> Forall (request_ok c) rs ->
    exists outs s', session (ac1_request K x fuel) (fun s => pool_results (s1_pool s)) rs s = Ok (outs, s') /\
      Forall2 (answer_to c) rs outs /\ state1_ok s'.
Proof. intros tail heap sort c H1 H2 H3 K. exact (C37_type1_session_partial K c (real_containers_ok tail heap sort H1 H2 H3)). Qed.

Theorem C37_type2_session_bits_partial : forall tail heap sort c,
  (tail < 2 ^ 64)%N -> (forall A, std_heap (heap A)) -> sorts_by_size ce_ops sort ->
  let K := real_containers tail heap sort in
  wf_collection c -> sizes_ok2 c -> some_doc_positive c -> some_term_not_in_doc0 c ->
  exists x, ac2_build K (files_of c) = Ok x /\ state2_ok state2_new /\
    forall fuel rs s, query_fuel c < fuel -> state2_ok s -> Forall (request_ok2 c) rs ->
    exists outs s', session (ac2_request K x fuel) (fun s => pool_results (s2_pool s)) rs s = Ok (outs, s') /\
      Forall2 (answer_to c) rs outs /\ state2_ok s'.
Proof. intros tail heap sort c H1 H2 H3 K. exact (C37_type2_session_partial K c (real_containers_ok tail heap sort H1 H2 H3)). Qed.

Theorem C37_type3_session_bits_partial : forall tail heap sort c,
  (tail < 2 ^ 64)%N -> (forall A, std_heap (heap A)) -> sorts_by_size ce_ops sort ->
  let K := real_containers tail heap sort in
  wf_collection c -> sizes_ok2 c -> some_doc_positive c ->
  exists x, ac3_build K (files_of c) = Ok x /\ state2_ok state2_new /\
    forall fuel rs s, query_fuel c < fuel -> state2_ok s -> Forall (request_ok2 c) rs ->
    exists outs s', session (ac3_request K x fuel) (fun s => pool_results (s2_pool s)) rs s = Ok (outs, s') /\
      Forall2 (answer_to c) rs outs /\ state2_ok s'.
Proof. intros tail heap sort c H1 H2 H3 K. exact (C37_type3_session_partial K c (real_containers_ok tail heap sort H1 H2 H3)). Qed.

Theorem C37_type4_session_bits_partial : forall tail heap sort bsort c m,
  (tail < 2 ^ 64)%N -> (forall A, std_heap (heap A)) -> sorts_by_size ce_ops sort -> (forall A key l, Permutation (bsort A key l) l) ->
  let K := real_bcontainers tail heap sort bsort in
  wf_collection c -> sizes_ok2 c -> few_postings c -> some_doc_positive c ->
  exists x, ac4_build K m (files_of c) = Ok x /\ state2_ok state2_new /\
    forall fuel rs s, query_fuel c < fuel -> state2_ok s -> Forall (request_ok4 c) rs ->
    exists outs s', session (ac4_request K x fuel) (fun s => pool_results (s2_pool s)) rs s = Ok (outs, s') /\
      Forall2 (answer4 c (bi_bounds K (a4_inverted x))) rs outs /\ state2_ok s'.
Proof. intros tail heap sort bsort c m H1 H2 H3 H4 K. exact (C37_type4_session_partial K c m (real_bcontainers_ok tail heap sort H1 H2 H3 bsort H4)). Qed.

(** C12, C13: the trie (the number of completions fits the id type). *)
Theorem C12_trie_locate_prefix_bits : forall tail heap sort cs docs,
  (tail < 2 ^ 64)%N -> (forall A, std_heap (heap A)) -> sorts_by_size ce_ops sort ->
  wf_completions cs -> length docs = length cs -> (N.of_nat (length cs) < 4294967295)%N ->
  exists ta t, trie_build (num_levels cs) (records docs cs) = Ok ta /\ ta_docs ta = docs /\
    trie_store (real_containers tail heap sort) ta = Ok t /\
    forall prefix a b, Forall (fun x => (0 < x)%N) prefix -> (1 <= a <= b)%N ->
    exists r, trie_locate_prefix t prefix a b = Ok r /\
      match r with
      | Some (x, y) => exact_range_excl (length cs) (fun i => continues prefix a b (nth i cs [])) x y
      | None => forall i, i < length cs -> ~ continues prefix a b (nth i cs [])
      end.
Proof.
  intros tail heap sort cs docs H1 H2 H3 A B C. destruct (real_trie tail heap sort H1 H2 H3 cs docs A B C) as (ta & t & E1 & E2 & E3 & H & _).
  exists ta, t. exact (conj E1 (conj E2 (conj E3 H))).
Qed.

Theorem C13_trie_is_member_bits : forall tail heap sort cs docs,
  (tail < 2 ^ 64)%N -> (forall A, std_heap (heap A)) -> sorts_by_size ce_ops sort ->
  wf_completions cs -> length docs = length cs -> (N.of_nat (length cs) < 4294967295)%N ->
  exists ta t, trie_build (num_levels cs) (records docs cs) = Ok ta /\ trie_store (real_containers tail heap sort) ta = Ok t /\
    forall c, Forall (fun x => (0 < x)%N) c ->
    exists r, trie_is_member t (terminated c) = Ok r /\ (r = true <-> In c cs).
Proof.
  intros tail heap sort cs docs H1 H2 H3 A B C. destruct (real_trie tail heap sort H1 H2 H3 cs docs A B C) as (ta & t & E1 & E2 & E3 & _ & H).
  exists ta, t. exact (conj E1 (conj E3 H)).
Qed.

(** C17: the unsorted_list built from any values below 2^32 - 1, not all zero (F11), at most 2^30 - 2 of them. *)
Theorem C17_unsorted_topk_bits_partial : forall tail heap sort l,
  (tail < 2 ^ 64)%N -> (forall A, std_heap (heap A)) -> sorts_by_size ce_ops sort ->
  (N.of_nat (length l) < 1073741823)%N -> Forall (fun x => (N.of_nat x < 4294967295)%N) l -> (exists x, In x l /\ 0 < x) ->
  exists ul, ulist_build (real_containers tail heap sort) l = Ok ul /\
    forall k a b fuel topk, a <= b -> b <= length l -> 1 <= k -> k <= length topk -> b - a + 1 < fuel ->
    exists r topk', unsorted_topk (ul_acc ul) (ul_size ul) (ul_rmq ul) (heap _) k false fuel a b topk = Ok (r, topk') /\
      length topk' = length topk /\ r <= k /\ k_smallest k (segment l a b) (firstn r topk').
Proof. exact (fun tail heap sort l H1 H2 H3 => real_unsorted_topk tail heap sort H1 H2 H3 l). Qed.

(** Input of the inverted index: non-empty increasing posting lists with doc ids below [u]. *)
Definition good_posts (u : nat) (posts : list (list nat)) : Prop :=
  (N.of_nat u < 4294967295)%N /\ posts <> [] /\
  Forall (fun l => l <> [] /\ increasing l /\ Forall (fun x => x < u) l) posts /\
  (N.of_nat (length (concat posts)) < 1099511627776)%N.

(** C18: the index of minimal doc ids over the inverted index; some list does not start with 0 (F11). *)
Theorem C18_minimal_topk_bits_partial : forall tail heap sort u posts,
  (tail < 2 ^ 64)%N -> (forall A, std_heap (heap A)) -> sorts_by_size ce_ops sort ->
  good_posts u posts -> (N.of_nat (length posts) < 1073741823)%N -> (exists p, In p posts /\ 0 < hd 0 p) ->
  let K := real_containers tail heap sort in
  exists iterator mins ul, k_lists K u posts = Ok iterator /\ minimal_doc_ids posts = Ok mins /\ ulist_build K mins = Ok ul /\
    forall k a b fuel topk, a < b -> b <= length posts -> 1 <= k -> k <= length topk -> length (concat posts) < fuel ->
    exists r topk', minimal_topk (ul_acc ul) (ul_size ul) (ul_rmq ul) ce_ops iterator (heap _) k fuel a b topk = Ok (r, topk') /\
      length topk' = length topk /\ r <= k /\
      k_smallest_distinct k (concat (firstn (b - a) (skipn a posts))) (firstn r topk').
Proof.
  intros tail heap sort u posts H1 H2 H3 (A & B & C & D). exact (real_minimal_topk tail heap sort H1 H2 H3 u posts A B C D).
Qed.

(** C19: the heap of posting lists. *)
Theorem C19_heap_topk_bits : forall tail heap sort u posts,
  (tail < 2 ^ 64)%N -> (forall A, std_heap (heap A)) -> sorts_by_size ce_ops sort ->
  good_posts u posts ->
  exists iterator, k_lists (real_containers tail heap sort) u posts = Ok iterator /\
    forall k a b fuel topk, 1 <= a -> a <= b + 1 -> b <= length posts -> 1 <= k -> k <= length topk -> length (concat posts) < fuel ->
    exists r topk', heap_topk ce_ops iterator (heap _) k fuel a b topk = Ok (r, topk') /\
      length topk' = length topk /\ r <= k /\
      k_smallest_distinct k (concat (firstn (b + 1 - a) (skipn (a - 1) posts))) (firstn r topk').
Proof.
  intros tail heap sort u posts H1 H2 H3 (A & B & C & D). exact (real_heap_topk tail heap sort H1 H2 H3 u posts A B C D).
Qed.

(** C22: intersections of posting lists. *)
Theorem C22_intersection_bits : forall tail heap sort u posts,
  (tail < 2 ^ 64)%N -> (forall A, std_heap (heap A)) -> sorts_by_size ce_ops sort ->
  good_posts u posts ->
  exists iterator, k_lists (real_containers tail heap sort) u posts = Ok iterator /\
    (forall ids lists fuel r, ids <> [] -> Forall2 (fun id l => 0 < id /\ nth_error posts (id - 1) = Some l) ids lists ->
      (u + 1) * (length ids + 1) < fuel -> common lists r ->
      exists x, intersection ce_ops u iterator sort fuel ids = Ok x /\ yields (inter_stream ce_ops u fuel) x r) /\
    (forall t l, nth_error posts t = Some l -> exists it, iterator t = Ok it /\ yields (iter_stream ce_ops) it l).
Proof.
  intros tail heap sort u posts H1 H2 H3 (A & B & C & D). exact (real_intersection tail heap sort H1 H2 H3 u posts A B C D).
Qed.

(** All of them at once: Print Assumptions takes ten seconds for each. *)
Definition all_bits := (
  C12_trie_locate_prefix_bits, C13_trie_is_member_bits,
  C01_prefix_topk_bits_partial,
  C02_conjunctive_topk_bits_partial,
  C03_conjunctive_topk_bits_partial,
  C04_conjunctive_topk_bits_partial,
  C05_conjunctive_topk_bits_partial,
  C06_type2_prefix_topk_bits_partial,
  C06_type3_prefix_topk_bits_partial,
  C06_type4_prefix_topk_bits_partial,
  C07_types_agree_bits_partial,
  C07_type4_agrees_bits_partial,
  C08_type1_strings_bits_partial,
  C08_type23_strings_bits_partial,
  C33_forward_bits,
  C34_index_bits_partial,
  C35_blocks_bits,
  C36_blocked_intersection_bits_partial,
  C37_type1_session_bits_partial,
  C37_type2_session_bits_partial,
  C37_type3_session_bits_partial,
  C37_type4_session_bits_partial,
  C17_unsorted_topk_bits_partial,
  C18_minimal_topk_bits_partial,
  C19_heap_topk_bits,
  C22_intersection_bits).
Print Assumptions all_bits.

(** The assumptions are met, and the indexes run on bits. *)
Definition sort_ce : list ceit -> list ceit := fold_right (ins_key c_size) [].
Definition sort_b (A : Type) (key : A -> nat) : list A -> list A := fold_right (ins_key key) [].
Definition K_ex := real_bcontainers 12345 sorting_heap sort_ce sort_b.

Example C01_C08_bits_nonvacuous :
  (forall A, std_heap (sorting_heap A)) /\ sorts_by_size ce_ops sort_ce /\ (forall A key l, Permutation (sort_b A key l) l) /\
  (let rs := [{| rq_conj := false; rq_k := 2; rq_text := [98]%N |};
              {| rq_conj := true; rq_k := 10; rq_text := [100; 101; 32; 98; 99]%N |};
              {| rq_conj := true; rq_k := 3; rq_text := [98]%N |}] in
   let fuel := query_fuel coll_ex + 1 in
   let f := files_of coll_ex in
   let K := b_base K_ex in
   do x1 <- ac1_build K f; do (o1, _) <- session (ac1_request K x1 fuel) (fun s => pool_results (s1_pool s)) rs state1_new;
   do x2 <- ac2_build K f; do (o2, _) <- session (ac2_request K x2 fuel) (fun s => pool_results (s2_pool s)) rs state2_new;
   do x3 <- ac3_build K f; do (o3, _) <- session (ac3_request K x3 fuel) (fun s => pool_results (s2_pool s)) rs state2_new;
   do x4 <- ac4_build K_ex 7 f; do (o4, _) <- session (ac4_request K_ex x4 fuel) (fun s => pool_results (s2_pool s)) rs state2_new;
   Ok [o1; o2; o3; o4]) =
  let o := [[(1, [98; 32; 100; 101]%N); (2, [98; 99; 32; 97; 32; 100; 101]%N)];
            [(2, [98; 99; 32; 97; 32; 100; 101]%N)];
            [(0, [97; 32; 98; 99]%N); (1, [98; 32; 100; 101]%N); (2, [98; 99; 32; 97; 32; 100; 101]%N)]] in
  Ok [o; o; o; o].
Proof.
  split; [exact sorting_heap_ok|]. split; [|split].
  - intros l. split.
    + induction l as [|x l IH]; cbn; [reflexivity|]. rewrite ins_key_perm. now constructor.
    + induction l as [|x l IH]; cbn; [constructor|]. fold (sort_ce l). revert IH. generalize (sort_ce l). clear l.
      intros l Hl. induction Hl as [|y l Hs IH Hy]; cbn [ins_key]; [repeat constructor|].
      destruct (Nat.leb_spec (c_size x) (c_size y)).
      * constructor; [now constructor|]. constructor; [exact H|]. eapply Forall_impl; [|exact Hy]. cbn. lia.
      * constructor; [exact IH|]. eapply Permutation_Forall; [symmetry; apply ins_key_perm|]. constructor; [cbn; lia|exact Hy].
  - intros A key l. induction l as [|x l IH]; cbn; [reflexivity|]. rewrite ins_key_perm. now constructor.
  - vm_compute. reflexivity.
Qed.

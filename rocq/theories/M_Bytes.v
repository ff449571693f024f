(** The space an index reports: the bytes() members and the numbers print_stats() prints. Sums of size_t are taken without
    wrapping: they measure memory that is in use. No proofs. *)
From Coq Require Import String ZArith.
From Verif Require Import Base M_Fc M_Bits M_Cvec M_Darray M_EfSeq M_Rs M_Bp M_Stored.
Local Open Scope nat_scope.

(** essentials::vec_bytes(v) = v.size() * sizeof(v.front()) + sizeof(v.size()), for elements of [n] bytes (not in the repository; used in bit_vector.hpp:255). *)
Definition vec_bytes {A} (n : nat) (v : list A) : nat := length v * n + 8.
(** bit_vector.hpp:254-256. *)
Definition bv_bytes (v : bv) : nat := 8 + vec_bytes 8 (v_words v).
(** compact_vector.hpp:301-304. *)
Definition cvec_bytes (v : cvec) : nat := 8 + 8 + 8 + vec_bytes 8 (cv_bits v).
(** ef/darray.hpp:98-102: the vectors hold int64_t, uint16_t and uint64_t (lines 143-145). *)
Definition darray_bytes (d : darray) : nat := 8 + vec_bytes 8 (d_blocks d) + vec_bytes 2 (d_subs d) + vec_bytes 8 (d_over d).
(** ef/ef_sequence.hpp:192-195: m_l is a uint8_t (line 215). *)
Definition efs_bytes (e : efs) : nat := 1 + bv_bytes (ef_high e) + darray_bytes (ef_d1 e) + bv_bytes (ef_low e) + 8.
(** succinct_rmq/rs_bit_vector.hpp:22-26. *)
Definition rsv_bytes (r : rsv) : nat := bv_bytes (rs_bv r) + vec_bytes 8 (rs_pairs r) + vec_bytes 8 (rs_hints r) + vec_bytes 8 (rs_hints0 r).
(** succinct_rmq/bp_vector.hpp:23-28 (int16_t and int32_t minima); cartesian_tree.hpp:129-131. *)
Definition bpv_bytes (p : bpv) : nat := rsv_bytes (bp_rs p) + 8 + vec_bytes 2 (bp_block_min p) + vec_bytes 4 (bp_tree p).
(** unsorted_list.hpp:86-88 = minimal_docids.hpp:100-102. *)
Definition ulist_bytes (u : ulist_d) : nat := bpv_bytes (ud_rmq u) + cvec_bytes (ud_list u).

(** fc_dictionary.hpp:181-184. *)
Definition dict_data_bytes (d : fcd) : nat := vec_bytes 1 (fc_hdrs d) + vec_bytes 1 (fc_bkts d).
(** fc_dictionary.hpp:186-188: Pointers = uint_vec<uint32_t> (uint_vec.hpp:115-117). *)
Definition dict_pointer_bytes (d : fcd) : nat := vec_bytes 4 (fc_ph d) + vec_bytes 4 (fc_pb d).
(** fc_dictionary.hpp:190-195. *)
Definition dict_bytes (d : fcd) : nat := 8 + vec_bytes 4 (fc_ph d) + vec_bytes 4 (fc_pb d) + vec_bytes 1 (fc_hdrs d) + vec_bytes 1 (fc_bkts d).
(** integer_fc_dictionary.hpp:221-224. *)
Definition idict_data_bytes (d : fcd) : nat := vec_bytes 4 (fc_hdrs d) + vec_bytes 1 (fc_bkts d).
(** integer_fc_dictionary.hpp:226-228: Pointers = uint_vec<uint64_t>. *)
Definition idict_pointer_bytes (d : fcd) : nat := vec_bytes 8 (fc_ph d) + vec_bytes 8 (fc_pb d).
(** integer_fc_dictionary.hpp:230-235. *)
Definition idict_bytes (d : fcd) : nat := 8 + vec_bytes 8 (fc_ph d) + vec_bytes 8 (fc_pb d) + vec_bytes 4 (fc_hdrs d) + vec_bytes 1 (fc_bkts d).

(** for (uint32_t i = 0; i != n; ++i), adding to bytes (completion_trie.hpp:221-228). *)
Fixpoint add_up (step : nat -> nat -> res nat) (n i bytes : nat) : res nat :=
  match n with
  | 0 => Ok bytes
  | S n' => do bytes <- step i bytes; add_up step n' (S i) bytes
  end.
(** completion_trie.hpp:217-230: m_size is a uint32_t. *)
Definition trie_bytes (d : trie_d) : res nat :=
  let levels := length (td_nodes d) in
  add_up (fun i bytes =>
    do n <- get (td_nodes d) i;
    do l <- get (td_left d) i;
    do s <- get (td_sizes d) i;
    let bytes := bytes + efs_bytes n + efs_bytes l + efs_bytes s in
    if i =? levels - 1 then Ok bytes
    else do p <- get (td_ptrs d) i; Ok (bytes + efs_bytes p)) levels 0 (4 + 8 * 4).
(** for (auto const& v : m_nodes) bytes += v.bytes() (completion_trie.hpp:234, 248, 254). *)
Definition each_bytes (l : list efs) : nat := fold_left (fun bytes v => bytes + efs_bytes v) l 8.
(** completion_trie.hpp:232-236. *)
Definition trie_nodes_bytes (d : trie_d) : nat := each_bytes (td_nodes d).
(** completion_trie.hpp:238-244; without levels the bound m_nodes.size() - 1 wraps around and the loop leaves the vector. *)
Definition trie_pointers_bytes (d : trie_d) : res nat :=
  match length (td_nodes d) with
  | 0 => UB
  | S n => add_up (fun i bytes => do p <- get (td_ptrs d) i; Ok (bytes + efs_bytes p)) n 0 8
  end.
(** completion_trie.hpp:246-250. *)
Definition trie_left_extremes_bytes (d : trie_d) : nat := each_bytes (td_left d).
(** completion_trie.hpp:252-256. *)
Definition trie_sizes_bytes (d : trie_d) : nat := each_bytes (td_sizes d).

(** inverted_index.hpp:119-121. *)
Definition inv_data_bytes (d : inv_d) : nat := bv_bytes (vd_data d).
(** inverted_index.hpp:123-125. *)
Definition inv_pointer_bytes (d : inv_d) : nat := efs_bytes (vd_ptrs d).
(** inverted_index.hpp:127-131. *)
Definition inv_bytes (d : inv_d) : nat := 8 + 8 + efs_bytes (vd_ptrs d) + bv_bytes (vd_data d).
(** compact_forward_index.hpp:129-131. *)
Definition fwd_data_bytes (d : fwd_d) : nat := cvec_bytes (wd_data d).
(** compact_forward_index.hpp:133-135. *)
Definition fwd_pointer_bytes (d : fwd_d) : nat := efs_bytes (wd_ptrs d).
(** compact_forward_index.hpp:137-141. *)
Definition fwd_bytes (d : fwd_d) : nat := 8 + 8 + efs_bytes (wd_ptrs d) + cvec_bytes (wd_data d).
(** blocked_inverted_index.hpp:217-225: m_blocks holds uint32_t (line 447). *)
Definition binv_bytes (d : binv_d) : nat :=
  8 + 8 + 8 + vec_bytes 4 (xd_blocks d) + efs_bytes (xd_lists_ptrs d) + bv_bytes (xd_lists d) + efs_bytes (xd_offsets_ptrs d) +
  bv_bytes (xd_offsets d) + efs_bytes (xd_terms_ptrs d) + bv_bytes (xd_terms d).
(** blocked_inverted_index.hpp:227-229. *)
Definition binv_blocks_bytes (d : binv_d) : nat := vec_bytes 4 (xd_blocks d).
(** blocked_inverted_index.hpp:231-234. *)
Definition binv_pointers_bytes (d : binv_d) : nat := efs_bytes (xd_lists_ptrs d) + efs_bytes (xd_offsets_ptrs d) + efs_bytes (xd_terms_ptrs d).
(** blocked_inverted_index.hpp:236-238. *)
Definition binv_docs_bytes (d : binv_d) : nat := bv_bytes (xd_lists d).
(** blocked_inverted_index.hpp:240-242. *)
Definition binv_offsets_bytes (d : binv_d) : nat := bv_bytes (xd_offsets d).
(** blocked_inverted_index.hpp:244-246. *)
Definition binv_terms_bytes (d : binv_d) : nat := bv_bytes (xd_terms d).

(** autocomplete.hpp:140-144. *)
Definition index1_bytes (d : index1_d) : res nat :=
  do c <- trie_bytes (d1_comps d);
  Ok (c + ulist_bytes (d1_docs d) + ulist_bytes (d1_min d) + dict_bytes (d1_dict d) + inv_bytes (d1_inv d) + fwd_bytes (d1_fwd d)).
(** autocomplete2.hpp:148-152. *)
Definition index2_bytes (d : index2_d) : nat :=
  idict_bytes (d2_comps d) + ulist_bytes (d2_docs d) + ulist_bytes (d2_min d) + dict_bytes (d2_dict d) + cvec_bytes (d2_lexid d) + inv_bytes (d2_inv d).
(** autocomplete3.hpp:140-144. *)
Definition index3_bytes (d : index3_d) : nat :=
  idict_bytes (d3_comps d) + ulist_bytes (d3_docs d) + dict_bytes (d3_dict d) + cvec_bytes (d3_lexid d) + inv_bytes (d3_inv d).
(** autocomplete4.hpp:132-136. *)
Definition index4_bytes (d : index4_d) : nat :=
  idict_bytes (d4_comps d) + ulist_bytes (d4_docs d) + dict_bytes (d4_dict d) + cvec_bytes (d4_lexid d) + binv_bytes (d4_inv d).

(** ** print_stats: the numbers behind each line; the units and percentages computed from them in double are left out *)
(** statistics.hpp:48-51: the first line; 11-18: print; 25-28 and 20-23: print_bps, print_bpi; 79-82: the average; 168: the number of blocks. *)
Inductive stat_line :=
| Using (total completions : nat)
| Part (what : string) (bytes total completions : nat)
| PerString (what : string) (bytes strings : nat)
| PerInteger (what : string) (bytes integers : nat)
| Average (integers completions : nat)
| Blocks (n : nat).

(** statistics.hpp:43-87. *)
Definition print_stats1 (d : index1_d) : res (list stat_line) :=
  do total <- index1_bytes d;
  do comps <- trie_bytes (d1_comps d);
  do pointers <- trie_pointers_bytes (d1_comps d);
  let size := td_size (d1_comps d) in
  Ok [Using total size;
      Part "completions" comps total size;
      PerString "nodes" (trie_nodes_bytes (d1_comps d)) size;
      PerString "pointers" pointers size;
      PerString "left extremes" (trie_left_extremes_bytes (d1_comps d)) size;
      PerString "sizes" (trie_sizes_bytes (d1_comps d)) size;
      Part "unsorted docs list" (ulist_bytes (d1_docs d)) total size;
      Part "unsorted minimal docs list" (ulist_bytes (d1_min d)) total size;
      Part "dictionary" (dict_bytes (d1_dict d)) total size;
      PerString "data" (dict_data_bytes (d1_dict d)) (fc_size (d1_dict d));
      PerString "pointers" (dict_pointer_bytes (d1_dict d)) (fc_size (d1_dict d));
      Part "inverted index" (inv_bytes (d1_inv d)) total size;
      PerInteger "data" (inv_data_bytes (d1_inv d)) (vd_integers (d1_inv d));
      PerInteger "pointers" (inv_pointer_bytes (d1_inv d)) (vd_integers (d1_inv d));
      Part "forward index" (fwd_bytes (d1_fwd d)) total size;
      Average (wd_integers (d1_fwd d)) size;
      PerInteger "data" (fwd_data_bytes (d1_fwd d)) (wd_integers (d1_fwd d));
      PerInteger "pointers" (fwd_pointer_bytes (d1_fwd d)) (wd_integers (d1_fwd d))].
(** statistics.hpp:89-122. *)
Definition print_stats2 (d : index2_d) : list stat_line :=
  let total := index2_bytes d in
  let size := fc_size (d2_comps d) in
  [Using total size;
   Part "completions" (idict_bytes (d2_comps d)) total size;
   PerString "data" (idict_data_bytes (d2_comps d)) size;
   PerString "pointers" (idict_pointer_bytes (d2_comps d)) size;
   Part "unsorted docs list" (ulist_bytes (d2_docs d)) total size;
   Part "unsorted minimal docs list" (ulist_bytes (d2_min d)) total size;
   Part "dictionary" (dict_bytes (d2_dict d)) total size;
   PerString "data" (dict_data_bytes (d2_dict d)) (fc_size (d2_dict d));
   PerString "pointers" (dict_pointer_bytes (d2_dict d)) (fc_size (d2_dict d));
   Part "inverted index" (inv_bytes (d2_inv d)) total size;
   PerInteger "data" (inv_data_bytes (d2_inv d)) (vd_integers (d2_inv d));
   PerInteger "pointers" (inv_pointer_bytes (d2_inv d)) (vd_integers (d2_inv d));
   Part "map from docid to lexid" (cvec_bytes (d2_lexid d)) total size].
(** statistics.hpp:124-147. *)
Definition print_stats3 (d : index3_d) : list stat_line :=
  let total := index3_bytes d in
  let size := fc_size (d3_comps d) in
  [Using total size;
   Part "completions" (idict_bytes (d3_comps d)) total size;
   Part "unsorted docs list" (ulist_bytes (d3_docs d)) total size;
   Part "dictionary" (dict_bytes (d3_dict d)) total size;
   Part "inverted index" (inv_bytes (d3_inv d)) total size;
   PerInteger "data" (inv_data_bytes (d3_inv d)) (vd_integers (d3_inv d));
   PerInteger "pointers" (inv_pointer_bytes (d3_inv d)) (vd_integers (d3_inv d));
   Part "map from docid to lexid" (cvec_bytes (d3_lexid d)) total size].
(** statistics.hpp:149-182. *)
Definition print_stats4 (d : index4_d) : list stat_line :=
  let total := index4_bytes d in
  let size := fc_size (d4_comps d) in
  let integers := xd_integers (d4_inv d) in
  [Using total size;
   Part "completions" (idict_bytes (d4_comps d)) total size;
   Part "unsorted docs list" (ulist_bytes (d4_docs d)) total size;
   Part "dictionary" (dict_bytes (d4_dict d)) total size;
   Part "blocked inverted index" (binv_bytes (d4_inv d)) total size;
   Blocks (length (xd_blocks (d4_inv d)));
   PerInteger "blocks" (binv_blocks_bytes (d4_inv d)) integers;
   PerInteger "pointers" (binv_pointers_bytes (d4_inv d)) integers;
   PerInteger "docs" (binv_docs_bytes (d4_inv d)) integers;
   PerInteger "terms" (binv_terms_bytes (d4_inv d)) integers;
   PerInteger "offsets" (binv_offsets_bytes (d4_inv d)) integers;
   Part "map from docid to lexid" (cvec_bytes (d4_lexid d)) total size].

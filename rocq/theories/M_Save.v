(** Saving and loading: the visit members of all classes, and essentials::save / load that run them. essentials is not part of /repo (an
    empty submodule); its saver and loader are modelled by their documented behaviour: a number is written as its bytes in memory
    (little-endian), a std::vector as its length (size_t) followed by its elements, any other object by calling its visit member; load
    reads the same into the members of an existing object. No proofs. *)
From Coq Require Import ZArith.
From Verif Require Import Base M_Fc M_Word M_Bits M_Cvec M_Darray M_EfSeq M_Rs M_Bp M_Cart M_Stored.
Local Open Scope nat_scope.

(** ** essentials::saver and loader *)
(** What visitor.visit(x) does for a saver, and for a loader visiting an object with value [x]: the new value and the rest of
    the file (bit_vector.hpp:391-394: visitor.visit, here of essentials (not in /repo)). *)
Record codec (A : Type) := { save : A -> list N; load : A -> list N -> res (A * list N) }.
Arguments save {A} _ _.
Arguments load {A} _ _ _.

(** A number of [n] bytes. If fewer are left in the file, istream::read stores those and the other bytes keep their value; the failure is not
    reported (bit_vector.hpp:391-394). *)
Fixpoint le_bytes (n : nat) (x : N) : list N :=
  match n with
  | 0 => []
  | S n' => (x mod 256)%N :: le_bytes n' (x / 256)
  end.
(** bit_vector.hpp:391-394. *)
Fixpoint le_value (bs : list N) : N :=
  match bs with
  | [] => 0%N
  | b :: bs' => (b + 256 * le_value bs')%N
  end.
(** bit_vector.hpp:391-394: visit of a number. *)
Definition pod (n : nat) : codec N := {|
  save := le_bytes n;
  load := fun x f => if length f <? n then Ok (le_value (f ++ skipn (length f) (le_bytes n x)), []) else Ok (le_value (firstn n f), skipn n f) |}.
(** bit_vector.hpp:391-394. *)
Definition convert {A B} (c : codec A) (to : B -> A) (from : A -> B) : codec B := {|
  save := fun x => save c (to x);
  load := fun x f => do (y, f) <- load c (to x) f; Ok (from y, f) |}.
(** bit_vector.hpp:391-394: uint8_t. *)
Definition u8 := pod 1.
(** bit_vector.hpp:391-394: uint16_t. *)
Definition u16 := pod 2.
(** bit_vector.hpp:391-394: uint32_t. *)
Definition u32 := pod 4.
(** bit_vector.hpp:391-394: uint64_t. *)
Definition u64 := pod 8.
(** bit_vector.hpp:391-394. *)
Definition nat_of (c : codec N) : codec nat := convert c N.of_nat N.to_nat.
(** Two's complement with [n] bytes (succinct_rmq/bp_vector.hpp:33-35: int16_t and int32_t). *)
Definition to_unsigned (n : nat) (z : Z) : N := Z.to_N (z mod 2 ^ (8 * Z.of_nat n)).
(** succinct_rmq/bp_vector.hpp:33-35. *)
Definition to_signed (n : nat) (x : N) : Z :=
  if (Z.of_N x <? 2 ^ (8 * Z.of_nat n - 1))%Z then Z.of_N x else (Z.of_N x - 2 ^ (8 * Z.of_nat n))%Z.
(** succinct_rmq/bp_vector.hpp:33-35. *)
Definition signed (n : nat) : codec Z := convert (pod n) (to_unsigned n) (to_signed n).

(** std::vector: the length, then the elements. load: resize(n), then every element is visited; new elements are [fresh]. The length is read into a
    local variable without a value: if the file ends before it is complete, its use is undefined (bit_vector.hpp:393: visit of a std::vector). *)
Fixpoint load_each {A} (c : codec A) (olds : list A) (f : list N) : res (list A * list N) :=
  match olds with
  | [] => Ok ([], f)
  | o :: olds' => do (x, f) <- load c o f; do (xs, f) <- load_each c olds' f; Ok (x :: xs, f)
  end.
(** bit_vector.hpp:393. *)
Definition resized {A} (l : list A) (n : nat) (fresh : A) : list A := firstn n l ++ repeat fresh (n - length l).
(** bit_vector.hpp:393. *)
Definition vector {A} (c : codec A) (fresh : A) : codec (list A) := {|
  save := fun l => le_bytes 8 (N.of_nat (length l)) ++ flat_map (save c) l;
  load := fun l f => do (n, f) <- (if length f <? 8 then UB else load u64 0%N f); load_each c (resized l (N.to_nat n) fresh) f |}.

(** visitor.visit(member), and a sequence of them (bit_vector.hpp:391-394). *)
Definition member {S A} (c : codec A) (get : S -> A) (set : S -> A -> S) : codec S := {|
  save := fun s => save c (get s);
  load := fun s f => do (x, f) <- load c (get s) f; Ok (set s x, f) |}.
(** bit_vector.hpp:391-394. *)
Definition nothing {S} : codec S := {| save := fun _ => []; load := fun s f => Ok (s, f) |}.
(** bit_vector.hpp:391-394. *)
Definition next {S} (c c' : codec S) : codec S := {|
  save := fun s => save c s ++ save c' s;
  load := fun s f => do (s, f) <- load c s f; load c' s f |}.
(** bit_vector.hpp:391-394. *)
Definition visits {S} (cs : list (codec S)) : codec S := fold_right next nothing cs.

(** ** Assignment to the members (a loader overwrites one member after the other) *)
(** bit_vector.hpp:397-398. *)
Definition set_v_size (r : bv) (x : nat) : bv := {| v_size := x; v_words := v_words r |}.
(** bit_vector.hpp:397-398. *)
Definition set_v_words (r : bv) (x : list N) : bv := {| v_size := v_size r; v_words := x |}.
(** compact_vector.hpp:322-325. *)
Definition set_cv_size (r : cvec) (x : nat) : cvec := {| cv_size := x; cv_width := cv_width r; cv_mask := cv_mask r; cv_bits := cv_bits r |}.
(** compact_vector.hpp:322-325. *)
Definition set_cv_width (r : cvec) (x : nat) : cvec := {| cv_size := cv_size r; cv_width := x; cv_mask := cv_mask r; cv_bits := cv_bits r |}.
(** compact_vector.hpp:322-325. *)
Definition set_cv_mask (r : cvec) (x : N) : cvec := {| cv_size := cv_size r; cv_width := cv_width r; cv_mask := x; cv_bits := cv_bits r |}.
(** compact_vector.hpp:322-325. *)
Definition set_cv_bits (r : cvec) (x : list N) : cvec := {| cv_size := cv_size r; cv_width := cv_width r; cv_mask := cv_mask r; cv_bits := x |}.
(** ef/darray.hpp:142-145. *)
Definition set_d_n (r : darray) (x : nat) : darray := {| d_n := x; d_blocks := d_blocks r; d_subs := d_subs r; d_over := d_over r |}.
(** ef/darray.hpp:142-145. *)
Definition set_d_blocks (r : darray) (x : list Z) : darray := {| d_n := d_n r; d_blocks := x; d_subs := d_subs r; d_over := d_over r |}.
(** ef/darray.hpp:142-145. *)
Definition set_d_subs (r : darray) (x : list N) : darray := {| d_n := d_n r; d_blocks := d_blocks r; d_subs := x; d_over := d_over r |}.
(** ef/darray.hpp:142-145. *)
Definition set_d_over (r : darray) (x : list nat) : darray := {| d_n := d_n r; d_blocks := d_blocks r; d_subs := d_subs r; d_over := x |}.
(** ef/ef_sequence.hpp:215-219. *)
Definition set_ef_l (r : efs) (x : nat) : efs := {| ef_l := x; ef_high := ef_high r; ef_d1 := ef_d1 r; ef_low := ef_low r; ef_size := ef_size r |}.
(** ef/ef_sequence.hpp:215-219. *)
Definition set_ef_high (r : efs) (x : bv) : efs := {| ef_l := ef_l r; ef_high := x; ef_d1 := ef_d1 r; ef_low := ef_low r; ef_size := ef_size r |}.
(** ef/ef_sequence.hpp:215-219. *)
Definition set_ef_d1 (r : efs) (x : darray) : efs := {| ef_l := ef_l r; ef_high := ef_high r; ef_d1 := x; ef_low := ef_low r; ef_size := ef_size r |}.
(** ef/ef_sequence.hpp:215-219. *)
Definition set_ef_low (r : efs) (x : bv) : efs := {| ef_l := ef_l r; ef_high := ef_high r; ef_d1 := ef_d1 r; ef_low := x; ef_size := ef_size r |}.
(** ef/ef_sequence.hpp:215-219. *)
Definition set_ef_size (r : efs) (x : nat) : efs := {| ef_l := ef_l r; ef_high := ef_high r; ef_d1 := ef_d1 r; ef_low := ef_low r; ef_size := x |}.
(** succinct_rmq/rs_bit_vector.hpp:194-196. *)
Definition set_rs_bv (r : rsv) (x : bv) : rsv := {| rs_bv := x; rs_pairs := rs_pairs r; rs_hints := rs_hints r; rs_hints0 := rs_hints0 r |}.
(** succinct_rmq/rs_bit_vector.hpp:194-196. *)
Definition set_rs_pairs (r : rsv) (x : list N) : rsv := {| rs_bv := rs_bv r; rs_pairs := x; rs_hints := rs_hints r; rs_hints0 := rs_hints0 r |}.
(** succinct_rmq/rs_bit_vector.hpp:194-196. *)
Definition set_rs_hints (r : rsv) (x : list nat) : rsv := {| rs_bv := rs_bv r; rs_pairs := rs_pairs r; rs_hints := x; rs_hints0 := rs_hints0 r |}.
(** succinct_rmq/rs_bit_vector.hpp:194-196. *)
Definition set_rs_hints0 (r : rsv) (x : list nat) : rsv := {| rs_bv := rs_bv r; rs_pairs := rs_pairs r; rs_hints := rs_hints r; rs_hints0 := x |}.
(** succinct_rmq/bp_vector.hpp:100-102. *)
Definition set_bp_rs (r : bpv) (x : rsv) : bpv := {| bp_rs := x; bp_internal := bp_internal r; bp_block_min := bp_block_min r; bp_tree := bp_tree r |}.
(** succinct_rmq/bp_vector.hpp:100-102. *)
Definition set_bp_internal (r : bpv) (x : nat) : bpv := {| bp_rs := bp_rs r; bp_internal := x; bp_block_min := bp_block_min r; bp_tree := bp_tree r |}.
(** succinct_rmq/bp_vector.hpp:100-102. *)
Definition set_bp_block_min (r : bpv) (x : list Z) : bpv := {| bp_rs := bp_rs r; bp_internal := bp_internal r; bp_block_min := x; bp_tree := bp_tree r |}.
(** succinct_rmq/bp_vector.hpp:100-102. *)
Definition set_bp_tree (r : bpv) (x : list Z) : bpv := {| bp_rs := bp_rs r; bp_internal := bp_internal r; bp_block_min := bp_block_min r; bp_tree := x |}.
(** fc_dictionary.hpp:207-211. *)
Definition set_fc_size (r : fcd) (x : nat) : fcd := {| fc_size := x; fc_ph := fc_ph r; fc_pb := fc_pb r; fc_hdrs := fc_hdrs r; fc_bkts := fc_bkts r |}.
(** fc_dictionary.hpp:207-211. *)
Definition set_fc_ph (r : fcd) (x : list nat) : fcd := {| fc_size := fc_size r; fc_ph := x; fc_pb := fc_pb r; fc_hdrs := fc_hdrs r; fc_bkts := fc_bkts r |}.
(** fc_dictionary.hpp:207-211. *)
Definition set_fc_pb (r : fcd) (x : list nat) : fcd := {| fc_size := fc_size r; fc_ph := fc_ph r; fc_pb := x; fc_hdrs := fc_hdrs r; fc_bkts := fc_bkts r |}.
(** fc_dictionary.hpp:207-211. *)
Definition set_fc_hdrs (r : fcd) (x : list N) : fcd := {| fc_size := fc_size r; fc_ph := fc_ph r; fc_pb := fc_pb r; fc_hdrs := x; fc_bkts := fc_bkts r |}.
(** fc_dictionary.hpp:207-211. *)
Definition set_fc_bkts (r : fcd) (x : list N) : fcd := {| fc_size := fc_size r; fc_ph := fc_ph r; fc_pb := fc_pb r; fc_hdrs := fc_hdrs r; fc_bkts := x |}.
(** completion_trie.hpp:272-276. *)
Definition set_td_size (r : trie_d) (x : nat) : trie_d := {| td_size := x; td_nodes := td_nodes r; td_ptrs := td_ptrs r; td_left := td_left r; td_sizes := td_sizes r |}.
(** completion_trie.hpp:272-276. *)
Definition set_td_nodes (r : trie_d) (x : list efs) : trie_d := {| td_size := td_size r; td_nodes := x; td_ptrs := td_ptrs r; td_left := td_left r; td_sizes := td_sizes r |}.
(** completion_trie.hpp:272-276. *)
Definition set_td_ptrs (r : trie_d) (x : list efs) : trie_d := {| td_size := td_size r; td_nodes := td_nodes r; td_ptrs := x; td_left := td_left r; td_sizes := td_sizes r |}.
(** completion_trie.hpp:272-276. *)
Definition set_td_left (r : trie_d) (x : list efs) : trie_d := {| td_size := td_size r; td_nodes := td_nodes r; td_ptrs := td_ptrs r; td_left := x; td_sizes := td_sizes r |}.
(** completion_trie.hpp:272-276. *)
Definition set_td_sizes (r : trie_d) (x : list efs) : trie_d := {| td_size := td_size r; td_nodes := td_nodes r; td_ptrs := td_ptrs r; td_left := td_left r; td_sizes := x |}.
(** unsorted_list.hpp:132-133. *)
Definition set_ud_rmq (r : ulist_d) (x : bpv) : ulist_d := {| ud_rmq := x; ud_list := ud_list r |}.
(** unsorted_list.hpp:132-133. *)
Definition set_ud_list (r : ulist_d) (x : cvec) : ulist_d := {| ud_rmq := ud_rmq r; ud_list := x |}.
(** inverted_index.hpp:203-206. *)
Definition set_vd_integers (r : inv_d) (x : nat) : inv_d := {| vd_integers := x; vd_docs := vd_docs r; vd_ptrs := vd_ptrs r; vd_data := vd_data r |}.
(** inverted_index.hpp:203-206. *)
Definition set_vd_docs (r : inv_d) (x : nat) : inv_d := {| vd_integers := vd_integers r; vd_docs := x; vd_ptrs := vd_ptrs r; vd_data := vd_data r |}.
(** inverted_index.hpp:203-206. *)
Definition set_vd_ptrs (r : inv_d) (x : efs) : inv_d := {| vd_integers := vd_integers r; vd_docs := vd_docs r; vd_ptrs := x; vd_data := vd_data r |}.
(** inverted_index.hpp:203-206. *)
Definition set_vd_data (r : inv_d) (x : bv) : inv_d := {| vd_integers := vd_integers r; vd_docs := vd_docs r; vd_ptrs := vd_ptrs r; vd_data := x |}.
(** compact_forward_index.hpp:152-155. *)
Definition set_wd_integers (r : fwd_d) (x : nat) : fwd_d := {| wd_integers := x; wd_terms := wd_terms r; wd_ptrs := wd_ptrs r; wd_data := wd_data r |}.
(** compact_forward_index.hpp:152-155. *)
Definition set_wd_terms (r : fwd_d) (x : nat) : fwd_d := {| wd_integers := wd_integers r; wd_terms := x; wd_ptrs := wd_ptrs r; wd_data := wd_data r |}.
(** compact_forward_index.hpp:152-155. *)
Definition set_wd_ptrs (r : fwd_d) (x : efs) : fwd_d := {| wd_integers := wd_integers r; wd_terms := wd_terms r; wd_ptrs := x; wd_data := wd_data r |}.
(** compact_forward_index.hpp:152-155. *)
Definition set_wd_data (r : fwd_d) (x : cvec) : fwd_d := {| wd_integers := wd_integers r; wd_terms := wd_terms r; wd_ptrs := wd_ptrs r; wd_data := x |}.
(** blocked_inverted_index.hpp:443-454. *)
Definition set_xd_integers (r : binv_d) (x : nat) : binv_d := {| xd_integers := x; xd_docs := xd_docs r; xd_terms_num := xd_terms_num r; xd_blocks := xd_blocks r; xd_lists_ptrs := xd_lists_ptrs r; xd_lists := xd_lists r; xd_offsets_ptrs := xd_offsets_ptrs r; xd_offsets := xd_offsets r; xd_terms_ptrs := xd_terms_ptrs r; xd_terms := xd_terms r |}.
(** blocked_inverted_index.hpp:443-454. *)
Definition set_xd_docs (r : binv_d) (x : nat) : binv_d := {| xd_integers := xd_integers r; xd_docs := x; xd_terms_num := xd_terms_num r; xd_blocks := xd_blocks r; xd_lists_ptrs := xd_lists_ptrs r; xd_lists := xd_lists r; xd_offsets_ptrs := xd_offsets_ptrs r; xd_offsets := xd_offsets r; xd_terms_ptrs := xd_terms_ptrs r; xd_terms := xd_terms r |}.
(** blocked_inverted_index.hpp:443-454. *)
Definition set_xd_terms_num (r : binv_d) (x : nat) : binv_d := {| xd_integers := xd_integers r; xd_docs := xd_docs r; xd_terms_num := x; xd_blocks := xd_blocks r; xd_lists_ptrs := xd_lists_ptrs r; xd_lists := xd_lists r; xd_offsets_ptrs := xd_offsets_ptrs r; xd_offsets := xd_offsets r; xd_terms_ptrs := xd_terms_ptrs r; xd_terms := xd_terms r |}.
(** blocked_inverted_index.hpp:443-454. *)
Definition set_xd_blocks (r : binv_d) (x : list nat) : binv_d := {| xd_integers := xd_integers r; xd_docs := xd_docs r; xd_terms_num := xd_terms_num r; xd_blocks := x; xd_lists_ptrs := xd_lists_ptrs r; xd_lists := xd_lists r; xd_offsets_ptrs := xd_offsets_ptrs r; xd_offsets := xd_offsets r; xd_terms_ptrs := xd_terms_ptrs r; xd_terms := xd_terms r |}.
(** blocked_inverted_index.hpp:443-454. *)
Definition set_xd_lists_ptrs (r : binv_d) (x : efs) : binv_d := {| xd_integers := xd_integers r; xd_docs := xd_docs r; xd_terms_num := xd_terms_num r; xd_blocks := xd_blocks r; xd_lists_ptrs := x; xd_lists := xd_lists r; xd_offsets_ptrs := xd_offsets_ptrs r; xd_offsets := xd_offsets r; xd_terms_ptrs := xd_terms_ptrs r; xd_terms := xd_terms r |}.
(** blocked_inverted_index.hpp:443-454. *)
Definition set_xd_lists (r : binv_d) (x : bv) : binv_d := {| xd_integers := xd_integers r; xd_docs := xd_docs r; xd_terms_num := xd_terms_num r; xd_blocks := xd_blocks r; xd_lists_ptrs := xd_lists_ptrs r; xd_lists := x; xd_offsets_ptrs := xd_offsets_ptrs r; xd_offsets := xd_offsets r; xd_terms_ptrs := xd_terms_ptrs r; xd_terms := xd_terms r |}.
(** blocked_inverted_index.hpp:443-454. *)
Definition set_xd_offsets_ptrs (r : binv_d) (x : efs) : binv_d := {| xd_integers := xd_integers r; xd_docs := xd_docs r; xd_terms_num := xd_terms_num r; xd_blocks := xd_blocks r; xd_lists_ptrs := xd_lists_ptrs r; xd_lists := xd_lists r; xd_offsets_ptrs := x; xd_offsets := xd_offsets r; xd_terms_ptrs := xd_terms_ptrs r; xd_terms := xd_terms r |}.
(** blocked_inverted_index.hpp:443-454. *)
Definition set_xd_offsets (r : binv_d) (x : bv) : binv_d := {| xd_integers := xd_integers r; xd_docs := xd_docs r; xd_terms_num := xd_terms_num r; xd_blocks := xd_blocks r; xd_lists_ptrs := xd_lists_ptrs r; xd_lists := xd_lists r; xd_offsets_ptrs := xd_offsets_ptrs r; xd_offsets := x; xd_terms_ptrs := xd_terms_ptrs r; xd_terms := xd_terms r |}.
(** blocked_inverted_index.hpp:443-454. *)
Definition set_xd_terms_ptrs (r : binv_d) (x : efs) : binv_d := {| xd_integers := xd_integers r; xd_docs := xd_docs r; xd_terms_num := xd_terms_num r; xd_blocks := xd_blocks r; xd_lists_ptrs := xd_lists_ptrs r; xd_lists := xd_lists r; xd_offsets_ptrs := xd_offsets_ptrs r; xd_offsets := xd_offsets r; xd_terms_ptrs := x; xd_terms := xd_terms r |}.
(** blocked_inverted_index.hpp:443-454. *)
Definition set_xd_terms (r : binv_d) (x : bv) : binv_d := {| xd_integers := xd_integers r; xd_docs := xd_docs r; xd_terms_num := xd_terms_num r; xd_blocks := xd_blocks r; xd_lists_ptrs := xd_lists_ptrs r; xd_lists := xd_lists r; xd_offsets_ptrs := xd_offsets_ptrs r; xd_offsets := xd_offsets r; xd_terms_ptrs := xd_terms_ptrs r; xd_terms := x |}.
(** autocomplete.hpp:159-165. *)
Definition set_d1_comps (r : index1_d) (x : trie_d) : index1_d := {| d1_comps := x; d1_docs := d1_docs r; d1_min := d1_min r; d1_dict := d1_dict r; d1_inv := d1_inv r; d1_fwd := d1_fwd r |}.
(** autocomplete.hpp:159-165. *)
Definition set_d1_docs (r : index1_d) (x : ulist_d) : index1_d := {| d1_comps := d1_comps r; d1_docs := x; d1_min := d1_min r; d1_dict := d1_dict r; d1_inv := d1_inv r; d1_fwd := d1_fwd r |}.
(** autocomplete.hpp:159-165. *)
Definition set_d1_min (r : index1_d) (x : ulist_d) : index1_d := {| d1_comps := d1_comps r; d1_docs := d1_docs r; d1_min := x; d1_dict := d1_dict r; d1_inv := d1_inv r; d1_fwd := d1_fwd r |}.
(** autocomplete.hpp:159-165. *)
Definition set_d1_dict (r : index1_d) (x : fcd) : index1_d := {| d1_comps := d1_comps r; d1_docs := d1_docs r; d1_min := d1_min r; d1_dict := x; d1_inv := d1_inv r; d1_fwd := d1_fwd r |}.
(** autocomplete.hpp:159-165. *)
Definition set_d1_inv (r : index1_d) (x : inv_d) : index1_d := {| d1_comps := d1_comps r; d1_docs := d1_docs r; d1_min := d1_min r; d1_dict := d1_dict r; d1_inv := x; d1_fwd := d1_fwd r |}.
(** autocomplete.hpp:159-165. *)
Definition set_d1_fwd (r : index1_d) (x : fwd_d) : index1_d := {| d1_comps := d1_comps r; d1_docs := d1_docs r; d1_min := d1_min r; d1_dict := d1_dict r; d1_inv := d1_inv r; d1_fwd := x |}.
(** autocomplete2.hpp:167-173. *)
Definition set_d2_comps (r : index2_d) (x : fcd) : index2_d := {| d2_comps := x; d2_docs := d2_docs r; d2_min := d2_min r; d2_dict := d2_dict r; d2_inv := d2_inv r; d2_lexid := d2_lexid r |}.
(** autocomplete2.hpp:167-173. *)
Definition set_d2_docs (r : index2_d) (x : ulist_d) : index2_d := {| d2_comps := d2_comps r; d2_docs := x; d2_min := d2_min r; d2_dict := d2_dict r; d2_inv := d2_inv r; d2_lexid := d2_lexid r |}.
(** autocomplete2.hpp:167-173. *)
Definition set_d2_min (r : index2_d) (x : ulist_d) : index2_d := {| d2_comps := d2_comps r; d2_docs := d2_docs r; d2_min := x; d2_dict := d2_dict r; d2_inv := d2_inv r; d2_lexid := d2_lexid r |}.
(** autocomplete2.hpp:167-173. *)
Definition set_d2_dict (r : index2_d) (x : fcd) : index2_d := {| d2_comps := d2_comps r; d2_docs := d2_docs r; d2_min := d2_min r; d2_dict := x; d2_inv := d2_inv r; d2_lexid := d2_lexid r |}.
(** autocomplete2.hpp:167-173. *)
Definition set_d2_inv (r : index2_d) (x : inv_d) : index2_d := {| d2_comps := d2_comps r; d2_docs := d2_docs r; d2_min := d2_min r; d2_dict := d2_dict r; d2_inv := x; d2_lexid := d2_lexid r |}.
(** autocomplete2.hpp:167-173. *)
Definition set_d2_lexid (r : index2_d) (x : cvec) : index2_d := {| d2_comps := d2_comps r; d2_docs := d2_docs r; d2_min := d2_min r; d2_dict := d2_dict r; d2_inv := d2_inv r; d2_lexid := x |}.
(** autocomplete3.hpp:158-162. *)
Definition set_d3_comps (r : index3_d) (x : fcd) : index3_d := {| d3_comps := x; d3_docs := d3_docs r; d3_dict := d3_dict r; d3_inv := d3_inv r; d3_lexid := d3_lexid r |}.
(** autocomplete3.hpp:158-162. *)
Definition set_d3_docs (r : index3_d) (x : ulist_d) : index3_d := {| d3_comps := d3_comps r; d3_docs := x; d3_dict := d3_dict r; d3_inv := d3_inv r; d3_lexid := d3_lexid r |}.
(** autocomplete3.hpp:158-162. *)
Definition set_d3_dict (r : index3_d) (x : fcd) : index3_d := {| d3_comps := d3_comps r; d3_docs := d3_docs r; d3_dict := x; d3_inv := d3_inv r; d3_lexid := d3_lexid r |}.
(** autocomplete3.hpp:158-162. *)
Definition set_d3_inv (r : index3_d) (x : inv_d) : index3_d := {| d3_comps := d3_comps r; d3_docs := d3_docs r; d3_dict := d3_dict r; d3_inv := x; d3_lexid := d3_lexid r |}.
(** autocomplete3.hpp:158-162. *)
Definition set_d3_lexid (r : index3_d) (x : cvec) : index3_d := {| d3_comps := d3_comps r; d3_docs := d3_docs r; d3_dict := d3_dict r; d3_inv := d3_inv r; d3_lexid := x |}.
(** autocomplete4.hpp:150-154. *)
Definition set_d4_comps (r : index4_d) (x : fcd) : index4_d := {| d4_comps := x; d4_docs := d4_docs r; d4_dict := d4_dict r; d4_inv := d4_inv r; d4_lexid := d4_lexid r |}.
(** autocomplete4.hpp:150-154. *)
Definition set_d4_docs (r : index4_d) (x : ulist_d) : index4_d := {| d4_comps := d4_comps r; d4_docs := x; d4_dict := d4_dict r; d4_inv := d4_inv r; d4_lexid := d4_lexid r |}.
(** autocomplete4.hpp:150-154. *)
Definition set_d4_dict (r : index4_d) (x : fcd) : index4_d := {| d4_comps := d4_comps r; d4_docs := d4_docs r; d4_dict := x; d4_inv := d4_inv r; d4_lexid := d4_lexid r |}.
(** autocomplete4.hpp:150-154. *)
Definition set_d4_inv (r : index4_d) (x : binv_d) : index4_d := {| d4_comps := d4_comps r; d4_docs := d4_docs r; d4_dict := d4_dict r; d4_inv := x; d4_lexid := d4_lexid r |}.
(** autocomplete4.hpp:150-154. *)
Definition set_d4_lexid (r : index4_d) (x : cvec) : index4_d := {| d4_comps := d4_comps r; d4_docs := d4_docs r; d4_dict := d4_dict r; d4_inv := d4_inv r; d4_lexid := x |}.

(** ** The visit members *)
(** bit_vector.hpp:393. *)
Definition word64s := vector u64 0%N.
(** ef/darray.hpp:109. *)
Definition nat64s := vector (nat_of u64) 0.
(** bit_vector.hpp:390-394. *)
Definition visit_bv : codec bv := visits [
  member (nat_of u64) v_size set_v_size;
  member word64s v_words set_v_words].
(** compact_vector.hpp:313-319. *)
Definition visit_cvec : codec cvec := visits [
  member (nat_of u64) cv_size set_cv_size;
  member (nat_of u64) cv_width set_cv_width;
  member u64 cv_mask set_cv_mask;
  member word64s cv_bits set_cv_bits].
(** ef/darray.hpp:104-110: size_t, int64_t, uint16_t, uint64_t (lines 142-145). *)
Definition visit_darray : codec darray := visits [
  member (nat_of u64) d_n set_d_n;
  member (vector (signed 8) 0%Z) d_blocks set_d_blocks;
  member (vector u16 0%N) d_subs set_d_subs;
  member nat64s d_over set_d_over].
(** ef/ef_sequence.hpp:205-212; m_l is a uint8_t. *)
Definition visit_efs : codec efs := visits [
  member (nat_of u8) ef_l set_ef_l;
  member visit_bv ef_high set_ef_high;
  member visit_darray ef_d1 set_ef_d1;
  member visit_bv ef_low set_ef_low;
  member (nat_of u64) ef_size set_ef_size].
(** succinct_rmq/rs_bit_vector.hpp:28-34. *)
Definition visit_rsv : codec rsv := visits [
  member visit_bv rs_bv set_rs_bv;
  member word64s rs_pairs set_rs_pairs;
  member nat64s rs_hints set_rs_hints;
  member nat64s rs_hints0 set_rs_hints0].
(** succinct_rmq/bp_vector.hpp:30-36: int16_t and int32_t minima; cartesian_tree.hpp:133-136. *)
Definition visit_bpv : codec bpv := visits [
  member visit_rsv bp_rs set_bp_rs;
  member (nat_of u64) bp_internal set_bp_internal;
  member (vector (signed 2) 0%Z) bp_block_min set_bp_block_min;
  member (vector (signed 4) 0%Z) bp_tree set_bp_tree].
(** fc_dictionary.hpp:197-204: Pointers = uint_vec<uint32_t> (uint_vec.hpp:125-128). *)
Definition visit_dict : codec fcd := visits [
  member (nat_of u64) fc_size set_fc_size;
  member (vector (nat_of u32) 0) fc_ph set_fc_ph;
  member (vector (nat_of u32) 0) fc_pb set_fc_pb;
  member (vector u8 0%N) fc_hdrs set_fc_hdrs;
  member (vector u8 0%N) fc_bkts set_fc_bkts].
(** integer_fc_dictionary.hpp:237-244: Pointers = uint_vec<uint64_t>, m_headers of uint32_t. *)
Definition visit_idict : codec fcd := visits [
  member (nat_of u64) fc_size set_fc_size;
  member nat64s fc_ph set_fc_ph;
  member nat64s fc_pb set_fc_pb;
  member (vector u32 0%N) fc_hdrs set_fc_hdrs;
  member (vector u8 0%N) fc_bkts set_fc_bkts].
(** completion_trie.hpp:262-269; [fresh]: a new ef_sequence, whose m_l and m_size are indeterminate. *)
Definition visit_trie (fresh : efs) : codec trie_d := visits [
  member (nat_of u32) td_size set_td_size;
  member (vector visit_efs fresh) td_nodes set_td_nodes;
  member (vector visit_efs fresh) td_ptrs set_td_ptrs;
  member (vector visit_efs fresh) td_left set_td_left;
  member (vector visit_efs fresh) td_sizes set_td_sizes].
(** unsorted_list.hpp:90-94 = minimal_docids.hpp:104-108. *)
Definition visit_ulist : codec ulist_d := visits [
  member visit_bpv ud_rmq set_ud_rmq;
  member visit_cvec ud_list set_ud_list].
(** inverted_index.hpp:194-200. *)
Definition visit_inv : codec inv_d := visits [
  member (nat_of u64) vd_integers set_vd_integers;
  member (nat_of u64) vd_docs set_vd_docs;
  member visit_efs vd_ptrs set_vd_ptrs;
  member visit_bv vd_data set_vd_data].
(** compact_forward_index.hpp:143-149. *)
Definition visit_fwd : codec fwd_d := visits [
  member (nat_of u64) wd_integers set_wd_integers;
  member (nat_of u64) wd_terms set_wd_terms;
  member visit_efs wd_ptrs set_wd_ptrs;
  member visit_cvec wd_data set_wd_data].
(** blocked_inverted_index.hpp:428-440. *)
Definition visit_binv : codec binv_d := visits [
  member (nat_of u64) xd_integers set_xd_integers;
  member (nat_of u64) xd_docs set_xd_docs;
  member (nat_of u64) xd_terms_num set_xd_terms_num;
  member (vector (nat_of u32) 0) xd_blocks set_xd_blocks;
  member visit_efs xd_lists_ptrs set_xd_lists_ptrs;
  member visit_bv xd_lists set_xd_lists;
  member visit_efs xd_offsets_ptrs set_xd_offsets_ptrs;
  member visit_bv xd_offsets set_xd_offsets;
  member visit_efs xd_terms_ptrs set_xd_terms_ptrs;
  member visit_bv xd_terms set_xd_terms].
(** autocomplete.hpp:148-156. *)
Definition visit_index1 (fresh : efs) : codec index1_d := visits [
  member (visit_trie fresh) d1_comps set_d1_comps;
  member visit_ulist d1_docs set_d1_docs;
  member visit_ulist d1_min set_d1_min;
  member visit_dict d1_dict set_d1_dict;
  member visit_inv d1_inv set_d1_inv;
  member visit_fwd d1_fwd set_d1_fwd].
(** autocomplete2.hpp:156-164. *)
Definition visit_index2 : codec index2_d := visits [
  member visit_idict d2_comps set_d2_comps;
  member visit_ulist d2_docs set_d2_docs;
  member visit_ulist d2_min set_d2_min;
  member visit_dict d2_dict set_d2_dict;
  member visit_inv d2_inv set_d2_inv;
  member visit_cvec d2_lexid set_d2_lexid].
(** autocomplete3.hpp:148-155. *)
Definition visit_index3 : codec index3_d := visits [
  member visit_idict d3_comps set_d3_comps;
  member visit_ulist d3_docs set_d3_docs;
  member visit_dict d3_dict set_d3_dict;
  member visit_inv d3_inv set_d3_inv;
  member visit_cvec d3_lexid set_d3_lexid].
(** autocomplete4.hpp:140-147. *)
Definition visit_index4 : codec index4_d := visits [
  member visit_idict d4_comps set_d4_comps;
  member visit_ulist d4_docs set_d4_docs;
  member visit_dict d4_dict set_d4_dict;
  member visit_binv d4_inv set_d4_inv;
  member visit_cvec d4_lexid set_d4_lexid].

(** essentials::save(index, filename) and load(index, filename): the contents of the file; what is left of the file after loading is
    ignored (src/build.cpp:15, 26). *)
Definition save_file {A} (c : codec A) (x : A) : list N := save c x.
(** src/web_server.cpp:97, benchmark/benchmark_common.hpp:54. *)
Definition load_file {A} (c : codec A) (x0 : A) (file : list N) : res A := do (x, _) <- load c x0 file; Ok x.

(** Model of include/inverted_index.hpp and of the bit layout of include/blocked_inverted_index.hpp, for lists stored as
    ef::compact_ef (is_byte_aligned = false). No proofs. *)
From Verif Require Import Base M_Iter M_Trie M_Word M_Bits M_Codes M_EfSeq M_CompactEf.
Local Open Scope nat_scope.

(** ** Records appended one after the other to a bit_vector_builder, with pointers *)
(** inverted_index.hpp:30, 51-54, 63 = blocked_inverted_index.hpp:42-44, 86, 116, 125, 134-136: pointers.push_back(0);
    for every record: append it, pointers.push_back(bvb.size()); finally pointers.pop_back(). *)
Fixpoint add_records {X} (write : bvb -> X -> res bvb) (xs : list X) (s : list nat * bvb) : res (list nat * bvb) :=
  match xs with
  | [] => Ok s
  | x :: xs' =>
      let '(ptrs, b) := s in
      do b <- write b x;
      add_records write xs' (ptrs ++ [b_size b], b)
  end.
(** m_pointers and m_data (inverted_index.hpp:205-206; blocked_inverted_index.hpp:449-454). *)
Record records := { r_ptrs : seqc; r_data : bv }.
(** inverted_index.hpp:80-86 = blocked_inverted_index.hpp:170-178: build of the pointers and the bits. *)
Definition build_records {X} (write : bvb -> X -> res bvb) (xs : list X) : res records :=
  do (ptrs, b) <- add_records write xs ([0], bvb_empty);
  do q <- ef_seqc (map N.of_nat (removelast ptrs));
  Ok {| r_ptrs := q; r_data := bv_build b |}.
(** m_pointers.access(i) (inverted_index.hpp:100; blocked_inverted_index.hpp:405-423). *)
Definition record_at (r : records) (i : nat) : res nat := do o <- q_acc (r_ptrs r) i; Ok (N.to_nat o).

(** ** inverted_index *)
(** inverted_index.hpp:36-54 for one list (is_byte_aligned is false). The list has just been read: list.size() = n. *)
Definition write_list (u : N) (b : bvb) (l : list N) : res bvb :=
  do b <- write_gamma_nonzero b (N.of_nat (length l));
  ce_build b u l.
(** m_num_docs, m_pointers and m_data; m_num_integers is only reported (inverted_index.hpp:203-206). *)
Record inv := { ii_docs : N; ii_lists : records }.
(** inverted_index.hpp:17-66 and 80-86. *)
Definition inv_build (u : N) (lists : list (list N)) : res inv :=
  do r <- build_records (write_list u) lists; Ok {| ii_docs := u; ii_lists := r |}.
(** inverted_index.hpp:98-105 iterator. *)
Definition inv_iterator (tail : N) (ii : inv) (t : nat) : res ceit :=
  let ws := v_words (r_data (ii_lists ii)) in
  do offset <- record_at (ii_lists ii) t;
  do (n, it) <- read_gamma_nonzero ws (66 + 64 * length ws) (bi_new offset);
  ce_iterator ws tail (bi_pos it) (ii_docs ii) (N.to_nat n).
(** inverted_index.hpp:111-113 num_terms. *)
Definition inv_terms (ii : inv) : nat := q_size (r_ptrs (ii_lists ii)).

(** Reading a list: while has_next() { *it; ++it; } (inverted_index.hpp:98-105: a loop over an iterator). *)
Fixpoint c_collect (fuel : nat) (it : ceit) : res (list N) :=
  match fuel with
  | 0 => Fuel
  | S fuel' =>
      if c_pos it <? c_size it then do it' <- c_next it; do vs <- c_collect fuel' it'; Ok (c_val it :: vs)
      else Ok []
  end.

(** ** blocked_inverted_index *)
(** blocked_inverted_index.hpp:84-86: documents of a block. *)
Definition write_docs (u : N) (b : bvb) (l : list N) : res bvb :=
  do b <- bvb_append_bits b (N.of_nat (length l)) 32;
  ce_build b u l.
(** blocked_inverted_index.hpp:111-116: offsets of a block; back() of an empty vector is undefined. *)
Definition write_offsets (b : bvb) (l : list N) : res bvb :=
  match l with
  | [] => UB
  | _ =>
      let u := wadd (last l 0%N) 1 in
      do b <- bvb_append_bits b (N.of_nat (length l)) 32;
      do b <- bvb_append_bits b u 32;
      ce_build b u l
  end.
(** blocked_inverted_index.hpp:118-125: terms of a block. max is a uint32_t: max + 1 wraps at 2^32. *)
Fixpoint append_all (b : bvb) (l : list N) (width : nat) : res bvb :=
  match l with
  | [] => Ok b
  | t :: l' => do b <- bvb_append_bits b t width; append_all b l' width
  end.
(** As above: blocked_inverted_index.hpp:118-125. *)
Definition write_terms (b : bvb) (l : list N) : res bvb :=
  match l with
  | [] => UB
  | _ =>
      do w <- ceil_log2_w ((fold_right N.max 0 l + 1) mod 4294967296)%N;
      let w := if w =? 0 then 1 else w in
      do b <- bvb_append_bits b (N.of_nat w) 6;
      append_all b l w
  end.
(** blocked_inverted_index.hpp:405-410: the documents of block [i]. *)
Definition docs_iterator (tail : N) (u : N) (r : records) (i : nat) : res ceit :=
  do offset <- record_at r i;
  do n <- bv_get_bits (r_data r) offset 32;
  ce_iterator (v_words (r_data r)) tail (offset + 32) u (N.to_nat n).
(** blocked_inverted_index.hpp:411-417: the offsets of block [i]. *)
Definition offsets_iterator (tail : N) (r : records) (i : nat) : res ceit :=
  do offset <- record_at r i;
  do n <- bv_get_bits (r_data r) offset 32;
  do u <- bv_get_bits (r_data r) (offset + 32) 32;
  ce_iterator (v_words (r_data r)) tail (offset + 64) u (N.to_nat n).
(** blocked_inverted_index.hpp:418-423: the terms of block [i]: base and width of the bits_getter. *)
Definition terms_getter (r : records) (i : nat) : res (nat * nat) :=
  do offset <- record_at r i;
  do w <- bv_get_bits (r_data r) offset 6;
  Ok (offset + 6, N.to_nat w).

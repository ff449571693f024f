(** The compressed containers an index is assembled from, as a record of functions, so that the
    indexes can be modelled independently of the bit-level representations. The concrete instance is
    M_Real. No proofs. *)
From Verif Require Import Base M_Heap M_Iter M_Trie.

(** util.hpp:227-229 ceil_log2 (msb = position of the highest one, util.hpp:190-197). *)
Definition ceil_log2 (x : N) : nat := if (1 <? x)%N then N.to_nat (N.log2 (x - 1)) + 1 else 0.

(** As above: util.hpp:227-229, util.hpp:190-197. *)
Record containers := {
  (* ef/ef_sequence.hpp: build, size, access, iterator *)
  k_seq : list N -> res seqc;
  (* compact_vector.hpp:234-238 build(begin, n, w); access / operator[] *)
  k_vec : nat -> list N -> res (nat -> res N);
  (* succinct_rmq/cartesian_tree.hpp: build(list, less), rmq *)
  k_rmq : list nat -> res (nat -> nat -> res nat);
  (* ef/compact_ef.hpp iterators *)
  k_It : Type;
  k_ops : nat -> iter_ops k_It;
  (* inverted_index.hpp:17-75 (lists and pointers), 98-105: universe, lists -> iterator(term) *)
  k_lists : nat -> list (list nat) -> res (nat -> res k_It);
  (* std::push_heap, pop_heap, make_heap *)
  k_heap : forall A : Type, heap_ops A;
  (* std::sort of iterators by size *)
  k_sort : list k_It -> list k_It
}.

(** compact_vector.hpp:226-231 build(begin, n): *max_element of an empty range is undefined. *)
Definition vec_build (K : containers) (l : list N) : res (nat -> res N) :=
  match l with
  | [] => UB
  | _ => k_vec K (ceil_log2 (fold_right N.max 0%N l + 1)) l
  end.

(** Reading a compact_vector of ids (compact_vector.hpp:252-259). *)
Definition vec_nat (acc : nat -> res N) (i : nat) : res nat := do v <- acc i; Ok (N.to_nat v).

(** unsorted_list.hpp:14-19 build = minimal_docids.hpp:20-25 build. *)
Record ulist := { ul_acc : nat -> res nat; ul_size : nat; ul_rmq : nat -> nat -> res nat }.
(** As above: unsorted_list.hpp:14-19, minimal_docids.hpp:20-25. *)
Definition ulist_build (K : containers) (l : list nat) : res ulist :=
  do rmq <- k_rmq K l;
  do acc <- vec_build K (map N.of_nat l);
  Ok {| ul_acc := vec_nat acc; ul_size := length l; ul_rmq := rmq |}.

(** compact_forward_index.hpp:13-44, 53-59: the builder. Members m_pointers and m_data. *)
Record fwd := { fw_ptrs : seqc; fw_data : nat -> res N }.
(** compact_forward_index.hpp:25-39: the pointers, starting with [size]. *)
Fixpoint fwd_pointers (size : nat) (lists : list (list N)) : list nat :=
  match lists with
  | [] => [size]
  | l :: lists' => size :: fwd_pointers (size + length l) lists'
  end.
(** As above: compact_forward_index.hpp:25-39. *)
Definition fwd_build (K : containers) (num_terms : nat) (lists : list (list N)) : res fwd :=
  do d <- k_vec K (ceil_log2 (N.of_nat num_terms + 1)) (concat lists);
  do p <- k_seq K (map N.of_nat (fwd_pointers 0 lists));
  Ok {| fw_ptrs := p; fw_data := d |}.

(** compact_forward_index.hpp:106-111 iterator(doc_id): (base, n). *)
Definition fwd_iterator (f : fwd) (doc : nat) : res (nat * nat) :=
  do pos <- acc_nat (fw_ptrs f) doc;
  do e <- acc_nat (fw_ptrs f) (doc + 1);
  if e <? pos then UB else Ok (pos, e - pos).

(** compact_forward_index.hpp:90-97 intersects; util_types.hpp:56-59 range::contains. *)
Fixpoint fwd_scan (f : fwd) (base i n : nat) (a b : nat) : res bool :=
  match n with
  | O => Ok false
  | S n' =>
      do v <- fw_data f (base + i);
      if (N.of_nat a <=? v)%N && (v <=? N.of_nat b)%N then Ok true else fwd_scan f base (i + 1) n' a b
  end.
(** As above: compact_forward_index.hpp:90-97, util_types.hpp:56-59. *)
Definition fwd_intersects (f : fwd) (doc a b : nat) : res bool :=
  do (pos, n) <- fwd_iterator f doc;
  fwd_scan f pos 0 n a b.

(** The containers the indexes are assembled from, on bits. No proofs. *)
From Verif Require Import Base M_Heap M_Iter M_Trie M_Containers M_Blocked M_Word M_Bits M_Cvec M_EfSeq M_CompactEf M_InvIndex M_Bp M_Cart.
Local Open Scope nat_scope.

(** [tail]: whatever the word behind a bit vector holds (see M_Bits.load64). [heap], [sort]: the standard
    algorithms. compact_vector::access is used for reading; operator[] gives the same (T_Cvec) (unsorted_list.hpp:132, succinct_rmq/cartesian_tree.hpp:86-118). *)
Definition real_rmq (l : list nat) : res (nat -> nat -> res nat) := do p <- ct_build l; Ok (ct_rmq p).
(** types.hpp:22-45: the template arguments. *)
Definition real_containers (tail : N) (heap : forall A, heap_ops A)
    (sort : list ceit -> list ceit) : containers := {|
  k_seq := ef_seqc;
  k_vec := fun w l => do v <- cv_build_width l w; Ok (cv_access v tail);
  k_rmq := real_rmq;
  k_It := ceit;
  k_ops := fun _ => ce_ops;
  k_lists := fun u ls => do ii <- inv_build (N.of_nat u) (map (map N.of_nat) ls); Ok (inv_iterator tail ii);
  k_heap := heap;
  k_sort := sort
|}.

(** blocked_inverted_index: the offsets are read with iterator.access(i) (lines 348-349). Simplification: every access starts from
    the iterator as opened; access gives the same from any position (T_InvIndex.C21_history) (blocked_inverted_index.hpp:346-350). *)
Definition offset_at (it : ceit) (i : nat) : res nat := do it <- c_access it i; Ok (N.to_nat (c_val it)).
(** types.hpp:28, 43-45: the template arguments. *)
Definition real_bcontainers (tail : N) (heap : forall A, heap_ops A)
    (sort : list ceit -> list ceit) (bsort : forall A : Type, (A -> nat) -> list A -> list A) : bcontainers := {|
  b_base := real_containers tail heap sort;
  b_position := c_pos;
  b_lists := fun u ls => do r <- build_records (write_docs (N.of_nat u)) (map (map N.of_nat) ls); Ok (docs_iterator tail (N.of_nat u) r);
  b_offsets := fun ls =>
    do r <- build_records write_offsets (map (map N.of_nat) ls);
    Ok (fun b => do it <- offsets_iterator tail r b; Ok (offset_at it));
  b_terms := fun ls =>
    do r <- build_records write_terms (map (map N.of_nat) ls);
    Ok (fun b => do (base, w) <- terms_getter r b; Ok (fun i => do v <- getter_access (v_words (r_data r)) base w i; Ok (N.to_nat v)));
  b_sort := bsort
|}.

(** What the containers have to do. *)
From Coq Require Import Sorted.
From Verif Require Import Base M_Heap S_Heap M_Iter S_Iter S_TopK S_Intersect S_Search M_Trie S_Trie M_Containers.

Record containers_ok (K : containers) : Prop := {
  (* an ef_sequence stores any non-empty non-decreasing sequence of 64-bit values *)
  ok_seq : forall l, monotone l -> Forall (fun x => (x < 18446744073709551616)%N) l ->
    exists q, k_seq K l = Ok q /\ holds l q;
  (* a compact_vector keeps the low w bits of every value *)
  ok_vec : forall w l, 1 <= w <= 32 -> Forall (fun x => (x < 4294967296)%N) l ->
    exists acc, k_vec K w l = Ok acc /\
      forall i, i < length l -> acc i = Ok (nth i l 0 mod 2 ^ N.of_nat w)%N;
  (* range-minimum queries; fewer than 2^30 - 1 elements (see T_Cart) *)
  ok_rmq : forall l, l <> [] -> (N.of_nat (length l) < 1073741823)%N -> exists f, k_rmq K l = Ok f /\ rmq_ok l f;
  (* posting lists: non-empty, strictly increasing, below the universe; fewer than 2^40 postings *)
  ok_lists : forall u ls, (N.of_nat u < 4294967296)%N -> ls <> [] ->
    Forall (fun l => l <> [] /\ increasing l /\ Forall (fun x => x < u) l) ls ->
    (N.of_nat (length (concat ls)) < 1099511627776)%N ->
    exists iterator at_, k_lists K u ls = Ok iterator /\ cursor (k_ops K u) u at_ /\ opens at_ iterator ls;
  (* the standard algorithms *)
  ok_heap : forall A, std_heap (k_heap K A);
  ok_sort : forall u, sorts_by_size (k_ops K u) (k_sort K)
}.

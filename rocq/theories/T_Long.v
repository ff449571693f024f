(** C20, C17 on lists of 2^30 - 1 elements or more. *)
From Coq Require Import ZArith.
From Verif Require Import Base S_TopK S_Heap S_Intersect M_Heap M_Iter M_TopK M_Containers M_CompactEf M_Cart M_Real P_Heap T_Tests P_Long P_LongTopK.
Local Open Scope nat_scope.

(** For every size from 2^30 - 1 to about 4/3 of it there is a list for which the position answered is not that of a minimum. *)
Theorem C20_long_refuted : forall n, (1073741823 <= n <= 1431655764)%N ->
  exists l t p q, N.of_nat (length l) = n /\ ct_build l = Ok t /\ ct_rmq t 0 (length l - 1) = Ok p /\
    q < length l /\ p < length l /\ nth q l 0 < nth p l 0.
Proof. exact rmq_wrong. Qed.
Print Assumptions C20_long_refuted.

(** As a consequence the smallest element is not reported. *)
Theorem C17_long_refuted : forall tail heap sort n,
  (tail < 2 ^ 64)%N -> (forall A, std_heap (heap A)) -> sorts_by_size ce_ops sort -> (1073741823 <= n <= 1431655764)%N ->
  exists l ul, N.of_nat (length l) = n /\ Forall (fun x => x <= 1) l /\ ulist_build (real_containers tail heap sort) l = Ok ul /\
    forall topk fuel, 0 < length topk -> 0 < fuel ->
    exists topk', unsorted_topk (ul_acc ul) (ul_size ul) (ul_rmq ul) (heap _) 1 false fuel 0 (length l) topk = Ok (1, topk') /\
      ~ k_smallest 1 (segment l 0 (length l)) (firstn 1 topk').
Proof. exact topk_not_smallest. Qed.
Print Assumptions C17_long_refuted.

(** The hypotheses can be met. *)
Example C17_long_nonvacuous : (forall A, std_heap (sorting_heap A)) /\ sorts_by_size ce_ops T_Real.sort_ce /\ (1073741823 <= 1073741823 <= 1431655764)%N.
Proof. split; [exact sorting_heap_ok|]. split; [exact sort_ce_ok|]. split; discriminate. Qed.

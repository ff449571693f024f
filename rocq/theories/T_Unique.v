(** C17 with unique results. *)
From Coq Require Import Permutation Sorted.
From Verif Require Import Base M_Heap S_Heap P_Heap M_Parse M_TopK S_TopK P_TopK P_Unique P_TestList P_ListIter.
Local Open Scope nat_scope.

(** With unique = true and a range longer than k, topk([a,b), k) reports the k smallest distinct values (all of them if there are fewer). *)
Theorem C17_unique_partial : forall l acc rmq std k a b fuel topk,
  (forall i, i < length l -> acc i = Ok (nth i l 0)) -> rmq_ok l rmq -> std_heap std ->
  a + k < b -> b <= length l -> 1 <= k -> k <= length topk -> b - a + 1 < fuel ->
  exists r topk', unsorted_topk acc (length l) rmq std k true fuel a b topk = Ok (r, topk') /\
    length topk' = length topk /\ r <= k /\ k_smallest_distinct k (segment l a b) (firstn r topk').
Proof.
  exact (fun l acc rmq std k a b fuel topk Hacc Hrmq Hstd Hab Hb Hk Hkn Hf =>
    unique_topk_ok acc l rmq Hacc Hrmq std Hstd k a b (length topk) Hkn Hb fuel topk Hab Hk eq_refl Hf).
Qed.
(** On a range of at most k values, unique = true makes no difference: the whole range is reported. *)
Theorem C17_unique_short : forall l acc rmq std k unique a b fuel topk,
  (forall i, i < length l -> acc i = Ok (nth i l 0)) -> a <= b -> b <= length l -> b - a <= k -> k <= length topk ->
  exists topk', unsorted_topk acc (length l) rmq std k unique fuel a b topk = Ok (b - a, topk') /\
    length topk' = length topk /\ StronglySorted le (firstn (b - a) topk') /\ Permutation (firstn (b - a) topk') (segment l a b).
Proof.
  intros l acc rmq std k unique a b fuel topk H1 H2 H3 H4 H5. destruct (short_topk acc l rmq std k unique fuel a b topk H1 H2 H3 H4 H5) as (t & E & L & F).
  exists t. split; [exact E|]. split; [exact L|]. rewrite F. split; [apply sort_nat_ss|apply sort_nat_perm].
Qed.
(** So the values are the smallest distinct ones exactly when the range is longer than k or has no duplicates. *)
Theorem C17_unique_exact_partial : forall l acc rmq std k a b fuel topk,
  (forall i, i < length l -> acc i = Ok (nth i l 0)) -> rmq_ok l rmq -> std_heap std ->
  a <= b -> b <= length l -> 1 <= k -> k <= length topk -> b - a + 1 < fuel ->
  exists r topk', unsorted_topk acc (length l) rmq std k true fuel a b topk = Ok (r, topk') /\
    (k_smallest_distinct k (segment l a b) (firstn r topk') <-> a + k < b \/ NoDup (segment l a b)).
Proof.
  intros l acc rmq std k a b fuel topk Hacc Hrmq Hstd Hab Hb Hk Hkn Hf. destruct (Nat.le_gt_cases b (a + k)) as [C|C].
  - destruct (C17_unique_short l acc rmq std k true a b fuel topk Hacc Hab Hb) as (t & E & L & S & P); [lia|exact Hkn|].
    exists (b - a), t. split; [exact E|]. split.
    + intros (Hs & _). right. rewrite <- P. now apply ss_lt_nodup.
    + intros [H|H]; [lia|]. rewrite <- P in H. split; [|split; [|split]].
      * revert S H. generalize (firstn (b - a) t). intros m S H. induction S as [|x m S IH Hx]; constructor.
        -- apply IH. now inversion H.
        -- inversion H as [|? ? Hn _]; subst. rewrite Forall_forall in *. intros y Hy. specialize (Hx y Hy). assert (x <> y) by (intros ->; contradiction). lia.
      * rewrite firstn_length. lia.
      * intros x Hx. now rewrite <- P.
      * intros y Hy. left. now rewrite P.
  - destruct (C17_unique_partial l acc rmq std k a b fuel topk Hacc Hrmq Hstd C Hb Hk Hkn Hf) as (r & t & E & _ & _ & H). exists r, t. split; [exact E|]. tauto.
Qed.
Definition all_unique := (C17_unique_partial, C17_unique_short, C17_unique_exact_partial).
Print Assumptions all_unique.

Example C17_unique_nonvacuous :
  let l := [8; 2; 5; 2; 9; 1; 7] in
  rmq_ok l (small_rmq (get l)) /\ std_heap (sorting_heap scored_range) /\
  unsorted_topk (get l) 7 (small_rmq (get l)) (sorting_heap _) 3 true 10 0 7 [0; 0; 0] = Ok (3, [1; 2; 5]) /\
  unsorted_topk (get l) 7 (small_rmq (get l)) (sorting_heap _) 3 true 10 1 4 [0; 0; 0] = Ok (3, [2; 2; 5]).
Proof. split; [apply scan_rmq_spec|]. split; [apply sorting_heap_ok|]. split; reflexivity. Qed.

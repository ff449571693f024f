(** C17, C18, C19: top-k searches. *)
From Coq Require Import Permutation Sorted.
From Verif Require Import Base M_Heap S_Heap P_Heap M_Iter S_Iter M_TopK S_TopK P_TopK P_TopKDistinct P_Limit P_ListIter.
Local Open Scope nat_scope.

(** unsorted_list::topk([a,b), k): the list is stored in any container [acc] with any correct
    range-minimum structure [rmq] and any standard heap. [topk] is the score buffer. *)
Theorem C17_unsorted_topk : forall l acc rmq std k a b fuel topk,
  (forall i, i < length l -> acc i = Ok (nth i l 0)) -> rmq_ok l rmq -> std_heap std ->
  a <= b -> b <= length l -> 1 <= k -> k <= length topk -> b - a + 1 < fuel ->
  exists r topk', unsorted_topk acc (length l) rmq std k false fuel a b topk = Ok (r, topk') /\
    length topk' = length topk /\ r <= k /\ k_smallest k (segment l a b) (firstn r topk').
Proof.
  exact (fun l acc rmq std k a b fuel topk Hacc Hrmq Hstd Hab Hb Hk Hkn Hf =>
    unsorted_topk_ok acc l rmq Hacc Hrmq std Hstd k a b (length topk) Hkn Hb fuel topk Hab Hk eq_refl Hf).
Qed.
Print Assumptions C17_unsorted_topk.

(** The option to report distinct values only has no effect on ranges not longer than k. *)
Theorem C17_unique_refuted :
  let l := [5; 5; 7] in
  unsorted_topk (get l) 3 (small_rmq (get l)) (sorting_heap _) 3 true 10 0 3 [0; 0; 0] = Ok (3, [5; 5; 7]) /\
  ~ k_smallest_distinct 3 (segment l 0 3) [5; 5; 7].
Proof.
  split; [reflexivity|]. intros (H & _). inversion H as [|x xs Hs Hf]; subst. inversion Hf; subst. lia.
Qed.
Print Assumptions C17_unique_refuted.

(** minimal_docids::topk over the terms [a,b) (0-based). [acc] stores the first doc id of every list. *)
Theorem C18_minimal_topk :
  forall (It : Type) (ops : iter_ops It) u at_ iterator postings acc rmq std k a b fuel topk,
  cursor ops u at_ -> opens at_ iterator postings ->
  (let l := map (fun p => hd 0 p) postings in
   (forall i, i < length l -> acc i = Ok (nth i l 0)) /\ rmq_ok l rmq) ->
  std_heap std ->
  a < b -> b <= length postings -> 1 <= k -> k <= length topk -> length (concat postings) < fuel ->
  exists r topk',
    minimal_topk acc (length postings) rmq ops iterator std k fuel a b topk = Ok (r, topk') /\
    length topk' = length topk /\ r <= k /\
    k_smallest_distinct k (concat (firstn (b - a) (skipn a postings))) (firstn r topk').
Proof. exact @minimal_topk_spec. Qed.
Print Assumptions C18_minimal_topk.

(** heap_topk over the terms [a..b] (1-based, inclusive). *)
Theorem C19_heap_topk :
  forall (It : Type) (ops : iter_ops It) u at_ iterator postings std k a b fuel topk,
  cursor ops u at_ -> opens at_ iterator postings -> std_heap std ->
  1 <= a -> a <= b + 1 -> b <= length postings -> 1 <= k -> k <= length topk ->
  length (concat postings) < fuel ->
  exists r topk',
    heap_topk ops iterator std k fuel a b topk = Ok (r, topk') /\
    length topk' = length topk /\ r <= k /\
    k_smallest_distinct k (concat (firstn (b + 1 - a) (skipn (a - 1) postings))) (firstn r topk').
Proof. exact @heap_topk_spec. Qed.
Print Assumptions C19_heap_topk.

(** For any k, where 0 means that there is no limit, and any length of the score buffer. *)
Theorem C17_any_k : forall l acc rmq std k a b fuel topk,
  (forall i, i < length l -> acc i = Ok (nth i l 0)) -> rmq_ok l rmq -> std_heap std ->
  a < b -> b <= length l -> b - a + 1 < fuel ->
  exists ds, k_smallest (if k =? 0 then b - a else k) (segment l a b) ds /\
    outcome (length topk) ds (unsorted_topk acc (length l) rmq std k false fuel a b topk).
Proof.
  intros l acc rmq std k a b fuel topk H1 H2 H3 H4 H5 H6.
  destruct (unsorted_topk_any acc l rmq std H1 H2 H3 k a b fuel topk H4 H5 H6) as (ds & (A1 & A2 & A3) & B). exists ds. split; [|exact B].
  split; [exact A1|]. split; [|exact A3]. rewrite A2. unfold segment. rewrite firstn_length, skipn_length. destruct (k =? 0); lia.
Qed.
Theorem C18_any_k :
  forall (It : Type) (ops : iter_ops It) u at_ iterator postings acc rmq std k a b fuel topk,
  cursor ops u at_ -> opens at_ iterator postings ->
  (let l := map (fun p => hd 0 p) postings in
   (forall i, i < length l -> acc i = Ok (nth i l 0)) /\ rmq_ok l rmq) ->
  std_heap std ->
  a < b -> b <= length postings -> length (concat postings) < fuel ->
  let all := concat (firstn (b - a) (skipn a postings)) in
  exists ds, k_smallest_distinct (if k =? 0 then S (length all) else k) all ds /\
    outcome (length topk) ds (minimal_topk acc (length postings) rmq ops iterator std k fuel a b topk).
Proof. exact @minimal_topk_any. Qed.
Theorem C19_any_k :
  forall (It : Type) (ops : iter_ops It) u at_ iterator postings std k a b fuel topk,
  cursor ops u at_ -> opens at_ iterator postings -> std_heap std ->
  1 <= a -> a <= b + 1 -> b <= length postings -> length (concat postings) < fuel ->
  let all := concat (firstn (b + 1 - a) (skipn (a - 1) postings)) in
  exists ds, k_smallest_distinct (if k =? 0 then S (length all) else k) all ds /\
    outcome (length topk) ds (heap_topk ops iterator std k fuel a b topk).
Proof. exact @heap_topk_any. Qed.
Definition all_any_k := (C17_any_k, C18_any_k, C19_any_k).
Print Assumptions all_any_k.

Definition ex_postings := [[1; 4; 6]; [0; 4]; [2]; [0; 1; 2; 3; 9]].

Example C17_C18_C19_nonvacuous :
  rmq_ok [8; 2; 5; 2; 9; 1; 7] (small_rmq (get [8; 2; 5; 2; 9; 1; 7])) /\
  std_heap (sorting_heap scored_range) /\
  unsorted_topk (get [8; 2; 5; 2; 9; 1; 7]) 7 (small_rmq (get [8; 2; 5; 2; 9; 1; 7])) (sorting_heap _)
    3 false 10 0 7 [0; 0; 0] = Ok (3, [1; 2; 2]) /\
  cursor (list_iter_ops 10) 10 (list_at 10) /\
  opens (list_at 10) (list_iterator ex_postings) ex_postings /\
  minimal_topk (get [1; 0; 2; 0]) 4 (small_rmq (get [1; 0; 2; 0])) (list_iter_ops 10) (list_iterator ex_postings)
    (sorting_heap _) 5 20 0 3 [0; 0; 0; 0; 0] = Ok (5, [0; 1; 2; 4; 6]) /\
  heap_topk (list_iter_ops 10) (list_iterator ex_postings) (sorting_heap _) 4 20 2 4 [0; 0; 0; 0]
    = Ok (4, [0; 1; 2; 3]) /\
  heap_topk (list_iter_ops 10) (list_iterator ex_postings) (sorting_heap _) 0 20 2 3 [8; 8; 8; 8]
    = Ok (3, [0; 2; 4; 8]) /\
  heap_topk (list_iter_ops 10) (list_iterator ex_postings) (sorting_heap _) 0 20 2 3 [8; 8] = UB.
Proof.
  split; [apply scan_rmq_spec|]. split; [apply sorting_heap_ok|]. split; [reflexivity|].
  split; [apply list_cursor|]. split; [|repeat split].
  apply list_opens. repeat constructor; try (apply increasingb_ok; reflexivity); try lia; discriminate.
Qed.

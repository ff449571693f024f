(** C78: the answers are the same on every platform: they depend neither on how the C++ standard library implements the heap algorithms and std::sort
    (where elements compare equal, the standard leaves the order open), nor on what the memory behind a bit vector holds. The containers are those on bits.
    The states [s] and [t] are arbitrary: any histories. *)
From Coq Require Import Permutation.
From Verif Require Import Base S_Order S_Vocab S_Parse S_Iter M_Heap S_Heap M_Intersect S_Intersect M_Containers S_Containers M_Auto M_Auto1 S_Collection S_Index S_Found S_Build M_Auto2 S_Index2 M_Blocked S_Blocked S_Platform.
From Verif Require Import M_Real P_Real P_Heap M_GnuHeap P_GnuHeap M_CompactEf P_Collection P_Auto1 P_Auto23 P_Auto4 P_ListContainers P_BlockFinal P_Platform.
From Verif Require Import T_Auto1 T_Auto2 T_Auto4 T_Build T_Real.
Local Open Scope nat_scope.

Theorem C78_type1 : forall tail tail' heap heap' sort sort' c,
  (tail < 2 ^ 64)%N -> (tail' < 2 ^ 64)%N -> (forall A, std_heap (heap A)) -> (forall A, std_heap (heap' A)) -> sorts_by_size ce_ops sort -> sorts_by_size ce_ops sort' ->
  let K := real_containers tail heap sort in let K' := real_containers tail' heap' sort' in
  wf_collection c ->
  both_built (ac1_build K (files_of c)) (ac1_build K' (files_of c)) (fun x x' =>
    forall fuel fuel' r s t, query_fuel c < fuel -> query_fuel c < fuel' -> state1_ok s -> state1_ok t ->
    same_runs (fun s => pool_results (s1_pool s)) (fun s => pool_results (s1_pool s)) (ac1_request K x fuel r s) (ac1_request K' x' fuel' r t)).
Proof.
  intros tail tail' heap heap' sort sort' c H1 H1' H2 H2' H3 H3' K K' Hwf.
  exact (both1 K K' (real_containers_ok tail heap sort H1 H2 H3) (real_containers_ok tail' heap' sort' H1' H2' H3') (real_width0 tail heap sort) (real_width0 tail' heap' sort') c Hwf).
Qed.
Theorem C78_type2 : forall tail tail' heap heap' sort sort' c,
  (tail < 2 ^ 64)%N -> (tail' < 2 ^ 64)%N -> (forall A, std_heap (heap A)) -> (forall A, std_heap (heap' A)) -> sorts_by_size ce_ops sort -> sorts_by_size ce_ops sort' ->
  let K := real_containers tail heap sort in let K' := real_containers tail' heap' sort' in
  wf_collection c ->
  both_built (ac2_build K (files_of c)) (ac2_build K' (files_of c)) (fun x x' =>
    forall fuel fuel' r s t, query_fuel c < fuel -> query_fuel c < fuel' -> state2_ok s -> state2_ok t ->
    same_runs (fun s => pool_results (s2_pool s)) (fun s => pool_results (s2_pool s)) (ac2_request K x fuel r s) (ac2_request K' x' fuel' r t)).
Proof.
  intros tail tail' heap heap' sort sort' c H1 H1' H2 H2' H3 H3' K K' Hwf.
  exact (both2 K K' (real_containers_ok tail heap sort H1 H2 H3) (real_containers_ok tail' heap' sort' H1' H2' H3') (real_width0 tail heap sort) (real_width0 tail' heap' sort') c Hwf).
Qed.
Theorem C78_type3 : forall tail tail' heap heap' sort sort' c,
  (tail < 2 ^ 64)%N -> (tail' < 2 ^ 64)%N -> (forall A, std_heap (heap A)) -> (forall A, std_heap (heap' A)) -> sorts_by_size ce_ops sort -> sorts_by_size ce_ops sort' ->
  let K := real_containers tail heap sort in let K' := real_containers tail' heap' sort' in
  wf_collection c ->
  both_built (ac3_build K (files_of c)) (ac3_build K' (files_of c)) (fun x x' =>
    forall fuel fuel' r s t, query_fuel c < fuel -> query_fuel c < fuel' -> state2_ok s -> state2_ok t ->
    same_runs (fun s => pool_results (s2_pool s)) (fun s => pool_results (s2_pool s)) (ac3_request K x fuel r s) (ac3_request K' x' fuel' r t)).
Proof.
  intros tail tail' heap heap' sort sort' c H1 H1' H2 H2' H3 H3' K K' Hwf.
  exact (both3 K K' (real_containers_ok tail heap sort H1 H2 H3) (real_containers_ok tail' heap' sort' H1' H2' H3') (real_width0 tail heap sort) (real_width0 tail' heap' sort') c Hwf).
Qed.
(** Type 4, prefix searches; the two may even be built with other block sizes [m] and [m']. *)
Theorem C78_type4_prefix : forall tail tail' heap heap' sort sort' bsort bsort' c m m',
  (tail < 2 ^ 64)%N -> (tail' < 2 ^ 64)%N -> (forall A, std_heap (heap A)) -> (forall A, std_heap (heap' A)) -> sorts_by_size ce_ops sort -> sorts_by_size ce_ops sort' ->
  (forall A key l, Permutation (bsort A key l) l) -> (forall A key l, Permutation (bsort' A key l) l) ->
  let K := real_bcontainers tail heap sort bsort in let K' := real_bcontainers tail' heap' sort' bsort' in
  wf_collection c -> few_postings c ->
  both_built (ac4_build K m (files_of c)) (ac4_build K' m' (files_of c)) (fun x x' =>
    forall fuel fuel' r s t, query_fuel c < fuel -> query_fuel c < fuel' -> state2_ok s -> state2_ok t -> rq_conj r = false ->
    same_runs (fun s => pool_results (s2_pool s)) (fun s => pool_results (s2_pool s)) (ac4_request K x fuel r s) (ac4_request K' x' fuel' r t)).
Proof.
  intros tail tail' heap heap' sort sort' bsort bsort' c m m' H1 H1' H2 H2' H3 H3' H4 H4' K K'.
  exact (both4_prefix K K' c m m' (real_bcontainers_ok tail heap sort H1 H2 H3 bsort H4) (real_bcontainers_ok tail' heap' sort' H1' H2' H3' bsort' H4')
           (real_width0 tail heap sort) (real_width0 tail' heap' sort')).
Qed.
(** Type 4, conjunctive searches. Missing: those for no results (k = 0), and the queries that are not exact (F5-F8): for these it is false, C78_type4_refuted. *)
Theorem C78_type4_partial : forall tail tail' heap heap' sort sort' bsort bsort' c m,
  (tail < 2 ^ 64)%N -> (tail' < 2 ^ 64)%N -> (forall A, std_heap (heap A)) -> (forall A, std_heap (heap' A)) -> sorts_by_size ce_ops sort -> sorts_by_size ce_ops sort' ->
  (forall A key l, Permutation (bsort A key l) l) -> (forall A key l, Permutation (bsort' A key l) l) ->
  let K := real_bcontainers tail heap sort bsort in let K' := real_bcontainers tail' heap' sort' bsort' in
  wf_collection c -> few_postings c ->
  both_built (ac4_build K m (files_of c)) (ac4_build K' m (files_of c)) (fun x x' =>
    forall fuel fuel' r s t, query_fuel c < fuel -> query_fuel c < fuel' -> state2_ok s -> state2_ok t ->
    (rq_conj r = true -> 1 <= rq_k r /\ forall ts last, query_split (rq_text r) ts last -> query_exact_by c (found c last) (bi_bounds K (a4_inverted x)) ts) ->
    same_runs (fun s => pool_results (s2_pool s)) (fun s => pool_results (s2_pool s)) (ac4_request K x fuel r s) (ac4_request K' x' fuel' r t)).
Proof.
  intros tail tail' heap heap' sort sort' bsort bsort' c m H1 H1' H2 H2' H3 H3' H4 H4' K K'.
  exact (both4 K K' c m (real_bcontainers_ok tail heap sort H1 H2 H3 bsort H4) (real_bcontainers_ok tail' heap' sort' H1' H2' H3' bsort' H4')
           (real_width0 tail heap sort) (real_width0 tail' heap' sort')).
Qed.

Definition all_platform := (C78_type1, C78_type2, C78_type3, C78_type4_prefix, C78_type4_partial).
Print Assumptions all_platform.

(** Two platforms that differ in all of it: the heap kept sorted and the one of libstdc++, two sorts that differ on ties, other memory. *)
Definition sort_ce' (l : list ceit) : list ceit := sort_ce (rev l).
Definition sort_b' (A : Type) (key : A -> nat) (l : list A) : list A := sort_b A key (rev l).
Definition K_gnu := real_bcontainers 0 gnu_heap sort_ce' sort_b'.

Example C78_nonvacuous :
  (forall A, std_heap (gnu_heap A)) /\ sorts_by_size ce_ops sort_ce' /\ (forall A key l, Permutation (sort_b' A key l) l) /\
  sort_b (nat * nat) fst [(1, 2); (1, 3)] <> sort_b' (nat * nat) fst [(1, 2); (1, 3)] /\
  make_heap (sorting_heap nat) (fun x => x) [3; 2; 1; 5; 4] <> make_heap (gnu_heap nat) (fun x => x) [3; 2; 1; 5; 4] /\
  some_kept_doc_positive coll_ex /\ some_term_not_in_doc0 coll_ex /\ few_postings coll_ex /\
  (let r := {| rq_conj := true; rq_k := 3; rq_text := [98]%N |} in
   let run K := do x <- ac4_build K 7 (files_of coll_ex); do s <- ac4_request K x (query_fuel coll_ex + 1) r state2_new; pool_results (s2_pool s) in
   run K_ex = run K_gnu /\ exists out, run K_gnu = Ok out /\ length out = 3).
Proof.
  destruct C01_C08_bits_nonvacuous as (_ & Hs & Hb & _). split; [exact gnu_heap_ok|]. split; [|split; [|split; [|split; [|split; [|split; [|split]]]]]].
  - intros l. destruct (Hs (rev l)) as [A B]. split; [|exact B]. unfold sort_ce'. etransitivity; [exact A|]. symmetry. apply Permutation_rev.
  - intros A key l. unfold sort_b'. rewrite (Hb A key (rev l)). symmetry. apply Permutation_rev.
  - vm_compute. discriminate.
  - vm_compute. discriminate.
  - exists 1. split; [vm_compute; tauto|lia].
  - exists 2. split; [cbn; lia|]. intros H; vm_compute in H; repeat (destruct H as [H|H]; try discriminate H); exact H.
  - vm_compute. repeat split; lia.
  - cbv zeta. split; [vm_compute; reflexivity|]. eexists. split; [vm_compute; reflexivity|reflexivity].
Qed.

(** The claim is false of conjunctive searches with type 4 (F56): blocks {a, ba}, {bb}, {bc, c}; the completion "a bb c" and the query "c b". Of two blocks with the same
    current document the one on top of the heap is asked, and the other never (F8); which one is on top, the standard leaves to the library. *)
Definition coll_tie : collection := {|
  terms := [[97]; [98; 97]; [98; 98]; [98; 99]; [99]]%N;
  comps := [[1; 3; 5]; [2; 5]; [3]; [4]]%N; docs := [1; 2; 3; 0]; universe := 4 |}.
Definition run_tie (K : bcontainers) : res (list (nat * list N)) :=
  do x <- ac4_build K 2 (files_of coll_tie);
  do s <- ac4_request K x (query_fuel coll_tie + 1) {| rq_conj := true; rq_k := 10; rq_text := [99; 32; 98]%N |} state2_new;
  pool_results (s2_pool s).
Theorem C78_type4_refuted :
  wf_collection coll_tie /\ sizes_ok2 coll_tie /\ few_postings coll_tie /\ some_kept_doc_positive coll_tie /\
  (forall A, std_heap (sorting_heap A)) /\ (forall A, std_heap (gnu_heap A)) /\ sorts_by_size ce_ops sort_ce /\ (forall A key l, Permutation (sort_b A key l) l) /\
  run_tie (real_bcontainers 0 sorting_heap sort_ce sort_b) = Ok [(2, [98; 97; 32; 99]%N)] /\
  run_tie (real_bcontainers 0 gnu_heap sort_ce sort_b) = Ok [(1, [97; 32; 98; 98; 32; 99]%N); (2, [98; 97; 32; 99]%N)].
Proof.
  destruct C01_C08_bits_nonvacuous as (_ & Hs & Hb & _). split; [apply wf_collectionb_ok; reflexivity|]. split; [split; discriminate|]. split; [reflexivity|].
  split; [exists 1; split; [vm_compute; tauto|lia]|]. split; [exact sorting_heap_ok|]. split; [exact gnu_heap_ok|]. split; [exact Hs|]. split; [exact Hb|].
  split; vm_compute; reflexivity.
Qed.
Print Assumptions C78_type4_refuted.

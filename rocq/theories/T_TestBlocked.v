(** The test program of the project for the blocked inverted index, run on the files of a collection (C69), and where blocks end (C35). *)
From Coq Require Import String Permutation.
From Verif Require Import Base S_Order S_Vocab S_Collection S_Text S_Files S_Containers S_Iter S_Intersect S_Blocked S_TestBlocked P_ListContainers.
From Verif Require Import M_Heap S_Heap P_Heap M_Iter M_CompactEf M_Real M_Input M_Stored M_Auto M_TestBlocked.
From Verif Require Import T_Auto1 T_Input T_Real T_Tests P_Auto4 P_Collection P_TestBlocked.
Local Open Scope nat_scope.
Local Open Scope list_scope.

(** C35: every block but the last ends at the first term at which it has at least [m] postings; the last one ends at the last term. *)
Theorem C35_bounds : forall m u posts b, posts <> [] -> bi_build_d m u posts = Ok b -> cuts m posts 0 (xd_blocks b).
Proof. exact bounds_cuts. Qed.

(** C69: on the files of every well-formed collection the test ends with a verdict. It passes exactly if, for every block size and query drawn, the query is
    not one of those for which the first document of a block is missed (F5). The hypothesis on the queries is what gen_random_queries guarantees. *)
Theorem C69_test_partial : forall c t tail heap sort bsort fuel queries ms junk,
  wf_collection c -> few_postings c -> holds_collection c t ->
  (tail < 2 ^ 64)%N -> (forall A, std_heap (heap A)) -> sorts_by_size ce_ops sort -> (forall A key l, Permutation (bsort A key l) l) ->
  (forall q, In q (queries (length (terms c))) -> 2 <= length q /\ increasing q /\ Forall (fun x => 1 <= x <= length (terms c)) q /\ (universe c + 2) * (length q + 1) < fuel) ->
  let posts := f_inverted (files_of c) in
  exists r, test_blocked tail heap sort bsort fuel queries ms junk t = Ok r /\
    (r = true <-> forall m q, In m (ms (N.of_nat (universe c))) -> In q (queries (length (terms c))) ->
       exists b, bi_build_d m (universe c) posts = Ok b /\ ~ misses_first (xd_blocks b) posts q).
Proof.
  intros c t tail heap sort bsort fuel queries ms junk Hwf Hfew Ht Htail Hheap Hsort Hb Hq posts.
  exact (test_blocked_ok c Hwf Hfew t Ht tail Htail heap Hheap sort Hsort bsort Hb fuel queries ms junk Hq).
Qed.

(** The random queries of the tests (C67, C69) are as assumed, for every generator [draw] that keeps to the interval asked for: [num] queries of 2 to
    [max_terms] terms each, in increasing order, between 1 and the number of terms. *)
Theorem C69_queries : forall St (draw : nat -> nat -> St -> nat * St) fuel num max_terms T s qs s',
  (forall lo hi s, lo <= hi -> lo <= fst (draw lo hi s) <= hi) -> 2 <= max_terms -> 1 <= T ->
  gen_random_queries draw fuel num max_terms T s = Ok (qs, s') ->
  length qs = num /\ Forall (fun q => 2 <= length q <= max_terms /\ increasing q /\ Forall (fun x => 1 <= x <= T) q) qs.
Proof. exact (fun St draw fuel num max_terms T s qs s' Hd H2 H1 => gen_random_queries_ok draw Hd fuel max_terms T H2 H1 num s qs s'). Qed.

(** For a collection of one term there are no such queries, and the program goes on drawing for ever (F51). *)
Theorem C69_one_term_refuted : forall St (draw : nat -> nat -> St -> nat * St) fuel num max_terms s,
  (forall lo hi s, lo <= hi -> lo <= fst (draw lo hi s) <= hi) -> gen_random_queries draw fuel (S num) max_terms 1 s = Fuel.
Proof. exact (fun St draw fuel num max_terms s Hd => one_term_ends_not draw Hd fuel num max_terms s). Qed.

(** Not every draw passes: all four terms in one block, whose first document 0 has the terms 1 and 3. *)
Definition no_sort (A : Type) (key : A -> nat) (l : list A) : list A := l.
Theorem C69_test_refuted :
  wf_collection coll_ex /\ few_postings coll_ex /\ holds_collection coll_ex texts_ex /\
  test_blocked 0 (@sorting_heap) sort_ce no_sort 100 (fun _ => [[1; 3]]) (fun _ => [100]) 7 texts_ex = Ok false.
Proof.
  destruct C44_nonvacuous as (H1 & H2 & _). split; [exact H1|]. split; [reflexivity|]. split; [exact H2|]. vm_compute. reflexivity.
Qed.

Definition all_blocked_tests := (C35_bounds, C69_test_partial, C69_queries, C69_one_term_refuted, C69_test_refuted).
Print Assumptions all_blocked_tests.

(** With at least 6 postings per block the blocks are {1, 2} and {3, 4}, and the same queries pass; so do others with a single block. *)
Definition queries_b (n : nat) : list (list nat) := [[1; 3]; [1; 2]; [1; 3; n]].
Example C69_nonvacuous :
  wf_collection coll_ex /\ few_postings coll_ex /\ holds_collection coll_ex texts_ex /\ (forall A, std_heap (@sorting_heap A)) /\ sorts_by_size ce_ops sort_ce /\
  (forall q, In q (queries_b (length (terms coll_ex))) -> 2 <= length q /\ increasing q /\ Forall (fun x => 1 <= x <= length (terms coll_ex)) q /\ (universe coll_ex + 2) * (length q + 1) < 100) /\
  (exists b, bi_build_d 6 8 (f_inverted (files_of coll_ex)) = Ok b /\ xd_blocks b = [2; 4]) /\
  test_blocked 0 (@sorting_heap) sort_ce no_sort 100 queries_b (fun _ => [6]) 7 texts_ex = Ok true /\
  test_blocked 0 (@sorting_heap) sort_ce no_sort 100 (fun n => [[1; 2]; [3; n]]) (fun _ => [6; 100]) 7 texts_ex = Ok true.
Proof.
  destruct C69_test_refuted as (H1 & H2 & H3 & _). split; [exact H1|]. split; [exact H2|]. split; [exact H3|]. split; [exact (@sorting_heap_ok)|]. split; [exact sort_ce_ok|].
  split; [intros q [<-|[<-|[<-|[]]]]; cbn; repeat split; repeat constructor; lia|].
  split; [eexists; split; [vm_compute; reflexivity|reflexivity]|]. split; vm_compute; reflexivity.
Qed.

(** A generator that counts; five queries for four terms. *)
Definition count_draw (lo hi s : nat) : nat * nat := (lo + s mod (hi - lo + 1), s + 1).
Example C69_queries_nonvacuous :
  (forall lo hi s, lo <= hi -> lo <= fst (count_draw lo hi s) <= hi) /\
  exists s', gen_random_queries count_draw 10 5 3 4 0 = Ok ([[2; 3]; [1; 2; 3]; [1; 2; 3]; [1; 2; 3]; [1; 2; 3]], s').
Proof.
  split; [|eexists; vm_compute; reflexivity]. intros lo hi s H. cbn [fst count_draw]. pose proof (Nat.mod_upper_bound s (hi - lo + 1)). lia.
Qed.

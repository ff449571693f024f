(** Top-k searches and intersections on the structures an index builds. *)
From Coq Require Import Sorted Permutation.
From Verif Require Import Base M_Heap S_Heap P_Heap M_Iter S_Iter M_Trie M_TopK S_TopK P_TopK P_TopKDistinct M_Intersect S_Intersect P_Intersect M_Containers S_Containers P_Containers.
From Verif Require Import S_Order S_Completions S_Trie P_TrieFinal M_Auto M_Auto1 M_CompactEf M_Blocked M_Cart M_Real P_Real.
Local Open Scope nat_scope.

Lemma minimal_doc_ids_ok posts : Forall (fun l => l <> []) posts -> minimal_doc_ids posts = Ok (map (fun p => hd 0 p) posts).
Proof.
  unfold minimal_doc_ids. induction 1 as [|l ls H _ IH]; [reflexivity|]. cbn [map_res map].
  destruct l as [|x l]; [congruence|]. change (get (x :: l) 0) with (Ok x). cbn [bind]. rewrite IH. reflexivity.
Qed.

Section Real.
  Variable tail : N.
  Variable heap : forall A, heap_ops A.
  Variable sort : list ceit -> list ceit.
  Hypothesis Htail : (tail < 2 ^ 64)%N.
  Hypothesis Hheap : forall A, std_heap (heap A).
  Hypothesis Hsort : sorts_by_size ce_ops sort.
  Notation K := (real_containers tail heap sort).

  Lemma real_unsorted_topk l : (N.of_nat (length l) < 1073741823)%N -> Forall (fun x => (N.of_nat x < 4294967295)%N) l ->
    (exists x, In x l /\ 0 < x) ->
    exists ul, ulist_build K l = Ok ul /\
      forall k a b fuel topk, a <= b -> b <= length l -> 1 <= k -> k <= length topk -> b - a + 1 < fuel ->
      exists r topk', unsorted_topk (ul_acc ul) (ul_size ul) (ul_rmq ul) (heap _) k false fuel a b topk = Ok (r, topk') /\
        length topk' = length topk /\ r <= k /\ k_smallest k (segment l a b) (firstn r topk').
  Proof.
    intros H1 H2 H3. destruct (ulist_build_ok K (real_containers_ok tail heap sort Htail Hheap Hsort) l H1 H2 H3) as (ul & E & Ha & Hs & Hr).
    exists ul. split; [exact E|]. intros k a b fuel topk A B C D F. rewrite Hs.
    exact (unsorted_topk_ok (ul_acc ul) l (ul_rmq ul) Ha Hr (heap _) (Hheap _) k a b (length topk) D B fuel topk A C eq_refl F).
  Qed.

  Lemma real_trie cs docs : wf_completions cs -> length docs = length cs -> (N.of_nat (length cs) < 4294967295)%N ->
    exists ta t, trie_build (num_levels cs) (records docs cs) = Ok ta /\ ta_docs ta = docs /\ trie_store K ta = Ok t /\
    (forall prefix a b, Forall (fun x => (0 < x)%N) prefix -> (1 <= a <= b)%N ->
       exists r, trie_locate_prefix t prefix a b = Ok r /\
       match r with
       | Some (x, y) => exact_range_excl (length cs) (fun i => continues prefix a b (nth i cs [])) x y
       | None => forall i, i < length cs -> ~ continues prefix a b (nth i cs [])
       end) /\
    (forall c, Forall (fun x => (0 < x)%N) c ->
       exists r, trie_is_member t (terminated c) = Ok r /\ (r = true <-> In c cs)).
  Proof.
    intros Hwf Hd Hn. destruct (trie_spec cs docs Hwf Hd) as (ta & Et & Edocs & Hmono & Htrie).
    assert (Hfit : trie_fits ta).
    { rewrite (trie_build_eq cs Hwf docs Hd) in Et. injection Et as <-. apply trie_fits_ok; [apply Hwf|]. lia. }
    destruct (trie_store_ok K (real_containers_ok tail heap sort Htail Hheap Hsort) ta Hmono Hfit) as (t & Es & Hh).
    exists ta, t. split; [exact Et|]. split; [exact Edocs|]. split; [exact Es|]. exact (Htrie t Hh).
  Qed.

  Variable u : nat.
  Variable posts : list (list nat).
  Hypothesis Hu : (N.of_nat u < 4294967295)%N.
  Hypothesis Hne : posts <> [].
  Hypothesis Hposts : Forall (fun l => l <> [] /\ increasing l /\ Forall (fun x => x < u) l) posts.
  Hypothesis Htot : (N.of_nat (length (concat posts)) < 1099511627776)%N.

  Lemma real_lists : exists iterator at_, k_lists K u posts = Ok iterator /\ cursor ce_ops u at_ /\ opens at_ iterator posts.
  Proof. apply (ok_lists K (real_containers_ok tail heap sort Htail Hheap Hsort)); try assumption. lia. Qed.

  Lemma real_minimal_topk : (N.of_nat (length posts) < 1073741823)%N -> (exists p, In p posts /\ 0 < hd 0 p) ->
    exists iterator mins ul, k_lists K u posts = Ok iterator /\ minimal_doc_ids posts = Ok mins /\ ulist_build K mins = Ok ul /\
      forall k a b fuel topk, a < b -> b <= length posts -> 1 <= k -> k <= length topk -> length (concat posts) < fuel ->
      exists r topk', minimal_topk (ul_acc ul) (ul_size ul) (ul_rmq ul) ce_ops iterator (heap _) k fuel a b topk = Ok (r, topk') /\
        length topk' = length topk /\ r <= k /\
        k_smallest_distinct k (concat (firstn (b - a) (skipn a posts))) (firstn r topk').
  Proof.
    intros Hlen (p & Hp & Hp0). destruct real_lists as (iterator & at_ & E & Hc & Ho).
    destruct (ulist_build_ok K (real_containers_ok tail heap sort Htail Hheap Hsort) (map (fun p => hd 0 p) posts)) as (ul & E2 & Ha & Hs & Hr).
    - now rewrite map_length.
    - apply Forall_map. eapply Forall_impl; [|exact Hposts]. intros l (Hn & _ & Hl). destruct l as [|x l]; [congruence|]. inversion Hl; subst. cbn [hd]. lia.
    - exists (hd 0 p). split; [|assumption]. apply in_map_iff. now exists p.
    - exists iterator, (map (fun p => hd 0 p) posts), ul. split; [exact E|]. split; [apply minimal_doc_ids_ok; eapply Forall_impl; [|exact Hposts]; cbn; tauto|]. split; [exact E2|].
      intros k a b fuel topk A B C D F. rewrite Hs, map_length.
      exact (minimal_topk_spec ce_ops u at_ iterator posts (ul_acc ul) (ul_rmq ul) (heap _) k a b fuel topk Hc Ho (conj Ha Hr) (Hheap _) A B C D F).
  Qed.

  Lemma real_heap_topk :
    exists iterator, k_lists K u posts = Ok iterator /\
      forall k a b fuel topk, 1 <= a -> a <= b + 1 -> b <= length posts -> 1 <= k -> k <= length topk -> length (concat posts) < fuel ->
      exists r topk', heap_topk ce_ops iterator (heap _) k fuel a b topk = Ok (r, topk') /\
        length topk' = length topk /\ r <= k /\
        k_smallest_distinct k (concat (firstn (b + 1 - a) (skipn (a - 1) posts))) (firstn r topk').
  Proof.
    destruct real_lists as (iterator & at_ & E & Hc & Ho). exists iterator. split; [exact E|].
    intros k a b fuel topk A A' B C D F. exact (heap_topk_spec ce_ops u at_ iterator posts (heap _) k a b fuel topk Hc Ho (Hheap _) A A' B C D F).
  Qed.

  Lemma real_intersection :
    exists iterator, k_lists K u posts = Ok iterator /\
      (forall ids lists fuel r, ids <> [] -> Forall2 (fun id l => 0 < id /\ nth_error posts (id - 1) = Some l) ids lists ->
        (u + 1) * (length ids + 1) < fuel -> common lists r ->
        exists x, intersection ce_ops u iterator sort fuel ids = Ok x /\ yields (inter_stream ce_ops u fuel) x r) /\
      (forall t l, nth_error posts t = Some l -> exists it, iterator t = Ok it /\ yields (iter_stream ce_ops) it l).
  Proof.
    destruct real_lists as (iterator & at_ & E & Hc & Ho). exists iterator. split; [exact E|]. split.
    - intros ids lists fuel r A B C D. exact (intersection_ok ce_ops u at_ iterator posts sort ids lists fuel r Hc Ho Hsort A B C D).
    - intros t l Hl. exact (single_list_ok ce_ops u at_ iterator posts t l Hc Ho Hl).
  Qed.
End Real.

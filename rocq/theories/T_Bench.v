(** C51: the numbers that the benchmark programs report. *)
From Coq Require Import Sorted Permutation String.
From Verif Require Import Base S_Order S_Vocab S_Parse M_Heap S_Heap M_Iter M_Intersect S_Intersect M_Containers S_Containers M_Auto M_Auto1 S_Collection S_Index S_Room S_Found M_Auto2 S_Index2 M_Blocked S_Blocked S_Build.
From Verif Require Import M_Text M_Input S_Text S_Files M_Bits M_Cvec M_Darray M_EfSeq M_Fc M_CompactEf M_Real P_Real P_Auto1 P_Auto23 P_ListContainers P_Heap P_BlockFinal S_Json M_Web.
From Verif Require Import M_Stored M_Save P_Save P_Stored S_Save S_Python S_Prep M_Prep P_PrepEnd.
From Verif Require Import T_Auto1 T_Auto2 T_Auto4 T_Real T_Input T_Build T_End T_Save T_Exact T_Prep.
From Verif Require Import S_Bench M_Bench M_Tools P_Bench T_Loaded.
Local Open Scope nat_scope.

(** For an index whose answers to the requests satisfying [ok] are described by [A]: benchmark_prefix_topk and benchmark_conjunctive_topk report the number of
    queries and of results; effectiveness reports the number of results of prefix search, and how many results of conjunctive search are not among them. *)
Definition reports (A : request -> list (nat * list N) -> Prop) (ok : request -> Prop) (serve : list request -> res (list (list (nat * list N)))) : Prop :=
  (forall conj k queries, Forall ok (map (ask conj k) queries) ->
   exists answers, Forall2 A (map (ask conj k) queries) answers /\ benchmark serve conj k queries = Ok (List.length queries, list_sum (map (@List.length _) answers))) /\
  (forall k queries, k <> 0 -> Forall ok (map (ask false k) queries) -> Forall ok (map (ask true k) queries) ->
   exists pre con more, Forall2 A (map (ask false k) queries) pre /\ Forall2 A (map (ask true k) queries) con /\ gains pre con more /\
     effectiveness serve k queries = Ok (list_sum (map (@List.length _) pre), more)).
Lemma reports_ok (A : request -> list (nat * list N) -> Prop) (ok : request -> Prop) serve : (forall r o1 o2, A r o1 -> A r o2 -> o1 = o2) -> (forall r out, A r out -> StronglySorted lt (map fst out)) ->
  (forall r out, A r out -> rq_k r <> 0 -> List.length out <= rq_k r) ->
  (forall rs, Forall ok rs -> exists outs, serve rs = Ok outs /\ Forall2 A rs outs) -> reports A ok serve.
Proof.
  intros H1 H2 H3 H4. split.
  - intros conj k queries. exact (benchmark_ok A H1 serve ok H4 conj k queries).
  - intros k queries. exact (effectiveness_ok A H1 serve ok H4 H2 H3 k queries).
Qed.
Lemma found1_facts c : wf_collection c -> (forall r o1 o2, answer_found1 c r o1 -> answer_found1 c r o2 -> o1 = o2) /\
  (forall r out, answer_found1 c r out -> StronglySorted lt (map fst out)) /\ (forall r out, answer_found1 c r out -> rq_k r <> 0 -> List.length out <= rq_k r).
Proof.
  intros Hwf. split; [|split].
  - intros r o1 o2 (ts1 & l1 & S1 & A1) (ts2 & l2 & S2 & A2). destruct (P_Parse.query_split_det _ _ _ _ _ S1 S2) as (-> & ->). eapply P_Collection.answer_unique; eauto.
  - intros r out (ts & l & _ & A). exact (proj1 A).
  - intros r out (ts & l & _ & A) Hk. pose proof (proj1 (proj2 A)) as Hl. unfold limit in Hl. now destruct (Nat.eqb_spec (rq_k r) 0).
Qed.
Lemma found2_facts c : wf_collection c -> (forall r o1 o2, answer_found2 c r o1 -> answer_found2 c r o2 -> o1 = o2) /\
  (forall r out, answer_found2 c r out -> StronglySorted lt (map fst out)) /\ (forall r out, answer_found2 c r out -> rq_k r <> 0 -> List.length out <= rq_k r).
Proof.
  intros Hwf. split; [|split].
  - intros r o1 o2 (ts1 & l1 & S1 & A1) (ts2 & l2 & S2 & A2). destruct (P_Parse.query_split_det _ _ _ _ _ S1 S2) as (-> & ->). eapply P_Collection.answer_unique; eauto.
  - intros r out (ts & l & _ & A). exact (proj1 A).
  - intros r out (ts & l & _ & A) Hk. pose proof (proj1 (proj2 A)) as Hl. unfold limit in Hl. now destruct (Nat.eqb_spec (rq_k r) 0).
Qed.
(** The four index types, built from the files of any well-formed collection, saved, and loaded into any object. *)
Theorem C51_type1_partial : forall tail heap sort c t fuel junk fresh,
  (tail < 2 ^ 64)%N -> (forall A, std_heap (heap A)) -> sorts_by_size ce_ops sort ->
  wf_collection c -> small_dict c -> some_doc_positive c -> some_term_not_in_doc0 c ->
  holds_collection c t -> List.length (t_mapped t) < fuel -> query_fuel c < fuel ->
  exists file, build_tool ac1_build_d (visit_index1 fresh) true fuel junk t = Ok file /\
    forall old, reports (answer_found1 c) (any_request (reportable c) (answer_found1 c)) (serve1 tail heap sort fresh fuel old file).
Proof.
  intros tail heap sort c t fuel junk fresh H1 H2 H3 Hwf Hd Hp H0 Ht Hf Hq. destruct (found1_facts c Hwf) as (F1 & F2 & F3).
  destruct (C45_program1_any_partial tail heap sort c t fuel junk fresh [] H1 H2 H3 Hwf Hd Hp H0 Ht Hf Hq (Forall_nil _)) as (file & E & _).
  exists file. split; [exact E|]. intros old. apply reports_ok; auto. intros rs Hr.
  destruct (C45_program1_any_partial tail heap sort c t fuel junk fresh rs H1 H2 H3 Hwf Hd Hp H0 Ht Hf Hq Hr) as (file' & E' & H). assert (file' = file) as -> by congruence. exact (H old).
Qed.
Theorem C51_type2_partial : forall tail heap sort c t fuel junk,
  (tail < 2 ^ 64)%N -> (forall A, std_heap (heap A)) -> sorts_by_size ce_ops sort ->
  wf_collection c -> small_dict c -> some_kept_doc_positive c -> some_term_not_in_doc0 c ->
  holds_collection c t -> List.length (t_mapped t) < fuel -> query_fuel c < fuel ->
  exists file, build_tool ac2_build_d visit_index2 false fuel junk t = Ok file /\
    forall old, reports (answer_found2 c) (any_request2 c) (serve2 tail heap sort fuel old file).
Proof.
  intros tail heap sort c t fuel junk H1 H2 H3 Hwf Hd Hp H0 Ht Hf Hq. destruct (found2_facts c Hwf) as (F1 & F2 & F3).
  destruct (C45_program2_any_partial tail heap sort c t fuel junk [] H1 H2 H3 Hwf Hd Hp H0 Ht Hf Hq (Forall_nil _)) as (file & E & _).
  exists file. split; [exact E|]. intros old. apply reports_ok; auto. intros rs Hr.
  destruct (C45_program2_any_partial tail heap sort c t fuel junk rs H1 H2 H3 Hwf Hd Hp H0 Ht Hf Hq Hr) as (file' & E' & H). assert (file' = file) as -> by congruence. exact (H old).
Qed.
Theorem C51_type3_partial : forall tail heap sort c t fuel junk,
  (tail < 2 ^ 64)%N -> (forall A, std_heap (heap A)) -> sorts_by_size ce_ops sort ->
  wf_collection c -> small_dict c -> some_kept_doc_positive c ->
  holds_collection c t -> List.length (t_mapped t) < fuel -> query_fuel c < fuel ->
  exists file, build_tool ac3_build_d visit_index3 false fuel junk t = Ok file /\
    forall old, reports (answer_found2 c) (any_request (reportable2 c) (answer_found2 c)) (serve3 tail heap sort fuel old file).
Proof.
  intros tail heap sort c t fuel junk H1 H2 H3 Hwf Hd Hp Ht Hf Hq. destruct (found2_facts c Hwf) as (F1 & F2 & F3).
  destruct (C45_program3_any_partial tail heap sort c t fuel junk [] H1 H2 H3 Hwf Hd Hp Ht Hf Hq (Forall_nil _)) as (file & E & _).
  exists file. split; [exact E|]. intros old. apply reports_ok; auto. intros rs Hr.
  destruct (C45_program3_any_partial tail heap sort c t fuel junk rs H1 H2 H3 Hwf Hd Hp Ht Hf Hq Hr) as (file' & E' & H). assert (file' = file) as -> by congruence. exact (H old).
Qed.
(** Type 4: for the requests that it answers as the other types do (conjunctive queries may have other answers, F5 to F8). *)
Theorem C51_type4_partial : forall tail heap sort bsort c m t fuel junk,
  (tail < 2 ^ 64)%N -> (forall A, std_heap (heap A)) -> sorts_by_size ce_ops sort -> (forall A key l, Permutation (bsort A key l) l) ->
  wf_collection c -> small_dict c -> few_postings c -> some_kept_doc_positive c ->
  holds_collection c t -> List.length (t_mapped t) < fuel -> query_fuel c < fuel ->
  exists file bounds, build_tool (ac4_build_d m) visit_index4 false fuel junk t = Ok file /\ blocks_of (List.length (terms c)) bounds /\
    forall old, reports (answer_found2 c)
      (fun r => any_request (reportable2 c) (answer_found4 c bounds) r /\ forall out, answer_found4 c bounds r out -> answer_found2 c r out)
      (serve4 tail heap sort bsort fuel old file).
Proof.
  intros tail heap sort bsort c m t fuel junk H1 H2 H3 H4 Hwf Hd Hfew Hp Ht Hf Hq. destruct (found2_facts c Hwf) as (F1 & F2 & F3).
  destruct (C45_program4_any_partial tail heap sort bsort c m t fuel junk [] H1 H2 H3 H4 Hwf Hd Hfew Hp Ht Hf Hq) as (d & Ed & E & Hb & _).
  exists (save_file visit_index4 d), (xd_blocks (d4_inv d)). split; [exact E|]. split; [exact Hb|]. intros old. apply reports_ok; auto. intros rs Hr.
  destruct (C45_program4_any_partial tail heap sort bsort c m t fuel junk rs H1 H2 H3 H4 Hwf Hd Hfew Hp Ht Hf Hq) as (d' & Ed' & _ & _ & H).
  assert (d' = d) as -> by congruence. destruct (H (Forall_impl _ (fun r => @proj1 _ _) Hr) old) as (outs & Eo & Ho). exists outs. split; [exact Eo|].
  clear -Hr Ho. induction Ho as [|r o rs outs Ho _ IH]; [constructor|]. inversion Hr as [|? ? (_ & Hx) Hr']; subst. constructor; [now apply Hx|now apply IH].
Qed.

(** With k = 0 the vector for the difference has no memory (F38). *)
Theorem C51_k0_refuted : forall serve query con r, serve [ask false 0 query] = Ok [[]] -> serve [ask true 0 query] = Ok [r :: con] -> effectiveness serve 0 [query] = UB.
Proof. intros serve query con r E1 E2. unfold effectiveness. cbn [map]. rewrite E1. cbn [bind]. rewrite E2. cbn [bind]. destruct r as [d s]. reflexivity. Qed.

Definition all_bench := (C51_type1_partial, C51_type2_partial, C51_type3_partial, C51_type4_partial, C51_k0_refuted).
Print Assumptions all_bench.

(** Three queries on [coll_ex]: "a b" (2 results of prefix search, the same of conjunctive search and one more), "b" and "z". *)
Example C51_nonvacuous :
  let fresh := {| ef_l := 5; ef_high := {| v_size := 0; v_words := [] |}; ef_d1 := {| d_n := 0; d_blocks := []; d_subs := []; d_over := [] |};
                  ef_low := {| v_size := 0; v_words := [] |}; ef_size := 9 |} in
  let queries := [bytes "a b"; bytes "b"; bytes "z"] in
  [(do file <- build_tool ac1_build_d (visit_index1 fresh) true 200 7%N texts_ex; do old <- ac1_build_d (files_of coll_ex);
    let serve := serve1 0 sorting_heap sort_ce fresh 200 old file in do (n, s) <- benchmark serve true 4 queries; do (p, b) <- effectiveness serve 4 queries; Ok [n; s; p; b]);
   (do file <- build_tool ac3_build_d visit_index3 false 200 7%N texts_ex; do old <- ac3_build_d (files_of coll_ex);
    let serve := serve3 0 sorting_heap sort_ce 200 old file in do (n, s) <- benchmark serve true 4 queries; do (p, b) <- effectiveness serve 4 queries; Ok [n; s; p; b])] =
  [Ok [3; 7; 5; 3]; Ok [3; 7; 5; 3]].
Proof. vm_compute. reflexivity. Qed.

(** C59: a suggestion, taken as the query, is suggested again. The states [s] and [t] are arbitrary: any histories. *)
From Coq Require Import String.
From Verif Require Import Base S_Order S_Vocab S_Parse M_Heap M_Containers S_Containers M_Auto M_Auto1 S_Collection S_Index S_Found S_Build M_Auto2 S_Index2 M_Blocked S_Blocked S_Meta.
From Verif Require Import P_Heap P_Collection P_Auto1 P_Auto23 P_Auto4 P_ListContainers P_Meta P_Again S_Json.
From Verif Require Import T_Auto1 T_Auto2 T_Auto4 T_Build.
Local Open Scope nat_scope.

Theorem C59_type1 : forall K c, containers_ok K -> wf_collection c -> no_spaces c -> some_doc_positive c -> some_term_not_in_doc0 c ->
  exists x, ac1_build K (files_of c) = Ok x /\
    forall fuel r r' s t s' t' out out' d, query_fuel c < fuel -> state1_ok s -> state1_ok t ->
    ac1_request K x fuel r s = Ok s' -> pool_results (s1_pool s') = Ok out -> In (d, rq_text r') out ->
    ac1_request K x fuel r' t = Ok t' -> pool_results (s1_pool t') = Ok out' -> suggested (limit c (rq_k r')) out' d (rq_text r').
Proof.
  intros K c HK Hwf Hsp Hp H0. destruct (ask1 K HK c Hwf Hp H0) as (x & E & H). exists x. split; [exact E|].
  intros fuel r r' s t s' t' out out' d Hf Hs Ht E1 E2 Hin E3 E4.
  refine (again c Hwf Hsp res1 (found_for1 c r') (fun _ _ => reportable c) (fun _ _ => reportable c) (ac1_request K x fuel r) (ac1_request K x fuel r') state1_ok
    (rq_k r') (rq_text r) (rq_text r') _ _ _ _ s t s' t' out out' d Hs Ht E1 E2 E3 E4 Hin).
  - intros ts last s1 Hq Hs1. destruct (H fuel r ts last s1 Hf Hq Hs1) as (o & A & G). exists o. split; [exact (topk_texts c _ _ _ A)|exact G].
  - intros ts last s1 Hq Hs1. exact (H fuel r' ts last s1 Hf Hq Hs1).
  - intros ts last o A. apply A.
  - intros d0 ids ts' last' ts last o _ _ _ Ew Hk. now apply own1.
Qed.
Theorem C59_type2 : forall K c, containers_ok K -> wf_collection c -> no_spaces c -> some_kept_doc_positive c -> some_term_not_in_doc0 c ->
  exists x, ac2_build K (files_of c) = Ok x /\
    forall fuel r r' s t s' t' out out' d, query_fuel c < fuel -> state2_ok s -> state2_ok t ->
    ac2_request K x fuel r s = Ok s' -> pool_results (s2_pool s') = Ok out -> In (d, rq_text r') out ->
    ac2_request K x fuel r' t = Ok t' -> pool_results (s2_pool t') = Ok out' -> suggested (limit c (rq_k r')) out' d (rq_text r').
Proof.
  intros K c HK Hwf Hsp Hp H0. destruct (ask2 K HK c Hwf Hp H0) as (x & E & H). exists x. split; [exact E|].
  intros fuel r r' s t s' t' out out' d Hf Hs Ht E1 E2 Hin E3 E4.
  refine (again c Hwf Hsp res2 (found_for2 c r') (fun ts last o => reportable2 c o /\ ~ over c r ts last o) (fun ts last o => reportable2 c o /\ ~ over c r' ts last o)
    (ac2_request K x fuel r) (ac2_request K x fuel r') state2_ok (rq_k r') (rq_text r) (rq_text r') _ _ _ _ s t s' t' out out' d Hs Ht E1 E2 E3 E4 Hin).
  - intros ts last s1 Hq Hs1. destruct (H fuel r ts last s1 Hf Hq Hs1) as (o & A & G). exists o. split; [exact (topk_texts c _ _ _ A)|exact G].
  - intros ts last s1 Hq Hs1. exact (H fuel r' ts last s1 Hf Hq Hs1).
  - intros ts last o A. apply A.
  - intros d0 ids ts' last' ts last o Ho Hi Hd Ew Hk. apply (own2 c Hwf r' d0); auto.
    apply (retained_stored c o d0 (rq_text r')); [|exact Hi]. intros X. apply Ho. intros Y. apply X, Y.
Qed.
Theorem C59_type3 : forall K c, containers_ok K -> wf_collection c -> no_spaces c -> some_kept_doc_positive c ->
  exists x, ac3_build K (files_of c) = Ok x /\
    forall fuel r r' s t s' t' out out' d, query_fuel c < fuel -> state2_ok s -> state2_ok t ->
    ac3_request K x fuel r s = Ok s' -> pool_results (s2_pool s') = Ok out -> In (d, rq_text r') out ->
    ac3_request K x fuel r' t = Ok t' -> pool_results (s2_pool t') = Ok out' -> suggested (limit c (rq_k r')) out' d (rq_text r').
Proof.
  intros K c HK Hwf Hsp Hp. destruct (ask3 K HK c Hwf Hp) as (x & E & H). exists x. split; [exact E|].
  intros fuel r r' s t s' t' out out' d Hf Hs Ht E1 E2 Hin E3 E4.
  refine (again c Hwf Hsp res2 (found_for2 c r') (fun _ _ => reportable2 c) (fun _ _ => reportable2 c)
    (ac3_request K x fuel r) (ac3_request K x fuel r') state2_ok (rq_k r') (rq_text r) (rq_text r') _ _ _ _ s t s' t' out out' d Hs Ht E1 E2 E3 E4 Hin).
  - intros ts last s1 Hq Hs1. destruct (H fuel r ts last s1 Hf Hq Hs1) as (o & A & G). exists o. split; [exact (topk_texts c _ _ _ A)|exact G].
  - intros ts last s1 Hq Hs1. exact (H fuel r' ts last s1 Hf Hq Hs1).
  - intros ts last o A. apply A.
  - intros d0 ids ts' last' ts last o Ho Hi Hd Ew Hk. apply (own2 c Hwf r' d0); auto.
    apply (retained_stored c o d0 (rq_text r')); [|exact Hi]. intros X. apply Ho. intros Y. apply X, Y.
Qed.
(** An index of type 4: the suggestion may come from any search. Missing: conjunctive searches for it that are not answered exactly. *)
Theorem C59_type4_partial : forall (K : bcontainers) c m, bcontainers_ok K -> wf_collection c -> no_spaces c -> few_postings c -> some_kept_doc_positive c ->
  exists x, ac4_build K m (files_of c) = Ok x /\
    forall fuel r r' s t s' t' out out' d, query_fuel c < fuel -> state2_ok s -> state2_ok t ->
    (rq_conj r' = true -> 1 <= rq_k r' /\ forall ts last, query_split (rq_text r') ts last -> query_exact_by c (found c last) (bi_bounds K (a4_inverted x)) ts) ->
    ac4_request K x fuel r s = Ok s' -> pool_results (s2_pool s') = Ok out -> In (d, rq_text r') out ->
    ac4_request K x fuel r' t = Ok t' -> pool_results (s2_pool t') = Ok out' -> suggested (limit c (rq_k r')) out' d (rq_text r').
Proof.
  intros K c m HK Hwf Hsp Hfew Hp. destruct (ask4_texts K HK c Hwf Hfew m Hp) as (x & E & H). exists x. split; [exact E|].
  intros fuel r r' s t s' t' out out' d Hf Hs Ht Hx E1 E2 Hin E3 E4.
  refine (again c Hwf Hsp res2 (found_for2 c r') (fun _ _ => reportable2 c) (fun _ _ => reportable2 c)
    (ac4_request K x fuel r) (ac4_request K x fuel r') state2_ok (rq_k r') (rq_text r) (rq_text r') _ _ _ _ s t s' t' out out' d Hs Ht E1 E2 E3 E4 Hin).
  - exact (proj1 (H fuel r Hf)).
  - exact (proj2 (H fuel r' Hf) Hx).
  - intros ts last o A. apply A.
  - intros d0 ids ts' last' ts last o Ho Hi Hd Ew Hk. apply (own2 c Hwf r' d0); auto.
    apply (retained_stored c o d0 (rq_text r')); [|exact Hi]. intros X. apply Ho. intros Y. apply X, Y.
Qed.
Print Assumptions C59_type1.
Print Assumptions C59_type2.
Print Assumptions C59_type3.
Print Assumptions C59_type4_partial.

Example C59_nonvacuous :
  let ask b k q := {| rq_conj := b; rq_k := k; rq_text := bytes q |} in
  no_spaces coll_ex /\
  let rs b := [ask true 10 "b"; ask b 10 "b"; ask b 10 "a bc"; ask b 1 "b"]%string in
  let first := [(0, bytes "a bc"); (1, bytes "b de"); (2, bytes "bc a de"); (3, bytes "a b"); (7, bytes "b")] in
  let outs := Ok [first; [(1, bytes "b de"); (2, bytes "bc a de"); (7, bytes "b")]; [(0, bytes "a bc")]; [(1, bytes "b de")]] in
  run1 coll_ex (rs false) = outs /\ run2 coll_ex (rs false) = outs /\ run3 coll_ex (rs false) = outs /\
  suggested 10 first 0 (bytes "a bc") /\ suggested 1 [(1, bytes "b de")] 7 (bytes "b").
Proof.
  cbv zeta. split; [repeat constructor; discriminate|]. split; [vm_compute; reflexivity|]. split; [vm_compute; reflexivity|]. split; [vm_compute; reflexivity|].
  split; [left; now left|]. right. split; [reflexivity|]. repeat constructor.
Qed.

(** F5: with an index of type 4, conjunctive search for the suggestion "a bc" does not find it. *)
Theorem C59_type4_refuted :
  let ask b q := {| rq_conj := b; rq_k := 10; rq_text := bytes q |} in
  good coll_ex /\ no_spaces coll_ex /\
  run4 100 coll_ex [ask false "a"; ask true "a bc"]%string = Ok [[(0, bytes "a bc")]; [(2, bytes "bc a de")]].
Proof. cbv zeta. split; [exact coll_ex_good|]. split; [repeat constructor; discriminate|]. vm_compute. reflexivity. Qed.
(** Nothing keeps spaces out of the terms; the suggestion "b c" is then one term, but the query "b c" is two. *)
Theorem C59_spaces_refuted :
  let c := {| terms := map bytes ["a"; "b c"; "c"]%string; comps := [[1]; [2]; [3]]%N; docs := [0; 1; 2]; universe := 3 |} in
  let ask b q := {| rq_conj := b; rq_k := 10; rq_text := bytes q |} in
  good c /\ forall b, let rs := [ask b "b"; ask b "b c"]%string in let outs := Ok [[(1, bytes "b c")]; if b then [(2, bytes "c")] else []] in
  run1 c rs = outs /\ run2 c rs = outs /\ run3 c rs = outs /\ run4 100 c rs = outs.
Proof.
  cbv zeta. split.
  { split; [apply wf_collectionb_ok; reflexivity|]. split; [split; discriminate|]. split; [reflexivity|]. exists 1. cbn. auto. }
  intros b. destruct b; (split; [vm_compute; reflexivity|]); (split; [vm_compute; reflexivity|]); split; vm_compute; reflexivity.
Qed.

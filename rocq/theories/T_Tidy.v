(** C76: an answer lists its suggestions best first, no text twice, and every text is that of the completion with the doc id beside it. Every request that
    answers, whatever the query, k and the size of the collection; the state [s] is arbitrary: any history. The terms have no spaces (the scripts split at spaces). *)
From Coq Require Import String Sorted.
From Verif Require Import Base S_Order S_Vocab S_Parse M_Heap M_Containers S_Containers M_Auto M_Auto1 S_Collection S_Index S_Found S_Build M_Auto2 S_Index2 M_Blocked S_Blocked S_Meta S_Tidy.
From Verif Require Import P_Heap P_Collection P_Auto1 P_Auto23 P_Auto4 P_ListContainers P_Tidy S_Json.
From Verif Require Import T_Auto1 T_Auto2 T_Auto4 T_Build T_Blank.
Local Open Scope nat_scope.

Theorem C76_type1 : forall K c, containers_ok K -> wf_collection c -> no_spaces c -> some_doc_positive c -> some_term_not_in_doc0 c ->
  exists x, ac1_build K (files_of c) = Ok x /\
    forall fuel r s s' out, query_fuel c < fuel -> state1_ok s -> ac1_request K x fuel r s = Ok s' -> pool_results (s1_pool s') = Ok out -> tidy c out.
Proof. exact tidy1. Qed.
Theorem C76_type2 : forall K c, containers_ok K -> wf_collection c -> no_spaces c -> some_kept_doc_positive c -> some_term_not_in_doc0 c ->
  exists x, ac2_build K (files_of c) = Ok x /\
    forall fuel r s s' out, query_fuel c < fuel -> state2_ok s -> ac2_request K x fuel r s = Ok s' -> pool_results (s2_pool s') = Ok out -> tidy c out.
Proof. exact tidy2. Qed.
Theorem C76_type3 : forall K c, containers_ok K -> wf_collection c -> no_spaces c -> some_kept_doc_positive c ->
  exists x, ac3_build K (files_of c) = Ok x /\
    forall fuel r s s' out, query_fuel c < fuel -> state2_ok s -> ac3_request K x fuel r s = Ok s' -> pool_results (s2_pool s') = Ok out -> tidy c out.
Proof. exact tidy3. Qed.
(** Type 4: the texts are right in every answer. Missing: order and no repetition for the conjunctive searches that the index does not answer exactly (F7). *)
Theorem C76_type4_partial : forall (K : bcontainers) c m, bcontainers_ok K -> wf_collection c -> no_spaces c -> few_postings c -> some_kept_doc_positive c ->
  exists x, ac4_build K m (files_of c) = Ok x /\
    forall fuel r s s' out, query_fuel c < fuel -> state2_ok s -> ac4_request K x fuel r s = Ok s' -> pool_results (s2_pool s') = Ok out ->
    (forall d y, In (d, y) out -> exists ids, is_doc c d ids /\ y = text c ids) /\
    ((rq_conj r = true -> 1 <= rq_k r /\ forall ts last, query_split (rq_text r) ts last -> query_exact_by c (found c last) (bi_bounds K (a4_inverted x)) ts) -> tidy c out).
Proof. exact tidy4. Qed.
Definition all_tidy := (C76_type1, C76_type2, C76_type3, C76_type4_partial).
Print Assumptions all_tidy.

(** [coll_ex] meets the hypotheses; its answer to "b". *)
Example C76_nonvacuous :
  let r := {| rq_conj := true; rq_k := 10; rq_text := bytes "b" |} in
  let out := [(0, bytes "a bc"); (1, bytes "b de"); (2, bytes "bc a de"); (3, bytes "a b"); (7, bytes "b")] in
  good coll_ex /\ no_spaces coll_ex /\ some_term_not_in_doc0 coll_ex /\
  run1 coll_ex [r] = Ok [out] /\ run2 coll_ex [r] = Ok [out] /\ run3 coll_ex [r] = Ok [out].
Proof.
  cbv zeta. split; [exact coll_ex_good|]. split; [vm_compute; repeat constructor; discriminate|].
  split; [exists 2; split; [cbn; lia|]; intros H; vm_compute in H; repeat (destruct H as [H|H]; try discriminate H); exact H|].
  repeat (split; [vm_compute; reflexivity|]). vm_compute. reflexivity.
Qed.

(** F7: conjunctive search with type 4 lists "a bc", "bc a de" and "a b" twice. *)
Theorem C76_type4_refuted :
  good coll_ex /\ no_spaces coll_ex /\
  exists out, run4 1 coll_ex [{| rq_conj := true; rq_k := 10; rq_text := [] |}] = Ok [out] /\ ~ NoDup (map snd out) /\ ~ tidy coll_ex out.
Proof.
  split; [exact coll_ex_good|]. split; [vm_compute; repeat constructor; discriminate|]. eexists. split; [vm_compute; reflexivity|].
  match goal with |- ~ NoDup ?l /\ _ => assert (N : ~ NoDup l) end.
  { intros H. inversion H as [|? ? X _]; subst. apply X. now left. }
  split; [exact N|]. intros [_ H _]. exact (N H).
Qed.
Print Assumptions C76_type4_refuted.

(** Without the condition on spaces two completions can look the same: the term "a b", and the terms "a" and "b". *)
Definition coll_look : collection := {| terms := map bytes ["a"; "a b"; "b"]%string; comps := [[1]; [1; 3]; [2]]%N; docs := [2; 1; 0]; universe := 3 |}.
Theorem C76_spaces_refuted :
  wf_collection coll_look /\ sizes_ok2 coll_look /\ some_doc_positive coll_look /\ some_term_not_in_doc0 coll_look /\
  run1 coll_look [{| rq_conj := false; rq_k := 10; rq_text := bytes "a" |}] = Ok [[(0, bytes "a b"); (1, bytes "a b"); (2, bytes "a")]].
Proof.
  split; [apply wf_collectionb_ok; reflexivity|]. split; [split; discriminate|]. split; [exists 1; cbn; auto|].
  split; [exists 1; split; [cbn; lia|]; intros H; vm_compute in H; repeat (destruct H as [H|H]; try discriminate H); exact H|]. vm_compute. reflexivity.
Qed.
Print Assumptions C76_spaces_refuted.

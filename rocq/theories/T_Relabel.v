(** C72: only the order of the doc ids (scores) matters. If the completions get other doc ids in the same order, every request gets the same answer, with the
    other doc ids; and goes wrong (F10, F13, F23) with the one index if and only if it does with the other. The states [s] and [t] are arbitrary: any histories.
    The conditions on both collections are those under which an index can be built (C43, F11). *)
From Coq Require Import String.
From Verif Require Import Base S_Order S_Vocab S_Parse M_Heap M_Containers S_Containers M_Auto M_Auto1 S_Collection S_Index S_Found S_Build M_Auto2 S_Index2 M_Blocked S_Blocked S_Relabel.
From Verif Require Import P_Heap P_Collection P_Auto1 P_Auto23 P_Auto4 P_ListContainers P_Relabel S_Json.
From Verif Require Import T_Auto1 T_Auto2 T_Auto4 T_Build.
Local Open Scope nat_scope.

Theorem C72_type1 : forall K f c c', containers_ok K -> wf_collection c -> wf_collection c' -> relabelled f c c' ->
  some_doc_positive c -> some_term_not_in_doc0 c -> some_doc_positive c' -> some_term_not_in_doc0 c' ->
  exists x x', ac1_build K (files_of c) = Ok x /\ ac1_build K (files_of c') = Ok x' /\
    forall fuel r s t, query_fuel c < fuel -> query_fuel c' < fuel -> state1_ok s -> state1_ok t ->
    same_answers f (fun s => pool_results (s1_pool s)) (ac1_request K x fuel r s) (ac1_request K x' fuel r t).
Proof. exact relabel1. Qed.
Theorem C72_type2 : forall K f c c', containers_ok K -> wf_collection c -> wf_collection c' -> relabelled f c c' ->
  some_kept_doc_positive c -> some_term_not_in_doc0 c -> some_kept_doc_positive c' -> some_term_not_in_doc0 c' ->
  exists x x', ac2_build K (files_of c) = Ok x /\ ac2_build K (files_of c') = Ok x' /\
    forall fuel r s t, query_fuel c < fuel -> query_fuel c' < fuel -> state2_ok s -> state2_ok t ->
    same_answers f (fun s => pool_results (s2_pool s)) (ac2_request K x fuel r s) (ac2_request K x' fuel r t).
Proof. exact relabel2. Qed.
Theorem C72_type3 : forall K f c c', containers_ok K -> wf_collection c -> wf_collection c' -> relabelled f c c' ->
  some_kept_doc_positive c -> some_kept_doc_positive c' ->
  exists x x', ac3_build K (files_of c) = Ok x /\ ac3_build K (files_of c') = Ok x' /\
    forall fuel r s t, query_fuel c < fuel -> query_fuel c' < fuel -> state2_ok s -> state2_ok t ->
    same_answers f (fun s => pool_results (s2_pool s)) (ac3_request K x fuel r s) (ac3_request K x' fuel r t).
Proof. exact relabel3. Qed.
(** Type 4: prefix searches, and conjunctive searches that both indexes answer exactly. Missing: the other conjunctive searches (F5). *)
Theorem C72_type4_partial : forall (K : bcontainers) f c c' m, bcontainers_ok K -> wf_collection c -> wf_collection c' -> relabelled f c c' ->
  few_postings c -> few_postings c' -> some_kept_doc_positive c -> some_kept_doc_positive c' ->
  exists x x', ac4_build K m (files_of c) = Ok x /\ ac4_build K m (files_of c') = Ok x' /\
    forall fuel r s t, query_fuel c < fuel -> query_fuel c' < fuel -> state2_ok s -> state2_ok t ->
    (rq_conj r = true -> 1 <= rq_k r /\ forall ts last, query_split (rq_text r) ts last ->
      query_exact_by c (found c last) (bi_bounds K (a4_inverted x)) ts /\ query_exact_by c' (found c' last) (bi_bounds K (a4_inverted x')) ts) ->
    same_answers f (fun s => pool_results (s2_pool s)) (ac4_request K x fuel r s) (ac4_request K x' fuel r t).
Proof. exact relabel4. Qed.
Definition all_relabel := (C72_type1, C72_type2, C72_type3, C72_type4_partial).
Print Assumptions all_relabel.

(** [coll_ex] with doc ids far apart. *)
Definition coll_far : collection := {| terms := terms coll_ex; comps := comps coll_ex; docs := [13; 4; 90; 8; 11; 40]; universe := 120 |}.
Definition far (d : nat) : nat := nth d [4; 8; 11; 13; 0; 40; 0; 90] 0.
Example C72_nonvacuous :
  let ask b k q := {| rq_conj := b; rq_k := k; rq_text := bytes q |} in
  good coll_ex /\ good coll_far /\ relabelled far coll_ex coll_far /\ some_term_not_in_doc0 coll_ex /\ some_term_not_in_doc0 coll_far /\
  let rs := [ask false 10 "a b"; ask true 2 "b"; ask false 0 "b"]%string in
  let outs f := Ok [relabel f [(0, bytes "a bc"); (3, bytes "a b")]; relabel f [(0, bytes "a bc"); (1, bytes "b de")]; relabel f [(1, bytes "b de"); (2, bytes "bc a de"); (7, bytes "b")]] in
  run1 coll_ex rs = outs (fun d => d) /\ run2 coll_ex rs = outs (fun d => d) /\ run3 coll_ex rs = outs (fun d => d) /\
  run1 coll_far rs = outs far /\ run2 coll_far rs = outs far /\ run3 coll_far rs = outs far.
Proof.
  cbv zeta. split; [exact coll_ex_good|].
  split; [split; [apply wf_collectionb_ok; vm_compute; reflexivity|]; split; [split; discriminate|]; split; [reflexivity|]; exists 13; split; [now left|lia]|].
  split.
  { split; [reflexivity|reflexivity|reflexivity|]. intros d e Hd He L. cbn [coll_ex docs In] in Hd, He.
    repeat (destruct Hd as [<-|Hd]; [repeat (destruct He as [<-|He]; [first [exfalso; lia|unfold far; cbn [nth]; lia]|]); destruct He|]). destruct Hd. }
  split; [exists 2; split; [cbn; lia|]; intros H; vm_compute in H; repeat (destruct H as [H|H]; try discriminate H); exact H|].
  split; [exists 2; split; [cbn; lia|]; intros H; vm_compute in H; repeat (destruct H as [H|H]; try discriminate H); exact H|].
  repeat (split; [vm_compute; reflexivity|]). vm_compute. reflexivity.
Qed.

(** F11: the doc id 0 is not like the others. The completions "a" and "a b" can be indexed with the doc ids 2 and 1, but not with 1 and 0. *)
Theorem C72_doc0_refuted :
  let c := {| terms := terms coll_all0; comps := comps coll_all0; docs := [2; 1]; universe := 3 |} in
  wf_collection c /\ wf_collection coll_all0 /\ sizes_ok2 c /\ relabelled (fun d => d - 1) c coll_all0 /\
  (exists x, ac1_build list_containers (files_of c) = Ok x) /\ ac1_build list_containers (files_of coll_all0) = Exn /\
  (exists x, ac2_build list_containers (files_of c) = Ok x) /\ ac2_build list_containers (files_of coll_all0) = Exn.
Proof.
  cbv zeta. split; [apply wf_collectionb_ok; reflexivity|]. split; [apply wf_collectionb_ok; reflexivity|]. split; [split; discriminate|].
  split; [split; [reflexivity|reflexivity|reflexivity|]; intros d e Hd He L; cbn in Hd, He; lia|].
  split; [eexists; vm_compute; reflexivity|]. split; [vm_compute; reflexivity|]. split; [eexists; vm_compute; reflexivity|]. vm_compute. reflexivity.
Qed.
Print Assumptions C72_doc0_refuted.

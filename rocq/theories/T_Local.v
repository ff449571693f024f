(** C77: what a query answers depends on the completions that match it only. Two collections with the same matching completions (and scores) give the same answer,
    whatever else they contain. The states [s] and [t] are arbitrary: any histories. The cases of F1, F2 and F23 are excluded; the answer is claimed where both indexes
    answer (the room needed in the result buffer depends on the other words, F13). *)
From Coq Require Import String.
From Verif Require Import Base S_Order S_Vocab S_Parse M_Heap M_Containers S_Containers M_Auto M_Auto1 S_Collection S_Index S_Found S_Build M_Auto2 S_Index2 M_Blocked S_Blocked S_Local.
From Verif Require Import P_Heap P_Parse P_Collection P_Auto1 P_Auto23 P_Auto4 P_ListContainers P_Local S_Json.
From Verif Require Import T_Auto1 T_Auto2 T_Auto4 T_Build.
Local Open Scope nat_scope.

(** Missing in the first three: the requests that concern the first term (F1) or the first completion (F2), and collections of the sizes of F23. *)
Theorem C77_type1_partial : forall K c c', containers_ok K -> wf_collection c -> wf_collection c' -> sizes_ok c -> sizes_ok c' ->
  some_doc_positive c -> some_term_not_in_doc0 c -> some_doc_positive c' -> some_term_not_in_doc0 c' ->
  exists x x', ac1_build K (files_of c) = Ok x /\ ac1_build K (files_of c') = Ok x' /\
    forall fuel r s t s' t' out out', query_fuel c < fuel -> query_fuel c' < fuel -> state1_ok s -> state1_ok t ->
    same_matches r c c' -> no_first_term c r -> no_first_term c' r ->
    ac1_request K x fuel r s = Ok s' -> pool_results (s1_pool s') = Ok out ->
    ac1_request K x' fuel r t = Ok t' -> pool_results (s1_pool t') = Ok out' -> out = out'.
Proof. exact local1. Qed.
Theorem C77_type2_partial : forall K c c', containers_ok K -> wf_collection c -> wf_collection c' -> sizes_ok2 c -> sizes_ok2 c' ->
  some_kept_doc_positive c -> some_term_not_in_doc0 c -> some_kept_doc_positive c' -> some_term_not_in_doc0 c' ->
  exists x x', ac2_build K (files_of c) = Ok x /\ ac2_build K (files_of c') = Ok x' /\
    forall fuel r s t s' t' out out', query_fuel c < fuel -> query_fuel c' < fuel -> state2_ok s -> state2_ok t ->
    same_matches r c c' -> no_first_term c r -> no_first_term c' r -> no_first_completion c r -> no_first_completion c' r ->
    ac2_request K x fuel r s = Ok s' -> pool_results (s2_pool s') = Ok out ->
    ac2_request K x' fuel r t = Ok t' -> pool_results (s2_pool t') = Ok out' -> out = out'.
Proof. exact local2. Qed.
Theorem C77_type3_partial : forall K c c', containers_ok K -> wf_collection c -> wf_collection c' -> sizes_ok2 c -> sizes_ok2 c' ->
  some_kept_doc_positive c -> some_kept_doc_positive c' ->
  exists x x', ac3_build K (files_of c) = Ok x /\ ac3_build K (files_of c') = Ok x' /\
    forall fuel r s t s' t' out out', query_fuel c < fuel -> query_fuel c' < fuel -> state2_ok s -> state2_ok t ->
    same_matches r c c' -> no_first_term c r -> no_first_term c' r -> no_first_completion c r -> no_first_completion c' r ->
    ac3_request K x fuel r s = Ok s' -> pool_results (s2_pool s') = Ok out ->
    ac3_request K x' fuel r t = Ok t' -> pool_results (s2_pool t') = Ok out' -> out = out'.
Proof. exact local3. Qed.
(** Type 4, also with different blocks (m and m'): prefix searches, and conjunctive searches that both indexes answer exactly. Missing: the other conjunctive searches (F5). *)
Theorem C77_type4_partial : forall (K : bcontainers) c c' m m', bcontainers_ok K -> wf_collection c -> wf_collection c' -> sizes_ok2 c -> sizes_ok2 c' ->
  few_postings c -> few_postings c' -> some_kept_doc_positive c -> some_kept_doc_positive c' ->
  exists x x', ac4_build K m (files_of c) = Ok x /\ ac4_build K m' (files_of c') = Ok x' /\
    forall fuel r s t s' t' out out', query_fuel c < fuel -> query_fuel c' < fuel -> state2_ok s -> state2_ok t ->
    same_matches r c c' -> no_first_term c r -> no_first_term c' r -> no_first_completion c r -> no_first_completion c' r ->
    (rq_conj r = true -> 1 <= rq_k r /\ forall ts last, query_split (rq_text r) ts last ->
      query_exact_by c (found c last) (bi_bounds K (a4_inverted x)) ts /\ query_exact_by c' (found c' last) (bi_bounds K (a4_inverted x')) ts) ->
    ac4_request K x fuel r s = Ok s' -> pool_results (s2_pool s') = Ok out ->
    ac4_request K x' fuel r t = Ok t' -> pool_results (s2_pool t') = Ok out' -> out = out'.
Proof. exact local4. Qed.
Definition all_local := (C77_type1_partial, C77_type2_partial, C77_type3_partial, C77_type4_partial).
Print Assumptions all_local.

(** [coll_ex] with "c a" instead of "de". *)
Definition coll_other : collection := {| terms := map bytes ["a"; "b"; "bc"; "c"; "de"]%string;
  comps := [[1; 2]; [1; 3]; [2]; [2; 5]; [3; 1; 5]; [4; 1]]%N; docs := [3; 0; 7; 1; 2; 4]; universe := 20 |}.
Lemma split_b : query_split (bytes "b") [] (bytes "b").
Proof. exists []. repeat split; repeat constructor; discriminate. Qed.
Example C77_nonvacuous :
  let ask b k := {| rq_conj := b; rq_k := k; rq_text := bytes "b" |} in
  good coll_ex /\ good coll_other /\ some_term_not_in_doc0 coll_ex /\ some_term_not_in_doc0 coll_other /\
  (forall b k, same_matches (ask b k) coll_ex coll_other /\
    no_first_term coll_ex (ask b k) /\ no_first_term coll_other (ask b k) /\ no_first_completion coll_ex (ask b k) /\ no_first_completion coll_other (ask b k)) /\
  let rs := [ask false 10; ask true 2; ask false 0] in
  let outs := Ok [[(1, bytes "b de"); (2, bytes "bc a de"); (7, bytes "b")]; [(0, bytes "a bc"); (1, bytes "b de")]; [(1, bytes "b de"); (2, bytes "bc a de"); (7, bytes "b")]] in
  run1 coll_ex rs = outs /\ run2 coll_ex rs = outs /\ run3 coll_ex rs = outs /\
  run1 coll_other rs = outs /\ run2 coll_other rs = outs /\ run3 coll_other rs = outs.
Proof.
  cbv zeta. split; [exact coll_ex_good|].
  split; [split; [apply wf_collectionb_ok; vm_compute; reflexivity|]; split; [split; discriminate|]; split; [reflexivity|]; exists 3; split; [now left|lia]|].
  split; [exists 2; split; [cbn; lia|]; intros H; vm_compute in H; repeat (destruct H as [H|H]; try discriminate H); exact H|].
  split; [exists 2; split; [cbn; lia|]; intros H; vm_compute in H; repeat (destruct H as [H|H]; try discriminate H); exact H|].
  split.
  { intros b k. split; [apply (same_matchesl _ _ _ [] (bytes "b")); [exact split_b|destruct b; vm_compute; reflexivity]|].
    assert (U : forall ts last, query_split (bytes "b") ts last -> ts = [] /\ last = bytes "b") by (intros ts last Hq; destruct (query_split_det _ _ _ _ _ split_b Hq) as [<- <-]; split; reflexivity).
    split; [|split; [|split]].
    - intros ts last Hq. apply U in Hq. destruct Hq as [-> ->]. intros _ (t & E). discriminate E.
    - intros ts last Hq. apply U in Hq. destruct Hq as [-> ->]. intros _ (t & E). discriminate E.
    - intros _ ts last Hq. apply U in Hq. destruct Hq as [-> ->]. intros w rest E (t & Et). rewrite Et in E. discriminate E.
    - intros _ ts last Hq. apply U in Hq. destruct Hq as [-> ->]. intros w rest E (t & Et). rewrite Et in E. discriminate E. }
  repeat (split; [vm_compute; reflexivity|]). vm_compute. reflexivity.
Qed.

(** F1: "ab" is not found for "a", unless there is an unrelated completion before it in the dictionary. F2: the first completion "b a" is found for "b" only with an
    unrelated completion before it. *)
Definition coll_ab : collection := {| terms := map bytes ["ab"; "b"]%string; comps := [[1]; [2]]%N; docs := [1; 0]; universe := 2 |}.
Definition coll_Aab : collection := {| terms := map bytes ["A"; "ab"; "b"]%string; comps := [[1]; [2]; [3]]%N; docs := [2; 1; 0]; universe := 3 |}.
Definition coll_ba : collection := {| terms := map bytes ["a"; "b"]%string; comps := [[2; 1]; [2; 2]]%N; docs := [1; 0]; universe := 2 |}.
Definition coll_aba : collection := {| terms := map bytes ["a"; "b"]%string; comps := [[1]; [2; 1]; [2; 2]]%N; docs := [2; 1; 0]; universe := 3 |}.
Theorem C77_first_refuted :
  let ra := {| rq_conj := false; rq_k := 10; rq_text := bytes "a" |} in let rb := {| rq_conj := false; rq_k := 10; rq_text := bytes "b" |} in
  (good coll_ab /\ good coll_Aab /\ same_matches ra coll_ab coll_Aab /\
   run1 coll_ab [ra] = Ok [[]] /\ run2 coll_ab [ra] = Ok [[]] /\ run3 coll_ab [ra] = Ok [[]] /\
   let out := Ok [[(1, bytes "ab")]] in run1 coll_Aab [ra] = out /\ run2 coll_Aab [ra] = out /\ run3 coll_Aab [ra] = out) /\
  (good coll_ba /\ good coll_aba /\ same_matches rb coll_ba coll_aba /\
   run2 coll_ba [rb] = Ok [[(0, bytes "b b")]] /\ run3 coll_ba [rb] = Ok [[(0, bytes "b b")]] /\
   let out := Ok [[(0, bytes "b b"); (1, bytes "b a")]] in run2 coll_aba [rb] = out /\ run3 coll_aba [rb] = out).
Proof.
  assert (split_a : query_split (bytes "a") [] (bytes "a")) by (exists []; repeat split; repeat constructor; discriminate).
  cbv zeta. split.
  - split; [split; [apply wf_collectionb_ok; reflexivity|]; split; [split; discriminate|]; split; [reflexivity|]; exists 1; cbn; auto|].
    split; [split; [apply wf_collectionb_ok; reflexivity|]; split; [split; discriminate|]; split; [reflexivity|]; exists 1; cbn; auto|].
    split; [apply (same_matchesl _ _ _ [] (bytes "a")); [exact split_a|vm_compute; reflexivity]|].
    repeat (split; [vm_compute; reflexivity|]). vm_compute. reflexivity.
  - split; [split; [apply wf_collectionb_ok; reflexivity|]; split; [split; discriminate|]; split; [reflexivity|]; exists 1; cbn; auto|].
    split; [split; [apply wf_collectionb_ok; reflexivity|]; split; [split; discriminate|]; split; [reflexivity|]; exists 1; cbn; auto|].
    split; [apply (same_matchesl _ _ _ [] (bytes "b")); [exact split_b|vm_compute; reflexivity]|].
    repeat (split; [vm_compute; reflexivity|]). vm_compute. reflexivity.
Qed.
Print Assumptions C77_first_refuted.

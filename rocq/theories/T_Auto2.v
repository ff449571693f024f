(** C03, C04, C06, C07, C08, C34, C37: ef_autocomplete_type2 and ef_autocomplete_type3. *)
From Verif Require Import Base S_Order P_Order S_Vocab S_Completions S_Parse S_Iter M_Containers S_Containers M_Auto M_Auto1 S_Collection S_Index.
From Verif Require Import M_Auto2 S_Index2 P_Collection P_Auto1 P_Core2 P_Auto2 P_Auto23 P_Extract P_ListContainers T_Auto1.

(** C03: conjunctive search with type 2. Excluded: F1, F11, F13, F23, k = 0 and k > 15. *)
Theorem C03_conjunctive_topk_partial : forall K c,
  containers_ok K -> wf_collection c -> sizes_ok2 c -> some_doc_positive c -> some_term_not_in_doc0 c ->
  exists x, ac2_build K (files_of c) = Ok x /\
    forall fuel k q ts last s,
    query_fuel c < fuel -> 1 <= k <= MAX_K -> query_split q ts last -> first_term_ok c last -> state2_ok s ->
    exists out, topk_answer c (conj_match c ts last) k out /\
      (fits_pool out ->
       exists s', ac2_conjunctive_topk K x fuel k q s = Ok s' /\ pool_results (s2_pool s') = Ok out /\ state2_ok s').
Proof.
  intros K c HK Hwf H17 Hp H0. destruct (auto2_spec K HK c Hwf H17 Hp H0) as (x & E & H). exists x. split; [exact E|].
  intros fuel k q ts last s A1 A2 A4 A5 A6. exact (proj2 (H fuel k q ts last A1 A2 A4 A5) s A6).
Qed.
Print Assumptions C03_conjunctive_topk_partial.

(** C04: conjunctive search with type 3. *)
Theorem C04_conjunctive_topk_partial : forall K c,
  containers_ok K -> wf_collection c -> sizes_ok2 c -> some_doc_positive c ->
  exists x, ac3_build K (files_of c) = Ok x /\
    forall fuel k q ts last s,
    query_fuel c < fuel -> 1 <= k <= MAX_K -> query_split q ts last -> first_term_ok c last -> state2_ok s ->
    exists out, topk_answer c (conj_match c ts last) k out /\
      (fits_pool out ->
       exists s', ac3_conjunctive_topk K x fuel k q s = Ok s' /\ pool_results (s2_pool s') = Ok out /\ state2_ok s').
Proof.
  intros K c HK Hwf H17 Hp. destruct (auto3_spec K HK c Hwf H17 Hp) as (x & E & H). exists x. split; [exact E|].
  intros fuel k q ts last s A1 A2 A4 A5 A6. exact (proj2 (H fuel k q ts last A1 A2 A4 A5) s A6).
Qed.
Print Assumptions C04_conjunctive_topk_partial.

(** C06: prefix search with types 2 and 3. Excluded as above, and F2 ([first_completion_ok]). *)
Theorem C06_type2_prefix_topk_partial : forall K c,
  containers_ok K -> wf_collection c -> sizes_ok2 c -> some_doc_positive c -> some_term_not_in_doc0 c ->
  exists x, ac2_build K (files_of c) = Ok x /\
    forall fuel k q ts last s,
    query_fuel c < fuel -> 1 <= k <= MAX_K -> query_split q ts last -> first_term_ok c last ->
    first_completion_ok c ts last -> state2_ok s ->
    exists out, topk_answer c (prefix_match ts last) k out /\
      (fits_pool out ->
       exists s', ac2_prefix_topk K x fuel k q s = Ok s' /\ pool_results (s2_pool s') = Ok out /\ state2_ok s').
Proof.
  intros K c HK Hwf H17 Hp H0. destruct (auto2_spec K HK c Hwf H17 Hp H0) as (x & E & H). exists x. split; [exact E|].
  intros fuel k q ts last s A1 A2 A4 A5 A6 A7. exact (proj1 (H fuel k q ts last A1 A2 A4 A5) A6 s A7).
Qed.
Print Assumptions C06_type2_prefix_topk_partial.

Theorem C06_type3_prefix_topk_partial : forall K c,
  containers_ok K -> wf_collection c -> sizes_ok2 c -> some_doc_positive c ->
  exists x, ac3_build K (files_of c) = Ok x /\
    forall fuel k q ts last s,
    query_fuel c < fuel -> 1 <= k <= MAX_K -> query_split q ts last -> first_term_ok c last ->
    first_completion_ok c ts last -> state2_ok s ->
    exists out, topk_answer c (prefix_match ts last) k out /\
      (fits_pool out ->
       exists s', ac3_prefix_topk K x fuel k q s = Ok s' /\ pool_results (s2_pool s') = Ok out /\ state2_ok s').
Proof.
  intros K c HK Hwf H17 Hp. destruct (auto3_spec K HK c Hwf H17 Hp) as (x & E & H). exists x. split; [exact E|].
  intros fuel k q ts last s A1 A2 A4 A5 A6 A7. exact (proj1 (H fuel k q ts last A1 A2 A4 A5) A6 s A7).
Qed.
Print Assumptions C06_type3_prefix_topk_partial.

(** C37 for types 2 and 3. *)
Theorem C37_type2_session_partial : forall K c,
  containers_ok K -> wf_collection c -> sizes_ok2 c -> some_doc_positive c -> some_term_not_in_doc0 c ->
  exists x, ac2_build K (files_of c) = Ok x /\ state2_ok state2_new /\
    forall fuel rs s, query_fuel c < fuel -> state2_ok s -> Forall (request_ok2 c) rs ->
    exists outs s', session (ac2_request K x fuel) (fun s => pool_results (s2_pool s)) rs s = Ok (outs, s') /\
      Forall2 (answer_to c) rs outs /\ state2_ok s'.
Proof.
  intros K c HK Hwf H17 Hp H0. destruct (auto2_session K HK c Hwf H17 Hp H0) as (x & E & H). exists x.
  split; [exact E|]. split; [exact state2_new_ok|exact H].
Qed.
Print Assumptions C37_type2_session_partial.

Theorem C37_type3_session_partial : forall K c,
  containers_ok K -> wf_collection c -> sizes_ok2 c -> some_doc_positive c ->
  exists x, ac3_build K (files_of c) = Ok x /\ state2_ok state2_new /\
    forall fuel rs s, query_fuel c < fuel -> state2_ok s -> Forall (request_ok2 c) rs ->
    exists outs s', session (ac3_request K x fuel) (fun s => pool_results (s2_pool s)) rs s = Ok (outs, s') /\
      Forall2 (answer_to c) rs outs /\ state2_ok s'.
Proof.
  intros K c HK Hwf H17 Hp. destruct (auto3_session K HK c Hwf H17 Hp) as (x & E & H). exists x.
  split; [exact E|]. split; [exact state2_new_ok|exact H].
Qed.
Print Assumptions C37_type3_session_partial.

(** C07: types 1, 2 and 3 report the same doc ids and strings for every sequence of requests. *)
Theorem C07_types_agree_partial : forall K c,
  containers_ok K -> wf_collection c -> sizes_ok2 c -> some_doc_positive c -> some_term_not_in_doc0 c ->
  exists x1 x2 x3, ac1_build K (files_of c) = Ok x1 /\ ac2_build K (files_of c) = Ok x2 /\ ac3_build K (files_of c) = Ok x3 /\
  forall fuel rs, query_fuel c < fuel -> Forall (request_ok2 c) rs ->
  exists outs s1 s2 s3,
    session (ac1_request K x1 fuel) (fun s => pool_results (s1_pool s)) rs state1_new = Ok (outs, s1) /\
    session (ac2_request K x2 fuel) (fun s => pool_results (s2_pool s)) rs state2_new = Ok (outs, s2) /\
    session (ac3_request K x3 fuel) (fun s => pool_results (s2_pool s)) rs state2_new = Ok (outs, s3).
Proof. exact (fun K c HK => types_agree K HK c). Qed.
Print Assumptions C07_types_agree_partial.

(** C08: for any list of up to 15 doc ids written to the scores, the reported strings are the texts of their
    completions, whatever the buffers hold (if they fit the pool, F13). *)
Theorem C08_type1_strings_partial : forall K c,
  containers_ok K -> wf_collection c -> sizes_ok c -> some_doc_positive c -> some_term_not_in_doc0 c ->
  exists x, ac1_build K (files_of c) = Ok x /\
    forall ds idss scores data,
    Forall2 (is_doc c) ds idss -> length scores = MAX_K -> firstn (length ds) scores = ds -> length data = POOL_SIZE ->
    fits_pool (combine ds (map (text c) idss)) ->
    exists p, ac1_extract K x (length ds) {| p_scores := scores; p_offsets := [0]; p_data := data |} = Ok p /\
      pool_results p = Ok (combine ds (map (text c) idss)).
Proof. exact ac1_strings. Qed.
Print Assumptions C08_type1_strings_partial.

Theorem C08_type23_strings_partial : forall K c,
  containers_ok K -> wf_collection c -> sizes_ok2 c -> some_doc_positive c ->
  exists x, core_build K (files_of c) = Ok x /\
    forall ds idss scores s,
    Forall2 (is_doc c) ds idss -> length scores = MAX_K -> firstn (length ds) scores = ds -> state2_ok s ->
    p_offsets (s2_pool s) = [0] -> fits_pool (combine ds (map (text c) idss)) ->
    exists s', finish x (length ds) scores s = Ok s' /\
      pool_results (s2_pool s') = Ok (combine ds (map (text c) idss)).
Proof. exact core_strings. Qed.
Print Assumptions C08_type23_strings_partial.

(** C34: in an index of type 2 or 3 the list of doc ids and the map from doc ids to positions are inverse to each
    other on the indexed completions. *)
Theorem C34_index_partial : forall K c,
  containers_ok K -> wf_collection c -> sizes_ok2 c -> some_doc_positive c ->
  exists x, core_build K (files_of c) = Ok x /\ ul_size (co_docs x) = length (comps c) /\
    forall i, i < length (comps c) ->
    exists d, nth_error (docs c) i = Some d /\ ul_acc (co_docs x) i = Ok d /\ co_lexid x d = Ok (N.of_nat i).
Proof. exact core_bijection. Qed.
Print Assumptions C34_index_partial.

(** ** Refutations *)
Definition run2 (c : collection) (rs : list request) : res (list (list (nat * list N))) :=
  do x <- ac2_build list_containers (files_of c);
  do (outs, s) <- session (ac2_request list_containers x (query_fuel c + 1)) (fun s => pool_results (s2_pool s)) rs state2_new;
  Ok outs.
Definition run3 (c : collection) (rs : list request) : res (list (list (nat * list N))) :=
  do x <- ac3_build list_containers (files_of c);
  do (outs, s) <- session (ac3_request list_containers x (query_fuel c + 1)) (fun s => pool_results (s2_pool s)) rs state2_new;
  Ok outs.

(** F2 seen by the user (C06, C07): the completions "a b" and "b"; the query "a" finds nothing with types 2 and 3, but
    finds "a b" with type 1. *)
Definition coll_f2 : collection :=
  {| terms := [[97]; [98]]%N; comps := [[1; 2]; [2]]%N; docs := [1; 0]; universe := 2 |}.
Theorem C06_first_completion_refuted :
  wf_collection coll_f2 /\ sizes_ok2 coll_f2 /\ some_doc_positive coll_f2 /\ some_term_not_in_doc0 coll_f2 /\
  first_term_ok coll_f2 [97]%N /\ query_split [97]%N [] [97]%N /\
  run1 coll_f2 [{| rq_conj := false; rq_k := 1; rq_text := [97]%N |}] = Ok [[(1, [97; 32; 98]%N)]] /\
  run2 coll_f2 [{| rq_conj := false; rq_k := 1; rq_text := [97]%N |}] = Ok [[]] /\
  run3 coll_f2 [{| rq_conj := false; rq_k := 1; rq_text := [97]%N |}] = Ok [[]] /\
  ~ topk_answer coll_f2 (prefix_match [] [97]%N) 1 [].
Proof.
  split; [apply wf_collectionb_ok; reflexivity|]. split; [split; discriminate|]. split; [exists 1; cbn; auto|].
  split; [exists 1; split; [cbn; lia|]; intros H; vm_compute in H; destruct H as [H|[]]; discriminate|].
  split; [intros _ _; reflexivity|].
  split; [exists []; split; [reflexivity|]; split; [repeat constructor; discriminate|constructor]|].
  split; [vm_compute; reflexivity|]. split; [vm_compute; reflexivity|]. split; [vm_compute; reflexivity|].
  assert (Hd : is_doc coll_f2 1 [1; 2]%N) by (exists 0; split; reflexivity).
  intros (_ & _ & _ & H). destruct (H 1 [1; 2]%N Hd) as [[]|[H2 _]]; [|discriminate].
  exists [97]%N, [[98]%N]. split; [reflexivity|]. exists []. reflexivity.
Qed.
Print Assumptions C06_first_completion_refuted.

(** So the types do not agree (C07). *)
Theorem C07_types_agree_refuted :
  wf_collection coll_f2 /\ sizes_ok2 coll_f2 /\ some_doc_positive coll_f2 /\ some_term_not_in_doc0 coll_f2 /\
  exists q outs1 outs2, run1 coll_f2 [q] = Ok outs1 /\ run2 coll_f2 [q] = Ok outs2 /\ outs1 <> outs2.
Proof.
  destruct C06_first_completion_refuted as (A & B & C & D & _ & _ & E & F & _).
  split; [exact A|]. split; [exact B|]. split; [exact C|]. split; [exact D|].
  do 3 eexists. split; [exact E|]. split; [exact F|]. discriminate.
Qed.
Print Assumptions C07_types_agree_refuted.

(** ** Non-vacuity *)
Example C03_C04_C06_nonvacuous :
  containers_ok list_containers /\ wf_collection coll_ex /\ sizes_ok2 coll_ex /\ some_doc_positive coll_ex /\ some_term_not_in_doc0 coll_ex /\
  first_term_ok coll_ex [98%N] /\ first_completion_ok coll_ex [] [98%N] /\ state2_ok state2_new /\
  let rs := [
    {| rq_conj := false; rq_k := 2; rq_text := [98]%N |};
    {| rq_conj := true; rq_k := 10; rq_text := [98; 32; 97; 32; 98]%N |};
    {| rq_conj := true; rq_k := 3; rq_text := [98]%N |}] in
  let outs := Ok [[(1, [98; 32; 100; 101]%N); (2, [98; 99; 32; 97; 32; 100; 101]%N)];
      [(3, [97; 32; 98]%N)];
      [(0, [97; 32; 98; 99]%N); (1, [98; 32; 100; 101]%N); (2, [98; 99; 32; 97; 32; 100; 101]%N)]] in
  run2 coll_ex rs = outs /\ run3 coll_ex rs = outs.
Proof.
  destruct C01_C02_nonvacuous as (A & B & _ & D & E & F & _).
  split; [exact A|]. split; [exact B|]. split; [split; discriminate|]. split; [exact D|]. split; [exact E|]. split; [exact F|].
  split.
  { intros w rest Hw (t & Ht). cbn in Hw. injection Hw as <- <-. discriminate. }
  split; [exact state2_new_ok|]. split; vm_compute; reflexivity.
Qed.

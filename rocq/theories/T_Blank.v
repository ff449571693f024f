(** C73: a query without tokens (an empty search box, or only spaces) lists the best completions of the collection. The state [s] is arbitrary: any history. *)
From Coq Require Import String.
From Verif Require Import Base S_Order S_Vocab S_Parse M_Heap M_Containers S_Containers M_Auto M_Auto1 S_Collection S_Index S_Found S_Build M_Auto2 S_Index2 M_Blocked S_Blocked S_Blank.
From Verif Require Import P_Heap P_Collection P_Auto1 P_Auto23 P_Auto4 P_ListContainers P_Blank S_Json.
From Verif Require Import T_Auto1 T_Auto2 T_Auto4 T_Build.
Local Open Scope nat_scope.

(** Type 1: both searches, every size, every k. *)
Theorem C73_type1 : forall K c, containers_ok K -> wf_collection c -> some_doc_positive c -> some_term_not_in_doc0 c ->
  exists x, ac1_build K (files_of c) = Ok x /\
    forall fuel r s, query_fuel c < fuel -> blank r -> state1_ok s ->
    exists out, best c (rq_k r) out /\ served_with (fun s => pool_results (s1_pool s)) (reportable c) out (ac1_request K x fuel r s).
Proof. exact (fun K c HK Hwf => blank1 c Hwf K HK). Qed.
(** Types 2 and 3: conjunctive search; and prefix search up to the first completion (F2). *)
Theorem C73_type2_partial : forall K c, containers_ok K -> wf_collection c -> sizes_ok2 c -> some_doc_positive c -> some_term_not_in_doc0 c ->
  exists x, ac2_build K (files_of c) = Ok x /\
    forall fuel r s, query_fuel c < fuel -> blank r -> state2_ok s ->
    exists out, listed c r out /\ served_with (fun s => pool_results (s2_pool s)) (reportable2 c) out (ac2_request K x fuel r s).
Proof. exact (fun K c HK Hwf => blank2 c Hwf K HK). Qed.
Theorem C73_type3_partial : forall K c, containers_ok K -> wf_collection c -> sizes_ok2 c -> some_doc_positive c ->
  exists x, ac3_build K (files_of c) = Ok x /\
    forall fuel r s, query_fuel c < fuel -> blank r -> state2_ok s ->
    exists out, listed c r out /\ served_with (fun s => pool_results (s2_pool s)) (reportable2 c) out (ac3_request K x fuel r s).
Proof. exact (fun K c HK Hwf => blank3 c Hwf K HK). Qed.
(** Type 4: conjunctive search only if the index has a single block (F6, F7). *)
Theorem C73_type4_partial : forall (K : bcontainers) c m, bcontainers_ok K -> wf_collection c -> sizes_ok2 c -> few_postings c -> some_doc_positive c ->
  exists x, ac4_build K m (files_of c) = Ok x /\
    forall fuel r s, query_fuel c < fuel -> blank r -> state2_ok s ->
    (rq_conj r = true -> 1 <= rq_k r /\ forall t1 t2, 1 <= t1 <= t2 -> t2 <= length (terms c) -> same_block (bi_bounds K (a4_inverted x)) t1 t2) ->
    exists out, listed c r out /\ served_with (fun s => pool_results (s2_pool s)) (reportable2 c) out (ac4_request K x fuel r s).
Proof. exact (fun K c m HK Hwf => blank4 c Hwf K m HK). Qed.
Definition all_blank := (C73_type1, C73_type2_partial, C73_type3_partial, C73_type4_partial).
Print Assumptions all_blank.

(** A collection whose first completion is its first term: all types list the same. *)
Definition coll_b : collection := {| terms := map bytes ["a"; "b"; "bc"]%string; comps := [[1]; [1; 2]; [2]; [3]]%N; docs := [3; 1; 0; 2]; universe := 4 |}.
Example C73_nonvacuous :
  let ask b k q := {| rq_conj := b; rq_k := k; rq_text := bytes q |} in
  let rs := [ask false 3 ""; ask false 0 "  "; ask true 3 " "]%string in
  good coll_b /\ some_term_not_in_doc0 coll_b /\ Forall blank rs /\
  let top := [(0, bytes "b"); (1, bytes "a b"); (2, bytes "bc")] in
  let outs := Ok [top; top ++ [(3, bytes "a")]; top] in
  run1 coll_b rs = outs /\ run2 coll_b rs = outs /\ run3 coll_b rs = outs /\ run4 100 coll_b rs = outs.
Proof.
  cbv zeta. split; [split; [apply wf_collectionb_ok; reflexivity|]; split; [split; discriminate|]; split; [reflexivity|]; exists 1; cbn; auto|].
  split; [exists 1; split; [cbn; lia|]; intros H; vm_compute in H; repeat (destruct H as [H|H]; try discriminate H); exact H|].
  split; [repeat constructor|]. repeat (split; [vm_compute; reflexivity|]). vm_compute. reflexivity.
Qed.

(** F2: the first completion "a b" of [coll_ex] is not listed by prefix search with types 2, 3 and 4. *)
Theorem C73_first_refuted :
  let r := {| rq_conj := false; rq_k := 10; rq_text := [] |} in
  let out := [(0, bytes "a bc"); (1, bytes "b de"); (2, bytes "bc a de"); (5, bytes "de"); (7, bytes "b")] in
  good coll_ex /\ blank r /\ is_doc coll_ex 3 [1; 2]%N /\
  run2 coll_ex [r] = Ok [out] /\ run3 coll_ex [r] = Ok [out] /\ run4 100 coll_ex [r] = Ok [out].
Proof.
  cbv zeta. split; [exact coll_ex_good|]. split; [constructor|]. split; [exists 0; split; reflexivity|].
  repeat (split; [vm_compute; reflexivity|]). vm_compute. reflexivity.
Qed.
(** F6, F7: conjunctive search with type 4 and more than one block lists completions twice and does not list "de". *)
Theorem C73_type4_refuted :
  let r := {| rq_conj := true; rq_k := 10; rq_text := [] |} in
  good coll_ex /\ blank r /\ is_doc coll_ex 5 [4]%N /\
  run4 1 coll_ex [r] = Ok [[(0, bytes "a bc"); (0, bytes "a bc"); (1, bytes "b de"); (2, bytes "bc a de"); (2, bytes "bc a de"); (3, bytes "a b"); (3, bytes "a b"); (7, bytes "b")]].
Proof.
  cbv zeta. split; [exact coll_ex_good|]. split; [constructor|]. split; [exists 5; split; reflexivity|]. vm_compute. reflexivity.
Qed.
Definition all_unlisted := (C73_first_refuted, C73_type4_refuted).
Print Assumptions all_unlisted.

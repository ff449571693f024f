(** C66: prefix search returns the completions whose text starts with the query. Spaces at the front of the query and repeated spaces do not count. *)
From Coq Require Import String.
From Verif Require Import Base S_Order S_Vocab S_Parse M_Heap M_Containers S_Containers M_Auto M_Auto1 S_Collection S_Index S_Found S_Build M_Auto2 S_Index2 M_Blocked S_Blocked S_Meta S_Starts.
From Verif Require Import P_ParseFc P_Heap P_Collection P_Auto1 P_Auto23 P_Auto4 P_ListContainers P_Meta P_Again P_Starts S_Json.
From Verif Require Import T_Auto1 T_Auto2 T_Auto4 T_Build.
Local Open Scope nat_scope.

(** Every suggestion starts with the query: for every query, every k, whatever was asked before and whatever the sizes (F1, F2 and F23 lose completions but add none). *)
Theorem C66_type1_starts : forall K c, containers_ok K -> wf_collection c -> some_doc_positive c -> some_term_not_in_doc0 c ->
  exists x, ac1_build K (files_of c) = Ok x /\
    forall fuel k q s s' out d t, query_fuel c < fuel -> state1_ok s ->
    ac1_prefix_topk K x fuel k q s = Ok s' -> pool_results (s1_pool s') = Ok out -> In (d, t) out -> is_prefix (squeeze q) t.
Proof.
  intros K c HK Hwf Hp H0. destruct (ask1 K HK c Hwf Hp H0) as (x & E & H). exists x. split; [exact E|].
  intros fuel k q s s' out d t Hf Hs E1 E2 Hin. destruct (query_split_exists_unique q) as (ts & last & Hq & _).
  destruct (H fuel {| rq_conj := false; rq_k := k; rq_text := q |} ts last s Hf Hq Hs) as (o & A & G). rewrite (gives_results res1 _ _ _ _ _ G E1 E2) in Hin.
  exact (results_start c _ q ts last _ o d t Hq (by_match c ts last) A Hin).
Qed.
Theorem C66_type2_starts : forall K c, containers_ok K -> wf_collection c -> some_kept_doc_positive c -> some_term_not_in_doc0 c ->
  exists x, ac2_build K (files_of c) = Ok x /\
    forall fuel k q s s' out d t, query_fuel c < fuel -> state2_ok s ->
    ac2_prefix_topk K x fuel k q s = Ok s' -> pool_results (s2_pool s') = Ok out -> In (d, t) out -> is_prefix (squeeze q) t.
Proof.
  intros K c HK Hwf Hp H0. destruct (ask2 K HK c Hwf Hp H0) as (x & E & H). exists x. split; [exact E|].
  intros fuel k q s s' out d t Hf Hs E1 E2 Hin. destruct (query_split_exists_unique q) as (ts & last & Hq & _).
  destruct (H fuel {| rq_conj := false; rq_k := k; rq_text := q |} ts last s Hf Hq Hs) as (o & A & G). rewrite (gives_results res2 _ _ _ _ _ G E1 E2) in Hin.
  exact (results_start c _ q ts last _ o d t Hq (found_match c ts last) A Hin).
Qed.
Theorem C66_type3_starts : forall K c, containers_ok K -> wf_collection c -> some_kept_doc_positive c ->
  exists x, ac3_build K (files_of c) = Ok x /\
    forall fuel k q s s' out d t, query_fuel c < fuel -> state2_ok s ->
    ac3_prefix_topk K x fuel k q s = Ok s' -> pool_results (s2_pool s') = Ok out -> In (d, t) out -> is_prefix (squeeze q) t.
Proof.
  intros K c HK Hwf Hp. destruct (ask3 K HK c Hwf Hp) as (x & E & H). exists x. split; [exact E|].
  intros fuel k q s s' out d t Hf Hs E1 E2 Hin. destruct (query_split_exists_unique q) as (ts & last & Hq & _).
  destruct (H fuel {| rq_conj := false; rq_k := k; rq_text := q |} ts last s Hf Hq Hs) as (o & A & G). rewrite (gives_results res2 _ _ _ _ _ G E1 E2) in Hin.
  exact (results_start c _ q ts last _ o d t Hq (found_match c ts last) A Hin).
Qed.
Theorem C66_type4_starts : forall (K : bcontainers) c m, bcontainers_ok K -> wf_collection c -> few_postings c -> some_kept_doc_positive c ->
  exists x, ac4_build K m (files_of c) = Ok x /\
    forall fuel k q s s' out d t, query_fuel c < fuel -> state2_ok s ->
    ac4_prefix_topk K x fuel k q s = Ok s' -> pool_results (s2_pool s') = Ok out -> In (d, t) out -> is_prefix (squeeze q) t.
Proof.
  intros K c m HK Hwf Hfew Hp. destruct (ask4 K HK c Hwf Hfew m Hp) as (x & E & H). exists x. split; [exact E|].
  intros fuel k q s s' out d t Hf Hs E1 E2 Hin. destruct (query_split_exists_unique q) as (ts & last & Hq & _).
  destruct (H fuel {| rq_conj := false; rq_k := k; rq_text := q |} ts last s Hf Hq Hs) as (o & A & G). rewrite (gives_results res2 _ _ _ _ _ G E1 E2) in Hin.
  exact (results_start c _ q ts last _ o d t Hq (found_match c ts last) A Hin).
Qed.

(** The answer is the k completions with the smallest doc ids among all those whose text starts with the query. Missing: queries affected by F1 and F2, sizes affected
    by F23, k = 0 or more than 15, results that do not fit into the buffer (F13). *)
Theorem C66_type1_partial : forall K c, containers_ok K -> wf_collection c -> no_spaces c -> sizes_ok c -> some_doc_positive c -> some_term_not_in_doc0 c ->
  exists x, ac1_build K (files_of c) = Ok x /\
    forall fuel k q ts last s, query_fuel c < fuel -> 1 <= k <= MAX_K -> query_split q ts last -> first_term_ok c last -> state1_ok s ->
    exists out, topk_answer c (starts_with (squeeze q)) k out /\
      (fits_pool out -> exists s', ac1_prefix_topk K x fuel k q s = Ok s' /\ pool_results (s1_pool s') = Ok out /\ state1_ok s').
Proof.
  intros K c HK Hwf Hsp H17 Hp H0. destruct (C01_prefix_topk_partial K c HK Hwf H17 Hp H0) as (x & E & H). exists x. split; [exact E|].
  intros fuel k q ts last s A1 A2 A3 A4 A5. destruct (H fuel k q ts last s A1 A2 A3 A4 A5) as (out & B & C). exists out. split; [exact (answer_starts c Hwf q ts last k out Hsp A3 B)|exact C].
Qed.
Theorem C66_type2_partial : forall K c, containers_ok K -> wf_collection c -> no_spaces c -> sizes_ok2 c -> some_doc_positive c -> some_term_not_in_doc0 c ->
  exists x, ac2_build K (files_of c) = Ok x /\
    forall fuel k q ts last s, query_fuel c < fuel -> 1 <= k <= MAX_K -> query_split q ts last -> first_term_ok c last -> first_completion_ok c ts last -> state2_ok s ->
    exists out, topk_answer c (starts_with (squeeze q)) k out /\
      (fits_pool out -> exists s', ac2_prefix_topk K x fuel k q s = Ok s' /\ pool_results (s2_pool s') = Ok out /\ state2_ok s').
Proof.
  intros K c HK Hwf Hsp H17 Hp H0. destruct (C06_type2_prefix_topk_partial K c HK Hwf H17 Hp H0) as (x & E & H). exists x. split; [exact E|].
  intros fuel k q ts last s A1 A2 A3 A4 A5 A6. destruct (H fuel k q ts last s A1 A2 A3 A4 A5 A6) as (out & B & C). exists out. split; [exact (answer_starts c Hwf q ts last k out Hsp A3 B)|exact C].
Qed.
Theorem C66_type3_partial : forall K c, containers_ok K -> wf_collection c -> no_spaces c -> sizes_ok2 c -> some_doc_positive c ->
  exists x, ac3_build K (files_of c) = Ok x /\
    forall fuel k q ts last s, query_fuel c < fuel -> 1 <= k <= MAX_K -> query_split q ts last -> first_term_ok c last -> first_completion_ok c ts last -> state2_ok s ->
    exists out, topk_answer c (starts_with (squeeze q)) k out /\
      (fits_pool out -> exists s', ac3_prefix_topk K x fuel k q s = Ok s' /\ pool_results (s2_pool s') = Ok out /\ state2_ok s').
Proof.
  intros K c HK Hwf Hsp H17 Hp. destruct (C06_type3_prefix_topk_partial K c HK Hwf H17 Hp) as (x & E & H). exists x. split; [exact E|].
  intros fuel k q ts last s A1 A2 A3 A4 A5 A6. destruct (H fuel k q ts last s A1 A2 A3 A4 A5 A6) as (out & B & C). exists out. split; [exact (answer_starts c Hwf q ts last k out Hsp A3 B)|exact C].
Qed.
Theorem C66_type4_partial : forall (K : bcontainers) c m, bcontainers_ok K -> wf_collection c -> no_spaces c -> sizes_ok2 c -> few_postings c -> some_doc_positive c ->
  exists x, ac4_build K m (files_of c) = Ok x /\
    forall fuel k q ts last s, query_fuel c < fuel -> 1 <= k <= MAX_K -> query_split q ts last -> first_term_ok c last -> first_completion_ok c ts last -> state2_ok s ->
    exists out, topk_answer c (starts_with (squeeze q)) k out /\
      (fits_pool out -> exists s', ac4_prefix_topk K x fuel k q s = Ok s' /\ pool_results (s2_pool s') = Ok out /\ state2_ok s').
Proof.
  intros K c m HK Hwf Hsp H17 Hfew Hp. destruct (C06_type4_prefix_topk_partial K c m HK Hwf H17 Hfew Hp) as (x & E & H). exists x. split; [exact E|].
  intros fuel k q ts last s A1 A2 A3 A4 A5 A6. destruct (H fuel k q ts last s A1 A2 A3 A4 A5 A6) as (out & B & C). exists out. split; [exact (answer_starts c Hwf q ts last k out Hsp A3 B)|exact C].
Qed.
Definition all_starts := (C66_type1_starts, C66_type2_starts, C66_type3_starts, C66_type4_starts, C66_type1_partial, C66_type2_partial, C66_type3_partial, C66_type4_partial).
Print Assumptions all_starts.

(** Terms a, b, bc, de: the query "  b" is "b", and "b  " is "b ", so the completion "b" itself is not found. *)
Example C66_nonvacuous :
  let ask q := {| rq_conj := false; rq_k := 10; rq_text := bytes q |} in
  good coll_ex /\ no_spaces coll_ex /\ map squeeze (map bytes ["  b"; "b  "; " a   bc"; "b"]%string) = map bytes ["b"; "b "; "a bc"; "b"]%string /\
  let rs := map ask ["  b"; "b  "; " a   bc"]%string in
  let outs := Ok [[(1, bytes "b de"); (2, bytes "bc a de"); (7, bytes "b")]; [(1, bytes "b de")]; [(0, bytes "a bc")]] in
  run1 coll_ex rs = outs /\ run2 coll_ex rs = outs /\ run3 coll_ex rs = outs /\ run4 100 coll_ex rs = outs.
Proof.
  cbv zeta. split; [exact coll_ex_good|]. split; [repeat constructor; discriminate|]. split; [reflexivity|]. repeat split; vm_compute; reflexivity.
Qed.

(** F1, for texts: the completion "ab" starts with "a" and is not found. *)
Theorem C66_first_term_refuted : good coll_f1 /\ no_spaces coll_f1 /\
  let rs := [{| rq_conj := false; rq_k := 10; rq_text := bytes "a" |}] in
  run1 coll_f1 rs = Ok [[]] /\ run2 coll_f1 rs = Ok [[]] /\ run3 coll_f1 rs = Ok [[]] /\ run4 100 coll_f1 rs = Ok [[]] /\
  ~ topk_answer coll_f1 (starts_with (squeeze (bytes "a"))) 10 [].
Proof.
  split; [split; [apply wf_collectionb_ok; reflexivity|]; split; [split; discriminate|]; split; [reflexivity|]; exists 1; cbn; auto|].
  split; [repeat constructor; discriminate|]. cbv zeta. split; [vm_compute; reflexivity|]. split; [vm_compute; reflexivity|]. split; [vm_compute; reflexivity|]. split; [vm_compute; reflexivity|].
  intros (_ & _ & _ & D). destruct (D 1 [1]%N) as [[]|[H _]]; [exists 0; split; reflexivity|eexists; reflexivity|discriminate].
Qed.

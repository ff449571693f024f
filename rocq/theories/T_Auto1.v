(** C01, C02, C08, C32, C37, C38: ef_autocomplete_type1. *)
From Verif Require Import Base S_Order P_Order S_Vocab S_Parse M_Containers S_Containers M_Auto M_Auto1 S_Collection S_Index.
From Verif Require Import P_Collection P_Auto1 P_ListContainers.

(** C01 (and, through [topk_answer], C08 for type 1): prefix search returns exactly the k best matching completions
    in order of doc id, each with its text. Excluded: F1 ([first_term_ok]), F11 ([some_doc_positive],
    [some_term_not_in_doc0]), F13 ([fits_pool]), F23 ([sizes_ok]), k = 0 and
    k > 15 (F10). [s] is any state left by earlier queries. *)
Theorem C01_prefix_topk_partial : forall K c,
  containers_ok K -> wf_collection c -> sizes_ok c -> some_doc_positive c -> some_term_not_in_doc0 c ->
  exists x, ac1_build K (files_of c) = Ok x /\
    forall fuel k q ts last s,
    query_fuel c < fuel -> 1 <= k <= MAX_K -> query_split q ts last -> first_term_ok c last -> state1_ok s ->
    exists out, topk_answer c (prefix_match ts last) k out /\
      (fits_pool out ->
       exists s', ac1_prefix_topk K x fuel k q s = Ok s' /\ pool_results (s1_pool s') = Ok out /\ state1_ok s').
Proof.
  intros K c HK Hwf H17 Hp H0. destruct (auto1_spec K HK c Hwf Hp H0 H17) as (x & E & H). exists x. split; [exact E|].
  intros fuel k q ts last s A1 A2 A4 A5 A6. exact (proj1 (H fuel k q ts last s A1 A2 A4 A5 A6)).
Qed.
Print Assumptions C01_prefix_topk_partial.

(** C02: conjunctive search. *)
Theorem C02_conjunctive_topk_partial : forall K c,
  containers_ok K -> wf_collection c -> sizes_ok c -> some_doc_positive c -> some_term_not_in_doc0 c ->
  exists x, ac1_build K (files_of c) = Ok x /\
    forall fuel k q ts last s,
    query_fuel c < fuel -> 1 <= k <= MAX_K -> query_split q ts last -> first_term_ok c last -> state1_ok s ->
    exists out, topk_answer c (conj_match c ts last) k out /\
      (fits_pool out ->
       exists s', ac1_conjunctive_topk K x fuel k q s = Ok s' /\ pool_results (s1_pool s') = Ok out /\ state1_ok s').
Proof.
  intros K c HK Hwf H17 Hp H0. destruct (auto1_spec K HK c Hwf Hp H0 H17) as (x & E & H). exists x. split; [exact E|].
  intros fuel k q ts last s A1 A2 A4 A5 A6. exact (proj2 (H fuel k q ts last s A1 A2 A4 A5 A6)).
Qed.
Print Assumptions C02_conjunctive_topk_partial.

(** Answers are determined by the collection, the kind of match and k. *)
Theorem C01_C02_answer_unique : forall c P k out1 out2,
  wf_collection c -> topk_answer c P k out1 -> topk_answer c P k out2 -> out1 = out2.
Proof. exact (fun c P k out1 out2 Hwf => answer_unique c Hwf P k out1 out2). Qed.
Print Assumptions C01_C02_answer_unique.

(** C37 for type 1: whatever requests were served before, every request gets its own answer. *)
Theorem C37_type1_session_partial : forall K c,
  containers_ok K -> wf_collection c -> sizes_ok c -> some_doc_positive c -> some_term_not_in_doc0 c ->
  exists x, ac1_build K (files_of c) = Ok x /\ state1_ok state1_new /\
    forall fuel rs s, query_fuel c < fuel -> state1_ok s -> Forall (request_ok c) rs ->
    exists outs s', session (ac1_request K x fuel) (fun s => pool_results (s1_pool s)) rs s = Ok (outs, s') /\
      Forall2 (answer_to c) rs outs /\ state1_ok s'.
Proof.
  intros K c HK Hwf H17 Hp H0. destruct (auto1_session K HK c Hwf Hp H0 H17) as (x & E & H). exists x.
  split; [exact E|]. split; [exact state1_new_ok|exact H].
Qed.
Print Assumptions C37_type1_session_partial.

Theorem C37_answer_unique : forall c r out1 out2,
  wf_collection c -> answer_to c r out1 -> answer_to c r out2 -> out1 = out2.
Proof. exact answer_to_unique. Qed.
Print Assumptions C37_answer_unique.

(** C32: in a conjunctive search the order and multiplicity of the complete tokens do not matter. *)
Theorem C32_conjunctive_tokens : forall c ts1 ts2 last k out,
  (forall t, In t ts1 <-> In t ts2) ->
  topk_answer c (conj_match c ts1 last) k out -> topk_answer c (conj_match c ts2 last) k out.
Proof.
  intros c ts1 ts2 last k out H (A & B & C & D).
  assert (E : forall ws, conj_match c ts1 last ws <-> conj_match c ts2 last ws).
  { intros ws. unfold conj_match. split; intros [X Y]; (split; [|exact Y]); intros t Ht; apply X; now apply H. }
  split; [exact A|]. split; [exact B|]. split.
  - intros d s Hin. destruct (C d s Hin) as (ids & X & Y & Z). exists ids. split; [exact X|]. split; [now apply E|exact Z].
  - intros d ids Hd HP. apply (D d ids Hd). now apply E.
Qed.
Print Assumptions C32_conjunctive_tokens.

(** ** The statements are false in the excluded cases *)
Definition run1 (c : collection) (rs : list request) : res (list (list (nat * list N))) :=
  do x <- ac1_build list_containers (files_of c);
  do (outs, s) <- session (ac1_request list_containers x (query_fuel c + 1)) (fun s => pool_results (s1_pool s)) rs state1_new;
  Ok outs.

(** F1 seen by the user: the completions "ab" and "b"; the query "a" finds nothing. *)
Definition coll_f1 : collection :=
  {| terms := [[97; 98]; [98]]%N; comps := [[1]; [2]]%N; docs := [1; 0]; universe := 2 |}.
Theorem C01_first_term_refuted :
  wf_collection coll_f1 /\ sizes_ok coll_f1 /\ some_doc_positive coll_f1 /\ some_term_not_in_doc0 coll_f1 /\
  containers_ok list_containers /\
  run1 coll_f1 [{| rq_conj := false; rq_k := 1; rq_text := [97]%N |}; {| rq_conj := true; rq_k := 1; rq_text := [97]%N |}] = Ok [[]; []] /\
  query_split [97]%N [] [97]%N /\
  ~ topk_answer coll_f1 (prefix_match [] [97]%N) 1 [] /\ ~ topk_answer coll_f1 (conj_match coll_f1 [] [97]%N) 1 [].
Proof.
  split; [apply wf_collectionb_ok; reflexivity|]. split; [discriminate|]. split; [exists 1; cbn; auto|].
  split; [exists 1; split; [cbn; lia|]; intros [H|[]]; discriminate|].
  split; [exact list_containers_ok|]. split; [vm_compute; reflexivity|].
  split; [exists []; split; [reflexivity|]; split; [repeat constructor; discriminate|constructor]|].
  assert (Hd : is_doc coll_f1 1 [1%N]) by (exists 0; split; reflexivity).
  split; intros (_ & _ & _ & H).
  - destruct (H 1 [1%N] Hd) as [[]|[H2 _]]; [|discriminate]. exists [97; 98]%N, []. split; [reflexivity|]. exists [98%N]. reflexivity.
  - destruct (H 1 [1%N] Hd) as [[]|[H2 _]]; [|discriminate]. split; [intros t []|].
    exists [97; 98]%N. split; [now left|]. exists [98%N]. reflexivity.
Qed.
Print Assumptions C01_first_term_refuted.

(** F10 (C38): k = 0 returns results; k = 16 writes past the 15 scores. *)
Definition coll_16 : collection :=
  {| terms := map (fun i => [N.of_nat (i + 65)]) (seq 0 18); comps := map (fun i => [N.of_nat (i + 1)]) (seq 0 18);
     docs := seq 0 18; universe := 18 |}.
Theorem C38_k_refuted :
  wf_collection coll_16 /\ sizes_ok coll_16 /\ some_doc_positive coll_16 /\ some_term_not_in_doc0 coll_16 /\
  run1 coll_16 [{| rq_conj := false; rq_k := 16; rq_text := [] |}] = UB /\
  run1 coll_16 [{| rq_conj := true; rq_k := 16; rq_text := [] |}] = UB /\
  run1 coll_16 [{| rq_conj := false; rq_k := 0; rq_text := [] |}] = UB /\
  run1 coll_16 [{| rq_conj := false; rq_k := 0; rq_text := [66]%N |}] = Ok [[(1, [66%N])]].
Proof.
  split; [apply wf_collectionb_ok; vm_compute; reflexivity|]. split; [discriminate|]. split; [exists 1; cbn; auto|].
  split; [exists 2; split; [cbn; lia|]; intros H; vm_compute in H; destruct H as [H|[]]; discriminate|].
  repeat split; vm_compute; reflexivity.
Qed.
Print Assumptions C38_k_refuted.

(** F13 (C38): 15 completions of 63 terms of 2 characters each do not fit the result buffer. *)
Definition coll_long : collection :=
  {| terms := [97; 97]%N :: map (fun i => [98; N.of_nat (i + 65)]%N) (seq 0 15);
     comps := map (fun i => repeat 1%N 62 ++ [N.of_nat (i + 2)]) (seq 0 15); docs := seq 0 15; universe := 15 |}.
Theorem C38_pool_refuted :
  wf_collection coll_long /\ sizes_ok coll_long /\ some_doc_positive coll_long /\ some_term_not_in_doc0 coll_long /\
  first_term_ok coll_long [] /\
  run1 coll_long [{| rq_conj := false; rq_k := 15; rq_text := [] |}] = UB.
Proof.
  split; [apply wf_collectionb_ok; vm_compute; reflexivity|]. split; [discriminate|]. split; [exists 1; cbn; auto|].
  split; [exists 3; split; [cbn; lia|]; intros H; vm_compute in H; destruct H as [H|[]]; discriminate|].
  split; [intros H; congruence|]. vm_compute. reflexivity.
Qed.
Print Assumptions C38_pool_refuted.

(** F11 (C43): a collection whose only doc id is 0, and one in which every term occurs in document 0. *)
Definition coll_doc0 : collection := {| terms := [[97]]%N; comps := [[1]]%N; docs := [0]; universe := 1 |}.
Definition coll_all0 : collection := {| terms := [[97]; [98]]%N; comps := [[1]; [1; 2]]%N; docs := [1; 0]; universe := 2 |}.
Theorem C43_zero_doc_refuted :
  wf_collection coll_doc0 /\ sizes_ok coll_doc0 /\ ac1_build list_containers (files_of coll_doc0) = Exn /\
  wf_collection coll_all0 /\ sizes_ok coll_all0 /\ ac1_build list_containers (files_of coll_all0) = Exn.
Proof.
  split; [apply wf_collectionb_ok; reflexivity|]. split; [discriminate|]. split; [vm_compute; reflexivity|].
  split; [apply wf_collectionb_ok; reflexivity|]. split; [discriminate|]. vm_compute. reflexivity.
Qed.
Print Assumptions C43_zero_doc_refuted.

(** ** Non-vacuity *)
Definition coll_ex : collection := {|
  terms := [[97]; [98]; [98; 99]; [100; 101]]%N;
  comps := [[1; 2]; [1; 3]; [2]; [2; 4]; [3; 1; 4]; [4]]%N;
  docs := [3; 0; 7; 1; 2; 5];
  universe := 8 |}.
Example C01_C02_nonvacuous :
  containers_ok list_containers /\ wf_collection coll_ex /\ sizes_ok coll_ex /\ some_doc_positive coll_ex /\ some_term_not_in_doc0 coll_ex /\
  first_term_ok coll_ex [98%N] /\ state1_ok state1_new /\
  run1 coll_ex [
    {| rq_conj := false; rq_k := 2; rq_text := [98]%N |};
    {| rq_conj := true; rq_k := 10; rq_text := [98; 32; 97; 32; 98]%N |};
    {| rq_conj := true; rq_k := 3; rq_text := [98]%N |}] =
  Ok [[(1, [98; 32; 100; 101]%N); (2, [98; 99; 32; 97; 32; 100; 101]%N)];
      [(3, [97; 32; 98]%N)];
      [(0, [97; 32; 98; 99]%N); (1, [98; 32; 100; 101]%N); (2, [98; 99; 32; 97; 32; 100; 101]%N)]].
Proof.
  split; [exact list_containers_ok|]. split; [apply wf_collectionb_ok; reflexivity|]. split; [discriminate|].
  split; [exists 3; cbn; auto|].
  split; [exists 2; split; [cbn; lia|]; intros H; vm_compute in H; repeat (destruct H as [H|H]; try discriminate H); exact H|].
  split; [intros _ (t & Ht); discriminate|]. split; [exact state1_new_ok|]. vm_compute. reflexivity.
Qed.
